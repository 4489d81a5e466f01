(** * The report of Datalab's null check (cleanlab/datalab/internal/issue_manager/null.py:148-209) *)
From Coq Require Import String QArith List Bool Arith.
From Verif Require Import Base ModelDatalab ModelReport.
Import ListNotations.
Open Scope string_scope.
Open Scope list_scope.
Open Scope nat_scope.

(** A note "Found n examples ..." is appended if n is not 0. *)
Definition note (n : nat) : option nat := if Nat.eqb n 0 then None else Some n.
(** [null_score < 1.0]; a missing score is not below *)
Definition below_one (c : cell) : bool := match c with CNum q => Qltb q 1 | _ => false end.
(** null.py:177-208, the two notes, from the columns of the check: how many examples have missing values
    in all features, and how many in some only *)
Definition null_notes (cols : frame) : res (option nat * option nat) :=
  match lookup (flag_column "null") cols, lookup (score_column "null") cols with
  | Some fl, Some sc =>
      Ok (note (length (filter is_true_cell fl)),
          note (length (filter (fun p => below_one (snd p) && negb (is_true_cell (fst p))) (combine fl sc))))
  | _, _ => Raise KeyError
  end.
(** null.py:148-209 [report] called by report.py:130-140: the section of the base class and the notes *)
Definition null_section {A W} (argsort : list Q -> list nat) (fuel : nat) (t : task) (d : labels A)
  (levels_of : string -> option (list (list string))) (num_examples verbosity : nat) (st : data_issues (idict A W))
  : res (issue_section A W * (option nat * option nat)) :=
  do s <- check_report argsort fuel t d levels_of num_examples verbosity st "null" ;
  do tab <- get_issues_table t d "null" st ;
  do notes <- null_notes (fst tab) ;
  Ok (s, notes).
