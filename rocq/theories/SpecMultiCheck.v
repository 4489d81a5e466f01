(** * Specification vocabulary for Datalab's multi-label label check *)
From Coq Require Import QArith String List Bool Arith Sorted.
From Verif Require Import Base SpecCount SpecMultilabel ModelMultiCheck ModelFilter.
Import ListNotations.
Open Scope Q_scope.

(** the value a caller passes under the name [k]: [None] when there is none or when it is Python's [None] *)
Definition passed (kw : kwargs) (k : string) : option value :=
  match find (fun e => String.eqb (fst e) k) kw with
  | Some (_, VNone) => None
  | Some (_, v) => Some v
  | None => None
  end.
(** a dictionary has every key once *)
Definition is_dict (kw : kwargs) : Prop := NoDup (map fst kw).
(** the names the documentation of the two functions gives a meaning to *)
Definition known_names : list string :=
  ["filter_by"; "frac_noise"; "num_to_remove_per_class"; "min_examples_per_class"; "confident_joint"; "n_jobs"; "low_memory";
   "method"; "adjust_pred_probs"; "aggregator_kwargs"]%string.
(** class [c] is on exactly one of the two lists *)
Definition differ_at (given predicted : list nat) (c : nat) : Prop :=
  (In c given /\ ~ In c predicted) \/ (~ In c given /\ In c predicted).
(** [v] is the average of [l] *)
Definition is_average (l : list Q) (v : Q) : Prop := l <> [] /\ v * Qnat (length l) == fold_right Qplus 0 l.
