(** * Model of the caution about classes lost by consensus (multiannotator.py, internal/multiannotator_utils.py) *)
From Coq Require Import QArith List Bool Arith.
From Verif Require Import Base ModelUtil ModelCount ModelMultiannotator.
Import ListNotations.

(** cleanlab/internal/multiannotator_utils.py:235-252 [check_consensus_label_classes].  [None]: nothing is
    printed; [Some cs]: the caution is printed and lists the classes [cs] (in the order of a Python set; here in
    increasing order). *)
Definition check_consensus_label_classes (t : table) (consensus : list nat) : option (list nat) :=
  let unique_ma_labels := unique (all_given t) in
  match filter (fun c => negb (existsb (Nat.eqb c) consensus)) unique_ma_labels with
  | [] => None
  | cs => Some cs
  end.

(** cleanlab/multiannotator.py:897-1060 [get_majority_vote_label] with the caution of lines 1052-1058 *)
Definition majority_vote_output (rnd : nat -> nat) (t : table) (M : nat) (pp : option (list (list Q))) (Kpp : nat)
           (verbose : bool) : res (list nat * option (list nat)) :=
  do mv <- get_majority_vote_label rnd t M pp Kpp verbose ;
  Ok (mv, if verbose then check_consensus_label_classes t mv else None).

(** cleanlab/multiannotator.py:49-348 [get_label_quality_multiannotator] for one consensus method, with the
    caution of lines 263-269; the majority vote inside is called with verbose=False (line 195) *)
Definition label_quality_output (fsqrt : Q -> Q) (rnd : nat -> nat) (t : table) (M K : nat) (prior : list (list Q))
           (method : consensus_method) (verbose : bool) : res (consensus_info * option (list nat)) :=
  do info <- get_label_quality_multiannotator fsqrt rnd t M K prior method ;
  Ok (info, if verbose then check_consensus_label_classes t (c_label info) else None).
