(** * Vocabulary for reordering the examples of Datalab's checks (C144) *)
From Coq Require Import QArith List Arith.
From Verif Require Import Base ModelChecks SpecSymmetry.
Import ListNotations.
Open Scope Q_scope.

(** [rep'] is the report of the same examples read in the order [order] *)
Definition shuffled (order : list nat) (rep rep' : report) : Prop :=
  flags rep' = pick false order (flags rep) /\
  Forall2 Qeq (scores rep') (pick 0 order (scores rep)) /\
  summary rep' == summary rep.

(** the same neighbours after the example at position [order[i]] has moved to position [i]: each list
    follows its example, and its entries are the new positions of the neighbours *)
Definition renumbered (order : list nat) (nb nb' : list (list nat)) : Prop :=
  length nb' = length order /\
  forall i, (i < length order)%nat ->
    (forall j, In j (nth i nb' []) -> (j < length order)%nat) /\
    map (fun j => nth j order 0%nat) (nth i nb' []) = nth (nth i order 0%nat) nb [].
