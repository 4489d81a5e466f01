(** * Data sets without common classes (property C176) *)
From Coq Require Import QArith List Bool Arith.
From Verif Require Import Base SpecCount SpecFilter.
Import ListNotations.
Open Scope Q_scope.

(** no class occurs among the labels of both, and the model gives the classes of the one less than one in a
    million on the examples of the other *)
Definition apart (L1 : list nat) (P1 : list (list Q)) (L2 : list nat) (P2 : list (list Q)) : Prop :=
  (forall k, In k L1 -> ~ In k L2) /\
  (forall e k, (e < length L1)%nat -> In k L2 -> prob_of P1 e k < 1 # 1000000) /\
  (forall e k, (e < length L2)%nat -> In k L1 -> prob_of P2 e k < 1 # 1000000).
