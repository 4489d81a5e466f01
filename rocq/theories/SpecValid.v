(** * Which inputs are valid *)
From Coq Require Import QArith List ZArith Bool Arith.
From Verif Require Import Base SpecCount ModelValid.
Import ListNotations.
Open Scope Q_scope.

(** the label is the class [c] *)
Definition is_class (l : lab) (c : nat) : Prop := exists q, l = Num q /\ q == inject_Z (Z.of_nat c).
(** the labels are class numbers, [cs] in order *)
Definition class_labels (y : list lab) (cs : list nat) : Prop := y <> [] /\ Forall2 is_class y cs.
Definition two_of (cs : list nat) : Prop := exists a b, In a cs /\ In b cs /\ a <> b.
(** no class below the largest is missing *)
Definition no_gap (cs : list nat) : Prop := forall a b, In a cs -> (b < a)%nat -> In b cs.
(** all probabilities between 0 and 1, up to 1e-6 *)
Definition near_probabilities (rows : list (list Q)) : Prop :=
  forall r p, In r rows -> In p r -> - (1 # 1000000) <= p /\ p <= 1 + (1 # 1000000).
