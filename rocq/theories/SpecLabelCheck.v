(** * Vocabulary for label issues found from features *)
From Coq Require Import QArith List Bool Arith.
From Verif Require Import Base.
Import ListNotations.
Open Scope Q_scope.

(** [nb] are [m] different examples, none of the other examples being closer to [i] *)
Definition nearest (dist : nat -> nat -> Q) (n m i : nat) (nb : list nat) : Prop :=
  NoDup nb /\ length nb = m /\ (forall j, In j nb -> (j < n)%nat) /\
  (forall a b, In a nb -> (b < n)%nat -> ~ In b nb -> dist i a <= dist i b).
(** the search found [m] neighbours (possibly itself) of every example *)
Definition search_result (dist : nat -> nat -> Q) (n m : nat) (neighbors : list (list nat)) : Prop :=
  length neighbors = n /\ forall i, (i < n)%nat -> nearest dist n m i (nth i neighbors []).
(** how many of these examples, other than [i], have class [c] *)
Definition other_votes (labels : list nat) (nb : list nat) (i c : nat) : nat :=
  length (filter (fun j => negb (Nat.eqb j i) && Nat.eqb (nth j labels 0%nat) c)%bool nb).
(** every class 0..K-1 occurs and there are at least two *)
Definition numbered_classes (labels : list nat) (K : nat) : Prop :=
  (2 <= K)%nat /\ (forall c, (c < K)%nat <-> In c labels).
(** examples at distance zero *)
Definition copies (dist : nat -> nat -> Q) (n i : nat) : nat := length (filter (fun j => Qle_bool (dist i j) 0) (seq 0 n)).
