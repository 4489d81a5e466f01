(** * Systematic over- and underconfidence (property C167) *)
From Coq Require Import QArith List Bool Arith.
From Verif Require Import Base SpecCount SpecFilter.
Import ListNotations.
Open Scope Q_scope.

(** [pp'] are the predictions [pp] after the probabilities of each class [k] have been stretched by [a k] > 0 and
    shifted by [b k], the same for all examples *)
Definition rescaled (K : nat) (a b : nat -> Q) (pp pp' : list (list Q)) : Prop :=
  length pp' = length pp /\
  forall e k, (e < length pp)%nat -> (k < K)%nat -> 0 < a k /\ prob_of pp' e k == a k * prob_of pp e k + b k.

(** no probability of class [k] lies below its threshold by 1e-6 or less *)
Definition clear_threshold (thr : list Q) (pp : list (list Q)) (k : nat) : Prop :=
  forall e, (e < length pp)%nat -> nth k thr 0 <= prob_of pp e k \/ prob_of pp e k + (1 # 1000000) < nth k thr 0.

(** no example is confident for two classes *)
Definition one_confident (thr : list Q) (pp : list (list Q)) : Prop :=
  forall e j j', (e < length pp)%nat -> reaches thr (row_of pp e) j -> reaches thr (row_of pp e) j' -> j = j'.
