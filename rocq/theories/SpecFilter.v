(** * Specification vocabulary for the filtering / ranking properties (independent of the model) *)
From Coq Require Import QArith Qabs List ZArith Bool Arith.
From Verif Require Import Base SpecCount.
Import ListNotations.
Open Scope Q_scope.

(** labels of at least two different classes occur (what cleanlab's input validation demands) *)
Definition two_classes (labels : list nat) : Prop :=
  exists a b, In a labels /\ In b labels /\ a <> b.

(** example [e] is flagged by a boolean mask *)
Definition flagged (mask : list bool) (e : nat) : Prop := nth e mask false = true.

(** given label and probability row of example [e] *)
Definition label_of (labels : list nat) (e : nat) : nat := nth e labels 0%nat.
Definition row_of (pp : list (list Q)) (e : nat) : list Q := nth e pp [].
Definition prob_of (pp : list (list Q)) (e k : nat) : Q := nth k (nth e pp []) 0.

(** some class beats the given label by at least the tolerance 1e-6 *)
Definition beaten (labels : list nat) (pp : list (list Q)) (e : nat) : Prop :=
  exists j, (j < length (row_of pp e))%nat /\
    prob_of pp e (label_of labels e) + (1 # 1000000) <= prob_of pp e j.

(** the precise rule: a class of smaller index needs to be ahead by at least 1e-6, one of larger index by
    more than 1e-6 *)
Definition clearly_beaten (labels : list nat) (pp : list (list Q)) (e : nat) : Prop :=
  exists j, (j < length (row_of pp e))%nat /\
    (prob_of pp e (label_of labels e) + (1 # 1000000) < prob_of pp e j \/
     ((j < label_of labels e)%nat /\
      prob_of pp e (label_of labels e) + (1 # 1000000) == prob_of pp e j)).

(** number of examples of class [k] flagged by a mask *)
Fixpoint n_flagged (k : nat) (labels : list nat) (mask : list bool) : nat :=
  match labels, mask with
  | l :: ls, b :: bs => (if Nat.eqb l k then if b then 1 else 0 else 0) + n_flagged k ls bs
  | _, _ => 0
  end.

(** [idx] lists [c] of the examples of class [k] (all of them if there are fewer) with the largest value of
    [f], in the sense that no example of class [k] left out has a larger value. *)
Definition top_of_class (k : nat) (labels : list nat) (f : nat -> Q) (c : nat) (idx : list nat) : Prop :=
  NoDup idx /\ length idx = Nat.min c (n_labelled k labels) /\
  (forall e, In e idx -> (e < length labels)%nat /\ label_of labels e = k) /\
  (forall e e', In e idx -> (e' < length labels)%nat -> label_of labels e' = k -> ~ In e' idx ->
     f e' <= f e).
