(** * Vocabulary for C158 (independent of the model) *)
From Coq Require Import QArith List Bool Arith.
From Verif Require Import Base SpecCount SpecFilter.
Import ListNotations.
Open Scope Q_scope.

(** class [j] is the predicted class of example [e]: the first of the most probable ones *)
Definition predicted_as (pp : list (list Q)) (e j : nat) : Prop := most_likely (row_of pp e) j.
(** the prediction for example [e] is not its given label *)
Definition disagrees (labels : list nat) (pp : list (list Q)) (e : nat) : Prop :=
  (e < length labels)%nat /\ ~ predicted_as pp e (label_of labels e).
(** every class is the given label of some example / the predicted class of some example / both at once *)
Definition all_given (K : nat) (labels : list nat) : Prop := forall k, (k < K)%nat -> In k labels.
Definition all_predicted (K : nat) (pp : list (list Q)) : Prop :=
  forall k, (k < K)%nat -> exists e, (e < length pp)%nat /\ predicted_as pp e k.
Definition agreement_everywhere (K : nat) (labels : list nat) (pp : list (list Q)) : Prop :=
  forall k, (k < K)%nat -> exists e, (e < length labels)%nat /\ label_of labels e = k /\ predicted_as pp e k.
Definition two_predicted (pp : list (list Q)) : Prop :=
  exists e e' a b, (e < length pp)%nat /\ (e' < length pp)%nat /\ predicted_as pp e a /\ predicted_as pp e' b /\ a <> b.
(** among the examples given the same label, those on which the prediction disagrees have the lower probability of it *)
Definition disagreement_less_sure (labels : list nat) (pp : list (list Q)) : Prop :=
  forall e e', disagrees labels pp e -> (e' < length labels)%nat -> ~ disagrees labels pp e' ->
    label_of labels e = label_of labels e' ->
    prob_of pp e (label_of labels e) < prob_of pp e' (label_of labels e').
(** among the examples given the same label [l], the lead of class [j] over [l] is larger on those predicted to be of
    class [j] than on the others *)
Definition leads_separate (labels : list nat) (pp : list (list Q)) : Prop :=
  forall e e' j, disagrees labels pp e -> predicted_as pp e j ->
    (e' < length labels)%nat -> label_of labels e' = label_of labels e -> ~ predicted_as pp e' j ->
    prob_of pp e' j - prob_of pp e' (label_of labels e') < prob_of pp e j - prob_of pp e (label_of labels e).
