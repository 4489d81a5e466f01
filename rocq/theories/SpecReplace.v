(** * Replacing one example (property C170) *)
From Coq Require Import QArith Qabs List Bool Arith.
From Verif Require Import Base ModelCount SpecCount SpecFilter.
Import ListNotations.
Open Scope Q_scope.

(** the primed data set differs in the label and the prediction of the example [e0] only *)
Definition replaced (e0 : nat) (labels : list nat) (pp : list (list Q)) (labels' : list nat) (pp' : list (list Q)) : Prop :=
  (e0 < length labels)%nat /\ length labels' = length labels /\ length pp' = length pp /\
  forall e, e <> e0 -> label_of labels' e = label_of labels e /\ row_of pp' e = row_of pp e.

(** by how much the threshold of class [k] can move *)
Definition influence (labels labels' : list nat) (k : nat) : Q :=
  1 / Qnat (Nat.max (n_labelled k labels) (n_labelled k labels')).

(** another example whose probability for the old or the new class of [e0] is that close to the threshold *)
Definition near_threshold (K e0 : nat) (labels : list nat) (pp : list (list Q)) (labels' : list nat) (e : nat) : Prop :=
  e <> e0 /\ exists k, (k = label_of labels e0 \/ k = label_of labels' e0) /\
    Qabs (prob_of pp e k - (nth k (get_confident_thresholds labels pp K) 0 - (1 # 1000000))) <= influence labels labels' k.
