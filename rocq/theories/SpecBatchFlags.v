(** * Specification vocabulary: what the batched search flags (independent of the model) *)
From Coq Require Import QArith List ZArith Bool Arith.
From Verif Require Import Base SpecCount SpecFilter.
Import ListNotations.
Open Scope Q_scope.

(** the confidence threshold of class [j]: the average probability of [j] over the examples labelled [j];
    2e-6 for a class nobody is labelled with *)
Definition class_threshold (labels : list nat) (pp : list (list Q)) (j : nat) (t : Q) : Prop :=
  (In j labels -> is_average (own_probs j labels pp) t) /\ (~ In j labels -> t == 2 # 1000000).

(** example [e] is confidently predicted to be of another class than its label *)
Definition confidently_other (labels : list nat) (pp : list (list Q)) (e : nat) : Prop :=
  exists j t, most_likely (row_of pp e) j /\ j <> label_of labels e /\
    class_threshold labels pp j t /\ t - (1 # 1000000) <= prob_of pp e j.

(** [idx] lists [n] positions (all, if there are fewer) such that no position left out has a smaller score *)
Definition n_lowest (scores : list Q) (n : nat) (idx : list nat) : Prop :=
  NoDup idx /\ length idx = Nat.min n (length scores) /\ (forall e, In e idx -> (e < length scores)%nat) /\
  forall e e', In e idx -> (e' < length scores)%nat -> ~ In e' idx -> nth e scores 0 <= nth e' scores 0.
