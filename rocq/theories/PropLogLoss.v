(** * C99: ensemble scores weighted by log loss *)
From Coq Require Import QArith Reals Qreals List Bool Arith Lia Lra.
From Verif Require Import Base ModelUtil ModelRank ModelLogLoss SpecCount SpecFilter SpecRank SpecTemperature SpecLogLoss ProofLogLoss.
Import ListNotations.
Open Scope R_scope.

(** C99: when every class occurs in the labels, every example's score is the average of the members' scores with weights
    proportional to exp(-t * log loss), where t is a best one among the values searched.  The weights are positive, sum to one and favour
    members of smaller log loss; the score lies between the members' lowest and highest score. *)
Theorem C99_scores : forall eps labels pps K method adjust ts,
  pps <> [] -> (forall pp, In pp pps -> dataset K labels pp) -> all_classes K labels -> (2 <= K)%nat -> ts <> [] ->
  let loss i := model_loss eps labels (nth i pps []) in
  let w t := loss_weight t loss (length pps) in
  exists ens scores t, ensemble_scores_log_loss eps labels pps K method adjust ts = Ok ens /\
    Forall2 (fun pp s => get_label_quality_scores labels pp K method adjust = Ok s) pps scores /\
    In t ts /\ (forall t', In t' ts -> average_loss eps labels pps (w t) <= average_loss eps labels pps (w t')) /\
    (forall i, 0 < w t i) /\ total (map (w t) (seq 0 (length pps))) = 1 /\
    (0 < t -> forall i j, loss i < loss j -> w t j < w t i) /\
    length ens = length labels /\
    forall e, (e < length labels)%nat ->
      nth e ens 0 = total (map (fun i => w t i * Q2R (nth e (nth i scores []) 0%Q)) (seq 0 (length pps))) /\
      forall lo hi, (forall s, In s scores -> lo <= Q2R (nth e s 0%Q) <= hi) -> lo <= nth e ens 0 <= hi.
Proof. exact ensemble_full. Qed.
Print Assumptions C99_scores.

(** C99: a class without a label makes the call fail, although every other weighting handles it; nothing to search, too. *)
Theorem C99_missing_class : forall eps labels pps K method adjust ts,
  pps <> [] -> (forall pp, In pp pps -> dataset K labels pp) -> two_classes labels ->
  (exists k, (k < K)%nat /\ ~ In k labels) -> ts <> [] ->
  ensemble_scores_log_loss eps labels pps K method adjust ts = Raise ValueError.
Proof. exact missing_full. Qed.
Print Assumptions C99_missing_class.
Theorem C99_nothing_to_search : forall eps labels pps K method adjust,
  pps <> [] -> (forall pp, In pp pps -> dataset K labels pp) -> two_classes labels ->
  ensemble_scores_log_loss eps labels pps K method adjust [] = Raise AssertionError.
Proof. exact empty_full. Qed.
Print Assumptions C99_nothing_to_search.

Definition C99_pps : list (list (list Q)) :=
  [ [[9#10; 1#10]; [2#10; 8#10]; [6#10; 4#10]]; [[5#10; 5#10]; [8#10; 2#10]; [3#10; 7#10]] ]%Q.
Example C99_example : all_classes 2 [0; 1; 0]%nat /\ forall pp, In pp C99_pps -> dataset 2 [0; 1; 0]%nat pp.
Proof.
  split; [intros [|[|k]] H; simpl; auto; lia|].
  intros pp [<-|[<-|[]]]; constructor; try reflexivity; try discriminate.
  - intros l [<-|[<-|[<-|[]]]]; lia.
  - intros r [<-|[<-|[<-|[]]]]; reflexivity.
  - intros r x [<-|[<-|[<-|[]]]] [<-|[<-|[]]]; split; discriminate.
  - intros l [<-|[<-|[<-|[]]]]; lia.
  - intros r [<-|[<-|[<-|[]]]]; reflexivity.
  - intros r x [<-|[<-|[<-|[]]]] [<-|[<-|[]]]; split; discriminate.
Qed.
