(** * C140: Datalab's label check for multi-label data *)
From Coq Require Import QArith String List Bool Arith Lia Lqa Sorted.
From Verif Require Import Base BaseFacts ModelUtil ModelCount ModelRank ModelPool ModelFilter ModelBatched ModelMultilabel
     ModelLabels ModelMultiCheck SpecCount SpecFilter SpecMultilabel SpecMultiCheck ProofMultilabel ProofMultiCheck.
Import ListNotations.
Open Scope Q_scope.

(** with the default arguments: flags, scores and summary of an annotated data set *)
Theorem C140_default : forall srt cores sched js labels pp K, argsort_ok srt -> ml_dataset K labels pp -> (2 <= K)%nat ->
  (forall c, (c < K)%nat -> mixed labels c) ->
  exists r cs, multilabel_find_issues srt cores sched js labels pp K [("n_jobs"%string, VCount 1)] = Ok r /\
    length (o_flags r) = length labels /\ length (o_scores r) = length labels /\
    (forall e, flagged (o_flags r) e <-> exists c bl bp mc, (c < K)%nat /\ one_vs_rest labels pp c bl bp /\
       find_label_issues srt bl bp 2 PruneByNoiseRate
         {| frac_noise := 1; num_to_remove_per_class := None; min_examples_per_class := 1; confident_joint := None; n_jobs := 1;
            sched_c := fst (sched c); sched_n := snd (sched c) |} = Ok mc /\ flagged mc e) /\
    ml_label_quality_scores_per_class labels pp K SelfConfidence false = Ok cs /\
    (forall e, (e < length labels)%nat -> exponential_moving_average srt (Some (4 # 5)) (nth e cs []) = Ok (nth e (o_scores r) 0) /\
       0 <= nth e (o_scores r) 0 /\ nth e (o_scores r) 0 <= 1) /\
    is_average (o_scores r) (o_summary r) /\ 0 <= o_summary r /\ o_summary r <= 1.
Proof. exact default_full. Qed.
Print Assumptions C140_default.

(** the reported labels: the given ones unchanged, the predicted ones are the classes with probability above 1/2 *)
Theorem C140_reported : forall srt cores sched js labels pp K kw r, ml_dataset K labels pp ->
  multilabel_find_issues srt cores sched js labels pp K kw = Ok r ->
  o_given r = labels /\ length (o_predicted r) = length labels /\
  forall e, (e < length labels)%nat ->
    StronglySorted lt (nth e (o_predicted r) []) /\
    forall c, In c (nth e (o_predicted r) []) <-> (c < K)%nat /\ (1 # 2) < prob_of pp e c.
Proof. exact reported_full. Qed.
Print Assumptions C140_reported.

(** the predicted labels of a flagged example differ from the given ones, for all filters but the low_* ones *)
Theorem C140_flagged_differs : forall srt cores sched js labels pp K kw r e, ml_dataset K labels pp -> is_dict kw ->
  (passed kw "low_memory" = None \/ passed kw "low_memory" = Some (VBool false)) ->
  passed kw "filter_by" <> Some (VFilter LowNormalizedMargin) -> passed kw "filter_by" <> Some (VFilter LowSelfConfidence) ->
  multilabel_find_issues srt cores sched js labels pp K kw = Ok r -> flagged (o_flags r) e ->
  (e < length labels)%nat /\ exists c, (c < K)%nat /\ differ_at (nth e (o_given r) []) (nth e (o_predicted r) []) c.
Proof. exact disagree_full. Qed.
Print Assumptions C140_flagged_differs.

(** with filter_by="predicted_neq_given" the converse holds as well, away from the tolerance around 1/2 *)
Theorem C140_predicted_neq_given : forall srt cores sched js labels pp K, argsort_ok srt -> ml_dataset K labels pp -> (2 <= K)%nat ->
  (forall c, (c < K)%nat -> mixed labels c) -> (1 <= cores)%nat ->
  exists r, multilabel_find_issues srt cores sched js labels pp K [("filter_by"%string, VFilter PredictedNeqGiven)] = Ok r /\
    forall e, (e < length labels)%nat -> (forall c, (c < K)%nat -> (1 # 2000000) < prob_of pp e c - (1 # 2) \/ prob_of pp e c - (1 # 2) < - (1 # 2000000)) ->
      (flagged (o_flags r) e <-> exists c, (c < K)%nat /\ differ_at (nth e (o_given r) []) (nth e (o_predicted r) []) c).
Proof. exact neq_full. Qed.
Print Assumptions C140_predicted_neq_given.

(** only the documented names matter; a value [None] is the same as no value; everything else is ignored silently *)
Theorem C140_keywords : forall srt cores sched js labels pp K kw kw', is_dict kw -> is_dict kw' ->
  (forall k, In k known_names -> passed kw k = passed kw' k) ->
  multilabel_find_issues srt cores sched js labels pp K kw = multilabel_find_issues srt cores sched js labels pp K kw'.
Proof. exact keywords_full. Qed.
Print Assumptions C140_keywords.

(** a class that is on every example makes the check raise, whatever the arguments *)
Theorem C140_universal_class_raises : forall srt cores sched js labels pp K kw c, labels <> [] -> (c < K)%nat -> is_dict kw ->
  (passed kw "low_memory" = None \/ passed kw "low_memory" = Some (VBool false)) ->
  (forall e, (e < length labels)%nat -> has_class labels e c) ->
  forall r, multilabel_find_issues srt cores sched js labels pp K kw <> Ok r.
Proof. exact universal_full. Qed.
Print Assumptions C140_universal_class_raises.

(** Example 0 agrees with the model in every class, narrowly; example 1 has one wrong class. *)
Definition labels140 : list (list nat) := [[0]; [2; 1]; [0]; [1; 2]]%nat.
Definition pp140 : list (list Q) := [[51 # 100; 49 # 100; 49 # 100]; [3 # 5; 1; 1]; [11 # 20; 1 # 10; 1 # 10]; [0; 1; 1]].
Definition run140 (kw : kwargs) := multilabel_find_issues argsort_ins 1 (fun _ => ([], [])) (fun _ _ => Serial) labels140 pp140 3 kw.

Example C140_example_dataset : ml_dataset 3 labels140 pp140 /\ forall c, (c < 3)%nat -> mixed labels140 c.
Proof.
  split.
  - split; [reflexivity|discriminate| | |].
    + unfold labels140. intros l k Hl Hk. cbn [In] in Hl. destruct Hl as [<-|[<-|[<-|[<-|[]]]]]; cbn [In] in Hk; lia.
    + unfold pp140. intros r Hr. cbn [In] in Hr. destruct Hr as [<-|[<-|[<-|[<-|[]]]]]; reflexivity.
    + unfold pp140. intros r x Hr Hx. cbn [In] in Hr. destruct Hr as [<-|[<-|[<-|[<-|[]]]]]; cbn [In] in Hx;
        destruct Hx as [<-|[<-|[<-|[]]]]; lra.
  - intros c Hc. unfold mixed, has_class. assert (H : c = 0%nat \/ c = 1%nat \/ c = 2%nat) by lia.
    destruct H as [-> | [-> | ->]].
    + split; [exists 0%nat|exists 1%nat]; cbn; split; lia.
    + split; [exists 1%nat|exists 0%nat]; cbn; split; lia.
    + split; [exists 1%nat|exists 0%nat]; cbn; split; lia.
Qed.
Example C140_example_run : exists r, run140 [("n_jobs"%string, VCount 1); ("typo"%string, VOther); ("frac_noise"%string, VNone)] = Ok r /\
  o_flags r = [false; true; false; false] /\ o_given r = [[0]; [2; 1]; [0]; [1; 2]]%nat /\ o_predicted r = [[0]; [0; 1; 2]; [0]; [1; 2]]%nat /\
  Qeq_bool (o_summary r) (53 # 80) = true.
Proof. vm_compute. eexists. repeat split. Qed.

(** With filter_by="low_self_confidence" the check flags example 0, whose given and predicted labels are the same, and
    does not flag example 1, the only one where they differ. *)
Theorem C140_low_refuted : exists labels pp K kw r, ml_dataset K labels pp /\ (2 <= K)%nat /\ (forall c, (c < K)%nat -> mixed labels c) /\
  multilabel_find_issues argsort_ins 1 (fun _ => ([], [])) (fun _ _ => Serial) labels pp K kw = Ok r /\
  flagged (o_flags r) 0 /\ nth 0 (o_given r) [] = nth 0 (o_predicted r) [] /\
  ~ flagged (o_flags r) 1 /\ exists c, differ_at (nth 1 (o_given r) []) (nth 1 (o_predicted r) []) c.
Proof.
  exists labels140, pp140, 3%nat, [("filter_by"%string, VFilter LowSelfConfidence)].
  destruct (run140 [("filter_by"%string, VFilter LowSelfConfidence)]) as [r|] eqn:E; [|vm_compute in E; discriminate].
  exists r. split; [apply C140_example_dataset|]. split; [lia|]. split; [apply C140_example_dataset|]. split; [exact E|].
  vm_compute in E. injection E as <-. cbn. split; [reflexivity|]. split; [reflexivity|]. split; [discriminate|].
  exists 0%nat. right. cbn. split; [intros [H|[H|[]]]; discriminate|auto].
Qed.
Print Assumptions C140_low_refuted.
