(** * Multi-label classification: C34, C63-C66 *)
From Coq Require Import QArith List Permutation Sorted ZArith Bool Arith Lia Lqa.
From Verif Require Import Base BaseFacts ModelUtil ModelCount ModelRank ModelPool ModelFilter ModelBatched ModelMultilabel
     SpecCount SpecFilter SpecMultilabel ProofMultilabel.
Import ListNotations.
Open Scope Q_scope.

(** ** C34 *)
Theorem C34_ema_average : forall srt alpha row, argsort_ok srt -> row <> [] ->
  (forall a, alpha = Some a -> 0 <= a /\ a <= 1) ->
  exists v, exponential_moving_average srt alpha row = Ok v /\
    (forall lo hi, (forall s, In s row -> lo <= s /\ s <= hi) -> lo <= v /\ v <= hi) /\
    (forall a, alpha = Some a -> a == 0 -> In v row \/ exists w, In w row /\ v == w) /\
    (forall a, alpha = Some a -> a == 0 -> forall s, In s row -> s <= v) /\
    (forall a, alpha = Some a -> a == 1 -> forall s, In s row -> v <= s).
Proof. exact C34_accepts_full. Qed.
Print Assumptions C34_ema_average.

Theorem C34_ema_order_independent : forall srt srt' alpha row row' v v', argsort_ok srt -> argsort_ok srt' ->
  Permutation row row' ->
  exponential_moving_average srt alpha row = Ok v -> exponential_moving_average srt' alpha row' = Ok v' -> v == v'.
Proof. exact C34_order_full. Qed.
Print Assumptions C34_ema_order_independent.

Theorem C34_ema_monotone : forall srt srt' alpha row row' v v', argsort_ok srt -> argsort_ok srt' ->
  below row row' ->
  exponential_moving_average srt alpha row = Ok v -> exponential_moving_average srt' alpha row' = Ok v' -> v <= v'.
Proof. exact C34_monotone_full. Qed.
Print Assumptions C34_ema_monotone.

Theorem C34_ema_rejects : forall srt row a, ~ (0 <= a /\ a <= 1) ->
  exponential_moving_average srt (Some a) row = Raise ValueError.
Proof. exact C34_rejects_full. Qed.
Print Assumptions C34_ema_rejects.

Example C34_example :
  (exists v, exponential_moving_average argsort_ins (Some (4 # 5)) [9#10; 2#10; 5#10] = Ok v /\ v == 276 # 1000) /\
  (exists v, exponential_moving_average argsort_ins None [9#10; 2#10; 5#10] = Ok v /\ v == 9 # 20) /\
  exponential_moving_average argsort_ins (Some (3 # 2)) [9#10; 2#10] = Raise ValueError /\
  below [9#10; 2#10; 5#10] [9#10; 7#10; 5#10].
Proof.
  split; [eexists; split; vm_compute; reflexivity|]. split; [eexists; split; vm_compute; reflexivity|].
  split; [reflexivity|]. split; [reflexivity|]. intros [|[|[|i]]] Hi; simpl in *; try lra; lia.
Qed.

(** ** C63 *)
Theorem C63_mask : forall srt labels pp K flt o m, ml_dataset K labels pp ->
  flt <> LowNormalizedMargin -> flt <> LowSelfConfidence ->
  ml_find_label_issues srt labels pp K flt o None = Ok m ->
  length m = length labels /\
  (forall e, flagged m e <-> exists c bl bp mc, (c < K)%nat /\ one_vs_rest labels pp c bl bp /\
      find_label_issues srt bl bp 2 flt (class_options o c) = Ok mc /\ flagged mc e) /\
  (forall e, flagged m e -> (e < length labels)%nat /\ exists c, (c < K)%nat /\ clearly_disagrees labels pp e c).
Proof. exact C63_mask_full. Qed.
Print Assumptions C63_mask.

Theorem C63_predicted_neq_given : forall srt labels pp K o, argsort_ok srt -> ml_dataset K labels pp ->
  (forall c, (c < K)%nat -> mixed labels c) -> ml_num_to_remove o = None -> (1 <= ml_n_jobs o)%nat ->
  exists m, ml_find_label_issues srt labels pp K PredictedNeqGiven o None = Ok m /\ length m = length labels /\
    forall e, flagged m e <-> (e < length labels)%nat /\ exists c, (c < K)%nat /\ clearly_disagrees labels pp e c.
Proof. exact C63_pneq_full. Qed.
Print Assumptions C63_predicted_neq_given.

Theorem C63_confident_learning : forall srt labels pp K o, argsort_ok srt -> ml_dataset K labels pp ->
  (forall c, (c < K)%nat -> mixed labels c) -> ml_num_to_remove o = None -> (1 <= ml_n_jobs o)%nat ->
  exists m, ml_find_label_issues srt labels pp K ConfidentLearning o None = Ok m /\ length m = length labels /\
    forall e, flagged m e <-> (e < length labels)%nat /\ exists c bl bp j, (c < K)%nat /\ clearly_disagrees labels pp e c /\
      one_vs_rest labels pp c bl bp /\
      counted_as (get_confident_thresholds bl bp 2) (row_of bp e) j /\ j <> label_of bl e.
Proof. exact C63_cl_full. Qed.
Print Assumptions C63_confident_learning.

Theorem C63_ranked : forall srt labels pp K flt o rank_by adjust m, argsort_ok srt -> ml_dataset K labels pp -> (2 <= K)%nat ->
  (forall c, (c < K)%nat -> mixed labels c) -> flt <> LowNormalizedMargin -> flt <> LowSelfConfidence ->
  ml_find_label_issues srt labels pp K flt o None = Ok m ->
  exists idx scores, ml_find_label_issues_ranked srt labels pp K flt o rank_by adjust = Ok idx /\
    ml_label_quality_scores srt labels pp K rank_by adjust (Some (4 # 5)) = Ok scores /\
    NoDup idx /\ (forall e, In e idx <-> flagged m e) /\
    StronglySorted (fun a b => nth a scores 0 <= nth b scores 0) idx.
Proof. exact C63_ranked_full. Qed.
Print Assumptions C63_ranked.

Theorem C63_low_filters : forall srt labels pp K flt o, argsort_ok srt -> ml_dataset K labels pp -> (2 <= K)%nat ->
  (forall c, (c < K)%nat -> mixed labels c) -> (1 <= ml_n_jobs o)%nat ->
  (flt = LowNormalizedMargin \/ flt = LowSelfConfidence) ->
  exists m mcl scores, ml_find_label_issues srt labels pp K flt o None = Ok m /\
    ml_find_label_issues srt labels pp K ConfidentLearning
      {| ml_frac_noise := 1; ml_num_to_remove := None; ml_min_examples := 1; ml_confident_joint := ml_confident_joint o;
         ml_n_jobs := ml_n_jobs o; ml_sched := ml_sched o |} None = Ok mcl /\
    ml_label_quality_scores srt labels pp K SelfConfidence false (Some (4 # 5)) = Ok scores /\
    length m = length labels /\ count_true m = count_true mcl /\
    (forall e e', (e' < length labels)%nat -> flagged m e -> ~ flagged m e' -> nth e scores 0 <= nth e' scores 0).
Proof. exact C63_low_full. Qed.
Print Assumptions C63_low_filters.

(** Issue finding needs, for every class, an example without it: a class that is on every example makes it raise. *)
Theorem C63_universal_class_raises : forall srt labels pp K flt o c, labels <> [] -> (c < K)%nat ->
  (forall e, (e < length labels)%nat -> has_class labels e c) ->
  forall m, ml_find_label_issues srt labels pp K flt o None <> Ok m.
Proof. exact C63_universal_full. Qed.
Print Assumptions C63_universal_class_raises.

Definition ex63_labels : list (list nat) := [[0]; [0;1]; [1]; []; [0;1]; [1]]%nat.
Definition ex63_pp : list (list Q) :=
  [[9#10;1#10]; [2#10;8#10]; [3#10;9#10]; [85#100;2#10]; [9#10;9#10]; [1#10;2#10]].
Definition ex63_options (n : option (list Q)) (cj : option (list (list (list Q)))) : ml_options :=
  {| ml_frac_noise := 1; ml_num_to_remove := n; ml_min_examples := 1; ml_confident_joint := cj; ml_n_jobs := 1;
     ml_sched := fun _ => ([], []) |}.
Lemma ex63_dataset : ml_dataset 2 ex63_labels ex63_pp.
Proof.
  split; try reflexivity; try discriminate.
  - intros l k H H'. unfold ex63_labels in H. repeat (destruct H as [<-|H]; [simpl in H'; lia|]). destruct H.
  - intros r H. unfold ex63_pp in H. repeat (destruct H as [<-|H]; [reflexivity|]). destruct H.
  - intros r x H Hx. unfold ex63_pp in H.
    repeat (destruct H as [<-|H]; [simpl in Hx; repeat (destruct Hx as [<-|Hx]; [split; discriminate|]); destruct Hx|]).
    destruct H.
Qed.
Lemma ex63_mixed : forall c, (c < 2)%nat -> mixed ex63_labels c.
Proof.
  intros [|[|c]] Hc; [| |lia]; unfold mixed, has_class; simpl.
  - split; [exists 0%nat|exists 2%nat]; simpl; split; try lia; intuition discriminate.
  - split; [exists 1%nat|exists 0%nat]; simpl; split; try lia; intuition discriminate.
Qed.
Example C63_example :
  ml_find_label_issues argsort_ins ex63_labels ex63_pp 2 ConfidentLearning (ex63_options None None) None
    = Ok [false; true; false; true; false; false] /\
  ml_find_label_issues argsort_ins ex63_labels ex63_pp 2 PredictedNeqGiven (ex63_options None None) None
    = Ok [false; true; false; true; false; true] /\
  ml_find_label_issues_ranked argsort_ins ex63_labels ex63_pp 2 PredictedNeqGiven (ex63_options None None) SelfConfidence false
    = Ok [3; 1; 5]%nat /\
  ml_find_label_issues argsort_ins [[0]; [0;1]; [0]]%nat [[9#10;1#10]; [2#10;8#10]; [3#10;9#10]] 2 ConfidentLearning
    (ex63_options None None) None = Raise ValueError.
Proof. repeat split; vm_compute; reflexivity. Qed.

(** With filter_by="low_self_confidence" / "low_normalized_margin" the ranked output is in the wrong order: example 1
    is returned before example 3, whose score is lower. *)
Theorem C63_low_ranking_refuted :
  exists labels pp K o flt idx scores, ml_dataset K labels pp /\ (forall c, (c < K)%nat -> mixed labels c) /\ (2 <= K)%nat /\
    (flt = LowNormalizedMargin \/ flt = LowSelfConfidence) /\
    ml_find_label_issues_ranked argsort_ins labels pp K flt o SelfConfidence false = Ok idx /\
    ml_label_quality_scores argsort_ins labels pp K SelfConfidence false (Some (4 # 5)) = Ok scores /\
    ~ StronglySorted (fun a b => nth a scores 0 <= nth b scores 0) idx.
Proof.
  exists ex63_labels, ex63_pp, 2%nat, (ex63_options None None), LowSelfConfidence. do 2 eexists.
  split; [apply ex63_dataset|]. split; [apply ex63_mixed|]. split; [auto|]. split; [auto|].
  split; [vm_compute; reflexivity|]. split; [vm_compute; reflexivity|].
  intros H. inversion H as [|? ? _ HF]; subst. inversion HF; subst. apply H2. vm_compute. reflexivity.
Qed.
Print Assumptions C63_low_ranking_refuted.

(** ** C64 *)
Theorem C64_class_scores : forall labels pp K method, ml_dataset K labels pp ->
  (exists e c, (e < length labels)%nat /\ has_class labels e c) ->
  exists s, ml_label_quality_scores_per_class labels pp K method false = Ok s /\ length s = length labels /\
    forall e, (e < length labels)%nat -> length (nth e s []) = K /\
      forall c, (c < K)%nat ->
        (has_class labels e c -> nth c (nth e s []) 0 == prob_of pp e c) /\
        (~ has_class labels e c -> nth c (nth e s []) 0 == 1 - prob_of pp e c) /\
        0 <= nth c (nth e s []) 0 /\ nth c (nth e s []) 0 <= 1.
Proof. exact C64_class_full. Qed.
Print Assumptions C64_class_scores.

Theorem C64_overall_scores : forall srt labels pp K method adjust alpha, argsort_ok srt -> ml_dataset K labels pp ->
  (2 <= K)%nat -> both_values labels K -> (forall a, alpha = Some a -> 0 <= a /\ a <= 1) ->
  exists cs s, ml_label_quality_scores_per_class labels pp K method adjust = Ok cs /\
    ml_label_quality_scores srt labels pp K method adjust alpha = Ok s /\ length s = length labels /\
    forall e, (e < length labels)%nat ->
      exponential_moving_average srt alpha (nth e cs []) = Ok (nth e s 0) /\
      (exists c, (c < K)%nat /\ nth c (nth e cs []) 0 <= nth e s 0) /\
      (exists c, (c < K)%nat /\ nth e s 0 <= nth c (nth e cs []) 0) /\
      (adjust = false -> 0 <= nth e s 0 /\ nth e s 0 <= 1).
Proof. exact C64_overall_full. Qed.
Print Assumptions C64_overall_scores.

Theorem C64_degenerate_raises : forall srt labels pp K method adjust alpha, ml_dataset K labels pp ->
  (K <= 1)%nat \/ ~ both_values labels K ->
  ml_label_quality_scores srt labels pp K method adjust alpha = Raise ValueError.
Proof. exact C64_raise_full. Qed.
Print Assumptions C64_degenerate_raises.

Example C64_example :
  both_values ex63_labels 2 /\
  (exists s, ml_label_quality_scores argsort_ins ex63_labels ex63_pp 2 SelfConfidence false (Some (4 # 5)) = Ok s /\
     nth 1 s 0 == 32 # 100 /\ nth 3 s 0 == 28 # 100) /\
  (exists s, ml_label_quality_scores_per_class ex63_labels ex63_pp 2 NormalizedMargin false = Ok s /\
     nth 0 (nth 3 s []) 0 == 15 # 100 /\ nth 1 (nth 3 s []) 0 == 8 # 10).
Proof.
  split; [split; [exists 0%nat, 0%nat|exists 0%nat, 1%nat]; unfold has_class; simpl; split; try lia; split; try lia; intuition discriminate|].
  split; eexists; (split; [vm_compute; reflexivity|]); split; vm_compute; reflexivity.
Qed.

(** ** C65 *)
Theorem C65_common_issues : forall srt labels pp K o cols, argsort_ok srt -> ml_dataset K labels pp ->
  (forall c, (c < K)%nat -> mixed labels c) ->
  issues_per_class srt labels pp K PruneByNoiseRate o None = Ok cols ->
  exists rows, common_multilabel_issues srt labels pp K o = Ok rows /\ length rows = (2 * K)%nat /\
    (forall c b, (c < K)%nat -> exists n q, In (c, b, n, q) rows /\
       (forall n' q', In (c, b, n', q') rows -> n' = n /\ q' = q) /\
       holds_for (length labels) (fun e => flagged (nth c cols []) e /\ (has_class labels e c <-> b = true)) n /\
       q == Qnat n / Qnat (length labels)) /\
    (forall c b n q, In (c, b, n, q) rows -> (c < K)%nat) /\
    StronglySorted (fun r r' => snd r' <= snd r) rows.
Proof. exact C65_common_full. Qed.
Print Assumptions C65_common_issues.

Theorem C65_class_ranking : forall srt labels pp K o rows, argsort_ok srt -> ml_dataset K labels pp ->
  (forall c, (c < K)%nat -> mixed labels c) ->
  (exists cols, issues_per_class srt labels pp K PruneByNoiseRate o None = Ok cols) ->
  common_multilabel_issues srt labels pp K o = Ok rows ->
  exists table, rank_classes_by_multilabel_quality srt labels pp K o = Ok table /\
    Permutation (map q_class table) (seq 0 K) /\
    (forall r, In r table -> exists n n' q q', In (q_class r, true, n, q) rows /\ In (q_class r, false, n', q') rows /\
       q_issues r = Z.of_nat n /\ q_inverse r = Z.of_nat n' /\ q_noise r = q /\ q_inv_noise r = q' /\
       q_score r == 1 - q /\ 0 <= q_score r /\ q_score r <= 1) /\
    StronglySorted (fun r r' => q_score r <= q_score r') table.
Proof. exact C65_rank_full. Qed.
Print Assumptions C65_class_ranking.

Theorem C65_health_score : forall srt labels pp K o m, ml_dataset K labels pp ->
  ml_find_label_issues srt labels pp K PruneByNoiseRate o None = Ok m ->
  exists h, overall_multilabel_health_score srt labels pp K o = Ok h /\ 0 <= h /\ h <= 1 /\
    exists n, holds_for (length labels) (fun e => ~ flagged m e) n /\ h * Qnat (length labels) == Qnat n.
Proof. exact C65_health_full. Qed.
Print Assumptions C65_health_score.

Example C65_example :
  issues_per_class argsort_ins ex63_labels ex63_pp 2 PruneByNoiseRate (ex63_options None None) None
    = Ok [[false; true; false; true; false; false]; [false; false; false; false; false; false]] /\
  common_multilabel_issues argsort_ins ex63_labels ex63_pp 2 (ex63_options None None)
    = Ok [(0%nat, true, 1%nat, 1 # 6); (0%nat, false, 1%nat, 1 # 6); (1%nat, true, 0%nat, 0 # 6); (1%nat, false, 0%nat, 0 # 6)] /\
  overall_multilabel_health_score argsort_ins ex63_labels ex63_pp 2 (ex63_options None None) = Ok (4 # 6).
Proof. repeat split; vm_compute; reflexivity. Qed.

(** ** C66 *)
Theorem C66_multilabel_confident_joint : forall srt labels pp K, argsort_ok srt -> ml_dataset K labels pp ->
  exists cjs, ml_confident_joint_counts srt labels pp K = Ok cjs /\ length cjs = K /\
    forall c, (c < K)%nat -> exists a b p q, nth c cjs [] = [[a; b]; [p; q]] /\
      (0 <= a)%Z /\ (0 <= b)%Z /\ (0 <= p)%Z /\ (0 <= q)%Z /\
      n_lacking labels c (Z.to_nat (a + b)) /\ n_having labels c (Z.to_nat (p + q)) /\
      (a + b + (p + q) = Z.of_nat (length labels))%Z.
Proof. exact C66_full. Qed.
Print Assumptions C66_multilabel_confident_joint.

Example C66_example :
  ml_confident_joint_counts argsort_ins ex63_labels ex63_pp 2 = Ok [[[2; 1]; [1; 2]]; [[2; 0]; [0; 4]]]%Z.
Proof. vm_compute. reflexivity. Qed.

(** num_to_remove_per_class with prune_by_class: asked for one example of class 0, it flags one that does not have
    class 0 (example 3) and none of those that have it, although one of those (example 1) clearly disagrees. *)
Theorem C66_num_to_remove_refuted :
  exists labels pp K o cols, ml_dataset K labels pp /\ (forall c, (c < K)%nat -> mixed labels c) /\
    ml_num_to_remove o = Some [1; 1] /\
    issues_per_class argsort_ins labels pp K PruneByClass o None = Ok cols /\
    (exists e, (e < length labels)%nat /\ has_class labels e 0 /\ clearly_disagrees labels pp e 0) /\
    (exists e, flagged (nth 0 cols []) e /\ ~ has_class labels e 0) /\
    (forall e, flagged (nth 0 cols []) e -> ~ has_class labels e 0).
Proof.
  exists ex63_labels, ex63_pp, 2%nat, (ex63_options (Some [1; 1]) (Some [[[2;1];[1;2]];[[2;1];[1;3]]])). eexists.
  split; [apply ex63_dataset|]. split; [apply ex63_mixed|]. split; [reflexivity|]. split; [vm_compute; reflexivity|].
  split; [exists 1%nat; unfold clearly_disagrees, has_class; simpl; split; [lia|]; split; [auto|]; left; split; [auto|]; vm_compute; discriminate|].
  split; [exists 3%nat; unfold has_class; simpl; split; auto; reflexivity|].
  intros e Hf. unfold flagged in Hf. do 6 (destruct e as [|e]; [simpl in Hf; try discriminate; unfold has_class; simpl; auto|]).
  simpl in Hf. destruct e; discriminate.
Qed.
Print Assumptions C66_num_to_remove_refuted.
