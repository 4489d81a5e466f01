(** * C157: scoring a data set part by part *)
From Coq Require Import QArith Reals List Arith Bool Lia Lqa.
From Verif Require Import Base ModelRank ModelMultilabel ModelToken ModelSegmentation ModelOutlier ModelDetection
  SpecOutlier SpecDetection SpecParts ProofParts.
From Verif Require ModelRegRank SpecRegRank.
Import ListNotations.
Open Scope Q_scope.

(** C157: without adjustment, the scores of two parts of a data set, put together, are the scores of the whole, and
    the whole is accepted exactly when both (non-empty) parts are. *)
Theorem C157_labels : forall l1 l2 p1 p2 K method s, l1 <> [] -> l2 <> [] -> length l1 = length p1 ->
  (get_label_quality_scores (l1 ++ l2) (p1 ++ p2) K method false = Ok s <->
   exists s1 s2, get_label_quality_scores l1 p1 K method false = Ok s1 /\ get_label_quality_scores l2 p2 K method false = Ok s2 /\ s = s1 ++ s2).
Proof. exact scores_parts. Qed.
Print Assumptions C157_labels.
(** Several models, with equal or given weights. *)
Theorem C157_ensemble : forall l1 l2 pps1 pps2 K method w s1 s2, w <> Accuracy -> length pps1 = length pps2 ->
  get_label_quality_ensemble_scores l1 pps1 K method false w = Ok s1 -> get_label_quality_ensemble_scores l2 pps2 K method false w = Ok s2 ->
  get_label_quality_ensemble_scores (l1 ++ l2) (both_parts pps1 pps2) K method false w = Ok (s1 ++ s2).
Proof. exact ensemble_join. Qed.
Print Assumptions C157_ensemble.
(** Multi-label data, per class and overall. *)
Theorem C157_multilabel_classes : forall l1 l2 p1 p2 K method s1 s2,
  ml_label_quality_scores_per_class l1 p1 K method false = Ok s1 -> ml_label_quality_scores_per_class l2 p2 K method false = Ok s2 ->
  ml_label_quality_scores_per_class (l1 ++ l2) (p1 ++ p2) K method false = Ok (s1 ++ s2).
Proof. exact per_class_join. Qed.
Print Assumptions C157_multilabel_classes.
Theorem C157_multilabel : forall srt l1 l2 p1 p2 K method alpha s1 s2,
  ml_label_quality_scores srt l1 p1 K method false alpha = Ok s1 -> ml_label_quality_scores srt l2 p2 K method false alpha = Ok s2 ->
  ml_label_quality_scores srt (l1 ++ l2) (p1 ++ p2) K method false alpha = Ok (s1 ++ s2).
Proof. exact overall_join. Qed.
Print Assumptions C157_multilabel.
(** Sentences and their tokens. *)
Theorem C157_tokens : forall l1 l2 p1 p2 K method s1 s2 t1 t2,
  token_get_label_quality_scores l1 p1 K method = Ok (s1, t1) -> token_get_label_quality_scores l2 p2 K method = Ok (s2, t2) ->
  token_get_label_quality_scores (l1 ++ l2) (p1 ++ p2) K method = Ok (s1 ++ s2, t1 ++ t2).
Proof. exact tokens_join. Qed.
Print Assumptions C157_tokens.
(** The pixels of images of one size. *)
Theorem C157_pixels : forall l1 l2 p1 p2 s1 s2, tH p1 = tH p2 -> tW p1 = tW p2 ->
  seg_pixel_scores l1 p1 = Ok s1 -> seg_pixel_scores l2 p2 = Ok s2 ->
  exists s, seg_pixel_scores (stacked l1 l2) (stacked_probs p1 p2) = Ok s /\ same_arr s (stacked s1 s2).
Proof. exact pixels_join. Qed.
Print Assumptions C157_pixels.
(** Regression, method "residual". *)
Theorem C157_residual : forall sort l1 l2 p1 p2,
  (2 <= length l1)%nat -> length l1 = length p1 -> (2 <= length l2)%nat -> length l2 = length p2 -> exists s1 s2,
  ModelRegRank.get_label_quality_scores sort (SpecRegRank.vec l1) (SpecRegRank.vec p1) ModelRegRank.Residual = Ok s1 /\
  ModelRegRank.get_label_quality_scores sort (SpecRegRank.vec l2) (SpecRegRank.vec p2) ModelRegRank.Residual = Ok s2 /\
  ModelRegRank.get_label_quality_scores sort (SpecRegRank.vec (l1 ++ l2)) (SpecRegRank.vec (p1 ++ p2)) ModelRegRank.Residual = Ok (s1 ++ s2).
Proof. exact residual_join. Qed.
Print Assumptions C157_residual.
(** Out-of-distribution scores of new data: always for predicted probabilities, for features when the index is fitted
    and the scaling factor known. *)
Theorem C157_ood_probabilities : forall {F} (B : backend F) o p1 p2 K r1 r2,
  snd (score B o (of_probs p1 K)) = Ok (Some r1) -> snd (score B o (of_probs p2 K)) = Ok (Some r2) ->
  snd (score B o (of_probs (p1 ++ p2) K)) = Ok (Some (r1 ++ r2)).
Proof. exact @probs_join. Qed.
Print Assumptions C157_ood_probabilities.
Theorem C157_ood_features : forall {F} (B : backend F) o kn train scale f1 f2 f r1 r2,
  p_knn o = Some kn -> fitted_on kn = Some train -> p_scaling o = Some scale -> joined B f1 f2 f ->
  snd (score B o (of_features f1)) = Ok (Some r1) -> snd (score B o (of_features f2)) = Ok (Some r2) ->
  snd (score B o (of_features f)) = Ok (Some (r1 ++ r2)).
Proof. exact @features_join. Qed.
Print Assumptions C157_ood_features.
(** Object detection: the scores for badly located boxes; the scores of the images when the least similarity of a given
    and a predicted box is the same in both parts. *)
Theorem C157_badloc : forall dist alpha l1 l2 p1 p2 low, length l1 = length p1 ->
  compute_badloc_box_scores dist alpha low (l1 ++ l2) (p1 ++ p2) =
  compute_badloc_box_scores dist alpha low l1 p1 ++ compute_badloc_box_scores dist alpha low l2 p2.
Proof. exact badloc_join. Qed.
Print Assumptions C157_badloc.
Theorem C157_images : forall dist K l1 l2 p1 p2 m w check s1 s2,
  (forall a b, unit_interval (dist a b)) -> detection_inputs K l1 p1 -> detection_inputs K l2 p2 ->
  least_similarity dist (9 # 10) l1 p1 m -> least_similarity dist (9 # 10) l2 p2 m ->
  detection_scores dist l1 p1 w check = Ok s1 -> detection_scores dist l2 p2 w check = Ok s2 ->
  detection_scores dist (l1 ++ l2) (p1 ++ p2) w check = Ok (s1 ++ s2).
Proof. exact images_join. Qed.
Print Assumptions C157_images.

(** Limits.  With adjustment, or with weights from the accuracies of the models, an example's score depends on the other
    examples. *)
Definition part_l : list nat := [0; 1]%nat.
Definition part_p1 : list (list Q) := [[9 # 10; 1 # 10]; [2 # 10; 8 # 10]].
Definition part_p2 : list (list Q) := [[6 # 10; 4 # 10]; [3 # 10; 7 # 10]].
Theorem C157_adjusted_refuted : ~ (forall l1 l2 p1 p2 K s1 s2,
  get_label_quality_scores l1 p1 K SelfConfidence true = Ok s1 -> get_label_quality_scores l2 p2 K SelfConfidence true = Ok s2 ->
  exists s, get_label_quality_scores (l1 ++ l2) (p1 ++ p2) K SelfConfidence true = Ok s /\ Forall2 Qeq s (s1 ++ s2)).
Proof.
  intros H. edestruct (H part_l part_l part_p1 part_p2 2%nat) as (s & A & B); [vm_compute; reflexivity|vm_compute; reflexivity|].
  vm_compute in A. injection A as <-. inversion B. subst. discriminate.
Qed.
Print Assumptions C157_adjusted_refuted.
Definition part_q1 : list (list Q) := [[9 # 10; 1 # 10]; [7 # 10; 3 # 10]].
Theorem C157_accuracy_refuted : ~ (forall l1 l2 pps1 pps2 K s1 s2, length pps1 = length pps2 ->
  get_label_quality_ensemble_scores l1 pps1 K SelfConfidence false Accuracy = Ok s1 ->
  get_label_quality_ensemble_scores l2 pps2 K SelfConfidence false Accuracy = Ok s2 ->
  exists s, get_label_quality_ensemble_scores (l1 ++ l2) (both_parts pps1 pps2) K SelfConfidence false Accuracy = Ok s /\ Forall2 Qeq s (s1 ++ s2)).
Proof.
  intros H. edestruct (H part_l part_l [part_p1; part_q1] [part_p2; part_p2] 2%nat) as (s & A & B); [reflexivity|vm_compute; reflexivity|vm_compute; reflexivity|].
  vm_compute in A. injection A as <-. inversion B. inversion H5. subst. discriminate.
Qed.
Print Assumptions C157_accuracy_refuted.
(** A part may be rejected though the whole is accepted: multi-label data in which every example has every class, one
    class in an ensemble's part, a single regression example. *)
Theorem C157_parts_refuted :
  (exists l1 l2 p1 p2 s, ml_label_quality_scores argsort_ins (l1 ++ l2) (p1 ++ p2) 2 SelfConfidence false None = Ok s /\
     ml_label_quality_scores argsort_ins l1 p1 2 SelfConfidence false None = Raise ValueError) /\
  (exists l1 l2 pps1 pps2 s, get_label_quality_ensemble_scores (l1 ++ l2) (both_parts pps1 pps2) 2 SelfConfidence false Uniform = Ok s /\
     get_label_quality_ensemble_scores l1 pps1 2 SelfConfidence false Uniform = Raise ValueError) /\
  (forall sort x y, ModelRegRank.get_label_quality_scores sort (SpecRegRank.vec [x]) (SpecRegRank.vec [y]) ModelRegRank.Residual = Raise ValueError).
Proof.
  split; [|split].
  - exists [[0; 1]%nat], [[0]%nat], [[1 # 2; 1 # 2]], [[9 # 10; 1 # 10]]. eexists. split; vm_compute; reflexivity.
  - exists [0]%nat, [1]%nat, [[[1 # 2; 1 # 2]]], [[[1 # 10; 9 # 10]]]. eexists. split; vm_compute; reflexivity.
  - reflexivity.
Qed.
Print Assumptions C157_parts_refuted.
(** Object detection: an overlooked box scores less beside an image whose boxes are less similar. *)
Definition part_box : box := mk_box 0 0 10 10.
Definition part_far : box := mk_box 20 20 30 30.
Theorem C157_overlooked_refuted : ~ (forall dist K l1 l2 p1 p2, (forall a b, unit_interval (dist a b)) -> detection_inputs K l1 p1 -> detection_inputs K l2 p2 ->
  Forall2 (Forall2 agree) (compute_overlooked_box_scores dist (9 # 10) (95 # 100) (l1 ++ l2) (p1 ++ p2))
    (compute_overlooked_box_scores dist (9 # 10) (95 # 100) l1 p1 ++ compute_overlooked_box_scores dist (9 # 10) (95 # 100) l2 p2)).
Proof.
  intros H.
  assert (I : forall l b p, (forall kb, In kb l -> kb = (0%nat, part_box)) -> well_formed b -> unit_interval p -> detection_inputs 1 [l] [[[(b, p)]]]).
  { intros l b p Hl Hb Hp. split; [discriminate|]. split; [reflexivity|]. split; [lia|]. split.
    - split; [intros q [<-|[]]; reflexivity|]. intros l' kb [<-|[]] J. rewrite (Hl _ J). cbn. lia.
    - intros i Hi. destruct i; [|cbn in Hi; lia]. split; [split|].
      + intros kb J. rewrite (Hl _ J). split; cbn; lra.
      + intros ds d [<-|[]] [<-|[]]. exact Hb.
      + intros ds d [<-|[]] [<-|[]]. exact Hp. }
  assert (J := H (fun _ _ => 1 # 2) 1%nat [[]] [[(0%nat, part_box)]] [[[(part_box, 96 # 100)]]] [[[(part_far, 1 # 10)]]]).
  specialize (J ltac:(intros; split; lra)). specialize (J ltac:(apply I; [intros kb []|split; cbn; lra|split; lra])).
  specialize (J ltac:(apply I; [intros kb [<-|[]]; reflexivity|split; cbn; lra|split; lra])). vm_compute in J.
  inversion J as [|a b c d J1 J2]. inversion J1 as [|e f g h J3 J4]. discriminate J3.
Qed.
Print Assumptions C157_overlooked_refuted.

(** ** Examples *)
Example C157_example :
  get_label_quality_scores part_l part_p1 2 SelfConfidence false = Ok [9 # 10; 8 # 10] /\
  get_label_quality_scores part_l part_p2 2 SelfConfidence false = Ok [6 # 10; 7 # 10] /\
  (exists s1 s2, get_label_quality_ensemble_scores part_l [part_p1; part_q1] 2 NormalizedMargin false (Custom [1 # 3; 2 # 3]) = Ok s1 /\
     get_label_quality_ensemble_scores part_l [part_p2; part_p2] 2 NormalizedMargin false (Custom [1 # 3; 2 # 3]) = Ok s2).
Proof. split; [reflexivity|split; [reflexivity|]]. eexists. eexists. split; vm_compute; reflexivity. Qed.
Example C157_example_multilabel : exists s1 s2 c1 c2,
  ml_label_quality_scores argsort_ins [[0]%nat; [0; 1]%nat] part_p1 2 SelfConfidence false None = Ok s1 /\
  ml_label_quality_scores argsort_ins [[1]%nat; []] part_p2 2 SelfConfidence false None = Ok s2 /\
  ml_label_quality_scores_per_class [[0]%nat; [0; 1]%nat] part_p1 2 SelfConfidence false = Ok c1 /\
  ml_label_quality_scores_per_class [[1]%nat; []] part_p2 2 SelfConfidence false = Ok c2.
Proof. repeat eexists; vm_compute; reflexivity. Qed.
Example C157_example_tokens : exists r1 r2,
  token_get_label_quality_scores [[0; 1]%nat] [part_p1] 2 SelfConfidence = Ok r1 /\
  token_get_label_quality_scores [[1]%nat; [0]%nat] [[[6 # 10; 4 # 10]]; [[3 # 10; 7 # 10]]] 2 SelfConfidence = Ok r2.
Proof. repeat eexists; vm_compute; reflexivity. Qed.
(** an estimator fitted on 0 and 2 with scaling factor 1 *)
Definition part_ood : ood (list R) := {|
  p_knn := Some {| fitted_on := Some [0; 2]%R; n_neighbors := 1; knn_metric := OtherMetric |}; p_k := None; p_t := 1; p_method := LeastConfidence; p_adjust := false;
  p_thresholds := None; p_M := 100; p_gamma := 1; p_scaling := Some 1%R |}.
Example C157_example_ood : joined ex_backend [5]%R [6; 7]%R [5; 6; 7]%R /\
  (exists r1 r2, snd (score ex_backend part_ood (of_features [5]%R)) = Ok (Some r1) /\ snd (score ex_backend part_ood (of_features [6; 7]%R)) = Ok (Some r2)) /\
  (exists r1 r2, snd (score ex_backend part_ood (of_probs part_p1 2)) = Ok (Some r1) /\ snd (score ex_backend part_ood (of_probs part_p2 2)) = Ok (Some r2)).
Proof. split; [repeat split|]. split; repeat eexists. Qed.
(** two parts of one image each whose least similarity is 1/20 (disjoint boxes, distance one half) *)
Example C157_example_images : forall i, (i < 2)%nat ->
  least_similarity (fun _ _ => 1 # 2) (9 # 10) [[(i, part_box)]] [[[(part_far, 1 # 10)]; []]] (1 # 20).
Proof.
  intros i Hi. assert (S : forall a b, (exists e k k' q, In (k, a) (nth e [[(i, part_box)]] []) /\ predicted (nth e [[[(part_far, 1 # 10)]; []]] []) k' (b, q)) ->
    a = part_box /\ b = part_far).
  { intros a b (e & k & k' & q & H1 & H2). destruct e as [|[|e]]; [|destruct H1|destruct H1]. destruct H1 as [H1|[]]. injection H1 as _ <-. split; [reflexivity|].
    destruct k' as [|[|[|k']]]; cbn in H2; [|destruct H2|destruct H2|destruct H2]. destruct H2 as [H2|[]]. injection H2 as <- _. reflexivity. }
  split; [lra|]. split; [lra|]. split.
  - intros a b P _. destruct (S a b P) as (-> & ->). vm_compute. discriminate.
  - right. exists part_box, part_far. split; [|vm_compute; reflexivity]. exists 0%nat, i, 0%nat, (1 # 10). split; cbn; auto.
Qed.
