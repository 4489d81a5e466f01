(** * Properties C165 and C166: pooling scores with softmin *)
From Coq Require Import QArith Qreals Reals List Bool Arith Lia Lra.
From Verif Require Import Base BaseFacts ModelUtil ModelEntropy ModelOutlier ModelToken ModelDetection ModelSegmentation
     ProofDetectionR ProofSoftmin.
Import ListNotations.
Open Scope R_scope.

(** ** C165 *)
(** Sentences, multi-label examples, segmentation images and object-detection images are pooled by one function. *)
Theorem C165_one_function : forall t scores, scores <> [] ->
  softmin_sentence (Q2R EPSILON) t scores = Ok (softmin1d t scores) /\
  forall eps, t <> 0 -> softmin_image eps t scores = softmin_sentence eps t scores.
Proof.
  intros t l Hne. split; [exact (softmin1d_sentence t l Hne)|]. intros eps Ht. unfold softmin_image.
  destruct l; [congruence|]. destruct (Req_EM_T t 0); [contradiction|reflexivity].
Qed.
Print Assumptions C165_one_function.

(** A higher temperature never gives a lower score. *)
Theorem C165_temperature : forall eps t t' scores v v', 0 < eps -> t <= t' ->
  softmin_sentence eps t scores = Ok v -> softmin_sentence eps t' scores = Ok v' -> v <= v'.
Proof. exact C165_temperature_full. Qed.
Print Assumptions C165_temperature.

(** "Lower values encourage this method to converge toward the label quality score of the token with the lowest
    quality": within (n-1) T of the lowest score. *)
Theorem C165_low : forall eps t scores v lo, 0 < eps -> softmin_sentence eps t scores = Ok v ->
  In lo scores -> (forall s, In s scores -> lo <= s) -> lo <= v <= lo + INR (length scores - 1) * Rmax t eps.
Proof. exact C165_low_full. Qed.
Print Assumptions C165_low.

(** "Higher values encourage this method to converge toward the average": within (range)^2/T of it. *)
Theorem C165_high : forall eps t scores v lo hi, 0 < eps -> softmin_sentence eps t scores = Ok v ->
  (forall s, In s scores -> lo <= s <= hi) ->
  v <= rsum scores / INR (length scores) <= v + (hi - lo) * (hi - lo) / Rmax t eps.
Proof. exact C165_high_full. Qed.
Print Assumptions C165_high.

(** Scores 1/2 and 1 with temperatures 1/20 and 5: at most 0.55 and at least 0.70. *)
Example C165_example : exists v v',
  softmin_sentence (/ 1000000) (/ 20) [/ 2; 1] = Ok v /\ softmin_sentence (/ 1000000) 5 [/ 2; 1] = Ok v' /\
  / 2 <= v <= 55 / 100 /\ 70 / 100 <= v' <= 75 / 100.
Proof.
  eexists. eexists. split; [reflexivity|]. split; [reflexivity|].
  assert (M1 : Rmax (/ 20) (/ 1000000) = / 20) by (apply Rmax_left; lra).
  assert (M2 : Rmax 5 (/ 1000000) = 5) by (apply Rmax_left; lra). split.
  - pose proof (C165_low (/ 1000000) (/ 20) [/ 2; 1] _ (/ 2) ltac:(lra) eq_refl (or_introl eq_refl)) as B.
    rewrite M1 in B. cbn [length Nat.sub INR] in B.
    assert (H : forall s, In s [/ 2; 1] -> / 2 <= s) by (intros s [<-|[<-|[]]]; lra). specialize (B H). lra.
  - pose proof (C165_high (/ 1000000) 5 [/ 2; 1] _ (/ 2) 1 ltac:(lra) eq_refl) as B.
    rewrite M2 in B. cbn [length INR] in B. unfold rsum at 1 2 in B. cbn [fold_right] in B.
    assert (H : forall s, In s [/ 2; 1] -> / 2 <= s <= 1) by (intros s [<-|[<-|[]]]; lra). specialize (B H). lra.
Qed.

(** ** C166 *)
(** Raising a score that is not above the pooled score, or raising it to at most one temperature above it, never lowers
    the pooled score. *)
Theorem C166_raise_partial : forall eps t a b u u' v v', 0 < eps -> u <= u' ->
  softmin_sentence eps t (a ++ u :: b) = Ok v -> softmin_sentence eps t (a ++ u' :: b) = Ok v' ->
  u <= v \/ u' <= v + Rmax t eps -> v <= v'.
Proof. exact C166_raise_full. Qed.
Print Assumptions C166_raise_partial.

(** Raising a score that is a temperature or more above the pooled score always lowers the pooled score. *)
Theorem C166_too_high : forall eps t a b u u' v v', 0 < eps -> u < u' ->
  softmin_sentence eps t (a ++ u :: b) = Ok v -> softmin_sentence eps t (a ++ u' :: b) = Ok v' ->
  v + Rmax t eps <= u -> v' < v.
Proof. exact C166_high_full. Qed.
Print Assumptions C166_too_high.

(** With a temperature of at least 1 the pooled score is monotone in all scores between 0 and 1 at once. *)
Theorem C166_warm : forall eps t scores scores' v v', 0 < eps -> 1 <= t ->
  (forall s, In s scores -> 0 <= s) -> (forall s, In s scores' -> s <= 1) -> Forall2 Rle scores scores' ->
  softmin_sentence eps t scores = Ok v -> softmin_sentence eps t scores' = Ok v' -> v <= v'.
Proof. exact C166_monotone_full. Qed.
Print Assumptions C166_warm.

(** Raising 0.4 to 0.9 next to 0.6, and raising everything at temperature 1. *)
Example C166_example :
  (exists v v', softmin_sentence (/ 1000000) (/ 20) [6 / 10; 4 / 10] = Ok v /\
     softmin_sentence (/ 1000000) (/ 20) [6 / 10; 9 / 10] = Ok v' /\ v <= v') /\
  (exists v v', softmin_sentence (/ 1000000) 1 [6 / 10; 4 / 10] = Ok v /\
     softmin_sentence (/ 1000000) 1 [7 / 10; 9 / 10] = Ok v' /\ v <= v').
Proof.
  split; eexists; eexists; (split; [reflexivity|]); (split; [reflexivity|]).
  - apply (C166_raise_partial (/ 1000000) (/ 20) [6 / 10] [] (4 / 10) (9 / 10)); [lra|lra|reflexivity|reflexivity|].
    left. apply (C165_low (/ 1000000) (/ 20) [6 / 10; 4 / 10]); [lra|reflexivity|right; left; reflexivity|].
    intros s [<-|[<-|[]]]; lra.
  - apply (C166_warm (/ 1000000) 1 [6 / 10; 4 / 10] [7 / 10; 9 / 10]); [lra|lra| | | |reflexivity|reflexivity].
    + intros s [<-|[<-|[]]]; lra.
    + intros s [<-|[<-|[]]]; lra.
    + repeat constructor; lra.
Qed.

(** With the default temperatures: improving the better of two tokens from 0.7 to 1 lowers the score of the sentence
    (temperature 0.05), and improving the better of two boxes from 0.8 to 1 lowers the score of the image (0.1). *)
Theorem C166_tokens_refuted : exists scores scores' v v',
  Forall2 Rle scores scores' /\ (forall s, In s scores -> 0 <= s <= 1) /\ (forall s, In s scores' -> 0 <= s <= 1) /\
  softmin_sentence (/ 1000000) (/ 20) scores = Ok v /\ softmin_sentence (/ 1000000) (/ 20) scores' = Ok v' /\ v' < v.
Proof.
  exists [/ 2; 7 / 10], [/ 2; 1].
  destruct (C166_refuted_gen (/ 1000000) (/ 20) (/ 2) (7 / 10) 1) as (v & v' & A & B & C); [lra| |lra|].
  { rewrite Rmax_left; lra. }
  exists v, v'. split; [repeat constructor; lra|]. split; [intros s [<-|[<-|[]]]; lra|]. split; [intros s [<-|[<-|[]]]; lra|]. auto.
Qed.
Print Assumptions C166_tokens_refuted.
Theorem C166_boxes_refuted : exists scores scores',
  Forall2 Rle scores scores' /\ (forall s, In s scores -> 0 <= s <= 1) /\ (forall s, In s scores' -> 0 <= s <= 1) /\
  softmin1d (Q2R TEMPERATURE) scores' < softmin1d (Q2R TEMPERATURE) scores.
Proof.
  exists [/ 2; 8 / 10], [/ 2; 1].
  destruct (C166_refuted_gen (Q2R EPSILON) (Q2R TEMPERATURE) (/ 2) (8 / 10) 1) as (v & v' & A & B & C);
    [apply eps_pos| |lra|].
  { unfold TEMPERATURE, EPSILON, Q2R. cbn [Qnum Qden]. rewrite Rmax_left; lra. }
  split; [repeat constructor; lra|]. split; [intros s [<-|[<-|[]]]; lra|]. split; [intros s [<-|[<-|[]]]; lra|].
  rewrite softmin1d_sentence in A by discriminate. rewrite softmin1d_sentence in B by discriminate.
  injection A as ->. injection B as ->. auto.
Qed.
Print Assumptions C166_boxes_refuted.
