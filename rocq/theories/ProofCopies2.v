(** * Lemmas about repeating the examples: label quality scores, class imbalance, multi-label data, object detection *)
From Coq Require Import QArith Qabs List ZArith Bool Arith Lia Lqa Permutation Reals.
From Verif Require Import Base BaseFacts ModelUtil ModelCount ModelRank ModelFilter ModelMultilabel SpecCount SpecFilter SpecRank SpecSymmetry SpecMultilabel SpecReorder SpecMultiannotator
  ProofUtil ProofCount ProofFilter ProofRank ProofTotal ProofSymmetry ProofMultilabel ProofMultiannotator ProofReorder ProofRows ProofCopies.
From Verif Require ModelChecks SpecChecks ProofChecks ModelDetection SpecDetection ProofDetection ProofDetectionR ProofParts.
Import ListNotations.
Open Scope Q_scope.

(** ** Confident thresholds and label quality scores *)
Lemma average_cop c l' l a b : (1 <= c)%nat -> cop c l' l -> is_average l' a -> is_average l b -> a == b.
Proof.
  intros Hc H (N & A) (N' & B). rewrite (cop_qsum c l' l H), (cop_length c l' l H), Qnat_mulc in A.
  apply (average_unique l a b); split; auto. assert (P := Qnat_pos c Hc). rewrite <- Qmult_assoc, (Qmult_assoc a) in A || idtac.
  assert (E : Qnat c * (a * Qnat (length l)) == Qnat c * qsum l) by (rewrite <- A; ring). apply Qmult_inj_l in E; auto. lra.
Qed.
Section Scores.
Variables (K : nat) (labels : list nat) (pp : list (list Q)) (c : nat) (order : list nat).
Hypothesis Hc : (1 <= c)%nat.
Hypothesis Hd : dataset K labels pp.
Hypothesis Ho : Permutation order (copies c (seq 0 (length labels))).
Lemma ordc_in i : In i order <-> (i < length labels)%nat.
Proof. rewrite (cop_in c order (seq 0 (length labels)) i Hc Ho), in_seq. lia. Qed.
Lemma ordc_ne : order <> [].
Proof. intros E. apply (cop_nil c order _ Hc Ho) in E. destruct labels; [now apply (ds_ne _ _ _ Hd)|discriminate]. Qed.
Lemma thresholds_cop k : (k < K)%nat ->
  nth k (get_confident_thresholds (pick 0%nat order labels) (pick [] order pp) K) 0 == nth k (get_confident_thresholds labels pp K) 0.
Proof.
  intros Hk. apply thresholds_same; auto; try apply Hd.
  - rewrite !pick_length. reflexivity.
  - apply (cop_in c); auto. now apply pick_cop.
  - intros _ a b A B. rewrite own_pick in A. rewrite (own_all k labels pp (ds_len _ _ _ Hd)) in B. unfold own_of in *.
    refine (average_cop c _ _ a b Hc _ A B). apply cop_map, cop_filter. exact Ho.
Qed.
Lemma thresholds_F2 : Forall2 Qeq (get_confident_thresholds (pick 0%nat order labels) (pick [] order pp) K) (get_confident_thresholds labels pp K).
Proof. apply F2_nth_eq; rewrite !thresholds_length; auto. intros i Hi. now apply thresholds_cop. Qed.
End Scores.
Lemma qmaximum_F2 a b : Forall2 Qeq a b -> qmaximum a == qmaximum b.
Proof.
  intros H. destruct H as [|x y a b Hxy H]; [reflexivity|].
  assert (G : Forall2 Qeq (x :: a) (y :: b)) by (constructor; auto). clear H Hxy.
  assert (I : forall u v, Forall2 Qeq u v -> forall z, In z u -> exists z', In z' v /\ z == z').
  { induction 1 as [|p q u v Hpq _ IH]; intros z [].
    - subst. exists q. split; [left|]; auto.
    - destruct (IH _ H) as (z' & A & B). exists z'. split; [right|]; auto. }
  assert (G' : Forall2 Qeq (y :: b) (x :: a)) by (clear -G; induction G; constructor; auto; now symmetry).
  apply Qle_antisym.
  - destruct (I _ _ G (qmaximum (x :: a))) as (z & Z & ->); [apply qmaximum_in; discriminate|]. now apply qmaximum_ge.
  - destruct (I _ _ G' (qmaximum (y :: b))) as (z & Z & ->); [apply qmaximum_in; discriminate|]. now apply qmaximum_ge.
Qed.
Lemma F2_delete i a b : Forall2 Qeq a b -> Forall2 Qeq (delete_at i a) (delete_at i b).
Proof.
  intros H. unfold delete_at. revert i. induction H as [|x y a b Hxy H IH]; intros i; [destruct i; constructor|].
  destruct i as [|i]; cbn; auto. constructor; auto. apply IH.
Qed.
Lemma F2_refl_rows (l : list (list Q)) : same_rows l l.
Proof. unfold same_rows. induction l as [|r l IH]; constructor; auto. induction r; constructor; auto. reflexivity. Qed.
Lemma scores_F2 labels p p' K method s : same_rows p' p -> compute_label_quality_scores labels p K method false = Ok s ->
  exists s', compute_label_quality_scores labels p' K method false = Ok s' /\ Forall2 Qeq s' s.
Proof.
  intros H. unfold compute_label_quality_scores.
  assert (A : Forall2 Qeq (get_self_confidence labels p') (get_self_confidence labels p)).
  { unfold get_self_confidence. revert labels. induction H as [|r r' p' p Hr _ IH]; intros [|l ls]; cbn [combine map]; constructor; auto. cbn. now apply F2_nth_Q. }
  destruct method.
  - intros E. assert (s = get_self_confidence labels p) by congruence. subst s. eexists. split; [reflexivity|exact A].
  - destruct (Nat.leb K 1); [discriminate|]. intros E. assert (s = get_normalized_margin labels p) by congruence. subst s. eexists. split; [reflexivity|].
    unfold get_normalized_margin. cbv zeta. revert A. unfold get_self_confidence. clear E. revert labels.
    induction H as [|r r' p' p Hr _ IH]; intros [|l ls]; cbn [combine map]; constructor.
    + cbn [fst snd]. rewrite (F2_nth_Q _ _ Hr l), (qmaximum_F2 _ _ (F2_delete l _ _ Hr)). reflexivity.
    + apply IH. inversion A; auto.
Qed.
Lemma adjust_F2 thr thr' pp : Forall2 Qeq thr' thr -> same_rows (subtract_confident_thresholds [] pp 0 (Some thr')) (subtract_confident_thresholds [] pp 0 (Some thr)).
Proof.
  intros H. unfold subtract_confident_thresholds, same_rows. apply F2_map_same. intros row _. cbv zeta.
  pose proof (qmaximum_F2 _ _ H) as HM. set (M := qmaximum thr) in *. set (M' := qmaximum thr') in *. clearbody M M'.
  assert (A : Forall2 Qeq (map (fun xt => fst xt - snd xt + M') (combine row thr')) (map (fun xt => fst xt - snd xt + M) (combine row thr))).
  { clear - H HM. revert row. induction H as [|x y a b Hxy _ IH]; intros [|r row]; cbn [combine map]; constructor; auto. cbn [fst snd]. rewrite Hxy, HM. reflexivity. }
  pose proof (qsum_Forall2 _ _ A) as HS. revert HS. generalize (qsum (map (fun xt : Q * Q => fst xt - snd xt + M') (combine row thr'))) (qsum (map (fun xt : Q * Q => fst xt - snd xt + M) (combine row thr))).
  intros u v HS. induction A as [|x y a b Hxy _ IH]; cbn [map]; constructor; auto. rewrite Hxy, HS. reflexivity.
Qed.
Lemma scores_pick K labels pp order s method : length labels = length pp -> (forall i, In i order -> (i < length labels)%nat) ->
  compute_label_quality_scores labels pp K method false = Ok s ->
  compute_label_quality_scores (pick 0%nat order labels) (pick [] order pp) K method false = Ok (pick 0 order s).
Proof.
  intros L Ho. unfold compute_label_quality_scores.
  assert (A : get_self_confidence (pick 0%nat order labels) (pick [] order pp) = pick 0 order (get_self_confidence labels pp)).
  { unfold get_self_confidence. rewrite pick_combine by auto. apply pick_map. intros i Hi. rewrite combine_length. specialize (Ho i Hi). lia. }
  destruct method; [intros E; injection E as <-; now rewrite A|]. destruct (Nat.leb K 1); [discriminate|]. intros E. injection E as <-. f_equal.
  unfold get_normalized_margin. cbv zeta. rewrite A. rewrite (pick_combine 0%nat [] order labels pp) by auto.
  rewrite (pick_map _ (0%nat, []) 0) by (intros i Hi; rewrite combine_length; specialize (Ho i Hi); lia).
  rewrite pick_combine by (unfold get_self_confidence; now rewrite !map_length). apply pick_map. intros i Hi.
  unfold get_self_confidence. rewrite combine_length, !map_length, combine_length. specialize (Ho i Hi). lia.
Qed.
Lemma scores_cop K labels pp c order method adjust s : (1 <= c)%nat -> dataset K labels pp -> Permutation order (copies c (seq 0 (length labels))) ->
  get_label_quality_scores labels pp K method adjust = Ok s ->
  exists s', get_label_quality_scores (pick 0%nat order labels) (pick [] order pp) K method adjust = Ok s' /\ Forall2 Qeq s' (pick 0 order s).
Proof.
  intros Hc Hd Ho. pose proof (ds_len _ _ _ Hd) as L.
  assert (Hlt' : forall i, In i order -> (i < length labels)%nat) by (intros i; apply (ordc_in labels c order Hc Ho)).
  assert (D' : dataset K (pick 0%nat order labels) (pick [] order pp)) by (apply picked_dataset; auto; now apply (ordc_ne K labels pp c order)).
  unfold get_label_quality_scores. rewrite (ProofFilter.valid_ok K) by auto. cbn [rbind]. rewrite (ProofFilter.valid_ok K) by auto. cbn [rbind].
  destruct adjust.
  - intros E. unfold compute_label_quality_scores in E. fold (compute_label_quality_scores labels (subtract_confident_thresholds labels pp K None) K method false) in E.
    change (compute_label_quality_scores (pick 0%nat order labels) (pick [] order pp) K method true) with
      (compute_label_quality_scores (pick 0%nat order labels) (subtract_confident_thresholds (pick 0%nat order labels) (pick [] order pp) K None) K method false).
    assert (LS : length (subtract_confident_thresholds labels pp K None) = length pp) by apply map_length.
    apply (scores_pick K labels _ order s method) in E; [|congruence|auto].
    apply (scores_F2 _ _ (subtract_confident_thresholds (pick 0%nat order labels) (pick [] order pp) K None)) in E; auto.
    assert (EP : pick [] order (subtract_confident_thresholds labels pp K None) =
      subtract_confident_thresholds [] (pick [] order pp) 0 (Some (get_confident_thresholds labels pp K))).
    { unfold subtract_confident_thresholds. symmetry. apply pick_map. intros i Hi. rewrite <- L. auto. }
    rewrite EP. apply (adjust_F2 _ _ (pick [] order pp)). now apply (thresholds_F2 K labels pp c order).
  - intros E. apply (scores_pick K labels pp order s method) in E; auto. eexists. split; [exact E|]. generalize (pick 0 order s). clear. intros l. induction l; constructor; auto. reflexivity.
Qed.

(** ** Class imbalance *)
Lemma fraction_cop c l' l k : (1 <= c)%nat -> cop c l' l -> SpecChecks.fraction k l' == SpecChecks.fraction k l.
Proof.
  intros Hc H. unfold SpecChecks.fraction. rewrite (cop_length _ _ _ (cop_filter (Nat.eqb k) _ _ _ H)), (cop_length _ _ _ H), !Qnat_mulc.
  pose proof (Qnat_pos_c c Hc) as P. destruct l as [|x l]; [cbn [length filter]; rewrite Qnat_0; unfold Qdiv; ring|].
  field. split; auto. apply Qnat_pos_c. cbn; lia.
Qed.
Lemma rarest_cop c l' l m r r' : (1 <= c)%nat -> cop c l' l -> SpecChecks.rarest_class l' m r' -> SpecChecks.rarest_class l m r -> r' = r.
Proof.
  intros Hc H (A & B & C) (A' & B' & C'). pose proof (fun k => fraction_cop c l' l k Hc H) as E.
  destruct (Nat.lt_trichotomy r r') as [G|[G|G]]; auto.
  - specialize (C r G). specialize (B' r' A). rewrite !E in C. lra.
  - specialize (C' r' G). specialize (B r A'). rewrite !E in B. lra.
Qed.
Lemma imbalance_cop threshold K labels c order : (1 <= c)%nat -> labels <> [] -> (0 < K)%nat -> Permutation order (copies c (seq 0 (length labels))) ->
  exists rep rep', ModelChecks.class_imbalance threshold K labels = Ok rep /\ ModelChecks.class_imbalance threshold K (pick 0%nat order labels) = Ok rep' /\
    ModelChecks.flags rep' = pick false order (ModelChecks.flags rep) /\ Forall2 Qeq (ModelChecks.scores rep') (pick 0 order (ModelChecks.scores rep)) /\
    ModelChecks.summary rep' == ModelChecks.summary rep.
Proof.
  intros Hc Hne HK Ho. set (l' := pick 0%nat order labels). assert (Hcop : cop c l' labels) by now apply pick_cop.
  assert (Hne' : l' <> []) by (intros E; apply (cop_nil _ _ _ Hc) in Hcop; now apply Hne, Hcop).
  destruct (ProofChecks.imbalance_spec threshold K labels Hne HK) as (r & rep & E & R & LF & LS & SU & N).
  destruct (ProofChecks.imbalance_spec threshold K l' Hne' HK) as (r' & rep' & E' & R' & LF' & LS' & SU' & N').
  assert (X : nmax l' = nmax labels) by (apply ProofMultiannotator.nmax_ext; intros x; now apply (cop_in c)). rewrite X in R'.
  assert (r' = r) by (apply (rarest_cop c l' labels (nmax labels + 1)); auto). subst r'. pose proof (fraction_cop c l' labels r Hc Hcop) as EF.
  assert (LT : forall i, (i < length order)%nat -> (nth i order 0 < length labels)%nat) by (intros i Hi; apply (ordc_in labels c order Hc Ho), nth_In; auto).
  assert (LL : length l' = length order) by apply pick_length.
  assert (NL : forall i, (i < length order)%nat -> nth i l' 0%nat = nth (nth i order 0%nat) labels 0%nat) by (intros i Hi; now apply pick_nth).
  exists rep, rep'. split; auto. split; auto. split; [|split].
  - apply (list_eq_nth _ _ false); [rewrite LF', pick_length; auto|]. rewrite LF', LL. intros i Hi. rewrite pick_nth by auto.
    apply eq_true_iff_eq. destruct (N' i) as (A' & _); [lia|]. destruct (N (nth i order 0%nat) (LT i Hi)) as (A & _).
    rewrite A, A', NL, EF by auto. reflexivity.
  - apply F2_nth_eq; [rewrite LS', pick_length; auto|]. rewrite LS', LL. intros i Hi. rewrite pick_nth by auto.
    destruct (N' i) as (_ & B' & C'); [lia|]. destruct (N (nth i order 0%nat) (LT i Hi)) as (_ & B & C). rewrite NL in B', C' by auto.
    destruct (Nat.eq_dec (nth (nth i order 0%nat) labels 0%nat) r) as [G|G]; [rewrite B, B' by auto; exact EF|rewrite C, C' by auto; reflexivity].
  - rewrite SU, SU'. exact EF.
Qed.

(** ** Multi-label data *)
Lemma multilabel_cop srt K labels pp c order o flt : (1 <= c)%nat -> argsort_ok srt -> ml_dataset K labels pp ->
  Permutation order (copies c (seq 0 (length labels))) -> (forall k, (k < K)%nat -> mixed labels k) ->
  flt = ConfidentLearning \/ flt = PredictedNeqGiven -> ml_num_to_remove o = None -> (1 <= ml_n_jobs o)%nat ->
  exists m, ml_find_label_issues srt labels pp K flt o None = Ok m /\ length m = length labels /\
    ml_find_label_issues srt (pick [] order labels) (pick [] order pp) K flt o None = Ok (pick false order m).
Proof.
  intros Hc Hs Hd Ho Hm Hf Hn Hj.
  assert (Hl : is_low flt = false) by (destruct Hf as [-> | ->]; auto).
  assert (Hi : forall i, In i order <-> (i < length labels)%nat).
  { intros i. rewrite (cop_in c order (seq 0 (length labels)) i Hc Ho), in_seq. lia. }
  assert (G : forall k, (k < K)%nat -> exists mc,
     find_label_issues srt (binary_labels labels K k) (binary_probs pp k) 2 flt (class_options o k) = Ok mc /\
     (length mc = length labels /\
      find_label_issues srt (binary_labels (pick [] order labels) K k) (binary_probs (pick [] order pp) k) 2 flt (class_options o k) = Ok (pick false order mc))).
  { intros k Hk.
    assert (E1 : binary_labels (pick [] order labels) K k = pick 0%nat order (binary_labels labels K k)).
    { rewrite !binary_labels_eq by auto. apply pick_map. intros i. apply Hi. }
    assert (E2 : binary_probs (pick [] order pp) k = pick [] order (binary_probs pp k)).
    { rewrite !binary_probs_eq. apply pick_map. intros i. rewrite <- (ml_len _ _ _ Hd). apply Hi. }
    rewrite E1, E2. pose proof (binary_dataset K labels pp k Hd Hk) as BD.
    destruct (picked_find 2 (binary_labels labels K k) (binary_probs pp k) order srt (class_options o k) flt) as (mc & E & L & E'); auto.
    - now apply binary_two, Hm.
    - intros i. now rewrite binary_length.
    - intros j Hj'. apply (thresholds_cop 2 _ _ c order); auto. now rewrite binary_length.
    - now apply class_options_none.
    - exists mc. rewrite binary_length in L. auto. }
  destruct (per_class_ok srt labels pp K flt o _ G) as (cols & E & L & F).
  exists (any_class (length labels) cols). unfold ml_find_label_issues. rewrite Hl. cbn [andb]. rewrite E. cbn [rbind].
  split; [reflexivity|]. split; [apply any_class_length|].
  assert (G' : forall k, (k < K)%nat -> exists mc,
     find_label_issues srt (binary_labels (pick [] order labels) K k) (binary_probs (pick [] order pp) k) 2 flt (class_options o k) = Ok mc /\
     mc = pick false order (nth k cols [])).
  { intros k Hk. destruct (F k Hk) as (_ & _ & E'). now exists (pick false order (nth k cols [])). }
  destruct (per_class_ok srt (pick [] order labels) (pick [] order pp) K flt o _ G') as (cols' & E' & L' & F'). rewrite E'. cbn [rbind]. f_equal.
  apply mask_ext; rewrite any_class_length, !pick_length; [reflexivity|]. intros e He. unfold flagged at 2. rewrite pick_nth by auto.
  fold (flagged (any_class (length labels) cols) (nth e order 0%nat)). rewrite !any_class_flag.
  assert (He' : (nth e order 0 < length labels)%nat) by (apply Hi, nth_In, He).
  split; intros (_ & m & Hin & Hfl); (split; [auto; now rewrite pick_length|]).
  - apply (in_nth_range m []) in Hin as (k & Hk & <-). destruct (F' k ltac:(lia)) as (_ & Ec). exists (nth k cols []). split; [apply nth_In; lia|].
    rewrite Ec in Hfl. unfold flagged in Hfl. now rewrite pick_nth in Hfl.
  - apply (in_nth_range m []) in Hin as (k & Hk & <-). destruct (F' k ltac:(lia)) as (_ & Ec). exists (nth k cols' []). split; [apply nth_In; lia|].
    rewrite Ec. unfold flagged. now rewrite pick_nth.
Qed.

(** ** Object detection *)
Section Images.
Import ModelDetection SpecDetection ProofDetection.
Lemma inputs_join K l1 l2 p1 p2 : detection_inputs K l1 p1 -> detection_inputs K l2 p2 -> detection_inputs K (l1 ++ l2) (p1 ++ p2).
Proof.
  intros (N1 & L1 & K1 & (C1 & C1') & B1) (N2 & L2 & K2 & (C2 & C2') & B2). split; [destruct l1; [congruence|discriminate]|].
  split; [rewrite !app_length; congruence|]. split; auto. split.
  - split; [intros p Hp; apply in_app_iff in Hp as [Hp|Hp]; auto|]. intros l kb Hl. apply in_app_iff in Hl as [Hl|Hl]; eauto.
  - intros i Hi. rewrite app_length in Hi. destruct (Nat.lt_ge_cases i (length l1)) as [G|G].
    + rewrite !app_nth1 by lia. auto.
    + rewrite !app_nth2 by lia. rewrite <- L1. apply B2. lia.
Qed.
Lemma least_join dist alpha l1 l2 p1 p2 m : length l1 = length p1 -> least_similarity dist alpha l1 p1 m -> least_similarity dist alpha l2 p2 m ->
  least_similarity dist alpha (l1 ++ l2) (p1 ++ p2) m.
Proof.
  intros L (A & B & C & D) (_ & _ & C2 & _). split; auto. split; auto. split.
  - intros a b (i & k & k' & q & H1 & H2). destruct (Nat.lt_ge_cases i (length l1)) as [G|G].
    + rewrite app_nth1 in H1, H2 by lia. apply C. exists i, k, k', q. auto.
    + rewrite app_nth2 in H1, H2 by lia. apply C2. exists (i - length l1)%nat, k, k', q. rewrite <- L in H2. auto.
  - destruct D as [D|(a & b & (i & k & k' & q & H1 & H2) & D)]; auto. right. exists a, b. split; auto. exists i, k, k', q.
    assert (i < length l1)%nat. { destruct (Nat.lt_ge_cases i (length l1)); auto. rewrite nth_overflow in H1 by auto. destruct H1. }
    rewrite !app_nth1 by lia. auto.
Qed.
Lemma images_cop dist K l p w check s c : (1 <= c)%nat -> (forall a b, unit_interval (dist a b)) -> detection_inputs K l p ->
  detection_scores dist l p w check = Ok s -> detection_scores dist (copies c l) (copies c p) w check = Ok (copies c s).
Proof.
  intros Hc Hd D E. pose proof D as (_ & L & _ & _ & B).
  pose proof (ProofDetection.amin_spec dist ALPHA l p Hd ProofDetectionR.alpha_unit L (fun i Hi => proj1 (B i Hi))) as M. set (m := min_possible_similarity _ _ _ _) in M.
  clearbody m. destruct c as [|c]; [lia|]. clear Hc.
  assert (G : detection_inputs K (copies (S c) l) (copies (S c) p) /\ least_similarity dist ALPHA (copies (S c) l) (copies (S c) p) m /\
    detection_scores dist (copies (S c) l) (copies (S c) p) w check = Ok (copies (S c) s)); [|apply G].
  induction c as [|c (I1 & I2 & I3)].
  - unfold copies. cbn [repeat concat]. rewrite !app_nil_r. auto.
  - change (copies (S (S c)) l) with (l ++ copies (S c) l). change (copies (S (S c)) p) with (p ++ copies (S c) p). change (copies (S (S c)) s) with (s ++ copies (S c) s).
    split; [now apply inputs_join|]. split; [now apply least_join|]. now apply (ProofParts.images_join dist K _ _ _ _ m).
Qed.
End Images.
