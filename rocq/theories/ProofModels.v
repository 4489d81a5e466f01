From Coq Require Import QArith Qabs List Bool Arith Permutation Lia Lqa.
From Verif Require Import Base BaseFacts SpecCount ModelUtil ModelRank ModelMultiannotator SpecMultiannotator SpecSymmetry SpecRows SpecModels ProofSymmetry ProofReorder
  ProofMultiannotator ProofRows ProofIdeal.
Import ListNotations.
Open Scope Q_scope.

(** ** the vote only looks at the values of the prediction *)
Lemma modes_lt K r k : In k (modes K r) -> (k < K)%nat.
Proof. unfold modes. intros H. apply filter_In in H as [H _]. apply in_seq in H. lia. Qed.
Lemma vote_prior_ext K M t p p' i r : (forall k, (k < K)%nat -> mget p i k == mget p' i k) ->
  vote_of K M t (Some p) i r = vote_of K M t (Some p') i r.
Proof.
  intros H. unfold vote_of. cbv zeta.
  assert (E : tiebreak (keep_max (fun k => mget p i k)) (settle (modes K r)) = tiebreak (keep_max (fun k => mget p' i k)) (settle (modes K r))).
  { pose proof (modes_lt K r) as HL. unfold settle. destruct (modes K r) as [|a [|b l]]; cbn [tiebreak]; try reflexivity.
    rewrite (keep_max_ext _ (fun k => mget p' i k)); [reflexivity|]. intros k Hk. apply H, HL, Hk. }
  rewrite E. reflexivity.
Qed.
Lemma gmv_prior_ext rnd t M p p' K : (forall i k, (i < length t)%nat -> (k < K)%nat -> mget p i k == mget p' i k) ->
  get_majority_vote_label rnd t M (Some p) K false = get_majority_vote_label rnd t M (Some p') K false.
Proof.
  intros H. unfold get_majority_vote_label. cbn [rbind].
  assert (E : rmap (fun ir => draw rnd (fst ir) (vote_of K M t (Some p) (fst ir) (snd ir))) (combine (seq 0 (length t)) t) =
     rmap (fun ir => draw rnd (fst ir) (vote_of K M t (Some p') (fst ir) (snd ir))) (combine (seq 0 (length t)) t)).
  { apply rmap_ext_in. intros [i r] Hir. cbn [fst snd]. apply in_combine_l, in_seq in Hir. rewrite (vote_prior_ext K M t p p' i r); [reflexivity|].
    intros k Hk. apply H; auto; lia. }
  destruct (all_given t); rewrite E; reflexivity.
Qed.
Lemma mget_average N K priors i k : (i < N)%nat -> (k < K)%nat -> mget (average_priors N K priors) i k = qmean (map (fun p => mget p i k) priors).
Proof. intros Hi Hk. unfold average_priors, mget at 1. rewrite nth_tab by auto. rewrite nth_tab by auto. reflexivity. Qed.

(** ** one model *)
Lemma C143_single_full : forall fsqrt rnd t M K prior, length prior = length t ->
  get_label_quality_multiannotator_ensemble fsqrt rnd t M K [prior] = get_label_quality_multiannotator fsqrt rnd t M K prior BestQuality.
Proof.
  intros fsqrt rnd t M K prior L. unfold get_label_quality_multiannotator_ensemble, get_label_quality_multiannotator, label_quality_core.
  assert (LA : length (average_priors (length t) K [prior]) = length prior) by (unfold average_priors; rewrite tab_length; auto).
  rewrite LA. rewrite (gmv_prior_ext rnd t M (average_priors (length t) K [prior]) prior K); [reflexivity|].
  intros i k Hi Hk. rewrite mget_average by auto. cbn [map]. unfold qmean. rewrite qsum_cons. cbn [length]. change (qsum []) with 0. change (Qnat 1) with 1. field.
Qed.

(** ** the order of the models *)
Section Order.
Variables (t : table) (M K : nat) (priors : list (list (list Q))) (order : list nat) (fsqrt : Q -> Q).
Hypothesis Ho : Permutation order (seq 0 (length priors)).
Notation priors' := (pick [] order priors).

Lemma p_perm : Permutation priors' priors.
Proof. apply pick_perm. exact Ho. Qed.
Lemma m_pick (f : list (list Q) -> Q) : map f priors' = pick 0 order (map f priors).
Proof.
  apply (list_eq_nth _ _ 0); [rewrite map_length, !pick_length; auto|]. rewrite map_length, pick_length. intros a Ha.
  rewrite (nth_map_gen _ _ _ _ []) by (rewrite pick_length; auto). rewrite !pick_nth by auto.
  rewrite (nth_map_gen _ _ _ _ []); [reflexivity|].
  assert (X : In (nth a order 0%nat) (seq 0 (length priors))) by (apply (Permutation_in _ Ho), nth_In; auto). apply in_seq in X. lia.
Qed.
Lemma crowdlab_models c P : crowdlab fsqrt t M K c priors = Ok P ->
  exists P', crowdlab fsqrt t M K c priors' = Ok P' /\ same_rows (post P') (post P) /\ annot_weights P' = annot_weights P /\
    model_weights P' = pick 0 order (model_weights P).
Proof.
  unfold crowdlab. destruct (agreement_with_annotators t M) as [a|]; [|discriminate]. intros [= <-]. eexists. split; [reflexivity|].
  cbn [post annot_weights model_weights]. split; [|split; [reflexivity|apply m_pick]].
  set (mw := model_weight fsqrt t c (most_likely_class_error t c K)). set (cl := consensus_likelihood t c). set (aw := adjusted_agreement _ a).
  unfold same_rows. apply F2_map_same. intros [i r] _. cbn [fst snd]. unfold posterior_row. apply tab_F2. intros k _.
  assert (E1 : forall l, map (fun mp : Q * list Q => fst mp * nth k (snd mp) 0) (combine (map mw l) (map (fun p => nth i p []) l)) = map (fun p => mw p * nth k (nth i p []) 0) l).
  { clear. induction l as [|p l IH]; [reflexivity|]. cbn [map combine fst snd]. rewrite IH. reflexivity. }
  rewrite !E1. rewrite (qsum_perm _ _ (Permutation_map (fun p => mw p * nth k (nth i p []) 0) p_perm)), (qsum_perm _ _ (Permutation_map mw p_perm)). reflexivity.
Qed.
Definition same_info (i' i : consensus_info) : Prop :=
  c_label i' = c_label i /\ Forall2 Qeq (c_quality i') (c_quality i) /\ c_agreement i' = c_agreement i /\
  same_rows (post (c_post i')) (post (c_post i)) /\ annot_weights (c_post i') = annot_weights (c_post i) /\
  model_weights (c_post i') = pick 0 order (model_weights (c_post i)).
Lemma stats_models c info : annotations M K t -> has_overlap t -> (2 <= K)%nat -> length c = length t -> (forall k, In k c -> (k < K)%nat) -> priors <> [] ->
  (forall q, In q priors -> distributions (length t) K q) -> (forall x, 0 < x -> 0 < fsqrt x) ->
  consensus_stats fsqrt t M K priors c = Ok info ->
  exists info', consensus_stats fsqrt t M K priors' c = Ok info' /\ same_info info' info.
Proof.
  intros HA HO HK Lc Hc Hne HD Hs H.
  assert (HD' : forall q, In q priors' -> distributions (length t) K q) by (intros q Hq; apply HD, (Permutation_in _ p_perm), Hq).
  assert (Hne' : priors' <> []).
  { intros E. apply Hne. apply Permutation_nil. rewrite <- E. apply p_perm. }
  destruct (consensus_stats_ok fsqrt t M K c priors HA HO HK Lc Hc Hne HD Hs) as (i1 & E1 & G1 & L1).
  rewrite E1 in H. assert (info = i1) by congruence. subst info. clear H.
  destruct (consensus_stats_ok fsqrt t M K c priors' HA HO HK Lc Hc Hne' HD' Hs) as (i2 & E2 & G2 & L2).
  exists i2. split; auto.
  destruct (crowdlab_models c (c_post i1) (stats_crowdlab _ _ _ _ _ _ _ E1)) as (P' & EP' & S1 & S2 & S3).
  pose proof (stats_crowdlab _ _ _ _ _ _ _ E2) as EP2. rewrite EP' in EP2. assert (P' = c_post i2) by congruence. subst P'.
  assert (A1 : c_agreement i1 = agreement_with_consensus t c /\ c_agreement i2 = agreement_with_consensus t c).
  { unfold consensus_stats in E1, E2. split.
    - destruct (crowdlab fsqrt t M K c priors); [|discriminate]. cbn [rbind] in E1. destruct (get_label_quality_scores _ _ _ _ _); [|discriminate]. cbn [rbind] in E1. injection E1 as <-. reflexivity.
    - rewrite EP' in E2. cbn [rbind] in E2. destruct (get_label_quality_scores _ _ _ _ _); [|discriminate]. cbn [rbind] in E2. injection E2 as <-. reflexivity. }
  destruct A1 as [A1 A2].
  split; [congruence|]. split; [|split; [congruence|auto]].
  destruct G1 as (_ & _ & Q1 & _ & _ & _ & D1 & _ & _ & _ & _ & N1). destruct G2 as (_ & _ & Q2 & _ & _ & _ & D2 & _ & _ & _ & _ & N2).
  apply F2_nth_eq; [congruence|]. intros i Hi. rewrite Q2 in Hi. rewrite N2, N1 by auto. rewrite L1, L2. unfold mget.
  apply F2_nth_Q. apply (F2_nth _ _ _ S1 i [] []). destruct D2 as [D2 _]. rewrite D2. auto.
Qed.
Lemma core_models rnd info : (forall r, In r t -> length r = M) -> (2 <= K)%nat -> priors <> [] ->
  (forall q, In q priors -> distributions (length t) K q) -> (forall x, 0 < x -> 0 < fsqrt x) ->
  get_label_quality_multiannotator_ensemble fsqrt rnd t M K priors = Ok info ->
  exists info', get_label_quality_multiannotator_ensemble fsqrt rnd t M K priors' = Ok info' /\ same_info info' info.
Proof.
  intros HW HK Hne HD Hs H. unfold get_label_quality_multiannotator_ensemble in *. set (vp := average_priors (length t) K priors) in *. set (vp' := average_priors (length t) K priors').
  destruct (label_quality_inv fsqrt rnd t M K priors vp BestQuality info HW HK Hne HD Hs H) as (HA & HO & (GL & GC & _) & mv & minfo & EM & EI & EL & EC).
  unfold label_quality_core in H |- *.
  assert (LV : length vp' = length vp) by (unfold vp, vp', average_priors; rewrite !tab_length; auto). rewrite LV.
  destruct (assert_valid_multiannotator t M (Some (length vp, K)) false) as [[]|] eqn:EV; [|discriminate]. cbn [rbind].
  assert (EG : get_majority_vote_label rnd t M (Some vp') K false = Ok mv).
  { rewrite <- EM. apply gmv_prior_ext. intros i k Hi Hk. unfold vp, vp'. rewrite !mget_average by auto. apply qmean_perm, Permutation_map, p_perm. }
  rewrite EG. cbn [rbind].
  destruct (mv_lt _ _ _ _ _ _ EM HW) as [LM BM]; [apply HA|].
  destruct (stats_models mv minfo HA HO HK LM BM Hne HD Hs EI) as (mi' & E' & Smi). rewrite E'. cbn [rbind].
  destruct Smi as (_ & _ & _ & Sp & _). rewrite (best_label_ext _ _ mv Sp). rewrite <- EL. apply stats_models; auto.
Qed.
Lemma pick_id {A} (d : A) l n : length l = n -> pick d (seq 0 n) l = l.
Proof. intros <-. apply pick_seq. Qed.
Lemma annotator_models info info' j : length (model_weights (c_post info)) = length priors -> good_info t M K (length priors) info -> same_info info' info ->
  same_annotator (annotator_stats t info' j) (annotator_stats t info j).
Proof.
  intros LW (GL & _ & GQ & _ & _ & _ & [GD _] & _) (EL & EQ & _ & EP & EA & EM). unfold annotator_stats, same_annotator. cbn [st_quality st_agreement st_worst st_num].
  pose proof (Permutation_refl (seq 0 (length t))) as PI.
  rewrite EL. split; [|split; [|split; [|reflexivity]]].
  - pose proof (quality_rows t (seq 0 (length t)) PI (c_label info) (post (c_post info)) (post (c_post info')) (qsum (model_weights (c_post info'))) (qsum (model_weights (c_post info)))
      (annot_weights (c_post info')) (annot_weights (c_post info)) j GL GD) as X.
    rewrite !pick_id in X by auto. apply X; auto.
    + rewrite EM. apply qsum_perm, pick_perm. rewrite LW. exact Ho.
    + rewrite EA. clear. induction (annot_weights (c_post info)); constructor; auto. reflexivity.
  - destruct (annotator_agreement t (c_label info) j); cbn; auto. reflexivity.
  - apply worst_ext; auto. intros k. pose proof (class_quality_rows t (seq 0 (length t)) PI j (c_label info) (c_quality info) (c_quality info') k GL GQ) as X.
    rewrite !pick_id in X by auto. auto.
Qed.
End Order.

Lemma C143_order_full : forall t M K priors order fsqrt rnd info, Permutation order (seq 0 (length priors)) ->
  (forall r, In r t -> length r = M) -> (2 <= K)%nat -> priors <> [] ->
  (forall q, In q priors -> distributions (length t) K q) -> (forall x, 0 < x -> 0 < fsqrt x) ->
  get_label_quality_multiannotator_ensemble fsqrt rnd t M K priors = Ok info ->
  exists info', get_label_quality_multiannotator_ensemble fsqrt rnd t M K (pick [] order priors) = Ok info' /\
    c_label info' = c_label info /\ Forall2 Qeq (c_quality info') (c_quality info) /\ c_agreement info' = c_agreement info /\
    same_rows (post (c_post info')) (post (c_post info)) /\ annot_weights (c_post info') = annot_weights (c_post info) /\
    model_weights (c_post info') = pick 0 order (model_weights (c_post info)) /\
    forall j, same_annotator (annotator_stats t info' j) (annotator_stats t info j).
Proof.
  intros t M K priors order fsqrt rnd info Ho HW HK Hne HD Hs H.
  pose proof H as H0. unfold get_label_quality_multiannotator_ensemble in H0.
  destruct (label_quality_inv fsqrt rnd t M K priors _ BestQuality info HW HK Hne HD Hs H0) as (_ & _ & G & _).
  destruct (core_models t M K priors order fsqrt Ho rnd info HW HK Hne HD Hs H) as (info' & E' & S).
  exists info'. split; [auto|]. pose proof S as (A & B & C & D & E & F). repeat (split; [assumption|]).
  intros j. apply (annotator_models t M K priors order Ho info info' j); auto. apply G.
Qed.

(** ** better models weigh more *)
Lemma err_count : forall t p c, length p = length t -> length c = length t -> (forall r, In r t -> exists k, In (Some k) r) ->
  exists n, holds_for (length t) (contradicts t p c) n /\
    qsum (map (fun pc => indicator (negb (Nat.eqb (argmax (fst pc)) (snd pc)))) (combine (select (multi t) p) (select (multi t) c))) == Qnat n /\
    length (combine (select (multi t) p) (select (multi t) c)) = count_true (multi t).
Proof.
  induction t as [|r t IH]; intros [|x p] [|y c] Lp Lc HSm; try discriminate.
  - exists 0%nat. split; [apply (proj1 (holds_for_S 0 _))|]. split; reflexivity.
  - destruct (IH p c) as (n & Hn & Hq & Hl); [simpl in Lp; lia|simpl in Lc; lia|intros r' Hr'; apply HSm; right; auto|].
    destruct (proj2 (holds_for_S (length t) (contradicts (r :: t) (x :: p) (y :: c))) n Hn) as (H1 & H2).
    pose proof (num_pos r (HSm r (or_introl eq_refl))) as HP.
    unfold multi in *. cbn [map]. destruct (Nat.eqb_spec (num_annotations r) 1) as [E|E]; cbn [negb].
    + exists n. split; [apply H2; intros (X & _); cbn [nth] in X; lia|]. split; [exact Hq|exact Hl].
    + change (select (true :: map (fun r0 => negb (Nat.eqb (num_annotations r0) 1)) t) (x :: p)) with (x :: select (map (fun r0 => negb (Nat.eqb (num_annotations r0) 1)) t) p).
      change (select (true :: map (fun r0 => negb (Nat.eqb (num_annotations r0) 1)) t) (y :: c)) with (y :: select (map (fun r0 => negb (Nat.eqb (num_annotations r0) 1)) t) c).
      cbn [combine map length fst snd]. rewrite count_true_cons.
      destruct (Nat.eqb_spec (argmax x) y) as [F|F]; cbn [negb indicator].
      * exists n. split; [apply H2; intros (_ & X); apply X; exact F|]. split; [rewrite qsum_cons; transitivity (0 + Qnat n); [apply Qplus_comp; [reflexivity|exact Hq]|ring]|apply f_equal; exact Hl].
      * exists (S n). split; [apply H1; split; [cbn [nth]; lia|exact F]|]. split; [rewrite qsum_cons, Qnat_S; transitivity (1 + Qnat n); [apply Qplus_comp; [reflexivity|exact Hq]|ring]|apply f_equal; exact Hl].
Qed.
Lemma C143_weight_full : forall t M K priors fsqrt rnd info a b na nb,
  (forall r, In r t -> length r = M) -> (2 <= K)%nat -> priors <> [] ->
  (forall q, In q priors -> distributions (length t) K q) -> (forall x, 0 < x -> 0 < fsqrt x) ->
  get_label_quality_multiannotator_ensemble fsqrt rnd t M K priors = Ok info ->
  (a < length priors)%nat -> (b < length priors)%nat ->
  holds_for (length t) (contradicts t (nth a priors []) (c_label info)) na ->
  holds_for (length t) (contradicts t (nth b priors []) (c_label info)) nb ->
  (na <= nb)%nat -> nth b (model_weights (c_post info)) 0 <= nth a (model_weights (c_post info)) 0.
Proof.
  intros t M K priors fsqrt rnd info a b na nb HW HK Hne HD Hs H La Lb Ha Hb Hab. unfold get_label_quality_multiannotator_ensemble in H.
  destruct (label_quality_inv fsqrt rnd t M K priors _ BestQuality info HW HK Hne HD Hs H) as (HA & HO & (GL & GC & _) & _ & _ & _ & _ & _ & EC).
  apply stats_crowdlab in EC. set (c := c_label info) in *.
  unfold crowdlab in EC. destruct (agreement_with_annotators t M) as [ag|]; [|discriminate]. injection EC as EC. rewrite <- EC. cbn [model_weights].
  set (e := most_likely_class_error t c K).
  rewrite !(nth_map_gen _ _ _ _ []) by auto. unfold model_weight.
  set (s := fsqrt _).
  assert (HE : 0 < e) by (unfold e, most_likely_class_error; eapply Qlt_le_trans; [|apply clip_lo_ge]; reflexivity).
  assert (HS : 0 <= s).
  { unfold s. apply Qlt_le_weak, Hs, avg_annotations_pos; [|apply HA]. destruct HO as (r & _ & _ & Hr & _). intros E. rewrite E in Hr. destruct Hr. }
  destruct (err_count t (nth a priors []) c (proj1 (HD _ (nth_In _ _ La))) GL (an_some _ _ _ HA)) as (na' & Ha' & Qa & LLa).
  destruct (err_count t (nth b priors []) c (proj1 (HD _ (nth_In _ _ Lb))) GL (an_some _ _ _ HA)) as (nb' & Hb' & Qb & LLb).
  rewrite (holds_for_unique _ _ _ _ Ha' Ha) in Qa. rewrite (holds_for_unique _ _ _ _ Hb' Hb) in Qb.
  unfold qmean. rewrite !map_length, LLa, LLb, Qa, Qb.
  assert (HQ : Qnat na / Qnat (count_true (multi t)) / e <= Qnat nb / Qnat (count_true (multi t)) / e).
  { unfold Qdiv. apply Qmult_le_compat_r; [|apply Qlt_le_weak, Qinv_lt_0_compat; auto].
    apply Qmult_le_compat_r; [apply Qnat_le; auto|]. apply Qinv_le_0_compat, Qnat_nonneg. }
  apply Qmult_le_compat_r; auto.
  set (u := Qnat na / _ / e) in *. set (v := Qnat nb / _ / e) in *.
  destruct (qmax_spec (1 - u) CLIPPING_LOWER_BOUND) as [[X1 ->]|[X1 ->]], (qmax_spec (1 - v) CLIPPING_LOWER_BOUND) as [[X2 ->]|[X2 ->]]; lra.
Qed.
