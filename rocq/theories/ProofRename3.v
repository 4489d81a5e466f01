(** * Lemmas about renaming the classes of multi-annotator data: annotator statistics, active learning *)
From Coq Require Import QArith Qabs List ZArith Bool Arith Lia Lqa Permutation.
From Verif Require Import Base BaseFacts ModelUtil ModelCount ModelRank ModelMultiannotator SpecCount SpecRank SpecMultiannotator SpecSymmetry SpecRows SpecRename
  ProofUtil ProofCount ProofRank ProofSymmetry ProofMultiannotator ProofReorder ProofRows ProofRename ProofRename2.
Import ListNotations.
Open Scope Q_scope.

Section Rename.
Context (K M : nat) (names : list nat) (t : table) (Pn : Permutation names (seq 0 K)) (HA : annotations M K t) (Hlen : (2 <= K)%nat).
Notation s := (fun k => nth k names 0%nat).
Notation rn := (map (option_map (fun l => nth l names 0%nat))).
Notation t' := (renamed_table names t).
Notation rl := (renamed_labels names).

Lemma entry_lt r j l : In r t -> nth j r None = Some l -> (l < K)%nat.
Proof.
  intros Hr E. apply (an_class _ _ _ HA r); auto. rewrite <- E. apply nth_In.
  destruct (le_lt_dec (length r) j) as [L|L]; [rewrite nth_overflow in E by auto; discriminate|auto].
Qed.
Lemma labelled_rn j u c : labelled_by j (map rn u) (rl c) = map (fun lc => (s (fst lc), s (snd lc))) (labelled_by j u c).
Proof.
  unfold labelled_by, renamed_labels. rewrite combine_map2. induction (combine u c) as [|[r k] l IH]; [reflexivity|]. cbn [map flat_map fst snd].
  rewrite nth_rn, map_app, IH. f_equal. destruct (nth j r None); reflexivity.
Qed.
Lemma labelled_lt j u c : (forall r, In r u -> In r t) -> (forall k, In k c -> (k < K)%nat) -> forall lc, In lc (labelled_by j u c) -> (fst lc < K)%nat /\ (snd lc < K)%nat.
Proof.
  intros Hu Hc lc H. unfold labelled_by in H. apply in_flat_map in H as ([r k] & HI & H). cbn [fst snd] in H.
  destruct (nth j r None) as [l|] eqn:E; [|destruct H]. destruct H as [<-|[]]. cbn [fst snd]. split.
  - eapply entry_lt; [|exact E]. apply Hu. eapply in_combine_l; eauto.
  - apply Hc. eapply in_combine_r; eauto.
Qed.
Lemma annotator_agreement_rn j u c : (forall r, In r u -> In r t) -> (forall k, In k c -> (k < K)%nat) ->
  annotator_agreement (map rn u) (rl c) j = annotator_agreement u c j.
Proof.
  intros Hu Hc. unfold annotator_agreement. rewrite labelled_rn, map_map. f_equal. apply map_ext_in. intros lc H.
  destruct (labelled_lt j u c Hu Hc lc H). unfold agrees. cbn [fst snd]. now rewrite (s_eqb K names Pn).
Qed.
Lemma quality_rn c pp pp' mw mw' aw aw' j : (forall k, In k c -> (k < K)%nat) -> (forall row, In row pp -> length row = K) -> renamed_matrix names pp pp' -> mw' == mw -> Forall2 Qeq aw' aw ->
  same_value (annotator_quality t' (rl c) pp' mw' aw' j) (annotator_quality t c pp mw aw j).
Proof.
  intros Hc HL HR Hm Hw. unfold annotator_quality. cbv zeta.
  set (g := fun rp : list (option nat) * list Q => match nth j (fst rp) None with Some l => [nth l (snd rp) 0] | None => [] end).
  assert (E1 : same_value (mean_opt (flat_map g (combine t' pp'))) (mean_opt (flat_map g (combine t pp)))).
  { apply mean_opt_F2. unfold renamed_table. assert (HB : forall r l, In r t -> nth j r None = Some l -> (l < K)%nat) by (intros; eapply entry_lt; eauto).
    clear - HL HR HB. revert t HB. induction HR as [|row row' p p' H1 _ IH]; intros [|r u] HB; try constructor. cbn [map combine flat_map].
    apply Forall2_app; [|apply IH; [intros x Hx; apply HL; right; auto|intros x l Hx; apply HB; right; auto]].
    unfold g. cbn [fst snd]. rewrite nth_rn. destruct (nth j r None) as [l|] eqn:E; cbn [option_map]; constructor; [|constructor].
    destruct H1 as [_ H1]. apply H1. rewrite (HL row (or_introl eq_refl)). apply (HB r); auto. left; auto. }
  assert (E2 : annotator_agreement (select (multi t') t') (select (multi t') (rl c)) j = annotator_agreement (select (multi t) t) (select (multi t) c) j).
  { rewrite multi_rn. unfold renamed_table at 1, renamed_labels. rewrite !select_map. apply annotator_agreement_rn.
    - intros r. apply select_in.
    - intros k Hk. apply Hc. eapply select_in; eauto. }
  assert (E3 : map (fun r => Qnat (num_annotations r)) t' = map (fun r => Qnat (num_annotations r)) t).
  { unfold renamed_table. rewrite map_map. apply map_ext. intros r. now rewrite num_rn. }
  rewrite E2, E3. destruct (mean_opt (flat_map g (combine t' pp'))), (mean_opt (flat_map g (combine t pp))); cbn in E1; try contradiction; [|exact I].
  destruct (annotator_agreement (select (multi t) t) _ j); [|exact I]. cbn [same_value]. rewrite E1, Hm, (qsum_Forall2 _ _ Hw), (F2_len _ _ _ Hw). reflexivity.
Qed.
Lemma entry_eq j r k : In r t -> (k < K)%nat -> (nth j (rn r) None = Some (s k) <-> nth j r None = Some k).
Proof.
  intros Hr Hk. rewrite nth_rn. destruct (nth j r None) as [l|] eqn:E; cbn [option_map]; [|split; discriminate]. pose proof (entry_lt r j l Hr E). split.
  - intros [= H1]. f_equal. now apply (s_inj K names Pn).
  - intros [= ->]. reflexivity.
Qed.
Lemma gave_rn j k : (k < K)%nat -> n_gave t' j (s k) = n_gave t j k.
Proof.
  intros Hk. unfold n_gave, renamed_table. rewrite filter_map_, map_length. f_equal. apply filter_ext_in. intros r Hr.
  pose proof (entry_eq j r k Hr Hk) as [A B]. destruct (entry_dec (nth j (rn r) None) _) as [E|E], (entry_dec (nth j r None) _) as [D|D]; tauto.
Qed.
Lemma right_rn c j k : (forall x, In x c -> (x < K)%nat) -> (k < K)%nat -> n_right t' (rl c) j (s k) = n_right t c j k.
Proof.
  intros Hc Hk. unfold n_right, renamed_table, renamed_labels. rewrite combine_map2, filter_map_, map_length. f_equal. apply filter_ext_in. intros [r x] HI. cbn [fst snd].
  pose proof (in_combine_l _ _ _ _ HI) as Hr. apply in_combine_r in HI.
  pose proof (entry_eq j r k Hr Hk) as [A B]. destruct (entry_dec (nth j (rn r) None) _) as [E|E], (entry_dec (nth j r None) _) as [D|D]; try tauto.
  apply (s_eqb K names Pn); auto.
Qed.
Lemma qualities_rn q q' j k : Forall2 Qeq q' q -> (k < K)%nat -> Forall2 Qeq (qualities_given t' q' j (s k)) (qualities_given t q j k).
Proof.
  intros HQ Hk. unfold renamed_table. assert (HB : forall r, In r t -> (nth j (rn r) None = Some (s k) <-> nth j r None = Some k)) by (intros r Hr; now apply entry_eq).
  clear - HQ HB. revert t HB. induction HQ as [|x y a b H1 _ IH]; intros [|r u] HB; try constructor. cbn [map qualities_given].
  assert (I : Forall2 Qeq (qualities_given (map rn u) a j (s k)) (qualities_given u b j k)) by (apply IH; intros z Hz; apply HB; right; auto).
  pose proof (HB r (or_introl eq_refl)) as [A B]. destruct (entry_dec (nth j (rn r) None) _) as [E|E], (entry_dec (nth j r None) _) as [D|D]; try tauto. constructor; auto.
Qed.
Lemma avg_def l : l <> [] -> is_average l (qmean l).
Proof.
  intros H. unfold is_average, qmean. assert (~ Qnat (length l) == 0) by (destruct l; [congruence|]; cbn [length]; rewrite Qnat_S; pose proof (Qnat_nonneg (length l)); lra).
  repeat split; auto; field; auto.
Qed.
Lemma qualities_len (u : table) q j k : length q = length u -> length (qualities_given u q j k) = n_gave u j k.
Proof.
  revert q. unfold n_gave. induction u as [|r u IH]; intros [|x q] L; try discriminate; [reflexivity|]. simpl in L. cbn [qualities_given filter].
  destruct (entry_dec (nth j r None) (Some k)); cbn [length]; rewrite IH by lia; reflexivity.
Qed.
Lemma gave_lt (u : table) j k : annotations M K u -> (1 <= n_gave u j k)%nat -> (k < K)%nat.
Proof.
  intros HU H. unfold n_gave in H. destruct (filter _ u) as [|r l] eqn:E; [simpl in H; lia|].
  assert (HI : In r (r :: l)) by (left; auto). rewrite <- E in HI. apply filter_In in HI as [HI D]. destruct (entry_dec (nth j r None) (Some k)) as [Er|]; [|discriminate].
  apply (an_class _ _ _ HU r); auto. rewrite <- Er. apply nth_In. destruct (le_lt_dec (length r) j) as [L|L]; [rewrite nth_overflow in Er by auto; discriminate|auto].
Qed.
Lemma worst_rn c q q' j : length c = length t -> length q = length t -> Forall2 Qeq q' q -> (forall k, In k c -> (k < K)%nat) ->
  (exists k, (1 <= n_gave t j k)%nat) -> distinct_classes t c q j ->
  worst_class (labelled_by j t' (rl c)) (labelled_quality j t' q') = s (worst_class (labelled_by j t c) (labelled_quality j t q)).
Proof.
  intros Lc Lq HQ Hc HG HU. pose proof (F2_len _ _ _ HQ) as Lq'.
  pose proof (C68_worst_full t c q j Lc Lq HG) as W. cbv zeta in W. set (w := worst_class (labelled_by j t c) _) in *.
  assert (Lc' : length (rl c) = length t') by (unfold renamed_labels; rewrite map_length, t'_len; auto).
  assert (Lqq : length q' = length t') by (rewrite t'_len; congruence).
  assert (HG' : exists k, (1 <= n_gave t' j k)%nat) by (destruct HG as (k & Hk); exists (s k); rewrite gave_rn; auto; eapply gave_lt; eauto).
  pose proof (C68_worst_full t' (rl c) q' j Lc' Lqq HG') as W'. cbv zeta in W'. set (w' := worst_class (labelled_by j t' (rl c)) _) in *.
  clearbody w w'. destruct W as (A & B & C & D). destruct W' as (A' & B' & C' & D').
  pose proof (gave_lt t j w HA A) as Kw. pose proof (gave_lt t' j w' (annotations_rn K M names t Pn HA) A') as Kw'.
  destruct (s_onto K names Pn w' Kw') as (v & Kv & <-). f_equal. specialize (B' (s w)). specialize (C' (s w)). specialize (D' (s w)).
  rewrite !gave_rn, !right_rn in * by auto. specialize (B' A). specialize (B v A').
  assert (E1 : (n_right t c j w * n_gave t j v = n_right t c j v * n_gave t j w)%nat) by lia.
  specialize (C v A' E1). specialize (C' A (eq_sym E1)). assert (E2 : n_gave t j v = n_gave t j w) by lia.
  assert (NE : forall u qq k, length qq = length u -> (1 <= n_gave u j k)%nat -> qualities_given u qq j k <> []).
  { intros u qq k L H E. apply (f_equal (@length Q)) in E. rewrite qualities_len in E by auto. simpl in E. lia. }
  symmetry. apply HU; auto.
  - rewrite E2 in E1. nia.
  - pose proof (D v _ _ A' E1 E2 (avg_def _ (NE t q v Lq A')) (avg_def _ (NE t q w Lq A))) as I1.
    pose proof (qmean_F2 _ _ (qualities_rn q q' j w HQ Kw)) as F1. pose proof (qmean_F2 _ _ (qualities_rn q q' j v HQ Kv)) as F2.
    assert (NEw : qualities_given t' q' j (s w) <> []) by (apply NE; auto; rewrite gave_rn; auto).
    assert (NEv : qualities_given t' q' j (s v) <> []) by (apply NE; auto; rewrite gave_rn; auto).
    pose proof (D' _ _ A (eq_sym E1) (eq_sym E2) (avg_def _ NEw) (avg_def _ NEv)) as I2. cbn beta in F1, F2. rewrite F1, F2 in I2.
    assert (EQ : qmean (qualities_given t q j w) == qmean (qualities_given t q j v)) by (apply Qle_antisym; auto).
    destruct (avg_def _ (NE t q v Lq A')) as [_ S1]. destruct (avg_def _ (NE t q w Lq A)) as [_ S2]. rewrite <- S1, <- S2, EQ, !qualities_len, E2 by auto. reflexivity.
Qed.
Lemma stats_full n info info' j : (j < M)%nat -> every_annotator_used M t -> good_info t M K n info -> same_consensus names info' info ->
  let st' := annotator_stats t' info' j in let st := annotator_stats t info j in
  same_value (st_quality st') (st_quality st) /\ same_value (st_agreement st') (st_agreement st) /\ st_num st' = st_num st /\
  (distinct_classes t (c_label info) (c_quality info) j -> st_worst st' = s (st_worst st)).
Proof.
  intros Hj HE (GL & GC & GQ & _ & _ & _ & [GD GD'] & _) (EL & EQ & _ & EP & EM & EA). unfold annotator_stats. cbn [st_quality st_agreement st_worst st_num].
  rewrite EL. split; [|split; [|split]].
  - apply quality_rn; auto; [intros row Hrow; now apply GD'|now apply qsum_Forall2].
  - unfold renamed_table. rewrite annotator_agreement_rn; auto. destruct (annotator_agreement t (c_label info) j); cbn; [reflexivity|exact I].
  - unfold renamed_table. rewrite map_map. f_equal. apply map_ext. intros r. now rewrite nth_rn, present_rn.
  - intros HU. apply worst_rn; auto. destruct (HE j Hj) as (r & k & Hr & E). exists k. unfold n_gave.
    assert (HI : In r (filter (fun r => if entry_dec (nth j r None) (Some k) then true else false) t)).
    { apply filter_In. split; [auto|]. destruct (entry_dec (nth j r None) (Some k)); [reflexivity|contradiction]. }
    destruct (filter _ t); [destruct HI|simpl; lia].
Qed.
Lemma active_rn fsqrt rnd rnd' prior prior' unl unl' sc u : distributions (length t) K prior -> clear_prediction prior -> renamed_matrix names prior prior' ->
  (forall row, In row unl -> length row = K) -> renamed_matrix names unl unl' -> (forall x, 0 < x -> 0 < fsqrt x) ->
  (forall r1 r2, get_majority_vote_label r1 t M (Some prior) K false = get_majority_vote_label r2 t M (Some prior) K false) ->
  get_active_learning_scores fsqrt rnd t M K prior unl = Ok (sc, u) ->
  exists sc' u', get_active_learning_scores fsqrt rnd' t' M K prior' unl' = Ok (sc', u') /\ Forall2 Qeq sc' sc /\ Forall2 Qeq u' u.
Proof.
  intros HD HU HR HUL HUR Hs HN H. assert (HW : forall r, In r t -> length r = M) by apply HA. pose proof HD as [LD DD]. pose proof (F2_len _ _ _ HR) as LR.
  assert (HV : prob_rel K names t (Some prior) (Some prior') K).
  { split; [reflexivity|]. split; [auto|]. intros i k Hi Hk. unfold mget. unfold renamed_matrix in HR.
    destruct (F2_nth_in _ _ _ i [] [] HR) as [_ HX]; [lia|]. apply HX. destruct (DD (nth i prior [])) as [L _]; [apply nth_In; lia|]. lia. }
  unfold get_active_learning_scores in *.
  assert (F : forallb (fun r => Nat.eqb (num_annotations r) 1) t' = forallb (fun r => Nat.eqb (num_annotations r) 1) t).
  { unfold renamed_table. clear. induction t as [|r v IH]; cbn [map forallb]; auto. now rewrite num_rn, IH. }
  rewrite F.
  assert (G : forall q q' mw mw' aw aw', Forall2 Qeq q' q -> mw' == mw -> Forall2 Qeq aw' aw ->
    sc = map (fun qr => active_score K aw mw (qmean aw) (fst qr) (snd qr)) (combine q t) -> u = map (active_score_unlabeled K mw (qmean aw)) unl ->
    Forall2 Qeq (map (fun qr => active_score K aw' mw' (qmean aw') (fst qr) (snd qr)) (combine q' t')) sc /\
    Forall2 Qeq (map (active_score_unlabeled K mw' (qmean aw')) unl') u).
  { intros q q' mw mw' aw aw' HQ Hm Ha -> ->. pose proof (qmean_F2 _ _ Ha) as HAv. split.
    - unfold renamed_table. clear - HQ Hm Ha HAv. revert t. induction HQ as [|a b v v' Hab _ IH]; intros [|r w]; cbn [combine map]; constructor; auto.
      cbn [fst snd]. rewrite !active_formula. rewrite Hab, (weight_rn names aw aw' r Ha), Hm, HAv. reflexivity.
    - clear - HUL HUR Hm HAv Pn Hlen. induction HUR as [|row row' p p' H1 _ IH]; cbn [map]; constructor; [|apply IH; intros x Hx; apply HUL; right; auto].
      rewrite !unlabeled_formula. rewrite (row_max K names Pn Hlen row row' (HUL row (or_introl eq_refl)) H1), Hm, HAv. reflexivity. }
  destruct (forallb (fun r => Nat.eqb (num_annotations r) 1) t) eqn:EF.
  - destruct (assert_valid_multiannotator t M _ true) as [[]|] eqn:EV; cbn [rbind] in H; [|discriminate].
    destruct (get_majority_vote_label rnd t M (Some prior) K false) as [c|] eqn:EC; cbn [rbind] in H; [|discriminate].
    destruct (mv_lt _ _ _ _ _ _ EC HW) as [LC BC]; [apply HA|].
    assert (Htn : t <> []).
    { unfold assert_valid_multiannotator in EV. intros E. rewrite E in EV. simpl in EV. destruct (existsb _ (seq 0 M)); discriminate. }
    assert (Hcn : c <> []) by (intros E; rewrite E in LC; destruct t; [congruence|discriminate]).
    rewrite (valid_scores K) in H; auto; [|rewrite LC; auto]. cbn [rbind] in H.
    assert (Es : sc = map (fun qr => active_score K (repeat 1 M) 1 (qmean (repeat 1 M)) (fst qr) (snd qr)) (combine (get_self_confidence c prior) t)) by congruence.
    assert (Eu : u = map (active_score_unlabeled K 1 (qmean (repeat 1 M))) unl) by congruence. clear H.
    rewrite <- LR. rewrite (valid_rn K M names t Pn HA (Some (length prior, K)) true (le_n K) EV). cbn [rbind].
    rewrite (vote_renamed K M names t Pn HA (Some prior) (Some prior') K false c rnd' HV) by (intros r; rewrite (HN r rnd); exact EC). cbn [rbind].
    assert (Lrl : length (rl c) = length t') by (unfold renamed_labels; rewrite map_length, t'_len; auto).
    rewrite (valid_scores K).
    2:{ rewrite Lrl. apply (distributions_rn K names t Pn Hlen prior); auto. }
    2:{ intros E. apply (f_equal (@length nat)) in E. rewrite Lrl, t'_len in E. destruct t; [congruence|discriminate]. }
    2:{ apply (renamed_lt K names Pn); auto. }
    cbn [rbind]. eexists. eexists. split; [reflexivity|].
    apply (G (get_self_confidence c prior) _ 1 1 (repeat 1 M) (repeat 1 M)); auto; [|reflexivity|apply F2_refl].
    unfold get_self_confidence, renamed_labels. assert (HLen : forall row, In row prior -> length row = K) by (intros row Hrow; now apply DD).
    clear - HR BC HLen. revert c BC. induction HR as [|row row' p p' H1 _ IH]; intros [|k c] BC; cbn [map combine]; constructor.
    + cbn [fst snd]. destruct H1 as [_ H1]. apply H1. rewrite (HLen row (or_introl eq_refl)). apply BC. left; auto.
    + apply IH; [intros x Hx; apply HLen; right; auto|intros x Hx; apply BC; right; auto].
  - destruct (get_label_quality_multiannotator fsqrt rnd t M K prior BestQuality) as [info|] eqn:EI; cbn [rbind] in H; [|discriminate].
    assert (Es : sc = map (fun qr => active_score K (annot_weights (c_post info)) (qsum (model_weights (c_post info))) (qmean (annot_weights (c_post info))) (fst qr) (snd qr)) (combine (c_quality info) t)) by congruence.
    assert (Eu : u = map (active_score_unlabeled K (qsum (model_weights (c_post info))) (qmean (annot_weights (c_post info)))) unl) by congruence. clear H.
    unfold get_label_quality_multiannotator in *.
    destruct (core_rn K M names t Pn HA Hlen fsqrt rnd rnd' [prior] [prior'] prior prior' BestQuality info) as (info' & E' & (_ & EQ & _ & _ & EM & EA)); auto; [discriminate|intros q [<-|[]]; auto|].
    rewrite E'. cbn [rbind]. eexists. eexists. split; [reflexivity|].
    apply (G (c_quality info) _ (qsum (model_weights (c_post info))) _ (annot_weights (c_post info)) _); auto. now apply qsum_Forall2.
Qed.
End Rename.

(** ** The statements *)
Lemma matrix_probs K names (t : table) p p' : length p = length t -> (forall row, In row p -> length row = K) -> renamed_matrix names p p' -> prob_rel K names t (Some p) (Some p') K.
Proof.
  intros L HL HR. pose proof (F2_len _ _ _ HR) as LR. split; [reflexivity|]. split; [auto|]. intros i k Hi Hk. unfold mget. unfold renamed_matrix in HR.
  destruct (F2_nth_in _ _ _ i [] [] HR) as [_ HX]; [lia|]. apply HX. rewrite HL; [auto|]. apply nth_In. lia.
Qed.
Lemma votes_none_full K M names t Kpp verbose mv rnd' : Permutation names (seq 0 K) -> annotations M K t ->
  (forall rnd, get_majority_vote_label rnd t M None Kpp verbose = Ok mv) ->
  get_majority_vote_label rnd' (renamed_table names t) M None Kpp verbose = Ok (renamed_labels names mv).
Proof. intros Pn HA. now apply (vote_renamed K M names t Pn HA None None). Qed.
Lemma votes_some_full K M names t p p' verbose mv rnd' : Permutation names (seq 0 K) -> annotations M K t ->
  length p = length t -> (forall row, In row p -> length row = K) -> renamed_matrix names p p' ->
  (forall rnd, get_majority_vote_label rnd t M (Some p) K verbose = Ok mv) ->
  get_majority_vote_label rnd' (renamed_table names t) M (Some p') K verbose = Ok (renamed_labels names mv).
Proof. intros Pn HA L HL HR. apply (vote_renamed K M names t Pn HA (Some p) (Some p')). now apply matrix_probs. Qed.
Lemma core_valid fsqrt rnd t M K priors vp method info : (forall r, In r t -> length r = M) -> label_quality_core fsqrt rnd t M K priors vp method = Ok info ->
  every_annotator_used M t.
Proof.
  intros HW H. unfold label_quality_core in H. destruct (assert_valid_multiannotator t M (Some (length vp, K)) false) as [[]|] eqn:EV; [|discriminate].
  now destruct (valid_inv t M (length vp) K HW EV) as (_ & _ & _ & HE).
Qed.
Lemma quality_any fsqrt rnd rnd' M K names t priors priors' vp vp' method info : Permutation names (seq 0 K) -> (forall r, In r t -> length r = M) -> (2 <= K)%nat -> priors <> [] ->
  (forall q, In q priors -> distributions (length t) K q /\ clear_prediction q) -> Forall2 (renamed_matrix names) priors priors' -> (forall x, 0 < x -> 0 < fsqrt x) ->
  prob_rel K names t (Some vp) (Some vp') K ->
  (forall r1 r2, get_majority_vote_label r1 t M (Some vp) K false = get_majority_vote_label r2 t M (Some vp) K false) ->
  label_quality_core fsqrt rnd t M K priors vp method = Ok info ->
  exists info', label_quality_core fsqrt rnd' (renamed_table names t) M K priors' vp' method = Ok info' /\ renamed_consensus names info' info /\ renamed_stats names M t info' info.
Proof.
  intros Pn HW HK Hne HD HR Hs HV HN H. assert (HD1 : forall q, In q priors -> distributions (length t) K q) by (intros q Hq; now apply HD).
  destruct (label_quality_inv fsqrt rnd t M K priors vp method info HW HK Hne HD1 Hs H) as (HA & _ & G & _). pose proof (core_valid _ _ _ _ _ _ _ _ _ HW H) as HE.
  destruct (core_rn K M names t Pn HA HK fsqrt rnd rnd' priors priors' vp vp' method info Hne HD HR Hs HV HN H) as (info' & E' & SC).
  exists info'. split; [exact E'|]. split; [destruct SC as (A & B & C & D & E & F); repeat (split; [assumption|]); assumption|].
  intros j Hj. apply (stats_full K M names t Pn HA HK (length priors) info info' j Hj HE G SC).
Qed.
Lemma quality_full fsqrt rnd rnd' M K names t prior prior' method info : Permutation names (seq 0 K) -> (forall r, In r t -> length r = M) -> (2 <= K)%nat ->
  distributions (length t) K prior -> clear_prediction prior -> renamed_matrix names prior prior' -> (forall x, 0 < x -> 0 < fsqrt x) ->
  (forall r1 r2, get_majority_vote_label r1 t M (Some prior) K false = get_majority_vote_label r2 t M (Some prior) K false) ->
  get_label_quality_multiannotator fsqrt rnd t M K prior method = Ok info ->
  exists info', get_label_quality_multiannotator fsqrt rnd' (renamed_table names t) M K prior' method = Ok info' /\ renamed_consensus names info' info /\ renamed_stats names M t info' info.
Proof.
  intros Pn HW HK HD HU HR Hs HN H. apply (quality_any fsqrt rnd rnd' M K names t [prior] [prior'] prior prior' method info); auto; [discriminate|intros q [<-|[]]; auto|].
  destruct HD as [L D]. apply matrix_probs; auto. intros row Hrow. now apply D.
Qed.
Lemma average_rn K names (t : table) priors priors' : Permutation names (seq 0 K) -> (forall p, In p priors -> distributions (length t) K p) -> Forall2 (renamed_matrix names) priors priors' ->
  prob_rel K names t (Some (average_priors (length t) K priors)) (Some (average_priors (length t) K priors')) K.
Proof.
  intros Pn HD HR. split; [reflexivity|]. unfold average_priors. split; [now rewrite !tab_length|]. intros i k Hi Hk.
  assert (ET : forall f a b, (a < length t)%nat -> (b < K)%nat -> mget (tab (length t) (fun i => tab K (f i))) a b = f a b) by (intros f a b Ha Hb; unfold mget; now rewrite !nth_tab by auto).
  rewrite !(ET (fun i k => qmean (map (fun p => mget p i k) _))) by (auto; apply (s_lt K names Pn); auto). apply qmean_F2. induction HR as [|p p' ps ps' H1 _ IH]; cbn [map]; constructor.
  - destruct (HD p (or_introl eq_refl)) as [L D]. apply (matrix_probs K names t p p'); auto. intros row Hrow. now apply D.
  - apply IH. intros q Hq. apply HD. right; auto.
Qed.
Lemma ensemble_full fsqrt rnd rnd' M K names t priors priors' info : Permutation names (seq 0 K) -> (forall r, In r t -> length r = M) -> (2 <= K)%nat -> priors <> [] ->
  (forall q, In q priors -> distributions (length t) K q /\ clear_prediction q) -> Forall2 (renamed_matrix names) priors priors' -> (forall x, 0 < x -> 0 < fsqrt x) ->
  (forall r1 r2, get_majority_vote_label r1 t M (Some (average_priors (length t) K priors)) K false = get_majority_vote_label r2 t M (Some (average_priors (length t) K priors)) K false) ->
  get_label_quality_multiannotator_ensemble fsqrt rnd t M K priors = Ok info ->
  exists info', get_label_quality_multiannotator_ensemble fsqrt rnd' (renamed_table names t) M K priors' = Ok info' /\ renamed_consensus names info' info /\ renamed_stats names M t info' info.
Proof.
  intros Pn HW HK Hne HD HR Hs HN H. unfold get_label_quality_multiannotator_ensemble in *. rewrite t'_len.
  apply (quality_any fsqrt rnd rnd' M K names t priors priors' (average_priors (length t) K priors) (average_priors (length t) K priors') BestQuality info Pn HW HK Hne HD HR Hs); auto. apply average_rn; auto. intros p Hp. now apply HD.
Qed.
Lemma active_full fsqrt rnd rnd' M K names t prior prior' unl unl' sc u : Permutation names (seq 0 K) -> annotations M K t -> (2 <= K)%nat ->
  distributions (length t) K prior -> clear_prediction prior -> renamed_matrix names prior prior' ->
  (forall row, In row unl -> length row = K) -> renamed_matrix names unl unl' -> (forall x, 0 < x -> 0 < fsqrt x) ->
  (forall r1 r2, get_majority_vote_label r1 t M (Some prior) K false = get_majority_vote_label r2 t M (Some prior) K false) ->
  get_active_learning_scores fsqrt rnd t M K prior unl = Ok (sc, u) ->
  exists sc' u', get_active_learning_scores fsqrt rnd' (renamed_table names t) M K prior' unl' = Ok (sc', u') /\ Forall2 Qeq sc' sc /\ Forall2 Qeq u' u.
Proof. intros Pn HA HK. now apply active_rn. Qed.
