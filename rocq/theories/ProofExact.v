(** * Proofs for C132 *)
From Coq Require Import QArith Qabs Qround List Permutation Sorted ZArith Bool Arith Lia Lqa Setoid Morphisms.
From Verif Require Import Base BaseFacts ModelUtil ModelCount ModelRank ModelPool ModelFilter ModelLatent ModelEstimate ModelBatched
     SpecCount SpecFilter SpecRank SpecEstimate SpecBatched SpecBatchFlags SpecIdeal SpecCV SpecMultilabel SpecSegmentation SpecExact
     ProofUtil ProofCount ProofPool ProofFilter ProofRank ProofEstimate ProofCV ProofIdeal ProofBatchFlags.
From Verif Require Import ModelSegmentation.
From Verif Require ModelLearn SpecLearn ProofLearn ModelToken SpecToken ProofToken ModelMultilabel ProofMultilabel ProofSegmentation.
Import ListNotations.
Open Scope Q_scope.

(** ** the batched search *)
Lemma confidently_other_wrong K labels tl pp e : dataset K labels pp -> two_classes labels -> ideal K labels tl pp ->
  (e < length labels)%nat -> (SpecBatchFlags.confidently_other labels pp e <-> wrong labels tl e).
Proof.
  intros D H2 ID He. pose proof (t_lt K labels tl pp D ID e He) as Ht. pose proof (row_len K labels pp D e He) as RL.
  assert (M : forall i, (i < K)%nat -> i <> nth e tl 0%nat -> nth i (row_of pp e) 0 < nth (nth e tl 0%nat) (row_of pp e) 0).
  { intros i Hi Hne. pose proof (id_lead _ _ _ _ ID e i He Hi Hne) as L. unfold prob_of in L.
    change (nth e pp []) with (row_of pp e) in L. lra. }
  assert (ML : most_likely (row_of pp e) (nth e tl 0%nat)).
  { split; [rewrite RL; auto|]. split.
    - intros i Hi. rewrite RL in Hi. destruct (Nat.eq_dec i (nth e tl 0%nat)) as [->|Hne]; [lra|]. apply Qlt_le_weak, M; auto.
    - intros i Hi. apply M; lia. }
  split.
  - intros (j & t & (Hj & Hmax & _) & Hne & _). split; auto. rewrite RL in Hj.
    destruct (Nat.eq_dec j (nth e tl 0%nat)) as [->|Hd]; [congruence|]. exfalso.
    pose proof (M j Hj Hd). specialize (Hmax (nth e tl 0%nat)). rewrite RL in Hmax. specialize (Hmax Ht). lra.
  - intros [_ Hw]. pose proof (id_class _ _ _ _ ID e He) as Hin.
    destruct (thresholds_spec labels pp K (nth e tl 0%nat) (ds_len _ _ _ D) Ht) as [S _].
    destruct (S Hin) as (a & Ha & _). exists (nth e tl 0%nat), a. split; auto. split; [congruence|]. split.
    + split; [auto|]. intro; tauto.
    + pose proof (id_sure _ _ _ _ ID e a He Ha). lra.
Qed.

Lemma n_wrong_le labels tl : length tl = length labels -> (n_wrong labels tl <= length labels)%nat.
Proof. revert tl. induction labels as [|l ls IH]; intros [|t ts] H; cbn in *; try lia. specialize (IH ts ltac:(lia)). destruct (Nat.eqb l t); lia. Qed.

Lemma C132_batched_full : forall srt K labels tl pp batch_size method js m, argsort_ok srt -> dataset K labels pp -> two_classes labels ->
  own_prob_floor labels pp -> ideal K labels tl pp ->
  method = NormalizedMargin \/ (method = SelfConfidence /\ wrong_less_sure labels tl pp) ->
  find_label_issues_batched srt labels pp K batch_size method false false js = Ok m ->
  length m = length labels /\ forall e, flagged m e <-> wrong labels tl e.
Proof.
  intros srt K labels tl pp bs method js m Hs D H2 Hfl ID HM H.
  destruct (flags_full srt labels pp K bs method js m Hs D (two_K _ _ _ D H2) Hfl H) as (scores & n & idx & Es & Hn & (Nd & Ln & Hlt & Hlow) & Lm & Hf).
  split; auto.
  assert (SEP : length scores = length labels /\
    forall e e', wrong labels tl e -> (e' < length labels)%nat -> ~ wrong labels tl e' -> nth e scores 0 < nth e' scores 0).
  { destruct HM as [->|[-> W]].
    - destruct (C131_scores_full K labels tl pp D H2 ID) as (s & Es' & Ls & Hsc). assert (s = scores) by congruence. subst s.
      split; auto. intros e e' [He Hw] He' Hw'. pose proof (proj2 (Hsc e He) (conj He Hw)) as A.
      assert (~ nth e' scores 0 < 1 # 2) as B by (intro X; apply Hw', (Hsc e' He'); auto). apply Qnot_lt_le in B. lra.
    - destruct (C15_scores_full K labels pp SelfConfidence D (two_K _ _ _ D H2)) as (s & Es' & Ls & Hsc).
      assert (s = scores) by congruence. subst s. split; auto. intros e e' We He' Hw'. destruct We as [He Hw].
      destruct (Hsc e He) as (_ & _ & A). destruct (Hsc e' He') as (_ & _ & A').
      rewrite A, A'. exact (W e e' (conj He Hw) He' Hw'). }
  destruct SEP as [Lsc SEP].
  assert (Hn' : holds_for (length labels) (wrong labels tl) n).
  { eapply holds_for_iff; [|exact Hn]. intros e He. eapply confidently_other_wrong; eauto. }
  assert (n = n_wrong labels tl) as En.
  { eapply holds_for_unique; [exact Hn'|]. eapply holds_for_iff; [|apply (n_wrong_holds labels tl (id_len _ _ _ _ ID))].
    intros e He. unfold wrong. tauto. }
  assert (Hi : forall e, In e idx <-> wrong labels tl e).
  { destruct Hn' as (P & NP & LP & HP). intro e. transitivity (In e P); [|rewrite HP; split; [tauto|intros [? ?]; split; auto; split; auto]].
    apply same_set; auto.
    - rewrite Ln, Lsc, LP. subst n. pose proof (n_wrong_le labels tl (id_len _ _ _ _ ID)). lia.
    - intros x y Hx Hx' Hy Hy'. apply HP in Hx as [Hx Wx]. pose proof (Hlt y Hy) as Hy1. rewrite Lsc in Hy1.
      assert (~ wrong labels tl y) as Wy by (intro X; apply Hy', HP; auto).
      pose proof (SEP x y Wx Hy1 Wy). pose proof (Hlow y x Hy ltac:(lia) Hx'). lra. }
  intro e. rewrite Hf, Hi. split; [tauto|]. intros [He Hw]. split; [split; auto|].
  apply (proj2 (beaten_wrong K labels tl pp D ID e He)). auto.
Qed.

(** ** CleanLearning *)
Lemma fit_search srt minv js cfg {A} (d : A) X k ds th nm im w s s' tr df :
  ModelLearn.fit srt minv js cfg d X k ds th nm im None w s = (s', Ok (tr, df)) ->
  exists s1 t m, ModelLearn.find_label_issues srt minv js cfg ds th nm im true s = (s1, Ok t) /\
    ModelLearn.d_issue t = Some (ModelLearn.BoolCol m) /\ ModelLearn.d_issue df = Some (ModelLearn.BoolCol m) /\
    ModelLearn.c_noise s' = ModelLearn.c_noise s1 /\ ModelLearn.c_num_classes s' = ModelLearn.c_num_classes s1.
Proof.
  intro H. unfold ModelLearn.fit in H. destruct (ModelLearn.w_in_clf_kwargs w); [discriminate|].
  destruct (match ModelLearn.w_given w with Some _ => _ | None => false end); [discriminate|].
  apply ProofLearn.mbind_ok in H. destruct H as (s1 & arg & E1 & H).
  apply ProofLearn.mbind_ok in E1. destruct E1 as (s1' & t & E & E1). injection E1 as -> <-.
  apply ProofLearn.mbind_ok in H. destruct H as (s2 & df0 & E2 & H). injection E2 as <- E2.
  apply ProofLearn.mbind_ok in H. destruct H as (s3 & [] & E3 & H). injection E3 as <-.
  apply ProofLearn.mbind_ok in H. destruct H as (s4 & df1 & E4 & H).
  destruct (ProofLearn.find_ok _ _ _ _ _ _ _ _ _ _ _ _ E) as (qk & _ & _ & R).
  assert (T : exists m q, ModelLearn.d_issue t = Some (ModelLearn.BoolCol m) /\ ModelLearn.d_quality t = Some q).
  { destruct (ModelLearn.low_memory cfg).
    - destruct R as (pp & m & q & _ & _ & _ & ->). exists m, q. split; reflexivity.
    - destruct R as (kw & _ & (pp & m & q & _ & _ & _ & ->) & _). exists m, q. split; reflexivity. }
  destruct T as (m & q & T1 & T2).
  assert (df0 = t).
  { unfold ModelLearn.process_label_issues_arg in E2. rewrite T1 in E2. destruct (negb _); [discriminate|].
    destruct (ModelLearn.d_given t); [destruct (existsb _ _); [discriminate|]|]; congruence. }
  subst df0. rewrite T2 in E4. injection E4 as <- <-. rewrite T1 in H.
  exists s1, t, m. split; auto. split; auto.
  apply ProofLearn.mbind_ok in H. destruct H as (s5 & [k' lab] & E5 & H). injection E5 as <- E5.
  apply ProofLearn.mbind_ok in H. destruct H as (s6 & xs & E6 & H). injection E6 as <- E6.
  apply ProofLearn.mbind_ok in H. destruct H as (s7 & noise & E7 & H). injection E7 as <- <-.
  apply ProofLearn.mbind_ok in H. destruct H as (s8 & nc & E8 & H). injection E8 as <- <-.
  cbn [fst snd] in H. cbn in H.
  destruct (ModelLearn.w_given w) as [g|]; destruct (ModelLearn.w_final w) as [f|].
  - injection H as <- <- <-. cbn. auto.
  - apply ProofLearn.mbind_ok in H. destruct H as (s9 & sw & E9 & H). injection E9 as <- _. injection H as <- <- <-. cbn. auto.
  - injection H as <- <- <-. cbn. auto.
  - destruct (ModelLearn.c_noise s1) as [n4|] eqn:N4.
    + destruct (ModelLearn.w_supported w).
      * apply ProofLearn.mbind_ok in H. destruct H as (s9 & aw & E9 & H). injection E9 as <- _.
        apply ProofLearn.mbind_ok in H. destruct H as (s10 & ew & E10 & H). injection E10 as <- _.
        apply ProofLearn.mbind_ok in H. destruct H as (s11 & [] & E11 & H). injection E11 as <-. injection H as <- <- <-. cbn. auto.
      * injection H as <- <- <-. cbn. auto.
    + injection H as <- <- <-. cbn. auto.
Qed.

Lemma find_noise srt minv js cfg kw qk ds sv s1 t : ModelLearn.low_memory cfg = false -> ModelLearn.pulearning cfg = None -> ModelLearn.kw_cj kw = None ->
  ModelLearn.find_label_issues srt minv js cfg ds None None None sv (ModelLearn.new_object kw qk) = (s1, Ok t) ->
  exists pp cj idx py N I K, ModelLearn.get_pred_probs ds = Ok pp /\
    compute_confident_joint srt (ModelLearn.ds_labels ds) pp (ModelLearn.width pp) None true = Ok (cj, idx) /\
    estimate_latent (zmat_to_q cj) (ModelLearn.ds_labels ds) LCnt (ModelLearn.converge_latent_estimates cfg) = Ok (py, N, I) /\
    ModelLearn.c_noise s1 = Some N /\ ModelLearn.get_num_classes ds None = Ok K /\ ModelLearn.c_num_classes s1 = Some K.
Proof.
  intros LM PU C0 H. unfold ModelLearn.find_label_issues in H. rewrite LM, PU in H.
  apply ProofLearn.mbind_ok in H. destruct H as (s2 & [] & E2 & H). injection E2 as <- _. cbn [ModelLearn.low_trace orb] in H.
  apply ProofLearn.mbind_ok in H. destruct H as (s3 & K & E3 & H). injection E3 as <- E3.
  apply ProofLearn.mbind_ok in H. destruct H as (s4 & [] & E4 & H). injection E4 as <-.
  destruct (_ && _)%bool; [discriminate|].
  apply ProofLearn.mbind_ok in H. destruct H as (s5 & [pp m] & E5 & H).
  apply ProofLearn.mbind_ok in E5. destruct E5 as (s6 & [] & E6 & E5). apply ProofLearn.mbind_ok in E5. destruct E5 as (s7 & pp' & E7 & E5).
  apply ProofLearn.mbind_ok in E5. destruct E5 as (s8 & [] & E8 & E5). injection E8 as <-.
  apply ProofLearn.mbind_ok in E5. destruct E5 as (s9 & [] & E9 & E5).
  apply ProofLearn.mbind_ok in E5. destruct E5 as (s10 & k & E10 & E5). injection E10 as <- <-.
  assert (S6 : ModelLearn.c_cj s6 = None /\ ModelLearn.c_num_classes s6 = Some K).
  { unfold ModelLearn.process_label_issues_kwargs, ModelLearn.mbind, ModelLearn.get in E6. cbn in E6. destruct (ModelLearn.kw_unsupported kw); [discriminate|]. rewrite C0 in E6.
    cbn in E6. injection E6 as <-. split; reflexivity. }
  destruct S6 as [S6 K6].
  unfold ModelLearn.estimate_noise in E7. unfold ModelLearn.mbind at 1, ModelLearn.get at 1 in E7. rewrite S6 in E7.
  unfold ModelLearn.mbind at 1, ModelLearn.mret at 1 in E7. unfold ModelLearn.mbind at 1, ModelLearn.mret at 1 in E7. unfold ModelLearn.mbind at 1, ModelLearn.mret at 1 in E7.
  apply ProofLearn.mbind_ok in E7. destruct E7 as (t1 & p & F1 & E7). injection F1 as <- F1.
  apply ProofLearn.mbind_ok in E7. destruct E7 as (t2 & [] & F2 & E7).
  apply ProofLearn.mbind_ok in F2. destruct F2 as (t3 & [cj idx] & F3 & F2). injection F3 as <- F3.
  apply ProofLearn.mbind_ok in F2. destruct F2 as (t4 & [[py N] I] & F4 & F2). injection F4 as <- F4. cbn [fst] in F4, F2.
  injection F2 as <-. unfold ModelLearn.mbind at 1, ModelLearn.get at 1 in E7. cbn in E7. injection E7 as <- <-.
  exists p, cj, idx, py, N, I, K. split; auto. split; auto. split; auto.
  assert (C9 : ModelLearn.c_noise s9 = Some N /\ ModelLearn.c_num_classes s9 = Some K).
  { unfold ModelLearn.remember_joint, ModelLearn.modify in E9. injection E9 as <-. cbn.
    destruct (ModelLearn.c_kwargs s6) as [kk|]; [|cbn; auto]. destruct (ModelLearn.kw_cj kk); [cbn; auto|]. destruct (ModelLearn.kw_filter kk) as [[]|]; cbn; auto. }
  assert (C5 : ModelLearn.c_noise s5 = Some N /\ ModelLearn.c_num_classes s5 = Some K).
  { destruct (ModelLearn.c_kwargs s9); [|discriminate]. apply ProofLearn.mbind_ok in E5. destruct E5 as (u1 & m' & G1 & E5). injection G1 as <- _. injection E5 as <- _ _. auto. }
  assert (C1 : ModelLearn.c_noise s1 = Some N /\ ModelLearn.c_num_classes s1 = Some K).
  { apply ProofLearn.mbind_ok in H. destruct H as (u1 & q & G1 & H). injection G1 as <- <-. destruct (ModelLearn.c_quality_kwargs s5) as [[]|]; [|discriminate].
    apply ProofLearn.mbind_ok in H. destruct H as (u2 & q & G2 & H). injection G2 as <- _.
    apply ProofLearn.mbind_ok in H. destruct H as (u3 & [] & G3 & H). injection H as <- _.
    destruct sv; injection G3 as <-; cbn; auto. }
  tauto.
Qed.

Lemma unflagged_correct labels tl m : length tl = length labels -> length m = length labels ->
  (forall e, flagged m e <-> wrong labels tl e) -> SpecLearn.unflagged m = correct_examples labels tl.
Proof.
  intros L Lm H. unfold SpecLearn.unflagged, correct_examples. rewrite Lm. apply filter_ext_in. intros e He. apply in_seq in He.
  specialize (H e). unfold flagged, wrong, label_of in H.
  destruct (Nat.eqb_spec (nth e labels 0%nat) (nth e tl 0%nat)) as [E|E]; destruct (nth e m false); cbn; auto; exfalso.
  - destruct H as [H _]. destruct (H eq_refl) as [_ X]. auto.
  - destruct H as [_ H]. assert (false = true); [|discriminate]. apply H. split; auto. lia.
Qed.

Lemma correct_labels labels tl : map (fun e => nth e labels 0%nat) (correct_examples labels tl) =
  map (fun e => nth e tl 0%nat) (correct_examples labels tl).
Proof.
  apply map_ext_in. intros e He. apply filter_In in He as [_ He]. apply Nat.eqb_eq in He. auto.
Qed.


Lemma width_K K labels pp : dataset K labels pp -> length (nth 0 pp []) = K.
Proof.
  intro D. apply (ds_row _ _ _ D), nth_In. rewrite <- (ds_len _ _ _ D). destruct labels; [destruct (ds_ne _ _ _ D); auto|simpl; lia].
Qed.

Lemma moderate_classes K labels tl pp : dataset K labels pp -> ideal K labels tl pp ->
  moderate_noise K (length labels) (tally K labels tl) -> classes_are K labels.
Proof.
  intros D ID [M _] c. split; [apply (ds_lab _ _ _ D)|]. intro Hc. destruct (M c Hc) as (_ & G & _).
  destruct (tally_ok K labels tl (id_len _ _ _ _ ID) (tl_lt K labels tl pp D ID)) as (_ & _ & _ & T). rewrite (T c Hc) in G.
  destruct (in_dec Nat.eq_dec c labels) as [|Hn]; auto. exfalso.
  assert (n_labelled c labels = 0%nat) as E.
  { clear -Hn. induction labels as [|l ls IH]; cbn; auto. rewrite IH; [|intro; apply Hn; right; auto].
    destruct (Nat.eqb_spec l c); auto. exfalso. apply Hn. left. auto. }
  rewrite E in G. assert (0 < Qnat (length labels)) as P.
  { destruct labels; [destruct (ds_ne _ _ _ D); auto|]. unfold Qnat, Qlt. cbn. lia. }
  assert (Qnat 0 == 0) as Z by reflexivity. rewrite Z in G. lra.
Qed.

Lemma C132_learn_full : forall A srt minv js cfg (d : A) X ds kw qk w s' tr df K labels tl pp,
  argsort_ok srt -> dataset K labels pp -> two_classes labels ->
  ideal K labels tl pp -> wrong_less_sure labels tl pp -> margins_separate labels tl pp ->
  correct_at_least (match ModelLearn.kw_min kw with Some n => Nat.max 1 n | None => 10 end) labels tl ->
  ModelLearn.ds_labels ds = labels -> match ModelLearn.ds_pred_probs ds with Some given => Ok given | None => ModelLearn.ds_cv ds end = Ok pp ->
  length X = length labels ->
  ModelLearn.pulearning cfg = None -> ModelLearn.low_memory cfg = false ->
  ModelLearn.kw_cj kw = None -> ModelLearn.kw_ntr kw = None -> ModelLearn.kw_frac kw == 1 ->
  ModelLearn.fit srt minv js cfg d X ModelLearn.Arr ds None None None None w (ModelLearn.new_object kw qk) = (s', Ok (tr, df)) ->
  (exists m, ModelLearn.d_issue df = Some (ModelLearn.BoolCol m) /\ length m = length labels /\ forall e, flagged m e <-> wrong labels tl e) /\
  ModelLearn.tr_X tr = map (fun e => nth e X d) (correct_examples labels tl) /\
  ModelLearn.tr_labels tr = map (fun e => nth e tl 0%nat) (correct_examples labels tl) /\
  (moderate_noise K (length labels) (tally K labels tl) ->
   ModelLearn.w_final w = None -> ModelLearn.w_given w = None -> ModelLearn.w_supported w = true ->
   exists ws, ModelLearn.tr_weights tr = Some (map ws (correct_examples labels tl)) /\
     forall e, In e (correct_examples labels tl) ->
       let l := nth e labels 0%nat in
       ws e == / qmax (Qnat (n_pair l l labels tl) / true_total K (tally K labels tl) l) (1 # 1000)).
Proof.
  intros A srt minv js cfg d X ds kw qk w s' tr df K labels tl pp Hs D H2 ID W1 W2 C1 El Epp LX PU LM Hcj Hntr Hfr H.
  pose proof (id_len _ _ _ _ ID) as Ltl. subst labels.
  destruct (fit_search _ _ _ _ _ _ _ _ _ _ _ _ _ _ _ _ H) as (s1 & t & m & F & T1 & T2 & N1 & N2).
  pose proof (ProofLearn.searched_first srt minv js cfg kw qk ds true s1 t None None PU LM Hcj F) as S.
  destruct S as (pp' & m' & q & Epp' & Fm & _ & ->). assert (pp' = pp) by congruence. subst pp'.
  cbn in T1. injection T1 as ->.
  pose proof (width_K K _ _ D) as WK. rewrite WK in Fm.
  assert (FL : forall e, flagged m e <-> wrong (ModelLearn.ds_labels ds) tl e).
  { eapply C131_every_full; [exact Hs|exact D|exact H2|exact ID|exact W1|exact W2| | | | |exact Fm]; cbn; auto.
    destruct (ModelLearn.kw_min kw); auto. }
  destruct (ProofLearn.fit_ok srt minv js cfg d X ModelLearn.Arr ds None None None None w _ s' tr df _ H T2 LX) as (_ & _ & arg & df0 & _ & _ & _ & R).
  destruct (R m eq_refl) as (Lm & TX & TL & WT & _). pose proof (unflagged_correct _ _ _ Ltl Lm FL) as UC. rewrite UC in *.
  split; [exists m; auto|]. split; auto. split; [rewrite TL; apply correct_labels|].
  intros MN Wf Wg Ws. destruct (WT eq_refl) as (Kn & EK & RW). unfold SpecLearn.right_weights in RW. rewrite Wf, Wg, Ws in RW.
  destruct (find_noise srt minv js cfg kw qk ds true s1 _ LM PU Hcj F) as (pp2 & cj & idx & py & N & I & K' & P2 & J & EL & EN & GK & K1).
  assert (pp2 = pp) by (unfold ModelLearn.get_pred_probs in P2; congruence). subst pp2. unfold ModelLearn.width in J. rewrite WK in J.
  destruct (cal_exact srt K _ tl pp Hs D H2 ID) as (idx' & J' & _). { intros k Hk. specialize (C1 k Hk). destruct (ModelLearn.kw_min kw); lia. }
  assert (cj = tally K (ModelLearn.ds_labels ds) tl) by congruence. subst cj.
  destruct (latent_exact K (ModelLearn.ds_labels ds) (tally K (ModelLearn.ds_labels ds) tl) LCnt (ModelLearn.converge_latent_estimates cfg) (ds_ne _ _ _ D) (ds_lab _ _ _ D)
    (tally_ok K _ tl Ltl (tl_lt K _ tl pp D ID)) MN) as (py' & N' & I' & EL' & P).
  assert (N' = N) by congruence. subst N'.
  assert (Kn = K).
  { assert (Kn = K') by congruence. subst K'. unfold ModelLearn.get_num_classes in GK. destruct (ModelLearn.ds_pred_probs ds) as [g|] eqn:G.
    - assert (g = pp) by congruence. subst g. unfold ModelLearn.width in GK. congruence.
    - pose proof (classes_unique K _ (moderate_classes K _ tl pp D ID MN)). congruence. }
  subst Kn. rewrite N1, EN in RW. eexists. split; [exact RW|].
  intros e He. cbn beta. unfold SpecLearn.label_weight. apply filter_In in He as [He _]. apply in_seq in He.
  assert (Hl : (nth e (ModelLearn.ds_labels ds) 0%nat < K)%nat) by (apply (ds_lab _ _ _ D), nth_In; lia).
  destruct (Nat.ltb_spec (nth e (ModelLearn.ds_labels ds) 0%nat) K); [|lia].
  destruct P as (_ & _ & _ & _ & P). destruct (P _ _ Hl Hl) as [P1 _]. unfold mget in P1. cbv zeta. rewrite tally_get in P1 by auto.
  fold (Qnat (n_pair (nth e (ModelLearn.ds_labels ds) 0%nat) (nth e (ModelLearn.ds_labels ds) 0%nat) (ModelLearn.ds_labels ds) tl)) in P1.
  apply Qinv_comp. rewrite P1. reflexivity.
Qed.

(** ** texts *)
Lemma wrong_token labels tl ij : map (@length nat) tl = map (@length nat) labels ->
  SpecToken.in_text (map (@length nat) labels) ij ->
  (wrong (concat labels) (concat tl) (SpecToken.position (map (@length nat) labels) ij) <->
   SpecToken.entry 0%nat labels ij <> SpecToken.entry 0%nat tl ij).
Proof.
  intros L Hin. assert (Hp := ProofToken.position_lt _ _ Hin). rewrite <- ProofToken.concat_length in Hp.
  pose proof (ProofToken.concat_entry 0%nat labels ij Hin) as Hl.
  pose proof (ProofToken.concat_entry 0%nat tl ij ltac:(rewrite L; auto)) as Ht. rewrite L in Ht.
  unfold wrong, label_of. rewrite Hl, Ht. tauto.
Qed.
Lemma tokens_from srt K labels tl pps rank_by flt o m : argsort_ok srt ->
  dataset K (concat labels) (concat pps) -> two_classes (concat labels) ->
  map (@length nat) tl = map (@length nat) labels ->
  find_label_issues srt (concat labels) (concat pps) K flt o = Ok m ->
  (forall e, flagged m e <-> wrong (concat labels) (concat tl) e) ->
  exists issues token_scores,
    ModelToken.token_find_label_issues srt labels pps K rank_by None flt o = Ok issues /\
    get_label_quality_scores (concat labels) (concat pps) K rank_by false = Ok token_scores /\
    NoDup issues /\
    (forall ij, In ij issues <-> SpecToken.in_text (map (@length nat) labels) ij /\ SpecToken.entry 0%nat labels ij <> SpecToken.entry 0%nat tl ij) /\
    StronglySorted (fun a b => nth (SpecToken.position (map (@length nat) labels) a) token_scores 0 <=
                               nth (SpecToken.position (map (@length nat) labels) b) token_scores 0) issues.
Proof.
  intros Hs D H2 L Hm Hf. destruct (ProofToken.C30_find_full srt K labels pps rank_by flt o m Hs D H2 Hm) as (issues & sc & E1 & E2 & Nd & Hi & So).
  exists issues, sc. split; auto. split; auto. split; auto. split; auto. intro ij. rewrite Hi, Hf. split; intros [A B]; split; auto; apply wrong_token; auto.
Qed.
Lemma C132_tokens_full : forall srt K labels tl pps rank_by flt o, argsort_ok srt ->
  dataset K (concat labels) (concat pps) -> two_classes (concat labels) ->
  map (@length nat) tl = map (@length nat) labels -> ideal K (concat labels) (concat tl) (concat pps) ->
  num_to_remove_per_class o = None -> (1 <= n_jobs o)%nat -> flt = ConfidentLearning \/ flt = PredictedNeqGiven ->
  let lens := map (@length nat) labels in
  exists issues token_scores,
    ModelToken.token_find_label_issues srt labels pps K rank_by None flt o = Ok issues /\
    get_label_quality_scores (concat labels) (concat pps) K rank_by false = Ok token_scores /\
    NoDup issues /\
    (forall ij, In ij issues <-> SpecToken.in_text lens ij /\ SpecToken.entry 0%nat labels ij <> SpecToken.entry 0%nat tl ij) /\
    StronglySorted (fun a b => nth (SpecToken.position lens a) token_scores 0 <= nth (SpecToken.position lens b) token_scores 0) issues.
Proof.
  intros srt K labels tl pps rank_by flt o Hs D H2 L ID Hn Hj HF lens.
  destruct (C131_issues_full srt K _ _ _ o Hs D H2 ID Hn Hj) as [_ A]. destruct (A flt HF) as (m & Hm & _ & Hf).
  eapply tokens_from; eauto.
Qed.
Lemma C132_tokens_any_full : forall srt K labels tl pps rank_by flt o m, argsort_ok srt ->
  dataset K (concat labels) (concat pps) -> two_classes (concat labels) ->
  map (@length nat) tl = map (@length nat) labels -> ideal K (concat labels) (concat tl) (concat pps) ->
  wrong_less_sure (concat labels) (concat tl) (concat pps) -> margins_separate (concat labels) (concat tl) (concat pps) ->
  num_to_remove_per_class o = None -> frac_noise o == 1 -> confident_joint o = None ->
  correct_at_least (Nat.max 1 (min_examples_per_class o)) (concat labels) (concat tl) ->
  find_label_issues srt (concat labels) (concat pps) K flt o = Ok m ->
  exists issues, ModelToken.token_find_label_issues srt labels pps K rank_by None flt o = Ok issues /\ NoDup issues /\
    forall ij, In ij issues <-> SpecToken.in_text (map (@length nat) labels) ij /\ SpecToken.entry 0%nat labels ij <> SpecToken.entry 0%nat tl ij.
Proof.
  intros srt K labels tl pps rank_by flt o m Hs D H2 L ID W1 W2 Hn Hf Hc C1 Hm.
  pose proof (C131_every_full srt K _ _ _ o flt m Hs D H2 ID W1 W2 Hn Hf Hc C1 Hm) as FL.
  destruct (tokens_from srt K labels tl pps rank_by flt o m Hs D H2 L Hm FL) as (issues & sc & E & _ & Nd & Hi & _). eauto.
Qed.

(** ** images *)
Lemma argmax_true K labels tl pp e : dataset K labels pp -> ideal K labels tl pp -> (e < length labels)%nat ->
  argmax (row_of pp e) = nth e tl 0%nat.
Proof.
  intros D ID He. pose proof (t_lt K labels tl pp D ID e He) as Ht. pose proof (row_len K labels pp D e He) as RL.
  assert (M : forall i, (i < K)%nat -> i <> nth e tl 0%nat -> nth i (row_of pp e) 0 < nth (nth e tl 0%nat) (row_of pp e) 0).
  { intros i Hi Hne. pose proof (id_lead _ _ _ _ ID e i He Hi Hne) as L. unfold prob_of in L.
    change (nth e pp []) with (row_of pp e) in L. lra. }
  apply (is_argmax_unique (row_of pp e)); [apply argmax_spec; intro E; rewrite E in RL; cbn in RL; cbn beta in Ht; lia|].
  split; [rewrite RL; auto|]. split.
  - intros i Hi. rewrite RL in Hi. destruct (Nat.eq_dec i (nth e tl 0%nat)) as [->|Hne]; [lra|]. apply Qlt_le_weak, M; auto.
  - intros i Hi. apply M; lia.
Qed.
Lemma C132_pixels_full : forall srt labels tl pp batch_size js issues, argsort_ok srt ->
  same_shape labels tl -> dataset (tK pp) (all_labels labels) (all_rows pp) -> two_classes (all_labels labels) ->
  own_prob_floor (all_labels labels) (all_rows pp) ->
  ideal (tK pp) (all_labels labels) (all_labels tl) (all_rows pp) ->
  wrong_less_sure (all_labels labels) (all_labels tl) (all_rows pp) ->
  seg_find_label_issues srt labels pp batch_size js 1 = Ok issues ->
  same_shape (A := bool) issues {| sN := sN labels; sH := sH labels; sW := sW labels; at3 := fun _ _ _ => false |} /\
  forall n i j, in_image labels n i j -> (at3 issues n i j = true <-> wrong_pixel labels tl n i j).
Proof.
  intros srt labels tl pp b js issues Hs (S1 & S2 & S3) D H2 Hfl ID W H.
  assert (HK : (0 < tK pp)%nat). { pose proof (two_K _ _ _ D H2). lia. }
  destruct (ProofSegmentation.C32_flagged_pred srt labels pp b js 1 issues HK H) as (sl & sp & ranked & bsz & _ & _ & Ed & Er & I1 & I2 & I3 & Hp).
  unfold downsample_arrays in Ed. cbn in Ed. assert (sl = labels) by congruence. assert (sp = pp) by congruence. subst sl sp. clear Ed.
  split; [split; [|split]; cbn; auto|].
  assert (C : sN labels = tN pp /\ sH labels = tH pp /\ sW labels = tW pp).
  { unfold seg_find_label_issues in H. destruct (valid_batch_size b); [|discriminate]. cbn [rbind] in H.
    destruct (check_input labels pp) eqn:E; [|discriminate]. unfold check_input in E.
    destruct (Nat.eqb_spec (sN labels) (tN pp)); [|discriminate]. destruct (Nat.eqb_spec (sH labels) (tH pp)); [|discriminate].
    destruct (Nat.eqb_spec (sW labels) (tW pp)); [|discriminate]. auto. }
  destruct C as (C1 & C2 & C3).
  destruct (ProofSegmentation.all_labels_size labels (ds_ne _ _ _ D)) as (P1 & P2 & P3).
  destruct (ProofSegmentation.C32_ranked_full srt labels pp bsz js ranked Hs C1 C2 C3 P2 P3 D Hfl Er) as (Nd & Hlt & _ & Hlow & cnt & Nc & Lc & Hc).
  cbv zeta in *.
  assert (LT : length (all_labels labels) = (sN labels * (sH labels * sW labels))%nat)
    by (rewrite ProofSegmentation.all_labels_flat, ProofSegmentation.flat_length, seq_length; reflexivity).
  assert (CW : forall p, In p cnt <-> wrong (all_labels labels) (all_labels tl) p).
  { intro p. rewrite Hc, <- LT. split.
    - intros [Hp1 (Hne & _)]. split; auto. intro E. apply Hne. symmetry. unfold label_of in E. rewrite E.
      symmetry. apply argmax_true with (1 := D) (2 := ID); auto.
    - intros [Hp1 Hw]. split; auto. pose proof (argmax_true _ _ _ _ p D ID Hp1) as EA. unfold row_of in EA.
      unfold SpecSegmentation.confidently_other. cbv zeta. rewrite EA. split; [unfold label_of in Hw; congruence|].
      pose proof (id_class _ _ _ _ ID p Hp1) as Hin. split; [|tauto]. intros _.
      destruct (thresholds_spec _ _ _ _ (ds_len _ _ _ D) (t_lt _ _ _ _ D ID p Hp1)) as [S _]. destruct (S Hin) as (a & Ha & _).
      exists a. split; auto. pose proof (id_sure _ _ _ _ ID p a Hp1 Ha) as X. unfold prob_of in X. lra. }
  assert (RW : forall p, In p ranked <-> wrong (all_labels labels) (all_labels tl) p).
  { intro p. rewrite <- CW. apply same_set; auto. intros x y Hx Hx' Hy Hy'. apply CW in Hx. rewrite CW in Hy'.
    assert (Hx1 := Hx). destruct Hx1 as [Hx1 _].
    pose proof (W x y Hx ltac:(rewrite LT; auto) Hy') as L1. pose proof (Hlow y x Hy ltac:(rewrite <- LT; auto) Hx') as L2.
    unfold prob_of, label_of in L1. lra. }
  intros n i j Hin. rewrite (Hp n i j Hin), !Nat.div_1_r, RW.
  destruct (ProofSegmentation.pixel_content labels pp n i j C1 C2 C3 Hin) as (Q1 & Q2 & Q3). cbv zeta in *.
  set (p := pixel_index (sH labels) (sW labels) n i j) in *.
  assert (Et : nth p (all_labels tl) 0%nat = at3 tl n i j).
  { unfold p. rewrite S2, S3, ProofSegmentation.all_labels_flat, ProofSegmentation.flat_nth; auto;
      destruct Hin as (A & B & C); congruence || lia. }
  unfold wrong, wrong_pixel, label_of. rewrite Q2, Et. split; [intros [[_ X] _]; auto|]. intros [_ X]. split; [split; auto|].
  intro PC. destruct PC as (K1 & K2 & _).
  assert (Hnw : at3 labels n i j <> nth p (all_labels tl) 0%nat) by congruence.
  pose proof (id_lead _ _ _ _ ID p (at3 labels n i j) Q1 K1 Hnw) as LL. unfold prob_of in LL.
  pose proof (t_lt _ _ _ _ D ID p Q1) as TL. rewrite (Q3 _ K1), (Q3 _ TL) in LL. specialize (K2 _ TL). lra.
Qed.

(** ** multi-label data *)
Lemma ideal_unwrap K labels tl pp c : length tl = length labels -> (c < K)%nat -> ml_ideal K labels tl pp ->
  ideal 2 (ModelMultilabel.binary_labels labels K c) (ModelMultilabel.binary_labels tl K c) (ModelMultilabel.binary_probs pp c).
Proof. intros L Hc [_ H]. apply (H c); auto; apply ProofMultilabel.binary_ovr; auto. Qed.
Lemma binary_wrong K labels tl e c : length tl = length labels -> (c < K)%nat ->
  (wrong (ModelMultilabel.binary_labels labels K c) (ModelMultilabel.binary_labels tl K c) e <->
   (e < length labels)%nat /\ misannotated labels tl e c).
Proof.
  intros L Hc. unfold wrong, label_of. rewrite ProofMultilabel.binary_length.
  split; intros [He H]; split; auto; rewrite !ProofMultilabel.binary_label_nth in * by lia;
    pose proof (ProofMultilabel.mem_has labels e c) as A; pose proof (ProofMultilabel.mem_has tl e c) as B; unfold misannotated in *;
    destruct (mem c (nth e labels [])), (mem c (nth e tl [])); try congruence.
  - left. split; [apply A; auto|]. intro X. apply B in X. discriminate.
  - right. split; [|apply B; auto]. intro X. apply A in X. discriminate.
  - exfalso. destruct H as [[_ H]|[H _]]; apply H; [apply B|apply A]; auto.
  - exfalso. destruct H as [[H _]|[_ H]]; [apply A in H|apply B in H]; discriminate.
Qed.
Lemma C132_multilabel_full : forall srt labels tl pp K o flt, argsort_ok srt -> ml_dataset K labels pp ->
  (forall c, (c < K)%nat -> mixed labels c) -> ml_ideal K labels tl pp ->
  ModelMultilabel.ml_num_to_remove o = None -> (1 <= ModelMultilabel.ml_n_jobs o)%nat ->
  flt = ConfidentLearning \/ flt = PredictedNeqGiven ->
  exists cols m, ModelMultilabel.issues_per_class srt labels pp K flt o None = Ok cols /\ length cols = K /\
    (forall c, (c < K)%nat -> forall e, flagged (nth c cols []) e <-> (e < length labels)%nat /\ misannotated labels tl e c) /\
    ModelMultilabel.ml_find_label_issues srt labels pp K flt o None = Ok m /\ length m = length labels /\
    forall e, flagged m e <-> (e < length labels)%nat /\ exists c, (c < K)%nat /\ misannotated labels tl e c.
Proof.
  intros srt labels tl pp K o flt Hs HD HM ID Hn Hj HF. pose proof ID as [L _].
  destruct (ProofMultilabel.per_class_ok srt labels pp K flt o
    (fun c mc => forall e, flagged mc e <-> (e < length labels)%nat /\ misannotated labels tl e c)) as (cols & E & Lc & G).
  { intros c Hc. destruct (C131_issues_full srt 2 _ _ _ (ModelMultilabel.class_options o c) Hs (ProofMultilabel.binary_dataset K labels pp c HD Hc)
      (ProofMultilabel.binary_two K labels c Hc (HM c Hc)) (ideal_unwrap K labels tl pp c L Hc ID) (ProofMultilabel.class_options_none o c Hn) Hj) as [_ X].
    destruct (X flt HF) as (mc & Em & _ & Fm). exists mc. split; auto. intro e. rewrite Fm. apply binary_wrong; auto. }
  exists cols, (ModelMultilabel.any_class (length labels) cols). split; [exact E|]. split; [exact Lc|]. split; [intros c Hc; apply (G c Hc)|]. split.
  { unfold ModelMultilabel.ml_find_label_issues. assert (is_low flt = false) as -> by (destruct HF as [->| ->]; reflexivity). cbn [andb]. rewrite E. reflexivity. }
  split; [apply ProofMultilabel.any_class_length|]. intros e. rewrite ProofMultilabel.any_class_flag. split.
  - intros (He & mc & Hm & Hf). apply (ProofMultilabel.in_nth_range mc []) in Hm as (c & Hc & <-). split; [auto|].
    exists c. split; [lia|]. apply G in Hf; [tauto|lia].
  - intros (He & c & Hc & Hd). split; [auto|]. exists (nth c cols []). split; [apply nth_In; lia|]. apply G; auto.
Qed.
Lemma C132_uniform_full : forall K labels tl pp a b, ml_dataset K labels pp -> length tl = length labels ->
  (forall c, (c < K)%nat -> mixed labels c) -> ml_uniform K tl pp a b ->
  (forall c, (c < K)%nat -> b c + (1 # 2000000) < 1 # 2 /\ (1 # 2) + (1 # 2000000) < a c) -> ml_ideal K labels tl pp.
Proof.
  intros K labels tl pp a b HD L HM U HA. split; auto. intros c bl btl bp Hc O1 O2.
  destruct (ProofMultilabel.ovr_unique _ _ _ _ _ _ _ O1 (ProofMultilabel.binary_ovr labels pp K c Hc)) as [-> ->].
  assert (btl = ModelMultilabel.binary_labels tl K c).
  { destruct (ProofMultilabel.ovr_unique _ _ _ _ _ _ _ O2 (ProofMultilabel.binary_ovr tl pp K c Hc)) as [X _]. exact X. }
  subst btl. pose proof (ml_len _ _ _ HD) as Lp.
  apply (C131_conditional_full 2 _ _ _ (fun k y => if Nat.eqb y 1 then (if Nat.eqb k 1 then a c else 1 - a c) else (if Nat.eqb k 1 then b c else 1 - b c))).
  - apply ProofMultilabel.binary_dataset; auto.
  - rewrite !ProofMultilabel.binary_length. auto.
  - assert (B : In 0%nat (ModelMultilabel.binary_labels labels K c) /\ In 1%nat (ModelMultilabel.binary_labels labels K c)).
    { destruct (ProofMultilabel.binary_two K labels c Hc (HM c Hc)) as (x & y & Hx & Hy & Hxy).
      assert (forall l, In l (ModelMultilabel.binary_labels labels K c) -> (l < 2)%nat) as B by (apply (ds_lab _ _ _ (ProofMultilabel.binary_dataset K labels pp c HD Hc))).
      pose proof (B x Hx). pose proof (B y Hy). destruct x as [|[|x]], y as [|[|y]]; try lia; auto. }
    intros x Hx. apply (In_nth _ _ 0%nat) in Hx as (e & He & <-). rewrite ProofMultilabel.binary_length in He.
    rewrite ProofMultilabel.binary_label_nth by auto. destruct (mem c (nth e tl [])); tauto.
  - intros e k He Hk. rewrite ProofMultilabel.binary_length in He. unfold prob_of. rewrite ProofMultilabel.binary_prob_nth by lia.
    rewrite ProofMultilabel.binary_label_nth by auto. destruct (U e c He Hc) as [U1 U2]. pose proof (ProofMultilabel.mem_has tl e c) as M.
    destruct (mem c (nth e tl [])); cbn.
    + assert (has_class tl e c) as X by (apply M; auto). specialize (U1 X). unfold prob_of in U1. destruct k as [|[|k]]; cbn; [rewrite U1; reflexivity|exact U1|lia].
    + assert (~ has_class tl e c) as X by (intro Y; apply M in Y; discriminate). specialize (U2 X). unfold prob_of in U2.
      destruct k as [|[|k]]; cbn; [rewrite U2; reflexivity|exact U2|lia].
  - intros j k Hj Hk Hne. destruct (HA c Hc). destruct j as [|[|j]], k as [|[|k]]; try lia; cbn; split; lra.
Qed.

(** ** CleanLearning with low_memory *)
Lemma C132_learn_low_full : forall A srt minv js cfg (d : A) X ds kw qk w s' tr df K labels tl pp,
  argsort_ok srt -> dataset K labels pp -> two_classes labels -> own_prob_floor labels pp ->
  ideal K labels tl pp -> wrong_less_sure labels tl pp ->
  ModelLearn.ds_labels ds = labels -> match ModelLearn.ds_pred_probs ds with Some given => Ok given | None => ModelLearn.ds_cv ds end = Ok pp ->
  length X = length labels -> ModelLearn.low_memory cfg = true ->
  ModelLearn.fit srt minv js cfg d X ModelLearn.Arr ds None None None None w (ModelLearn.new_object kw qk) = (s', Ok (tr, df)) ->
  (exists m, ModelLearn.d_issue df = Some (ModelLearn.BoolCol m) /\ length m = length labels /\ forall e, flagged m e <-> wrong labels tl e) /\
  ModelLearn.tr_X tr = map (fun e => nth e X d) (correct_examples labels tl) /\
  ModelLearn.tr_labels tr = map (fun e => nth e tl 0%nat) (correct_examples labels tl).
Proof.
  intros A srt minv js cfg d X ds kw qk w s' tr df K labels tl pp Hs D H2 Hfl ID W1 El Epp LX LM H.
  pose proof (id_len _ _ _ _ ID) as Ltl. subst labels.
  destruct (fit_search _ _ _ _ _ _ _ _ _ _ _ _ _ _ _ _ H) as (s1 & t & m & F & T1 & T2 & N1 & N2).
  destruct (ProofLearn.find_ok _ _ _ _ _ _ _ _ _ _ _ _ F) as (qk' & _ & _ & R). rewrite LM in R.
  destruct R as (pp' & m' & q & Epp' & Fm & _ & ->). assert (pp' = pp) by (unfold ModelLearn.get_pred_probs in Epp'; congruence). subst pp'.
  cbn in T1. injection T1 as ->.
  pose proof (width_K K _ _ D) as WK. unfold ModelLearn.width in Fm. rewrite WK in Fm.
  destruct (C132_batched_full srt K _ tl pp _ SelfConfidence js m Hs D H2 Hfl ID (or_intror (conj eq_refl W1)) Fm) as [_ FL].
  destruct (ProofLearn.fit_ok srt minv js cfg d X ModelLearn.Arr ds None None None None w _ s' tr df _ H T2 LX) as (_ & _ & arg & df0 & _ & _ & _ & R).
  destruct (R m eq_refl) as (Lm & TX & TL & _). pose proof (unflagged_correct _ _ _ Ltl Lm FL) as UC. rewrite UC in *.
  split; [exists m; auto|]. split; auto. rewrite TL; apply correct_labels.
Qed.
