(** * Lemmas about classes that do not occur among the labels *)
From Coq Require Import QArith Qabs List Sorted ZArith Bool Arith Lia Lqa.
From Verif Require Import Base BaseFacts ModelUtil ModelCount ModelRank ModelFilter SpecCount SpecFilter SpecRank SpecUnused SpecSymmetry
  ProofUtil ProofCount ProofFilter ProofRank ProofTotal ProofSymmetry ProofIdeal ProofTwice ProofStable ProofMonotone.
Import ListNotations.
Open Scope Q_scope.

Section Unused.
Variables (K : nat) (labels : list nat) (pp : list (list Q)) (qs : list Q).
Hypothesis Hd : dataset K labels pp.
Hypothesis Hq : below_label labels pp qs.
Let pp' := with_class pp qs.

Lemma wc_length : length pp' = length labels.
Proof. unfold pp', with_class. rewrite map_length, combine_length. pose proof (ds_len _ _ _ Hd). destruct Hq as (L & _). lia. Qed.
Lemma wc_row e : (e < length labels)%nat -> row_of pp' e = row_of pp e ++ [nth e qs 0].
Proof.
  intros He. unfold row_of, pp', with_class. pose proof (ds_len _ _ _ Hd) as L1. destruct Hq as (L2 & _).
  rewrite (nth_map_gen _ _ _ _ ([], 0)) by (rewrite combine_length; lia). rewrite combine_nth by lia. reflexivity.
Qed.
Lemma wc_prob e k : (e < length labels)%nat -> (k < K)%nat -> prob_of pp' e k = prob_of pp e k.
Proof.
  intros He Hk. unfold prob_of. fold (row_of pp' e) (row_of pp e). rewrite wc_row by auto. apply app_nth1. rewrite (rowK K labels pp Hd e He). exact Hk.
Qed.
Lemma wc_new e : (e < length labels)%nat -> prob_of pp' e K = nth e qs 0.
Proof.
  intros He. unfold prob_of. fold (row_of pp' e). rewrite wc_row by auto. rewrite app_nth2; rewrite (rowK K labels pp Hd e He); [|lia].
  now rewrite Nat.sub_diag.
Qed.
Lemma wc_dataset : dataset (S K) labels pp'.
Proof.
  pose proof Hd as [D1 D2 D3 D4 D5]. split.
  - symmetry. apply wc_length.
  - exact D2.
  - intros l Hl. specialize (D3 l Hl). lia.
  - intros r Hr. apply In_nth with (d := []) in Hr as (e & He & <-). rewrite wc_length in He. fold (row_of pp' e). rewrite wc_row by auto.
    rewrite app_length, (rowK K labels pp Hd e He). cbn. lia.
  - intros r x Hr Hx. apply In_nth with (d := []) in Hr as (e & He & <-). rewrite wc_length in He. fold (row_of pp' e) in Hx. rewrite wc_row in Hx by auto.
    apply in_app_iff in Hx as [Hx|[<-|[]]].
    + apply (D5 (row_of pp e)); auto. apply nth_In. lia.
    + destruct Hq as (_ & Q). destruct (Q e He) as (Q1 & Q2). split; [exact Q1|]. apply Qle_trans with (prob_of pp e (label_of labels e)); auto.
      apply (D5 (row_of pp e)); [apply nth_In; lia|]. apply nth_In. rewrite (rowK K labels pp Hd e He). apply D3, nth_In, He.
Qed.
Lemma wc_own k : (k < K)%nat -> own_probs k labels pp' = own_probs k labels pp.
Proof.
  intros Hk. rewrite (own_all k labels pp' (eq_sym wc_length)), (own_all k labels pp (ds_len _ _ _ Hd)). unfold own_of. apply map_ext_in. intros e He.
  apply filter_In in He as (He & _). apply in_seq in He. apply wc_prob; auto. lia.
Qed.
Lemma wc_thr k : (k < K)%nat ->
  nth k (get_confident_thresholds labels pp' (S K)) 0 == nth k (get_confident_thresholds labels pp K) 0.
Proof.
  intros Hk. destruct (thresholds_spec labels pp K k (ds_len _ _ _ Hd) Hk) as (A1 & A2).
  destruct (thresholds_spec labels pp' (S K) k (eq_sym wc_length) ltac:(lia)) as (B1 & B2).
  destruct (in_dec Nat.eq_dec k labels) as [Hin|Hin].
  - destruct (A1 Hin) as (a & Ha & ->). destruct (B1 Hin) as (b & Hb & ->). rewrite wc_own in Hb by auto.
    pose proof (average_unique _ _ _ Ha Hb) as E. pose proof (qmax_close b a CONFIDENT_THRESHOLDS_LOWER_BOUND 0) as X.
    assert (Y : Qabs (b - a) <= 0) by (apply (proj2 (abs_cases _ _)); lra). specialize (X Y). apply (proj1 (abs_cases _ _)) in X. lra.
  - rewrite A2, B2 by auto. reflexivity.
Qed.
Lemma wc_thr_new : nth K (get_confident_thresholds labels pp' (S K)) 0 == 2.
Proof.
  destruct (thresholds_spec labels pp' (S K) K (eq_sym wc_length) ltac:(lia)) as (_ & B2). apply B2.
  intros C. apply (ds_lab _ _ _ Hd) in C. lia.
Qed.
Lemma wc_new_one e : (e < length labels)%nat -> prob_of pp' e K <= 1.
Proof.
  intros He. apply (ds_prob _ _ _ wc_dataset (row_of pp' e)); [apply nth_In; rewrite wc_length; lia|]. apply nth_In.
  rewrite (rowK (S K) labels pp' wc_dataset e He). lia.
Qed.
Lemma wc_reaches e j : (e < length labels)%nat ->
  reaches (get_confident_thresholds labels pp' (S K)) (row_of pp' e) j <-> reaches (get_confident_thresholds labels pp K) (row_of pp e) j.
Proof.
  intros He. unfold reaches. rewrite (rowK K labels pp Hd e He), (rowK (S K) labels pp' wc_dataset e He).
  split; intros (A & B).
  - destruct (Nat.eq_dec j K) as [->|N].
    + exfalso. pose proof wc_thr_new. pose proof (wc_new_one e He) as P. unfold prob_of in P. fold (row_of pp' e) in P. lra.
    + split; [lia|]. pose proof (wc_thr j ltac:(lia)). pose proof (wc_prob e j He ltac:(lia)) as P. unfold prob_of in P. fold (row_of pp' e) (row_of pp e) in P. rewrite P in B. lra.
  - split; [lia|]. pose proof (wc_thr j A). pose proof (wc_prob e j He A) as P. unfold prob_of in P. fold (row_of pp' e) (row_of pp e) in P. rewrite P. lra.
Qed.
Lemma wc_beaten e : (e < length labels)%nat -> clearly_beaten labels pp' e <-> clearly_beaten labels pp e.
Proof.
  intros He. unfold clearly_beaten. rewrite (rowK K labels pp Hd e He), (rowK (S K) labels pp' wc_dataset e He).
  assert (Hl : (label_of labels e < K)%nat) by (apply Hd, nth_In, He). rewrite (wc_prob e _ He Hl).
  split; intros (j & Hj & B).
  - destruct (Nat.eq_dec j K) as [->|N].
    + exfalso. rewrite wc_new in B by auto. destruct Hq as (_ & Q). destruct (Q e He) as (_ & Q2). destruct B as [B|(_ & B)]; lra.
    + exists j. split; [lia|]. rewrite wc_prob in B by (auto; lia). exact B.
  - exists j. split; [lia|]. now rewrite wc_prob.
Qed.
Lemma wc_cl : cl_mask labels pp' (S K) = cl_mask labels pp K.
Proof.
  pose proof wc_dataset as Hd'. apply mask_ext; [now rewrite (cl_length (S K)), (cl_length K)|]. rewrite (cl_length (S K)) by auto. intros e He.
  rewrite (rule (S K)), (rule K), wc_beaten by auto. split; intros (_ & B & (j & Hj & N & T)); (split; [exact He|]); (split; [exact B|]); exists j.
  - destruct (Nat.eq_dec j K) as [->|NK].
    + exfalso. pose proof wc_thr_new. pose proof (wc_new_one e He). lra.
    + split; [lia|]. split; [exact N|]. rewrite wc_prob in T by (auto; lia). pose proof (wc_thr j ltac:(lia)). lra.
  - split; [lia|]. split; [exact N|]. rewrite wc_prob by auto. pose proof (wc_thr j Hj). lra.
Qed.
Lemma wc_self : get_self_confidence labels pp' = get_self_confidence labels pp.
Proof.
  pose proof wc_dataset as Hd'. pose proof (ds_len _ _ _ Hd) as L. pose proof wc_length as L'.
  assert (A : forall p, length labels = length p -> length (get_self_confidence labels p) = length labels).
  { intros p E. unfold get_self_confidence. rewrite map_length, combine_length. lia. }
  apply list_eq_nth with (d := 0); [rewrite !A; auto|]. rewrite A by auto. intros e He.
  rewrite !self_conf_nth by auto. apply wc_prob; auto. apply Hd, nth_In, He.
Qed.
End Unused.

Lemma C136_issues_full : forall srt K labels pp qs o flt, argsort_ok srt -> dataset K labels pp -> two_classes labels -> below_label labels pp qs ->
  num_to_remove_per_class o = None -> (1 <= n_jobs o)%nat -> flt = ConfidentLearning \/ flt = PredictedNeqGiven \/ flt = LowSelfConfidence ->
  num_label_issues srt labels (with_class pp qs) (S K) = num_label_issues srt labels pp K /\
  exists m, find_label_issues srt labels pp K flt o = Ok m /\ length m = length labels /\
    find_label_issues srt labels (with_class pp qs) (S K) flt o = Ok m.
Proof.
  intros srt K labels pp qs o flt Hs Hd H2 Hq Hn Hj Hf. pose proof (wc_dataset K labels pp qs Hd Hq) as Hd'.
  assert (EN : num_label_issues srt labels (with_class pp qs) (S K) = num_label_issues srt labels pp K).
  { rewrite (num_label_issues_eq srt (S K)), (num_label_issues_eq srt K) by auto. now rewrite (wc_cl K labels pp qs Hd Hq). }
  split; [exact EN|]. destruct Hf as [->|[->| ->]].
  - exists (cl_mask labels pp K). split; [now apply find_cl_eq|]. split; [now apply cl_length|].
    rewrite <- (wc_cl K labels pp qs Hd Hq). now apply find_cl_eq.
  - destruct (C07_pneq_full srt K labels pp o Hs Hd H2 Hn Hj) as (m1 & E1 & L1 & F1).
    destruct (C07_pneq_full srt (S K) labels (with_class pp qs) o Hs Hd' H2 Hn Hj) as (m2 & E2 & L2 & F2).
    exists m1. split; [exact E1|]. split; [exact L1|]. rewrite E2. f_equal. apply mask_ext; [congruence|]. rewrite L2. intros e He.
    rewrite F1, F2. rewrite (wc_beaten K labels pp qs Hd Hq e He). reflexivity.
  - destruct (C14_full srt labels pp K LowSelfConfidence o Hs Hd H2 Hn Hj (or_introl eq_refl)) as (m & sc & N & E & Es & EN1 & L & _).
    destruct (C14_full srt labels (with_class pp qs) (S K) LowSelfConfidence o Hs Hd' H2 Hn Hj (or_introl eq_refl)) as (m' & sc' & N' & E' & Es' & EN' & L' & _).
    exists m. split; [exact E|]. split; [exact L|]. rewrite E'. f_equal.
    assert (N' = N) by congruence. subst N'.
    assert (sc' = sc).
    { pose proof (scores_unfold _ _ _ _ _ _ Es) as U. pose proof (scores_unfold _ _ _ _ _ _ Es') as U'. cbn in U, U'.
      rewrite (wc_self K labels pp qs Hd Hq) in U'. congruence. }
    subst sc'.
    assert (G : forall K' p mm, find_label_issues srt labels p K' LowSelfConfidence o = Ok mm ->
      get_label_quality_scores labels p K' SelfConfidence false = Ok sc -> num_label_issues srt labels p K' = Ok N ->
      mm = mask_of (length labels) (firstn N (srt sc))).
    { intros K' p mm Hm Hsc HN. apply find_inv in Hm as (r & Hr & ->). cbn [is_low]. unfold raw_mask in Hr. rewrite Hsc, HN in Hr.
      destruct (match confident_joint o with Some _ => _ | None => _ end) as [x|]; cbn [rbind] in Hr; [|discriminate]. congruence. }
    rewrite (G _ _ _ E Es EN1), (G _ _ _ E' Es' EN'). reflexivity.
Qed.
Lemma C136_thresholds_full : forall K labels pp qs, dataset K labels pp -> below_label labels pp qs ->
  (forall k, (k < K)%nat -> nth k (get_confident_thresholds labels (with_class pp qs) (S K)) 0 == nth k (get_confident_thresholds labels pp K) 0) /\
  nth K (get_confident_thresholds labels (with_class pp qs) (S K)) 0 == 2.
Proof. intros K labels pp qs Hd Hq. split; [intros k Hk; now apply wc_thr|now apply wc_thr_new]. Qed.
Lemma C136_scores_full : forall K labels pp qs, (2 <= K)%nat -> dataset K labels pp -> below_label labels pp qs ->
  get_label_quality_scores labels (with_class pp qs) (S K) SelfConfidence false = get_label_quality_scores labels pp K SelfConfidence false /\
  ((forall e, (e < length labels)%nat -> exists j, (j < K)%nat /\ j <> label_of labels e /\ nth e qs 0 <= prob_of pp e j) ->
   exists s s', get_label_quality_scores labels pp K NormalizedMargin false = Ok s /\
    get_label_quality_scores labels (with_class pp qs) (S K) NormalizedMargin false = Ok s' /\ length s = length labels /\ length s' = length labels /\
    forall e, (e < length labels)%nat -> nth e s' 0 == nth e s 0).
Proof.
  intros K labels pp qs H2 Hd Hq. pose proof (wc_dataset K labels pp qs Hd Hq) as Hd'. split.
  - destruct (C15_scores_full K labels pp SelfConfidence Hd H2) as (s & Es & _).
    destruct (C15_scores_full (S K) labels (with_class pp qs) SelfConfidence Hd' ltac:(lia)) as (s' & Es' & _).
    rewrite Es, Es'. pose proof (scores_unfold _ _ _ _ _ _ Es) as U. pose proof (scores_unfold _ _ _ _ _ _ Es') as U'. cbn in U, U'.
    rewrite (wc_self K labels pp qs Hd Hq) in U'. congruence.
  - intros Ho.
    destruct (C15_scores_full K labels pp NormalizedMargin Hd H2) as (s & Es & Ls & Hs).
    destruct (C15_scores_full (S K) labels (with_class pp qs) NormalizedMargin Hd' ltac:(lia)) as (s' & Es' & Ls' & Hs').
    exists s, s'. do 4 (split; [assumption|]). intros e He.
    destruct (Hs e He) as (_ & _ & b & ((j & Hj & Nj & Ej) & Bj) & E & _). destruct (Hs' e He) as (_ & _ & b' & ((j' & Hj' & Nj' & Ej') & Bj') & E' & _).
    rewrite (rowK K labels pp Hd e He) in *. rewrite (rowK (S K) labels _ Hd' e He) in *.
    assert (Hl : (label_of labels e < K)%nat) by (apply Hd, nth_In, He).
    rewrite E, E', (wc_prob K labels pp qs Hd Hq e _ He Hl). assert (Eb : b' == b); [|rewrite Eb; reflexivity].
    pose proof (fun k Hk => wc_prob K labels pp qs Hd Hq e k He Hk) as P. unfold prob_of in P. fold (row_of pp e) (row_of (with_class pp qs) e) in P.
    apply Qle_antisym.
    + destruct (Nat.eq_dec j' K) as [->|N].
      * destruct (Ho e He) as (i & Hi & Ni & Qi). specialize (Bj i Hi Ni). pose proof (wc_new K labels pp qs Hd Hq e He) as W.
        unfold prob_of in W, Qi. fold (row_of pp e) (row_of (with_class pp qs) e) in W, Qi. subst b'. rewrite W. lra.
      * subst b'. rewrite P by lia. apply Bj; auto. lia.
    + subst b. rewrite <- P by lia. apply Bj'; auto.
Qed.
