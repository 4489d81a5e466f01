(** * Lemmas about small differences in the predicted probabilities *)
From Coq Require Import QArith Qabs Qround List ZArith Bool Arith Lia Lqa Sorted Permutation.
From Verif Require Import Base BaseFacts ModelUtil ModelCount ModelRank ModelPool ModelFilter SpecCount SpecFilter SpecRank
  SpecSymmetry SpecStable ProofCount ProofFilter ProofRank ProofTotal ProofSymmetry ProofIdeal.
Import ListNotations.
Open Scope Q_scope.

Lemma sorted_lt_ext : forall a b, StronglySorted lt a -> StronglySorted lt b -> (forall x, In x a <-> In x b) -> a = b.
Proof.
  induction a as [|x a IH]; intros [|y b] Sa Sb H.
  - reflexivity.
  - exfalso. apply (H y). now left.
  - exfalso. apply (H x). now left.
  - apply StronglySorted_inv in Sa as (Sa & Fa). apply StronglySorted_inv in Sb as (Sb & Fb). rewrite Forall_forall in Fa, Fb.
    assert (x = y).
    { destruct (proj1 (H x) (or_introl eq_refl)) as [|I1]; auto. destruct (proj2 (H y) (or_introl eq_refl)) as [|I2]; auto.
      specialize (Fa _ I2). specialize (Fb _ I1). lia. }
    subst y. f_equal. apply IH; auto. intros z. split; intros Hz.
    + destruct (proj1 (H z) (or_intror Hz)) as [<-|]; auto. specialize (Fa _ Hz). lia.
    + destruct (proj2 (H z) (or_intror Hz)) as [<-|]; auto. specialize (Fb _ Hz). lia.
Qed.
Lemma abs_cases x y : Qabs x <= y <-> - y <= x /\ x <= y.
Proof. apply Qabs_Qle_condition. Qed.
Lemma abs_gt x y : y < Qabs x -> y < x \/ y < - x.
Proof. destruct (Qlt_le_dec x 0) as [H|H]; [rewrite Qabs_neg by lra|rewrite Qabs_pos by lra]; auto. Qed.
Lemma qmax_close a b c d : Qabs (a - b) <= d -> Qabs (qmax a c - qmax b c) <= d.
Proof.
  rewrite !abs_cases. intros H. unfold qmax.
  destruct (Qle_bool a c) eqn:E1, (Qle_bool b c) eqn:E2; rewrite ?Qle_bool_iff in *;
    repeat match goal with H : Qle_bool _ _ = false |- _ =>
         apply not_true_iff_false in H; rewrite Qle_bool_iff in H; apply Qnot_le_lt in H end; lra.
Qed.

Lemma own_close k d : forall labels pp pp', length labels = length pp -> length labels = length pp' ->
  (forall e, Qabs (prob_of pp' e k - prob_of pp e k) <= d) ->
  length (own_probs k labels pp') = length (own_probs k labels pp) /\
  Qabs (qsum (own_probs k labels pp') - qsum (own_probs k labels pp)) <= d * Qnat (length (own_probs k labels pp)).
Proof.
  induction labels as [|l ls IH]; intros [|r rs] [|r' rs'] H1 H2 H; simpl in H1, H2; try discriminate.
  - cbn [own_probs length]. split; [reflexivity|]. apply abs_cases. change (qsum []) with 0. change (Qnat 0) with 0. lra.
  - destruct (IH rs rs') as (L & S); auto; [intros e; exact (H (S e))|]. cbn [own_probs].
    destruct (Nat.eqb l k); [|auto]. cbn [length]. split; [congruence|]. rewrite Qnat_S. unfold qsum in *. cbn [fold_right].
    specialize (H 0%nat). unfold prob_of in H. cbn [nth] in H. rewrite abs_cases in *. lra.
Qed.

Section Close.
Variables (d : Q) (K : nat) (labels : list nat) (pp pp' : list (list Q)).
Hypothesis Hd : dataset K labels pp.
Hypothesis Hd' : dataset K labels pp'.
Hypothesis Hc : close d pp pp'.
Let thr := get_confident_thresholds labels pp K.
Let thr' := get_confident_thresholds labels pp' K.

Lemma d_nonneg : 0 <= d.
Proof. apply Qle_trans with (Qabs (prob_of pp' 0 0 - prob_of pp 0 0)); [apply Qabs_nonneg|apply Hc]. Qed.
Lemma prob_close e k : - d <= prob_of pp' e k - prob_of pp e k /\ prob_of pp' e k - prob_of pp e k <= d.
Proof. apply abs_cases, Hc. Qed.
Lemma thr_close k : (k < K)%nat -> Qabs (nth k thr' 0 - nth k thr 0) <= d.
Proof.
  intros Hk. pose proof d_nonneg as D. destruct (thresholds_spec labels pp K k (ds_len _ _ _ Hd) Hk) as (A1 & A2).
  destruct (thresholds_spec labels pp' K k (ds_len _ _ _ Hd') Hk) as (B1 & B2). fold thr in A1, A2. fold thr' in B1, B2.
  destruct (in_dec Nat.eq_dec k labels) as [Hin|Hin].
  - destruct (A1 Hin) as (a & (Na & Ha) & ->). destruct (B1 Hin) as (b & (Nb & Hb) & ->). apply qmax_close.
    destruct (own_close k d labels pp pp') as (L & S); [apply Hd|apply Hd'|intros e; apply Hc|].
    rewrite L in Hb. set (n := Qnat (length (own_probs k labels pp))) in *.
    assert (0 < n) by (apply Qnat_pos; destruct (own_probs k labels pp); cbn; [congruence|lia]).
    rewrite abs_cases in *. split.
    + apply (Qmult_le_r _ _ n); auto. lra.
    + apply (Qmult_le_r _ _ n); auto. lra.
  - rewrite A2, B2 by auto. apply abs_cases. lra.
Qed.
Lemma rowK e : (e < length labels)%nat -> length (row_of pp e) = K.
Proof. intros He. apply Hd, nth_In. now rewrite <- (ds_len _ _ _ Hd). Qed.
Lemma rowK' e : (e < length labels)%nat -> length (row_of pp' e) = K.
Proof. intros He. apply Hd', nth_In. now rewrite <- (ds_len _ _ _ Hd'). Qed.
Lemma labK e : (e < length labels)%nat -> (label_of labels e < K)%nat.
Proof. intros He. apply Hd, nth_In, He. Qed.

Hypothesis Hg : clear_cut d K labels pp.

Lemma reaches_close e j : (e < length labels)%nat -> reaches thr' (row_of pp' e) j <-> reaches thr (row_of pp e) j.
Proof.
  intros He. unfold reaches. rewrite rowK, rowK' by auto.
  assert (G : (j < K)%nat -> (nth j thr' 0 - (1 # 1000000) <= nth j (row_of pp' e) 0 <-> nth j thr 0 - (1 # 1000000) <= nth j (row_of pp e) 0)).
  { intros Hj. pose proof (thr_close j Hj) as T. apply abs_cases in T. pose proof (prob_close e j) as P. unfold prob_of in P. fold (row_of pp e) (row_of pp' e) in P.
    pose proof (cc_thr _ _ _ _ Hg e j He Hj) as G. unfold prob_of in G. fold (row_of pp e) in G. fold thr in G. apply abs_gt in G. split; intros; destruct G; lra. }
  split; intros (A & B); (split; [exact A|]); now apply G.
Qed.
Lemma top_close e j : (e < length labels)%nat ->
  (exists a b, a <> b /\ reaches thr (row_of pp e) a /\ reaches thr (row_of pp e) b) ->
  most_likely (row_of pp' e) j <-> most_likely (row_of pp e) j.
Proof.
  intros He H. destruct (cc_top _ _ _ _ Hg e He H) as (t & Ht & Top). pose proof d_nonneg as D.
  assert (A : most_likely (row_of pp e) t).
  { split; [now rewrite rowK|]. rewrite rowK by auto. split; intros i Hi; destruct (Nat.eq_dec i t) as [->|N]; try lia; try apply Qle_refl;
      specialize (Top i ltac:(lia) N); unfold prob_of in Top; fold (row_of pp e) in Top; lra. }
  assert (B : most_likely (row_of pp' e) t).
  { split; [now rewrite rowK'|]. rewrite rowK' by auto. split; intros i Hi; destruct (Nat.eq_dec i t) as [->|N]; try lia; try apply Qle_refl;
      specialize (Top i ltac:(lia) N); pose proof (prob_close e i) as P1; pose proof (prob_close e t) as P2;
      unfold prob_of in *; fold (row_of pp e) (row_of pp' e) in *; lra. }
  assert (U : forall row a b, most_likely row a -> most_likely row b -> a = b).
  { intros row a b (A1 & A2 & A3) (B1 & B2 & B3). destruct (Nat.lt_trichotomy a b) as [L|[L|L]]; auto.
    - specialize (B3 a L). specialize (A2 b B1). lra.
    - specialize (A3 b L). specialize (B2 a A1). lra. }
  split; intros M.
  - rewrite (U _ _ _ M B). exact A.
  - rewrite (U _ _ _ M A). exact B.
Qed.
Lemma counted_close e j : (e < length labels)%nat -> counted_as thr' (row_of pp' e) j <-> counted_as thr (row_of pp e) j.
Proof.
  intros He. unfold counted_as. split.
  - intros [(A & B)|((a & b & N & A & B) & M)].
    + left. split; [now apply (reaches_close e j He)|]. intros i Hi. apply B. now apply (reaches_close e i He).
    + right. apply (reaches_close e _ He) in A, B.
      assert (E : exists a b, a <> b /\ reaches thr (row_of pp e) a /\ reaches thr (row_of pp e) b) by (exists a, b; auto).
      split; [exact E|]. now apply (top_close e j He E).
  - intros [(A & B)|(E & M)].
    + left. split; [now apply (reaches_close e j He)|]. intros i Hi. apply B. now apply (reaches_close e i He).
    + right. split; [|now apply (top_close e j He E)]. destruct E as (a & b & N & A & B). exists a, b.
      rewrite (reaches_close e a He), (reaches_close e b He). auto.
Qed.
Lemma beaten_close e : (e < length labels)%nat -> clearly_beaten labels pp' e <-> clearly_beaten labels pp e.
Proof.
  intros He. unfold clearly_beaten. rewrite rowK, rowK' by auto. pose proof d_nonneg as D.
  split; intros (j & Hj & B); exists j; (split; [exact Hj|]);
    (assert (N : j <> label_of labels e) by (intros ->; destruct B as [B|(L & _)]; [lra|lia]));
    pose proof (cc_label _ _ _ _ Hg e j He Hj N) as G; apply abs_gt in G;
    pose proof (prob_close e j) as P1; pose proof (prob_close e (label_of labels e)) as P2;
    left; destruct G as [G|G]; destruct B as [B|(_ & B)]; lra.
Qed.
Lemma cl_length p : dataset K labels p -> length (cl_mask labels p K) = length labels.
Proof. intros D. unfold cl_mask. rewrite clear_where_length; rewrite mask_of_length; auto. rewrite reduce_length; auto. apply D. Qed.
Lemma cl_close : cl_mask labels pp' K = cl_mask labels pp K.
Proof.
  apply mask_ext; [now rewrite !cl_length|]. rewrite cl_length by auto. intros e He. rewrite !cl_flagged_iff by auto.
  rewrite beaten_close by auto. fold thr thr'. split; intros (_ & (j & C & N) & B); (split; [exact He|]); (split; [|exact B]); exists j; (split; [|exact N]); now apply (counted_close e j He).
Qed.
Lemma joint_close : confident_joint_uncalibrated labels pp' K thr' = confident_joint_uncalibrated labels pp K thr.
Proof.
  assert (A : forall p t, length (confident_joint_uncalibrated labels p K t) = K) by (intros; unfold confident_joint_uncalibrated; apply tab_length).
  assert (B : forall p t i, (i < K)%nat -> length (nth i (confident_joint_uncalibrated labels p K t) []) = K).
  { intros p t i Hi. unfold confident_joint_uncalibrated. rewrite nth_tab by auto. apply tab_length. }
  apply list_eq_nth with (d := []); [now rewrite !A|]. rewrite A. intros i Hi.
  apply list_eq_nth with (d := 0%Z); [now rewrite !B|]. rewrite B by auto. intros j Hj.
  destruct (confident_joint_cell labels pp' thr' K i j) as (n' & H1' & H2'); auto; [apply Hd'|apply thresholds_length|apply Hd'|].
  destruct (confident_joint_cell labels pp thr K i j) as (n & H1 & H2); auto; [apply Hd|apply thresholds_length|apply Hd|].
  unfold zget in H2, H2'. rewrite H2, H2'. assert (n = n') as ->; [|reflexivity].
  refine (holds_for_unique _ _ _ _ _ H1'). refine (holds_for_iff _ _ _ _ _ H1). intros e He. cbv beta.
  pose proof (counted_close e j He) as E. unfold row_of in E. rewrite E. reflexivity.
Qed.
Lemma indices_close : confident_off_diagonal_indices labels pp' thr' = confident_off_diagonal_indices labels pp thr.
Proof.
  destruct (off_diag_spec labels pp' thr' K) as (S' & I'); [apply Hd'|apply thresholds_length|apply Hd'|].
  destruct (off_diag_spec labels pp thr K) as (S & I); [apply Hd|apply thresholds_length|apply Hd|].
  apply sorted_lt_ext; auto. intros e. rewrite I, I'.
  split; intros (He & j & C & N); (split; [exact He|]); exists j; (split; [|exact N]); now apply (counted_close e j He).
Qed.
Lemma cj_close srt cal : compute_confident_joint srt labels pp' K None cal = compute_confident_joint srt labels pp K None cal.
Proof. unfold compute_confident_joint. fold thr thr'. cbv zeta. now rewrite joint_close, indices_close. Qed.

Lemma by_class_close srt pcm o M M' : argsort_ok srt -> far_apart d PruneByClass labels pp K ->
  by_class_mask srt labels pp K pcm o = Ok M -> by_class_mask srt labels pp' K pcm o = Ok M' ->
  forall e, (e < length labels)%nat -> flagged M' e <-> flagged M e.
Proof.
  intros Hs Far HM HM' e He. pose proof d_nonneg as D.
  destruct (by_class_spec _ _ _ _ _ _ _ Hs Hd HM) as (LM & C1 & C2 & C3). destruct (by_class_spec _ _ _ _ _ _ _ Hs Hd' HM') as (LM' & C1' & C2' & C3').
  set (k := label_of labels e). assert (Hk : (k < K)%nat) by now apply labK.
  pose proof (members_spec k labels M (eq_sym LM)) as (A1 & A2 & A3). pose proof (members_spec k labels M' (eq_sym LM')) as (B1 & B2 & B3).
  assert (E : forall x, In x (members k labels M) <-> In x (members k labels M')).
  { apply lowest_unique with (f := fun x => prob_of pp x k) (U := fun x => (x < length labels)%nat /\ label_of labels x = k); auto.
    - rewrite A2, B2. destruct (Nat.lt_ge_cases (n_labelled k labels) 2) as [H|H]; [rewrite C2, C2'|rewrite C1, C1']; auto.
    - intros x Hx. apply A3 in Hx. tauto.
    - intros x Hx. apply B3 in Hx. tauto.
    - intros x y Hx (Hy & Ey) Ny. apply A3 in Hx as (Hx & Ex & Fx). specialize (C3 x y Hx Hy). rewrite Ex, Ey in C3. apply C3; auto.
      intros Fy. apply Ny, A3. auto.
    - intros x y Hx (Hy & Ey) Ny. apply B3 in Hx as (Hx & Ex & Fx).
      specialize (C3' x y Hx Hy). rewrite Ex, Ey in C3'. assert (C : prob_of pp' x k <= prob_of pp' y k).
      { apply C3'; auto. intros Fy. apply Ny, B3. auto. }
      pose proof (prob_close x k). pose proof (prob_close y k).
      destruct (Nat.eq_dec x y) as [->|N]; [lra|]. pose proof (Far x y Hx Hy ltac:(congruence) N) as G. cbv beta in G. rewrite Ex, Ey in G. apply abs_gt in G. destruct G; lra.
    - intros x y (Hx & Ex) (Hy & Ey) Exy. destruct (Nat.eq_dec x y) as [->|N]; auto. exfalso.
      pose proof (Far x y Hx Hy ltac:(congruence) N) as G. cbv beta in G. rewrite Ex, Ey in G. apply abs_gt in G. destruct G; lra. }
  split; intros F.
  - assert (I : In e (members k labels M')) by (apply B3; auto). apply E, A3 in I. tauto.
  - assert (I : In e (members k labels M)) by (apply A3; auto). apply E, B3 in I. tauto.
Qed.
Lemma by_noise_close srt pcm o M M' : argsort_ok srt -> far_apart d PruneByNoiseRate labels pp K ->
  by_noise_rate_mask srt labels pp K pcm o = Ok M -> by_noise_rate_mask srt labels pp' K pcm o = Ok M' ->
  forall e, (e < length labels)%nat -> flagged M' e <-> flagged M e.
Proof.
  intros Hs Far HM HM' e He. pose proof d_nonneg as D.
  destruct (by_noise_rate_spec _ _ _ _ _ _ _ Hs Hd HM) as (LM & C1 & C2). destruct (by_noise_rate_spec _ _ _ _ _ _ _ Hs Hd' HM') as (LM' & C1' & C2').
  set (k := label_of labels e). assert (Hk : (k < K)%nat) by now apply labK.
  pose proof (members_spec k labels M (eq_sym LM)) as (A1 & A2 & A3). pose proof (members_spec k labels M' (eq_sym LM')) as (B1 & B2 & B3).
  specialize (C1 k Hk). specialize (C2 k Hk). specialize (C1' k Hk). specialize (C2' k Hk).
  destruct (Nat.le_gt_cases (n_labelled k labels) (Nat.max 1 (min_examples_per_class o))) as [H|H].
  - rewrite C1 in A2 by auto. rewrite C1' in B2 by auto. apply length_zero_iff_nil in A2, B2. rewrite A2 in A3. rewrite B2 in B3. split; intros F; exfalso.
    + apply (proj2 (B3 e)). auto.
    + apply (proj2 (A3 e)). auto.
  - destruct (C2 H) as ((T & HT & HF) & _). destruct (C2' H) as ((T' & HT' & HF') & _).
    rewrite (HF e) by auto. rewrite (HF' e) by auto.
    assert (E : forall j, (j < K)%nat -> j <> k -> (0 < zget pcm j k)%Z -> forall x, In x (T j) <-> In x (T' j)).
    { intros j Hj Hjk Hz. destruct (HT j Hj Hjk Hz) as (T1 & T2 & T3 & T4). destruct (HT' j Hj Hjk Hz) as (T1' & T2' & T3' & T4').
      apply lowest_unique with (f := fun x => - (prob_of pp x j - prob_of pp x k)) (U := fun x => (x < length labels)%nat /\ label_of labels x = k); auto.
      - now rewrite T2, T2'.
      - intros x y Hx (Hy & Ey) Ny. specialize (T4 x y Hx Hy Ey Ny). lra.
      - intros x y Hx (Hy & Ey) Ny. destruct (T3' x Hx) as (Hx1 & Ex). specialize (T4' x y Hx Hy Ey Ny). cbv beta in T4'.
        pose proof (prob_close x k). pose proof (prob_close y k). pose proof (prob_close x j). pose proof (prob_close y j).
        destruct (Nat.eq_dec x y) as [->|N]; [lra|]. pose proof (Far j Hj x y Hx1 Hy ltac:(split; congruence) N) as G. cbv beta in G. rewrite Ex, Ey in G. apply abs_gt in G. destruct G; lra.
      - intros x y (Hx & Ex) (Hy & Ey) Exy. destruct (Nat.eq_dec x y) as [->|N]; auto. exfalso.
        pose proof (Far j Hj x y Hx Hy ltac:(split; congruence) N) as G. cbv beta in G. rewrite Ex, Ey in G. apply abs_gt in G. destruct G; lra. }
    split; intros (j & Hj & Hjk & Hz & I0); exists j; (split; [exact Hj|]); (split; [exact Hjk|]); (split; [exact Hz|]); now apply (E j Hj Hjk Hz).
Qed.
Lemma raw_close srt o flt r r' : argsort_ok srt -> far_apart d flt labels pp K -> flt = PruneByClass \/ flt = PruneByNoiseRate ->
  raw_mask srt labels pp K flt o = Ok r -> raw_mask srt labels pp' K flt o = Ok r' ->
  forall e, (e < length labels)%nat -> flagged r' e <-> flagged r e.
Proof.
  intros Hs Far [->| ->]; rewrite ?raw_class_eq, ?raw_noise_eq; unfold given_joint; rewrite cj_close.
  - destruct (match confident_joint o with Some c => Ok c | None => _ end) as [cj|]; cbn [rbind]; [|discriminate].
    destruct (prune_counts srt labels K cj o) as [pcm|]; cbn [rbind]; [|discriminate]. now apply by_class_close.
  - destruct (match confident_joint o with Some c => Ok c | None => _ end) as [cj|]; cbn [rbind]; [|discriminate].
    destruct (prune_counts srt labels K cj o) as [pcm|]; cbn [rbind]; [|discriminate]. now apply by_noise_close.
Qed.
Lemma prune_close srt o flt m m' : argsort_ok srt -> far_apart d flt labels pp K -> flt = PruneByClass \/ flt = PruneByNoiseRate ->
  find_label_issues srt labels pp K flt o = Ok m -> find_label_issues srt labels pp' K flt o = Ok m' ->
  forall e, (e < length labels)%nat -> flagged m' e <-> flagged m e.
Proof.
  intros Hs Far Hf Hm Hm' e He. assert (Hl : is_low flt = false) by (destruct Hf as [->| ->]; reflexivity).
  destruct (find_marked _ _ _ _ _ _ _ Hd Hl Hm) as (r & Hr & _ & _ & F). destruct (find_marked _ _ _ _ _ _ _ Hd' Hl Hm') as (r' & Hr' & _ & _ & F').
  rewrite F, F' by auto. rewrite (raw_close srt o flt r r') by auto. rewrite beaten_close by auto. reflexivity.
Qed.
End Close.

(** scores *)
Lemma C134_scores_full : forall d K labels pp pp' method, (2 <= K)%nat -> dataset K labels pp -> dataset K labels pp' -> close d pp pp' ->
  method = SelfConfidence \/ method = NormalizedMargin ->
  exists s s', get_label_quality_scores labels pp K method false = Ok s /\
    get_label_quality_scores labels pp' K method false = Ok s' /\ length s = length labels /\ length s' = length labels /\
    forall e, (e < length labels)%nat -> Qabs (nth e s' 0 - nth e s 0) <= d.
Proof.
  intros d K labels pp pp' method H2 Hd Hd' Hc Hm.
  destruct (C15_scores_full K labels pp method Hd H2) as (s & Es & Ls & Hs).
  destruct (C15_scores_full K labels pp' method Hd' H2) as (s' & Es' & Ls' & Hs').
  exists s, s'. do 4 (split; [assumption|]). intros e He. specialize (Hs e He). specialize (Hs' e He). apply abs_cases.
  pose proof (prob_close d K pp pp' Hc) as P || pose proof (prob_close d pp pp' Hc) as P.
  destruct Hm as [->| ->].
  - destruct Hs as (_ & _ & ->), Hs' as (_ & _ & ->). apply P.
  - destruct Hs as (_ & _ & b & ((j & Hj & Nj & Ej) & Bj) & E & _), Hs' as (_ & _ & b' & ((j' & Hj' & Nj' & Ej') & Bj') & E' & _).
    pose proof (rowK K labels pp Hd e He) as R. pose proof (rowK K labels pp' Hd' e He) as R'.
    specialize (Bj j' ltac:(lia) Nj'). specialize (Bj' j ltac:(lia) Nj).
    pose proof (P e j) as P1. pose proof (P e j') as P2. pose proof (P e (label_of labels e)) as P3.
    unfold prob_of in *. fold (row_of pp e) (row_of pp' e) in *. rewrite E, E'. subst b b'.
    assert (X : forall u, (u + 1) / 2 == u * (1 # 2) + (1 # 2)) by (intros; field). rewrite !X. lra.
Qed.

Lemma low_close d K labels pp pp' srt o flt m m' : dataset K labels pp -> dataset K labels pp' -> close d pp pp' -> clear_cut d K labels pp ->
  argsort_ok srt -> far_apart d flt labels pp K -> is_low flt = true -> two_classes labels ->
  num_to_remove_per_class o = None -> (1 <= n_jobs o)%nat ->
  find_label_issues srt labels pp K flt o = Ok m -> find_label_issues srt labels pp' K flt o = Ok m' ->
  forall e, flagged m' e <-> flagged m e.
Proof.
  intros Hd Hd' Hc Hg Hs Far Hf H2 Hn Hj Hm Hm'. pose proof (d_nonneg d pp pp' Hc) as D.
  assert (HK : (2 <= K)%nat).
  { destruct H2 as (a & b & Ha & Hb & N). pose proof (ds_lab _ _ _ Hd a Ha). pose proof (ds_lab _ _ _ Hd b Hb). lia. }
  destruct (low_spec srt labels pp K flt o Hs Hd H2 Hn Hj Hf) as (m0 & sc & N & Hm0 & Hsc & HN & Lm & Cm & Om). rewrite Hm in Hm0. injection Hm0 as <-.
  destruct (low_spec srt labels pp' K flt o Hs Hd' H2 Hn Hj Hf) as (m0 & sc' & N' & Hm0 & Hsc' & HN' & Lm' & Cm' & Om'). rewrite Hm' in Hm0. injection Hm0 as <-.
  assert (EN : N' = N).
  { rewrite num_label_issues_eq in HN, HN' by auto. rewrite (cl_close d K labels pp pp' Hd Hd' Hc Hg) in HN'. congruence. }
  set (me := match flt with LowSelfConfidence => SelfConfidence | _ => NormalizedMargin end) in *.
  assert (Esc : forall x, (x < length labels)%nat -> Qabs (nth x sc' 0 - nth x sc 0) <= d).
  { destruct (C134_scores_full d K labels pp pp' me HK Hd Hd' Hc) as (s & s' & E & E' & _ & _ & H); [unfold me; destruct flt; auto|].
    assert (s = sc) by congruence. assert (s' = sc') by congruence. subst. exact H. }
  assert (Gap : forall x y, (x < length labels)%nat -> (y < length labels)%nat -> x <> y -> 2 * d < Qabs (nth x sc 0 - nth y sc 0)).
  { intros x y Hx Hy Nxy. destruct flt; try discriminate.
    - exact (Far sc Hsc x y Hx Hy I Nxy).
    - pose proof (Far x y Hx Hy I Nxy) as G. cbv beta in G. pose proof (scores_unfold _ _ _ _ _ _ Hsc) as U. cbn in U. injection U as <-.
      rewrite !self_conf_nth by (auto; apply Hd). exact G. }
  assert (W : forall x, In x (where_ m) <-> flagged m x) by (intros x; apply in_where). assert (W' : forall x, In x (where_ m') <-> flagged m' x) by (intros x; apply in_where).
  assert (Fl : forall x, flagged m x -> (x < length labels)%nat) by (intros x Hx; apply flagged_lt in Hx; lia).
  assert (Fl' : forall x, flagged m' x -> (x < length labels)%nat) by (intros x Hx; apply flagged_lt in Hx; lia).
  assert (E : forall x, In x (where_ m) <-> In x (where_ m')).
  { apply lowest_unique with (f := fun x => nth x sc 0) (U := fun x => (x < length labels)%nat).
    - apply where_NoDup.
    - apply where_NoDup.
    - rewrite !where_length. congruence.
    - intros x Hx. now apply Fl, W.
    - intros x Hx. now apply Fl', W'.
    - intros x y Hx Hy Ny. apply (Om x y Hy); [now apply W|]. intros C. now apply Ny, W.
    - intros x y Hx Hy Ny. assert (Hx1 : (x < length labels)%nat) by now apply Fl', W'.
      assert (C : nth x sc' 0 <= nth y sc' 0). { apply (Om' x y Hy); [now apply W'|]. intros C. now apply Ny, W'. }
      pose proof (Esc x Hx1) as E1. pose proof (Esc y Hy) as E2. rewrite abs_cases in E1, E2.
      destruct (Nat.eq_dec x y) as [->|Nxy]; [lra|]. pose proof (Gap x y Hx1 Hy Nxy) as G. apply abs_gt in G. destruct G; lra.
    - intros x y Hx Hy Exy. destruct (Nat.eq_dec x y) as [|Nxy]; auto. exfalso. pose proof (Gap x y Hx Hy Nxy) as G. apply abs_gt in G. destruct G; lra. }
  intros e. now rewrite <- W, <- W', E.
Qed.

Lemma C134_issues_full : forall d K labels pp pp' srt o flt, argsort_ok srt -> dataset K labels pp -> dataset K labels pp' ->
  two_classes labels -> close d pp pp' -> clear_cut d K labels pp -> far_apart d flt labels pp K ->
  num_to_remove_per_class o = None -> n_jobs o = 1%nat ->
  exists m, find_label_issues srt labels pp K flt o = Ok m /\ length m = length labels /\
    find_label_issues srt labels pp' K flt o = Ok m.
Proof.
  intros d K labels pp pp' srt o flt Hs Hd Hd' H2 Hc Hg Far Hn Hj.
  destruct (find_total srt K labels pp flt o Hs Hd H2 Hn Hj) as (m & Hm & Lm).
  destruct (find_total srt K labels pp' flt o Hs Hd' H2 Hn Hj) as (m' & Hm' & Lm').
  exists m. split; [exact Hm|]. split; [exact Lm|]. rewrite Hm'. f_equal. apply mask_ext; [congruence|]. rewrite Lm'. intros e He.
  destruct flt eqn:Ef.
  - eapply (low_close d K labels pp pp' srt o LowNormalizedMargin); eauto; lia.
  - eapply (low_close d K labels pp pp' srt o LowSelfConfidence); eauto; lia.
  - eapply (prune_close d K labels pp pp'); eauto.
  - eapply (prune_close d K labels pp pp'); eauto.
  - destruct Far as (F1 & F2).
    pose proof (proj1 (find_both_spec srt labels pp K o m (ds_len _ _ _ Hd)) Hm) as (mc & mn & Hmc & Hnn & _ & F).
    pose proof (proj1 (find_both_spec srt labels pp' K o m' (ds_len _ _ _ Hd')) Hm') as (mc' & mn' & Hc' & Hn' & _ & F').
    rewrite F, F'. rewrite (prune_close d K labels pp pp' Hd Hd' Hc Hg srt o PruneByClass mc mc') by auto.
    rewrite (prune_close d K labels pp pp' Hd Hd' Hc Hg srt o PruneByNoiseRate mn mn') by auto. reflexivity.
  - rewrite find_cl_eq in Hm, Hm' by (auto; lia). rewrite (cl_close d K labels pp pp' Hd Hd' Hc Hg) in Hm'.
    assert (m = m') by congruence. subst. reflexivity.
  - destruct (C07_pneq_full srt K labels pp o Hs Hd H2 Hn ltac:(lia)) as (m1 & E1 & _ & F1).
    destruct (C07_pneq_full srt K labels pp' o Hs Hd' H2 Hn ltac:(lia)) as (m2 & E2 & _ & F2).
    assert (m1 = m) by congruence. assert (m2 = m') by congruence. subst. rewrite F1, F2.
    rewrite (beaten_close d K labels pp pp' Hd Hd' Hc Hg e He). reflexivity.
Qed.
Lemma C134_counts_full : forall d K labels pp pp' srt, dataset K labels pp -> dataset K labels pp' ->
  two_classes labels -> close d pp pp' -> clear_cut d K labels pp ->
  num_label_issues srt labels pp' K = num_label_issues srt labels pp K /\
  (forall cal, compute_confident_joint srt labels pp' K None cal = compute_confident_joint srt labels pp K None cal) /\
  (forall cj, estimate_joint srt labels pp' K cj = estimate_joint srt labels pp K cj).
Proof.
  intros d K labels pp pp' srt Hd Hd' H2 Hc Hg.
  assert (E : forall cal, compute_confident_joint srt labels pp' K None cal = compute_confident_joint srt labels pp K None cal).
  { intros cal. eapply cj_close; eauto. }
  split; [|split; [exact E|]].
  - rewrite !(num_label_issues_eq srt K) by auto. now rewrite (cl_close d K labels pp pp' Hd Hd' Hc Hg).
  - intros [cj|]; unfold estimate_joint; [reflexivity|]. now rewrite E.
Qed.
Lemma C134_thresholds_full : forall d K labels pp pp', dataset K labels pp -> dataset K labels pp' -> close d pp pp' ->
  forall k, (k < K)%nat -> Qabs (nth k (get_confident_thresholds labels pp' K) 0 - nth k (get_confident_thresholds labels pp K) 0) <= d.
Proof. intros. eapply thr_close; eauto. Qed.
