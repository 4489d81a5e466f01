From Coq Require Import QArith Qabs Qround List Permutation Sorted ZArith Bool Arith Lia Lqa.
From Verif Require Import Base BaseFacts ModelUtil ModelCount ModelRank SpecCount SpecFilter SpecRank
     ProofUtil ProofCount ProofFilter.
Import ListNotations.
Open Scope Q_scope.

Lemma delete_at_in {A} (d : A) i l x : (i < length l)%nat ->
  In x (delete_at i l) <-> exists j, (j < length l)%nat /\ j <> i /\ nth j l d = x.
Proof.
  revert i. induction l as [|a l IH]; intros i Hi; [simpl in Hi; lia|].
  unfold delete_at in *. destruct i as [|i].
  - cbn [firstn skipn app]. split.
    + intros H. apply In_nth with (d := d) in H as (n & Hn & E). exists (S n). simpl. repeat split; auto; lia.
    + intros (j & Hj & Hne & E). destruct j as [|j]; [congruence|]. simpl in *. subst. apply nth_In. lia.
  - cbn [firstn skipn app]. simpl in Hi. simpl. rewrite IH by lia. split.
    + intros [->|(j & Hj & Hne & E)]; [exists 0%nat|exists (S j)]; simpl; repeat split; auto; lia.
    + intros (j & Hj & Hne & E). destruct j as [|j]; auto. right. exists j. repeat split; auto; lia.
Qed.

Lemma best_other_ok row l : (l < length row)%nat -> (2 <= length row)%nat ->
  best_other row l (qmaximum (delete_at l row)).
Proof.
  intros Hl H2.
  assert (Hne : delete_at l row <> []).
  { intros E. assert (exists j, (j < length row)%nat /\ j <> l) as (j & Hj & Hjl).
    { destruct l; [exists 1%nat|exists 0%nat]; lia. }
    assert (In (nth j row 0) (delete_at l row)) by (apply (delete_at_in 0); eauto). rewrite E in H. destruct H. }
  split.
  - apply qmaximum_in in Hne. apply (delete_at_in 0) in Hne; auto.
  - intros j Hj Hjl. apply qmaximum_ge. apply (delete_at_in 0); auto. eauto.
Qed.

Lemma self_conf_nth labels pp e : length labels = length pp -> (e < length labels)%nat ->
  nth e (get_self_confidence labels pp) 0 = prob_of pp e (label_of labels e).
Proof.
  intros Hl He. unfold get_self_confidence, prob_of, label_of.
  rewrite (nth_map_gen _ _ _ _ (0%nat, [])) by (rewrite combine_length; lia).
  rewrite combine_nth by auto. reflexivity.
Qed.
Lemma margin_nth labels pp e : length labels = length pp -> (e < length labels)%nat ->
  nth e (get_normalized_margin labels pp) 0 =
  (prob_of pp e (label_of labels e) - qmaximum (delete_at (label_of labels e) (row_of pp e)) + 1) / 2.
Proof.
  intros Hl He. unfold get_normalized_margin.
  assert (Hs : length (get_self_confidence labels pp) = length labels) by (apply get_self_confidence_length; auto).
  rewrite (nth_map_gen _ _ _ _ (0, 0)) by (rewrite combine_length, map_length, combine_length; lia).
  rewrite combine_nth by (rewrite map_length, combine_length; lia).
  cbn [fst snd]. rewrite self_conf_nth by auto.
  rewrite (nth_map_gen _ (combine labels pp) _ _ (0%nat, [])) by (rewrite combine_length; lia).
  rewrite combine_nth by auto. reflexivity.
Qed.

Lemma scores_unfold labels pp K method adjust s : get_label_quality_scores labels pp K method adjust = Ok s ->
  compute_label_quality_scores labels pp K method adjust = Ok s.
Proof. unfold get_label_quality_scores. destruct (assert_valid_inputs _ _ _ _); cbn [rbind]; [auto|discriminate]. Qed.

(** the shape shared by adjusted and unadjusted scores *)
Definition qrows (K n : nat) (pp : list (list Q)) : Prop :=
  length pp = n /\ (forall r, In r pp -> length r = K) /\ (forall r x, In r pp -> In x r -> 0 <= x /\ x <= 1).

Lemma score_facts K labels pp method s e :
  qrows K (length labels) pp -> (forall l, In l labels -> (l < K)%nat) -> (method = NormalizedMargin -> (2 <= K)%nat) ->
  s = match method with SelfConfidence => get_self_confidence labels pp | NormalizedMargin => get_normalized_margin labels pp end ->
  (e < length labels)%nat ->
  0 <= nth e s 0 /\ nth e s 0 <= 1 /\
  match method with
  | SelfConfidence => nth e s 0 = prob_of pp e (label_of labels e)
  | NormalizedMargin => exists b, best_other (row_of pp e) (label_of labels e) b /\
        nth e s 0 == (prob_of pp e (label_of labels e) - b + 1) / 2 /\
        (1 # 2 <= nth e s 0 <-> label_wins (row_of pp e) (label_of labels e))
  end.
Proof.
  intros (Hlen & Hrow & Hprob) Hlab HK Hs He. subst s.
  assert (Hin : In (row_of pp e) pp) by (apply nth_In; lia).
  assert (Hl : (label_of labels e < length (row_of pp e))%nat).
  { rewrite Hrow by auto. apply Hlab. apply nth_In; auto. }
  assert (Hp : 0 <= prob_of pp e (label_of labels e) /\ prob_of pp e (label_of labels e) <= 1).
  { apply Hprob with (row_of pp e); auto. apply nth_In. auto. }
  destruct method.
  - rewrite self_conf_nth by auto. tauto.
  - rewrite margin_nth by auto.
    assert (B : best_other (row_of pp e) (label_of labels e) (qmaximum (delete_at (label_of labels e) (row_of pp e)))).
    { apply best_other_ok; auto. rewrite Hrow; auto. }
    set (b := qmaximum _) in *.
    assert (Hb : 0 <= b /\ b <= 1).
    { destruct B as ((j & Hj & _ & <-) & _). apply Hprob with (row_of pp e); auto. apply nth_In; auto. }
    set (p := prob_of _ _ _) in *.
    assert (E : (p - b + 1) / 2 == (p - b + 1) * (1#2)) by (field).
    rewrite E. split; [lra|]. split; [lra|]. exists b. split; auto. split; [rewrite E; reflexivity|].
    destruct B as ((j0 & Hj0 & Hne0 & E0) & Hmax). split.
    + intros H j Hj. destruct (Nat.eq_dec j (label_of labels e)) as [->|Hne]; [lra|].
      specialize (Hmax j Hj Hne). fold (prob_of pp e (label_of labels e)). change (nth (label_of labels e) (row_of pp e) 0) with p. lra.
    + intros H. specialize (H j0 Hj0). change (nth (label_of labels e) (row_of pp e) 0) with p in H.
      rewrite E0 in H. lra.
Qed.

Lemma C15_scores_full : forall K labels pp method, dataset K labels pp -> (2 <= K)%nat ->
  exists s, get_label_quality_scores labels pp K method false = Ok s /\ length s = length labels /\
  forall e, (e < length labels)%nat ->
  0 <= nth e s 0 /\ nth e s 0 <= 1 /\
  match method with
  | SelfConfidence => nth e s 0 = prob_of pp e (label_of labels e)
  | NormalizedMargin => exists b, best_other (row_of pp e) (label_of labels e) b /\
        nth e s 0 == (prob_of pp e (label_of labels e) - b + 1) / 2 /\
        (1 # 2 <= nth e s 0 <-> label_wins (row_of pp e) (label_of labels e))
  end.
Proof.
  intros K labels pp method Hd HK.
  destruct (scores_ok K labels pp method false Hd (or_intror HK)) as (s & Hs & Hsl).
  exists s. split; auto. split; auto. intros e He. pose proof Hd as [Hlen Hne Hlab Hrow Hprob].
  apply (score_facts K labels pp method s e); auto.
  - split; auto.
  - apply scores_unfold in Hs. unfold compute_label_quality_scores in Hs.
    destruct method; [congruence|]. destruct (Nat.leb_spec K 1); [lia|congruence].
Qed.

Lemma C15_local_full : forall K method labels pp labels' pp' s s' e e',
  length labels = length pp -> length labels' = length pp' ->
  get_label_quality_scores labels pp K method false = Ok s ->
  get_label_quality_scores labels' pp' K method false = Ok s' ->
  (e < length labels)%nat -> (e' < length labels')%nat ->
  label_of labels e = label_of labels' e' -> row_of pp e = row_of pp' e' ->
  nth e s 0 = nth e' s' 0.
Proof.
  intros K method labels pp labels' pp' s s' e e' Hl Hl' Hs Hs' He He' E1 E2.
  apply scores_unfold in Hs, Hs'. unfold compute_label_quality_scores in *.
  assert (E3 : forall k, prob_of pp e k = prob_of pp' e' k).
  { intros k. unfold prob_of. unfold row_of in E2. rewrite E2. reflexivity. }
  destruct method.
  - inversion Hs; inversion Hs'; subst. rewrite !self_conf_nth by auto. rewrite E1. apply E3.
  - destruct (Nat.leb K 1); [discriminate|]. inversion Hs; inversion Hs'; subst.
    rewrite !margin_nth by auto. rewrite E1, E2, E3. reflexivity.
Qed.

Lemma qsum_map_div_l l c : qsum (map (fun x => x / c) l) == qsum l / c.
Proof. rewrite (qsum_map_div (fun x => x) c l), map_id. reflexivity. Qed.

Lemma adj_row_facts thr row : length row = length thr -> thr <> [] ->
  (forall x, In x row -> 0 <= x) -> qsum row == 1 ->
  let adj := map (fun xt => fst xt - snd xt + qmaximum thr) (combine row thr) in
  (forall x, In x adj -> 0 <= x) /\ 1 <= qsum adj.
Proof.
  intros Hl Hne H0 H1 adj. unfold adj.
  assert (Hge : forall x t, In (x, t) (combine row thr) -> x <= x - t + qmaximum thr).
  { intros x t Hin. apply in_combine_r in Hin. apply qmaximum_ge in Hin. lra. }
  split.
  - intros y Hy. apply in_map_iff in Hy as ((x & t) & <- & Hin). cbn [fst snd].
    pose proof (Hge x t Hin). apply in_combine_l in Hin. apply H0 in Hin. lra.
  - rewrite <- H1.
    assert (qsum row == qsum (map fst (combine row thr))) as ->.
    { clear - Hl. revert thr Hl. induction row as [|x row IH]; intros [|t thr] Hl; simpl in *; try lia; [reflexivity|].
      rewrite <- IH by lia. reflexivity. }
    apply qsum_map_le. intros (x & t) Hin. cbn [fst snd]. auto.
Qed.

Lemma C15_adjusted_full : forall K labels pp method, dataset K labels pp -> (2 <= K)%nat -> row_stochastic pp ->
  let adj := subtract_confident_thresholds labels pp K None in
  (forall e, (e < length labels)%nat -> exists total, 0 < total /\
     forall k, (k < K)%nat -> exists top,
       (In top (get_confident_thresholds labels pp K) /\
        forall t, In t (get_confident_thresholds labels pp K) -> t <= top) /\
       prob_of adj e k * total == prob_of pp e k - nth k (get_confident_thresholds labels pp K) 0 + top) /\
  length adj = length labels /\ row_stochastic adj /\
  exists s, get_label_quality_scores labels pp K method true = Ok s /\ length s = length labels /\
  forall e, (e < length labels)%nat -> 0 <= nth e s 0 /\ nth e s 0 <= 1.
Proof.
  intros K labels pp method Hd HK Hst adj. pose proof Hd as [Hlen Hne Hlab Hrow Hprob].
  set (thr := get_confident_thresholds labels pp K).
  assert (Ht : length thr = K) by apply thresholds_length.
  assert (Htn : thr <> []) by (intros E; rewrite E in Ht; simpl in Ht; lia).
  assert (Hadj : length adj = length labels) by (unfold adj, subtract_confident_thresholds; rewrite map_length; auto).
  set (f := fun row : list Q => map (fun xt => fst xt - snd xt + qmaximum thr) (combine row thr)).
  assert (Ea : adj = map (fun row => map (fun x => x / qsum (f row)) (f row)) pp) by reflexivity.
  assert (Hf : forall r, In r pp -> (forall x, In x (f r) -> 0 <= x) /\ 1 <= qsum (f r)).
  { intros r Hr. destruct (Hst r Hr). apply adj_row_facts; auto. rewrite Hrow; auto. }
  assert (Hst' : row_stochastic adj).
  { intros r Hr. rewrite Ea in Hr. apply in_map_iff in Hr as (r0 & <- & Hr0). destruct (Hf r0 Hr0) as (H0 & H1). split.
    - intros x Hx. apply in_map_iff in Hx as (y & <- & Hy). apply Qle_shift_div_l; [lra|]. rewrite Qmult_0_l. auto.
    - rewrite qsum_map_div_l. field. lra. }
  split; [|split; [auto|split; [auto|]]].
  - intros e He. exists (qsum (f (row_of pp e))).
    assert (Hin : In (row_of pp e) pp) by (apply nth_In; lia).
    destruct (Hf _ Hin) as (H0 & H1). split; [lra|]. intros k Hk.
    exists (qmaximum thr). split; [split; [apply qmaximum_in; auto|intros; apply qmaximum_ge; auto]|].
    assert (Ep : prob_of adj e k = nth k (map (fun x => x / qsum (f (row_of pp e))) (f (row_of pp e))) 0).
    { unfold prob_of. rewrite Ea. rewrite (nth_map_gen _ pp e [] []) by lia. reflexivity. }
    assert (Hlf : length (f (row_of pp e)) = K) by (unfold f; rewrite map_length, combine_length, Hrow by auto; lia).
    rewrite Ep. rewrite (nth_map_gen _ _ _ _ 0) by lia.
    assert (Ef : nth k (f (row_of pp e)) 0 = prob_of pp e k - nth k thr 0 + qmaximum thr).
    { unfold f. rewrite (nth_map_gen _ _ _ _ (0,0)) by (rewrite combine_length, Hrow by auto; lia).
      rewrite combine_nth by (rewrite Hrow; auto). reflexivity. }
    rewrite Ef. field. lra.
  - destruct (scores_ok K labels pp method true Hd (or_intror HK)) as (s & Hs & Hsl).
    exists s. split; auto. split; auto. intros e He.
    destruct (score_facts K labels adj method s e) as (A & B & _); auto.
    + split; auto. split.
      * intros r Hr. rewrite Ea in Hr. apply in_map_iff in Hr as (r0 & <- & Hr0).
        unfold f. rewrite !map_length, combine_length, Hrow by auto. lia.
      * intros r x Hr Hx. destruct (Hst' r Hr) as (H0 & H1). split; auto.
        rewrite <- H1. apply qsum_ge_elem; auto.
    + apply scores_unfold in Hs. unfold compute_label_quality_scores in Hs. fold adj in Hs.
      destruct method; [congruence|]. destruct (Nat.leb_spec K 1); [lia|congruence].
Qed.

(** ** C16 *)
Lemma rmap_ok {A B} (f : A -> res B) l l' : rmap f l = Ok l' -> Forall2 (fun a b => f a = Ok b) l l'.
Proof.
  revert l'. induction l as [|a l IH]; intros l'; simpl; intros H.
  - inversion H. constructor.
  - destruct (f a) eqn:E; cbn [rbind] in H; [|discriminate].
    destruct (rmap f l); cbn [rbind] in H; [|discriminate]. inversion H; subst. constructor; auto.
Qed.

Lemma weighted_bounds (row w : list Q) lo hi : length row = length w ->
  (forall x, In x w -> 0 <= x) -> (forall x, In x row -> lo <= x /\ x <= hi) ->
  lo * qsum w <= qsum (map (fun sw => fst sw * snd sw) (combine row w)) /\
  qsum (map (fun sw => fst sw * snd sw) (combine row w)) <= hi * qsum w.
Proof.
  revert w. induction row as [|x row IH]; intros [|a w] Hl Hw Hr; cbn [length] in Hl; try lia.
  - simpl. lra.
  - cbn [combine map]. rewrite !qsum_cons. cbn [fst snd].
    destruct (IH w) as (I1 & I2); [lia|intros; apply Hw; simpl; auto|intros; apply Hr; simpl; auto|].
    destruct (Hr x) as (R1 & R2); [simpl; auto|]. assert (0 <= a) by (apply Hw; simpl; auto).
    pose proof (Qmult_le_compat_r lo x a R1 H). pose proof (Qmult_le_compat_r x hi a R2 H).
    split; lra.
Qed.

Lemma qmean_nonneg l : (forall x, In x l -> 0 <= x) -> 0 <= qmean l.
Proof.
  intros H. unfold qmean. destruct l as [|a l]; [unfold Qdiv; simpl; lra|].
  apply Qle_shift_div_l; [apply Qnat_pos; simpl; lia|]. rewrite Qmult_0_l. apply qsum_nonneg; auto.
Qed.
Lemma accuracy_nonneg labels pp : 0 <= model_accuracy labels pp.
Proof.
  apply qmean_nonneg. intros x Hx. apply in_map_iff in Hx as (y & <- & _). destruct (Nat.eqb _ _); lra.
Qed.

Lemma C16_full : forall K labels pps method adjust weighting ens,
  (weighting = Uniform \/ weighting = Accuracy) ->
  get_label_quality_ensemble_scores labels pps K method adjust weighting = Ok ens ->
  exists scores, Forall2 (fun pp s => get_label_quality_scores labels pp K method adjust = Ok s) pps scores /\
    length ens = length labels /\
    forall e, (e < length labels)%nat -> between (map (fun s => nth e s 0) scores) (nth e ens 0).
Proof.
  intros K labels pps method adjust weighting ens Hw. unfold get_label_quality_ensemble_scores.
  destruct pps as [|p0 pps0]; [discriminate|]. set (pps := p0 :: pps0).
  destruct (rmap _ pps) eqn:E0; cbn [rbind]; [|discriminate]. clear E0.
  destruct (rmap (fun pp => get_label_quality_scores labels pp K method adjust) pps) as [sl|] eqn:E1; cbn [rbind]; [|discriminate].
  apply rmap_ok in E1. pose proof (Forall2_len _ _ _ E1) as Hlen. intros H. exists sl. split; auto.
  assert (Hsl : (0 < length sl)%nat) by (rewrite <- Hlen; unfold pps; simpl; lia).
  assert (Hmean : forall w, (w = map (fun a => a / qsum (map (model_accuracy labels) pps)) (map (model_accuracy labels) pps) /\
             ~ qsum (map (model_accuracy labels) pps) == 0) -> (forall x, In x w -> 0 <= x) /\ qsum w == 1).
  { intros w (-> & Hnz).
    assert (0 <= qsum (map (model_accuracy labels) pps)) by (apply qsum_map_nonneg; intros; apply accuracy_nonneg).
    assert (0 < qsum (map (model_accuracy labels) pps)) by (apply Qle_lteq in H0 as [|]; auto; symmetry in H0; contradiction).
    split.
    - intros x Hx. apply in_map_iff in Hx as (aa & <- & Ha). apply in_map_iff in Ha as (p & <- & _).
      apply Qle_shift_div_l; auto. rewrite Qmult_0_l. apply accuracy_nonneg.
    - rewrite qsum_map_div_l. field. auto. }
  destruct Hw as [-> | ->].
  - inversion H; subst ens. rewrite map_length, tab_length. split; auto. intros e He lo hi Hb.
    rewrite (nth_map_gen _ _ _ _ []) by (rewrite tab_length; auto). rewrite nth_tab by auto.
    apply (average_bounds (map (fun s => nth e s 0) sl)); auto. apply qmean_average.
    intros E. apply (f_equal (@length Q)) in E. rewrite map_length in E. simpl in E. lia.
  - destruct (Qeq_bool _ 0) eqn:Eq; [discriminate|]. apply Qeq_bool_neq in Eq.
    inversion H; subst ens; clear H. rewrite map_length, tab_length. split; auto. intros e He lo hi Hb.
    rewrite (nth_map_gen _ _ _ _ []) by (rewrite tab_length; auto). rewrite nth_tab by auto.
    destruct (Hmean _ (conj eq_refl Eq)) as (W0 & W1).
    set (w := map _ (map (model_accuracy labels) pps)) in *.
    destruct (weighted_bounds (map (fun s => nth e s 0) sl) w lo hi) as (B1 & B2); auto.
    { rewrite map_length. unfold w. rewrite !map_length. lia. }
    rewrite W1, Qmult_1_r in B1, B2. split; [exact B1|exact B2].
Qed.

Lemma C16_same_full : forall K labels pps pp method adjust weighting ens,
  (weighting = Uniform \/ weighting = Accuracy) -> (forall p, In p pps -> p = pp) ->
  get_label_quality_ensemble_scores labels pps K method adjust weighting = Ok ens ->
  exists s, get_label_quality_scores labels pp K method adjust = Ok s /\ Forall2 Qeq ens (map (fun e => nth e s 0) (seq 0 (length labels))).
Proof.
  intros K labels pps pp method adjust weighting ens Hw Hp H.
  pose proof H as H'. apply C16_full in H' as (scores & HF & Hl & Hb); auto.
  destruct pps as [|p0 pps]; [discriminate|]. inversion HF as [|? s ? scores' Es HF']; subst.
  assert (p0 = pp) by (apply Hp; simpl; auto). subst p0.
  assert (Hall : forall s', In s' (s :: scores') -> s' = s).
  { intros s' Hs'. destruct (Forall2_in_r _ _ _ _ HF Hs') as (p & Hin & E). apply Hp in Hin. subst p. congruence. }
  exists s. split; auto.
  assert (Htab : ens = tab (length labels) (fun e => nth e ens 0)) by (rewrite <- Hl; symmetry; apply tab_nth).
  rewrite Htab. fold (tab (length labels) (fun e => nth e s 0)).
  apply Forall2_nth_intro with (d := 0) (d' := 0); [rewrite !tab_length; auto|].
  rewrite tab_length. intros e He. rewrite !nth_tab by auto.
  destruct (Hb e He (nth e s 0) (nth e s 0)) as (A & B); [|lra].
  intros x Hx. apply in_map_iff in Hx as (s' & <- & Hs'). rewrite (Hall s' Hs'). lra.
Qed.

Lemma C16_ok_full : forall K labels pps method adjust,
  pps <> [] -> (forall pp, In pp pps -> dataset K labels pp) -> two_classes labels ->
  (exists ens, get_label_quality_ensemble_scores labels pps K method adjust Uniform = Ok ens) /\
  ((exists pp e, In pp pps /\ (e < length labels)%nat /\ argmax (row_of pp e) = label_of labels e) ->
   exists ens, get_label_quality_ensemble_scores labels pps K method adjust Accuracy = Ok ens).
Proof.
  intros K labels pps method adjust Hne Hd H2. unfold get_label_quality_ensemble_scores.
  destruct pps as [|p0 pps0] eqn:Epps; [congruence|]. rewrite <- Epps in *. clear Hne.
  assert (HK : (2 <= K)%nat).
  { destruct H2 as (a & b & Ha & Hb & Hne). assert (Hd0 : dataset K labels p0) by (apply Hd; rewrite Epps; simpl; auto).
    pose proof (ds_lab _ _ _ Hd0 a Ha). pose proof (ds_lab _ _ _ Hd0 b Hb). lia. }
  assert (R1 : exists u, rmap (fun pp => assert_valid_inputs labels pp K false) pps = Ok u).
  { clear Epps p0 pps0. induction pps as [|p pps IH]; simpl; eauto.
    rewrite (valid_ok K) by (auto; apply Hd; simpl; auto). cbn [rbind].
    destruct IH as (u & ->); [intros; apply Hd; simpl; auto|]. cbn [rbind]. eauto. }
  assert (R2 : exists u, rmap (fun pp => get_label_quality_scores labels pp K method adjust) pps = Ok u).
  { clear Epps p0 pps0 R1. induction pps as [|p pps IH]; simpl; eauto.
    destruct (scores_ok K labels p method adjust) as (s & -> & _); auto. { apply Hd; simpl; auto. } cbn [rbind].
    destruct IH as (u & ->); [intros; apply Hd; simpl; auto|]. cbn [rbind]. eauto. }
  destruct R1 as (u1 & E1), R2 as (u2 & E2). rewrite E1. cbn [rbind]. rewrite E2. cbn [rbind].
  split; [eauto|]. intros (pp & e & Hin & He & Ha).
  destruct (Qeq_bool _ 0) eqn:Eq; [|eauto]. exfalso. apply Qeq_bool_eq in Eq.
  assert (0 < model_accuracy labels pp).
  { pose proof (ds_len _ _ _ (Hd pp Hin)) as Hl.
    unfold model_accuracy, qmean. rewrite map_length, combine_length, <- Hl, Nat.min_id.
    apply Qlt_shift_div_l; [apply Qnat_pos; lia|]. rewrite Qmult_0_l.
    assert (1 <= qsum (map (fun rl : list Q * nat => if Nat.eqb (argmax (fst rl)) (snd rl) then 1 else 0) (combine pp labels))); [|lra].
    apply qsum_ge_elem.
    - intros y Hy. apply in_map_iff in Hy as (z & <- & _). destruct (Nat.eqb _ _); lra.
    - apply in_map_iff. exists (row_of pp e, label_of labels e). cbn [fst snd]. rewrite Ha, Nat.eqb_refl. split; auto.
      unfold row_of, label_of. rewrite <- combine_nth by auto. apply nth_In. rewrite combine_length. lia. }
  assert (model_accuracy labels pp <= qsum (map (model_accuracy labels) pps)); [|lra].
  apply qsum_ge_elem; [|apply in_map; auto]. intros y Hy. apply in_map_iff in Hy as (z & <- & _). apply accuracy_nonneg.
Qed.

(** ** C17 *)
Lemma C17_full : forall srt scores top, argsort_ok srt ->
  let r := find_top_issues srt scores top in
  let n := match top with None => length scores | Some t => Nat.min t (length scores) end in
  length r = n /\ NoDup r /\ (forall i, In i r -> (i < length scores)%nat) /\
  StronglySorted (fun i j => nth i scores 0 <= nth j scores 0) r /\
  (forall i j, In i r -> (j < length scores)%nat -> ~ In j r -> nth i scores 0 <= nth j scores 0).
Proof.
  intros srt scores top Hs r n. unfold r, find_top_issues.
  set (t := match top with None => _ | Some _ => _ end).
  assert (Ht : Nat.min t (length scores) = n).
  { unfold t, n. destruct top as [t'|]; [|lia]. destruct (Nat.ltb_spec (length scores) t'); lia. }
  destruct (argsort_firstn scores (srt scores) t (Hs scores)) as (A & B & C & D).
  split; [lia|]. split; auto. split; auto. split; auto.
  destruct (Hs scores) as (_ & HS). rewrite <- (firstn_skipn t (srt scores)) in HS.
  apply StronglySorted_app in HS. tauto.
Qed.
