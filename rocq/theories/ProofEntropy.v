From Coq Require Import Reals List Arith Lia Lra.
From Verif Require Import ModelEntropy.
Import ListNotations.
Open Scope R_scope.

Lemma ln_le_sub1 x : 0 < x -> ln x <= x - 1.
Proof.
  intros H. destruct (Req_dec x 1) as [->|Hne]; [rewrite ln_1; lra|].
  pose proof (exp_ineq1 (ln x)) as E. rewrite exp_ln in E by auto.
  assert (ln x <> 0). { intros C. apply Hne. rewrite <- (exp_ln x), C by auto. apply exp_0. }
  specialize (E H0). lra.
Qed.
Lemma ln_ge_1_inv x : 0 < x -> 1 - / x <= ln x.
Proof.
  intros H. assert (Hi : 0 < / x) by (apply Rinv_0_lt_compat; auto).
  pose proof (ln_le_sub1 (/ x) Hi) as G. rewrite ln_Rinv in G by auto. lra.
Qed.

Lemma xlogx_nonpos p : 0 <= p <= 1 -> xlogx p <= 0.
Proof.
  intros (H0 & H1). unfold xlogx. destruct (Req_EM_T p 0); [lra|].
  assert (0 < p) by lra. pose proof (ln_le_sub1 p H).
  assert (ln p <= 0) by lra. rewrite <- (Rmult_0_r p). apply Rmult_le_compat_l; lra.
Qed.
Lemma rsum_nonpos l : (forall x, In x l -> x <= 0) -> rsum l <= 0.
Proof.
  induction l as [|a l IH]; simpl; intros H; [lra|]. assert (a <= 0) by auto. assert (rsum l <= 0) by auto. lra.
Qed.

Lemma xlogx_gibbs p K : 0 <= p -> 0 < K -> p - / K <= xlogx p + p * ln K.
Proof.
  intros H HK. unfold xlogx. assert (0 < / K) by (apply Rinv_0_lt_compat; auto).
  destruct (Req_EM_T p 0) as [->|Hne]; [lra|]. assert (0 < p) by lra.
  assert (0 < p * K) by (apply Rmult_lt_0_compat; auto).
  pose proof (ln_ge_1_inv (p * K) H2) as G. rewrite ln_mult in G by auto.
  apply Rmult_le_compat_l with (r := p) in G; [|lra].
  replace (p * (1 - / (p * K))) with (p - / K) in G by (field; lra). lra.
Qed.
Lemma gibbs_sum row K : (forall x, In x row -> 0 <= x) -> 0 < K ->
  rsum row - INR (length row) * / K <= rsum (map xlogx row) + rsum row * ln K.
Proof.
  intros H HK. induction row as [|p row IH].
  - simpl. lra.
  - cbn [length]. rewrite S_INR. cbn [map rsum fold_right]. fold (rsum row). fold (rsum (map xlogx row)).
    assert (0 <= p) by (apply H; simpl; auto).
    pose proof (xlogx_gibbs p K H0 HK). assert (G := IH (fun x Hx => H x (or_intror Hx))). lra.
Qed.

Lemma ln_K_pos n : (2 <= n)%nat -> 0 < ln (INR n).
Proof.
  intros H. rewrite <- ln_1. apply ln_increasing; [lra|]. apply lt_1_INR. lia.
Qed.

Lemma rsum_ge_elem l x : (forall y, In y l -> 0 <= y) -> In x l -> x <= rsum l.
Proof.
  induction l as [|a l IH]; simpl; intros H Hin; [tauto|].
  assert (0 <= rsum l). { clear - H. assert (forall y, In y l -> 0 <= y) by auto. clear H.
    induction l as [|b l IH]; simpl; [lra|]. assert (0 <= b) by (apply H0; simpl; auto).
    assert (0 <= rsum l) by (apply IH; intros; apply H0; simpl; auto). lra. }
  assert (0 <= a) by auto. destruct Hin as [->|Hin]; [lra|]. assert (x <= rsum l) by auto. lra.
Qed.

Lemma normalized_entropy_range row : (2 <= length row)%nat -> (forall x, In x row -> 0 <= x) -> rsum row = 1 ->
  0 <= normalized_entropy row <= 1.
Proof.
  intros H2 H0 H1. unfold normalized_entropy.
  assert (HK : 0 < INR (length row)) by (apply lt_0_INR; lia).
  pose proof (ln_K_pos _ H2) as Hln.
  assert (A : rsum (map xlogx row) <= 0).
  { apply rsum_nonpos. intros x Hx. apply in_map_iff in Hx as (p & <- & Hp). apply xlogx_nonpos. split; auto.
    rewrite <- H1. apply rsum_ge_elem; auto. }
  pose proof (gibbs_sum row _ H0 HK) as B. rewrite H1, Rinv_r in B by lra.
  split.
  - unfold Rdiv. apply Rmult_le_pos; [lra|]. left. apply Rinv_0_lt_compat; auto.
  - apply Rmult_le_reg_r with (ln (INR (length row))); auto. unfold Rdiv. rewrite Rmult_assoc, Rinv_l by lra. lra.
Qed.

Lemma rescaled_range x : 0 <= x -> 0 <= ln (x + 1) / Rmax x clipping_lower_bound <= 1.
Proof.
  intros H. assert (Hc : 0 < clipping_lower_bound) by (unfold clipping_lower_bound; lra).
  assert (Hm : 0 < Rmax x clipping_lower_bound) by (eapply Rlt_le_trans; [apply Hc|apply Rmax_r]).
  assert (Hx : x <= Rmax x clipping_lower_bound) by apply Rmax_l.
  assert (L1 : 0 <= ln (x + 1)).
  { rewrite <- ln_1. destruct (Req_dec x 0) as [->|]; [rewrite Rplus_0_l; lra|]. left. apply ln_increasing; lra. }
  assert (L2 : ln (x + 1) <= x) by (pose proof (ln_le_sub1 (x + 1)); lra).
  split.
  - apply Rmult_le_pos; auto. left. apply Rinv_0_lt_compat; auto.
  - apply Rmult_le_reg_r with (Rmax x clipping_lower_bound); auto.
    unfold Rdiv. rewrite Rmult_assoc, Rinv_l by lra. lra.
Qed.

Lemma cwe_range : forall label row, (2 <= length row)%nat -> (label < length row)%nat ->
  (forall x, In x row -> 0 <= x) -> rsum row = 1 ->
  0 <= normalized_entropy row <= 1 /\ 0 <= confidence_weighted_entropy label row <= 1.
Proof.
  intros label row H2 Hl H0 H1. pose proof (normalized_entropy_range row H2 H0 H1) as (E0 & E1). split; auto.
  unfold confidence_weighted_entropy. apply rescaled_range.
  apply Rmult_le_pos; auto. left. apply Rinv_0_lt_compat.
  eapply Rlt_le_trans; [|apply Rmax_r]. unfold clipping_lower_bound; lra.
Qed.

(** a certain and correct prediction gets the lowest possible score 0, an undecided one a positive score *)
Lemma entropy_onehot : normalized_entropy [1; 0] = 0.
Proof.
  unfold normalized_entropy. simpl. unfold xlogx.
  destruct (Req_EM_T 1 0); [lra|]. destruct (Req_EM_T 0 0); [|lra]. rewrite ln_1. unfold Rdiv. ring.
Qed.
Lemma cwe_onehot : confidence_weighted_entropy 0 [1; 0] = 0.
Proof.
  unfold confidence_weighted_entropy. rewrite entropy_onehot. unfold Rdiv. rewrite Rmult_0_l, Rplus_0_l, ln_1. ring.
Qed.
Lemma entropy_uniform : normalized_entropy [/2; /2] = 1.
Proof.
  unfold normalized_entropy. cbn [map rsum fold_right length]. unfold xlogx.
  destruct (Req_EM_T (/2) 0); [lra|]. rewrite ln_Rinv by lra.
  replace (INR 2) with 2 by (simpl; lra).
  assert (0 < ln 2) by (rewrite <- ln_1; apply ln_increasing; lra). field. lra.
Qed.
Lemma cwe_uniform : 0 < confidence_weighted_entropy 0 [/2; /2].
Proof.
  unfold confidence_weighted_entropy. rewrite entropy_uniform. cbn [nth].
  rewrite (Rmax_left (/2)) by (unfold clipping_lower_bound; lra).
  replace (1 / / 2) with 2 by field. rewrite Rmax_left by (unfold clipping_lower_bound; lra).
  apply Rmult_lt_0_compat; [|lra]. rewrite <- ln_1. apply ln_increasing; lra.
Qed.
Lemma cwe_order_refuted : exists label row row',
  (label < length row)%nat /\ length row = length row' /\
  (forall x, In x row -> 0 <= x) /\ (forall x, In x row' -> 0 <= x) /\ rsum row = 1 /\ rsum row' = 1 /\
  nth label row 0 = 1 /\ nth label row' 0 = /2 /\
  confidence_weighted_entropy label row = 0 /\ 0 < confidence_weighted_entropy label row'.
Proof.
  exists 0%nat, [1; 0], [/2; /2]. cbn [length nth rsum fold_right].
  repeat split; auto; try lra.
  - simpl. intros x [<-|[<-|[]]]; lra.
  - simpl. intros x [<-|[<-|[]]]; lra.
  - apply cwe_onehot.
  - apply cwe_uniform.
Qed.
