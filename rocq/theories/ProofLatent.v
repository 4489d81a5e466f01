From Coq Require Import QArith Qabs Qround List Permutation Sorted ZArith Bool Arith Lia Lqa.
From Verif Require Import Base BaseFacts ModelUtil ModelCount ModelLatent SpecCount SpecLatent
     ProofUtil ProofCount ProofFilter.
Import ListNotations.
Open Scope Q_scope.

(** ** generic facts *)
Lemma TINY_pos : 0 < TINY_VALUE. Proof. reflexivity. Qed.
Lemma Qdiv_le a b c : 0 < b -> a <= c * b -> a / b <= c.
Proof. intros. apply Qle_shift_div_r; auto. Qed.
Lemma Qdiv_ge a b c : 0 < b -> c * b <= a -> c <= a / b.
Proof. intros. apply Qle_shift_div_l; auto. Qed.
Lemma Qdiv_nonneg a b : 0 < b -> 0 <= a -> 0 <= a / b.
Proof. intros. apply Qdiv_ge; auto. lra. Qed.
Lemma clip_lo_pos x : 0 < clip_lo TINY_VALUE x.
Proof. pose proof (clip_lo_ge TINY_VALUE x). pose proof TINY_pos. lra. Qed.
Lemma tiny_le_of x : (1 # 10) <= x -> TINY_VALUE <= x.
Proof. intros. apply Qle_trans with (1#10); auto. vm_compute; discriminate. Qed.

Lemma qsum_tab_nonneg n f : (forall i, (i < n)%nat -> 0 <= f i) -> 0 <= qsum (tab n f).
Proof. intros H. apply qsum_nonneg. intros x Hx. apply in_tab in Hx as (i & Hi & ->). auto. Qed.
Lemma qsum_tab_ge n f i : (forall i, (i < n)%nat -> 0 <= f i) -> (i < n)%nat -> f i <= qsum (tab n f).
Proof.
  intros H Hi. apply qsum_ge_elem.
  - intros x Hx. apply in_tab in Hx as (k & Hk & ->). auto.
  - apply in_tab. eauto.
Qed.
Lemma qsum_tab_le_const n f c : (forall i, (i < n)%nat -> f i <= c) -> qsum (tab n f) <= Qnat n * c.
Proof.
  intros H. unfold tab. rewrite <- (seq_length n 0) at 2. rewrite <- qsum_map_const. apply qsum_map_le.
  intros i Hi. apply in_seq in Hi. apply H. lia.
Qed.
Lemma qsum_tab_ge_const n f c : (forall i, (i < n)%nat -> c <= f i) -> Qnat n * c <= qsum (tab n f).
Proof.
  intros H. unfold tab. rewrite <- (seq_length n 0) at 1. rewrite <- qsum_map_const. apply qsum_map_le.
  intros i Hi. apply in_seq in Hi. apply H. lia.
Qed.
Lemma exists_ge_average n f : (0 < n)%nat -> qsum (tab n f) == 1 -> exists i, (i < n)%nat /\ 1 / Qnat n <= f i.
Proof.
  intros Hn H1. assert (Hq : 0 < Qnat n) by (apply Qnat_pos; auto).
  destruct (existsb (fun i => Qle_bool (1 / Qnat n) (f i)) (seq 0 n)) eqn:E.
  - apply existsb_exists in E as (i & Hi & Hle). apply in_seq in Hi. qb. exists i. split; auto. lia.
  - exfalso. assert (G : forall i, (i < n)%nat -> f i < 1 / Qnat n).
    { intros i Hi. apply Qnot_le_lt. intros C. apply Qle_bool_iff in C.
      assert (existsb (fun i => Qle_bool (1 / Qnat n) (f i)) (seq 0 n) = true); [|congruence].
      apply existsb_exists. exists i. split; auto. apply in_seq. lia. }
    assert (Hlt : qsum (tab n f) < Qnat n * (1 / Qnat n)).
    { clear - G Hn. revert G. generalize (1 / Qnat n). intros c G. destruct n as [|n]; [lia|]. clear Hn.
      induction n as [|n IH].
      - change (tab 1 f) with [f 0%nat]. change (Qnat 1) with 1. pose proof (G 0%nat (le_n 1)). simpl. lra.
      - rewrite tab_snoc, qsum_app, Qnat_S. pose proof (G (S n) (le_n _)) as G1.
        assert (I := IH (fun i Hi => G i (Nat.lt_trans _ _ _ Hi (Nat.lt_succ_diag_r _)))).
        simpl qsum at 2. lra. }
    rewrite H1 in Hlt. assert (Qnat n * (1 / Qnat n) == 1) by (field; lra). lra.
Qed.

Lemma mget_nonneg K m i j : nonneg_square K m -> 0 <= mget m i j.
Proof.
  intros (Hl & Hr & H0). unfold mget. destruct (Nat.lt_ge_cases i (length m)).
  - destruct (Nat.lt_ge_cases j (length (nth i m []))).
    + apply H0 with (nth i m []); apply nth_In; auto.
    + rewrite nth_overflow by auto. lra.
  - rewrite (nth_overflow m) by auto. destruct j; simpl; lra.
Qed.
Lemma nonneg_square_tab K f : (forall i j, (i < K)%nat -> (j < K)%nat -> 0 <= f i j) ->
  nonneg_square K (tab K (fun i => tab K (fun j => f i j))).
Proof.
  intros H. split; [apply tab_length|]. split.
  - intros r Hr. apply in_tab in Hr as (i & Hi & ->). apply tab_length.
  - intros r x Hr Hx. apply in_tab in Hr as (i & Hi & ->). apply in_tab in Hx as (j & Hj & ->). auto.
Qed.
Lemma col_tab K f j : (j < K)%nat -> col j (tab K (fun i => tab K (fun j => f i j))) = tab K (fun i => f i j).
Proof.
  intros Hj. unfold col. rewrite map_tab. apply tab_ext. intros i Hi. apply nth_tab. auto.
Qed.
Lemma col_nth m j : col j m = tab (length m) (fun i => mget m i j).
Proof.
  unfold col, mget. rewrite <- (tab_nth m []) at 1. rewrite map_tab. reflexivity.
Qed.
Lemma row_as_tab K (m : list (list Q)) i : (forall r, In r m -> length r = K) -> (i < length m)%nat ->
  nth i m [] = tab K (fun j => mget m i j).
Proof.
  intros H Hi. unfold mget. rewrite <- (H (nth i m [])) by (apply nth_In; auto). symmetry. apply tab_nth.
Qed.

(** ** clip_noise_rates *)
Definition cnr (m : list (list Q)) (i j : nat) : Q :=
  if Nat.eqb i j then mget m i j else clip 0 (9999 # 10000) (mget m i j).
Lemma clip_get K m i j : length m = K -> (i < K)%nat -> (j < K)%nat ->
  mget (clip_noise_rates m) i j = cnr m i j / clip_lo TINY_VALUE (qsum (tab K (fun i => cnr m i j))).
Proof.
  intros HK Hi Hj. unfold clip_noise_rates. rewrite HK, mget_tab by auto.
  rewrite (mget_tab K (fun i j => cnr m i j)) by auto. rewrite (col_tab K (fun i j => cnr m i j)) by auto. reflexivity.
Qed.
Lemma cnr_bounds m i j : 0 <= mget m i j -> 0 <= cnr m i j /\ cnr m i j <= mget m i j /\
  (i <> j -> cnr m i j <= 9999 # 10000) /\
  (forall v, v <= mget m i j -> v <= (9999#10000) -> v <= cnr m i j).
Proof.
  intros H. unfold cnr. destruct (Nat.eqb_spec i j).
  - repeat split; try lra. intros; congruence. intros; lra.
  - unfold clip. qmm; repeat split; intros; lra.
Qed.
Lemma cnr_nonneg K m i j : nonneg_square K m -> 0 <= cnr m i j.
Proof. intros H. destruct (cnr_bounds m i j (mget_nonneg K m i j H)) as (G & _). exact G. Qed.
Lemma cnr_id m i j : 0 <= mget m i j -> (i <> j -> mget m i j <= 9999 # 10000) -> cnr m i j == mget m i j.
Proof.
  intros H H1. unfold cnr. destruct (Nat.eqb_spec i j); [reflexivity|]. specialize (H1 n).
  unfold clip. qmm; lra.
Qed.

Lemma clip_length m : length (clip_noise_rates m) = length m.
Proof. unfold clip_noise_rates. apply tab_length. Qed.

Lemma cnr_sum_ge K m j : nonneg_square K m -> (j < K)%nat ->
  TINY_VALUE <= qsum (tab K (fun i => mget m i j)) -> TINY_VALUE <= qsum (tab K (fun i => cnr m i j)).
Proof.
  intros Hm Hj Hs.
  destruct (existsb (fun i => Qle_bool (9999#10000) (mget m i j)) (seq 0 K)) eqn:E.
  - apply existsb_exists in E as (i & Hi & Hle). apply in_seq in Hi. qb.
    destruct (cnr_bounds m i j (mget_nonneg K m i j Hm)) as (_ & _ & _ & Hv). specialize (Hv _ Hle (Qle_refl _)).
    apply Qle_trans with (9999#10000); [vm_compute; discriminate|]. apply Qle_trans with (cnr m i j); auto.
    apply (qsum_tab_ge K (fun i => cnr m i j) i); [|lia]. intros; apply (cnr_nonneg K); auto.
  - rewrite (qsum_tab_ext K _ (fun i => mget m i j)); auto. intros i Hi.
    apply cnr_id; [apply (mget_nonneg K); auto|]. intros _. apply Qlt_le_weak, Qnot_le_lt. intros C.
    apply Qle_bool_iff in C.
    assert (existsb (fun i => Qle_bool (9999#10000) (mget m i j)) (seq 0 K) = true); [|congruence].
    apply existsb_exists. exists i. split; auto. apply in_seq. lia.
Qed.

Lemma clip_stochastic K m : nonneg_square K m ->
  (forall j, (j < K)%nat -> TINY_VALUE <= qsum (tab K (fun i => mget m i j))) ->
  column_stochastic K (clip_noise_rates m).
Proof.
  intros Hm Hcol. pose proof Hm as (HK & _).
  assert (Hs : forall j, (j < K)%nat -> TINY_VALUE <= qsum (tab K (fun i => cnr m i j))).
  { intros j Hj. apply cnr_sum_ge; auto. }
  split.
  - unfold clip_noise_rates. rewrite HK. apply nonneg_square_tab. intros i j Hi Hj.
    apply Qdiv_nonneg; [apply clip_lo_pos|]. rewrite (mget_tab K (fun i j => cnr m i j)) by auto.
    apply (cnr_nonneg K); auto.
  - intros j Hj.
    rewrite (qsum_tab_ext K _ (fun i => cnr m i j / clip_lo TINY_VALUE (qsum (tab K (fun i => cnr m i j)))))
      by (intros i Hi; rewrite (clip_get K) by auto; reflexivity).
    unfold tab at 1. rewrite (qsum_map_div (fun i => cnr m i j)). fold (tab K (fun i => cnr m i j)).
    rewrite clip_lo_id by auto. field. specialize (Hs j Hj). pose proof TINY_pos. lra.
Qed.

Lemma clip_lower K m D i j v : nonneg_square K m -> (i < K)%nat -> (j < K)%nat -> 0 <= D -> mget m j j <= D ->
  0 <= v -> v <= mget m i j -> v <= 9999 # 10000 -> v / (Qnat K + D) <= mget (clip_noise_rates m) i j.
Proof.
  intros Hm Hi Hj HD Hdiag Hv0 Hv Hv1. pose proof Hm as (HK & _).
  assert (HKpos : 1 <= Qnat K). { change 1 with (Qnat 1). apply Qnat_le. lia. }
  rewrite (clip_get K) by auto.
  assert (Hsum : qsum (tab K (fun i => cnr m i j)) <= Qnat K + D).
  { setoid_replace (Qnat K + D) with (Qnat K * 1 + D) by ring.
    rewrite <- (qsum_indicator (fun _ => D) j K 0) by lia. rewrite <- (seq_length K 0) at 2. rewrite <- qsum_map_const.
    rewrite <- qsum_map_plus. apply qsum_map_le. intros k Hk.
    destruct (cnr_bounds m k j (mget_nonneg K m k j Hm)) as (A & B & C & _).
    destruct (Nat.eqb_spec k j) as [->|Hne]; [lra|]. specialize (C Hne). lra. }
  assert (Hclip : clip_lo TINY_VALUE (qsum (tab K (fun i => cnr m i j))) <= Qnat K + D).
  { unfold clip_lo. destruct (qmax_spec (qsum (tab K (fun i => cnr m i j))) TINY_VALUE) as [(_ & ->)|(_ & ->)]; auto.
    assert (TINY_VALUE <= 1) by (vm_compute; discriminate). lra. }
  pose proof (clip_lo_pos (qsum (tab K (fun i => cnr m i j)))) as Hpos.
  apply Qdiv_ge; auto. apply Qle_trans with v.
  - setoid_replace (v / (Qnat K + D) * clip_lo TINY_VALUE (qsum (tab K (fun i0 : nat => cnr m i0 j))))
      with ((v * clip_lo TINY_VALUE (qsum (tab K (fun i0 : nat => cnr m i0 j)))) / (Qnat K + D)) by (field; lra).
    apply Qdiv_le; [lra|]. rewrite !(Qmult_comm v). apply Qmult_le_compat_r; auto.
  - apply (cnr_bounds m i j (mget_nonneg K m i j Hm)); auto.
Qed.

(** clipping does nothing to a column-stochastic matrix with noise rates at most 0.9999 *)
Lemma clip_id K m i j : nonneg_square K m -> (i < K)%nat -> (j < K)%nat ->
  qsum (tab K (fun i => mget m i j)) == 1 ->
  (forall i, (i < K)%nat -> i <> j -> mget m i j <= 9999 # 10000) ->
  mget (clip_noise_rates m) i j == mget m i j.
Proof.
  intros Hm Hi Hj H1 Hle. pose proof Hm as (HK & _). rewrite (clip_get K) by auto.
  assert (E : forall i, (i < K)%nat -> cnr m i j == mget m i j).
  { intros i' Hi'. apply cnr_id; [apply (mget_nonneg K); auto|]. intros; apply Hle; auto. }
  rewrite (qsum_tab_ext K _ _ E), H1, E by auto.
  rewrite clip_lo_id by (vm_compute; discriminate). field.
Qed.

(** ** clip_values *)
Lemma clip_values_dist low x : 0 < low -> low <= 1 -> x <> [] -> TINY_VALUE <= low ->
  positive_distribution (length x) (clip_values x low 1 1) /\
  forall v, In v (clip_values x low 1 1) -> low / Qnat (length x) <= v /\ v <= 1.
Proof.
  intros Hlow H1 Hne Ht. unfold clip_values. set (y := map (clip low 1) x).
  assert (Hy : forall v, In v y -> low <= v /\ v <= 1).
  { intros v Hv. apply in_map_iff in Hv as (u & <- & _). unfold clip. qmm; lra. }
  assert (Hyn : y <> []) by (destruct x; [congruence|discriminate]).
  assert (Hs : low <= qsum y).
  { destruct y as [|a y']; [congruence|]. assert (low <= a) by (apply Hy; simpl; auto).
    rewrite qsum_cons. assert (0 <= qsum y') by (apply qsum_nonneg; intros v Hv; assert (low <= v) by (apply Hy; simpl; auto); lra). lra. }
  assert (Hs' : qsum y <= Qnat (length x)).
  { setoid_replace (Qnat (length x)) with (Qnat (length x) * 1) by ring. rewrite <- (qsum_map_const 1 x). unfold y.
    apply qsum_map_le. intros u Hu. apply Hy. apply in_map. auto. }
  assert (Ec : clip_lo TINY_VALUE (qsum y) == qsum y) by (apply clip_lo_id; lra).
  assert (Hv : forall v, In v (map (fun v => v * 1 / clip_lo TINY_VALUE (qsum y)) y) ->
     low / Qnat (length x) <= v /\ v <= 1).
  { intros v Hv. apply in_map_iff in Hv as (u & <- & Hu). rewrite Ec. pose proof (Hy u Hu). 
    assert (u <= qsum y). { apply qsum_ge_elem; auto. intros w Hw. assert (low <= w) by (apply Hy; auto). lra. }
    split.
    - apply Qle_trans with (low / qsum y).
      + apply Qdiv_le; [lra|]. setoid_replace (low / qsum y * Qnat (length x)) with (low * Qnat (length x) / qsum y) by (field; lra).
        apply Qdiv_ge; [lra|]. apply Qmult_le_l; auto.
      + apply Qdiv_le; [lra|]. setoid_replace (u * 1 / qsum y * qsum y) with u by (field; lra). lra.
    - apply Qdiv_le; lra. }
  assert (Hpos : 0 < Qnat (length x)) by lra.
  split; auto. split; [rewrite map_length; unfold y; apply map_length|]. split.
  - intros v Hin. specialize (Hv v Hin). assert (0 < low / Qnat (length x)); [|lra].
    apply Qlt_shift_div_l; lra.
  - rewrite (qsum_map_ext _ (fun v => v / qsum y)) by (intros v _; rewrite Ec; field; lra).
    rewrite (qsum_map_div (fun v => v)), map_id. field. lra.
Qed.

Lemma clip_values_id low x : (forall v, In v x -> low <= v /\ v <= 1) -> qsum x == 1 ->
  Forall2 Qeq (clip_values x low 1 1) x.
Proof.
  intros H H1. unfold clip_values.
  assert (E : forall v, In v x -> clip low 1 v == v).
  { intros v Hv. specialize (H v Hv). unfold clip. qmm; lra. }
  assert (Es : qsum (map (clip low 1) x) == 1).
  { rewrite (qsum_map_ext _ (fun v => v)) by auto. rewrite map_id. auto. }
  rewrite map_map. clear H H1.
  assert (Ec : clip_lo TINY_VALUE (qsum (map (clip low 1) x)) == 1).
  { rewrite Es. apply clip_lo_id. vm_compute. discriminate. }
  revert Ec. generalize (clip_lo TINY_VALUE (qsum (map (clip low 1) x))). intros c Ec.
  clear Es. induction x as [|v x IH]; simpl; constructor.
  - rewrite Ec, E by (simpl; auto). field.
  - apply IH. intros; apply E; simpl; auto.
Qed.

(** ** C20 *)
Lemma C20_full : forall K m c, column_stochastic K m -> (c < K)%nat ->
  let r := remove_noise_from_class m c in
  column_stochastic K r /\
  (forall y, (y < K)%nat -> y <> c -> mget r c y == 0) /\
  (forall s y, (s < K)%nat -> (y < K)%nat -> s <> y -> s <> c -> mget r s y == mget m s y).
Proof.
  intros K m c (Hm & Hcol) Hc r. pose proof Hm as (HK & _).
  set (x := fun i j => if (Nat.eqb i c && negb (Nat.eqb j c))%bool then 0 else mget m i j).
  assert (Hx0 : forall i j, 0 <= x i j /\ x i j <= mget m i j).
  { intros i j. unfold x. pose proof (mget_nonneg K m i j Hm). destruct (_ && _)%bool; lra. }
  assert (Er : r = tab K (fun i => tab K (fun j =>
      if Nat.eqb i j then 1 - (qsum (tab K (fun i => x i j)) - x j j) else x i j))).
  { unfold r, remove_noise_from_class. rewrite HK. fold x. apply tab_ext. intros i Hi. apply tab_ext. intros j Hj.
    rewrite (col_tab K x) by auto. rewrite !(mget_tab K x) by auto. reflexivity. }
  assert (Hle : forall j, (j < K)%nat -> qsum (tab K (fun i => x i j)) <= 1).
  { intros j Hj. rewrite <- (Hcol j Hj). apply qsum_map_le. intros i _. apply Hx0. }
  split; [split|split].
  - rewrite Er. apply nonneg_square_tab. intros i j Hi Hj. specialize (Hle j Hj).
    destruct (Nat.eqb i j); [|apply Hx0]. destruct (Hx0 j j). lra.
  - intros j Hj. rewrite Er.
    rewrite (qsum_tab_ext K _ (fun i => x i j + (if Nat.eqb i j then 1 - qsum (tab K (fun i => x i j)) else 0))).
    + unfold tab at 1. rewrite qsum_map_plus.
      rewrite (qsum_indicator (fun _ => 1 - qsum (tab K (fun i => x i j))) j K 0) by lia. unfold tab. ring.
    + intros i Hi. rewrite (mget_tab K (fun i j => if Nat.eqb i j then 1 - (qsum (tab K (fun i => x i j)) - x j j) else x i j)) by auto.
      destruct (Nat.eqb_spec i j) as [->|]; ring.
  - intros y Hy Hne. rewrite Er. rewrite (mget_tab K (fun i j => if Nat.eqb i j then 1 - (qsum (tab K (fun i => x i j)) - x j j) else x i j)) by auto.
    destruct (Nat.eqb_spec c y); [congruence|]. unfold x. rewrite Nat.eqb_refl.
    destruct (Nat.eqb_spec y c); [congruence|]. reflexivity.
  - intros s y Hs Hy Hsy Hsc. rewrite Er. rewrite (mget_tab K (fun i j => if Nat.eqb i j then 1 - (qsum (tab K (fun i => x i j)) - x j j) else x i j)) by auto.
    destruct (Nat.eqb_spec s y); [congruence|]. unfold x. destruct (Nat.eqb_spec s c); [congruence|]. reflexivity.
Qed.

(** ** C19 *)
Lemma inv_get K N py ps y s : length N = K -> (y < K)%nat -> (s < K)%nat ->
  mget (tab K (fun y => tab K (fun s => mget (joint_of N py) s y / clip_lo TINY_VALUE (nth s ps 0)))) y s
  = joint_p N py s y / clip_lo TINY_VALUE (nth s ps 0).
Proof.
  intros HK Hy Hs. rewrite (mget_tab K (fun y s => mget (joint_of N py) s y / clip_lo TINY_VALUE (nth s ps 0))) by auto.
  unfold joint_of. rewrite HK, (mget_tab K (fun s y => mget N s y * nth y py 0)) by auto. reflexivity.
Qed.

Lemma joint_row_sum K N py s : length N = K -> (s < K)%nat ->
  nth s (map qsum (joint_of N py)) 0 = given_p K N py s.
Proof.
  intros HK Hs. unfold joint_of. rewrite HK. rewrite map_tab, nth_tab by auto. reflexivity.
Qed.

Section Bayes.
Context (K : nat) (N : list (list Q)) (py : list Q).
Context (HN : column_stochastic K N) (Hpy : positive_distribution K py)
        (Hps : forall s, (s < K)%nat -> TINY_VALUE <= given_p K N py s)
        (Hpost : forall s y, (s < K)%nat -> (y < K)%nat -> s <> y ->
           joint_p N py s y <= (9999 # 10000) * given_p K N py s).

Let HK : length N = K. Proof. apply HN. Qed.
Lemma py_pos y : (y < K)%nat -> 0 < nth y py 0.
Proof. intros Hy. destruct Hpy as (Hl & Hp & _). apply Hp. apply nth_In. lia. Qed.
Lemma joint_nonneg s y : (y < K)%nat -> 0 <= joint_p N py s y.
Proof.
  intros Hy. unfold joint_p. apply Qmult_le_0_compat.
  - apply (mget_nonneg K). apply HN.
  - apply Qlt_le_weak, py_pos; auto.
Qed.
Lemma given_pos s : (s < K)%nat -> 0 < given_p K N py s.
Proof. intros Hs. pose proof (Hps s Hs). pose proof TINY_pos. lra. Qed.

Lemma inv_is_posterior psarg : (psarg = None \/ exists ps, psarg = Some ps /\ forall s, (s < K)%nat -> nth s ps 0 == given_p K N py s) ->
  let I := compute_inv_noise_matrix py N psarg in
  column_stochastic K I /\
  forall y s, (y < K)%nat -> (s < K)%nat -> mget I y s == joint_p N py s y / given_p K N py s.
Proof.
  intros Hpsarg. unfold compute_inv_noise_matrix. rewrite HK. cbv zeta.
  set (ps := match psarg with Some p => p | None => map qsum (joint_of N py) end).
  assert (Eps : forall s, (s < K)%nat -> nth s ps 0 == given_p K N py s).
  { intros s Hs. unfold ps. destruct Hpsarg as [->|(p & -> & Hp)]; auto. rewrite (joint_row_sum K) by auto. reflexivity. }
  set (M := tab K (fun y => tab K (fun s => mget (joint_of N py) s y / clip_lo TINY_VALUE (nth s ps 0)))).
  set (I := clip_noise_rates M).
  assert (EM : forall y s, (y < K)%nat -> (s < K)%nat -> mget M y s == joint_p N py s y / given_p K N py s).
  { intros y s Hy Hs. unfold M. rewrite (inv_get K N py ps y s) by auto. rewrite Eps, clip_lo_id by auto. reflexivity. }
  assert (HM : nonneg_square K M).
  { unfold M. apply nonneg_square_tab. intros y s Hy Hs. apply Qdiv_nonneg; [apply clip_lo_pos|].
    unfold joint_of. rewrite HK, (mget_tab K (fun s y => mget N s y * nth y py 0)) by auto. apply (joint_nonneg s y); auto. }
  assert (Hsum : forall s, (s < K)%nat -> qsum (tab K (fun y => mget M y s)) == 1).
  { intros s Hs. rewrite (qsum_tab_ext K _ (fun y => joint_p N py s y / given_p K N py s)) by (intros; apply EM; auto).
    unfold tab. rewrite (qsum_map_div (fun y => joint_p N py s y)). unfold given_p at 1, tab. field.
    pose proof (given_pos s Hs). unfold given_p, tab in H. lra. }
  split.
  - apply clip_stochastic; auto. intros j Hj. rewrite Hsum by auto. vm_compute. discriminate.
  - intros y s Hy Hs. unfold I. rewrite (clip_id K M y s); auto.
    intros i Hi Hne. rewrite EM by auto. apply Qdiv_le; [apply given_pos; auto|]. apply Hpost; auto.
Qed.

(** from the posterior back to the noise matrix *)
Lemma noise_from_posterior ps I pyarg :
  (forall s, (s < K)%nat -> nth s ps 0 == given_p K N py s) -> length I = K ->
  (forall y s, (y < K)%nat -> (s < K)%nat -> mget I y s == joint_p N py s y / given_p K N py s) ->
  (forall s y, (s < K)%nat -> (y < K)%nat -> s <> y -> mget N s y <= 9999 # 10000) ->
  (forall y, (y < K)%nat -> TINY_VALUE <= nth y py 0) ->
  (pyarg = None \/ pyarg = Some py) ->
  forall s y, (s < K)%nat -> (y < K)%nat ->
    mget (compute_noise_matrix_from_inverse ps I pyarg) s y == mget N s y.
Proof.
  intros Eps HI EI HNle Hpy6 Harg s y Hs Hy. unfold compute_noise_matrix_from_inverse. rewrite HI.
  set (joint := tab K (fun s => tab K (fun y => mget I y s * nth s ps 0))).
  assert (EJ : forall s y, (s < K)%nat -> (y < K)%nat -> mget joint s y == joint_p N py s y).
  { intros s' y' Hs' Hy'. unfold joint. rewrite (mget_tab K (fun s y => mget I y s * nth s ps 0)) by auto.
    rewrite EI, Eps by auto. field. pose proof (given_pos s' Hs'). lra. }
  set (p := match pyarg with Some p => p | None => tab K (fun y => qsum (col y joint)) end).
  assert (Ep : forall y, (y < K)%nat -> nth y p 0 == nth y py 0).
  { intros y' Hy'. unfold p. destruct Harg as [->| ->]; [|reflexivity]. rewrite nth_tab by auto.
    rewrite col_nth. unfold joint at 1. rewrite tab_length.
    rewrite (qsum_tab_ext K _ (fun s => nth y' py 0 * mget N s y')).
    - unfold tab. rewrite (qsum_map_scale (fun s => mget N s y')). fold (tab K (fun s => mget N s y')).
      destruct HN as (_ & ->); auto. ring.
    - intros s' Hs'. rewrite EJ by auto. unfold joint_p. ring. }
  set (M := tab K (fun s => tab K (fun y => mget joint s y / clip_lo TINY_VALUE (nth y p 0)))).
  assert (EM : forall s y, (s < K)%nat -> (y < K)%nat -> mget M s y == mget N s y).
  { intros s' y' Hs' Hy'. unfold M. rewrite (mget_tab K (fun s y => mget joint s y / clip_lo TINY_VALUE (nth y p 0))) by auto.
    rewrite EJ, Ep by auto. rewrite clip_lo_id by auto. unfold joint_p. field. pose proof (py_pos y' Hy'). lra. }
  assert (HM : nonneg_square K M).
  { unfold M. apply nonneg_square_tab. intros s' y' Hs' Hy'. apply Qdiv_nonneg; [apply clip_lo_pos|].
    rewrite EJ by auto. apply joint_nonneg; auto. }
  rewrite (clip_id K M s y HM Hs Hy); auto.
  - rewrite (qsum_tab_ext K _ (fun i => mget N i y)) by (intros; apply EM; auto). apply HN; auto.
  - intros i Hi Hne. rewrite EM by auto. apply HNle; auto.
Qed.

Lemma forall2_clip_py x : length x = K -> (forall k, (k < K)%nat -> nth k x 0 == nth k py 0) ->
  (forall k, (k < K)%nat -> 1 # 1000000 <= nth k py 0) ->
  Forall2 Qeq (clip_values x CLIPPING_LOWER_BOUND 1 1) py.
Proof.
  intros Hx E H6. destruct Hpy as (Hl & Hp & H1).
  assert (F : Forall2 Qeq x py) by (apply Forall2_nth_intro with (d := 0) (d' := 0); [lia|intros; apply E; lia]).
  assert (G : Forall2 Qeq (clip_values x CLIPPING_LOWER_BOUND 1 1) x).
  { apply clip_values_id.
    - intros v Hv. apply In_nth with (d := 0) in Hv as (k & Hk & <-). rewrite E by lia. split; [apply H6; lia|].
      rewrite <- H1. apply qsum_ge_elem; [|apply nth_In; lia]. intros w Hw. apply Qlt_le_weak; auto.
    - rewrite (qsum_Forall2 _ _ F). auto. }
  clear - F G. revert py F. induction G as [|a b l l' Hab G IH]; intros p F; inversion F; subst; constructor.
  - rewrite Hab. auto.
  - apply IH; auto.
Qed.

Lemma dot_tab (a b : list Q) : length a = K -> length b = K -> dot a b == qsum (tab K (fun i => nth i a 0 * nth i b 0)).
Proof.
  intros Ha Hb. unfold dot. clear - Ha Hb. revert a b Ha Hb. induction K as [|n IH]; intros [|x a] [|y b] Ha Hb; simpl in Ha, Hb; try lia.
  - reflexivity.
  - rewrite tab_S. cbn [combine map]. rewrite !qsum_cons. rewrite IH by lia. reflexivity.
Qed.

Lemma py_recovered ps I : length ps = K ->
  (forall s, (s < K)%nat -> nth s ps 0 == given_p K N py s) ->
  length I = K -> (forall r, In r I -> length r = K) ->
  (forall y s, (y < K)%nat -> (s < K)%nat -> mget I y s == joint_p N py s y / given_p K N py s) ->
  (forall k, (k < K)%nat -> 1 # 1000000 <= nth k py 0) ->
  ((forall k, (k < K)%nat -> TINY_VALUE <= mget N k k) -> Forall2 Qeq (compute_py ps N I Cnt) py) /\
  Forall2 Qeq (compute_py ps N I MarginalPs) py /\
  (forall c, TINY_VALUE <= c -> Forall2 Qeq (compute_py ps N I (Marginal (map (fun p => c * p) py))) py) /\
  (forall inv, length inv = K -> (forall r, In r inv -> length r = K) ->
     (forall i j, (i < K)%nat -> (j < K)%nat ->
        qsum (tab K (fun s => mget inv i s * mget N s j)) == if Nat.eqb i j then 1 else 0) ->
     Forall2 Qeq (compute_py ps N I (Eqn inv)) py).
Proof.
  intros Hlps Eps HI HIr EI H6. pose proof Hpy as (Hlpy & Hpp & H1). split; [|split; [|split]].
  - intros Hd. unfold compute_py. rewrite HK. apply forall2_clip_py; auto; [apply tab_length|].
    intros k Hk. rewrite nth_tab by auto. rewrite clip_lo_id by auto. rewrite EI, Eps by auto. unfold joint_p. field.
    specialize (Hd k Hk). pose proof TINY_pos. pose proof (given_pos k Hk). split; lra.
  - unfold compute_py. apply forall2_clip_py; auto; [rewrite map_length; auto|].
    intros k Hk. rewrite (nth_map_gen _ _ _ _ []) by lia. rewrite dot_tab by (auto; apply HIr, nth_In; lia).
    rewrite (qsum_tab_ext K _ (fun s => nth k py 0 * mget N s k)).
    + unfold tab. rewrite (qsum_map_scale (fun s => mget N s k)). fold (tab K (fun s => mget N s k)).
      destruct HN as (_ & ->); auto. ring.
    + intros s Hs. fold (mget I k s). rewrite EI, Eps by auto. unfold joint_p. field. pose proof (given_pos s Hs). lra.
  - intros c Hc. unfold compute_py. apply forall2_clip_py; auto; [rewrite !map_length; auto|].
    intros k Hk. rewrite (nth_map_gen _ _ _ _ 0) by (rewrite map_length; lia).
    rewrite (nth_map_gen (fun p => c * p) py k 0 0) by lia.
    rewrite (qsum_map_scale (fun p => p)), map_id, H1.
    pose proof TINY_pos. rewrite clip_lo_id by lra. field. lra.
  - intros inv Hinv Hinvr Hid. unfold compute_py. apply forall2_clip_py; auto; [rewrite map_length; auto|].
    intros k Hk. rewrite (nth_map_gen _ _ _ _ []) by lia. rewrite dot_tab by (auto; apply Hinvr, nth_In; lia).
    rewrite (qsum_tab_ext K _ (fun s => qsum (tab K (fun y => mget inv k s * mget N s y * nth y py 0)))).
    + rewrite qsum_tab_swap.
      rewrite (qsum_tab_ext K _ (fun y => if Nat.eqb y k then nth y py 0 else 0)).
      * apply (qsum_indicator (fun y => nth y py 0) k K 0). lia.
      * intros y Hy. unfold tab. rewrite (qsum_map_scale_r (fun s => mget inv k s * mget N s y)).
        fold (tab K (fun s => mget inv k s * mget N s y)). rewrite Hid by auto.
        rewrite (Nat.eqb_sym k y). destruct (Nat.eqb y k); ring.
    + intros s Hs. rewrite Eps by auto. unfold given_p, tab. fold (mget inv k s).
      rewrite <- (qsum_map_scale (fun y => joint_p N py s y)). apply qsum_map_ext. intros y _. unfold joint_p. ring.
Qed.
End Bayes.

Lemma C19_full : forall K N py, column_stochastic K N -> positive_distribution K py ->
  (forall y, (y < K)%nat -> 1 # 1000000 <= nth y py 0) ->
  (forall s y, (s < K)%nat -> (y < K)%nat -> s <> y -> mget N s y <= 9999 # 10000) ->
  (forall s, (s < K)%nat -> TINY_VALUE <= mget N s s) ->
  (forall s, (s < K)%nat -> TINY_VALUE <= given_p K N py s) ->
  (forall s y, (s < K)%nat -> (y < K)%nat -> s <> y -> joint_p N py s y <= (9999 # 10000) * given_p K N py s) ->
  let ps := tab K (given_p K N py) in
  let I := compute_inv_noise_matrix py N None in
  (column_stochastic K I /\
   (forall y s, (y < K)%nat -> (s < K)%nat -> mget I y s == joint_p N py s y / given_p K N py s)) /\
  (forall s y, (s < K)%nat -> (y < K)%nat ->
     mget (compute_noise_matrix_from_inverse ps I None) s y == mget N s y) /\
  Forall2 Qeq (compute_py ps N I Cnt) py /\
  Forall2 Qeq (compute_py ps N I MarginalPs) py /\
  (forall c, 1 <= c -> Forall2 Qeq (compute_py ps N I (Marginal (map (fun p => c * p) py))) py) /\
  (forall inv, length inv = K -> (forall r, In r inv -> length r = K) ->
     (forall i j, (i < K)%nat -> (j < K)%nat ->
        qsum (tab K (fun s => mget inv i s * mget N s j)) == if Nat.eqb i j then 1 else 0) ->
     Forall2 Qeq (compute_py ps N I (Eqn inv)) py).
Proof.
  intros K N py HN Hpy H6 HNle Hd Hps Hpost ps I.
  destruct (inv_is_posterior K N py HN Hpy Hps Hpost None (or_introl eq_refl)) as (HI & EI). fold I in HI, EI.
  assert (Eps : forall s, (s < K)%nat -> nth s ps 0 == given_p K N py s).
  { intros s Hs. unfold ps. rewrite nth_tab by auto. reflexivity. }
  assert (HIl : length I = K) by apply HI.
  split; [auto|]. split.
  - apply (noise_from_posterior K N py HN Hpy Hps ps I None); auto.
    intros y Hy. apply Qle_trans with (1#1000000); auto. vm_compute. discriminate.
  - destruct (py_recovered K N py HN Hpy Hps ps I) as (A & B & C & D); auto.
    + unfold ps. apply tab_length.
    + apply HI.
    + split; auto. split; auto. split; auto.
      intros c Hc. apply C. apply Qle_trans with 1; auto. vm_compute. discriminate.
Qed.

(** ** C18 *)
Lemma n_labelled_le k labels : (n_labelled k labels <= length labels)%nat.
Proof. unfold n_labelled. induction labels as [|l labels IH]; simpl; auto. destruct (Nat.eqb _ _); simpl; lia. Qed.
Lemma n_labelled_zero k labels : ~ In k labels -> n_labelled k labels = 0%nat.
Proof. intros H. destruct (n_labelled k labels) eqn:E; auto. exfalso. apply H, n_labelled_pos. lia. Qed.

Definition m0 : Q := 1 # (10 ^ 31).
Definition p0 : Q := 1 # (10 ^ 12).
Definition row_mass K (m : list (list Q)) := forall i, (i < K)%nat -> exists j, (j < K)%nat /\ m0 <= mget m i j.
Definition goodp K (p : list Q) := length p = K /\ forall k, (k < K)%nat -> p0 <= nth k p 0 /\ nth k p 0 <= 1.

Lemma Qmult_le_compat_nonneg2 a b c d : 0 <= a -> a <= b -> 0 <= c -> c <= d -> a * c <= b * d.
Proof. intros. apply Qmult_le_compat_nonneg; split; auto. Qed.

Lemma col_le_one K m i j : column_stochastic K m -> (i < K)%nat -> (j < K)%nat -> mget m i j <= 1.
Proof.
  intros (Hm & H1) Hi Hj. rewrite <- (H1 j Hj). apply (qsum_tab_ge K (fun i => mget m i j)); auto.
  intros; apply (mget_nonneg K); auto.
Qed.
Lemma col_mass K m j : Qnat K <= 1000000 -> column_stochastic K m -> (j < K)%nat ->
  exists i, (i < K)%nat /\ 1 # 1000000 <= mget m i j.
Proof.
  intros HK (Hm & H1) Hj. destruct (exists_ge_average K (fun i => mget m i j)) as (i & Hi & Hle); [lia|auto|].
  exists i. split; auto. eapply Qle_trans; [|exact Hle]. apply Qdiv_ge; [apply Qnat_pos; lia|]. lra.
Qed.

Lemma step_good K X : Qnat K <= 1000000 -> nonneg_square K X ->
  (forall j, (j < K)%nat -> TINY_VALUE <= qsum (tab K (fun i => mget X i j))) ->
  (forall j, (j < K)%nat -> mget X j j <= 1000000000000) ->
  (forall i, (i < K)%nat -> exists j, (j < K)%nat /\ 1 # (10 ^ 18) <= mget X i j) ->
  column_stochastic K (clip_noise_rates X) /\ row_mass K (clip_noise_rates X).
Proof.
  intros HK HX HA HB HC. split; [apply clip_stochastic; auto|].
  intros i Hi. destruct (HC i Hi) as (j & Hj & Hle). exists j. split; auto.
  eapply Qle_trans; [|apply (clip_lower K X 1000000000000 i j (1 # (10^18)) HX Hi Hj)]; auto.
  - apply Qdiv_ge. { pose proof (Qnat_nonneg K). lra. }
    apply Qle_trans with (m0 * (1000000 + 1000000000000)); [|vm_compute; discriminate].
    rewrite !(Qmult_comm m0). apply Qmult_le_compat_r; [lra|]. vm_compute; discriminate.
  - vm_compute; discriminate.
  - vm_compute; discriminate.
  - vm_compute; discriminate.
Qed.

Lemma flip_good K A p q (X : list (list Q)) : Qnat K <= 1000000 ->
  column_stochastic K A -> row_mass K A -> goodp K p -> goodp K q ->
  nonneg_square K X ->
  (forall i j, (i < K)%nat -> (j < K)%nat -> mget X i j == mget A j i * nth i p 0 / clip_lo TINY_VALUE (nth j q 0)) ->
  column_stochastic K (clip_noise_rates X) /\ row_mass K (clip_noise_rates X).
Proof.
  intros HK HA HAr (Hpl & Hp) (Hql & Hq) HXs HX.
  assert (p0pos : 0 < p0) by reflexivity.
  assert (Hqc : forall j, (j < K)%nat -> clip_lo TINY_VALUE (nth j q 0) == nth j q 0).
  { intros j Hj. apply clip_lo_id. destruct (Hq j Hj). apply Qle_trans with p0; auto. vm_compute; discriminate. }
  assert (HX' : forall i j, (i < K)%nat -> (j < K)%nat -> mget X i j == mget A j i * nth i p 0 / nth j q 0).
  { intros i j Hi Hj. rewrite HX, Hqc by auto. reflexivity. }
  assert (HA0 : forall i j, 0 <= mget A i j) by (intros; apply (mget_nonneg K), HA).
  assert (Hlow : forall i j v, (i < K)%nat -> (j < K)%nat -> 0 <= v -> v <= mget A j i -> v * p0 <= mget X i j).
  { intros i j v Hi Hj Hv0 Hv. rewrite HX' by auto. destruct (Hq j Hj) as (Q1 & Q2). destruct (Hp i Hi) as (P1 & P2).
    apply Qdiv_ge; [lra|]. assert (G : v * p0 <= mget A j i * nth i p 0) by (apply Qmult_le_compat_nonneg2; auto; lra).
    eapply Qle_trans; [|exact G]. rewrite <- (Qmult_1_r (v * p0)) at 2. apply Qmult_le_compat_nonneg2; try lra.
    - apply Qmult_le_0_compat; auto; lra.
  }
  assert (HXle : forall i j, (i < K)%nat -> (j < K)%nat -> mget X i j <= 1000000000000).
  { intros i j Hi Hj. rewrite HX' by auto. destruct (Hq j Hj) as (Q1 & Q2). destruct (Hp i Hi) as (P1 & P2).
    apply Qdiv_le; [lra|].
    apply Qle_trans with (1 * 1).
    - apply Qmult_le_compat_nonneg2; auto; [|lra]. apply (col_le_one K); auto.
    - apply Qle_trans with (1000000000000 * p0); [vm_compute; discriminate|].
      rewrite !(Qmult_comm 1000000000000). apply Qmult_le_compat_r; [auto|vm_compute; discriminate]. }
  apply step_good; auto.
  - intros j Hj. destruct (HAr j Hj) as (i & Hi & Hm).
    apply Qle_trans with (mget X i j).
    + eapply Qle_trans; [|apply (Hlow i j m0); auto; vm_compute; discriminate]. vm_compute; discriminate.
    + apply (qsum_tab_ge K (fun i => mget X i j)); auto. intros; apply (mget_nonneg K); auto.
  - intros i Hi. destruct (col_mass K A i HK HA Hi) as (j & Hj & Hm). exists j. split; auto.
    eapply Qle_trans; [|apply (Hlow i j (1 # 1000000)); auto; vm_compute; discriminate]. vm_compute; discriminate.
Qed.

Section Converge.
Context (K : nat) (ps : list Q) (HK0 : (0 < K)%nat) (HK : Qnat K <= 1000000) (Hps : goodp K ps).

Lemma inv_step py N : goodp K py -> column_stochastic K N -> row_mass K N ->
  column_stochastic K (compute_inv_noise_matrix py N (Some ps)) /\
  row_mass K (compute_inv_noise_matrix py N (Some ps)).
Proof.
  intros Hpy HN HNr. assert (HNl : length N = K) by apply HN. unfold compute_inv_noise_matrix. rewrite HNl. cbv zeta.
  apply (flip_good K N py ps); auto.
  - apply nonneg_square_tab. intros i j Hi Hj. apply Qdiv_nonneg; [apply clip_lo_pos|].
    unfold joint_of. rewrite HNl, (mget_tab K (fun s y => mget N s y * nth y py 0)) by auto.
    destruct Hpy as (_ & Hpy). destruct (Hpy i Hi). assert (0 < p0) by reflexivity.
    apply Qmult_le_0_compat; [apply (mget_nonneg K), HN|lra].
  - intros i j Hi Hj. rewrite (inv_get K N py ps i j) by auto. unfold joint_p. reflexivity.
Qed.

Lemma noise_step py I : goodp K py -> column_stochastic K I -> row_mass K I ->
  column_stochastic K (compute_noise_matrix_from_inverse ps I (Some py)) /\
  row_mass K (compute_noise_matrix_from_inverse ps I (Some py)).
Proof.
  intros Hpy HI HIr. assert (HIl : length I = K) by apply HI. unfold compute_noise_matrix_from_inverse. rewrite HIl. cbv zeta.
  assert (E : forall i j, (i < K)%nat -> (j < K)%nat ->
    mget (tab K (fun s => tab K (fun y => mget I y s * nth s ps 0))) i j = mget I j i * nth i ps 0).
  { intros. apply (mget_tab K (fun s y => mget I y s * nth s ps 0)); auto. }
  apply (flip_good K I ps py); auto.
  - apply nonneg_square_tab. intros i j Hi Hj. apply Qdiv_nonneg; [apply clip_lo_pos|].
    rewrite E by auto. destruct Hps as (_ & Hps'). destruct (Hps' i Hi). assert (0 < p0) by reflexivity.
    apply Qmult_le_0_compat; [apply (mget_nonneg K), HI|lra].
  - intros i j Hi Hj.
    rewrite (mget_tab K (fun s y => mget (tab K (fun s => tab K (fun y => mget I y s * nth s ps 0))) s y / clip_lo TINY_VALUE (nth y py 0))) by auto.
    rewrite E by auto. reflexivity.
Qed.

Lemma clip_goodp x low : length x = K -> 1 # 1000000 <= low -> low <= 1 -> goodp K (clip_values x low 1 1).
Proof.
  intros Hx Hl Hl1. destruct (clip_values_dist low x) as ((Hlen & _) & Hb); auto; try lra.
  - intros ->. simpl in Hx. lia.
  - apply Qle_trans with (1#1000000); auto. vm_compute; discriminate.
  - rewrite Hx in *. split; auto. intros k Hk. destruct (Hb (nth k (clip_values x low 1 1) 0)); [apply nth_In; lia|].
    split; auto. eapply Qle_trans; [|exact H]. apply Qdiv_ge; [apply Qnat_pos; lia|].
    apply Qle_trans with (p0 * 1000000); [|eapply Qle_trans; [|exact Hl]; vm_compute; discriminate].
    rewrite !(Qmult_comm p0). apply Qmult_le_compat_r; auto. vm_compute; discriminate.
Qed.

Lemma py_step N I : length N = K -> goodp K (compute_py ps N I Cnt).
Proof.
  intros HN. unfold compute_py. apply clip_goodp; [rewrite HN; apply tab_length|apply Qle_refl|vm_compute; discriminate].
Qed.

Lemma inner_good i : forall py N I, goodp K py -> column_stochastic K N -> row_mass K N ->
  column_stochastic K I -> row_mass K I ->
  let r := converge_inner i ps py N I in
  goodp K (fst r) /\ column_stochastic K (snd r) /\ row_mass K (snd r).
Proof.
  induction i as [|i IH]; intros py N I Hpy HN HNr HI HIr; cbn [converge_inner]; cbv zeta; [auto|].
  destruct (inv_step py N Hpy HN HNr). apply IH; auto. apply py_step. apply HN.
Qed.

Lemma outer_good i j : forall py N I, goodp K py -> column_stochastic K N -> row_mass K N ->
  column_stochastic K I -> row_mass K I ->
  let r := converge_estimates j i ps py N I in
  goodp K (fst (fst r)) /\ column_stochastic K (snd (fst r)) /\ column_stochastic K (snd r).
Proof.
  induction j as [|j IH]; intros py N I Hpy HN HNr HI HIr; cbn [converge_estimates]; cbv zeta; [auto|].
  destruct (inner_good i py N I Hpy HN HNr HI HIr) as (A & B & C).
  destruct (noise_step (fst (converge_inner i ps py N I)) (snd (converge_inner i ps py N I)) A B C).
  apply IH; auto.
Qed.
End Converge.

(** initial estimates *)
Definition noise0 (cj : list (list Q)) : list (list Q) :=
  tab (length cj) (fun s => tab (length cj) (fun y =>
    mget cj s y / clip_lo TINY_VALUE (nth y (tab (length cj) (fun y => qsum (col y cj))) 0))).
Definition inverse0 (cj : list (list Q)) : list (list Q) :=
  tab (length cj) (fun y => tab (length cj) (fun s =>
    mget cj s y / clip_lo TINY_VALUE (nth s (map qsum cj) 0))).

Lemma noise0_get K cj s y : length cj = K -> (s < K)%nat -> (y < K)%nat ->
  mget (noise0 cj) s y = mget cj s y / clip_lo TINY_VALUE (qsum (tab K (fun s => mget cj s y))).
Proof.
  intros HK Hs Hy. unfold noise0. rewrite HK.
  rewrite (mget_tab K (fun s y => mget cj s y / clip_lo TINY_VALUE (nth y (tab K (fun y => qsum (col y cj))) 0))) by auto.
  rewrite nth_tab by auto. rewrite col_nth, HK. reflexivity.
Qed.
Lemma inverse0_get K cj s y : nonneg_square K cj -> (s < K)%nat -> (y < K)%nat ->
  mget (inverse0 cj) y s = mget cj s y / clip_lo TINY_VALUE (qsum (tab K (fun y => mget cj s y))).
Proof.
  intros (HK & Hr & _) Hs Hy. unfold inverse0. rewrite HK.
  rewrite (mget_tab K (fun y s => mget cj s y / clip_lo TINY_VALUE (nth s (map qsum cj) 0))) by auto.
  rewrite (nth_map_gen qsum cj s 0 []) by lia. rewrite (row_as_tab K) by (auto; lia). reflexivity.
Qed.
Lemma noise0_nonneg K cj : nonneg_square K cj -> nonneg_square K (noise0 cj).
Proof.
  intros H. pose proof H as (HK & _). unfold noise0. rewrite HK. apply nonneg_square_tab.
  intros i j Hi Hj. apply Qdiv_nonneg; [apply clip_lo_pos|apply (mget_nonneg K); auto].
Qed.
Lemma inverse0_nonneg K cj : nonneg_square K cj -> nonneg_square K (inverse0 cj).
Proof.
  intros H. pose proof H as (HK & _). unfold inverse0. rewrite HK. apply nonneg_square_tab.
  intros i j Hi Hj. apply Qdiv_nonneg; [apply clip_lo_pos|apply (mget_nonneg K); auto].
Qed.
Lemma noise0_sum K cj y : length cj = K -> (y < K)%nat -> TINY_VALUE <= qsum (tab K (fun s => mget cj s y)) ->
  qsum (tab K (fun s => mget (noise0 cj) s y)) == 1.
Proof.
  intros HK Hy Ht.
  rewrite (qsum_tab_ext K _ (fun s => mget cj s y / clip_lo TINY_VALUE (qsum (tab K (fun s => mget cj s y)))))
    by (intros; rewrite (noise0_get K) by auto; reflexivity).
  unfold tab at 1. rewrite (qsum_map_div (fun s => mget cj s y)). fold (tab K (fun s => mget cj s y)).
  rewrite clip_lo_id by auto. field. pose proof TINY_pos. lra.
Qed.
Lemma inverse0_sum K cj s : nonneg_square K cj -> (s < K)%nat -> TINY_VALUE <= qsum (tab K (fun y => mget cj s y)) ->
  qsum (tab K (fun y => mget (inverse0 cj) y s)) == 1.
Proof.
  intros HK Hs Ht.
  rewrite (qsum_tab_ext K _ (fun y => mget cj s y / clip_lo TINY_VALUE (qsum (tab K (fun y => mget cj s y)))))
    by (intros; rewrite (inverse0_get K) by auto; reflexivity).
  unfold tab at 1. rewrite (qsum_map_div (fun y => mget cj s y)). fold (tab K (fun y => mget cj s y)).
  rewrite clip_lo_id by auto. field. pose proof TINY_pos. lra.
Qed.

Definition py0 (cj : list (list Q)) (labels : list nat) (m : latent_method) : list Q :=
  compute_py (map (fun c => Qnat c / Qnat (length labels)) (tab (length cj) (fun k => n_labelled k labels)))
    (noise0 cj) (inverse0 cj)
    (match m with LCnt => Cnt | LMarginal => Marginal (tab (length cj) (fun y => qsum (col y cj)))
                | LMarginalPs => MarginalPs end).

Lemma estimate_latent_eq cj labels m converge : labels <> [] -> (forall l, In l labels -> (l < length cj)%nat) ->
  estimate_latent cj labels m converge =
  let ps := map (fun c => Qnat c / Qnat (length labels)) (tab (length cj) (fun k => n_labelled k labels)) in
  let N := clip_noise_rates (noise0 cj) in let I := clip_noise_rates (inverse0 cj) in
  if converge then
    let r := converge_estimates 3 5 ps (py0 cj labels m) N I in
    Ok (clip_values (fst (fst r)) (1 # 100000) 1 1, clip_noise_rates (snd (fst r)), clip_noise_rates (snd r))
  else Ok (py0 cj labels m, N, I).
Proof.
  intros Hne Hl. unfold estimate_latent. rewrite (value_counts_ok labels (length cj)) by auto. cbn [rbind].
  cbv zeta. fold (noise0 cj). fold (inverse0 cj). fold (py0 cj labels m).
  destruct converge; [|reflexivity].
  destruct (converge_estimates 3 5 _ _ _ _) as ((a & b) & c). reflexivity.
Qed.

Lemma py0_length cj labels m : length (noise0 cj) = length cj /\ exists x, length x = length cj /\
  py0 cj labels m = clip_values x CLIPPING_LOWER_BOUND 1 1.
Proof.
  assert (E : length (noise0 cj) = length cj) by apply tab_length. split; auto.
  unfold py0, compute_py. destruct m; eexists; (split; [|reflexivity]).
  - rewrite E. apply tab_length.
  - rewrite map_length. apply tab_length.
  - rewrite map_length. apply tab_length.
Qed.

Lemma clip_dist x K low : length x = K -> (0 < K)%nat -> 1 # 1000000 <= low -> low <= 1 ->
  positive_distribution K (clip_values x low 1 1).
Proof.
  intros Hx HK Hl H1. destruct (clip_values_dist low x) as (H & _); try lra.
  - intros ->. simpl in Hx. lia.
  - apply Qle_trans with (1#1000000); auto. vm_compute; discriminate.
  - rewrite Hx in H. exact H.
Qed.

Lemma C18_plain_full : forall K cj labels m, (0 < K)%nat -> nonneg_square K cj ->
  labels <> [] -> (forall l, In l labels -> (l < K)%nat) ->
  (forall s, (s < K)%nat -> TINY_VALUE <= qsum (tab K (fun y => mget cj s y))) ->
  (forall y, (y < K)%nat -> TINY_VALUE <= qsum (tab K (fun s => mget cj s y))) ->
  exists py N I, estimate_latent cj labels m false = Ok (py, N, I) /\
    positive_distribution K py /\ column_stochastic K N /\ column_stochastic K I.
Proof.
  intros K cj labels m HK Hcj Hne Hl Hrow Hcol. pose proof Hcj as (HcK & _).
  rewrite estimate_latent_eq by (rewrite ?HcK; auto). cbv zeta. do 3 eexists. split; [reflexivity|].
  destruct (py0_length cj labels m) as (_ & x & Hx & ->). split; [|split].
  - apply clip_dist; auto; [lia|apply Qle_refl|vm_compute; discriminate].
  - apply clip_stochastic; [apply noise0_nonneg; auto|]. intros j Hj. rewrite noise0_sum by auto. vm_compute; discriminate.
  - apply clip_stochastic; [apply inverse0_nonneg; auto|]. intros j Hj. rewrite inverse0_sum by auto. vm_compute; discriminate.
Qed.

Lemma positive_entry K f : (forall i, (i < K)%nat -> f i == 0 \/ 1 <= f i) -> 0 < qsum (tab K f) ->
  exists i, (i < K)%nat /\ 1 <= f i.
Proof.
  intros H Hs. destruct (existsb (fun i => Qle_bool 1 (f i)) (seq 0 K)) eqn:E.
  - apply existsb_exists in E as (i & Hi & Hle). apply in_seq in Hi. qb. exists i. split; auto. lia.
  - exfalso. rewrite (qsum_tab_ext K f (fun _ => 0)) in Hs.
    + unfold tab in Hs. rewrite qsum_map_const in Hs. lra.
    + intros i Hi. destruct (H i Hi) as [G|G]; auto. exfalso. apply Qle_bool_iff in G.
      assert (existsb (fun i => Qle_bool 1 (f i)) (seq 0 K) = true); [|congruence].
      apply existsb_exists. exists i. split; auto. apply in_seq. lia.
Qed.

Section Initial.
Context (K : nat) (cj : list (list Q)) (HK0 : (0 < K)%nat) (HK : Qnat K <= 1000000)
        (Hcj : count_matrix K 1000000000000 cj).
Let Hsq : nonneg_square K cj. Proof. apply Hcj. Qed.
Let Hent : forall s y, (s < K)%nat -> (y < K)%nat -> mget cj s y == 0 \/ 1 <= mget cj s y.
Proof.
  intros s y Hs Hy. destruct Hcj as ((Hl & Hr & _) & H & _). unfold mget. apply H with (nth s cj []); apply nth_In; try lia.
  rewrite Hr; auto. apply nth_In. lia.
Qed.
Let H0 : forall s y, 0 <= mget cj s y.
Proof. intros. apply (mget_nonneg K); auto. Qed.
Lemma row_entry s : (s < K)%nat -> exists y, (y < K)%nat /\ 1 <= mget cj s y.
Proof. intros Hs. apply positive_entry; [intros; apply Hent; auto|]. apply Hcj; auto. Qed.
Lemma col_entry y : (y < K)%nat -> exists s, (s < K)%nat /\ 1 <= mget cj s y.
Proof. intros Hy. apply (positive_entry K (fun s => mget cj s y)); [intros; apply Hent; auto|]. apply Hcj; auto. Qed.
Lemma row_bounds s : (s < K)%nat ->
  1 <= qsum (tab K (fun y => mget cj s y)) /\ qsum (tab K (fun y => mget cj s y)) <= 1000000000000.
Proof.
  intros Hs. split.
  - destruct (row_entry s Hs) as (y & Hy & H1). eapply Qle_trans; [exact H1|].
    apply (qsum_tab_ge K (fun y => mget cj s y)); auto.
  - eapply Qle_trans; [|apply Hcj]. apply (qsum_tab_ge K (fun s => qsum (tab K (fun y => mget cj s y)))); auto.
    intros; apply qsum_tab_nonneg; auto.
Qed.
Lemma col_bounds y : (y < K)%nat ->
  1 <= qsum (tab K (fun s => mget cj s y)) /\ qsum (tab K (fun s => mget cj s y)) <= 1000000000000.
Proof.
  intros Hy. split.
  - destruct (col_entry y Hy) as (s & Hs & H1). eapply Qle_trans; [exact H1|].
    apply (qsum_tab_ge K (fun s => mget cj s y)); auto.
  - eapply Qle_trans; [|apply Hcj]. apply qsum_map_le. intros s Hs. apply in_seq in Hs.
    apply (qsum_tab_ge K (fun y => mget cj s y)); auto.
Qed.
Lemma tiny_le_1 x : 1 <= x -> TINY_VALUE <= x.
Proof. intros. apply Qle_trans with 1; auto. vm_compute; discriminate. Qed.

Lemma noise0_good : column_stochastic K (clip_noise_rates (noise0 cj)) /\ row_mass K (clip_noise_rates (noise0 cj)).
Proof.
  assert (HcK : length cj = K) by apply Hsq.
  assert (Hsum : forall j, (j < K)%nat -> qsum (tab K (fun s => mget (noise0 cj) s j)) == 1).
  { intros j Hj. apply noise0_sum; auto. apply tiny_le_1, col_bounds; auto. }
  pose proof (noise0_nonneg K cj Hsq) as Hn.
  apply step_good; auto.
  - intros j Hj. rewrite Hsum by auto. vm_compute; discriminate.
  - intros j Hj. apply Qle_trans with 1; [|vm_compute; discriminate]. rewrite <- (Hsum j Hj).
    apply (qsum_tab_ge K (fun s => mget (noise0 cj) s j)); auto. intros; apply (mget_nonneg K); auto.
  - intros s Hs. destruct (row_entry s Hs) as (y & Hy & H1). exists y. split; auto.
    rewrite (noise0_get K) by auto. destruct (col_bounds y Hy). rewrite clip_lo_id by (apply tiny_le_1; auto).
    apply Qdiv_ge; [lra|]. apply Qle_trans with ((1 # (10^18)) * 1000000000000).
    + rewrite !(Qmult_comm (1 # (10 ^ 18))). apply Qmult_le_compat_r; auto. vm_compute; discriminate.
    + eapply Qle_trans; [|exact H1]. vm_compute; discriminate.
Qed.
Lemma inverse0_good : column_stochastic K (clip_noise_rates (inverse0 cj)) /\ row_mass K (clip_noise_rates (inverse0 cj)).
Proof.
  assert (HcK : length cj = K) by apply Hsq.
  assert (Hsum : forall j, (j < K)%nat -> qsum (tab K (fun s => mget (inverse0 cj) s j)) == 1).
  { intros j Hj. apply inverse0_sum; auto. apply tiny_le_1, row_bounds; auto. }
  pose proof (inverse0_nonneg K cj Hsq) as Hn.
  apply step_good; auto.
  - intros j Hj. rewrite Hsum by auto. vm_compute; discriminate.
  - intros j Hj. apply Qle_trans with 1; [|vm_compute; discriminate]. rewrite <- (Hsum j Hj).
    apply (qsum_tab_ge K (fun s => mget (inverse0 cj) s j)); auto. intros; apply (mget_nonneg K); auto.
  - intros y Hy. destruct (col_entry y Hy) as (s & Hs & H1). exists s. split; auto.
    rewrite (inverse0_get K) by auto. destruct (row_bounds s Hs). rewrite clip_lo_id by (apply tiny_le_1; auto).
    apply Qdiv_ge; [lra|]. apply Qle_trans with ((1 # (10^18)) * 1000000000000).
    + rewrite !(Qmult_comm (1 # (10 ^ 18))). apply Qmult_le_compat_r; auto. vm_compute; discriminate.
    + eapply Qle_trans; [|exact H1]. vm_compute; discriminate.
Qed.
End Initial.

Lemma ps_good K labels : (forall l, In l labels -> (l < K)%nat) -> (forall k, (k < K)%nat -> In k labels) ->
  Qnat (length labels) <= 1000000000000 ->
  goodp K (map (fun c => Qnat c / Qnat (length labels)) (tab K (fun k => n_labelled k labels))).
Proof.
  intros Hr Hall Hn. split; [rewrite map_length; apply tab_length|]. intros k Hk.
  rewrite (nth_map_gen _ _ _ _ 0%nat) by (rewrite tab_length; auto). rewrite nth_tab by auto.
  pose proof (Hall k Hk) as Hin.
  assert (H1 : (1 <= n_labelled k labels)%nat) by (apply n_labelled_pos; auto).
  assert (H2 : (n_labelled k labels <= length labels)%nat).
  { apply n_labelled_le. }
  assert (0 < Qnat (length labels)) by (apply Qnat_pos; lia).
  split.
  - apply Qdiv_ge; auto. apply Qle_trans with 1.
    + apply Qle_trans with (p0 * 1000000000000); [|vm_compute; discriminate].
      rewrite !(Qmult_comm p0). apply Qmult_le_compat_r; auto. vm_compute; discriminate.
    + change 1 with (Qnat 1). apply Qnat_le. auto.
  - apply Qdiv_le; auto. rewrite Qmult_1_l. apply Qnat_le. auto.
Qed.

Lemma C18_converged_full : forall K cj labels m, (0 < K)%nat -> Qnat K <= 1000000 ->
  count_matrix K 1000000000000 cj ->
  (forall l, In l labels -> (l < K)%nat) -> (forall k, (k < K)%nat -> In k labels) ->
  Qnat (length labels) <= 1000000000000 ->
  exists py N I, estimate_latent cj labels m true = Ok (py, N, I) /\
    positive_distribution K py /\ column_stochastic K N /\ column_stochastic K I.
Proof.
  intros K cj labels m HK0 HK Hcj Hr Hall Hn.
  assert (HcK : length cj = K) by apply Hcj.
  assert (Hne : labels <> []). { intros ->. apply (Hall 0%nat); auto. }
  rewrite estimate_latent_eq by (rewrite ?HcK; auto). cbv zeta. rewrite HcK.
  set (ps := map (fun c => Qnat c / Qnat (length labels)) (tab K (fun k => n_labelled k labels))).
  destruct (noise0_good K cj HK0 HK Hcj) as (N1 & N2). destruct (inverse0_good K cj HK0 HK Hcj) as (I1 & I2).
  assert (Hpy0 : goodp K (py0 cj labels m)).
  { destruct (py0_length cj labels m) as (_ & x & Hx & ->). apply clip_goodp; auto; [lia|apply Qle_refl|vm_compute; discriminate]. }
  destruct (outer_good K ps HK0 HK (ps_good K labels Hr Hall Hn) 5 3 (py0 cj labels m)
              (clip_noise_rates (noise0 cj)) (clip_noise_rates (inverse0 cj)) Hpy0 N1 N2 I1 I2) as (A & B & C).
  do 3 eexists. split; [reflexivity|]. split; [|split].
  - apply clip_dist; auto; [apply A|vm_compute; discriminate|vm_compute; discriminate].
  - apply clip_stochastic; [apply B|]. intros j Hj. destruct B as (_ & ->); auto. vm_compute; discriminate.
  - apply clip_stochastic; [apply C|]. intros j Hj. destruct C as (_ & ->); auto. vm_compute; discriminate.
Qed.

(** a class missing from the labels: convergence empties its column of the inverse noise matrix *)
Lemma clip_zero K m i j : length m = K -> (i < K)%nat -> (j < K)%nat -> mget m i j == 0 ->
  mget (clip_noise_rates m) i j == 0.
Proof.
  intros HK Hi Hj H. rewrite (clip_get K) by auto.
  assert (cnr m i j == 0) as ->. { unfold cnr. destruct (Nat.eqb i j); auto. unfold clip. qmm; lra. }
  unfold Qdiv. ring.
Qed.

Section Missing.
Context (K : nat) (ps : list Q) (s : nat) (Hs : (s < K)%nat) (Hps : nth s ps 0 == 0).
Definition row_zero (N : list (list Q)) := forall y, (y < K)%nat -> mget N s y == 0.
Definition col_zero (I : list (list Q)) := forall y, (y < K)%nat -> mget I y s == 0.

Lemma inv_zero py N : length N = K -> row_zero N -> col_zero (compute_inv_noise_matrix py N (Some ps)) /\
  length (compute_inv_noise_matrix py N (Some ps)) = K.
Proof.
  intros HN Hz. unfold compute_inv_noise_matrix. rewrite HN. cbv zeta. split.
  - intros y Hy. apply (clip_zero K); auto; [apply tab_length|]. rewrite (inv_get K N py ps y s) by auto.
    unfold joint_p. rewrite (Hz y Hy). unfold Qdiv. ring.
  - rewrite clip_length. apply tab_length.
Qed.
Lemma inv_len py N : length N = K -> length (compute_inv_noise_matrix py N (Some ps)) = K.
Proof. intros HN. unfold compute_inv_noise_matrix. cbv zeta. rewrite clip_length, HN. apply tab_length. Qed.
Lemma noise_zero py I : length I = K -> row_zero (compute_noise_matrix_from_inverse ps I (Some py)) /\
  length (compute_noise_matrix_from_inverse ps I (Some py)) = K.
Proof.
  intros HI. unfold compute_noise_matrix_from_inverse. rewrite HI. cbv zeta. split.
  - intros y Hy. apply (clip_zero K); auto; [apply tab_length|].
    rewrite (mget_tab K (fun s y => mget (tab K (fun s => tab K (fun y => mget I y s * nth s ps 0))) s y / clip_lo TINY_VALUE (nth y py 0))) by auto.
    rewrite (mget_tab K (fun s y => mget I y s * nth s ps 0)) by auto. rewrite Hps. unfold Qdiv. ring.
  - rewrite clip_length. apply tab_length.
Qed.
Lemma inner_len i : forall py N I, length N = K -> length I = K -> length (snd (converge_inner i ps py N I)) = K.
Proof. induction i; intros; cbn [converge_inner]; cbv zeta; auto. apply IHi; auto. apply inv_len; auto. Qed.
Lemma inner_zero i : forall py N I, length N = K -> length I = K -> row_zero N -> col_zero I ->
  col_zero (snd (converge_inner i ps py N I)).
Proof.
  induction i; intros; cbn [converge_inner]; cbv zeta; auto. destruct (inv_zero py N); auto.
Qed.
Lemma outer_zero i j : forall py N I, length N = K -> length I = K -> row_zero N -> col_zero I ->
  col_zero (snd (converge_estimates j i ps py N I)) /\ length (snd (converge_estimates j i ps py N I)) = K.
Proof.
  induction j; intros; cbn [converge_estimates]; cbv zeta; auto.
  pose proof (inner_len i py N I H H0). pose proof (inner_zero i py N I H H0 H1 H2).
  destruct (noise_zero (fst (converge_inner i ps py N I)) (snd (converge_inner i ps py N I))); auto.
Qed.
Lemma outer_zero_first i j py N I : length N = K -> length I = K ->
  col_zero (snd (converge_estimates (S (S j)) (S i) ps py N I)) /\
  length (snd (converge_estimates (S (S j)) (S i) ps py N I)) = K.
Proof.
  intros HN HI. cbn [converge_estimates]. cbv zeta.
  pose proof (inner_len (S i) py N I HN HI) as L1.
  set (r := converge_inner (S i) ps py N I) in *.
  destruct (noise_zero (fst r) (snd r) L1) as (Z1 & L2).
  set (N1 := compute_noise_matrix_from_inverse ps (snd r) (Some (fst r))) in *.
  pose proof (inner_len (S i) (fst r) N1 (snd r) L2 L1) as L3.
  assert (Z3 : col_zero (snd (converge_inner (S i) ps (fst r) N1 (snd r)))).
  { cbn [converge_inner]. cbv zeta. destruct (inv_zero (fst r) N1 L2 Z1). apply inner_zero; auto. }
  set (r2 := converge_inner (S i) ps (fst r) N1 (snd r)) in *.
  destruct (noise_zero (fst r2) (snd r2) L3). apply outer_zero; auto.
Qed.
End Missing.

Lemma C18_missing_full : forall K cj labels m s, nonneg_square K cj -> labels <> [] ->
  (forall l, In l labels -> (l < K)%nat) -> (s < K)%nat -> ~ In s labels ->
  exists py N I, estimate_latent cj labels m true = Ok (py, N, I) /\
    (forall y, (y < K)%nat -> mget I y s == 0) /\ ~ column_stochastic K I.
Proof.
  intros K cj labels m s Hcj Hne Hr Hs Hmiss. assert (HcK : length cj = K) by apply Hcj.
  rewrite estimate_latent_eq by (rewrite ?HcK; auto). cbv zeta. rewrite HcK.
  set (ps := map (fun c => Qnat c / Qnat (length labels)) (tab K (fun k => n_labelled k labels))).
  assert (Hps : nth s ps 0 == 0).
  { unfold ps. rewrite (nth_map_gen _ _ _ _ 0%nat) by (rewrite tab_length; auto). rewrite nth_tab by auto.
    assert (n_labelled s labels = 0%nat) as -> by (apply n_labelled_zero; auto). unfold Qdiv. change (Qnat 0) with 0. ring. }
  destruct (outer_zero_first K ps s Hs Hps 4 1 (py0 cj labels m)
              (clip_noise_rates (noise0 cj)) (clip_noise_rates (inverse0 cj))) as (Z & L).
  { rewrite clip_length. unfold noise0. rewrite tab_length. auto. }
  { rewrite clip_length. unfold inverse0. rewrite tab_length. auto. }
  do 3 eexists. split; [reflexivity|].
  assert (G : forall y, (y < K)%nat -> mget (clip_noise_rates (snd (converge_estimates 3 5 ps (py0 cj labels m)
     (clip_noise_rates (noise0 cj)) (clip_noise_rates (inverse0 cj))))) y s == 0).
  { intros y Hy. apply (clip_zero K); auto. }
  split; auto. intros (_ & H1). specialize (H1 s Hs).
  rewrite (qsum_tab_ext K _ (fun _ => 0)) in H1 by auto. unfold tab in H1. rewrite qsum_map_const in H1. lra.
Qed.

(** ** C57: compute_pyx *)
Lemma clip_values_dist0 x : TINY_VALUE <= qsum (map (clip 0 1) x) ->
  (forall v, In v (clip_values x 0 1 1) -> 0 <= v /\ v <= 1) /\ qsum (clip_values x 0 1 1) == 1 /\
  forall k, (k < length x)%nat -> nth k x 0 <= 0 -> nth k (clip_values x 0 1 1) 0 == 0.
Proof.
  intros Ht. unfold clip_values. set (y := map (clip 0 1) x) in *.
  assert (Hy : forall v, In v y -> 0 <= v).
  { intros v Hv. apply in_map_iff in Hv as (u & <- & _). unfold clip. qmm; lra. }
  assert (Ec : clip_lo TINY_VALUE (qsum y) == qsum y) by (apply clip_lo_id; auto). pose proof TINY_pos.
  split; [|split].
  - intros v Hv. apply in_map_iff in Hv as (u & <- & Hu). rewrite Ec. pose proof (Hy u Hu).
    assert (u <= qsum y) by (apply qsum_ge_elem; auto).
    split; [apply Qdiv_nonneg; lra|apply Qdiv_le; lra].
  - rewrite (qsum_map_ext _ (fun v => v / qsum y)) by (intros v _; rewrite Ec; field; lra).
    rewrite (qsum_map_div (fun v => v)), map_id. field. lra.
  - intros k Hk H0. rewrite (nth_map_gen _ _ _ _ 0) by (unfold y; rewrite map_length; auto).
    unfold y at 1. rewrite (nth_map_gen (clip 0 1) x k 0 0) by auto.
    assert (clip 0 1 (nth k x 0) == 0) as -> by (unfold clip; qmm; lra). unfold Qdiv. ring.
Qed.

Lemma C57_full : forall K pp N I, length N = K ->
  (forall k, (k < K)%nat -> 0 <= mget N k k <= 1) ->
  (forall r, In r pp -> length r = K /\ (forall x, In x r -> 0 <= x)) ->
  (forall k, (k < K)%nat -> 0 <= mget I k k) ->
  (forall r, In r pp -> exists k, (k < K)%nat /\ TINY_VALUE <= nth k r 0 * mget I k k) ->
  length (compute_pyx pp N I) = length pp /\
  forall e, (e < length pp)%nat ->
    let out := nth e (compute_pyx pp N I) [] in
    length out = K /\ (forall v, In v out -> 0 <= v /\ v <= 1) /\ qsum out == 1 /\
    (forall k, (k < K)%nat -> nth k (nth e pp []) 0 == 0 -> nth k out 0 == 0) /\
    ((forall k, (k < K)%nat -> mget N k k == 1 /\ mget I k k == 1) -> qsum (nth e pp []) == 1 ->
       Forall2 Qeq out (nth e pp [])).
Proof.
  intros K pp N I HN HNd Hpp HI Hmass. unfold compute_pyx. rewrite HN. split; [apply map_length|].
  intros e He. cbv zeta. rewrite (nth_map_gen _ _ _ _ []) by auto.
  set (r := nth e pp []). assert (Hin : In r pp) by (apply nth_In; auto).
  destruct (Hpp r Hin) as (Hl & H0).
  set (x := tab K _).
  assert (Hx : forall k, (k < K)%nat -> nth k x 0 = nth k r 0 * mget I k k / clip_lo TINY_VALUE (mget N k k)).
  { intros k Hk. unfold x. rewrite nth_tab; auto. }
  assert (Hxl : length x = K) by apply tab_length.
  assert (Hr0 : forall k, (k < K)%nat -> 0 <= nth k r 0) by (intros; apply H0, nth_In; lia).
  assert (Ht : TINY_VALUE <= qsum (map (clip 0 1) x)).
  { destruct (Hmass r Hin) as (k & Hk & Hle).
    apply Qle_trans with (clip 0 1 (nth k x 0)).
    - assert (TINY_VALUE <= nth k x 0); [|assert (TINY_VALUE <= 1) by (vm_compute; discriminate); unfold clip; qmm; lra].
      rewrite Hx by auto. apply Qdiv_ge; [apply clip_lo_pos|].
      eapply Qle_trans; [|exact Hle]. rewrite <- (Qmult_1_r TINY_VALUE) at 3.
      apply Qmult_le_compat_nonneg2; try (apply Qlt_le_weak, TINY_pos); [apply Qle_refl| |].
      + apply Qlt_le_weak, clip_lo_pos.
      + destruct (HNd k Hk). unfold clip_lo. qmm; try lra. vm_compute; discriminate.
    - apply qsum_ge_elem.
      + intros v Hv. apply in_map_iff in Hv as (u & <- & _). unfold clip. qmm; lra.
      + apply in_map, nth_In. lia. }
  destruct (clip_values_dist0 x Ht) as (A & B & C).
  split; [unfold clip_values; rewrite !map_length; auto|]. split; auto. split; auto. split.
  - intros k Hk Hz. apply C; [lia|]. rewrite Hx, Hz by auto. unfold Qdiv. lra.
  - intros Hid Hsum.
    assert (F : Forall2 Qeq x r).
    { apply Forall2_nth_intro with (d := 0) (d' := 0); [lia|]. intros k Hk. rewrite Hx by lia.
      destruct (Hid k ltac:(lia)) as (E1 & E2). rewrite E1, E2, clip_lo_id by (vm_compute; discriminate). field. }
    assert (G : Forall2 Qeq (clip_values x 0 1 1) x).
    { apply clip_values_id.
      - intros v Hv. destruct (Forall2_in_l _ _ _ _ F Hv) as (w & Hw & E). rewrite E. split; auto.
        rewrite <- Hsum. apply qsum_ge_elem; auto.
      - rewrite (qsum_Forall2 _ _ F). auto. }
    clear - F G. revert F. generalize r. induction G as [|a b l l' Hab G IH]; intros p F; inversion F; subst; constructor.
    + rewrite Hab. auto.
    + apply IH; auto.
Qed.
