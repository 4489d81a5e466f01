(** * Proofs about noise matrices: validity and random generation *)
From Coq Require Import QArith Qabs Qround List Permutation ZArith Bool Arith Lia Lqa Setoid Morphisms.
From Verif Require Import Base BaseFacts ModelUtil ModelNoise ModelTrace SpecCount SpecNoise SpecTrace ProofUtil ProofNoise.
Import ListNotations.
Open Scope Q_scope.

(** ** validity *)
Lemma joint_total K m py : length py = K -> columns_sum_to_one K m -> qsum py == 1 ->
  qsum (map qsum (tab K (fun i => tab K (fun j => mget m i j * nth j py 0)))) == 1.
Proof.
  intros HL HC HS. unfold tab at 1. rewrite map_map.
  change (qsum (tab K (fun i => qsum (tab K (fun j => mget m i j * nth j py 0)))) == 1).
  rewrite qsum_tab_swap. transitivity (qsum py); [|auto]. rewrite (qsum_as_tab py), HL. apply qsum_tab_ext. intros j Hj.
  unfold tab. rewrite qsum_map_scale_r. specialize (HC j Hj). unfold column_sum in HC. rewrite HC. ring.
Qed.

Lemma valid_unfold m py : let K := length py in
  noise_matrix_is_valid m py = true <->
  Qabs (qsum (map qsum (tab K (fun i => tab K (fun j => mget m i j * nth j py 0)))) - 1) < 1 # 1000000 /\
  forall i, (i < K)%nat -> label_rate K m py i * nth i py 0 < mget m i i * nth i py 0.
Proof.
  intros K. unfold noise_matrix_is_valid. cbv zeta. fold K. rewrite andb_true_iff, Qltb_iff, forallb_forall.
  apply and_iff_compat_l. split.
  - intros H i Hi. specialize (H i). rewrite in_seq in H. specialize (H ltac:(lia)). rewrite Qltb_iff in H.
    unfold mget at 2 in H. rewrite !nth_tab in H by auto. exact H.
  - intros H i Hi. apply in_seq in Hi. rewrite Qltb_iff. unfold mget at 2. rewrite !nth_tab by lia. apply H. lia.
Qed.

Lemma valid_iff_full : forall K m py,
  length py = K -> (forall p, In p py -> 0 <= p) -> qsum py == 1 -> columns_sum_to_one K m ->
  noise_matrix_is_valid m py = true <->
  (forall i, (i < K)%nat -> 0 < nth i py 0 /\ label_rate K m py i < mget m i i).
Proof.
  intros K m py HL Hp HS HC. pose proof (valid_unfold m py) as V. cbv zeta in V. rewrite HL in V. rewrite V. clear V.
  assert (Hj : Qabs (qsum (map qsum (tab K (fun i => tab K (fun j => mget m i j * nth j py 0)))) - 1) < 1 # 1000000).
  { rewrite (joint_total K m py) by auto. reflexivity. }
  split.
  - intros (_ & H) i Hi. specialize (H i Hi). assert (0 <= nth i py 0) by (apply Hp, nth_In; lia).
    destruct (Qlt_le_dec 0 (nth i py 0)) as [P|P].
    + split; auto. apply Qmult_lt_r in H; auto.
    + assert (E : nth i py 0 == 0) by lra. rewrite E in H. lra.
  - intros H. split; auto. intros i Hi. destruct (H i Hi). apply Qmult_lt_r; auto.
Qed.

Lemma label_rates_total K m py : length py = K -> qsum py == 1 -> columns_sum_to_one K m ->
  qsum (map (label_rate K m py) (seq 0 K)) == 1.
Proof.
  intros HL HS HC. rewrite <- (joint_total K m py HL HC HS). unfold tab at 1. rewrite map_map. reflexivity.
Qed.

Lemma qsum_map_lt {A} (f g : A -> Q) l : l <> [] -> (forall x, In x l -> f x < g x) -> qsum (map f l) < qsum (map g l).
Proof.
  induction l as [|x l IH]; intros Hne H; [congruence|]. cbn [map]. rewrite !qsum_cons.
  assert (f x < g x) by (apply H; simpl; auto). destruct l as [|y l].
  - cbn [map]. rewrite !qsum_nil. lra.
  - specialize (IH ltac:(discriminate) ltac:(intros; apply H; simpl in *; auto)). lra.
Qed.

Lemma valid_trace_full : forall K m py,
  length py = K -> (forall p, In p py -> 0 <= p) -> qsum py == 1 -> columns_sum_to_one K m ->
  noise_matrix_is_valid m py = true -> 1 < trace_of K m.
Proof.
  intros K m py HL Hp HS HC HV. pose proof (proj1 (valid_iff_full K m py HL Hp HS HC) HV) as V.
  rewrite <- (label_rates_total K m py HL HS HC). unfold trace_of. apply qsum_map_lt.
  - destruct K; [|discriminate]. destruct py; [|discriminate]. rewrite qsum_nil in HS. lra.
  - intros i Hi. apply in_seq in Hi. apply V. lia.
Qed.

Lemma valid_two_full : forall m p0 p1,
  0 <= p0 -> 0 <= p1 -> p0 + p1 == 1 -> columns_sum_to_one 2 m ->
  noise_matrix_is_valid m [p0; p1] = true <-> 0 < p0 /\ 0 < p1 /\ 1 < trace_of 2 m.
Proof.
  intros m p0 p1 H0 H1 HS HC.
  rewrite (valid_iff_full 2 m [p0; p1]); auto; [| |cbn; lra].
  2: intros p [<-|[<-|[]]]; auto.
  pose proof (HC 0%nat ltac:(lia)) as C0. pose proof (HC 1%nat ltac:(lia)) as C1.
  unfold column_sum in C0, C1. unfold trace_of, label_rate. cbn [map seq qsum fold_right] in *. cbn [nth].
  split.
  - intros H. pose proof (H 0%nat ltac:(lia)) as (P0 & V0). pose proof (H 1%nat ltac:(lia)) as (P1 & V1).
    cbn [nth] in *. split; auto. split; auto. nra.
  - intros (P0 & P1 & T) [|[|i]] Hi; try lia; cbn [nth]; split; auto; nra.
Qed.

Lemma uninformative_full : forall K m py,
  length py = K -> (forall p, In p py -> 0 <= p) -> qsum py == 1 -> columns_sum_to_one K m ->
  (exists i, (i < K)%nat /\ forall j, (j < K)%nat -> mget m i j == mget m i i) ->
  noise_matrix_is_valid m py = false.
Proof.
  intros K m py HL Hp HS HC (i & Hi & H). apply not_true_is_false. intros V.
  pose proof (proj1 (valid_iff_full K m py HL Hp HS HC) V) as V0. destruct (V0 i Hi) as (_ & V').
  assert (label_rate K m py i == mget m i i); [|lra]. unfold label_rate.
  rewrite (qsum_map_ext _ (fun j => mget m i i * nth j py 0)).
  - rewrite qsum_map_scale. pose proof (qsum_as_tab py) as E. rewrite HL in E. unfold tab in E. rewrite <- E, HS. ring.
  - intros j Hj. apply in_seq in Hj. rewrite H by lia. reflexivity.
Qed.

Lemma perfect_full : forall K m py,
  length py = K -> (forall p, In p py -> 0 <= p) -> qsum py == 1 ->
  (forall i j, (i < K)%nat -> (j < K)%nat -> mget m i j == if Nat.eqb i j then 1 else 0) ->
  noise_matrix_is_valid m py = true <-> (2 <= K)%nat /\ forall p, In p py -> 0 < p.
Proof.
  intros K m py HL Hp HS HI.
  assert (HR : forall i (f : nat -> Q), (i < K)%nat -> qsum (map (fun j => (if Nat.eqb i j then 1 else 0) * f j) (seq 0 K)) == f i).
  { intros i f Hi. rewrite (qsum_map_ext _ (fun j => if Nat.eqb j i then f i else 0)).
    - clear - Hi. assert (G : forall s n, (s <= i < s + n)%nat -> qsum (map (fun j => if Nat.eqb j i then f i else 0) (seq s n)) == f i).
      { intros s n. revert s. induction n as [|n IH]; intros s H; [lia|]. cbn [seq map]. rewrite qsum_cons.
        destruct (Nat.eqb_spec s i) as [->|N].
        - rewrite qsum_zero; [ring|]. intros x Hx. apply in_map_iff in Hx as (j & <- & Hj). apply in_seq in Hj.
          destruct (Nat.eqb_spec j i); [lia|reflexivity].
        - rewrite IH by lia. ring. }
      apply G. lia.
    - intros j _. rewrite (Nat.eqb_sym j i). destruct (Nat.eqb_spec i j) as [->|]; ring. }
  assert (HC : columns_sum_to_one K m).
  { intros j Hj. unfold column_sum. rewrite (qsum_map_ext _ (fun i => (if Nat.eqb j i then 1 else 0) * 1)).
    - apply (HR j (fun _ => 1)); auto.
    - intros i Hi. apply in_seq in Hi. rewrite HI, Nat.eqb_sym by lia. destruct (Nat.eqb j i); ring. }
  assert (HLR : forall i, (i < K)%nat -> label_rate K m py i == nth i py 0).
  { intros i Hi. unfold label_rate. rewrite (qsum_map_ext _ (fun j => (if Nat.eqb i j then 1 else 0) * nth j py 0)).
    - apply (HR i (fun j => nth j py 0)); auto.
    - intros j Hj. apply in_seq in Hj. rewrite HI by lia. reflexivity. }
  rewrite (valid_iff_full K m py) by auto. split.
  - intros V. split.
    + destruct K as [|[|K]]; [|exfalso|lia].
      * destruct py; [|discriminate]. rewrite qsum_nil in HS. lra.
      * destruct (V 0%nat ltac:(lia)) as (_ & V'). rewrite HLR, HI in V' by lia. cbn [Nat.eqb] in V'.
        destruct py as [|p [|]]; try discriminate. cbn [nth] in V'. cbn in HS. lra.
    + intros p Hin. destruct (In_nth _ _ 0 Hin) as (i & Hi & <-). apply V. lia.
  - intros (HK & Hpos) i Hi. split; [apply Hpos, nth_In; lia|]. rewrite HLR, HI, Nat.eqb_refl by lia.
    (* another class has positive prior *)
    assert (E : exists j, (j < K)%nat /\ j <> i) by (destruct i; [exists 1%nat|exists 0%nat]; lia).
    destruct E as (j & Hj & Hne).
    assert (Hj' : 0 < nth j py 0) by (apply Hpos, nth_In; lia).
    pose proof (qsum_as_tab py) as T. rewrite HL, HS in T. unfold tab in T.
    assert (nth i py 0 + nth j py 0 <= 1); [|lra]. rewrite T.
    rewrite <- (HR i (fun k => nth k py 0)), <- (HR j (fun k => nth k py 0)) at 1 by auto. rewrite <- qsum_map_plus.
    apply qsum_map_le. intros k Hk. apply in_seq in Hk. assert (0 <= nth k py 0) by (apply Hp, nth_In; lia).
    destruct (Nat.eqb_spec i k), (Nat.eqb_spec j k); subst; try congruence; lra.
Qed.

(** ** one column *)
Lemma set_cell_length m i j v : length (set_cell m i j v) = length m.
Proof. apply upd_length. Qed.
Lemma set_cell_square K m i j v : square K m -> (i < K)%nat -> square K (set_cell m i j v).
Proof.
  intros (H1 & H2) Hi. split; [rewrite set_cell_length; auto|]. unfold set_cell. intros r Hr. apply in_upd in Hr as [->|Hr]; auto.
  rewrite upd_length. apply H2, nth_In. lia.
Qed.
Lemma set_cell_get K m i j v i' j' : square K m -> (i < K)%nat -> (j < K)%nat ->
  mget (set_cell m i j v) i' j' = if (Nat.eqb i' i && Nat.eqb j' j)%bool then v else mget m i' j'.
Proof.
  intros (H1 & H2) Hi Hj. unfold set_cell, mget. destruct (Nat.eqb_spec i' i) as [->|N].
  - rewrite nth_upd_eq by lia. destruct (Nat.eqb_spec j' j) as [->|N']; cbn [andb].
    + apply nth_upd_eq. rewrite H2; auto. apply nth_In. lia.
    + apply nth_upd_neq. auto.
  - cbn [andb]. rewrite nth_upd_neq by auto. reflexivity.
Qed.
Lemma set_cell_column K m i j v : square K m -> (i < K)%nat -> (j < K)%nat ->
  column_sum K (set_cell m i j v) j == column_sum K m j + v - mget m i j.
Proof.
  intros Hs Hi Hj. unfold column_sum.
  assert (E : map (fun k => mget (set_cell m i j v) k j) (seq 0 K) = upd (map (fun k => mget m k j) (seq 0 K)) i v).
  { apply list_eq_nth with (d := 0); [rewrite upd_length, !map_length; reflexivity|].
    intros k Hk. rewrite map_length, seq_length in Hk.
    rewrite (nth_map_gen _ _ _ _ 0%nat) by (rewrite seq_length; auto). rewrite seq_nth by auto. cbn [Nat.add].
    rewrite (set_cell_get K) by auto. rewrite Nat.eqb_refl, andb_true_r. destruct (Nat.eqb_spec k i) as [->|N].
    - rewrite nth_upd_eq by (rewrite map_length, seq_length; auto). reflexivity.
    - rewrite nth_upd_neq by auto. rewrite (nth_map_gen _ _ _ _ 0%nat) by (rewrite seq_length; auto). rewrite seq_nth by auto. reflexivity. }
  rewrite E, qsum_upd by (rewrite map_length, seq_length; auto).
  rewrite (nth_map_gen _ _ _ _ 0%nat) by (rewrite seq_length; auto). rewrite seq_nth by auto. reflexivity.
Qed.

Definition fill (j : nat) (m : list (list Q)) (rv : list (nat * Q)) : list (list Q) :=
  fold_left (fun m rv => set_cell m (fst rv) j (snd rv)) rv m.

Lemma fill_ok K j : (j < K)%nat -> forall rows vals m, length rows = length vals -> square K m ->
  NoDup rows -> (forall i, In i rows -> (i < K)%nat /\ i <> j) -> (forall i, In i rows -> mget m i j == 0) ->
  let m' := fill j m (combine rows vals) in
  square K m' /\
  (forall i j', j' <> j -> mget m' i j' = mget m i j') /\
  (forall i, ~ In i rows -> mget m' i j = mget m i j) /\
  (forall i, In i rows -> In (mget m' i j) vals) /\
  column_sum K m' j == column_sum K m j + qsum vals.
Proof.
  intros Hj. induction rows as [|r rows IH]; intros [|v vals] m HL Hs Hn Hr Hz; try discriminate; cbn [combine fill fold_left].
  - split; [auto|]. split; [auto|]. split; [auto|]. split; [intros i []|]. rewrite qsum_nil. ring.
  - cbn [length] in HL. inversion Hn as [|? ? Hnr Hn']; subst. cbn [fst snd].
    destruct (Hr r (or_introl eq_refl)) as (HrK & Hrj).
    assert (Hs' : square K (set_cell m r j v)) by (apply set_cell_square; auto).
    destruct (IH vals (set_cell m r j v)) as (A & B & C & D & E); auto.
    { intros i Hi. apply Hr. simpl; auto. }
    { intros i Hi. rewrite (set_cell_get K) by auto. destruct (Nat.eqb_spec i r) as [->|]; [contradiction|]. cbn [andb]. apply Hz. simpl; auto. }
    unfold fill in A, B, C, D, E. split; [auto|]. split; [|split; [|split]].
    + intros i j' Hne. rewrite B by auto. rewrite (set_cell_get K) by auto.
      destruct (Nat.eqb_spec j' j); [contradiction|]. rewrite andb_false_r. reflexivity.
    + intros i Hi. rewrite C by (intros X; apply Hi; simpl; auto). rewrite (set_cell_get K) by auto.
      destruct (Nat.eqb_spec i r) as [->|]; [exfalso; apply Hi; simpl; auto|]. reflexivity.
    + intros i [<-|Hi]; [|right; auto]. rewrite C by auto. rewrite (set_cell_get K) by auto. rewrite !Nat.eqb_refl. left. reflexivity.
    + rewrite E. rewrite set_cell_column by auto. rewrite (Hz r (or_introl eq_refl)), qsum_cons. ring.
Qed.

Lemma rates_ok fuel n m mx mn dir rs : (1 <= n)%nat -> - (1 # 1000000) <= m -> m <= 1 -> mn <= 0 ->
  (n = 1%nat -> m <= mx + (1 # 1000000)) -> 1 <= 2 * mx -> prob_vector n dir -> unit_stream rs ->
  Qnat n * inject_Z 1000000 < Qnat fuel ->
  exists l, rand_probabilities fuel n m mx mn dir rs = Ok l /\ length l = n /\ qsum l == m /\
    forall x, In x l -> - (1 # 1000000) <= x /\ (0 <= m -> 0 <= x) /\ x <= mx + (1 # 1000000).
Proof.
  intros Hn Hm0 Hm1 Hmn H1 Hmx Hd Hr Hf.
  assert (Hn1 : 1 <= Qnat n) by (apply (Qnat_le 1 n); auto).
  assert (Hdirect : (forall x, In x (map (fun d => d * m) dir) -> mn - (1 # 1000000) <= x /\ x <= mx + (1 # 1000000)) ->
    m / Qnat n <= mx + (1 # 1000000) ->
    rand_probabilities fuel n m mx mn dir rs = Ok (map (fun d => d * m) dir)).
  { intros H Hmax. unfold rand_probabilities. destruct (Nat.eqb_spec n 0); [lia|].
    assert (Qltb (mx + FLOATING_POINT_COMPARISON) (m / Qnat n) = false) as -> by (apply Qltb_false; exact Hmax).
    assert (Qltb ((m + FLOATING_POINT_COMPARISON) / Qnat n) mn = false) as ->.
    { apply Qltb_false. unfold FLOATING_POINT_COMPARISON. apply Qle_trans with 0; auto.
      apply Qle_shift_div_l; lra. }
    destruct Hd as (HdL & _ & _).
    assert (Hne : map (fun d => d * m) dir <> []) by (intros C; apply map_eq_nil in C; subst dir; simpl in HdL; lia).
    assert (E1 : lower_max fuel mx rs 0 (map (fun d => d * m) dir) = Ok (map (fun d => d * m) dir, 0%nat)).
    { destruct fuel; cbn [lower_max].
      all: assert (Qltb (mx + FLOATING_POINT_COMPARISON) (qmaximum (map (fun d => d * m) dir)) = false) as -> by
        (apply Qltb_false; apply (H _ (qmaximum_in _ Hne))); reflexivity. }
    rewrite E1. cbn [rbind fst snd].
    assert (E2 : raise_min fuel mn rs 0 (map (fun d => d * m) dir) = Ok (map (fun d => d * m) dir, 0%nat)).
    { destruct fuel; cbn [raise_min].
      all: assert (Qltb (qminimum (map (fun d => d * m) dir)) (mn - FLOATING_POINT_COMPARISON) = false) as -> by
        (apply Qltb_false; apply (H _ (qminimum_in _ Hne))); reflexivity. }
    rewrite E2. reflexivity. }
  pose proof Hd as (HdL & Hd0 & HdS).
  assert (Hd1 : forall x, In x dir -> x <= 1).
  { intros x Hx. rewrite <- HdS. apply qsum_ge_elem; auto. }
  assert (Hsum : qsum (map (fun d => d * m) dir) == m).
  { rewrite (qsum_map_scale_r (fun d => d)). rewrite map_id, HdS. ring. }
  destruct (Qlt_le_dec m 0) as [Hneg|Hpos].
  - exists (map (fun d => d * m) dir).
    assert (HB : forall x, In x (map (fun d => d * m) dir) -> - (1 # 1000000) <= x /\ x <= 0).
    { intros x Hx. apply in_map_iff in Hx as (d & <- & Hin). specialize (Hd0 d Hin). specialize (Hd1 d Hin). split; nra. }
    split; [|split; [rewrite map_length; auto|split; [auto|]]].
    + apply Hdirect.
      * intros x Hx. specialize (HB x Hx). lra.
      * apply Qle_trans with 0; [|lra]. apply Qle_shift_div_r; lra.
    + intros x Hx. specialize (HB x Hx). split; [lra|]. split; lra.
  - destruct (Nat.eq_dec n 1) as [->|Hn2].
    + exists (map (fun d => d * m) dir). specialize (H1 eq_refl).
      destruct dir as [|d [|]]; try discriminate. cbn in HdS. assert (Ed : d == 1) by lra.
      assert (HB : forall x, In x (map (fun d => d * m) [d]) -> x == m).
      { intros x [<-|[]]. rewrite Ed. ring. }
      split; [|split; [reflexivity|split; [auto|]]].
      * apply Hdirect.
        -- intros x Hx. rewrite (HB x Hx). lra.
        -- change (Qnat 1) with 1. apply Qle_shift_div_r; lra.
      * intros x Hx. rewrite (HB x Hx). split; [lra|]. split; lra.
    + assert (2 <= Qnat n) by (apply (Qnat_le 2 n); lia).
      destruct (C25_probs_full fuel n m mx mn dir rs) as (l & E & L & S' & B); auto.
      * nra.
      * nra.
      * apply Qle_lt_trans with (Qnat n * inject_Z 1000000); auto.
        assert (m * Qnat n <= Qnat n) by nra. unfold inject_Z. nra.
      * exists l. split; [auto|]. split; [auto|]. split; [auto|]. intros x Hx. destruct (B x Hx) as (B1 & B2 & B3).
        split; [lra|]. split; [auto|]. exact B3.
Qed.

(** ** all columns *)
Definition col_ok (K : nat) (o : trace_options) (m : list (list Q)) (j : nat) : Prop :=
  column_sum K m j == 1 /\
  forall i, (i < K)%nat -> i <> j -> - (1 # 1000000) <= mget m i j /\ (mget m j j <= 1 -> 0 <= mget m i j) /\
    mget m i j <= max_noise_rate o + (1 # 1000000).

Lemma filter_ne_length K j : (j < K)%nat -> length (filter (fun i => negb (Nat.eqb i j)) (seq 0 K)) = (K - 1)%nat.
Proof.
  intros H. assert (G : forall s n, (s <= j < s + n)%nat -> length (filter (fun i => negb (Nat.eqb i j)) (seq s n)) = (n - 1)%nat).
  { intros s n. revert s. induction n as [|n IH]; intros s Hs; [lia|]. cbn [seq filter]. destruct (Nat.eqb_spec s j) as [->|N]; cbn [negb].
    - rewrite (filter_ext_in _ (fun _ => true)).
      + assert (T : forall l : list nat, filter (fun _ => true) l = l) by (induction l; simpl; congruence). rewrite T, seq_length. lia.
      + intros i Hi. apply in_seq in Hi. destruct (Nat.eqb_spec i j); [lia|reflexivity].
    - cbn [length]. rewrite IH by lia. lia. }
  apply G. lia.
Qed.

Lemma zeros_ge K m j rows : (j < K)%nat -> (forall i, (i < K)%nat -> i <> j -> ~ In i rows -> mget m i j == 0) ->
  (K - 1 - length rows <= zeros_in_column K m j)%nat.
Proof.
  intros Hj H. unfold zeros_in_column.
  pose proof (filter_ne_length K j Hj) as L.
  set (others := filter (fun i => negb (Nat.eqb i j)) (seq 0 K)) in *.
  assert (E : filter (fun i => (negb (Nat.eqb i j) && Qeq_bool (mget m i j) 0)%bool) (seq 0 K)
              = filter (fun i => Qeq_bool (mget m i j) 0) others).
  { unfold others. clear. induction (seq 0 K) as [|i l IH]; auto. cbn [filter]. destruct (Nat.eqb i j); cbn [negb andb filter]; auto.
    destruct (Qeq_bool _ _); rewrite IH; reflexivity. }
  rewrite E.
  assert (P : (length (filter (fun i => Qeq_bool (mget m i j) 0) others) + length (filter (fun i => negb (Qeq_bool (mget m i j) 0)) others) = length others)%nat).
  { clear. induction others as [|i l IH]; auto. cbn [filter]. destruct (Qeq_bool (mget m i j) 0); cbn [negb length]; lia. }
  assert (B : (length (filter (fun i => negb (Qeq_bool (mget m i j) 0)) others) <= length rows)%nat).
  { apply NoDup_incl_length; [apply NoDup_filter, NoDup_filter, seq_NoDup|]. intros i Hi. apply filter_In in Hi as (Hi & Hn).
    apply filter_In in Hi as (Hi & Hne). apply in_seq in Hi. apply negb_true_iff, Nat.eqb_neq in Hne.
    destruct (in_dec Nat.eq_dec i rows); auto. exfalso. apply negb_true_iff in Hn.
    specialize (H i ltac:(lia) Hne n). apply Qeq_bool_iff in H. congruence. }
  lia.
Qed.

Lemma fill_columns_ok fuel K o d z diag : draws_ok d -> (2 <= K)%nat -> length diag = K ->
  (forall x, In x diag -> 0 <= x /\ min_trace_prob o - (1 # 1000000) <= x /\ x <= 1 + (1 # 1000000)) ->
  1 - min_trace_prob o <= max_noise_rate o -> 1 <= 2 * max_noise_rate o -> min_noise_rate o <= 0 ->
  Qnat K * inject_Z 1000000 < Qnat fuel ->
  forall cols m, NoDup (map fst cols) ->
  (forall j b, In (j, b) cols -> (j < K)%nat /\ (0 <= b <= Z.of_nat K - 2)%Z) ->
  square K m -> (forall j, (j < K)%nat -> mget m j j = nth j diag 0) ->
  (forall j i, In j (map fst cols) -> (i < K)%nat -> i <> j -> mget m i j = 0) ->
  exists m', fill_columns fuel K o d z diag cols m = Ok m' /\ square K m' /\
    (forall j, (j < K)%nat -> mget m' j j = nth j diag 0) /\
    (forall i j, ~ In j (map fst cols) -> mget m' i j = mget m i j) /\
    (forall j b, In (j, b) cols -> col_ok K o m' j /\ (b <= Z.of_nat (zeros_in_column K m' j))%Z).
Proof.
  intros (_ & _ & _ & _ & Hdir & Hrs & Hrows) HK HL Hdiag Hmx1 Hmx2 Hmn Hf.
  induction cols as [|(j & b) cols IH]; intros m Hnd Hcols Hs HD Hz; cbn [fill_columns].
  - exists m. split; [auto|]. split; [auto|]. split; [auto|]. split; [auto|]. intros j b [].
  - destruct (Hcols j b (or_introl eq_refl)) as (Hj & Hb). cbn [map fst] in Hnd. inversion Hnd as [|? ? Hnj Hnd']; subst.
    set (n := Z.to_nat (Z.of_nat (length diag) - 1 - b)).
    assert (Hn : (1 <= n <= length diag - 1)%nat) by (unfold n; lia).
    set (K := length diag) in *.
    assert (Hdj : In (nth j diag 0) diag) by (apply nth_In; auto).
    destruct (Hdiag _ Hdj) as (D0 & D1 & D2).
    destruct (rates_ok fuel n (1 - nth j diag 0) (max_noise_rate o) (min_noise_rate o) (rates_dir d z j n) (rates_rs d z j)) as (rates & Er & Lr & Sr & Br); auto; try lra; try lia.
    { apply Hdir; lia. }
    { apply Qle_lt_trans with (Qnat K * inject_Z 1000000); auto. apply Qmult_le_compat_r; [apply Qnat_le; lia|discriminate]. }
    rewrite Er. cbn [rbind].
    set (cands := filter (fun i => negb (Nat.eqb i j)) (seq 0 K)).
    destruct (Hrows z j cands n) as (R1 & R2 & R3).
    { apply NoDup_filter, seq_NoDup. }
    { unfold cands. rewrite filter_ne_length by auto. lia. }
    assert (R4 : forall i, In i (rand_rows d z j cands n) -> (i < K)%nat /\ i <> j).
    { intros i Hi. apply R3 in Hi. apply filter_In in Hi as (Hi & Hne). apply in_seq in Hi. apply negb_true_iff, Nat.eqb_neq in Hne. split; [lia|auto]. }
    destruct (fill_ok K j Hj (rand_rows d z j cands n) (rev rates) m) as (F1 & F2 & F3 & F4 & F5); auto.
    { rewrite rev_length. lia. }
    { intros i Hi. destruct (R4 i Hi). rewrite Hz; auto; [reflexivity|simpl; auto]. }
    unfold fill in F1, F2, F3, F4, F5.
    set (m1 := fold_left _ (combine (rand_rows d z j cands n) (rev rates)) m) in *.
    assert (HD1 : forall k, (k < K)%nat -> mget m1 k k = nth k diag 0).
    { intros k Hk. destruct (Nat.eq_dec k j) as [->|Hne].
      - rewrite F3; auto. intros C. apply R4 in C. tauto.
      - rewrite F2; auto. }
    destruct (IH m1) as (m' & E & S' & D' & O' & C'); auto.
    { intros k c Hin. apply Hcols. simpl; auto. }
    { intros k i Hk Hi Hne. assert (k <> j) by (intros ->; contradiction). rewrite F2 by auto. apply Hz; simpl; auto. }
    exists m'. split; [auto|]. split; [auto|]. split; [auto|]. split.
    + intros i k Hk. rewrite O' by (intros C; apply Hk; simpl; auto). apply F2. intros ->. apply Hk. simpl; auto.
    + assert (Hcol : forall i, mget m' i j = mget m1 i j) by (intros; apply O'; auto).
      intros k c [Heq|Hin]; [|apply C'; auto]. injection Heq as <- <-. split.
      * split.
        -- unfold column_sum. rewrite (qsum_map_ext _ (fun i => mget m1 i j)) by (intros; rewrite Hcol; reflexivity).
           fold (column_sum K m1 j). rewrite F5.
           assert (column_sum K m j == nth j diag 0) as ->.
           { rewrite <- (HD j Hj). unfold column_sum. rewrite (qsum_map_ext _ (fun i => if Nat.eqb i j then mget m j j else 0)).
             - clear - Hj. assert (G : forall (v : Q) s n, (s <= j < s + n)%nat -> qsum (map (fun i => if Nat.eqb i j then v else 0) (seq s n)) == v).
               { intros v s n. revert s. induction n as [|n IH]; intros s H; [lia|]. cbn [seq map]. rewrite qsum_cons.
                 destruct (Nat.eqb_spec s j) as [->|N].
                 - rewrite qsum_zero; [ring|]. intros x Hx. apply in_map_iff in Hx as (k & <- & Hk). apply in_seq in Hk.
                   destruct (Nat.eqb_spec k j); [lia|reflexivity].
                 - rewrite IH by lia. ring. }
               apply G. lia.
             - intros i Hi. apply in_seq in Hi. destruct (Nat.eqb_spec i j) as [->|N]; [reflexivity|].
               rewrite Hz; [reflexivity|simpl; auto|lia|auto]. }
           assert (qsum (rev rates) == qsum rates) as -> by (apply qsum_perm; symmetry; apply Permutation_rev).
           rewrite Sr. ring.
        -- intros i Hi Hne. rewrite !Hcol, (HD1 j Hj).
           destruct (in_dec Nat.eq_dec i (rand_rows d z j cands n)) as [Hin|Hout].
           ++ pose proof (F4 i Hin) as Hv. apply in_rev in Hv. destruct (Br _ Hv) as (B1 & B2 & B3). split; [auto|]. split; [|auto]. intros; apply B2; lra.
           ++ rewrite (F3 i Hout). rewrite (Hz j i); [|simpl; auto|auto|auto]. split; [lra|]. split; lra.
      * pose proof (zeros_ge K m' j (rand_rows d z j cands n) Hj) as Z.
        assert ((K - 1 - n <= zeros_in_column K m' j)%nat).
        { rewrite <- R1. apply Z. intros i Hi Hne Hout. rewrite Hcol, (F3 i Hout). rewrite (Hz j i); [reflexivity|simpl; auto|auto|auto]. }
        unfold n in *. lia.
Qed.

(** ** one try *)
Lemma nsum_filter {A} (p : A -> bool) (f : A -> nat) l :
  nsum (map f l) = (nsum (map f (filter p l)) + nsum (map f (filter (fun x => negb (p x)) l)))%nat.
Proof. induction l as [|x l IH]; auto. cbn [map filter]. unfold nsum in *. cbn [fold_right]. destruct (p x); cbn [negb map fold_right]; lia. Qed.

Lemma filter_len_le {A} (f : A -> bool) l : (length (filter f l) <= length l)%nat.
Proof. induction l as [|x l IH]; auto. cbn [filter]. destruct (f x); cbn [length]; lia. Qed.

Lemma nsum_balls (f : nat -> nat) : forall cols balls, length cols = length balls ->
  (forall j b, In (j, b) (combine cols balls) -> (b <= Z.of_nat (f j))%Z) -> (zsum balls <= Z.of_nat (nsum (map f cols)))%Z.
Proof.
  induction cols as [|j cols IH]; intros [|b balls] HL H; try discriminate.
  cbn [map]. change (zsum (b :: balls)) with (b + zsum balls)%Z. change (nsum (f j :: map f cols)) with (f j + nsum (map f cols))%nat.
  specialize (IH balls ltac:(simpl in HL; lia) ltac:(intros; apply H; simpl; auto)). specialize (H j b ltac:(simpl; auto)). lia.
Qed.

Lemma one_try_ok fuel K trace o d z : draws_ok d -> (3 <= K)%nat -> feasible K trace o ->
  Qnat (K * (K - 1)) < inject_Z 500000 -> (trace + 1) * Qnat K * inject_Z 1000000 < Qnat fuel ->
  exists m, one_try fuel K trace o d z = Ok m /\ as_requested K trace o m.
Proof.
  intros Hd HK (Hmin & Hmax & Hlo & Hhi & Hmx1 & Hmx2 & Hmn & Hf0 & Hf1) Hbig Hfuel.
  pose proof Hd as (Hdd & Hdr & Hbd & Hbr & _ & _ & _).
  assert (HK3 : 3 <= Qnat K) by (apply (Qnat_le 3 K); lia).
  assert (Ht0 : 0 <= trace) by nra.
  assert (Hfu : Qnat K * inject_Z 1000000 < Qnat fuel) by (unfold inject_Z in *; nra).
  destruct (C25_probs_full fuel K trace (max_trace_prob o) (min_trace_prob o) (diag_dir d z K) (diag_rs d z)) as (diag & E & HL & HS & HB); auto; try lia.
  { apply Hdd; lia. }
  { unfold inject_Z in *. nra. }
  unfold one_try. rewrite E. cbn [rbind].
  set (noisy := filter (fun j => negb (Qeq_bool (nth j diag 0) 1)) (seq 0 K)).
  assert (Hncol : (length noisy <= K)%nat).
  { unfold noisy. etransitivity; [apply filter_len_le|]. rewrite seq_length. lia. }
  set (Z0 := truncate (Qnat (K * (K - 1)) * frac_zero_noise_rates o)).
  assert (HZ0 : (0 <= Z0 <= Z.of_nat (K * (K - 1)))%Z /\ forall n, Qnat n <= Qnat (K * (K - 1)) * frac_zero_noise_rates o -> (Z.of_nat n <= Z0)%Z).
  { assert (Hq : 0 <= Qnat (K * (K - 1)) * frac_zero_noise_rates o) by (apply Qmult_le_0_compat; auto; apply Qnat_nonneg).
    unfold Z0. rewrite truncate_floor by auto. split; [split|].
    - apply Qfloor_nn; auto.
    - assert (Qnat (K * (K - 1)) * frac_zero_noise_rates o <= Qnat (K * (K - 1))).
      { pose proof (Qnat_nonneg (K * (K - 1))). nra. }
      apply Qfloor_resp_le in H. unfold Qnat in H at 2. rewrite Qfloor_Z in H. exact H.
    - intros n Hn. apply Qfloor_resp_le in Hn. unfold Qnat in Hn at 1. rewrite Qfloor_Z in Hn. exact Hn. }
  destruct HZ0 as (HZ0 & HZn).
  set (N := Z.to_nat (Z.max (Z0 - Z.of_nat ((K - length noisy) * (K - 1))) 0)).
  assert (HB' : exists balls, distribute_balls fuel N (length noisy) (Some (K - 2)%nat) (Some 0%nat) (balls_dir d z (length noisy)) (balls_rs d z) = Ok balls /\
    length balls = length noisy /\ zsum balls = Z.of_nat (Nat.min N (length noisy * (K - 2))) /\ forall x, In x balls -> (0 <= x <= Z.of_nat (K - 2))%Z).
  { destruct (Nat.eq_dec (length noisy) 0) as [E0|Hne].
    - assert (N = 0%nat) as -> by (unfold N; rewrite E0, Nat.sub_0_r; lia). rewrite E0. exists []. cbn. split; [auto|]. split; [auto|]. split; [auto|]. intros x [].
    - destruct (C25_balls_full fuel N (length noisy) (Some (K - 2)%nat) (Some 0%nat) (balls_dir d z (length noisy)) (balls_rs d z)) as (arr & A & B & C & D); auto; try lia.
      + eapply Qle_lt_trans; [|exact Hbig]. apply Qnat_le. unfold N. generalize ((K - length noisy) * (K - 1))%nat. intros w. lia.
      + apply Hbd; lia.
      + eapply Qle_lt_trans; [|exact Hfu]. apply Qmult_le_compat_r; [apply Qnat_le; lia|discriminate].
      + exists arr. auto. }
  destruct HB' as (balls & Eb & Lb & Sb & Bb). fold Z0. fold N. rewrite Eb. cbn [rbind].
  set (m0 := tab K (fun i => tab K (fun j => if Nat.eqb i j then nth i diag 0 else 0))).
  assert (Hm0 : forall i j, (i < K)%nat -> (j < K)%nat -> mget m0 i j = if Nat.eqb i j then nth i diag 0 else 0).
  { intros i j Hi Hj. unfold mget, m0. rewrite !nth_tab by auto. reflexivity. }
  assert (Hnoisy : forall j, In j noisy <-> (j < K)%nat /\ ~ nth j diag 0 == 1).
  { intros j. unfold noisy. rewrite filter_In, in_seq, negb_true_iff. rewrite <- not_true_iff_false, Qeq_bool_iff. intuition lia. }
  assert (Efst : map fst (combine noisy balls) = noisy).
  { clear - Lb. revert balls Lb. induction noisy; intros [|b balls] L; simpl in *; try lia; auto. f_equal; auto. }
  destruct (fill_columns_ok fuel K o d z diag Hd ltac:(lia) HL) with (cols := combine noisy balls) (m := m0) as (m & Ef & Hsq & HD & HO & HC); auto.
  { intros x Hx. destruct (HB x Hx) as (B1 & B2 & B3). split; [auto|]. split; [auto|]. lra. }
  { rewrite Efst. apply NoDup_filter, seq_NoDup. }
  { intros j b Hin. pose proof (in_combine_l _ _ _ _ Hin) as Hl. pose proof (in_combine_r _ _ _ _ Hin) as Hr.
    apply Hnoisy in Hl. specialize (Bb b Hr). split; [tauto|]. lia. }
  { split; [apply tab_length|]. intros r Hr. unfold m0, tab in Hr. apply in_map_iff in Hr as (i & <- & _). apply tab_length. }
  { intros j Hj. rewrite Hm0, Nat.eqb_refl by auto. reflexivity. }
  { intros j i Hj Hi Hne. rewrite Efst in Hj. apply Hnoisy in Hj. rewrite Hm0 by tauto. destruct (Nat.eqb_spec i j); [contradiction|reflexivity]. }
  rewrite Efst in HO. exists m. split; [exact Ef|].
  assert (Hcols : forall j, (j < K)%nat -> col_ok K o m j /\
     (~ In j noisy -> (K - 1 <= zeros_in_column K m j)%nat)).
  { intros j Hj. destruct (in_dec Nat.eq_dec j noisy) as [Hin|Hout].
    - split; [|tauto]. destruct (In_nth _ _ 0%nat Hin) as (p & Hp & Ep).
      assert (Hc : In (j, nth p balls 0%Z) (combine noisy balls)).
      { rewrite <- Ep. rewrite <- combine_nth by auto. apply nth_In. rewrite combine_length. lia. }
      apply HC in Hc. tauto.
    - assert (Ed : nth j diag 0 == 1).
      { destruct (Qeq_dec (nth j diag 0) 1); auto. exfalso. apply Hout, Hnoisy. auto. }
      assert (Hz : forall i, (i < K)%nat -> i <> j -> mget m i j == 0).
      { intros i Hi Hne. rewrite HO by auto. rewrite Hm0 by auto. destruct (Nat.eqb_spec i j); [contradiction|reflexivity]. }
      split.
      + split.
        * unfold column_sum. transitivity (qsum (tab K (fun i => if Nat.eqb i j then 1 else 0))); [apply qsum_tab_ext|].
          2:{ clear - Hj. assert (G : forall s n, (s <= j < s + n)%nat -> qsum (map (fun i => if Nat.eqb i j then 1 else 0) (seq s n)) == 1).
             { intros s n. revert s. induction n as [|n IH]; intros s H; [lia|]. cbn [seq map]. rewrite qsum_cons.
               destruct (Nat.eqb_spec s j) as [->|N].
               - rewrite qsum_zero; [ring|]. intros x Hx. apply in_map_iff in Hx as (k & <- & Hk). apply in_seq in Hk.
                 destruct (Nat.eqb_spec k j); [lia|reflexivity].
               - rewrite IH by lia. ring. }
             apply G. lia. }
          intros i Hi. destruct (Nat.eqb_spec i j) as [->|Nij]; [rewrite HD, Ed by auto; reflexivity|]. rewrite Hz by auto. reflexivity.
        * intros i Hi Hne. rewrite (Hz i Hi Hne). split; [lra|]. split; lra.
      + intros _. pose proof (zeros_ge K m j [] Hj) as ZG. cbn [length] in ZG. specialize (ZG ltac:(intros; auto)). lia. }
  split; [auto|]. split; [intros j Hj; apply (Hcols j Hj)|]. split; [|split; [|split]].
  - unfold trace_of. rewrite <- HS, (qsum_as_tab diag), HL. apply qsum_tab_ext. intros i Hi. rewrite HD by auto. reflexivity.
  - intros j Hj. rewrite HD by auto. assert (Hx : In (nth j diag 0) diag) by (apply nth_In; lia). specialize (HB _ Hx). tauto.
  - intros i j Hi Hj Hne. destruct (Hcols j Hj) as ((_ & Hc) & _). apply Hc; auto.
  - intros n Hn. specialize (HZn n Hn).
    assert (EN : noisy_columns K m = length noisy).
    { unfold noisy_columns, noisy. f_equal. apply filter_ext_in. intros j Hj. apply in_seq in Hj. rewrite HD by lia. reflexivity. }
    rewrite EN. unfold zero_rates.
    rewrite (nsum_filter (fun j => negb (Qeq_bool (nth j diag 0) 1))). fold noisy.
    set (clean := filter (fun x => negb (negb (Qeq_bool (nth x diag 0) 1))) (seq 0 K)).
    assert (Lc : (length noisy + length clean = K)%nat).
    { unfold noisy, clean. transitivity (length (seq 0 K)); [|apply seq_length].
      clear. induction (seq 0 K) as [|x l IH]; auto. cbn [filter].
      destruct (Qeq_bool (nth x diag 0) 1); cbn [negb length]; lia. }
    assert (H1 : (zsum balls <= Z.of_nat (nsum (map (zeros_in_column K m) noisy)))%Z).
    { apply nsum_balls; auto. intros j b Hin. apply HC in Hin. tauto. }
    assert (H2 : (length clean * (K - 1) <= nsum (map (zeros_in_column K m) clean))%nat).
    { assert (G : forall l, (forall j, In j l -> (K - 1 <= zeros_in_column K m j)%nat) -> (length l * (K - 1) <= nsum (map (zeros_in_column K m) l))%nat).
      { induction l as [|j l IH]; intros H; [simpl; lia|]. cbn [map length]. change (nsum (zeros_in_column K m j :: map (zeros_in_column K m) l)) with (zeros_in_column K m j + nsum (map (zeros_in_column K m) l))%nat.
        specialize (IH ltac:(intros; apply H; simpl; auto)). specialize (H j (or_introl eq_refl)). lia. }
      apply G. intros j Hj. apply filter_In in Hj as (Hj & Hp). apply in_seq in Hj. apply Hcols; [lia|]. intros C. apply filter_In in C as (_ & C).
      rewrite C in Hp. discriminate. }
    rewrite Sb in H1. unfold N in *. clear - HK Hncol HZ0 HZn Lc H1 H2.
    set (a := nsum (map (zeros_in_column K m) noisy)) in *. set (b := nsum (map (zeros_in_column K m) clean)) in *.
    assert (Ec : (K - length noisy = length clean)%nat) by lia. rewrite Ec in *.
    destruct (Nat.le_gt_cases (Z.to_nat (Z.max (Z0 - Z.of_nat (length clean * (K - 1))) 0)) (length noisy * (K - 2))) as [C|C].
    + left. rewrite Nat.min_l in H1 by auto. lia.
    + right. rewrite Nat.min_r in H1 by lia. assert (length noisy * (K - 2) <= a)%nat by lia. assert (E1 : (K * (K - 1) = length noisy * (K - 1) + length clean * (K - 1))%nat) by (rewrite <- Nat.mul_add_distr_r, Lc; auto).
      assert (E2 : (length noisy * (K - 1) = length noisy * (K - 2) + length noisy)%nat).
      { replace (K - 1)%nat with (S (K - 2)) by lia. rewrite Nat.mul_succ_r. reflexivity. }
      lia.
Qed.

(** ** the search *)
Lemma tries_ok fuel K trace o d : draws_ok d -> (3 <= K)%nat -> feasible K trace o ->
  Qnat (K * (K - 1)) < inject_Z 500000 -> (trace + 1) * Qnat K * inject_Z 1000000 < Qnat fuel ->
  forall left z, exists r, tries fuel K trace o d left z = Ok r /\
    (forall m, r = Some m -> as_requested K trace o m /\
       (want_valid o = true -> forall py, prior o = Some py -> noise_matrix_is_valid m py = true)) /\
    (r = None -> left = 0%nat \/ want_valid o = true).
Proof.
  intros Hd HK Hf Hb Hfu. induction left as [|left IH]; intros z; cbn [tries].
  - exists None. split; [auto|]. split; [discriminate|]. auto.
  - destruct (one_try_ok fuel K trace o d z Hd HK Hf Hb Hfu) as (m & E & A). rewrite E. cbn [rbind].
    destruct (want_valid o) eqn:EV; cbn [negb orb].
    + destruct (noise_matrix_is_valid _ _) eqn:V.
      * exists (Some m). split; [auto|]. split; [|discriminate]. intros m' H. injection H as <-. split; auto.
        intros _ py Hp. rewrite Hp in V. auto.
      * destruct (IH (S z)) as (r & Er & Hr & Hn). exists r. split; [auto|]. split; auto.
    + exists (Some m). split; [auto|]. split; [|discriminate]. intros m' H. injection H as <-. split; auto. discriminate.
Qed.

Lemma generate_full : forall fuel K trace o d py,
  draws_ok d -> (3 <= K)%nat -> feasible K trace o -> Qnat (K * (K - 1)) < inject_Z 500000 ->
  (trace + 1) * Qnat K * inject_Z 1000000 < Qnat fuel ->
  prior o = Some py -> (want_valid o = true -> 1 < trace) ->
  exists r, generate_noise_matrix_from_trace fuel K trace o d = Ok r /\
    (forall m, r = Some m -> as_requested K trace o m /\ (want_valid o = true -> noise_matrix_is_valid m py = true)) /\
    (r = None -> max_iter o = 0%nat \/ want_valid o = true).
Proof.
  intros fuel K trace o d py Hd HK Hf Hb Hfu Hp Ht. unfold generate_noise_matrix_from_trace. rewrite Hp.
  assert ((want_valid o && Qle_bool trace 1)%bool = false) as ->.
  { destruct (want_valid o); auto. cbn [andb]. specialize (Ht eq_refl). apply not_true_is_false. rewrite Qle_bool_iff. lra. }
  rewrite andb_false_r. cbn [andb]. destruct (Nat.leb_spec K 1); [lia|].
  destruct (Nat.ltb_spec (max_iter o) 1).
  - exists None. split; [auto|]. split; [discriminate|]. intros _. left. lia.
  - destruct (Nat.eqb_spec K 2); [lia|].
    destruct (tries_ok fuel K trace o d Hd HK Hf Hb Hfu (max_iter o) 0) as (r & E & A & B). exists r. split; [auto|]. split; [|auto].
    intros m Hm. destruct (A m Hm) as (A1 & A2). split; auto.
Qed.

Lemma generate_two_full : forall fuel trace o d,
  draws_ok d -> 1 < trace -> trace <= 2 -> inject_Z 4000000 < Qnat fuel -> (1 <= max_iter o)%nat ->
  exists m, generate_noise_matrix_from_trace fuel 2 trace o d = Ok (Some m) /\
    square 2 m /\ columns_sum_to_one 2 m /\ trace_of 2 m == trace /\
    (forall i j, - (1 # 1000000) <= mget m i j /\ mget m i j <= 1 + (1 # 1000000)) /\
    ((1 # 2) <= frac_zero_noise_rates o -> (1 <= zero_rates 2 m)%nat) /\
    (forall p0 p1, 0 < p0 -> 0 < p1 -> p0 + p1 == 1 -> noise_matrix_is_valid m [p0; p1] = true).
Proof.
  intros fuel trace o d (Hdd & Hdr & _) H1 H2 Hfu Hit. unfold generate_noise_matrix_from_trace.
  assert ((want_valid o && Qle_bool trace 1)%bool = false) as ->.
  { rewrite andb_false_iff. right. apply not_true_is_false. rewrite Qle_bool_iff. lra. }
  change (Nat.ltb 2 2) with false. rewrite andb_false_r. cbn [Nat.leb Nat.eqb]. destruct (Nat.ltb_spec (max_iter o) 1); [lia|].
  assert (Hval : forall m, columns_sum_to_one 2 m -> trace_of 2 m == trace -> forall p0 p1, 0 < p0 -> 0 < p1 -> p0 + p1 == 1 -> noise_matrix_is_valid m [p0; p1] = true).
  { intros m HC HT p0 p1 P0 P1 HP. apply valid_two_full; try lra; auto. }
  assert (Hget : forall a b c e, (- (1 # 1000000) <= a /\ a <= 1 + (1 # 1000000)) -> (- (1 # 1000000) <= b /\ b <= 1 + (1 # 1000000)) ->
     (- (1 # 1000000) <= c /\ c <= 1 + (1 # 1000000)) -> (- (1 # 1000000) <= e /\ e <= 1 + (1 # 1000000)) ->
     forall i j, - (1 # 1000000) <= mget [[a; b]; [c; e]] i j /\ mget [[a; b]; [c; e]] i j <= 1 + (1 # 1000000)).
  { intros a b c e Ha Hb Hc He [|[|[|i]]] [|[|[|j]]]; unfold mget; cbn [nth]; auto; lra. }
  assert (Hmk : forall a b c e, a + c == 1 -> b + e == 1 -> a + e == trace ->
     square 2 [[a; b]; [c; e]] /\ columns_sum_to_one 2 [[a; b]; [c; e]] /\ trace_of 2 [[a; b]; [c; e]] == trace).
  { intros a b c e E1 E2 E3. split; [split; [reflexivity|intros r [<-|[<-|[]]]; reflexivity]|]. split.
    - intros [|[|j]] Hj; try lia; unfold column_sum, mget; cbn [seq map nth]; rewrite !qsum_cons, qsum_nil; lra.
    - unfold trace_of, mget. cbn [seq map nth]. rewrite !qsum_cons, qsum_nil. lra. }
  destruct (Qle_bool (1 # 2) (frac_zero_noise_rates o)) eqn:EF.
  - destruct (coin d); eexists; (split; [reflexivity|]).
    + destruct (Hmk 1 (1 - (trace - 1)) 0 (trace - 1)) as (A & B & C); [lra|ring|ring|].
      split; [exact A|]. split; [exact B|]. split; [exact C|]. split; [apply Hget; lra|]. split; [|apply Hval; auto].
      intros _. unfold zero_rates, zeros_in_column. cbn [seq map]. unfold nsum. cbn [fold_right filter]. unfold mget. cbn [nth Nat.eqb negb andb].
      cbn [Qeq_bool]. change (Qeq_bool 0 0) with true. cbn [length]. lia.
    + destruct (Hmk (trace - 1) 0 (1 - (trace - 1)) 1) as (A & B & C); [ring|lra|ring|].
      split; [exact A|]. split; [exact B|]. split; [exact C|]. split; [apply Hget; lra|]. split; [|apply Hval; auto].
      intros _. unfold zero_rates, zeros_in_column. cbn [seq map]. unfold nsum. cbn [fold_right filter]. unfold mget. cbn [nth Nat.eqb negb andb].
      change (Qeq_bool 0 0) with true. cbn [length]. lia.
  - destruct (C25_probs_full fuel 2 trace 1 0 (diag_dir d 0%nat 2%nat) (diag_rs d 0%nat)) as (l & E & L & S' & B);
      [lia|lra|assert (Qnat 2 == 2) by reflexivity; lra|assert (Qnat 2 == 2) by reflexivity; lra|apply Hdd; lia|apply Hdr| |].
    { assert (Hq : Qnat 2 == 2) by reflexivity. rewrite Hq. unfold inject_Z in *. lra. }
    { rewrite E. cbn [rbind]. eexists. split; [reflexivity|].
      destruct l as [|a [|e [|]]]; try discriminate. cbn [nth]. rewrite !qsum_cons, qsum_nil in S'.
      destruct (B a (or_introl eq_refl)) as (Ba & _ & Ba'). destruct (B e (or_intror (or_introl eq_refl))) as (Be & _ & Be').
      destruct (Hmk a (1 - e) (1 - a) e) as (A & B' & C); [ring|ring|lra|].
      split; [exact A|]. split; [exact B'|]. split; [exact C|]. split; [apply Hget; lra|]. split; [|apply Hval; auto].
      intros Hc. apply Qle_bool_iff in Hc. congruence. }
Qed.

Lemma generate_rejects_full : forall fuel K trace o d,
  (want_valid o = true -> trace <= 1 -> generate_noise_matrix_from_trace fuel K trace o d = Raise ValueError) /\
  (want_valid o = true -> (3 <= K)%nat -> prior o = None -> generate_noise_matrix_from_trace fuel K trace o d = Raise ValueError) /\
  ((K <= 1)%nat -> generate_noise_matrix_from_trace fuel K trace o d = Raise ValueError) /\
  ((3 <= K)%nat -> (1 <= max_iter o)%nat ->
   Qnat K * (max_trace_prob o + (1 # 1000000)) < trace \/ trace + (1 # 1000000) < Qnat K * min_trace_prob o ->
   generate_noise_matrix_from_trace fuel K trace o d = Raise ValueError).
Proof.
  intros fuel K trace o d. unfold generate_noise_matrix_from_trace. split; [|split; [|split]].
  - intros -> H. apply Qle_bool_iff in H. rewrite H. reflexivity.
  - intros -> HK ->. assert (Nat.ltb 2 K = true) as -> by (apply Nat.ltb_lt; lia). destruct (Qle_bool trace 1); reflexivity.
  - intros HK. destruct (_ && _)%bool; auto. destruct (_ && _)%bool; auto. destruct (Nat.leb_spec K 1); [auto|lia].
  - intros HK Hit H. destruct (_ && _)%bool; auto. destruct (_ && _)%bool; auto. destruct (Nat.leb_spec K 1); [auto|].
    destruct (Nat.ltb_spec (max_iter o) 1); [lia|]. destruct (Nat.eqb_spec K 2); [lia|].
    destruct (max_iter o) as [|n']; [lia|]. cbn [tries]. unfold one_try, rand_probabilities at 1.
    destruct (Nat.eqb_spec K 0); [lia|].
    assert (HKp : 0 < Qnat K) by (apply Qnat_pos; lia). unfold FLOATING_POINT_COMPARISON.
    destruct H as [H|H].
    + assert (Qltb (max_trace_prob o + (1 # 1000000)) (trace / Qnat K) = true) as ->; [|reflexivity].
      apply Qltb_iff. apply Qlt_shift_div_l; auto. lra.
    + destruct (Qltb _ _); auto.
      assert (Qltb ((trace + (1 # 1000000)) / Qnat K) (min_trace_prob o) = true) as ->; [|reflexivity].
      apply Qltb_iff. apply Qlt_shift_div_r; auto. lra.
Qed.

Lemma rand_rejects_full : forall fuel n m max_prob min_prob dir rs, (1 <= n)%nat ->
  Qnat n * (max_prob + (1 # 1000000)) < m \/ m + (1 # 1000000) < Qnat n * min_prob ->
  rand_probabilities fuel n m max_prob min_prob dir rs = Raise ValueError.
Proof.
  intros fuel n m mx mn dir rs Hn H. unfold rand_probabilities. destruct (Nat.eqb_spec n 0); [lia|].
  assert (HKp : 0 < Qnat n) by (apply Qnat_pos; lia). unfold FLOATING_POINT_COMPARISON.
  destruct H as [H|H].
  - assert (Qltb (mx + (1 # 1000000)) (m / Qnat n) = true) as ->; [|reflexivity].
    apply Qltb_iff. apply Qlt_shift_div_l; auto. lra.
  - destruct (Qltb _ _); auto.
    assert (Qltb ((m + (1 # 1000000)) / Qnat n) mn = true) as ->; [|reflexivity].
    apply Qltb_iff. apply Qlt_shift_div_r; auto. lra.
Qed.
