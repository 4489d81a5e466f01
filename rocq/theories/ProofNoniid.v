(** * Proofs about the non-IID check *)
From Coq Require Import QArith Qabs Qreals Reals List Bool Arith Permutation Sorted Lia Lqa Setoid.
From Coq Require Lra.
From Verif Require Import Base BaseFacts ModelNoniid SpecNoniid.
Import ListNotations.
Open Scope Q_scope.

(** ** Sorting *)
Lemma ins_nat_comm x y l : ins_nat x (ins_nat y l) = ins_nat y (ins_nat x l).
Proof.
  induction l as [|z t IH]; cbn.
  - destruct (Nat.leb_spec x y), (Nat.leb_spec y x); try reflexivity; try lia. replace x with y by lia. reflexivity.
  - destruct (Nat.leb_spec y z), (Nat.leb_spec x z); cbn;
    repeat match goal with |- context [Nat.leb ?a ?b] => destruct (Nat.leb_spec a b) end; try lia; try reflexivity.
    + replace x with y by lia. reflexivity.
    + rewrite IH. reflexivity.
Qed.
Lemma sort_nat_ext a b : Permutation a b -> sort_nat a = sort_nat b.
Proof.
  induction 1; cbn; auto.
  - unfold sort_nat in *. congruence.
  - apply ins_nat_comm.
  - congruence.
Qed.
Lemma ins_nat_perm x l : Permutation (ins_nat x l) (x :: l).
Proof.
  induction l as [|y t IH]; cbn; auto. destruct (Nat.leb x y); auto.
  rewrite IH. apply perm_swap.
Qed.
Lemma sort_nat_perm l : Permutation (sort_nat l) l.
Proof. induction l as [|x t IH]; cbn; auto. rewrite ins_nat_perm. auto. Qed.
Lemma ins_nat_sorted x l : StronglySorted le l -> StronglySorted le (ins_nat x l).
Proof.
  induction 1 as [|y t H IH F]; cbn. { repeat constructor. }
  destruct (Nat.leb_spec x y).
  - constructor. constructor; auto. constructor; auto. eapply Forall_impl; [|exact F]. intros; lia.
  - constructor; auto. rewrite ins_nat_perm. constructor; auto; lia.
Qed.
Lemma sort_nat_sorted l : StronglySorted le (sort_nat l).
Proof. induction l; cbn. constructor. apply ins_nat_sorted. auto. Qed.
Lemma sort_nat_id l : StronglySorted le l -> sort_nat l = l.
Proof.
  unfold sort_nat. induction 1 as [|y t H IH F]; cbn; auto. rewrite IH. destruct t as [|z t]; cbn; auto.
  inversion F; subst. destruct (Nat.leb_spec y z); auto; lia.
Qed.
Lemma sort_nat_length l : length (sort_nat l) = length l.
Proof. apply Permutation_length, sort_nat_perm. Qed.
Lemma sort_nat_in l x : In x (sort_nat l) <-> In x l.
Proof. split; apply Permutation_in; [|symmetry]; apply sort_nat_perm. Qed.

(** ** Counting *)
Lemma how_many_app {A} (f : A -> bool) a b : how_many f (a ++ b) = (how_many f a + how_many f b)%nat.
Proof. unfold how_many. rewrite filter_app, app_length. reflexivity. Qed.
Lemma how_many_perm {A} (f : A -> bool) a b : Permutation a b -> how_many f a = how_many f b.
Proof.
  unfold how_many. induction 1; cbn; auto.
  - destruct (f x); cbn; lia.
  - destruct (f x), (f y); cbn; lia.
  - lia.
Qed.
Lemma how_many_le {A} (f : A -> bool) l : (how_many f l <= length l)%nat.
Proof. unfold how_many. induction l; cbn; auto. destruct (f a); cbn; lia. Qed.
Lemma how_many_all {A} (f : A -> bool) l : (forall x, In x l -> f x = true) -> how_many f l = length l.
Proof.
  unfold how_many. induction l; cbn; intros H; auto. rewrite (H a) by auto. cbn. rewrite IHl; auto.
Qed.
Lemma how_many_mono {A} (f g : A -> bool) l : (forall x, In x l -> f x = true -> g x = true) -> (how_many f l <= how_many g l)%nat.
Proof.
  unfold how_many. induction l as [|a l IH]; cbn; intros H; auto.
  specialize (IH (fun x h => H x (or_intror h))). pose proof (H a (or_introl eq_refl)).
  destruct (f a), (g a); cbn; try lia.
Qed.
Lemma how_many_ext {A} (f g : A -> bool) l : (forall x, In x l -> f x = g x) -> how_many f l = how_many g l.
Proof. intros H. unfold how_many. f_equal. induction l as [|a l IH]; cbn; auto. rewrite H by (left; auto). rewrite IH; auto.
  intros. apply H. right; auto. Qed.
Lemma sorted_count s x k : StronglySorted le s -> (k < length s)%nat ->
  (nth k s 0 <= x <-> k < how_many (fun d => Nat.leb d x) s)%nat.
Proof.
  intros Hs. revert k. induction Hs as [|y t H IH F]; cbn; intros k Hk. lia.
  unfold how_many in *. cbn. destruct (Nat.leb_spec y x).
  - cbn. destruct k as [|k]; cbn [nth]. lia. rewrite IH by lia. lia.
  - assert (Z : filter (fun d => Nat.leb d x) t = []).
    { clear -F H0. induction F; cbn; auto. destruct (Nat.leb_spec x0 x); auto. lia. }
    rewrite Z. destruct k as [|k]; cbn [nth length]. lia.
    assert (y <= nth k t 0)%nat. { rewrite Forall_forall in F. apply F, nth_In. lia. } lia.
Qed.
Lemma count_le_seq c a n : how_many (fun j => Nat.leb j c) (seq a n) = Nat.min n (S c - a).
Proof.
  induction n. reflexivity. rewrite seq_S, how_many_app, IHn. unfold how_many at 1. cbn [filter].
  destruct (Nat.leb_spec (a + n) c); cbn [length]; lia.
Qed.
Lemma count_ge_seq c a n : how_many (fun j => Nat.leb c j) (seq a n) = Nat.min n (a + n - c).
Proof.
  induction n. reflexivity. rewrite seq_S, how_many_app, IHn. unfold how_many at 1. cbn [filter].
  destruct (Nat.leb_spec c (a + n)); cbn [length]; lia.
Qed.

(** ** The distribution of the distance of a pair *)
Lemma all_pairs_S N : all_pairs (S N) = all_pairs N ++ map (fun a => (a, N)) (seq 0 N).
Proof. unfold all_pairs. rewrite seq_S, flat_map_app. cbn. rewrite app_nil_r. reflexivity. Qed.
Definition pairs_within (N x : nat) : nat := how_many (fun p => Nat.leb (snd p - fst p) x) (all_pairs N).
Lemma pairs_row N x : how_many (fun p => Nat.leb (snd p - fst p) x) (map (fun a => (a, N)) (seq 0 N)) = Nat.min N x.
Proof.
  assert (H : how_many (fun p => Nat.leb (snd p - fst p) x) (map (fun a => (a, N)) (seq 0 N))
    = how_many (fun j => Nat.leb (N - x) j) (seq 0 N)).
  { unfold how_many. generalize (seq 0 N) as l. induction l as [|a l IH]; cbn; auto.
    destruct (Nat.leb_spec (N - a) x), (Nat.leb_spec (N - x) a); cbn; try lia; rewrite IH; auto. }
  rewrite H, count_ge_seq. lia.
Qed.
Lemma pairs_within_S N x : pairs_within (S N) x = (pairs_within N x + Nat.min N x)%nat.
Proof. unfold pairs_within. rewrite all_pairs_S, how_many_app, pairs_row. reflexivity. Qed.
Lemma pairs_within_step N x : pairs_within N (S x) = (pairs_within N x + (N - 1 - x))%nat.
Proof. induction N. reflexivity. rewrite !pairs_within_S, IHN. lia. Qed.
Lemma pairs_within_0 N : pairs_within N 0 = 0%nat.
Proof. induction N. reflexivity. rewrite pairs_within_S, IHN. lia. Qed.
Lemma pairs_total N : (2 * length (all_pairs N) = N * (N - 1))%nat.
Proof.
  induction N. reflexivity. rewrite all_pairs_S, app_length, map_length, seq_length.
  destruct N; cbn [Nat.sub] in *; nia.
Qed.
Lemma pairs_all N x : (N - 1 <= x)%nat -> pairs_within N x = length (all_pairs N).
Proof.
  intros H. unfold pairs_within. apply how_many_all. intros [a b] Hab. unfold all_pairs in Hab.
  apply in_flat_map in Hab as (b' & Hb & Ha). apply in_map_iff in Ha as (a' & E & Ha). injection E as <- <-.
  apply in_seq in Hb, Ha. cbn. apply Nat.leb_le. lia.
Qed.
Lemma Qnat_pos n : (0 < n)%nat -> 0 < Qnat n.
Proof. intros H. unfold Qnat, Qlt. cbn. lia. Qed.
Lemma Qnat_sub a b : (b <= a)%nat -> Qnat (a - b) == Qnat a - Qnat b.
Proof. intros H. unfold Qnat, Qeq, Qminus, Qplus, Qopp. cbn. lia. Qed.
Lemma Qnat_add a b : Qnat (a + b) == Qnat a + Qnat b.
Proof. unfold Qnat, Qeq, Qplus. cbn. lia. Qed.
Lemma Qnat_mult a b : Qnat (a * b) == Qnat a * Qnat b.
Proof. unfold Qnat, Qeq, Qmult. cbn. lia. Qed.
Lemma Qnat_S1 a : Qnat (S a) == Qnat a + 1.
Proof. unfold Qnat, Qeq, Qplus. cbn. lia. Qed.
Lemma Qnat_le a b : (a <= b)%nat -> Qnat a <= Qnat b.
Proof. intros. unfold Qnat, Qle. cbn. lia. Qed.
Lemma Qnat_nonneg a : 0 <= Qnat a.
Proof. unfold Qnat, Qle. cbn. lia. Qed.
Lemma pairs_total_q N : (2 <= N)%nat -> Qnat N * Qnat (N - 1) / 2 == Qnat (length (all_pairs N)).
Proof.
  intros H. pose proof (pairs_total N) as T. apply (f_equal Qnat) in T.
  assert (E : 2 * Qnat (length (all_pairs N)) == Qnat N * Qnat (N - 1)).
  { rewrite <- Qnat_mult, <- T, Qnat_mult. reflexivity. }
  rewrite <- E. field.
Qed.

Lemma pairs_pos N : (2 <= N)%nat -> (0 < length (all_pairs N))%nat.
Proof. intros H. pose proof (pairs_total N). nia. Qed.
Lemma pair_cdf_mono N x y : (x <= y)%nat -> pair_cdf N x <= pair_cdf N y.
Proof.
  intros H. unfold pair_cdf.
  destruct (Nat.eq_dec (length (all_pairs N)) 0) as [E|E].
  { rewrite E. cbn. unfold Qdiv. cbn. rewrite !Qmult_0_r. lra. }
  apply Qmult_le_compat_r; [|apply Qinv_le_0_compat, Qnat_nonneg].
  apply Qnat_le, how_many_mono. intros p _. rewrite !Nat.leb_le. lia.
Qed.
Lemma pair_cdf_bounds N x : 0 <= pair_cdf N x <= 1.
Proof.
  unfold pair_cdf. destruct (Nat.eq_dec (length (all_pairs N)) 0) as [E|E].
  { rewrite E. change (/ Qnat 0) with (/ 0). unfold Qdiv. change (/ Qnat 0) with 0. rewrite Qmult_0_r. lra. }
  pose proof (Qnat_pos (length (all_pairs N)) ltac:(lia)).
  split.
  - apply Qle_shift_div_l; auto. rewrite Qmult_0_l. apply Qnat_nonneg.
  - apply Qle_shift_div_r; auto. rewrite Qmult_1_l. apply Qnat_le, how_many_le.
Qed.
Lemma pair_cdf_top N x : (2 <= N)%nat -> (N - 1 <= x)%nat -> pair_cdf N x == 1.
Proof.
  intros H1 H2. unfold pair_cdf. change (how_many _ (all_pairs N)) with (pairs_within N x). rewrite (pairs_all N x H2).
  field. pose proof (Qnat_pos _ (pairs_pos N H1)). lra.
Qed.
Lemma pair_cdf_0 N : pair_cdf N 0 == 0.
Proof.
  unfold pair_cdf. change (how_many _ (all_pairs N)) with (pairs_within N 0). rewrite (pairs_within_0 N).
  unfold Qdiv. rewrite Qmult_0_l. reflexivity.
Qed.
Lemma pair_cdf_step N x : (2 <= N)%nat -> (S x <= N - 1)%nat ->
  pair_cdf N (S x) == pair_cdf N x + Qnat (N - S x) / (Qnat N * Qnat (N - 1) / 2).
Proof.
  intros H1 H2. rewrite pairs_total_q by auto. unfold pair_cdf.
  change (how_many _ (all_pairs N)) with (pairs_within N (S x)) at 1.
  change (how_many (fun p => Nat.leb (snd p - fst p) x) (all_pairs N)) with (pairs_within N x).
  rewrite pairs_within_step, Qnat_add. replace (N - 1 - x)%nat with (N - S x)%nat by lia.
  field. pose proof (Qnat_pos _ (pairs_pos N H1)). lra.
Qed.
Lemma pair_cdf_jump N x : (2 <= N)%nat -> pair_cdf N (S x) <= pair_cdf N x + 2 / Qnat N.
Proof.
  intros H1. destruct (le_lt_dec (S x) (N - 1)) as [H2|H2].
  - rewrite pair_cdf_step by auto.
    assert (Hn : 0 < Qnat N) by (apply Qnat_pos; lia). assert (Hn1 : 0 < Qnat (N - 1)) by (apply Qnat_pos; lia).
    apply Qplus_le_r.
    assert (E : Qnat (N - S x) / (Qnat N * Qnat (N - 1) / 2) == (2 / Qnat N) * (Qnat (N - S x) / Qnat (N - 1))).
    { field. lra. }
    rewrite E. assert (Qnat (N - S x) / Qnat (N - 1) <= 1).
    { apply Qle_shift_div_r; auto. rewrite Qmult_1_l. apply Qnat_le. lia. }
    assert (0 < 2 / Qnat N). { apply Qlt_shift_div_l; auto. lra. } nra.
  - pose proof (pair_cdf_top N x H1 ltac:(lia)). pose proof (pair_cdf_bounds N (S x)).
    assert (0 < 2 / Qnat N). { apply Qlt_shift_div_l; [apply Qnat_pos; lia|]. lra. } lra.
Qed.

Lemma cumsum_from_length acc l : length (cumsum_from acc l) = length l.
Proof. revert acc. induction l; cbn; auto. Qed.
Lemma background_length N : length (background_cdf N) = (N - 1)%nat.
Proof. unfold background_cdf, cumsum, background_distribution. rewrite cumsum_from_length, map_length, seq_length. reflexivity. Qed.
Lemma background_pair N : (2 <= N)%nat -> forall x, (S x <= N - 1)%nat -> nth x (background_cdf N) 0 == pair_cdf N (S x).
Proof.
  intros HN. unfold background_cdf, cumsum, background_distribution.
  set (f := fun j => Qnat (N - j) / (Qnat N * Qnat (N - 1) / 2)).
  assert (G : forall n a acc x, (a + n <= N - 1)%nat -> acc == pair_cdf N a -> (x < n)%nat ->
     nth x (cumsum_from acc (map f (seq (S a) n))) 0 == pair_cdf N (S (a + x))).
  { induction n as [|n IH]; intros a acc x Ha Hacc Hx. lia.
    cbn [seq map cumsum_from].
    assert (acc + f (S a) == pair_cdf N (S a)). { rewrite (pair_cdf_step N a) by lia. rewrite Hacc. reflexivity. }
    destruct x as [|x]; cbn [nth].
    - rewrite Nat.add_0_r. auto.
    - rewrite (IH (S a)) by (try lia; auto). replace (S a + x)%nat with (a + S x)%nat by lia. reflexivity. }
  intros x Hx. apply (G (N - 1)%nat 0%nat 0 x); try lia. symmetry. apply pair_cdf_0.
Qed.
Lemma background_at_pair N s : (2 <= N)%nat -> (1 <= s <= N - 1)%nat -> background_at N s == pair_cdf N s.
Proof. intros HN Hs. unfold background_at. destruct s as [|x]. lia. apply background_pair; lia. Qed.

(** ** The statistic *)
Definition gap (N m : nat) (ks : nat * nat) : Q := Qabs (Qnat (fst ks) / Qnat m - background_at N (snd ks)).
Lemma combine_seq_nth {A} (l : list A) d a : combine (seq a (length l)) l = map (fun i => (i, nth (i - a) l d)) (seq a (length l)).
Proof.
  revert a. induction l as [|x t IH]; intros a; cbn [length seq combine map]; auto. f_equal.
  - rewrite Nat.sub_diag. reflexivity.
  - rewrite IH. apply map_ext_in. intros i Hi. apply in_seq in Hi. replace (i - a)%nat with (S (i - S a)) by lia. reflexivity.
Qed.
Lemma ks_value N dist : (2 <= N)%nat -> (forall d, In d dist -> 1 <= d <= N - 1)%nat ->
  exists D, ks_statistic N dist = Ok D /\
   (forall k, (k <= length dist)%nat -> gap N (length dist) (k, nth k (sort_nat dist ++ [(N - 1)%nat]) 0%nat) <= D) /\
   (exists k, (k <= length dist)%nat /\ D = gap N (length dist) (k, nth k (sort_nat dist ++ [(N - 1)%nat]) 0%nat)).
Proof.
  intros HN Hd. unfold ks_statistic.
  set (s := sort_nat dist ++ [(N - 1)%nat]).
  assert (Ls : length s = S (length dist)). { unfold s. rewrite app_length, sort_nat_length. cbn. lia. }
  assert (X : existsb (fun x => Nat.leb (length (background_cdf N)) (x - 1)) s = false).
  { rewrite background_length. apply not_true_is_false. intros X. apply existsb_exists in X as (x & Hx & Hl).
    apply Nat.leb_le in Hl. unfold s in Hx. apply in_app_iff in Hx as [Hx|[Hx|[]]].
    - rewrite sort_nat_in in Hx. specialize (Hd x Hx). lia.
    - lia. }
  rewrite X. eexists. split; [reflexivity|]. rewrite Ls. replace (S (length dist) - 1)%nat with (length dist) by lia.
  fold (gap N (length dist)). change (map _ (combine (seq 0 (S (length dist))) s)) with (map (gap N (length dist)) (combine (seq 0 (S (length dist))) s)).
  rewrite <- Ls, (combine_seq_nth s 0%nat 0), Ls, map_map.
  split.
  - intros k Hk. apply qmaximum_ge. apply in_map_iff. exists k. split; [rewrite Nat.sub_0_r; reflexivity|]. apply in_seq. lia.
  - assert (NE : map (fun x => gap N (length dist) (x, nth (x - 0) s 0%nat)) (seq 0 (S (length dist))) <> []) by discriminate.
    apply qmaximum_in in NE. apply in_map_iff in NE as (k & E & Hk). apply in_seq in Hk.
    exists k. split; [lia|]. rewrite <- E, Nat.sub_0_r. reflexivity.
Qed.

Lemma ncdf_sorted dist x : neighbour_cdf dist x = Qnat (how_many (fun d => Nat.leb d x) (sort_nat dist)) / Qnat (length dist).
Proof. unfold neighbour_cdf. rewrite (how_many_perm _ _ _ (sort_nat_perm dist)). reflexivity. Qed.

Lemma ks_bounds N dist : (2 <= N)%nat -> dist <> [] -> (forall d, In d dist -> 1 <= d <= N - 1)%nat ->
  exists D, ks_statistic N dist = Ok D /\ 0 <= D <= 1 /\
    (forall x, Qabs (neighbour_cdf dist x - pair_cdf N x) <= D + 1 / Qnat (length dist)) /\
    (exists x, D <= Qabs (neighbour_cdf dist x - pair_cdf N x) + 2 / Qnat N).
Proof.
  intros HN NE Hd. destruct (ks_value N dist HN Hd) as (D & E & Hub & k & Hk & HD).
  exists D. split; [exact E|]. clear E.
  set (m := length dist) in *. assert (Hm : (0 < m)%nat). { unfold m. destruct dist. congruence. cbn. lia. }
  assert (Hmq : 0 < Qnat m) by (apply Qnat_pos; auto).
  set (s := sort_nat dist) in *. assert (Ls : length s = m) by apply sort_nat_length.
  assert (Ss : StronglySorted le s) by apply sort_nat_sorted.
  assert (Rs : forall j, (j < m)%nat -> (1 <= nth j s 0 <= N - 1)%nat).
  { intros j Hj. apply Hd. apply sort_nat_in. apply nth_In. rewrite sort_nat_length. auto. }
  set (s' := s ++ [(N - 1)%nat]) in *.
  assert (Ns : forall j, (j < m)%nat -> nth j s' 0%nat = nth j s 0%nat). { intros j Hj. unfold s'. apply app_nth1. lia. }
  assert (Nm : nth m s' 0%nat = (N - 1)%nat). { unfold s'. rewrite app_nth2 by lia. rewrite Ls, Nat.sub_diag. reflexivity. }
  assert (Rs' : forall j, (j <= m)%nat -> (1 <= nth j s' 0 <= N - 1)%nat).
  { intros j Hj. destruct (Nat.eq_dec j m) as [->|]. rewrite Nm. lia. rewrite Ns by lia. apply Rs. lia. }
  assert (Gp : forall j, (j <= m)%nat -> gap N m (j, nth j s' 0%nat) == Qabs (Qnat j / Qnat m - pair_cdf N (nth j s' 0%nat))).
  { intros j Hj. unfold gap. cbn [fst snd]. rewrite background_at_pair by auto. reflexivity. }
  assert (frac : forall j, (j <= m)%nat -> 0 <= Qnat j / Qnat m <= 1).
  { intros j Hj. split.
    - apply Qle_shift_div_l; auto. rewrite Qmult_0_l. apply Qnat_nonneg.
    - apply Qle_shift_div_r; auto. rewrite Qmult_1_l. apply Qnat_le. lia. }
  assert (F1 : forall j, Qnat (S j) / Qnat m == Qnat j / Qnat m + 1 / Qnat m).
  { intros j. rewrite Qnat_S1. field. lra. }
  assert (Hinv : 0 < 1 / Qnat m). { apply Qlt_shift_div_l; auto. lra. }
  assert (Hjump : 0 < 2 / Qnat N). { apply Qlt_shift_div_l; [apply Qnat_pos; lia|lra]. }
  assert (D0 : 0 <= D). { rewrite HD. unfold gap. apply Qabs_nonneg. }
  repeat split; auto.
  - rewrite HD, Gp by auto. specialize (frac k Hk). pose proof (pair_cdf_bounds N (nth k s' 0%nat)).
    apply Qabs_Qle_condition. lra.
  - intros x. rewrite (ncdf_sorted dist x). fold s m. set (c := how_many (fun d => Nat.leb d x) s).
    assert (Hc : (c <= m)%nat) by (unfold c; rewrite <- Ls; apply how_many_le).
    assert (Hcx : forall j, (j < m)%nat -> (nth j s 0 <= x <-> j < c)%nat). { intros j Hj. apply sorted_count; auto. lia. }
    pose proof (pair_cdf_bounds N x).
    apply Qabs_Qle_condition. split.
    + (* the background is larger *)
      destruct (le_lt_dec (N - 1) x) as [Hx|Hx].
      { assert (c = m). { unfold c. rewrite <- Ls. apply how_many_all. intros y Hy. apply Nat.leb_le.
          unfold s in Hy; rewrite sort_nat_in in Hy. specialize (Hd y Hy). lia. }
        rewrite H0. assert (Qnat m / Qnat m == 1) by (field; lra). lra. }
      specialize (Hub c Hc). rewrite Gp in Hub by auto.
      assert (Hx' : (x <= nth c s' 0)%nat).
      { destruct (Nat.eq_dec c m) as [->|]. rewrite Nm. lia. rewrite Ns by lia. specialize (Hcx c ltac:(lia)). lia. }
      apply (pair_cdf_mono N) in Hx'. apply Qabs_Qle_condition in Hub. lra.
    + (* the foreground is larger *)
      destruct c as [|c'].
      { assert (Qnat 0 / Qnat m == 0). { unfold Qdiv. rewrite Qmult_0_l. reflexivity. } lra. }
      specialize (Hub c' ltac:(lia)). rewrite Gp in Hub by lia.
      assert (Hx' : (nth c' s' 0 <= x)%nat). { rewrite Ns by lia. apply Hcx; lia. }
      apply (pair_cdf_mono N) in Hx'. apply Qabs_Qle_condition in Hub. rewrite F1. lra.
  - destruct (Nat.eq_dec k m) as [->|Hkm].
    { exists 0%nat. rewrite HD, Gp by auto. rewrite Nm, (pair_cdf_top N (N - 1)) by lia.
      assert (Z : Qnat m / Qnat m == 1) by (field; lra). rewrite Z.
      pose proof (Qabs_nonneg (neighbour_cdf dist 0 - pair_cdf N 0)). change (Qabs (1 - 1)) with 0. lra. }
    assert (Hk' : (k < m)%nat) by lia.
    assert (ED : D == Qabs (Qnat k / Qnat m - pair_cdf N (nth k s 0%nat))). { rewrite HD, Gp by auto. rewrite Ns by auto. reflexivity. }
    pose proof (Rs k Hk') as Hv. set (v := nth k s 0%nat) in *.
    destruct (Qlt_le_dec (Qnat k / Qnat m) (pair_cdf N v)) as [C|C].
    + exists (v - 1)%nat. rewrite (ncdf_sorted dist). fold s m. set (c := how_many (fun d => Nat.leb d (v - 1)) s).
      assert (Hc : (c <= k)%nat). { pose proof (sorted_count s (v - 1) k Ss ltac:(lia)) as X. fold c v in X. lia. }
      rewrite Qabs_neg in ED by lra. pose proof (pair_cdf_jump N (v - 1) HN) as J. replace (S (v - 1)) with v in J by lia.
      assert (Qnat c / Qnat m <= Qnat k / Qnat m).
      { apply Qmult_le_compat_r; [apply Qnat_le; auto|apply Qinv_le_0_compat; lra]. }
      pose proof (Qle_Qabs (- (Qnat c / Qnat m - pair_cdf N (v - 1)))) as A. rewrite Qabs_opp in A. lra.
    + exists v. rewrite (ncdf_sorted dist). fold s m. set (c := how_many (fun d => Nat.leb d v) s).
      assert (Hc : (k < c)%nat). { apply (sorted_count s v k Ss); unfold v; lia. }
      rewrite Qabs_pos in ED by lra.
      assert (Qnat k / Qnat m <= Qnat c / Qnat m).
      { apply Qmult_le_compat_r; [apply Qnat_le; lia|apply Qinv_le_0_compat; lra]. }
      pose proof (Qle_Qabs (Qnat c / Qnat m - pair_cdf N v)). lra.
Qed.

(** ** Distances and reorderings *)
Lemma absdiff_maxmin a b : absdiff a b = (Nat.max a b - Nat.min a b)%nat.
Proof. unfold absdiff. lia. Qed.
Lemma nid_rows nb : neighbor_index_distances nb = map (fun i => map (absdiff i) (nth i nb [])) (seq 0 (length nb)).
Proof.
  unfold neighbor_index_distances. rewrite (combine_seq_nth nb [] 0), map_map. apply map_ext. intros i. cbn. rewrite Nat.sub_0_r. reflexivity.
Qed.
Lemma nid_length nb : length (neighbor_index_distances nb) = length nb.
Proof. rewrite nid_rows, map_length, seq_length. reflexivity. Qed.
Lemma nid_concat nb : concat (neighbor_index_distances nb) = distances_of nb.
Proof.
  rewrite nid_rows. unfold distances_of. rewrite <- flat_map_concat_map. apply flat_map_ext. intros i.
  apply map_ext. intros j. apply absdiff_maxmin.
Qed.
Lemma permuted_eq perm nb : permuted_distances perm nb =
  flat_map (fun i => map (fun j => absdiff (nth i perm 0%nat) (nth j perm 0%nat)) (nth i nb [])) (seq 0 (length nb)).
Proof.
  unfold permuted_distances. rewrite (combine_seq_nth nb [] 0). generalize (seq 0 (length nb)) as l.
  induction l as [|i l IH]; cbn; auto. rewrite IH, Nat.sub_0_r. reflexivity.
Qed.
Lemma perm_eq {A} (a b : list A) : a = b -> Permutation a b.
Proof. intros ->. reflexivity. Qed.
Lemma ks_ext N a b : Permutation a b -> ks_statistic N a = ks_statistic N b.
Proof. intros H. unfold ks_statistic. rewrite (sort_nat_ext a b H). reflexivity. Qed.
Lemma map_nth_seq (l : list nat) : map (fun i => nth i l 0%nat) (seq 0 (length l)) = l.
Proof.
  apply nth_ext with (d := 0%nat) (d' := 0%nat).
  - rewrite map_length, seq_length. reflexivity.
  - intros i Hi. rewrite map_length, seq_length in Hi. rewrite (nth_map_gen _ _ _ _ 0%nat) by (rewrite seq_length; auto).
    rewrite seq_nth by auto. reflexivity.
Qed.
Lemma flat_map_ext_in {A B} (f g : A -> list B) l : (forall x, In x l -> f x = g x) -> flat_map f l = flat_map g l.
Proof. induction l; cbn; intros H; auto. rewrite H, IHl; auto. Qed.
Lemma flat_map_map {A B C} (f : B -> list C) (g : A -> B) l : flat_map f (map g l) = flat_map (fun x => f (g x)) l.
Proof. induction l; cbn; congruence. Qed.
Lemma permuted_reordered perm nb nb' : reordering (length nb) perm -> reordered perm nb nb' ->
  Permutation (permuted_distances perm nb) (distances_of nb').
Proof.
  intros Hp [L Hr]. rewrite permuted_eq. unfold distances_of. rewrite L.
  assert (Lp : length perm = length nb). { apply Permutation_length in Hp. rewrite seq_length in Hp. auto. }
  set (g := fun i => map (fun j => (Nat.max i j - Nat.min i j)%nat) (nth i nb' [])).
  transitivity (flat_map g perm); [|apply Permutation_flat_map; exact Hp].
  apply perm_eq. transitivity (flat_map g (map (fun i => nth i perm 0%nat) (seq 0 (length perm)))); [|rewrite map_nth_seq; reflexivity].
  rewrite flat_map_map, Lp. apply flat_map_ext_in. intros i Hi. apply in_seq in Hi. unfold g. rewrite Hr by lia.
  rewrite map_map. apply map_ext. intros j. apply absdiff_maxmin.
Qed.

Lemma distances_range nb : neighbour_table nb -> forall d, In d (distances_of nb) -> (1 <= d <= length nb - 1)%nat.
Proof.
  intros H d Hd. unfold distances_of in Hd. apply in_flat_map in Hd as (i & Hi & Hd). apply in_seq in Hi.
  apply in_map_iff in Hd as (j & <- & Hj). destruct (H i ltac:(lia)) as [_ Hn]. specialize (Hn j Hj). lia.
Qed.
Lemma table_size nb : neighbour_table nb -> nb <> [] -> (2 <= length nb)%nat.
Proof.
  intros H NE. destruct nb as [|r [|r' t]]; cbn [length]; try lia. congruence.
  exfalso. destruct (H 0%nat ltac:(cbn; lia)) as [Hr Hn]. cbn in Hr, Hn. destruct r as [|j r]; [congruence|].
  specialize (Hn j (or_introl eq_refl)). lia.
Qed.
Lemma distances_nonempty nb : neighbour_table nb -> nb <> [] -> distances_of nb <> [].
Proof.
  intros H NE E. destruct nb as [|r t]; [congruence|]. destruct (H 0%nat ltac:(cbn; lia)) as [Hr _]. cbn in Hr.
  unfold distances_of in E. cbn in E. destruct r; [congruence|]. discriminate.
Qed.

Lemma C82_statistic_full nb : neighbour_table nb -> nb <> [] ->
  exists D, ks_statistic (length nb) (concat (neighbor_index_distances nb)) = Ok D /\ 0 <= D <= 1 /\
    (forall x, Qabs (neighbour_cdf (distances_of nb) x - pair_cdf (length nb) x) <= D + 1 / Qnat (length (distances_of nb))) /\
    (exists x, D <= Qabs (neighbour_cdf (distances_of nb) x - pair_cdf (length nb) x) + 2 / Qnat (length nb)).
Proof.
  intros H NE. rewrite nid_concat. apply ks_bounds.
  - apply table_size; auto.
  - apply distances_nonempty; auto.
  - apply distances_range; auto.
Qed.

Lemma nth_perm_lt N perm i : reordering N perm -> (i < N)%nat -> (nth i perm 0 < N)%nat.
Proof.
  intros H Hi. assert (L : length perm = N). { apply Permutation_length in H. rewrite seq_length in H. auto. }
  assert (In (nth i perm 0%nat) (seq 0 N)). { eapply Permutation_in; [exact H|]. apply nth_In. lia. }
  apply in_seq in H0. lia.
Qed.
Lemma permuted_range nb perm : neighbour_table nb -> reordering (length nb) perm ->
  forall d, In d (permuted_distances perm nb) -> (1 <= d <= length nb - 1)%nat.
Proof.
  intros H Hp d Hd. rewrite permuted_eq in Hd. apply in_flat_map in Hd as (i & Hi & Hd). apply in_seq in Hi.
  apply in_map_iff in Hd as (j & <- & Hj). destruct (H i ltac:(lia)) as [_ Hn]. destruct (Hn j Hj) as [Hj1 Hj2].
  pose proof (nth_perm_lt _ _ i Hp ltac:(lia)). pose proof (nth_perm_lt _ _ j Hp Hj1).
  assert (nth i perm 0 <> nth j perm 0)%nat.
  { intros E. assert (NDp : NoDup perm). { eapply Permutation_NoDup; [symmetry; exact Hp|]. apply seq_NoDup. }
    assert (L : length perm = length nb). { apply Permutation_length in Hp. rewrite seq_length in Hp. auto. }
    rewrite NoDup_nth in NDp. apply NDp in E; lia. }
  unfold absdiff. lia.
Qed.
Lemma permuted_length nb perm : length (permuted_distances perm nb) = length (distances_of nb).
Proof.
  rewrite permuted_eq. unfold distances_of. generalize (seq 0 (length nb)) as l.
  induction l as [|i l IH]; cbn; auto. rewrite !app_length, !map_length, IH. reflexivity.
Qed.

Lemma perm_stats_ok nb perms : neighbour_table nb -> nb <> [] -> Forall (reordering (length nb)) perms ->
  exists stats, rmap (fun p => ks_statistic (length nb) (permuted_distances p nb)) perms = Ok stats /\
    Forall2 (fun p s => ks_statistic (length nb) (permuted_distances p nb) = Ok s) perms stats.
Proof.
  intros H NE Hp. induction Hp as [|p t Hp1 Hp2 IH]. { exists []. cbn. auto. }
  destruct IH as (st & E & F).
  destruct (ks_bounds (length nb) (permuted_distances p nb)) as (D & ED & _).
  - apply table_size; auto.
  - intros X. apply (distances_nonempty nb H NE). apply length_zero_iff_nil. rewrite <- (permuted_length nb p), X. reflexivity.
  - apply permuted_range; auto.
  - exists (D :: st). cbn [rmap]. rewrite ED. cbn [rbind]. rewrite E. cbn. auto.
Qed.

Lemma C82_permutations_full kde perms thr nb : neighbour_table nb -> nb <> [] -> Forall (reordering (length nb)) perms ->
  exists mask scores stats observed,
    find_issues kde perms thr nb = Ok (mask, scores, kde stats observed) /\
    ks_statistic (length nb) (distances_of nb) = Ok observed /\
    Forall2 (fun p s => forall nb', reordered p nb nb' -> ks_statistic (length nb) (distances_of nb') = Ok s) perms stats.
Proof.
  intros H NE Hp. destruct (C82_statistic_full nb H NE) as (D & ED & _).
  destruct (perm_stats_ok nb perms H NE Hp) as (stats & ES & F).
  unfold find_issues. rewrite ED. cbn [rbind]. unfold permutation_test. rewrite ES. cbn [rbind].
  do 4 eexists. split; [reflexivity|]. rewrite nid_concat in ED. split; [exact ED|].
  clear -Hp F. induction F as [|p s ps ss E F IH]; constructor.
  - intros nb' Hr. inversion Hp; subst. rewrite <- E. apply ks_ext. symmetry. apply permuted_reordered; auto.
  - inversion Hp; auto.
Qed.

Lemma rev_seq_nth N i : (i < N)%nat -> nth i (rev (seq 0 N)) 0%nat = (N - 1 - i)%nat.
Proof. intros H. rewrite rev_nth by (rewrite seq_length; auto). rewrite seq_length, seq_nth by lia. lia. Qed.
Lemma mirror_length nb : length (mirror nb) = length nb.
Proof. unfold mirror. rewrite rev_length, map_length. reflexivity. Qed.
Lemma mirror_nth nb i : (i < length nb)%nat -> nth (length nb - 1 - i) (mirror nb) [] = map (fun j => (length nb - 1 - j)%nat) (nth i nb []).
Proof.
  intros H. unfold mirror. rewrite rev_nth by (rewrite map_length; lia). rewrite map_length.
  replace (length nb - S (length nb - 1 - i))%nat with i by lia. rewrite (nth_map_gen _ _ _ _ []) by auto. reflexivity.
Qed.
Lemma mirror_reordered nb : neighbour_table nb -> reordered (rev (seq 0 (length nb))) nb (mirror nb).
Proof.
  intros H. split. { apply mirror_length. }
  intros i Hi. rewrite rev_seq_nth, mirror_nth by auto. apply map_ext_in. intros j Hj.
  destruct (H i Hi) as [_ Hn]. symmetry. apply rev_seq_nth. apply Hn. auto.
Qed.
Lemma C84_statistic_full nb : neighbour_table nb ->
  ks_statistic (length (mirror nb)) (concat (neighbor_index_distances (mirror nb))) =
  ks_statistic (length nb) (concat (neighbor_index_distances nb)).
Proof.
  intros H. rewrite mirror_length, !nid_concat. apply ks_ext.
  transitivity (permuted_distances (rev (seq 0 (length nb))) nb); [symmetry; apply permuted_reordered|].
  3: apply perm_eq; rewrite permuted_eq; unfold distances_of; apply flat_map_ext_in; intros i Hi; apply in_seq in Hi;
    apply map_ext_in; intros j Hj; destruct (H i ltac:(lia)) as [_ Hn]; specialize (Hn j Hj);
    rewrite !rev_seq_nth by lia; unfold absdiff; lia.
  - unfold reordering. apply Permutation_sym, Permutation_rev.
  - apply mirror_reordered. auto.
Qed.

(** ** The area statistic *)
Lemma others_count N i x : (i < N)%nat -> how_many (within x i) (others N i) = (Nat.min i x + Nat.min (N - 1 - i) x)%nat.
Proof.
  intros H. unfold others, how_many.
  replace (seq 0 N) with (seq 0 i ++ [i] ++ seq (S i) (N - 1 - i)).
  2:{ change ([i] ++ seq (S i) (N - 1 - i)) with (seq i (S (N - 1 - i))). rewrite <- seq_app. f_equal. lia. }
  rewrite !filter_app. cbn [filter]. rewrite Nat.eqb_refl. cbn [negb app].
  rewrite app_length. f_equal.
  - replace (filter (within x i) (filter (fun j => negb (Nat.eqb j i)) (seq 0 i)))
      with (filter (fun j => Nat.leb (i - x) j) (seq 0 i)).
    + pose proof (count_ge_seq (i - x) 0 i) as C. unfold how_many in C. rewrite C. lia.
    + assert (G : forall l, (forall j, In j l -> (j < i)%nat) -> filter (fun j => Nat.leb (i - x) j) l = filter (within x i) (filter (fun j => negb (Nat.eqb j i)) l)).
      { induction l as [|j l IH]; cbn; intros Hl; auto. specialize (IH (fun y h => Hl y (or_intror h))).
        pose proof (Hl j (or_introl eq_refl)). destruct (Nat.eqb_spec j i); [lia|]. cbn. rewrite IH. unfold within.
        destruct (Nat.leb_spec (i - x) j), (Nat.leb_spec i (j + x)), (Nat.leb_spec j (i + x)); cbn; auto; lia. }
      apply G. intros j Hj. apply in_seq in Hj. lia.
  - cbn [filter app]. replace (filter (within x i) (filter (fun j => negb (Nat.eqb j i)) (seq (S i) (N - 1 - i))))
      with (filter (fun j => Nat.leb j (i + x)) (seq (S i) (N - 1 - i))).
    + pose proof (count_le_seq (i + x) (S i) (N - 1 - i)) as C. unfold how_many in C. rewrite C. lia.
    + assert (G : forall l, (forall j, In j l -> (i < j)%nat) -> filter (fun j => Nat.leb j (i + x)) l = filter (within x i) (filter (fun j => negb (Nat.eqb j i)) l)).
      { induction l as [|j l IH]; cbn; intros Hl; auto. specialize (IH (fun y h => Hl y (or_intror h))).
        pose proof (Hl j (or_introl eq_refl)). destruct (Nat.eqb_spec j i); [lia|]. cbn. rewrite IH. unfold within.
        destruct (Nat.leb_spec j (i + x)), (Nat.leb_spec i (j + x)); cbn; auto; lia. }
      apply G. intros j Hj. apply in_seq in Hj. lia.
Qed.
Lemma double_distance_min N i : (i < N)%nat -> double_distance N i = Nat.min i (N - 1 - i).
Proof.
  intros H. unfold double_distance. pose proof (Nat.div_mod (N - 1) 2 ltac:(lia)). pose proof (Nat.mod_upper_bound (N - 1) 2 ltac:(lia)).
  destruct (Nat.ltb_spec ((N - 1) / 2) i); lia.
Qed.
Lemma example_cdf_value N i x : (2 <= N)%nat -> (i < N)%nat -> let d := double_distance N i in
  example_cdf N i x == (Qnat (Nat.min d x) + Qnat (Nat.min (N - 1 - d) x)) / Qnat (N - 1).
Proof.
  intros HN Hi d. unfold example_cdf. rewrite others_count by auto. rewrite <- Qnat_add.
  assert (E : (Nat.min i x + Nat.min (N - 1 - i) x = Nat.min d x + Nat.min (N - 1 - d) x)%nat).
  { unfold d. rewrite double_distance_min by auto. lia. }
  rewrite E. reflexivity.
Qed.
Lemma background_area_spec N i x : (2 <= N)%nat -> (i < N)%nat -> background_area N (double_distance N i) x == example_area N i x.
Proof.
  intros HN Hi. assert (Hd : (2 * double_distance N i <= N - 1)%nat) by (rewrite double_distance_min by auto; lia).
  assert (Hq : 0 < Qnat (N - 1)) by (apply Qnat_pos; lia).
  assert (EN : Qnat N == Qnat (N - 1) + 1). { rewrite <- Qnat_S1. replace (S (N - 1)) with N by lia. reflexivity. }
  induction x as [|y IH].
  - unfold background_area. destruct (Nat.leb_spec 0 (double_distance N i)); [|lia]. cbn [example_area].
    change (Qnat 0) with 0. field. lra.
  - cbn [example_area]. rewrite <- IH, !example_cdf_value by auto. clear IH.
    set (d := double_distance N i) in *. unfold background_area.
    destruct (Nat.leb_spec (S y) d).
    { destruct (Nat.leb_spec y d); [|lia]. rewrite !Nat.min_r by lia. rewrite Qnat_S1. field. lra. }
    destruct (Nat.leb_spec (S y) (N - d - 1)).
    { destruct (Nat.leb_spec y d).
      - replace d with y in * by lia. rewrite (Nat.min_l y (S y)), (Nat.min_r (N - 1 - y) y), (Nat.min_r (N - 1 - y) (S y)), Nat.min_id by lia.
        rewrite Qnat_S1. field. lra.
      - destruct (Nat.leb_spec y (N - d - 1)); [|lia]. rewrite (Nat.min_l d), (Nat.min_l d), (Nat.min_r (N - 1 - d)), (Nat.min_r (N - 1 - d)) by lia.
        rewrite Qnat_S1. field. lra. }
    assert (Ec : Qnat (N - 1 - d) == Qnat (N - 1) - Qnat d) by (apply Qnat_sub; lia).
    destruct (Nat.leb_spec y d).
    { (* y = d = N - 1 - d *)
      assert (Ey : y = (N - 1 - d)%nat) by lia. assert (Eyd : d = y) by lia.
      rewrite (Nat.min_l d (S y)), (Nat.min_l (N - 1 - d) (S y)), (Nat.min_r d y), (Nat.min_r (N - 1 - d) y) by lia.
      rewrite <- Ey in *. assert (E2 : Qnat (N - 1) == 2 * Qnat d). { rewrite Eyd in *. lra. }
      rewrite Qnat_S1, EN, Ec, E2. rewrite Eyd in *. field. lra. }
    destruct (Nat.leb_spec y (N - d - 1)).
    { assert (Ey : y = (N - 1 - d)%nat) by lia.
      rewrite (Nat.min_l d (S y)), (Nat.min_l (N - 1 - d) (S y)), (Nat.min_l d y), (Nat.min_r (N - 1 - d) y) by lia.
      rewrite Qnat_S1, EN, Ec. rewrite <- Ey in Ec. rewrite Ec. field. lra. }
    rewrite (Nat.min_l d), (Nat.min_l d), (Nat.min_l (N - 1 - d)), (Nat.min_l (N - 1 - d)) by lia.
    rewrite Qnat_S1, EN, Ec. field. lra.
Qed.
Lemma example_cdf_bounds N i x : (2 <= N)%nat -> (i < N)%nat -> 0 <= example_cdf N i x <= 1.
Proof.
  intros HN Hi. unfold example_cdf. rewrite others_count by auto. assert (Hq : 0 < Qnat (N - 1)) by (apply Qnat_pos; lia). split.
  - apply Qle_shift_div_l; auto. rewrite Qmult_0_l. apply Qnat_nonneg.
  - apply Qle_shift_div_r; auto. rewrite Qmult_1_l. apply Qnat_le. lia.
Qed.
Lemma example_area_between N i a b : (2 <= N)%nat -> (i < N)%nat -> (a <= b)%nat ->
  0 <= example_area N i b - example_area N i a <= Qnat b - Qnat a.
Proof.
  intros HN Hi. induction 1. lra. cbn [example_area]. rewrite Qnat_S1.
  pose proof (example_cdf_bounds N i m HN Hi). pose proof (example_cdf_bounds N i (S m) HN Hi).
  assert (E : (example_cdf N i m + example_cdf N i (S m)) / 2 == (1 # 2) * (example_cdf N i m + example_cdf N i (S m))) by field.
  rewrite E. lra.
Qed.

(** the i-th entry of the sorted distances followed by N - 1, and the one before (0 before the first) *)
Lemma area_diffs_spec N i K k prev s : (2 <= N)%nat -> (i < N)%nat -> (k = 0%nat -> prev = 0%nat) ->
  forall n, (n < length s)%nat ->
  nth n (area_diffs N (double_distance N i) K k prev s) 0 ==
  Qabs (Qnat (k + n) / Qnat K * (Qnat (nth (S n) (prev :: s) 0%nat) - Qnat (nth n (prev :: s) 0%nat)) -
        (example_area N i (nth (S n) (prev :: s) 0%nat) - example_area N i (nth n (prev :: s) 0%nat))).
Proof.
  intros HN Hi. revert k prev. induction s as [|x t IH]; intros k prev Hk n Hn; cbn [length] in Hn. lia.
  destruct n as [|n]; cbn [area_diffs nth].
  - rewrite Nat.add_0_r, background_area_spec by auto.
    assert (E : match k with O => 0 | S _ => background_area N (double_distance N i) prev end == example_area N i prev).
    { destruct k. rewrite Hk by auto. reflexivity. apply background_area_spec; auto. }
    rewrite E. reflexivity.
  - rewrite IH by (try lia; auto). replace (S k + n)%nat with (k + S n)%nat by lia. reflexivity.
Qed.
Lemma area_diffs_length N d K k prev s : length (area_diffs N d K k prev s) = length s.
Proof. revert k prev. induction s; intros; cbn [area_diffs length]; auto. Qed.
Lemma qsum_ext_nth a b : length a = length b -> (forall n, (n < length a)%nat -> nth n a 0 == nth n b 0) -> qsum a == qsum b.
Proof.
  revert b. induction a as [|x a IH]; intros [|y b] L H; cbn in L; try lia. reflexivity.
  unfold qsum in *. cbn. rewrite (IH b) by (try lia; intros n Hn; apply (H (S n)); cbn; lia).
  rewrite (H 0%nat) by (cbn; lia). reflexivity.
Qed.

Lemma area_statistic_spec N i dist s : (2 <= N)%nat -> (i < N)%nat -> Permutation s dist -> StronglySorted le s ->
  area_statistic N i dist ==
  qsum (map (fun k => let here := nth k (s ++ [(N - 1)%nat]) 0%nat in
                      let before := nth k (0%nat :: s) 0%nat in
                      Qabs (Qnat k / Qnat (length dist) * (Qnat here - Qnat before) - (example_area N i here - example_area N i before)))
            (seq 0 (S (length dist)))).
Proof.
  intros HN Hi Hp Hs. assert (Ls : length s = length dist) by (apply Permutation_length; auto).
  unfold area_statistic. assert (E : sort_nat dist = s). { rewrite <- (sort_nat_ext _ _ Hp). apply sort_nat_id; auto. }
  rewrite E. apply qsum_ext_nth.
  - rewrite area_diffs_length, map_length, seq_length, app_length. cbn. lia.
  - intros n Hn. rewrite area_diffs_length in Hn. rewrite area_diffs_spec by auto.
    rewrite (nth_map_gen _ _ _ _ 0%nat) by (rewrite seq_length; rewrite app_length in Hn; cbn in Hn; lia).
    rewrite seq_nth by (rewrite app_length in Hn; cbn in Hn; lia). cbv zeta. cbn [Nat.add].
    assert (EB : nth n (0%nat :: s ++ [(N - 1)%nat]) 0%nat = nth n (0%nat :: s) 0%nat).
    { rewrite app_length in Hn. cbn in Hn. change (0%nat :: s ++ [(N - 1)%nat]) with ((0%nat :: s) ++ [(N - 1)%nat]).
      apply app_nth1. cbn. lia. }
    rewrite EB. cbn [nth]. reflexivity.
Qed.

Lemma area_sum_bound N i K k prev s : (2 <= N)%nat -> (i < N)%nat -> (0 < K)%nat -> (k = 0%nat -> prev = 0%nat) ->
  StronglySorted le (prev :: s) -> (k + length s <= S K)%nat ->
  0 <= qsum (area_diffs N (double_distance N i) K k prev s) <= Qnat (last s prev) - Qnat prev.
Proof.
  intros HN Hi HK. revert k prev. induction s as [|x t IH]; intros k prev Hk Hs Hl.
  { cbn. lra. }
  cbn [area_diffs]. unfold qsum. cbn [fold_right]. fold (qsum (area_diffs N (double_distance N i) K (S k) x t)).
  inversion Hs as [|? ? Hs' F]; subst. inversion F as [|? ? Hx F']; subst. cbn [length] in Hl.
  specialize (IH (S k) x ltac:(discriminate) Hs' ltac:(lia)).
  assert (EL : last (x :: t) prev = last t x).
  { clear. revert x. induction t as [|y t IH]; intros x; [reflexivity|]. cbn [last] in *. destruct t; auto. }
  rewrite EL.
  rewrite background_area_spec by auto.
  assert (E : match k with O => 0 | S _ => background_area N (double_distance N i) prev end == example_area N i prev).
  { destruct k. rewrite Hk by auto. reflexivity. apply background_area_spec; auto. }
  assert (Q1 : 0 <= Qnat k / Qnat K <= 1).
  { pose proof (Qnat_pos K HK). split.
    - apply Qle_shift_div_l; auto. rewrite Qmult_0_l. apply Qnat_nonneg.
    - apply Qle_shift_div_r; auto. rewrite Qmult_1_l. apply Qnat_le. lia. }
  pose proof (example_area_between N i prev x HN Hi Hx) as A. pose proof (Qnat_le _ _ Hx) as X.
  set (ar := Qabs _). assert (0 <= ar <= Qnat x - Qnat prev).
  { split. apply Qabs_nonneg. unfold ar. rewrite E. apply Qabs_Qle_condition. nra. }
  lra.
Qed.
Lemma area_statistic_bound N i dist : (2 <= N)%nat -> (i < N)%nat -> dist <> [] -> (forall d, In d dist -> d <= N - 1)%nat ->
  0 <= area_statistic N i dist <= Qnat (N - 1).
Proof.
  intros HN Hi NE Hd. unfold area_statistic.
  pose proof (area_sum_bound N i (length dist) 0 0 (sort_nat dist ++ [(N - 1)%nat]) HN Hi) as B.
  assert (EL : last (sort_nat dist ++ [(N - 1)%nat]) 0%nat = (N - 1)%nat) by apply last_last. rewrite EL in B.
  change (Qnat 0) with 0 in B. assert (0 <= qsum (area_diffs N (double_distance N i) (length dist) 0 0 (sort_nat dist ++ [(N - 1)%nat])) <= Qnat (N - 1) - 0); [|lra].
  apply B; auto.
  - destruct dist; [congruence|cbn; lia].
  - constructor; [|apply Forall_forall; intros; lia].
    assert (G : forall l, StronglySorted le l -> (forall d, In d l -> d <= N - 1)%nat -> StronglySorted le (l ++ [(N - 1)%nat])).
    { induction 1 as [|y l Hl IH F]; cbn [app]; intros Hy; constructor.
      - constructor.
      - constructor.
      - apply IH. intros d h. apply Hy. right. auto.
      - apply Forall_app. split; auto. constructor; auto. apply Hy. left. auto. }
    apply G. apply sort_nat_sorted. intros d Hx. apply Hd. rewrite sort_nat_in in Hx. auto.
  - rewrite app_length, sort_nat_length. cbn. lia.
Qed.

(** ** Scores and flags *)
Lemma tanh_alt x : tanh x = (1 - 2 / (exp (2 * x) + 1))%R.
Proof.
  unfold tanh, sinh, cosh. replace (2 * x)%R with (x + x)%R by Lra.lra. rewrite exp_plus, exp_Ropp.
  pose proof (exp_pos x). assert (0 < exp x * exp x)%R by (apply Rmult_lt_0_compat; auto).
  assert (0 < / exp x)%R by (apply Rinv_0_lt_compat; auto).
  field. repeat split; Lra.lra.
Qed.
Lemma tanh_incr x y : (x < y)%R -> (tanh x < tanh y)%R.
Proof.
  intros H. rewrite !tanh_alt. assert (exp (2 * x) < exp (2 * y))%R by (apply exp_increasing; Lra.lra).
  pose proof (exp_pos (2 * x)). unfold Rdiv.
  assert (/ (exp (2 * y) + 1) < / (exp (2 * x) + 1))%R. { apply Rinv_lt_contravar; [apply Rmult_lt_0_compat|]; Lra.lra. } Lra.lra.
Qed.
Lemma tanh_odd x : tanh (- x) = (- tanh x)%R.
Proof. unfold tanh, sinh, cosh. rewrite Ropp_involutive. pose proof (exp_pos x). pose proof (exp_pos (- x)). field. Lra.lra. Qed.
Lemma tanh_0' : tanh 0 = 0%R.
Proof. rewrite tanh_alt, Rmult_0_r, exp_0. Lra.lra. Qed.
Lemma normalizer_max N i : normalizer N i = Nat.max i (N - i).
Proof. unfold normalizer. destruct (Nat.ltb_spec (N - i) i); lia. Qed.
Lemma score_of_eq N i dist : score_of N i dist = (1 - tanh (Q2R (area_statistic N i dist / Qnat (Nat.max i (N - i)))))%R.
Proof. unfold score_of. rewrite normalizer_max. replace (-1 * Q2R (area_statistic N i dist / Qnat (Nat.max i (N - i))))%R with
  (- Q2R (area_statistic N i dist / Qnat (Nat.max i (N - i))))%R by Lra.lra. rewrite tanh_odd. Lra.lra. Qed.
Lemma score_bounds N i dist : (2 <= N)%nat -> (i < N)%nat -> dist <> [] -> (forall d, In d dist -> d <= N - 1)%nat ->
  (1 - tanh 2 < score_of N i dist <= 1)%R.
Proof.
  intros HN Hi NE Hd. rewrite score_of_eq. pose proof (area_statistic_bound N i dist HN Hi NE Hd) as B.
  set (a := area_statistic N i dist) in *. set (n := Nat.max i (N - i)).
  assert (Hn : (N <= 2 * n)%nat) by (unfold n; lia).
  assert (Hnq : 0 < Qnat n) by (apply Qnat_pos; lia).
  assert (B1 : 0 <= a / Qnat n). { apply Qle_shift_div_l; auto. lra. }
  assert (B2 : a / Qnat n < 2).
  { apply Qlt_shift_div_r; auto. assert (Qnat (N - 1) < 2 * Qnat n); [|lra].
    change 2 with (Qnat 2). rewrite <- Qnat_mult. unfold Qnat, Qlt. cbn [Qnum Qden inject_Z]. lia. }
  apply Qle_Rle in B1. apply Qlt_Rlt in B2. set (q := Q2R (a / Qnat n)) in *.
  replace (Q2R 0) with 0%R in B1 by (unfold Q2R; cbn; Lra.lra). replace (Q2R 2) with 2%R in B2 by (unfold Q2R; cbn; Lra.lra).
  pose proof (tanh_incr q 2 B2). split; [Lra.lra|].
  destruct (Rle_lt_or_eq_dec _ _ B1) as [L|E].
  - apply tanh_incr in L. rewrite tanh_0' in L. Lra.lra.
  - rewrite <- E, tanh_0'. Lra.lra.
Qed.

Lemma score_dataset_length nb : length (score_dataset nb) = length nb.
Proof. unfold score_dataset. rewrite map_length, combine_length, seq_length, nid_length. lia. Qed.
Lemma score_dataset_nth nb i : (i < length nb)%nat ->
  nth i (score_dataset nb) 0%R = score_of (length nb) i (map (absdiff i) (nth i nb [])).
Proof.
  intros H. unfold score_dataset. pose proof (combine_seq_nth (neighbor_index_distances nb) [] 0) as C.
  rewrite nid_length in C. rewrite C, map_map. rewrite (nth_map_gen _ _ _ _ 0%nat) by (rewrite seq_length; auto).
  rewrite seq_nth by auto. cbn [fst snd Nat.add]. rewrite Nat.sub_0_r, nid_rows.
  rewrite (nth_map_gen _ _ _ _ 0%nat) by (rewrite seq_length; auto). rewrite seq_nth by auto. reflexivity.
Qed.
Lemma score_dataset_bounds nb i : neighbour_table nb -> (i < length nb)%nat ->
  (1 - tanh 2 < nth i (score_dataset nb) 0 <= 1)%R.
Proof.
  intros H Hi. rewrite score_dataset_nth by auto. assert (NE : nb <> []) by (intros ->; cbn in Hi; lia).
  destruct (H i Hi) as [Hr Hn]. apply score_bounds; auto.
  - apply table_size; auto.
  - intros E. apply map_eq_nil in E. auto.
  - intros d Hd. apply in_map_iff in Hd as (j & <- & Hj). specialize (Hn j Hj). unfold absdiff. lia.
Qed.

Lemma rargmin_from_spec l best bv i : (best < i)%nat ->
  exists r, rargmin_from best bv i l = r /\
   ((r = best /\ forall k, (k < length l)%nat -> (bv <= nth k l 0)%R) \/
    (exists k, r = (i + k)%nat /\ (k < length l)%nat /\ (nth k l 0 < bv)%R /\
      (forall k', (k' < length l)%nat -> (nth k l 0 <= nth k' l 0)%R) /\ (forall k', (k' < k)%nat -> (nth k l 0 < nth k' l 0)%R))).
Proof.
  revert best bv i. induction l as [|x t IH]; intros best bv i Hb; cbn [rargmin_from].
  { eexists. split; [reflexivity|]. left. split; auto. intros k Hk. cbn in Hk. lia. }
  destruct (Rlt_dec x bv) as [L|L].
  - destruct (IH i x (S i) ltac:(lia)) as (r & E & [[Hr Ha]|(k & Hr & Hk & Hv & Hm & Hf)]); exists r; split; auto; right.
    + exists 0%nat. cbn [length nth]. repeat split; try lia; auto.
      intros [|k'] Hk'; [Lra.lra|]. apply Ha. lia.
    + exists (S k). cbn [length nth]. repeat split; try lia; try Lra.lra.
      * intros [|k'] Hk'; [Lra.lra|]. apply Hm. lia.
      * intros [|k'] Hk'; [Lra.lra|]. apply Hf. lia.
  - destruct (IH best bv (S i) ltac:(lia)) as (r & E & [[Hr Ha]|(k & Hr & Hk & Hv & Hm & Hf)]); exists r; split; auto.
    + left. split; auto. intros [|k'] Hk'; cbn [nth]; [Lra.lra|]. apply Ha. cbn in Hk'. lia.
    + right. exists (S k). cbn [length nth]. repeat split; try lia; try Lra.lra.
      * intros [|k'] Hk'; [Lra.lra|]. apply Hm. lia.
      * intros [|k'] Hk'; [Lra.lra|]. apply Hf. lia.
Qed.
Lemma rargmin_spec l : l <> [] -> (rargmin l < length l)%nat /\
  (forall j, (j < length l)%nat -> (nth (rargmin l) l 0 <= nth j l 0)%R) /\
  (forall j, (j < rargmin l)%nat -> (nth (rargmin l) l 0 < nth j l 0)%R).
Proof.
  destruct l as [|x t]; [congruence|]. intros _. cbn [rargmin].
  destruct (rargmin_from_spec t 0 x 1 ltac:(lia)) as (r & -> & [[-> Ha]|(k & -> & Hk & Hv & Hm & Hf)]); cbn [length].
  - split; [lia|]. split; [|intros; lia]. intros [|j] Hj; cbn [nth]; [Lra.lra|]. apply Ha. lia.
  - cbn [Nat.add nth]. split; [lia|]. split.
    + intros [|j] Hj; [Lra.lra|]. apply Hm. lia.
    + intros [|j] Hj; [Lra.lra|]. apply Hf. lia.
Qed.
Lemma nth_upd_false n (nb : list (list nat)) r i : (i < length nb)%nat -> length nb = n ->
  nth i (upd (map (fun _ => false) nb) r true) false = Nat.eqb i r.
Proof.
  intros Hi _. revert r i Hi. induction nb as [|a t IH]; cbn [length map upd]; intros r i Hi. lia.
  destruct r as [|r].
  - destruct i as [|i]; cbn [nth]; auto. cbn. clear. revert i. induction t; intros [|i]; cbn; auto.
  - destruct i as [|i]; cbn [nth]; auto. rewrite IH by lia. reflexivity.
Qed.
Lemma upd_length' {A} (l : list A) r v : length (upd l r v) = length l.
Proof. revert r. induction l; intros [|r]; cbn; auto. Qed.
Lemma nth_none_false (nb : list (list nat)) i : nth i (map (fun _ => false) nb) false = false.
Proof. revert i. induction nb; intros [|i]; cbn; auto. Qed.

Lemma C83_flags_full kde perms thr nb mask scores p : neighbour_table nb -> nb <> [] ->
  find_issues kde perms thr nb = Ok (mask, scores, p) ->
  length mask = length nb /\ length scores = length nb /\
  (forall i, (i < length nb)%nat ->
     (nth i mask false = true <->
      p < thr /\ (forall j, (j < length nb)%nat -> (nth i scores 0 <= nth j scores 0)%R) /\
      (forall j, (j < i)%nat -> (nth i scores 0 < nth j scores 0)%R))) /\
  (forall i, (i < length nb)%nat -> (1 - tanh 2 < nth i scores 0 <= 1)%R).
Proof.
  intros H NE E. unfold find_issues in E.
  destruct (ks_statistic _ _) as [D|]; [|discriminate]. cbn [rbind] in E.
  destruct (permutation_test _ _ _ _) as [p'|]; [|discriminate]. cbn [rbind] in E. cbv zeta in E.
  assert (EM : mask = if Qltb p' thr then upd (map (fun _ => false) nb) (rargmin (score_dataset nb)) true else map (fun _ => false) nb) by congruence.
  assert (ES : scores = score_dataset nb) by congruence. assert (EP : p' = p) by congruence. subst p'. clear E.
  assert (NS : score_dataset nb <> []). { intros Z. apply (f_equal (@length R)) in Z. rewrite score_dataset_length in Z. destruct nb; cbn in Z; congruence. }
  destruct (rargmin_spec _ NS) as (R1 & R2 & R3). rewrite score_dataset_length in *.
  subst scores. split.
  { subst mask. destruct (Qltb p thr); [rewrite upd_length'|]; apply map_length. }
  split. { apply score_dataset_length. }
  split; [|intros; apply score_dataset_bounds; auto].
  intros i Hi. subst mask. destruct (Qltb p thr) eqn:Ep.
  - rewrite nth_upd_false with (n := length nb) by auto. rewrite Nat.eqb_eq. apply Qltb_iff in Ep. split.
    + intros ->. auto.
    + intros (_ & M1 & M2). destruct (Nat.lt_trichotomy i (rargmin (score_dataset nb))) as [L|[L|L]]; auto.
      * specialize (R3 i L). specialize (M1 _ R1). Lra.lra.
      * specialize (M2 _ L). specialize (R2 i Hi). Lra.lra.
  - rewrite nth_none_false. split; [discriminate|]. intros (Hp & _). apply Qltb_iff in Hp. congruence.
Qed.

Lemma C83_scores_full kde perms thr nb mask scores p i s : neighbour_table nb ->
  find_issues kde perms thr nb = Ok (mask, scores, p) -> (i < length nb)%nat ->
  Permutation s (map (fun j => Nat.max i j - Nat.min i j)%nat (nth i nb [])) -> StronglySorted le s ->
  exists S : Q,
    S == qsum (map (fun k => let here := nth k (s ++ [(length nb - 1)%nat]) 0%nat in
                              let before := nth k (0%nat :: s) 0%nat in
                              Qabs (Qnat k / Qnat (length s) * (Qnat here - Qnat before) -
                                    (example_area (length nb) i here - example_area (length nb) i before)))
                   (seq 0 (length s + 1))) /\
    0 <= S <= Qnat (length nb - 1) /\
    nth i scores 0%R = (1 - tanh (Q2R S / INR (Nat.max i (length nb - i))))%R.
Proof.
  intros H E Hi Hp Hs. assert (NE : nb <> []) by (intros ->; cbn in Hi; lia). pose proof (table_size nb H NE) as HN.
  assert (ES : scores = score_dataset nb).
  { unfold find_issues in E. destruct (ks_statistic _ _) as [D|]; [|discriminate]. cbn [rbind] in E.
    destruct (permutation_test _ _ _ _) as [p'|]; [|discriminate]. cbn [rbind] in E. cbv zeta in E. congruence. }
  subst scores. set (dist := map (absdiff i) (nth i nb [])).
  assert (Ed : map (fun j => Nat.max i j - Nat.min i j)%nat (nth i nb []) = dist).
  { apply map_ext. intros j. symmetry. apply absdiff_maxmin. }
  rewrite Ed in Hp. assert (Ls : length s = length dist) by (apply Permutation_length; auto).
  exists (area_statistic (length nb) i dist). split; [|split].
  - rewrite (area_statistic_spec _ _ _ s) by auto. rewrite Ls, Nat.add_1_r. reflexivity.
  - destruct (H i Hi) as [Hr Hn]. apply area_statistic_bound; auto.
    + intros Z. apply map_eq_nil in Z. auto.
    + intros d Hd. apply in_map_iff in Hd as (j & <- & Hj). specialize (Hn j Hj). unfold absdiff. lia.
  - rewrite score_dataset_nth by auto. fold dist. rewrite score_of_eq. rewrite Q2R_div.
    2:{ pose proof (Qnat_pos (Nat.max i (length nb - i)) ltac:(lia)). lra. }
    replace (Q2R (Qnat (Nat.max i (length nb - i)))) with (INR (Nat.max i (length nb - i))). reflexivity.
    unfold Qnat, Q2R. cbn. rewrite INR_IZR_INZ. Lra.lra.
Qed.

Lemma double_distance_mirror N i : (i < N)%nat -> double_distance N (N - 1 - i) = double_distance N i.
Proof. intros H. rewrite !double_distance_min by lia. lia. Qed.
Lemma C84_scores_full nb i : neighbour_table nb -> (i < length nb)%nat ->
  exists S : Q, 0 <= S /\
    nth i (score_dataset nb) 0%R = (1 - tanh (Q2R (S / Qnat (Nat.max i (length nb - i)))))%R /\
    nth (length nb - 1 - i) (score_dataset (mirror nb)) 0%R =
      (1 - tanh (Q2R (S / Qnat (Nat.max (length nb - 1 - i) (i + 1)))))%R.
Proof.
  intros H Hi. assert (NE : nb <> []) by (intros ->; cbn in Hi; lia). pose proof (table_size nb H NE) as HN.
  set (dist := map (absdiff i) (nth i nb [])). exists (area_statistic (length nb) i dist). split; [|split].
  - destruct (H i Hi) as [Hr Hn]. apply area_statistic_bound; auto.
    + intros Z. apply map_eq_nil in Z. auto.
    + intros d Hd. apply in_map_iff in Hd as (j & <- & Hj). specialize (Hn j Hj). unfold absdiff. lia.
  - rewrite score_dataset_nth by auto. apply score_of_eq.
  - rewrite score_dataset_nth by (rewrite mirror_length; lia). rewrite mirror_length, mirror_nth by auto.
    assert (Ed : map (absdiff (length nb - 1 - i)) (map (fun j => (length nb - 1 - j)%nat) (nth i nb [])) = dist).
    { rewrite map_map. apply map_ext_in. intros j Hj. destruct (H i Hi) as [_ Hn]. specialize (Hn j Hj). unfold absdiff. lia. }
    rewrite Ed, score_of_eq. replace (length nb - (length nb - 1 - i))%nat with (i + 1)%nat by lia.
    replace (area_statistic (length nb) (length nb - 1 - i) dist) with (area_statistic (length nb) i dist). reflexivity.
    unfold area_statistic. rewrite double_distance_mirror by auto. reflexivity.
Qed.

Definition ex_pairs : list (list nat) := [[1]; [0]; [3]; [2]]%nat.
Lemma ex_pairs_table : neighbour_table ex_pairs.
Proof.
  intros i Hi. cbn in Hi. destruct i as [|[|[|[|i]]]]; try lia; cbn; (split; [discriminate|]); intros j [<-|[]]; lia.
Qed.
Lemma score_lt N i j di dj : (area_statistic N j dj / Qnat (Nat.max j (N - j)) < area_statistic N i di / Qnat (Nat.max i (N - i))) ->
  (score_of N i di < score_of N j dj)%R.
Proof. intros H. rewrite !score_of_eq. apply Qlt_Rlt, tanh_incr in H. Lra.lra. Qed.
Lemma C84_refuted_full :
  exists nb, neighbour_table nb /\ mirror nb = nb /\
    (nth 3 (score_dataset nb) 0 < nth 0 (score_dataset nb) 0)%R /\
    (forall kde perms thr mask scores p, find_issues kde perms thr nb = Ok (mask, scores, p) -> p < thr ->
       mask = [false; false; false; true]).
Proof.
  exists ex_pairs. split; [apply ex_pairs_table|]. split; [reflexivity|].
  assert (A : forall i, (i < 3)%nat -> (nth 3 (score_dataset ex_pairs) 0 < nth i (score_dataset ex_pairs) 0)%R).
  { intros i Hi. rewrite !score_dataset_nth by (cbn; lia). apply score_lt.
    destruct i as [|[|[|i]]]; try lia; vm_compute; reflexivity. }
  split; [apply A; lia|]. intros kde perms thr mask scores p E Hp.
  pose proof (C83_flags_full _ _ _ _ _ _ _ ex_pairs_table ltac:(discriminate) E) as (L & _ & F & _).
  assert (ES : scores = score_dataset ex_pairs).
  { unfold find_issues in E. destruct (ks_statistic _ _) as [D|]; [|discriminate]. cbn [rbind] in E.
    destruct (permutation_test _ _ _ _) as [p'|]; [|discriminate]. cbn [rbind] in E. cbv zeta in E. congruence. }
  subst scores.
  assert (F3 : nth 3 mask false = true).
  { apply F; [cbn; lia|]. split; auto. split.
    - intros j Hj. cbn in Hj. destruct (Nat.eq_dec j 3) as [->|]. Lra.lra. apply Rlt_le, A. lia.
    - intros j Hj. apply A. lia. }
  assert (FO : forall i, (i < 3)%nat -> nth i mask false = false).
  { intros i Hi. apply not_true_is_false. intros X. apply F in X as (_ & X & _); [|cbn; lia]. specialize (X 3%nat ltac:(cbn; lia)).
    specialize (A i Hi). Lra.lra. }
  pose proof (FO 0%nat ltac:(lia)). pose proof (FO 1%nat ltac:(lia)). pose proof (FO 2%nat ltac:(lia)).
  destruct mask as [|a [|b [|c [|d [|e m]]]]]; cbn in L; try discriminate. cbn in *. subst. reflexivity.
Qed.
