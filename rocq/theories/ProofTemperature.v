(** * Proofs about temperature scaling *)
From Coq Require Import Reals List Bool Arith Lia Lra Sorted.
From Verif Require Import Base ModelUtil ModelCount ModelRank ModelEntropy ModelOutlier ModelNoniid ModelMultiannotator ModelAgreement ModelTemperature
     SpecCount SpecMultiannotator SpecAgreement SpecTemperature ProofCount ProofMultiannotator ProofEntropy ProofOutlier ProofNoniid ProofAgreement.
Import ListNotations.
Open Scope R_scope.

Lemma small_pos : 0 < small_const.
Proof. unfold small_const. apply Rinv_0_lt_compat, pow_lt. lra. Qed.
Lemma eps_pos : 0 < eps_const.
Proof. unfold eps_const. lra. Qed.
Lemma rsum_total l : rsum l = total l.
Proof. reflexivity. Qed.
Lemma rsum_cons0 x l : rsum (x :: l) = x + rsum l. Proof. reflexivity. Qed.
Lemma nth_map0 {A} (f : A -> R) l i d : (i < length l)%nat -> nth i (map f l) 0 = f (nth i l d).
Proof. intros H. rewrite (nth_indep _ 0 (f d)) by (rewrite map_length; auto). apply map_nth. Qed.
Lemma rsum_div {A} (f : A -> R) c l : rsum (map (fun x => f x / c) l) = rsum (map f l) / c.
Proof. induction l as [|a l IH]; cbn [map]; [unfold rsum; cbn; unfold Rdiv; ring|]. rewrite !rsum_cons0, IH. unfold Rdiv. ring. Qed.
Lemma rsum_pos0 {A} (f : A -> R) l : l <> [] -> (forall x, In x l -> 0 < f x) -> 0 < rsum (map f l).
Proof.
  intros Hn H. apply rsum_pos; [destruct l; [congruence|discriminate]|]. intros x Hx. apply in_map_iff in Hx as (a & <- & Ha). auto.
Qed.
Lemma rsum_le {A} (f g : A -> R) l : (forall x, In x l -> f x <= g x) -> rsum (map f l) <= rsum (map g l).
Proof.
  induction l as [|a l IH]; intros H; cbn [map]; [lra|]. rewrite !rsum_cons0. pose proof (H a (or_introl eq_refl)).
  assert (rsum (map f l) <= rsum (map g l)) by (apply IH; intros; apply H; right; auto). lra.
Qed.

(** ** One row *)
Section Row.
  Variable row : list R.
  Hypothesis Hne : row <> [].
  Let c := map (fun p => Rmax p small_const) row.
  Let q := clip_normalise row.

  Lemma c_pos x : In x c -> 0 < x.
  Proof. intros H. apply in_map_iff in H as (p & <- & _). pose proof small_pos. pose proof (Rmax_r p small_const). lra. Qed.
  Lemma c_ne : c <> []. Proof. unfold c. destruct row; [congruence|discriminate]. Qed.
  Lemma csum_pos : 0 < rsum c. Proof. apply rsum_pos; [apply c_ne|apply c_pos]. Qed.
  Lemma q_len : length q = length row. Proof. unfold q, clip_normalise. rewrite !map_length. auto. Qed.
  Lemma q_nth i : (i < length row)%nat -> nth i q 0 = Rmax (nth i row 0) small_const / rsum c.
  Proof.
    intros H. unfold q, clip_normalise. cbv zeta. fold c. rewrite (nth_map0 (fun p => p / rsum c) c i 0) by (unfold c; rewrite map_length; auto).
    unfold c at 1. rewrite (nth_map0 _ row i 0) by auto. reflexivity.
  Qed.
  Lemma q_pos x : In x q -> 0 < x.
  Proof. intros H. apply in_map_iff in H as (y & <- & Hy). pose proof (c_pos y Hy). pose proof csum_pos. apply Rdiv_lt_0_compat; auto. Qed.

  Variable temp : R.
  Let T := Rmax temp eps_const.
  Lemma T_pos : 0 < T. Proof. unfold T. pose proof eps_pos. pose proof (Rmax_r temp eps_const). lra. Qed.
  Let e p := exp (ln p / T).
  Let E := rsum (map e q).
  Lemma E_pos : 0 < E.
  Proof. apply rsum_pos0; [intros H; pose proof q_len as L; rewrite H in L; destruct row; [congruence|discriminate]|]. intros. apply exp_pos. Qed.

  Lemma softmax_map : softmax_temp temp (map (fun p => Some (ln p)) q) = map (fun p => e p / E) q.
  Proof.
    unfold softmax_temp. rewrite !map_map. apply map_ext. intros p. cbn [exp_entry]. reflexivity.
  Qed.
  Lemma softmax_total : rsum (map (fun p => e p / E) q) = 1.
  Proof. rewrite rsum_div. fold E. pose proof E_pos. field. lra. Qed.
  Lemma scale_map : temp_scale_row temp row = map (fun p => e p / E) q.
  Proof.
    unfold temp_scale_row. cbv zeta. fold q. rewrite softmax_map. rewrite softmax_total. rewrite <- (map_id (map (fun p => e p / E) q)) at 2.
    apply map_ext. intros p. unfold Rdiv. rewrite Rinv_1. ring.
  Qed.
  Lemma scale_nth i : (i < length row)%nat -> nth i (temp_scale_row temp row) 0 = e (nth i q 0) / E.
  Proof. intros H. rewrite scale_map. rewrite (nth_map0 (fun p => e p / E) q i 0) by (rewrite q_len; auto). reflexivity. Qed.

  Lemma scaled_dist : length (temp_scale_row temp row) = length row /\
    (forall x, In x (temp_scale_row temp row) -> 0 < x <= 1) /\ total (temp_scale_row temp row) = 1.
  Proof.
    split; [rewrite scale_map, map_length; apply q_len|]. split; [|rewrite <- rsum_total, scale_map; apply softmax_total].
    intros x Hx. rewrite scale_map in Hx. apply in_map_iff in Hx as (p & <- & Hp). pose proof E_pos. split.
    - apply Rdiv_lt_0_compat; [apply exp_pos|auto].
    - assert (e p <= E). { unfold E. apply rsum_ge_elem; [|apply in_map; auto]. intros y Hy. apply in_map_iff in Hy as (z & <- & _). left. apply exp_pos. }
      apply (Rmult_le_reg_r E); auto. unfold Rdiv. rewrite Rmult_assoc, Rinv_l by lra. lra.
  Qed.

  Lemma e_mono a b : 0 < a -> a <= b -> e a <= e b.
  Proof.
    intros Ha [H| ->]; [|lra]. left. apply exp_increasing. apply Rmult_lt_compat_r; [apply Rinv_0_lt_compat, T_pos|]. apply ln_increasing; auto.
  Qed.
  Lemma e_mono_lt a b : 0 < a -> a < b -> e a < e b.
  Proof.
    intros Ha H. apply exp_increasing. apply Rmult_lt_compat_r; [apply Rinv_0_lt_compat, T_pos|]. apply ln_increasing; auto.
  Qed.
  Lemma q_nth_pos i : (i < length row)%nat -> 0 < nth i q 0.
  Proof. intros H. apply q_pos, nth_In. rewrite q_len. auto. Qed.

  Lemma scaled_le i j : (i < length row)%nat -> (j < length row)%nat -> nth i row 0 <= nth j row 0 ->
    nth i (temp_scale_row temp row) 0 <= nth j (temp_scale_row temp row) 0.
  Proof.
    intros Hi Hj H. rewrite !scale_nth by auto. apply Rmult_le_compat_r; [left; apply Rinv_0_lt_compat, E_pos|].
    apply e_mono; [apply q_nth_pos; auto|]. rewrite !q_nth by auto. apply Rmult_le_compat_r; [left; apply Rinv_0_lt_compat, csum_pos|].
    apply Rle_max_compat_r; auto.
  Qed.
  Lemma scaled_lt i j : (i < length row)%nat -> (j < length row)%nat -> nth i row 0 < nth j row 0 -> small_const < nth j row 0 ->
    nth i (temp_scale_row temp row) 0 < nth j (temp_scale_row temp row) 0.
  Proof.
    intros Hi Hj H Hs. rewrite !scale_nth by auto. apply Rmult_lt_compat_r; [apply Rinv_0_lt_compat, E_pos|].
    apply e_mono_lt; [apply q_nth_pos; auto|]. rewrite !q_nth by auto. apply Rmult_lt_compat_r; [apply Rinv_0_lt_compat, csum_pos|].
    rewrite (Rmax_left (nth j row 0)) by lra. apply Rmax_lub_lt; auto.
  Qed.

  (** the reciprocal of a scaled probability *)
  Lemma scaled_recip j : (j < length row)%nat ->
    nth j (temp_scale_row temp row) 0 = / rsum (map (fun p => exp ((ln p - ln (nth j q 0)) / T)) q).
  Proof.
    intros Hj. rewrite scale_nth by auto. unfold E.
    rewrite (map_ext (fun p => exp ((ln p - ln (nth j q 0)) / T)) (fun p => e p / e (nth j q 0))).
    - rewrite rsum_div. pose proof (exp_pos (ln (nth j q 0) / T)). fold (e (nth j q 0)) in *. pose proof E_pos. unfold E in *. field. split; lra.
    - intros p. unfold e, Rdiv. rewrite <- exp_Ropp, <- exp_plus. f_equal. ring.
  Qed.
  Lemma scaled_identity : temp = 1 -> (forall x, In x row -> small_const <= x) -> total row = 1 -> temp_scale_row temp row = row.
  Proof.
    intros Ht Hs H1. rewrite scale_map. assert (Ec : c = row).
    { unfold c. rewrite <- (map_id row) at 2. apply map_ext_in. intros x Hx. apply Rmax_left, Hs; auto. }
    assert (Eq : q = row).
    { unfold q, clip_normalise. cbv zeta. fold c. rewrite Ec. rewrite rsum_total, H1. rewrite <- (map_id row) at 2. apply map_ext. intros; unfold Rdiv; rewrite Rinv_1; ring. }
    assert (ET : T = 1). { unfold T. rewrite Ht. apply Rmax_left. unfold eps_const. lra. }
    assert (Ee : forall p, In p q -> e p = p). { intros p Hp. unfold e. rewrite ET. unfold Rdiv. rewrite Rinv_1, Rmult_1_r. apply exp_ln, q_pos. auto. }
    assert (EE : E = 1). { unfold E. rewrite (map_ext_in e (fun p => p) q Ee), map_id, Eq. exact H1. }
    rewrite EE. transitivity q; [|exact Eq]. rewrite <- (map_id q) at 2. apply map_ext_in. intros p Hp. rewrite Ee by auto. unfold Rdiv. rewrite Rinv_1. ring.
  Qed.
End Row.

Lemma sharpen_full row temp temp' j : top_class row j -> eps_const <= temp -> temp <= temp' ->
  nth j (temp_scale_row temp' row) 0 <= nth j (temp_scale_row temp row) 0.
Proof.
  intros (Hj & Htop) He Ht. assert (Hne : row <> []) by (destruct row; [simpl in Hj; lia|discriminate]).
  rewrite !scaled_recip by auto. rewrite (Rmax_left temp), (Rmax_left temp') by lra. pose proof eps_pos.
  apply Rinv_le_contravar.
  - apply rsum_pos0; [intros E; pose proof (q_len row) as L; rewrite E in L; destruct row; [congruence|discriminate]|]. intros; apply exp_pos.
  - apply rsum_le. intros p Hp.
    assert (Hle : ln p - ln (nth j (clip_normalise row) 0) <= 0).
    { destruct (In_nth _ _ 0 Hp) as (i & Hi & <-). rewrite q_len in Hi.
      assert (nth i (clip_normalise row) 0 <= nth j (clip_normalise row) 0).
      { rewrite !q_nth by auto. apply Rmult_le_compat_r; [left; apply Rinv_0_lt_compat, csum_pos; auto|]. apply Rle_max_compat_r. auto. }
      assert (0 < nth i (clip_normalise row) 0) by (apply q_nth_pos; auto).
      destruct H0 as [H0| ->]; [|lra]. apply ln_increasing in H0; auto. lra. }
    assert (Hx : (ln p - ln (nth j (clip_normalise row) 0)) / temp <= (ln p - ln (nth j (clip_normalise row) 0)) / temp').
    { unfold Rdiv. assert (/ temp' <= / temp) by (apply Rinv_le_contravar; lra). nra. }
    destruct Hx as [Hx| ->]; [left; apply exp_increasing; auto|lra].
Qed.

Lemma relative_full row temp j : prob_row (length row) row -> (forall x, In x row -> small_const <= x) -> top_class row j -> eps_const <= temp ->
  (temp <= 1 -> nth j row 0 <= nth j (temp_scale_row temp row) 0) /\
  (1 <= temp -> nth j (temp_scale_row temp row) 0 <= nth j row 0).
Proof.
  intros (_ & _ & H1) Hs Htop He. assert (Hne : row <> []) by (destruct Htop as (Hj & _); destruct row; [simpl in Hj; lia|discriminate]).
  pose proof (scaled_identity row Hne 1 eq_refl Hs H1) as Hid.
  split; intros Ht; [rewrite <- Hid at 1; apply sharpen_full; auto|].
  rewrite <- Hid at 2. apply sharpen_full; auto. unfold eps_const. lra.
Qed.

(** ** The search *)
Lemma nth_div_map {A} (f : A -> R) l d i : (i < length l)%nat -> nth i (map f l) 0 = f (nth i l d).
Proof. intros. apply nth_map0. auto. Qed.
Lemma list_seq {A B} (f : A -> B) (l : list A) (d : A) : map f l = map (fun i => f (nth i l d)) (seq 0 (length l)).
Proof.
  induction l as [|a l IH]; auto. cbn [length seq map]. f_equal. rewrite <- seq_shift, map_map. rewrite IH. apply map_ext. reflexivity.
Qed.
Lemma combine_seq {A B} (l : list A) (m : list B) da db : length l = length m ->
  combine l m = map (fun i => (nth i l da, nth i m db)) (seq 0 (length l)).
Proof.
  revert m. induction l as [|a l IH]; intros [|b m] H; try discriminate; auto. cbn [length seq map combine]. f_equal.
  rewrite <- seq_shift, map_map. apply IH. simpl in H. lia.
Qed.

Lemma given_num r : length (given r) = n_given r.
Proof. unfold n_given. induction r as [|[k|] r IH]; cbn [given flat_map filter length app] in *; auto. Qed.

Definition faithful (ty : label_type) (t : list row) : Prop := ty = Integers \/ forall r, In r t -> no_gaps r.

Lemma dist_row ty r K : (ty = Integers \/ no_gaps r) -> (forall k, In (Some k) r -> (k < K)%nat) -> (exists k, In (Some k) r) ->
  exists c, value_counts_as ty (given r) K = Ok c /\ map (fun n => INR n / INR (length (given r))) c = map (rshare r) (seq 0 K).
Proof.
  intros Hf HK Hs. destruct (counts_spec ty r K HK Hs) as (c & E & L & H1 & H2 & _). exists c. split; auto.
  assert (P : forall k, In (Some k) r -> position ty r k = k).
  { intros k Hk. destruct ty; cbn [position]; auto. destruct Hf as [Hf|Hf]; [discriminate|]. apply no_gaps_rank; auto. }
  rewrite (list_seq _ c 0%nat), L. apply map_ext_in. intros k Hk. apply in_seq in Hk. unfold rshare. rewrite given_num. f_equal. f_equal.
  destruct (Nat.eq_dec (votes r k) 0) as [Z|Z].
  - destruct (Nat.eq_dec (nth k c 0%nat) 0) as [Z'|Z']; [congruence|].
    destruct (H2 k ltac:(lia) ltac:(lia)) as (k' & Hk' & Ek). rewrite P in Ek by auto. subst k'. apply votes_in in Hk'. lia.
  - assert (Hin : In (Some k) r) by (apply votes_in; lia). destruct (H1 k Hin) as (_ & N). rewrite P in N by auto. auto.
Qed.

Lemma dists_ok ty M K t : faithful ty t -> annotations M K t -> label_distributions ty t K = Ok (map (fun r => map (rshare r) (seq 0 K)) t).
Proof.
  intros Hf [W S C]. unfold label_distributions.
  assert (G : forall l : list row, (forall r, In r l -> In r t) ->
    rmap (fun r => do c <- value_counts_as ty (given r) K ; Ok (map (fun n => INR n / INR (length (given r))) c)) l = Ok (map (fun r => map (rshare r) (seq 0 K)) l)).
  { induction l as [|r l IH]; intros Hl; auto. cbn [rmap map].
    destruct (dist_row ty r K) as (c & E & D).
    - destruct Hf as [->|Hf]; [left; auto|right; apply Hf, Hl; left; auto].
    - intros k Hk. apply (C r k); auto. apply Hl; left; auto.
    - apply S, Hl; left; auto.
    - rewrite E. cbn [rbind]. rewrite D. rewrite IH by (intros; apply Hl; right; auto). reflexivity. }
  apply G. auto.
Qed.

Lemma exp_powered T p : / 1000000 <= T -> 0 <= p -> exp_entry T (log_entry p) = powered T p.
Proof.
  intros HT Hp. unfold log_entry, powered. destruct (Rlt_dec 0 p) as [H|H]; destruct (Req_EM_T p 0) as [H'|H']; try lra; cbn [exp_entry]; auto.
  unfold Rpower. rewrite Rmax_left by (unfold eps_const; lra). f_equal. unfold Rdiv. ring.
Qed.
Lemma softmax_tempered T row k : / 1000000 <= T -> (forall x, In x row -> 0 <= x) -> (k < length row)%nat ->
  nth k (softmax_temp T (map log_entry row)) 0 = tempered T row k.
Proof.
  intros HT Hp Hk. unfold softmax_temp. rewrite !map_map.
  rewrite (nth_map0 (fun x => exp_entry T (log_entry x) / rsum (map (fun x0 => exp_entry T (log_entry x0)) row)) row k 0) by auto.
  unfold tempered. rewrite exp_powered by (auto; apply Hp, nth_In; auto). f_equal. rewrite rsum_total. f_equal. apply map_ext_in. intros x Hx. apply exp_powered; auto.
Qed.
Lemma soft_ce_spec K r row T : / 1000000 <= T -> prob_row K row ->
  soft_cross_entropy K (map (rshare r) (seq 0 K)) (softmax_temp T (map log_entry row)) = cross_entropy K r (tempered T row).
Proof.
  intros HT (L & Hp & _). unfold soft_cross_entropy, cross_entropy. f_equal.
  assert (LS : length (softmax_temp T (map log_entry row)) = K) by (unfold softmax_temp; rewrite !map_length; auto).
  rewrite (combine_seq _ _ 0 0) by (rewrite map_length, seq_length; auto). rewrite map_map. rewrite map_length, seq_length. cbn [fst snd].
  assert (G : forall l, (forall k, In k l -> (k < K)%nat) ->
     - rsum (map (fun x => nth x (map (rshare r) (seq 0 K)) 0 * ln (Rmax (nth x (softmax_temp T (map log_entry row)) 0) small_const)) l) =
     rsum (map (fun k => rshare r k * - ln (Rmax (tempered T row k) (/ 10 ^ 30))) l)).
  { induction l as [|k l IH]; intros Hl; cbn [map]; [unfold rsum; cbn; ring|]. rewrite !rsum_cons0. rewrite <- IH by (intros; apply Hl; right; auto).
    pose proof (Hl k (or_introl eq_refl)) as Hk. rewrite softmax_tempered by (auto; lia).
    rewrite (nth_map0 (rshare r) (seq 0 K) k 0%nat) by (rewrite seq_length; auto). rewrite seq_nth by auto. cbn [Nat.add]. fold small_const. ring. }
  unfold rsum, total in *. apply G. intros k Hk. apply in_seq in Hk. lia.
Qed.
Lemma cost_spec K t pp T : / 1000000 <= T -> length pp = length t -> (forall p, In p pp -> prob_row K p) ->
  temp_cost K (map (fun r => map (rshare r) (seq 0 K)) t) pp T = mean_cross_entropy K t pp T.
Proof.
  intros HT HL HP. unfold temp_cost, mean_cross_entropy, rmean. rewrite map_length, combine_length, map_length, HL, Nat.min_id. f_equal. unfold rsum, total. f_equal.
  rewrite (combine_seq _ pp [] []) by (rewrite map_length; auto). rewrite map_map, map_length. apply map_ext_in. intros i Hi. apply in_seq in Hi. cbn [fst snd].
  rewrite (nth_indep _ [] ((fun r => map (rshare r) (seq 0 K)) [])) by (rewrite map_length; lia).
  rewrite (map_nth (fun r => map (rshare r) (seq 0 K))). apply soft_ce_spec; auto. apply HP, nth_In. lia.
Qed.

(** *** Points of the grid *)
Definition between (a b : R) (n m : nat) : R := a + INR m * ((b - a) / INR n).
Lemma between_bounds a b n m : a < b -> (1 <= n)%nat -> (m <= n)%nat -> a <= between a b n m <= b /\ ((m < n)%nat -> between a b n m < b).
Proof.
  intros Hab Hn Hm. unfold between. assert (Hp : 0 < INR n) by (apply lt_0_INR; lia).
  assert (E : INR m * ((b - a) / INR n) = (b - a) * (INR m / INR n)) by (field; lra). rewrite E.
  assert (B0 : 0 <= INR m / INR n). { apply Rmult_le_pos; [apply pos_INR|left; apply Rinv_0_lt_compat; auto]. }
  assert (B1 : INR m / INR n <= 1). { apply (Rmult_le_reg_r (INR n)); auto. unfold Rdiv. rewrite Rmult_assoc, Rinv_l by lra. rewrite Rmult_1_r, Rmult_1_l. apply le_INR; auto. }
  split; [split; nra|]. intros Hlt. assert (B2 : INR m / INR n < 1). { apply (Rmult_lt_reg_r (INR n)); auto. unfold Rdiv. rewrite Rmult_assoc, Rinv_l by lra. rewrite Rmult_1_r, Rmult_1_l. apply lt_INR; auto. }
  nra.
Qed.
Lemma between_0 a b n : between a b n 0 = a.
Proof. unfold between. cbn [INR]. ring. Qed.
Lemma between_n a b n : (1 <= n)%nat -> between a b n n = b.
Proof. intros H. unfold between. assert (0 < INR n) by (apply lt_0_INR; lia). field. lra. Qed.
Lemma in_open a b n x : In x (linspace_open a b n) <-> exists m, (m < n)%nat /\ x = between a b n m.
Proof.
  unfold linspace_open. rewrite in_map_iff. split; [intros (m & <- & H); apply in_seq in H; exists m; split; [lia|reflexivity]|].
  intros (m & H & ->). exists m. split; [reflexivity|]. apply in_seq. lia.
Qed.
Lemma in_closed a b n x : In x (linspace_closed a b n) <-> exists m, (m <= n)%nat /\ x = between a b n m.
Proof.
  unfold linspace_closed. rewrite in_map_iff. split; [intros (m & <- & H); apply in_seq in H; exists m; split; [lia|reflexivity]|].
  intros (m & H & ->). exists m. split; [reflexivity|]. apply in_seq. lia.
Qed.
Lemma sorted_nth l i j : StronglySorted Rlt l -> (i < j)%nat -> (j < length l)%nat -> nth i l 0 < nth j l 0.
Proof.
  intros H. revert i j. induction H as [|a l H IH HF]; intros i j Hij Hj; [simpl in Hj; lia|].
  destruct j as [|j]; [lia|]. simpl in Hj. destruct i as [|i]; cbn [nth].
  - rewrite Forall_forall in HF. apply HF, nth_In. lia.
  - apply IH; lia.
Qed.

Definition grid_point (coarse : list R) (n i : nat) (x : R) : Prop :=
  ((0 < i)%nat /\ exists m, (m < n)%nat /\ x = between (nth (i - 1) coarse 0) (nth i coarse 0) n m) \/
  ((i < length coarse - 1)%nat /\ exists m, (m <= n)%nat /\ x = between (nth i coarse 0) (nth (i + 1) coarse 0) n m).
Lemma in_fine coarse n i x : (i < length coarse)%nat -> In x (fine_search_range coarse n i) <-> grid_point coarse n i x.
Proof.
  intros Hi. unfold fine_search_range, grid_point. rewrite in_app_iff.
  destruct (Nat.eqb_spec i 0), (Nat.eqb_spec i (length coarse - 1)); rewrite ?in_open, ?in_closed; simpl; intuition lia.
Qed.

Section Pick.
  Variables (cost : R -> R) (coarse : list R) (n : nat).
  Hypotheses (Hs : StronglySorted Rlt coarse) (Hlen : (2 <= length coarse)%nat) (Hn : (1 <= n)%nat).
  Let i := rargmin (map cost coarse).
  Let fine := fine_search_range coarse n i.
  Let T := nth (rargmin (map cost fine)) fine 0.

  Lemma i_lt : (i < length coarse)%nat /\ (forall c, In c coarse -> cost (nth i coarse 0) <= cost c) /\
    (forall j, (j < i)%nat -> cost (nth i coarse 0) < cost (nth j coarse 0)).
  Proof.
    destruct (rargmin_spec (map cost coarse)) as (A & B & C); [destruct coarse; [simpl in Hlen; lia|discriminate]|]. fold i in A, B, C. rewrite map_length in *.
    split; [auto|]. split.
    - intros c Hc. destruct (In_nth _ _ 0 Hc) as (j & Hj & <-). specialize (B j Hj). rewrite !(nth_map0 cost coarse _ 0) in B by auto. auto.
    - intros j Hj. specialize (C j Hj). rewrite !(nth_map0 cost coarse _ 0) in C by lia. auto.
  Qed.
  Lemma fine_ne : fine <> [].
  Proof.
    destruct i_lt as (A & _). intros E.
    destruct (Nat.eq_dec i 0) as [Z|Z].
    - assert (H : In (between (nth i coarse 0) (nth (i + 1) coarse 0) n 0) fine).
      { apply in_fine; auto. right. split; [lia|]. exists 0%nat. split; [lia|auto]. }
      rewrite E in H. destruct H.
    - assert (H : In (between (nth (i - 1) coarse 0) (nth i coarse 0) n 0) fine).
      { apply in_fine; auto. left. split; [lia|]. exists 0%nat. split; [lia|auto]. }
      rewrite E in H. destruct H.
  Qed.
  Lemma T_in : In T fine /\ forall x, In x fine -> cost T <= cost x.
  Proof.
    destruct (rargmin_spec (map cost fine)) as (A & B & _); [pose proof fine_ne; destruct fine; [congruence|discriminate]|]. rewrite map_length in *.
    split; [apply nth_In; auto|]. intros x Hx. destruct (In_nth _ _ 0 Hx) as (j & Hj & <-). specialize (B j Hj). rewrite !(nth_map0 cost fine _ 0) in B by auto. exact B.
  Qed.
  Lemma pick_range : nth 0 coarse 0 <= T <= nth (length coarse - 1) coarse 0 /\ (i = (length coarse - 1)%nat -> nth (length coarse - 2) coarse 0 <= T < nth (length coarse - 1) coarse 0).
  Proof.
    destruct i_lt as (A & _). destruct T_in as (B & _). apply in_fine in B; auto.
    assert (W : forall a b, (a <= b)%nat -> (b < length coarse)%nat -> nth a coarse 0 <= nth b coarse 0).
    { intros a b Hab Hb. destruct (Nat.eq_dec a b) as [->|]; [lra|]. left. apply sorted_nth; auto. lia. }
    destruct B as [(Hi & m & Hm & E)|(Hi & m & Hm & E)].
    - destruct (between_bounds (nth (i - 1) coarse 0) (nth i coarse 0) n m) as (B1 & B2); [apply sorted_nth; auto; lia|lia|lia|].
      specialize (B2 Hm). rewrite <- E in *. split.
      + pose proof (W 0%nat (i - 1)%nat ltac:(lia) ltac:(lia)). pose proof (W i (length coarse - 1)%nat ltac:(lia) ltac:(lia)). lra.
      + intros Ei. rewrite Ei in B1, B2. replace (length coarse - 1 - 1)%nat with (length coarse - 2)%nat in B1 by lia. lra.
    - destruct (between_bounds (nth i coarse 0) (nth (i + 1) coarse 0) n m) as (B1 & _); [apply sorted_nth; auto; lia|lia|lia|].
      rewrite <- E in *. split; [|lia].
      pose proof (W 0%nat i ltac:(lia) ltac:(lia)). pose proof (W (i + 1)%nat (length coarse - 1)%nat ltac:(lia) ltac:(lia)). lra.
  Qed.
  Lemma pick_best : (i < length coarse - 1)%nat -> forall c, In c coarse -> cost T <= cost c.
  Proof.
    intros Hi c Hc. destruct i_lt as (A & B & _). destruct T_in as (_ & D). specialize (B c Hc).
    assert (In (nth i coarse 0) fine). { apply in_fine; auto. right. split; auto. exists 0%nat. split; [lia|]. symmetry. apply between_0. }
    specialize (D _ H). lra.
  Qed.
  Lemma pick_last : i = (length coarse - 1)%nat -> forall j, (j < length coarse - 1)%nat -> cost (nth (length coarse - 1) coarse 0) < cost (nth j coarse 0).
  Proof. intros Hi j Hj. destruct i_lt as (_ & _ & C). rewrite <- Hi. apply C. lia. Qed.
  Lemma pick_grid x : grid_point coarse n i x -> cost T <= cost x.
  Proof. intros H. apply T_in. apply in_fine; auto. apply i_lt. Qed.
End Pick.

Lemma find_unfold ty t K pp coarse n d : label_distributions ty t K = Ok d -> StronglySorted Rlt coarse -> (2 <= length coarse)%nat -> (1 <= n)%nat ->
  find_best_temp_scaler ty t K pp coarse n =
    Ok (nth (rargmin (map (temp_cost K d pp) (fine_search_range coarse n (rargmin (map (temp_cost K d pp) coarse)))))
            (fine_search_range coarse n (rargmin (map (temp_cost K d pp) coarse))) 0).
Proof.
  intros Ed Hs Hl Hn. unfold find_best_temp_scaler. rewrite Ed. cbn [rbind]. destruct coarse as [|c0 coarse]; [simpl in Hl; lia|].
  pose proof (fine_ne (temp_cost K d pp) (c0 :: coarse) n Hs Hl Hn) as F. cbv zeta.
  destruct (fine_search_range (c0 :: coarse) n (rargmin (map (temp_cost K d pp) (c0 :: coarse)))) eqn:E; [congruence|]. reflexivity.
Qed.

Lemma grid_ge coarse n i x lo : StronglySorted Rlt coarse -> (1 <= n)%nat -> (i < length coarse)%nat -> (forall c, In c coarse -> lo <= c) -> grid_point coarse n i x -> lo <= x.
Proof.
  intros Hs Hn Hi Hlo [(H & m & Hm & ->)|(H & m & Hm & ->)].
  - destruct (between_bounds (nth (i - 1) coarse 0) (nth i coarse 0) n m) as (B & _); [apply sorted_nth; auto; lia|lia|lia|].
    pose proof (Hlo (nth (i - 1) coarse 0) ltac:(apply nth_In; lia)). lra.
  - destruct (between_bounds (nth i coarse 0) (nth (i + 1) coarse 0) n m) as (B & _); [apply sorted_nth; auto; lia|lia|lia|].
    pose proof (Hlo (nth i coarse 0) ltac:(apply nth_In; lia)). lra.
Qed.

Lemma search_full ty M K t pp coarse n : faithful ty t -> annotations M K t -> length pp = length t -> (forall p, In p pp -> prob_row K p) ->
  temperatures coarse -> (2 <= length coarse)%nat -> (1 <= n)%nat ->
  exists T, find_best_temp_scaler ty t K pp coarse n = Ok T /\
    nth 0 coarse 0 <= T <= nth (length coarse - 1) coarse 0 /\
    let cost := mean_cross_entropy K t pp in
    ((forall c, In c coarse -> cost T <= cost c) \/
     ((forall j, (j < length coarse - 1)%nat -> cost (nth (length coarse - 1) coarse 0) < cost (nth j coarse 0)) /\
      nth (length coarse - 2) coarse 0 <= T < nth (length coarse - 1) coarse 0)) /\
    exists i, (i < length coarse)%nat /\ (forall c, In c coarse -> cost (nth i coarse 0) <= cost c) /\
      (forall m, (0 < i)%nat -> (m < n)%nat -> cost T <= cost (nth (i - 1) coarse 0 + INR m / INR n * (nth i coarse 0 - nth (i - 1) coarse 0))) /\
      (forall m, (i < length coarse - 1)%nat -> (m <= n)%nat -> cost T <= cost (nth i coarse 0 + INR m / INR n * (nth (i + 1) coarse 0 - nth i coarse 0))).
Proof.
  intros Hf Ha HL HP (Hs & Hlo) Hlen Hn. pose proof (dists_ok ty M K t Hf Ha) as Ed.
  rewrite (find_unfold ty t K pp coarse n _ Ed Hs Hlen Hn). set (mc := temp_cost K (map (fun r => map (rshare r) (seq 0 K)) t) pp).
  eexists. split; [reflexivity|]. set (i := rargmin (map mc coarse)). set (T := nth (rargmin (map mc (fine_search_range coarse n i))) (fine_search_range coarse n i) 0).
  assert (EC : forall x, / 1000000 <= x -> mc x = mean_cross_entropy K t pp x) by (intros x Hx; apply cost_spec; auto).
  destruct (pick_range mc coarse n Hs Hlen Hn) as (R1 & R2). fold i in R1, R2. fold T in R1, R2. split; [exact R1|].
  destruct (i_lt mc coarse n Hs Hlen Hn) as (I1 & I2 & I3). fold i in I1, I2, I3.
  assert (HT : / 1000000 <= T). { pose proof (Hlo (nth 0 coarse 0) ltac:(apply nth_In; lia)). lra. }
  assert (HN : forall j, (j < length coarse)%nat -> / 1000000 <= nth j coarse 0) by (intros; apply Hlo, nth_In; auto).
  cbv zeta. split.
  - destruct (Nat.eq_dec i (length coarse - 1)) as [Ei|Ei].
    + right. split; [|auto]. intros j Hj. rewrite <- !EC by (apply HN; lia). apply (pick_last mc coarse n Hs Hlen Hn); auto.
    + left. intros c Hc. rewrite <- !EC by auto. apply (pick_best mc coarse n Hs Hlen Hn); [fold i; lia|auto].
  - exists i. split; [auto|]. split; [|split].
    + intros c Hc. rewrite <- !EC by auto. auto.
    + intros m Hi Hm. assert (G : grid_point coarse n i (nth (i - 1) coarse 0 + INR m / INR n * (nth i coarse 0 - nth (i - 1) coarse 0))).
      { left. split; auto. exists m. split; auto. unfold between. assert (0 < INR n) by (apply lt_0_INR; lia). field. lra. }
      rewrite <- !EC by (auto; apply (grid_ge coarse n i); auto). apply (pick_grid mc coarse n Hs Hlen Hn). exact G.
    + intros m Hi Hm. assert (G : grid_point coarse n i (nth i coarse 0 + INR m / INR n * (nth (i + 1) coarse 0 - nth i coarse 0))).
      { right. split; auto. exists m. split; auto. unfold between. assert (0 < INR n) by (apply lt_0_INR; lia). field. lra. }
      rewrite <- !EC by (auto; apply (grid_ge coarse n i); auto). apply (pick_grid mc coarse n Hs Hlen Hn). exact G.
Qed.

(** ** Concrete searches *)
Lemma rargmin_unique l i : (i < length l)%nat -> (forall j, (j < length l)%nat -> j <> i -> nth i l 0 < nth j l 0) -> rargmin l = i.
Proof.
  intros Hi H. destruct (rargmin_spec l) as (A & B & _); [destruct l; [simpl in Hi; lia|discriminate]|].
  destruct (Nat.eq_dec (rargmin l) i) as [E|E]; auto. specialize (B i Hi). specialize (H _ A E). lra.
Qed.
Lemma dec_last cost l : StronglySorted Rlt l -> l <> [] -> (forall x y, In x l -> In y l -> x < y -> cost y < cost x) -> rargmin (map cost l) = (length l - 1)%nat.
Proof.
  intros Hs Hne H. assert (0 < length l)%nat by (destruct l; [congruence|simpl; lia]). apply rargmin_unique; rewrite map_length; [lia|]. intros j Hj Nj.
  rewrite !(nth_map0 cost l _ 0) by lia. apply H; [apply nth_In; lia|apply nth_In; lia|]. apply sorted_nth; auto; lia.
Qed.
Lemma inc_first cost l : StronglySorted Rlt l -> l <> [] -> (forall x y, In x l -> In y l -> x < y -> cost x < cost y) -> rargmin (map cost l) = 0%nat.
Proof.
  intros Hs Hne H. assert (0 < length l)%nat by (destruct l; [congruence|simpl; lia]). apply rargmin_unique; rewrite map_length; [lia|]. intros j Hj Nj.
  rewrite !(nth_map0 cost l _ 0) by lia. apply H; [apply nth_In; lia|apply nth_In; lia|]. apply sorted_nth; auto; lia.
Qed.
Ltac sorted_tac := repeat (apply SSorted_cons; [|repeat (apply Forall_cons; [simpl; lra|]); apply Forall_nil]); apply SSorted_nil.
Lemma default_sorted : StronglySorted Rlt default_search.
Proof. unfold default_search. sorted_tac. Qed.
Lemma default_temperatures : temperatures default_search.
Proof. split; [apply default_sorted|]. unfold default_search. intros x H. cbn [In] in H. intuition; subst; lra. Qed.
Lemma fine_last : fine_search_range default_search 4 8 = [5; 5 + 1 * ((8 - 5) / 4); 5 + 2 * ((8 - 5) / 4); 29 / 4].
Proof.
  unfold fine_search_range, default_search, linspace_open. cbn [Nat.eqb length Nat.sub nth seq map app INR]. repeat (apply (f_equal2 (@cons R)); [lra|]); reflexivity.
Qed.
Lemma fine_first : fine_search_range default_search 4 0 =
  [/ 10; / 10 + 1 * ((/ 5 - / 10) / 4); / 10 + 2 * ((/ 5 - / 10) / 4); / 10 + 3 * ((/ 5 - / 10) / 4); / 10 + 4 * ((/ 5 - / 10) / 4)].
Proof.
  unfold fine_search_range, default_search, linspace_closed. cbn [Nat.eqb length Nat.sub Nat.add nth seq map app INR]. repeat (apply (f_equal2 (@cons R)); [lra|]); reflexivity.
Qed.
Lemma search_dec t K pp M : annotations M K t -> length pp = length t -> (forall p, In p pp -> prob_row K p) ->
  (forall x y, / 10 <= x -> x < y -> y <= 8 -> mean_cross_entropy K t pp y < mean_cross_entropy K t pp x) ->
  find_best_temp_scaler Integers t K pp default_search 4 = Ok (29 / 4).
Proof.
  intros Ha HL HP H. rewrite (find_unfold _ _ _ _ _ _ _ (dists_ok Integers M K t (or_introl eq_refl) Ha) default_sorted); [|simpl; lia|lia].
  rewrite (dec_last _ default_search).
  - cbn [length default_search Nat.sub]. rewrite fine_last. rewrite dec_last; [reflexivity|sorted_tac|discriminate|].
    intros x y Hx Hy Hlt. assert (Bx : / 10 <= x <= 8) by (clear - Hx; cbn [In] in Hx; intuition; subst; lra). assert (By : / 10 <= y <= 8) by (clear - Hy; cbn [In] in Hy; intuition; subst; lra). rewrite !cost_spec by (auto; lra). apply H; lra.
  - apply default_sorted.
  - discriminate.
  - intros x y Hx Hy Hlt. unfold default_search in *. assert (Bx : / 10 <= x <= 8) by (clear - Hx; cbn [In] in Hx; intuition; subst; lra). assert (By : / 10 <= y <= 8) by (clear - Hy; cbn [In] in Hy; intuition; subst; lra). rewrite !cost_spec by (auto; lra). apply H; lra.
Qed.
Lemma search_inc t K pp M : annotations M K t -> length pp = length t -> (forall p, In p pp -> prob_row K p) ->
  (forall x y, / 10 <= x -> x < y -> y <= 8 -> mean_cross_entropy K t pp x < mean_cross_entropy K t pp y) ->
  find_best_temp_scaler Integers t K pp default_search 4 = Ok (/ 10).
Proof.
  intros Ha HL HP H. rewrite (find_unfold _ _ _ _ _ _ _ (dists_ok Integers M K t (or_introl eq_refl) Ha) default_sorted); [|simpl; lia|lia].
  rewrite (inc_first _ default_search).
  - rewrite fine_first. rewrite inc_first; [reflexivity|sorted_tac|discriminate|].
    intros x y Hx Hy Hlt. assert (Bx : / 10 <= x <= 8) by (clear - Hx; cbn [In] in Hx; intuition; subst; lra). assert (By : / 10 <= y <= 8) by (clear - Hy; cbn [In] in Hy; intuition; subst; lra). rewrite !cost_spec by (auto; lra). apply H; lra.
  - apply default_sorted.
  - discriminate.
  - intros x y Hx Hy Hlt. unfold default_search in *. assert (Bx : / 10 <= x <= 8) by (clear - Hx; cbn [In] in Hx; intuition; subst; lra). assert (By : / 10 <= y <= 8) by (clear - Hy; cbn [In] in Hy; intuition; subst; lra). rewrite !cost_spec by (auto; lra). apply H; lra.
Qed.

Lemma powered_mult T a b : 0 < a -> 0 < b -> powered T (a * b) = Rpower a (/ T) * Rpower b (/ T).
Proof.
  intros Ha Hb. unfold powered. destruct (Req_EM_T (a * b) 0) as [E|E]; [pose proof (Rmult_lt_0_compat a b Ha Hb); lra|]. rewrite Rpower_mult_distr; auto.
Qed.
Lemma powered_one T b : 0 < b -> powered T b = Rpower b (/ T).
Proof. intros Hb. unfold powered. destruct (Req_EM_T b 0) as [E|E]; [lra|auto]. Qed.
Lemma Rpower_pos a b : 0 < Rpower a b. Proof. apply exp_pos. Qed.
Lemma Rpower_dec a x y : 1 < a -> 0 < x -> x < y -> Rpower a (/ y) < Rpower a (/ x).
Proof. intros Ha Hx Hxy. apply Rpower_lt; auto. apply Rinv_lt_contravar; auto. apply Rmult_lt_0_compat; lra. Qed.
Lemma Rpower_gt1 a x : 1 < a -> 0 < x -> 1 < Rpower a (/ x).
Proof. intros Ha Hx. rewrite <- (Rpower_O a) by lra. apply Rpower_lt; auto. apply Rinv_0_lt_compat; auto. Qed.
Lemma Rpower_bound a x : 1 < a -> / 10 <= x -> Rpower a (/ x) <= a ^ 10.
Proof.
  intros Ha Hx. rewrite <- Rpower_pow by lra. apply Rle_Rpower; [lra|]. replace (INR 10) with (/ (/ 10)) by (simpl; lra). apply Rinv_le_contravar; lra.
Qed.

(** two annotators who disagree on one example, prediction 9/10 *)
Definition split_table : list row := [[Some 0%nat; Some 1%nat]].
Definition split_pred : list (list R) := [[9 / 10; 1 / 10]].
Lemma split_annotations : annotations 2 2 split_table.
Proof.
  constructor; unfold split_table; intros r; [| |intros k]; intros [<-|[]]; auto.
  - exists 0%nat. left; auto.
  - intros [E|[E|[]]]; inversion E; lia.
Qed.
Lemma split_prob : forall p, In p split_pred -> prob_row 2 p.
Proof.
  intros p [<-|[]]. split; [reflexivity|]. split; [|unfold total; simpl; lra]. intros x [<-|[<-|[]]]; lra.
Qed.
Lemma split_cost T : / 10 <= T -> mean_cross_entropy 2 split_table split_pred T =
  (ln (Rpower 9 (/ T) + 1) + ln (Rpower 9 (/ T) + 1) - ln (Rpower 9 (/ T))) / 2 / ln 2.
Proof.
  intros HT. unfold mean_cross_entropy, split_table, split_pred. cbn [length seq map nth]. unfold total at 1. cbn [fold_right].
  unfold cross_entropy. cbn [seq map]. unfold total at 1. cbn [fold_right]. unfold rshare. cbn [votes n_given filter length].
  replace (votes [Some 0%nat; Some 1%nat] 0) with 1%nat by reflexivity. replace (votes [Some 0%nat; Some 1%nat] 1) with 1%nat by reflexivity.
  set (A := Rpower 9 (/ T)).
  assert (HA : 0 < A) by apply Rpower_pos. assert (HB : A <= 9 ^ 10) by (apply Rpower_bound; lra).
  assert (E0 : powered T (9 / 10) = A * Rpower (1 / 10) (/ T)) by (unfold Rdiv at 1; replace (/ 10) with (1 / 10) by lra; apply powered_mult; lra).
  assert (E1 : powered T (1 / 10) = Rpower (1 / 10) (/ T)) by (apply powered_one; lra).
  pose proof (Rpower_pos (1 / 10) (/ T)) as HP. set (B := Rpower (1 / 10) (/ T)) in *.
  assert (T0 : tempered T [9 / 10; 1 / 10] 0 = A / (A + 1)).
  { unfold tempered. cbn [nth map]. unfold total. cbn [fold_right]. rewrite E0, E1. field. split; nra. }
  assert (T1 : tempered T [9 / 10; 1 / 10] 1 = / (A + 1)).
  { unfold tempered. cbn [nth map]. unfold total. cbn [fold_right]. rewrite E0, E1. field. split; nra. }
  rewrite T0, T1.
  assert (G1 : / 10 ^ 30 <= / (A + 1)). { apply Rinv_le_contravar; [lra|]. assert (9 ^ 10 + 1 <= 10 ^ 30) by (simpl; lra). lra. }
  assert (A1 : 1 < A) by (apply Rpower_gt1; lra).
  assert (G0 : / 10 ^ 30 <= A / (A + 1)). { unfold Rdiv. assert (0 < / (A + 1)) by (apply Rinv_0_lt_compat; lra). nra. }
  rewrite (Rmax_left _ _ G1), (Rmax_left _ _ G0). assert (EL : ln (A / (A + 1)) = ln A - ln (A + 1)) by (unfold Rdiv; rewrite ln_mult by (auto; apply Rinv_0_lt_compat; lra); rewrite ln_Rinv by lra; ring). rewrite EL, ln_Rinv by lra.
  cbn [INR]. replace (1 + 1) with 2 by lra. assert (0 < ln 2) by (rewrite <- ln_1; apply ln_increasing; lra). field. lra.
Qed.
Lemma split_dec x y : / 10 <= x -> x < y -> y <= 8 -> mean_cross_entropy 2 split_table split_pred y < mean_cross_entropy 2 split_table split_pred x.
Proof.
  intros Hx Hxy Hy. rewrite !split_cost by lra. assert (0 < ln 2) by (rewrite <- ln_1; apply ln_increasing; lra).
  pose proof (Rpower_dec 9 x y ltac:(lra) ltac:(lra) Hxy) as H1. pose proof (Rpower_gt1 9 y ltac:(lra) ltac:(lra)) as H2.
  set (a := Rpower 9 (/ y)) in *. set (b := Rpower 9 (/ x)) in *.
  apply Rmult_lt_compat_r; [apply Rinv_0_lt_compat; auto|]. apply Rmult_lt_compat_r; [lra|].
  assert (E : forall z, 0 < z -> ln (z + 1) + ln (z + 1) - ln z = ln ((z + 1) * (z + 1) * / z)).
  { intros z Hz. rewrite ln_mult, ln_mult, ln_Rinv; try lra; [nra|apply Rinv_0_lt_compat; auto]. }
  rewrite !E by lra. apply ln_increasing.
  - apply Rmult_lt_0_compat; [nra|apply Rinv_0_lt_compat; lra].
  - apply (Rmult_lt_reg_r (a * b)); [nra|].
    replace ((a + 1) * (a + 1) * / a * (a * b)) with ((a + 1) * (a + 1) * b) by (field; lra).
    replace ((b + 1) * (b + 1) * / b * (a * b)) with ((b + 1) * (b + 1) * a) by (field; lra).
    assert (0 < (b - a) * (a * b - 1)) by (apply Rmult_lt_0_compat; nra). nra.
Qed.
Lemma split_result : find_best_temp_scaler Integers split_table 2 split_pred default_search 4 = Ok (29 / 4) /\
  mean_cross_entropy 2 split_table split_pred 8 < mean_cross_entropy 2 split_table split_pred (29 / 4).
Proof.
  split; [|apply split_dec; lra]. apply (search_dec _ _ split_pred 2 split_annotations eq_refl split_prob). apply split_dec.
Qed.

(** two annotators who agree on class [k] of three, prediction 9/10 for class 2 *)
Definition agree_table (k : nat) : list row := [[Some k; Some k]].
Definition sure_pred : list (list R) := [[1 / 20; 1 / 20; 9 / 10]].
Lemma agree_annotations k : (k < 3)%nat -> annotations 2 3 (agree_table k).
Proof.
  intros H. constructor; unfold agree_table; intros r; [| |intros l]; intros [<-|[]]; auto.
  - exists k. left; auto.
  - intros [E|[E|[]]]; inversion E; lia.
Qed.
Lemma sure_prob : forall p, In p sure_pred -> prob_row 3 p.
Proof.
  intros p [<-|[]]. split; [reflexivity|]. split; [|unfold total; simpl; lra]. intros x [<-|[<-|[<-|[]]]]; lra.
Qed.
Lemma sure_tempered T : / 10 <= T -> let A := Rpower 18 (/ T) in
  tempered T [1 / 20; 1 / 20; 9 / 10] 0 = / (A + 2) /\ tempered T [1 / 20; 1 / 20; 9 / 10] 2 = A / (A + 2).
Proof.
  intros HT A. assert (HA : 0 < A) by apply Rpower_pos.
  assert (E0 : powered T (9 / 10) = A * Rpower (1 / 20) (/ T)) by (replace (9 / 10) with (18 * (1 / 20)) by lra; apply powered_mult; lra).
  assert (E1 : powered T (1 / 20) = Rpower (1 / 20) (/ T)) by (apply powered_one; lra).
  pose proof (Rpower_pos (1 / 20) (/ T)) as HP. set (B := Rpower (1 / 20) (/ T)) in *.
  split; unfold tempered; cbn [nth map]; unfold total; cbn [fold_right]; rewrite E0, E1; field; split; nra.
Qed.
Lemma sure_cost0 T : / 10 <= T -> mean_cross_entropy 3 (agree_table 0) sure_pred T = ln (Rpower 18 (/ T) + 2) / ln 3.
Proof.
  intros HT. unfold mean_cross_entropy, agree_table, sure_pred. cbn [length seq map nth]. unfold total at 1. cbn [fold_right].
  unfold cross_entropy. cbn [seq map]. unfold total at 1. cbn [fold_right]. unfold rshare. cbn [n_given filter length].
  replace (votes [Some 0%nat; Some 0%nat] 0) with 2%nat by reflexivity. replace (votes [Some 0%nat; Some 0%nat] 1) with 0%nat by reflexivity.
  replace (votes [Some 0%nat; Some 0%nat] 2) with 0%nat by reflexivity.
  destruct (sure_tempered T HT) as (-> & _). set (A := Rpower 18 (/ T)).
  assert (HA : 0 < A) by apply Rpower_pos. assert (HB : A <= 18 ^ 10) by (apply Rpower_bound; lra).
  assert (G1 : / 10 ^ 30 <= / (A + 2)). { apply Rinv_le_contravar; [lra|]. assert (18 ^ 10 + 2 <= 10 ^ 30) by (simpl; lra). lra. }
  rewrite (Rmax_left _ _ G1). rewrite ln_Rinv by lra. cbn [INR]. replace (1 + 1 + 1) with 3 by lra.
  assert (0 < ln 3) by (rewrite <- ln_1; apply ln_increasing; lra). field. lra.
Qed.
Lemma sure_cost2 T : / 10 <= T -> mean_cross_entropy 3 (agree_table 2) sure_pred T = ln (1 + 2 * / Rpower 18 (/ T)) / ln 3.
Proof.
  intros HT. unfold mean_cross_entropy, agree_table, sure_pred. cbn [length seq map nth]. unfold total at 1. cbn [fold_right].
  unfold cross_entropy. cbn [seq map]. unfold total at 1. cbn [fold_right]. unfold rshare. cbn [n_given filter length].
  replace (votes [Some 2%nat; Some 2%nat] 0) with 0%nat by reflexivity. replace (votes [Some 2%nat; Some 2%nat] 1) with 0%nat by reflexivity.
  replace (votes [Some 2%nat; Some 2%nat] 2) with 2%nat by reflexivity.
  destruct (sure_tempered T HT) as (_ & ->). set (A := Rpower 18 (/ T)).
  assert (HA : 0 < A) by apply Rpower_pos. assert (A1 : 1 < A) by (apply Rpower_gt1; lra).
  assert (G1 : / 10 ^ 30 <= A / (A + 2)).
  { apply (Rmult_le_reg_r (A + 2)); [lra|]. unfold Rdiv. rewrite Rmult_assoc, Rinv_l, Rmult_1_r by lra.
    assert (/ 10 ^ 30 <= / 3). { apply Rinv_le_contravar; [lra|]. simpl; lra. } nra. }
  rewrite (Rmax_left _ _ G1). replace (1 + 2 * / A) with (/ (A / (A + 2))) by (field; lra). rewrite ln_Rinv by (apply Rdiv_lt_0_compat; lra).
  cbn [INR]. replace (1 + 1 + 1) with 3 by lra. assert (0 < ln 3) by (rewrite <- ln_1; apply ln_increasing; lra). field. lra.
Qed.
Lemma agree_result : find_best_temp_scaler Integers (agree_table 2) 3 sure_pred default_search 4 = Ok (/ 10) /\
  find_best_temp_scaler Floats (agree_table 2) 3 sure_pred default_search 4 = Ok (29 / 4) /\
  mean_cross_entropy 3 (agree_table 2) sure_pred 1 < mean_cross_entropy 3 (agree_table 2) sure_pred (29 / 4).
Proof.
  assert (L3 : 0 < ln 3) by (rewrite <- ln_1; apply ln_increasing; lra).
  assert (I : forall x y, / 10 <= x -> x < y -> y <= 8 -> mean_cross_entropy 3 (agree_table 2) sure_pred x < mean_cross_entropy 3 (agree_table 2) sure_pred y).
  { intros x y Hx Hxy Hy. rewrite !sure_cost2 by lra. apply Rmult_lt_compat_r; [apply Rinv_0_lt_compat; auto|].
    pose proof (Rpower_dec 18 x y ltac:(lra) ltac:(lra) Hxy) as H1. pose proof (Rpower_pos 18 (/ y)) as H2. pose proof (Rpower_pos 18 (/ x)) as H3.
    pose proof (Rinv_0_lt_compat _ H3). assert (/ Rpower 18 (/ x) < / Rpower 18 (/ y)) by (apply Rinv_lt_contravar; auto; apply Rmult_lt_0_compat; auto).
    apply ln_increasing; lra. }
  split; [|split; [|apply I; lra]].
  - apply (search_inc _ _ sure_pred 2 (agree_annotations 2 ltac:(lia)) eq_refl sure_prob). exact I.
  - change (find_best_temp_scaler Integers (agree_table 0) 3 sure_pred default_search 4 = Ok (29 / 4)).
    apply (search_dec _ _ sure_pred 2 (agree_annotations 0 ltac:(lia)) eq_refl sure_prob).
    intros x y Hx Hxy Hy. rewrite !sure_cost0 by lra. apply Rmult_lt_compat_r; [apply Rinv_0_lt_compat; auto|].
    pose proof (Rpower_dec 18 x y ltac:(lra) ltac:(lra) Hxy) as H1. pose proof (Rpower_pos 18 (/ y)) as H2. apply ln_increasing; lra.
Qed.

Lemma rows_full pp temp i : (i < length pp)%nat -> length (temp_scale_pred_probs pp temp) = length pp /\
  nth i (temp_scale_pred_probs pp temp) [] = temp_scale_row temp (nth i pp []).
Proof.
  intros H. unfold temp_scale_pred_probs. rewrite map_length. split; auto.
  rewrite (nth_indep _ [] (temp_scale_row temp [])) by (rewrite map_length; auto). apply map_nth.
Qed.
Lemma half_example : nth 0 (temp_scale_row (/ 2) [3 / 4; 1 / 4]) 0 = 9 / 10.
Proof.
  assert (S1 : small_const <= / 4) by (apply Rinv_le_contravar; simpl; lra).
  rewrite scaled_recip by (try discriminate; simpl; lia).
  assert (Eq : clip_normalise [3 / 4; 1 / 4] = [3 / 4; 1 / 4]).
  { unfold clip_normalise. cbn [map]. rewrite !Rmax_left by lra. unfold rsum. cbn [fold_right]. apply (f_equal2 (@cons R)); [lra|]. apply (f_equal2 (@cons R)); [lra|reflexivity]. }
  rewrite Eq. cbn [nth map]. rewrite Rmax_left by (unfold eps_const; lra). unfold rsum. cbn [fold_right].
  replace ((ln (3 / 4) - ln (3 / 4)) / / 2) with 0 by lra. rewrite exp_0.
  replace ((ln (1 / 4) - ln (3 / 4)) / / 2) with (- (ln 3 + ln 3)).
  - rewrite exp_Ropp, exp_plus, exp_ln by lra. lra.
  - unfold Rdiv. rewrite (ln_mult 3 (/ 4)) by lra. rewrite Rmult_1_l. lra.
Qed.

Lemma default_full ty M K t pp :
  ty = Integers \/ (forall r, In r t -> no_gaps r) ->
  annotations M K t -> length pp = length t -> (forall p, In p pp -> prob_row K p) ->
  exists T, find_best_temp_scaler ty t K pp default_search 4 = Ok T /\ / 10 <= T <= 8 /\
    let cost := mean_cross_entropy K t pp in
    ((forall c, In c [/ 10; / 5; / 2; 4 / 5; 1; 2; 3; 5; 8] -> cost T <= cost c) \/
     ((forall c, In c [/ 10; / 5; / 2; 4 / 5; 1; 2; 3; 5] -> cost 8 < cost c) /\ 5 <= T < 8)).
Proof.
  intros H1 H2 H3 H4. destruct (search_full ty M K t pp default_search 4 H1 H2 H3 H4 default_temperatures) as (T & E & R & C & _); [cbn; lia|lia|].
  exists T. split; [exact E|]. split; [exact R|]. cbv zeta in *. destruct C as [C|(C & D)]; [left; exact C|right]. split; [|exact D].
  intros c Hc. apply In_nth with (d := 0) in Hc as (j & Hj & <-). specialize (C j Hj).
  do 8 (destruct j as [|j]; [exact C|]). cbn in Hj. lia.
Qed.
