(** * Proofs for C165 and C166 *)
From Coq Require Import QArith Qreals Reals List Bool Arith Lia Lra.
From Verif Require Import Base BaseFacts ModelUtil ModelEntropy ModelOutlier ModelToken ModelDetection ModelSegmentation
     ProofUtil ProofOutlier ProofToken ProofDetection ProofDetectionR.
Import ListNotations.
Open Scope R_scope.

(** the weighted mean behind every softmin *)
Definition ew (T s : R) : R := exp (- s / T).
Definition num (T : R) (l : list R) : R := rsum (map (fun s => s * ew T s) l).
Definition den (T : R) (l : list R) : R := rsum (map (ew T) l).
Definition sm (T : R) (l : list R) : R := num T l / den T l.

Lemma rsum_scale c (f : R -> R) l : rsum (map (fun s => c * f s) l) = c * rsum (map f l).
Proof. induction l as [|x l IH]; [cbn; ring|]. cbn [map]. rewrite !rsum_cons', IH. ring. Qed.
Lemma ew_pos T s : 0 < ew T s. Proof. apply exp_pos. Qed.
Lemma den_nonneg T l : 0 <= den T l.
Proof. unfold den. induction l as [|x l IH]; [cbn; lra|]. cbn [map]. rewrite rsum_cons'. pose proof (ew_pos T x). lra. Qed.
Lemma den_pos T l : l <> [] -> 0 < den T l.
Proof.
  destruct l as [|x l]; [congruence|]. intros _. unfold den. cbn [map]. rewrite rsum_cons'.
  pose proof (ew_pos T x). pose proof (den_nonneg T l). unfold den in *. lra.
Qed.
Lemma sm_sentence eps t l : 0 < eps -> l <> [] -> softmin_sentence eps t l = Ok (sm (Rmax t eps) l).
Proof.
  intros He Hne. rewrite softmin_eq by auto. cbv zeta. f_equal. set (T := Rmax t eps). set (M := rmaximum _). clearbody M.
  assert (HT : 0 < T) by (unfold T; pose proof (Rmax_r t eps); lra). clearbody T.
  assert (W : forall s, weight T M s = exp (1 / T - M) * ew T s).
  { intros s. unfold weight, ew. rewrite <- exp_plus. f_equal. field. lra. }
  unfold sm, num, den. pose proof (exp_pos (1 / T - M)) as P. set (c := exp (1 / T - M)) in *.
  assert (A : rsum (map (fun s => s * weight T M s) l) = c * rsum (map (fun s => s * ew T s) l)).
  { rewrite <- rsum_scale. f_equal. apply map_ext. intros s. rewrite W. ring. }
  assert (B : rsum (map (weight T M) l) = c * rsum (map (ew T) l)).
  { rewrite <- rsum_scale. f_equal. apply map_ext. intros s. apply W. }
  rewrite A, B. pose proof (den_pos T l Hne). unfold den in *. field. lra.
Qed.
Lemma softmin_inv eps t l v : 0 < eps -> softmin_sentence eps t l = Ok v -> l <> [] /\ v = sm (Rmax t eps) l.
Proof.
  intros He E. assert (Hne : l <> []) by (destruct l; [discriminate|congruence]). split; auto.
  rewrite sm_sentence in E by auto. injection E as <-. auto.
Qed.
Lemma clip_pos t eps : 0 < eps -> 0 < Rmax t eps.
Proof. intros. pose proof (Rmax_r t eps). lra. Qed.

(** softmin of the object-detection code: the same mean *)
Lemma softmin1d_sentence t l : l <> [] -> softmin_sentence (Q2R EPSILON) t l = Ok (softmin1d t l).
Proof.
  intros Hne. rewrite sm_sentence by (auto using eps_pos). f_equal. symmetry. rewrite softmin1d_eq.
  set (T := Rmax t _). set (M := rmaximum _). clearbody M.
  assert (HT : 0 < T) by (unfold T; apply clip_pos, eps_pos). clearbody T.
  assert (W : forall s, wt T M s = exp (- M) * ew T s).
  { intros s. unfold wt, ew. rewrite <- exp_plus. f_equal. field. lra. }
  unfold sm, num, den. pose proof (exp_pos (- M)) as P. set (c := exp (- M)) in *.
  assert (A : rsum (map (fun s => wt T M s * s) l) = c * rsum (map (fun s => s * ew T s) l)).
  { rewrite <- rsum_scale. f_equal. apply map_ext. intros s. rewrite W. ring. }
  assert (B : rsum (map (wt T M) l) = c * rsum (map (ew T) l)).
  { rewrite <- rsum_scale. f_equal. apply map_ext. intros s. apply W. }
  rewrite A, B. pose proof (den_pos T l Hne). unfold den in *. field. lra.
Qed.

(** ** temperature *)
Lemma weighted_chebyshev (w u : R -> R) : (forall s, 0 < w s) -> (forall s s', s <= s' -> u s <= u s') -> forall l,
  rsum (map (fun s => s * w s) l) * rsum (map (fun s => w s * u s) l) <=
  rsum (map (fun s => s * (w s * u s)) l) * rsum (map w l).
Proof.
  intros Hw Hu. assert (P : forall x y, 0 <= (x - y) * (u x - u y)).
  { intros x y. destruct (Rle_dec x y) as [H|H].
    - specialize (Hu x y H). replace ((x - y) * (u x - u y)) with ((y - x) * (u y - u x)) by ring. apply Rmult_le_pos; lra.
    - specialize (Hu y x ltac:(lra)). apply Rmult_le_pos; lra. }
  assert (C : forall x l,
     x * w x * rsum (map (fun s => w s * u s) l) + w x * u x * rsum (map (fun s => s * w s) l) <=
     x * (w x * u x) * rsum (map w l) + w x * rsum (map (fun s => s * (w s * u s)) l)).
  { intros x l. induction l as [|y l IH]; [cbn; lra|]. cbn [map]. rewrite !rsum_cons'.
    assert (0 <= w x * w y * ((x - y) * (u x - u y))) by (apply Rmult_le_pos; [apply Rmult_le_pos; left; auto|auto]).
    replace (x * w x * (w y * u y + rsum (map (fun s => w s * u s) l)) + w x * u x * (y * w y + rsum (map (fun s => s * w s) l)))
      with (x * w x * rsum (map (fun s => w s * u s) l) + w x * u x * rsum (map (fun s => s * w s) l) + w x * w y * (x * u y + y * u x)) by ring.
    replace (x * (w x * u x) * (w y + rsum (map w l)) + w x * (y * (w y * u y) + rsum (map (fun s => s * (w s * u s)) l)))
      with (x * (w x * u x) * rsum (map w l) + w x * rsum (map (fun s => s * (w s * u s)) l) + w x * w y * (x * u x + y * u y)) by ring.
    assert (w x * w y * ((x - y) * (u x - u y)) = w x * w y * (x * u x + y * u y) - w x * w y * (x * u y + y * u x)) by ring. lra. }
  induction l as [|x l IH]; [cbn; lra|]. specialize (C x l). cbn [map]. rewrite !rsum_cons'. 
  set (a := rsum (map (fun s => s * w s) l)) in *. set (b := rsum (map (fun s => w s * u s) l)) in *.
  set (c := rsum (map (fun s => s * (w s * u s)) l)) in *. set (d := rsum (map w l)) in *. lra.
Qed.

Lemma sm_temperature T T' l : 0 < T -> T <= T' -> l <> [] -> sm T l <= sm T' l.
Proof.
  intros HT HTT Hne. unfold sm. pose proof (den_pos T l Hne) as D. pose proof (den_pos T' l Hne) as D'.
  set (u := fun s => exp (s * (/ T - / T'))).
  assert (Hi : / T' <= / T) by (apply Rinv_le_contravar; auto).
  assert (W : forall s, ew T' s = ew T s * u s).
  { intros s. unfold ew, u. rewrite <- exp_plus. f_equal. field. lra. }
  assert (Mu : forall s s', s <= s' -> u s <= u s').
  { intros s s' H. unfold u. assert (s * (/ T - / T') <= s' * (/ T - / T')) as [L|E] by (apply Rmult_le_compat_r; lra).
    - left. apply exp_increasing. auto.
    - rewrite E. lra. }
  pose proof (weighted_chebyshev (ew T) u (ew_pos T) Mu l) as C.
  assert (N1 : rsum (map (fun s => ew T s * u s) l) = den T' l).
  { unfold den. f_equal. apply map_ext. intros s. symmetry. apply W. }
  assert (N2 : rsum (map (fun s => s * (ew T s * u s)) l) = num T' l).
  { unfold num. f_equal. apply map_ext. intros s. rewrite W. auto. }
  rewrite N1, N2 in C. fold (num T l) in C. fold (den T l) in C.
  apply Rle_div_l; auto. replace (num T' l / den T' l * den T l) with (num T' l * den T l / den T' l) by (field; lra).
  apply Rle_div_r; auto.
Qed.

Lemma sm_ge T l lo : l <> [] -> (forall s, In s l -> lo <= s) -> lo <= sm T l.
Proof.
  intros Hne H. apply Rle_div_r; [apply den_pos; auto|]. apply weighted_ge; auto. intros; apply ew_pos.
Qed.
Lemma sm_le T l hi : l <> [] -> (forall s, In s l -> s <= hi) -> sm T l <= hi.
Proof.
  intros Hne H. apply Rle_div_l; [apply den_pos; auto|]. apply weighted_le; auto. intros; apply ew_pos.
Qed.

(** one term: above the minimum by [d], weighted by exp(-d/T), is at most T *)
Lemma term_bound T lo s : 0 < T -> lo <= s -> (s - lo) * ew T s <= T * ew T lo.
Proof.
  intros HT H. assert (E : ew T lo = ew T s * exp ((s - lo) / T)).
  { unfold ew. rewrite <- exp_plus. f_equal. field. lra. }
  rewrite E. pose proof (ew_pos T s). pose proof (exp_ineq1_le ((s - lo) / T)).
  assert (Es : s - lo = T * ((s - lo) / T)) by (field; lra).
  set (x := (s - lo) / T) in *. clearbody x. rewrite Es.
  replace (T * x * ew T s) with (T * ew T s * x) by ring. replace (T * (ew T s * exp x)) with (T * ew T s * exp x) by ring.
  apply Rmult_le_compat_l; [apply Rmult_le_pos; lra|lra].
Qed.
Lemma sum_bound T lo l : 0 < T -> (forall s, In s l -> lo <= s) ->
  rsum (map (fun s => (s - lo) * ew T s) l) <= INR (length l) * (T * ew T lo).
Proof.
  intros HT. induction l as [|x l IH]; intros H; [cbn; lra|]. cbn [map length]. rewrite rsum_cons', S_INR.
  pose proof (term_bound T lo x HT (H x (or_introl eq_refl))). specialize (IH (fun s Hs => H s (or_intror Hs))). lra.
Qed.
Lemma num_shift T lo l : num T l - lo * den T l = rsum (map (fun s => (s - lo) * ew T s) l).
Proof. unfold num, den. induction l as [|x l IH]; [cbn; ring|]. cbn [map]. rewrite !rsum_cons', <- IH. ring. Qed.
Lemma sm_low T lo l : 0 < T -> In lo l -> (forall s, In s l -> lo <= s) ->
  sm T l <= lo + INR (length l - 1) * T.
Proof.
  intros HT Hin H. apply in_split in Hin as (a & b & ->).
  assert (Hne : a ++ lo :: b <> []) by (destruct a; discriminate).
  assert (Hl : length (a ++ lo :: b) = Datatypes.S (length (a ++ b))) by (rewrite !app_length; cbn [length]; lia).
  rewrite Hl. cbn [Nat.sub]. rewrite Nat.sub_0_r.
  apply Rle_div_l; [apply den_pos; auto|].
  assert (S1 : rsum (map (fun s => (s - lo) * ew T s) (a ++ lo :: b)) = rsum (map (fun s => (s - lo) * ew T s) (a ++ b))).
  { rewrite !map_app. cbn [map]. clear. induction (map (fun s => (s - lo) * ew T s) a) as [|x l IH]; cbn [app]; rewrite !rsum_cons'; [ring|].
    rewrite IH. reflexivity. }
  assert (S2 : ew T lo <= den T (a ++ lo :: b)).
  { unfold den. rewrite map_app. cbn [map]. clear. induction a as [|x a IH]; cbn [map app]; rewrite rsum_cons'.
    - pose proof (den_nonneg T b). unfold den in *. lra.
    - pose proof (ew_pos T x). lra. }
  pose proof (num_shift T lo (a ++ lo :: b)) as N. rewrite S1 in N.
  assert (B : rsum (map (fun s => (s - lo) * ew T s) (a ++ b)) <= INR (length (a ++ b)) * (T * ew T lo)).
  { apply sum_bound; auto. intros s Hs. apply H. apply in_app_iff in Hs. apply in_app_iff. cbn [In]. tauto. }
  assert (INR (length (a ++ b)) * (T * ew T lo) <= INR (length (a ++ b)) * T * den T (a ++ lo :: b)).
  { rewrite Rmult_assoc. apply Rmult_le_compat_l; [apply pos_INR|]. apply Rmult_le_compat_l; lra. }
  lra.
Qed.

(** the mean *)
Lemma rsum_const_minus c l : rsum (map (fun s => c - s) l) = INR (length l) * c - rsum l.
Proof. induction l as [|x l IH]; [cbn; ring|]. cbn [map length]. rewrite !rsum_cons', IH, S_INR. ring. Qed.
Lemma sm_high T lo hi l : 0 < T -> l <> [] -> (forall s, In s l -> lo <= s <= hi) ->
  rsum l / INR (length l) - sm T l <= (hi - lo) * (hi - lo) / T.
Proof.
  intros HT Hne H. set (n := INR (length l)).
  assert (Hn : 0 < n) by (unfold n; apply lt_0_INR; destruct l; [congruence|cbn; lia]).
  set (mu := rsum l / n).
  assert (Hlh : lo <= hi) by (destruct l as [|x l]; [congruence|]; specialize (H x (or_introl eq_refl)); lra).
  assert (Hmu : lo <= mu <= hi).
  { assert (n * lo <= rsum l <= n * hi).
    { unfold n. clear - H. induction l as [|x l IH]; [cbn; lra|]. cbn [length]. rewrite rsum_cons', S_INR.
      specialize (IH (fun s Hs => H s (or_intror Hs))). specialize (H x (or_introl eq_refl)). lra. }
    unfold mu. split; [apply Rle_div_r|apply Rle_div_l]; auto; lra. }
  pose proof (den_pos T l Hne) as D.
  assert (E0 : rsum (map (fun s => mu - s) l) = 0).
  { rewrite rsum_const_minus. fold n. unfold mu. field. lra. }
  set (c := ew T hi).
  assert (G : rsum (map (fun s => (mu - s) * ew T s) l) <= (hi - lo) * ((hi - lo) / T) * den T l).
  { assert (E1 : rsum (map (fun s => (mu - s) * ew T s) l) = rsum (map (fun s => (mu - s) * (ew T s - c)) l)).
    { rewrite <- (Rplus_0_r (rsum (map (fun s => (mu - s) * (ew T s - c)) l))).
      replace 0 with (c * rsum (map (fun s => mu - s) l)) by (rewrite E0; ring). clear. clearbody mu c.
      induction l as [|x l IH]; [cbn; ring|]. cbn [map]. rewrite !rsum_cons', IH. ring. }
    rewrite E1. clear E0 E1 D Hne. clearbody mu. clear n Hn. unfold den. induction l as [|x l IH]; [cbn; lra|]. cbn [map].
    rewrite !rsum_cons'. specialize (IH (fun s Hs => H s (or_intror Hs))). specialize (H x (or_introl eq_refl)).
    assert (K1 : 0 <= ew T x - c <= (hi - lo) / T * ew T x).
    { assert (Ec : c = ew T x * exp (- ((hi - x) / T))).
      { unfold c, ew. rewrite <- exp_plus. f_equal. field. lra. }
      pose proof (ew_pos T x). pose proof (exp_ineq1_le (- ((hi - x) / T))).
      assert (0 <= (hi - x) / T) by (apply Rle_div_r; lra).
      assert ((hi - x) / T <= (hi - lo) / T) by (apply Rmult_le_compat_r; [left; apply Rinv_0_lt_compat; auto|lra]).
      assert (exp (- ((hi - x) / T)) <= 1).
      { destruct (Req_dec ((hi - x) / T) 0) as [Z|Z]; [rewrite Z, Ropp_0, exp_0; lra|].
        rewrite <- exp_0. left. apply exp_increasing. lra. }
      rewrite Ec. split; [|].
      - assert (0 <= ew T x * (1 - exp (- ((hi - x) / T)))) by (apply Rmult_le_pos; lra). lra.
      - assert (ew T x * (1 - exp (- ((hi - x) / T))) <= ew T x * ((hi - lo) / T)) by (apply Rmult_le_compat_l; lra). lra. }
    assert ((mu - x) * (ew T x - c) <= (hi - lo) * ((hi - lo) / T * ew T x)).
    { apply Rle_trans with ((hi - lo) * (ew T x - c)).
      - apply Rmult_le_compat_r; lra.
      - apply Rmult_le_compat_l; lra. }
    lra. }
  assert (E2 : rsum (map (fun s => (mu - s) * ew T s) l) = mu * den T l - num T l).
  { unfold num, den. clear. clearbody mu. induction l as [|x l IH]; [cbn; ring|]. cbn [map]. rewrite !rsum_cons', IH. ring. }
  rewrite E2 in G. unfold sm. fold n. fold mu.
  assert (mu * den T l - num T l = (mu - num T l / den T l) * den T l) as E3 by (field; lra). rewrite E3 in G.
  apply Rmult_le_reg_r in G; auto. unfold Rdiv in *. lra.
Qed.

(** ** raising one score *)
Lemma num_mid T a x b : num T (a ++ x :: b) = x * ew T x + num T (a ++ b).
Proof. unfold num. rewrite !map_app. cbn [map]. induction a as [|y a IH]; cbn [map app]; rewrite ?rsum_cons'; [ring|]. rewrite IH, ?rsum_cons'. ring. Qed.
Lemma den_mid T a x b : den T (a ++ x :: b) = ew T x + den T (a ++ b).
Proof. unfold den. rewrite !map_app. cbn [map]. induction a as [|y a IH]; cbn [map app]; rewrite ?rsum_cons'; [ring|]. rewrite IH, ?rsum_cons'. ring. Qed.

(** the sign of the change is the sign of (v-m) e^(-v/T) - (u-m) e^(-u/T), where m is the old value *)
Lemma sm_change T a u v b : let m := sm T (a ++ u :: b) in
  (sm T (a ++ v :: b) - m) * den T (a ++ v :: b) = (v - m) * ew T v - (u - m) * ew T u.
Proof.
  intros m. assert (Du : 0 < den T (a ++ u :: b)) by (apply den_pos; destruct a; discriminate).
  assert (Dv : 0 < den T (a ++ v :: b)) by (apply den_pos; destruct a; discriminate).
  assert (E : m * den T (a ++ u :: b) = num T (a ++ u :: b)) by (unfold m, sm; field; lra).
  assert (E' : sm T (a ++ v :: b) * den T (a ++ v :: b) = num T (a ++ v :: b)) by (unfold sm; field; lra).
  rewrite Rmult_minus_distr_r, E', num_mid, den_mid. rewrite num_mid, den_mid in E.
  set (ev := ew T v) in *. set (eu := ew T u) in *. set (N := num T (a ++ b)) in *. set (D := den T (a ++ b)) in *.
  clearbody m ev eu N D. lra.
Qed.
Lemma ew_step T u v : 0 < T -> ew T u = ew T v * exp ((v - u) / T).
Proof. intros. unfold ew. rewrite <- exp_plus. f_equal. field. lra. Qed.

Lemma sm_raise T a u v b : 0 < T -> u <= v ->
  u <= sm T (a ++ u :: b) \/ v <= sm T (a ++ u :: b) + T -> sm T (a ++ u :: b) <= sm T (a ++ v :: b).
Proof.
  intros HT Huv H. pose proof (sm_change T a u v b) as E. cbv zeta in E.
  assert (Dv : 0 < den T (a ++ v :: b)) by (apply den_pos; destruct a; discriminate).
  set (m := sm T (a ++ u :: b)) in *. clearbody m.
  assert (G : 0 <= (v - m) * ew T v - (u - m) * ew T u).
  { rewrite (ew_step T u v HT). pose proof (ew_pos T v) as P.
    assert (X : 0 <= (v - u) / T) by (apply Rle_div_r; lra). set (x := (v - u) / T) in *.
    assert (Ev : v = u + T * x) by (unfold x; field; lra). clearbody x.
    replace ((v - m) * ew T v - (u - m) * (ew T v * exp x)) with (ew T v * ((v - m) - (u - m) * exp x)) by ring.
    apply Rmult_le_pos; [lra|]. pose proof (exp_ineq1_le x) as I. destruct (Rle_dec u m) as [L|L].
    - assert ((m - u) * 1 <= (m - u) * exp x) by (apply Rmult_le_compat_l; lra).
      assert (0 <= T * x) by (apply Rmult_le_pos; lra). lra.
    - destruct H as [H|H]; [lra|].
      pose proof (exp_ineq1_le (- x)) as I'. pose proof (exp_pos x) as Px.
      assert (Ex : exp (- x) * exp x = 1) by (rewrite <- exp_plus, Rplus_opp_l, exp_0; auto).
      assert ((1 + - x) * exp x <= 1) by (rewrite <- Ex; apply Rmult_le_compat_r; lra).
      assert (A1 : u - m <= T * (1 - x)) by lra.
      assert ((u - m) * (exp x - 1) <= T * (1 - x) * (exp x - 1)) by (apply Rmult_le_compat_r; lra).
      assert (T * ((1 - x) * (exp x - 1)) <= T * x) by (apply Rmult_le_compat_l; lra). lra. }
  rewrite <- E in G. destruct (Rle_dec m (sm T (a ++ v :: b))) as [|N]; auto.
  assert (0 < (m - sm T (a ++ v :: b)) * den T (a ++ v :: b)) by (apply Rmult_lt_0_compat; lra). lra.
Qed.
Lemma sm_raise_high T a u v b : 0 < T -> u < v -> sm T (a ++ u :: b) + T <= u ->
  sm T (a ++ v :: b) < sm T (a ++ u :: b).
Proof.
  intros HT Huv H. pose proof (sm_change T a u v b) as E. cbv zeta in E.
  assert (Dv : 0 < den T (a ++ v :: b)) by (apply den_pos; destruct a; discriminate).
  set (m := sm T (a ++ u :: b)) in *. clearbody m.
  assert (G : (v - m) * ew T v - (u - m) * ew T u < 0).
  { rewrite (ew_step T u v HT). pose proof (ew_pos T v) as P.
    assert (X : 0 < (v - u) / T) by (apply Rdiv_lt_0_compat; lra). set (x := (v - u) / T) in *.
    assert (Ev : v = u + T * x) by (unfold x; field; lra). clearbody x.
    replace ((v - m) * ew T v - (u - m) * (ew T v * exp x)) with (- (ew T v * ((u - m) * exp x - (v - m)))) by ring.
    assert (0 < ew T v * ((u - m) * exp x - (v - m))); [|lra]. apply Rmult_lt_0_compat; auto.
    pose proof (exp_ineq1 x ltac:(lra)).
    assert (T * (exp x - 1) <= (u - m) * (exp x - 1)) by (apply Rmult_le_compat_r; lra).
    assert (T * x < T * (exp x - 1)) by (apply Rmult_lt_compat_l; lra). lra. }
  rewrite <- E in G. destruct (Rlt_dec (sm T (a ++ v :: b)) m) as [|N]; auto.
  assert (0 <= (sm T (a ++ v :: b) - m) * den T (a ++ v :: b)) by (apply Rmult_le_pos; lra). lra.
Qed.

(** a temperature at least as large as the range of the scores: raising any number of scores *)
Lemma sm_monotone T lo l l' : 0 < T -> l <> [] -> (forall s, In s l -> lo <= s) -> (forall s, In s l' -> s <= lo + T) ->
  Forall2 Rle l l' -> sm T l <= sm T l'.
Proof.
  intros HT Hne Hlo Hhi F.
  assert (G : forall b b', Forall2 Rle b b' -> forall a, a ++ b <> [] -> (forall s, In s (a ++ b) -> lo <= s) ->
     (forall s, In s b' -> s <= lo + T) -> sm T (a ++ b) <= sm T (a ++ b')).
  { intros b b' Fb. induction Fb as [|x y b b' Hxy Fb IH]; intros a Ha Hl Hh; [lra|].
    apply Rle_trans with (sm T (a ++ y :: b)).
    - apply sm_raise; auto. right. pose proof (sm_ge T (a ++ x :: b) lo Ha Hl). specialize (Hh y (or_introl eq_refl)). lra.
    - replace (a ++ y :: b) with ((a ++ [y]) ++ b) by (rewrite <- app_assoc; reflexivity).
      replace (a ++ y :: b') with ((a ++ [y]) ++ b') by (rewrite <- app_assoc; reflexivity).
      apply IH.
      + destruct a; discriminate.
      + intros s Hs. rewrite <- app_assoc in Hs. apply in_app_iff in Hs as [Hs|[<-|Hs]].
        * apply Hl, in_app_iff. auto.
        * specialize (Hl x ltac:(apply in_app_iff; right; left; auto)). lra.
        * apply Hl, in_app_iff. right. right. auto.
      + intros s Hs. apply Hh. right. auto. }
  apply (G l l' F []); auto.
Qed.

(** ** statements for the Prop file *)
Lemma C165_temperature_full : forall eps t t' scores v v', 0 < eps -> t <= t' ->
  softmin_sentence eps t scores = Ok v -> softmin_sentence eps t' scores = Ok v' -> v <= v'.
Proof.
  intros eps t t' l v v' He Ht E E'. apply softmin_inv in E as (Hne & ->); auto. apply softmin_inv in E' as (_ & ->); auto.
  apply sm_temperature; auto; [apply clip_pos; auto|]. apply Rle_max_compat_r. auto.
Qed.
Lemma C165_low_full : forall eps t scores v lo, 0 < eps -> softmin_sentence eps t scores = Ok v ->
  In lo scores -> (forall s, In s scores -> lo <= s) -> lo <= v <= lo + INR (length scores - 1) * Rmax t eps.
Proof.
  intros eps t l v lo He E Hin H. apply softmin_inv in E as (Hne & ->); auto. split.
  - apply sm_ge; auto.
  - apply sm_low; auto. apply clip_pos; auto.
Qed.
Lemma C165_high_full : forall eps t scores v lo hi, 0 < eps -> softmin_sentence eps t scores = Ok v ->
  (forall s, In s scores -> lo <= s <= hi) ->
  v <= rsum scores / INR (length scores) <= v + (hi - lo) * (hi - lo) / Rmax t eps.
Proof.
  intros eps t l v lo hi He E H. destruct (softmin_inv _ _ _ _ He E) as (Hne & Ev).
  destruct (C60_softmin_full eps t l He Hne) as (v' & E' & _ & Hm). rewrite E in E'. injection E' as <-. split.
  - apply Rle_div_r; [|exact Hm]. apply lt_0_INR. destruct l; [congruence|cbn; lia].
  - rewrite Ev. pose proof (sm_high (Rmax t eps) lo hi l (clip_pos t eps He) Hne H). lra.
Qed.
Lemma C166_raise_full : forall eps t a b u u' v v', 0 < eps -> u <= u' ->
  softmin_sentence eps t (a ++ u :: b) = Ok v -> softmin_sentence eps t (a ++ u' :: b) = Ok v' ->
  u <= v \/ u' <= v + Rmax t eps -> v <= v'.
Proof.
  intros eps t a b u u' v v' He Hu E E' H. apply softmin_inv in E as (_ & ->); auto. apply softmin_inv in E' as (_ & ->); auto.
  apply sm_raise; auto. apply clip_pos; auto.
Qed.
Lemma C166_high_full : forall eps t a b u u' v v', 0 < eps -> u < u' ->
  softmin_sentence eps t (a ++ u :: b) = Ok v -> softmin_sentence eps t (a ++ u' :: b) = Ok v' ->
  v + Rmax t eps <= u -> v' < v.
Proof.
  intros eps t a b u u' v v' He Hu E E' H. apply softmin_inv in E as (_ & ->); auto. apply softmin_inv in E' as (_ & ->); auto.
  apply sm_raise_high; auto. apply clip_pos; auto.
Qed.
Lemma C166_monotone_full : forall eps t scores scores' v v', 0 < eps -> 1 <= t ->
  (forall s, In s scores -> 0 <= s) -> (forall s, In s scores' -> s <= 1) -> Forall2 Rle scores scores' ->
  softmin_sentence eps t scores = Ok v -> softmin_sentence eps t scores' = Ok v' -> v <= v'.
Proof.
  intros eps t l l' v v' He Ht H0 H1 F E E'. apply softmin_inv in E as (Hne & ->); auto. apply softmin_inv in E' as (_ & ->); auto.
  apply sm_monotone with 0; auto; [apply clip_pos; auto|]. intros s Hs. specialize (H1 s Hs). pose proof (Rmax_l t eps). lra.
Qed.
(** two scores further apart than twice the temperature: improving the better one lowers the result *)
Lemma C166_refuted_gen : forall eps t lo u u', 0 < eps -> lo + 2 * Rmax t eps <= u -> u < u' ->
  exists v v', softmin_sentence eps t [lo; u] = Ok v /\ softmin_sentence eps t [lo; u'] = Ok v' /\ v' < v.
Proof.
  intros eps t lo u u' He Hu Huu. pose proof (clip_pos t eps He).
  exists (sm (Rmax t eps) [lo; u]), (sm (Rmax t eps) [lo; u']).
  assert (E : softmin_sentence eps t [lo; u] = Ok (sm (Rmax t eps) [lo; u])) by (apply sm_sentence; [auto|discriminate]).
  assert (E' : softmin_sentence eps t [lo; u'] = Ok (sm (Rmax t eps) [lo; u'])) by (apply sm_sentence; [auto|discriminate]).
  split; auto. split; auto. apply (C166_high_full eps t [lo] [] u u'); auto.
  pose proof (C165_low_full eps t [lo; u] _ lo He E (or_introl eq_refl)) as B. cbn [length Nat.sub INR] in B.
  assert (forall s, In s [lo; u] -> lo <= s) by (intros s [<-|[<-|[]]]; lra). specialize (B H0). lra.
Qed.
