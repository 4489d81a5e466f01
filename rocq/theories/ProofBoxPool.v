(** * Proofs for C169 *)
From Coq Require Import QArith Qreals Reals List ZArith Bool Arith Lia Lra.
From Verif Require Import Base BaseFacts ModelUtil ModelDetection ModelBoxPool SpecDetection SpecBoxPool ProofDetection ProofDetectionR.
Import ListNotations.
Open Scope R_scope.
Opaque TINY_VALUE.

Lemma exp_le' x y : x <= y -> exp x <= exp y.
Proof. intros [H| ->]; [left; apply exp_increasing; auto|lra]. Qed.

Lemma ln_quot x y : 0 < x -> 0 < y -> ln (x / y) = ln x - ln y.
Proof. intros Hx Hy. unfold Rdiv. rewrite ln_mult, ln_Rinv by (auto using Rinv_0_lt_compat). ring. Qed.

(** the logarithm of a score *)
Section Log.
  Context (dist : box -> box -> Q) (K : nat) (labels : list image_label) (predictions : list image_pred) (check : bool).
  Context (Hdist : forall a b, unit_interval (dist a b)) (Hin : detection_inputs K labels predictions).
  Notation p s i := (subtype_score dist check labels predictions s i).
  Definition wr w s := Q2R (weight_of w s).
  Definition logscore (w : agg_weights) (i : nat) : R :=
    wr w Overlooked * ln (p Overlooked i) + wr w Badloc * ln (p Badloc i) + wr w Swap * ln (p Swap i).

  Lemma sub_eq s i : (i < length labels)%nat -> exists v, 0 <= v <= 1 /\ nth i (subtype_scores dist check labels predictions s) 0 = v /\
    p s i = v + Q2R TINY_VALUE /\
    v = valid_score (Q2R TEMPERATURE) match s with
      | Overlooked => overlooked_scores HIGH_PROBABILITY_THRESHOLD (image_aux dist ALPHA labels predictions i)
      | Badloc => map Some (badloc_scores LOW_PROBABILITY_THRESHOLD (image_aux dist ALPHA labels predictions i))
      | Swap => map Some (swap_scores HIGH_PROBABILITY_THRESHOLD check (image_aux dist ALPHA labels predictions i)) end.
  Proof.
    intros Hi. destruct Hin as (Hne & Hl & HK0 & HK & HI).
    assert (Hp : forall i, (i < length labels)%nat -> probabilities_ok (nth i predictions [])) by (intros; apply HI; auto).
    destruct (units dist labels predictions K Hdist Hl (fun i Hi => proj1 (HI i Hi)) Hp HK0 check i Hi) as (U1 & U2 & U3).
    eexists. split; [|split; [|split; [|reflexivity]]].
    - apply valid_unit. destruct s; auto.
    - unfold subtype_scores, pool_box_scores_per_image, compute_overlooked_box_scores, compute_badloc_box_scores, compute_swap_box_scores.
      change (9 # 10)%Q with ALPHA. change (1 # 2)%Q with LOW_PROBABILITY_THRESHOLD. change (95 # 100)%Q with HIGH_PROBABILITY_THRESHOLD.
      rewrite (aux_inputs_tab dist ALPHA labels predictions Hl). unfold tab.
      destruct s; rewrite !map_map;
        (rewrite (nth_indep _ 0 (valid_score (Q2R TEMPERATURE) [])) by (rewrite map_length, seq_length; auto));
        match goal with |- nth i (map ?f (seq 0 ?n)) ?d = _ => rewrite (nth_indep _ d (f 0%nat)) by (rewrite map_length, seq_length; auto); rewrite (map_nth f) end;
        rewrite seq_nth by auto; reflexivity.
    - unfold subtype_score. f_equal.
      unfold subtype_scores, pool_box_scores_per_image, compute_overlooked_box_scores, compute_badloc_box_scores, compute_swap_box_scores.
      change (9 # 10)%Q with ALPHA. change (1 # 2)%Q with LOW_PROBABILITY_THRESHOLD. change (95 # 100)%Q with HIGH_PROBABILITY_THRESHOLD.
      rewrite (aux_inputs_tab dist ALPHA labels predictions Hl). unfold tab.
      destruct s; rewrite !map_map;
        (rewrite (nth_indep _ 0 (valid_score (Q2R TEMPERATURE) [])) by (rewrite map_length, seq_length; auto));
        match goal with |- nth i (map ?f (seq 0 ?n)) ?d = _ => rewrite (nth_indep _ d (f 0%nat)) by (rewrite map_length, seq_length; auto); rewrite (map_nth f) end;
        rewrite seq_nth by auto; reflexivity.
  Qed.
  Lemma p_range s i : (i < length labels)%nat -> Q2R TINY_VALUE <= p s i <= 1 + Q2R TINY_VALUE.
  Proof. intros Hi. destruct (sub_eq s i Hi) as (v & V & _ & -> & _). lra. Qed.
  Lemma p_pos s i : (i < length labels)%nat -> 0 < p s i.
  Proof. intros Hi. pose proof (p_range s i Hi). pose proof tiny_pos. lra. Qed.
  Lemma scores_log w : valid_weights w = true -> exists scores, detection_scores dist labels predictions w check = Ok scores /\
    length scores = length labels /\ forall i, (i < length labels)%nat -> nth i scores 0 = exp (logscore w i).
  Proof.
    intros Hw. pose proof Hin as (Hne & Hl & HK0 & HK & HI).
    assert (Hp : forall i, (i < length labels)%nat -> probabilities_ok (nth i predictions [])) by (intros; apply HI; auto).
    rewrite (scores_eq dist labels predictions K Hl (fun i Hi => proj1 (HI i Hi)) Hp HK HK0 Hne w check Hw).
    eexists. split; [reflexivity|]. split; [apply tab_length|]. intros i Hi. rewrite nth_tab by auto. unfold image_score, logscore.
    destruct (sub_eq Overlooked i Hi) as (v1 & _ & _ & -> & ->). destruct (sub_eq Badloc i Hi) as (v2 & _ & _ & -> & ->).
    destruct (sub_eq Swap i Hi) as (v3 & _ & _ & -> & ->). unfold wr. cbn [weight_of]. f_equal.
    rewrite !(Rplus_comm _ (Q2R TINY_VALUE)). reflexivity.
  Qed.
End Log.

Lemma wr_nonneg w s : valid_weights w = true -> 0 <= wr w s.
Proof. intros H. apply (weights_R w) in H as (A & B & C & _). destruct s; auto. Qed.
Lemma wr_sum w : (w_overlooked w + w_badloc w + w_swap w == 1)%Q -> wr w Overlooked + wr w Badloc + wr w Swap = 1.
Proof. intros H. apply Qeq_eqR in H. rewrite !Q2R_plus, RMicromega.Q2R_1 in H. exact H. Qed.

Lemma C169_only_full : forall dist K labels predictions w check s,
  (forall a b, unit_interval (dist a b)) -> detection_inputs K labels predictions ->
  weight_of w s == 1 -> (forall z, z <> s -> weight_of w z == 0) ->
  exists scores, detection_scores dist labels predictions w check = Ok scores /\ length scores = length labels /\
  forall i, (i < length labels)%nat -> nth i scores 0 = subtype_score dist check labels predictions s i.
Proof.
  intros dist K labels predictions w check s Hd Hi H1 H0.
  assert (Hw : valid_weights w = true).
  { unfold valid_weights. rewrite !andb_true_iff, !Qle_bool_iff. 
    assert (A : (w_overlooked w + w_badloc w + w_swap w - 1 == 0)%Q).
    { destruct s; cbn [weight_of] in H1;
        [pose proof (H0 Badloc ltac:(discriminate)) as A; pose proof (H0 Swap ltac:(discriminate)) as B
        |pose proof (H0 Overlooked ltac:(discriminate)) as A; pose proof (H0 Swap ltac:(discriminate)) as B
        |pose proof (H0 Overlooked ltac:(discriminate)) as A; pose proof (H0 Badloc ltac:(discriminate)) as B];
        cbn [weight_of] in A, B; rewrite A, B, H1; reflexivity. }
    assert (N : forall z, (0 <= weight_of w z)%Q).
    { intros z. assert (D : {z = s} + {z <> s}) by decide equality. destruct D as [->|D]; [rewrite H1; discriminate|rewrite H0 by auto; discriminate]. }
    rewrite A. split; [split; [split|]|]; [discriminate|apply (N Overlooked)|apply (N Badloc)|apply (N Swap)]. }
  destruct (scores_log dist K labels predictions check Hd Hi w Hw) as (sc & E & L & F). exists sc. split; auto. split; auto.
  intros i Hlt. rewrite F by auto. unfold logscore.
  assert (W1 : wr w s = 1) by (unfold wr; rewrite (Qeq_eqR _ _ H1); apply RMicromega.Q2R_1).
  assert (W0 : forall z, z <> s -> wr w z = 0) by (intros z Hz; unfold wr; rewrite (Qeq_eqR _ _ (H0 z Hz)); apply RMicromega.Q2R_0).
  rewrite <- (exp_ln (subtype_score dist check labels predictions s i)) by (eapply p_pos; eauto). f_equal.
  destruct s; rewrite W1, ?(W0 Overlooked), ?(W0 Badloc), ?(W0 Swap) by discriminate; lra.
Qed.

Lemma weight_cases w s : valid_weights w = true -> wr w s = 0 \/ (0 < weight_of w s)%Q.
Proof.
  intros Hw. pose proof (wr_nonneg w s Hw) as H. unfold wr in *. destruct (Qlt_le_dec 0 (weight_of w s)) as [G|G]; [right; auto|left].
  apply Qle_Rle in G. rewrite RMicromega.Q2R_0 in G. lra.
Qed.
Lemma term_le w s x y : valid_weights w = true -> 0 < x -> ((0 < weight_of w s)%Q -> x <= y) -> wr w s * ln x <= wr w s * ln y.
Proof.
  intros Hw Hx H. destruct (weight_cases w s Hw) as [->|G]; [lra|]. apply Rmult_le_compat_l; [apply wr_nonneg; auto|]. apply ln_le; auto.
Qed.

Lemma C169_between_full : forall dist K labels predictions w check scores i lo hi,
  (forall a b, unit_interval (dist a b)) -> detection_inputs K labels predictions -> (i < length labels)%nat ->
  (w_overlooked w + w_badloc w + w_swap w == 1)%Q ->
  detection_scores dist labels predictions w check = Ok scores ->
  (forall s, (0 < weight_of w s)%Q -> lo <= subtype_score dist check labels predictions s i <= hi) ->
  lo <= nth i scores 0 <= hi.
Proof.
  intros dist K labels predictions w check scores i lo hi Hd Hi Hlt Hs E H.
  assert (Hw : valid_weights w = true).
  { unfold detection_scores in E. destruct (assert_valid_detection labels predictions); [|discriminate].
    cbn [rbind] in E. destruct (valid_weights w); [auto|discriminate]. }
  destruct (scores_log dist K labels predictions check Hd Hi w Hw) as (sc & E' & _ & F). rewrite E in E'. injection E' as <-.
  rewrite F by auto. pose proof (wr_sum w Hs) as W. unfold logscore.
  pose proof (fun s => p_pos dist K labels predictions check Hd Hi s i Hlt) as P.
  split.
  - destruct (Rle_dec lo 0) as [G|G]; [pose proof (exp_pos (wr w Overlooked * ln (subtype_score dist check labels predictions Overlooked i) +
      wr w Badloc * ln (subtype_score dist check labels predictions Badloc i) + wr w Swap * ln (subtype_score dist check labels predictions Swap i))); lra|].
    assert (0 < lo) as L by lra. rewrite <- (exp_ln lo) at 1 by auto. apply exp_le'.
    assert (T : forall s, wr w s * ln lo <= wr w s * ln (subtype_score dist check labels predictions s i))
      by (intros s; apply term_le; auto; intros G'; apply H; auto).
    pose proof (T Overlooked). pose proof (T Badloc). pose proof (T Swap). nra.
  - assert (T : forall s, wr w s * ln (subtype_score dist check labels predictions s i) <= wr w s * ln hi)
      by (intros s; apply term_le; auto; intros G'; apply H; auto).
    assert (0 < hi) as L.
    { assert (exists s, (0 < weight_of w s)%Q) as (s & G).
      { destruct (weight_cases w Overlooked Hw) as [A|A]; [|eauto]. destruct (weight_cases w Badloc Hw) as [B|B]; [|eauto].
        destruct (weight_cases w Swap Hw) as [C|C]; [|eauto]. lra. }
      pose proof (H s G). pose proof (P s). lra. }
    rewrite <- (exp_ln hi) at 1 by auto. apply exp_le'. pose proof (T Overlooked). pose proof (T Badloc). pose proof (T Swap). nra.
Qed.

(** two images, possibly of two data sets *)
Lemma C169_monotone_full : forall dist K labels predictions K' labels' predictions' w check scores scores' i i',
  (forall a b, unit_interval (dist a b)) -> detection_inputs K labels predictions -> detection_inputs K' labels' predictions' ->
  (i < length labels)%nat -> (i' < length labels')%nat ->
  detection_scores dist labels predictions w check = Ok scores ->
  detection_scores dist labels' predictions' w check = Ok scores' ->
  (forall s, (0 < weight_of w s)%Q -> subtype_score dist check labels predictions s i <= subtype_score dist check labels' predictions' s i') ->
  nth i scores 0 <= nth i' scores' 0 /\
  ((exists s, (0 < weight_of w s)%Q /\ subtype_score dist check labels predictions s i < subtype_score dist check labels' predictions' s i') ->
   nth i scores 0 < nth i' scores' 0).
Proof.
  intros dist K labels predictions K' labels' predictions' w check scores scores' i i' Hd Hi Hi' Hlt Hlt' E E' H.
  assert (Hw : valid_weights w = true).
  { unfold detection_scores in E. destruct (assert_valid_detection labels predictions); [|discriminate].
    cbn [rbind] in E. destruct (valid_weights w); [auto|discriminate]. }
  destruct (scores_log dist K labels predictions check Hd Hi w Hw) as (sc & E1 & _ & F). rewrite E in E1. injection E1 as <-.
  destruct (scores_log dist K' labels' predictions' check Hd Hi' w Hw) as (sc & E1 & _ & F'). rewrite E' in E1. injection E1 as <-.
  rewrite F, F' by auto. unfold logscore.
  pose proof (fun s => p_pos dist K labels predictions check Hd Hi s i Hlt) as P.
  assert (T : forall s, wr w s * ln (subtype_score dist check labels predictions s i) <= wr w s * ln (subtype_score dist check labels' predictions' s i'))
    by (intros s; apply term_le; auto).
  pose proof (T Overlooked). pose proof (T Badloc). pose proof (T Swap). split; [apply exp_le'; lra|].
  intros (s & G & L). apply exp_increasing.
  assert (wr w s * ln (subtype_score dist check labels predictions s i) < wr w s * ln (subtype_score dist check labels' predictions' s i')).
  { apply Rmult_lt_compat_l; [|apply ln_increasing; auto]. unfold wr. apply Qlt_Rlt in G. rewrite RMicromega.Q2R_0 in G. auto. }
  destruct s; lra.
Qed.

Lemma moved_log dist K labels predictions check w w' d x y i : (forall a b, unit_interval (dist a b)) ->
  detection_inputs K labels predictions -> (i < length labels)%nat -> moved d x y w w' ->
  logscore dist labels predictions check w' i = logscore dist labels predictions check w i +
    Q2R d * (ln (subtype_score dist check labels predictions y i) - ln (subtype_score dist check labels predictions x i)).
Proof.
  intros _ _ _ (N & X & Y & Z). unfold logscore.
  assert (A : wr w' x = wr w x - Q2R d) by (unfold wr; rewrite (Qeq_eqR _ _ X); apply Q2R_minus).
  assert (B : wr w' y = wr w y + Q2R d) by (unfold wr; rewrite (Qeq_eqR _ _ Y); apply Q2R_plus).
  assert (C : forall z, z <> x -> z <> y -> wr w' z = wr w z) by (intros z U V; unfold wr; rewrite (Qeq_eqR _ _ (Z z U V)); reflexivity).
  destruct x, y; try congruence; rewrite A, B, C by discriminate; ring.
Qed.

Lemma C169_move_full : forall dist K labels predictions check w w' d x y scores scores' i,
  (forall a b, unit_interval (dist a b)) -> detection_inputs K labels predictions -> (i < length labels)%nat ->
  (0 < d)%Q -> moved d x y w w' ->
  detection_scores dist labels predictions w check = Ok scores ->
  detection_scores dist labels predictions w' check = Ok scores' ->
  nth i scores' 0 < nth i scores 0 <->
  nth i (subtype_scores dist check labels predictions y) 0 < nth i (subtype_scores dist check labels predictions x) 0.
Proof.
  intros dist K labels predictions check w w' d x y scores scores' i Hd Hi Hlt D M E E'.
  assert (Hw : forall w sc, detection_scores dist labels predictions w check = Ok sc -> valid_weights w = true).
  { clear. intros w sc E. unfold detection_scores in E. destruct (assert_valid_detection labels predictions); [|discriminate].
    cbn [rbind] in E. destruct (valid_weights w); [auto|discriminate]. }
  destruct (scores_log dist K labels predictions check Hd Hi w (Hw _ _ E)) as (sc & E1 & _ & F). rewrite E in E1. injection E1 as <-.
  destruct (scores_log dist K labels predictions check Hd Hi w' (Hw _ _ E')) as (sc & E1 & _ & F'). rewrite E' in E1. injection E1 as <-.
  rewrite F, F' by auto. rewrite (moved_log dist K labels predictions check w w' d x y i Hd Hi Hlt M).
  pose proof (p_pos dist K labels predictions check Hd Hi x i Hlt) as Px. pose proof (p_pos dist K labels predictions check Hd Hi y i Hlt) as Py.
  apply Qlt_Rlt in D. rewrite RMicromega.Q2R_0 in D.
  set (L := logscore dist labels predictions check w i). clearbody L.
  assert (G : subtype_score dist check labels predictions y i < subtype_score dist check labels predictions x i <->
     nth i (subtype_scores dist check labels predictions y) 0 < nth i (subtype_scores dist check labels predictions x) 0).
  { unfold subtype_score. split; lra. }
  rewrite <- G. split.
  - intros H. apply exp_lt_inv in H. apply ln_lt_inv; auto. nra.
  - intros H. apply exp_increasing. pose proof (ln_increasing _ _ Py H). nra.
Qed.

Lemma C169_priority_full : forall dist K labels predictions check w w' d x y scores scores' i j,
  (forall a b, unit_interval (dist a b)) -> detection_inputs K labels predictions -> (i < length labels)%nat -> (j < length labels)%nat ->
  (0 < d)%Q -> moved d x y w w' ->
  detection_scores dist labels predictions w check = Ok scores ->
  detection_scores dist labels predictions w' check = Ok scores' ->
  let p s k := subtype_score dist check labels predictions s k in
  p y i / p y j <= p x i / p x j ->
  nth i scores' 0 / nth j scores' 0 <= nth i scores 0 / nth j scores 0 /\
  (nth i scores 0 <= nth j scores 0 -> nth i scores' 0 <= nth j scores' 0).
Proof.
  intros dist K labels predictions check w w' d x y scores scores' i j Hd Hi Hlt Hjt D M E E' p H.
  assert (Hw : forall w sc, detection_scores dist labels predictions w check = Ok sc -> valid_weights w = true).
  { clear. intros w sc E. unfold detection_scores in E. destruct (assert_valid_detection labels predictions); [|discriminate].
    cbn [rbind] in E. destruct (valid_weights w); [auto|discriminate]. }
  destruct (scores_log dist K labels predictions check Hd Hi w (Hw _ _ E)) as (sc & E1 & _ & F). rewrite E in E1. injection E1 as <-.
  destruct (scores_log dist K labels predictions check Hd Hi w' (Hw _ _ E')) as (sc & E1 & _ & F'). rewrite E' in E1. injection E1 as <-.
  rewrite !F, !F' by auto. rewrite !(moved_log dist K labels predictions check w w' d x y) by auto.
  pose proof (fun s k Hk => p_pos dist K labels predictions check Hd Hi s k Hk) as P.
  apply Qlt_Rlt in D. rewrite RMicromega.Q2R_0 in D.
  assert (G : ln (p y i) - ln (p y j) <= ln (p x i) - ln (p x j)).
  { rewrite <- !ln_quot by (apply P; auto). apply ln_le; auto. apply Rdiv_lt_0_compat; apply P; auto. }
  fold (p x i) (p x j) (p y i) (p y j).
  set (Li := logscore dist labels predictions check w i). set (Lj := logscore dist labels predictions check w j). clearbody Li Lj.
  assert (T : Q2R d * (ln (p y i) - ln (p x i)) <= Q2R d * (ln (p y j) - ln (p x j))) by nra.
  split.
  - unfold Rdiv. rewrite <- !exp_Ropp, <- !exp_plus. apply exp_le'. lra.
  - intros S0. apply exp_le'. destruct S0 as [S0|S0]; [apply exp_lt_inv in S0|apply exp_inv in S0]; lra.
Qed.
