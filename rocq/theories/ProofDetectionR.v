(** * Proofs of the object-detection properties: image scores, mask and ranking *)
From Coq Require Import QArith Qabs Qreals Reals List ZArith Bool Arith Lia Lra Permutation Sorting.Sorted.
From Coq Require Lqa.
From Verif Require Import Base BaseFacts ModelUtil ModelEntropy ModelOutlier ModelToken ModelDetection SpecDetection ProofUtil ProofCount ProofMultilabel
  ProofLabels ProofOutlier ProofToken ProofMultiannotator ProofDetection.
Import ListNotations.
Open Scope R_scope.

(** ** Softmin pooling *)
Lemma Rle_div_r a b c : 0 < c -> a * c <= b -> a <= b / c.
Proof. intros Hc H. apply Rmult_le_reg_r with c; auto. unfold Rdiv. rewrite Rmult_assoc, Rinv_l by lra. lra. Qed.
Lemma Rle_div_l a b c : 0 < c -> b <= a * c -> b / c <= a.
Proof. intros Hc H. apply Rmult_le_reg_r with c; auto. unfold Rdiv. rewrite Rmult_assoc, Rinv_l by lra. lra. Qed.
Definition wt (T M s : R) : R := exp (-1 * s / T - M).
Lemma rsum_cons' x l : rsum (x :: l) = x + rsum l. Proof. reflexivity. Qed.
Lemma rdot_l (f : R -> R) l : rdot (map f l) l = rsum (map (fun s => f s * s) l).
Proof. unfold rdot. induction l as [|x l IH]; [reflexivity|]. cbn [map combine rsum fold_right fst snd]. unfold rsum in IH. rewrite IH. reflexivity. Qed.
Lemma softmin1d_eq t l : let T := Rmax t (Q2R EPSILON) in let M := rmaximum (map (fun v => v / T) (map (fun s => -1 * s) l)) in
  softmin1d t l = rsum (map (fun s => wt T M s * s) l) / rsum (map (wt T M) l).
Proof.
  intros T M. unfold softmin1d, softmax_t. fold T. fold M. rewrite !map_map.
  rewrite (rdot_l (fun x => exp (-1 * x / T - M) / rsum (map (fun x0 => exp (-1 * x0 / T - M)) l))).
  rewrite <- rsum_map_scale. f_equal. apply map_ext. intros s. unfold wt, Rdiv. ring.
Qed.
Lemma wt_pos T M s : 0 < wt T M s. Proof. apply exp_pos. Qed.
Lemma eps_pos : 0 < Q2R EPSILON. Proof. unfold Q2R, EPSILON. simpl. lra. Qed.
Lemma wt_anti T M s s' : 0 < T -> s <= s' -> wt T M s' <= wt T M s.
Proof.
  intros HT H. unfold wt. destruct (Rle_lt_or_eq_dec _ _ H) as [H1| ->]; [|lra]. left. apply exp_increasing.
  unfold Rdiv. assert (0 < / T) by (apply Rinv_0_lt_compat; auto). nra.
Qed.
Lemma weighted_bounds (w : R -> R) lo hi l : (forall s, In s l -> 0 < w s) -> (forall s, In s l -> lo <= s <= hi) ->
  lo * rsum (map w l) <= rsum (map (fun s => w s * s) l) <= hi * rsum (map w l).
Proof.
  induction l as [|x l IH]; intros Hw Hl; [unfold rsum; simpl; lra|]. cbn [map]. rewrite ?rsum_cons'.
  specialize (IH ltac:(intros; apply Hw; right; auto) ltac:(intros; apply Hl; right; auto)).
  pose proof (Hw x (or_introl eq_refl)). pose proof (Hl x (or_introl eq_refl)). nra.
Qed.
Lemma softmin_bounds t lo hi l : l <> [] -> (forall s, In s l -> lo <= s <= hi) -> lo <= softmin1d t l <= hi.
Proof.
  intros Hne Hl. rewrite softmin1d_eq. set (T := Rmax _ _). set (M := rmaximum _).
  assert (P : 0 < rsum (map (wt T M) l)).
  { apply rsum_pos; [destruct l; [congruence|discriminate]|]. intros x Hx. apply in_map_iff in Hx as (s & <- & _). apply wt_pos. }
  pose proof (weighted_bounds (wt T M) lo hi l ltac:(intros; apply wt_pos) Hl). split.
  - apply Rle_div_r; lra.
  - apply Rle_div_l; lra.
Qed.
(** the lowest score has the largest weight *)
Lemma softmin_low t c l s0 : In s0 l -> s0 <= c -> (forall s, In s l -> s <= 1) -> softmin1d t l <= 1 - (1 - c) / INR (length l).
Proof.
  intros Hin Hc Hl.
  assert (Hm : exists m, In m l /\ forall s, In s l -> m <= s).
  { clear - Hin. revert s0 Hin. induction l as [|x l IH]; intros s0 Hin; [destruct Hin|]. destruct l as [|y l].
    - exists x. split; [left; auto|]. intros s [<-|[]]. lra.
    - destruct (IH y (or_introl eq_refl)) as (m & A & B). destruct (Rle_dec x m).
      + exists x. split; [left; auto|]. intros s [<-|Hs]; [lra|]. specialize (B s Hs). lra.
      + exists m. split; [right; auto|]. intros s [<-|Hs]; [lra|]. auto. }
  destruct Hm as (m & Hmin & Hle). assert (m <= c) by (specialize (Hle _ Hin); lra).
  rewrite softmin1d_eq. set (T := Rmax _ _). set (M := rmaximum _).
  assert (HT : 0 < T) by (unfold T; pose proof eps_pos; pose proof (Rmax_r t (Q2R EPSILON)); lra). clearbody M T.
  assert (P : 0 < rsum (map (wt T M) l)).
  { apply rsum_pos; [destruct l; [destruct Hin|discriminate]|]. intros x Hx. apply in_map_iff in Hx as (s & <- & _). apply wt_pos. }
  assert (N : 0 < INR (length l)) by (apply lt_0_INR; destruct l; [destruct Hin|simpl; lia]).
  assert (U : rsum (map (wt T M) l) <= INR (length l) * wt T M m).
  { rewrite <- (map_length (wt T M) l). apply (rsum_bounds 0). intros x Hx. apply in_map_iff in Hx as (s & <- & Hs). split; [left; apply wt_pos|]. apply wt_anti; auto. }
  assert (V : wt T M m * (1 - m) <= rsum (map (wt T M) l) - rsum (map (fun s => wt T M s * s) l)).
  { clear - Hmin Hl. revert Hmin Hl. induction l as [|x l IH]; intros Hin Hl; [destruct Hin|]. cbn [map]. rewrite ?rsum_cons'.
    assert (Hl' : forall s, In s l -> s <= 1) by (intros; apply Hl; right; auto).
    assert (Z : 0 <= rsum (map (wt T M) l) - rsum (map (fun s => wt T M s * s) l)).
    { clear - Hl'. induction l as [|y l IH]; [unfold rsum; simpl; lra|]. cbn [map]. rewrite ?rsum_cons'.
      specialize (IH ltac:(intros; apply Hl'; right; auto)). pose proof (wt_pos T M y). pose proof (Hl' y (or_introl eq_refl)). assert (0 <= wt T M y * (1 - y)) by (apply Rmult_le_pos; lra). lra. }
    pose proof (wt_pos T M x). pose proof (Hl x (or_introl eq_refl)). assert (0 <= wt T M x * (1 - x)) by (apply Rmult_le_pos; lra). destruct Hin as [->|Hin]; [lra|].
    specialize (IH Hin Hl'). lra. }
  assert (W : 0 < wt T M m) by apply wt_pos.
  apply Rle_div_l; [lra|].
  set (S := rsum (map (wt T M) l)) in *. set (n := INR (length l)) in *. set (w := wt T M m) in *.
  assert (S * ((1 - c) / n) <= w * (1 - m)).
  { assert (m <= 1) by (apply Hl; auto). unfold Rdiv. assert (0 < / n) by (apply Rinv_0_lt_compat; auto).
    destruct (Rle_dec (1 - c) 0).
    - assert (0 <= (c - 1) * / n) by (apply Rmult_le_pos; lra). assert (0 <= S * ((c - 1) * / n)) by (apply Rmult_le_pos; lra).
      assert (0 <= w * (1 - m)) by (apply Rmult_le_pos; lra). lra.
    - assert (S * / n <= w). { apply Rmult_le_reg_r with n; auto. rewrite Rmult_assoc, Rinv_l by lra. lra. }
      replace (S * ((1 - c) * / n)) with ((S * / n) * (1 - c)) by ring.
      assert ((S * / n) * (1 - c) <= w * (1 - c)) by (apply Rmult_le_compat_r; lra).
      assert (w * (1 - c) <= w * (1 - m)) by (apply Rmult_le_compat_l; lra). lra. }
  lra.
Qed.
Lemma flat_in scores x : In x (flat_map (fun o : option Q => match o with Some s => [Q2R s] | None => [] end) scores) <-> exists s, In (Some s) scores /\ x = Q2R s.
Proof.
  rewrite in_flat_map. split.
  - intros (o & H1 & H2). destruct o as [s|]; [|destruct H2]. destruct H2 as [<-|[]]. eauto.
  - intros (s & H & ->). exists (Some s). split; auto. left; auto.
Qed.
Lemma flat_len scores : (length (flat_map (fun o : option Q => match o with Some s => [Q2R s] | None => [] end) scores) <= length scores)%nat.
Proof. induction scores as [|[s|] l IH]; simpl; lia. Qed.
Definition all_unit (scores : list (option Q)) : Prop := forall s, In (Some s) scores -> unit_interval s.
Lemma unit_R s : unit_interval s -> 0 <= Q2R s <= 1.
Proof. intros [A B]. apply Qle_Rle in A. apply Qle_Rle in B. rewrite RMicromega.Q2R_0 in A. rewrite RMicromega.Q2R_1 in B. auto. Qed.
Lemma valid_unit t scores : all_unit scores -> 0 <= valid_score t scores <= 1.
Proof.
  intros H. unfold valid_score. pose proof (flat_in scores) as F. destruct (flat_map _ scores) as [|x l] eqn:E; [lra|].
  apply softmin_bounds; [discriminate|]. intros s Hs. apply F in Hs as (q & Hq & ->). apply unit_R, H; auto.
Qed.
Lemma valid_low t scores s c : all_unit scores -> In (Some s) scores -> Q2R s <= c -> c <= 1 -> valid_score t scores <= 1 - (1 - c) / INR (length scores).
Proof.
  intros H Hs Hc Hc1. unfold valid_score. pose proof (flat_in scores) as F. pose proof (flat_len scores) as FL.
  set (l := flat_map _ scores) in *. assert (Hin : In (Q2R s) l) by (apply F; eauto). destruct l as [|x l'] eqn:E; [destruct Hin|]. rewrite <- E in *.
  eapply Rle_trans; [apply (softmin_low t c l (Q2R s)); auto|].
  - intros y Hy. apply F in Hy as (q & Hq & ->). apply unit_R, H; auto.
  - assert (0 < INR (length l)) by (apply lt_0_INR; rewrite E; simpl; lia). apply le_INR in FL.
    unfold Rdiv. assert (/ INR (length scores) <= / INR (length l)) by (apply Rinv_le_contravar; lra). nra.
Qed.

(** ** Image scores *)
Lemma tiny_pos : 0 < Q2R TINY_VALUE.
Proof. rewrite <- RMicromega.Q2R_0. apply Qlt_Rlt. reflexivity. Qed.
Lemma tiny_small : Q2R TINY_VALUE <= 1.
Proof. rewrite <- RMicromega.Q2R_1. apply Qle_Rle. unfold TINY_VALUE. unfold Qle. cbn [Qnum Qden]. lia. Qed.
Lemma third : Q2R (1 # 3) = / 3.
Proof. unfold Q2R. simpl. lra. Qed.
Lemma ln_le x y : 0 < x -> x <= y -> ln x <= ln y.
Proof. intros H [H'| ->]; [left; apply ln_increasing; auto|lra]. Qed.
Section ImageScore.
Variables (w : agg_weights) (check : bool) (a : aux).
Notation so := (valid_score (Q2R TEMPERATURE) (overlooked_scores HIGH_PROBABILITY_THRESHOLD a)).
Notation sb := (valid_score (Q2R TEMPERATURE) (map Some (badloc_scores LOW_PROBABILITY_THRESHOLD a))).
Notation ss := (valid_score (Q2R TEMPERATURE) (map Some (swap_scores HIGH_PROBABILITY_THRESHOLD check a))).
Hypothesis Ho : 0 <= so <= 1.
Hypothesis Hb : 0 <= sb <= 1.
Hypothesis Hs : 0 <= ss <= 1.
Lemma image_score_default : image_score default_weights check a <= 1 + Q2R TINY_VALUE.
Proof.
  unfold image_score. cbn [default_weights w_overlooked w_badloc w_swap]. rewrite third.
  set (t := Q2R TINY_VALUE). pose proof tiny_pos as Ht. fold t in Ht.
  rewrite <- (exp_ln (1 + t)) by lra. assert (L : forall x, 0 <= x <= 1 -> ln (t + x) <= ln (1 + t)) by (intros; apply ln_le; lra).
  pose proof (L _ Ho). pose proof (L _ Hb). pose proof (L _ Hs).
  match goal with |- exp ?x <= exp ?y => destruct (Rle_lt_or_eq_dec x y) as [G|G]; [lra| |] end; [left; apply exp_increasing; lra|rewrite G; lra].
Qed.
Lemma weights_R : valid_weights w = true -> 0 <= Q2R (w_overlooked w) /\ 0 <= Q2R (w_badloc w) /\ 0 <= Q2R (w_swap w) /\
  Q2R (w_overlooked w) + Q2R (w_badloc w) + Q2R (w_swap w) <= 2.
Proof.
  unfold valid_weights. rewrite !andb_true_iff, !Qle_bool_iff. intros (((A & B) & C) & D).
  apply Qabs_Qle_condition in A as [_ A]. rewrite <- !Q2R_plus, <- RMicromega.Q2R_0. repeat split; try (apply Qle_Rle; auto).
  replace 2 with (Q2R 2) by (unfold Q2R; simpl; lra). apply Qle_Rle. Lqa.lra.
Qed.
Lemma image_score_bounds : valid_weights w = true -> 0 < image_score w check a <= (1 + Q2R TINY_VALUE) * (1 + Q2R TINY_VALUE).
Proof.
  intros Hw. apply weights_R in Hw as (W1 & W2 & W3 & W4). unfold image_score. split; [apply exp_pos|].
  set (t := Q2R TINY_VALUE). pose proof tiny_pos as Ht. fold t in Ht.
  rewrite <- (exp_ln ((1 + t) * (1 + t))) by nra. rewrite ln_mult by lra.
  assert (L : forall x, 0 <= x <= 1 -> ln (t + x) <= ln (1 + t)) by (intros; apply ln_le; lra).
  pose proof (L _ Ho). pose proof (L _ Hb). pose proof (L _ Hs). assert (0 <= ln (1 + t)) by (rewrite <- ln_1; apply ln_le; lra).
  match goal with |- exp ?x <= exp ?y => assert (G : x <= y) by nra; destruct G as [G|G]; [left; apply exp_increasing; auto|rewrite G; lra] end.
Qed.
Lemma image_score_low d : so <= 1 - d \/ sb <= 1 - d \/ ss <= 1 - d -> 8 * Q2R TINY_VALUE <= d -> d <= 1 -> image_score default_weights check a <= 1.
Proof.
  intros Hd Hd8 Hd1. unfold image_score. cbn [default_weights w_overlooked w_badloc w_swap]. rewrite third.
  set (t := Q2R TINY_VALUE) in *. pose proof tiny_pos as Ht. fold t in Ht. pose proof tiny_small as Ht1. fold t in Ht1.
  rewrite <- !Rmult_plus_distr_l. rewrite <- exp_0.
  assert (G : ln (t + so) + ln (t + sb) + ln (t + ss) <= 0).
  { rewrite <- !ln_mult by (repeat apply Rmult_lt_0_compat; lra). rewrite <- ln_1. apply ln_le; [repeat apply Rmult_lt_0_compat; lra|].
    assert (K : forall x y z, 0 <= x <= 1 + t -> 0 <= y <= 1 + t -> 0 <= z <= 1 - 7 * t -> x * y * z <= 1).
    { intros x y z X Y Z. assert (x * y <= (1 + t) * (1 + t)) by nra. assert (0 <= x * y) by nra.
      assert (x * y * z <= (1 + t) * (1 + t) * (1 - 7 * t)) by nra. nra. }
    destruct Hd as [D|[D|D]].
    - replace ((t + so) * (t + sb) * (t + ss)) with ((t + sb) * (t + ss) * (t + so)) by ring. apply K; lra.
    - replace ((t + so) * (t + sb) * (t + ss)) with ((t + so) * (t + ss) * (t + sb)) by ring. apply K; lra.
    - apply K; lra. }
  match goal with |- exp ?x <= exp ?y => assert (G2 : x <= y) by lra; destruct G2 as [G2|G2]; [left; apply exp_increasing; auto|rewrite G2; lra] end.
Qed.
End ImageScore.

(** ** Mask and ranking *)
Open Scope Q_scope.
Lemma rmap_all {A B} (f : A -> res B) g l : (forall x, In x l -> f x = Ok (g x)) -> rmap f l = Ok (map g l).
Proof.
  induction l as [|x l IH]; intros H; [reflexivity|]. cbn [rmap map]. rewrite (H x (or_introl eq_refl)). cbn [rbind]. rewrite IH by (intros; apply H; right; auto). reflexivity.
Qed.
Lemma rmap_tab {A B} (f : A -> res B) n g h : (forall i, (i < n)%nat -> f (g i) = Ok (h i)) -> rmap f (tab n g) = Ok (tab n h).
Proof. intros H. unfold tab. rewrite rmap_map. apply rmap_all. intros i Hi. apply in_seq in Hi. apply H. lia. Qed.
Section Mask.
Variables (dist : box -> box -> Q) (srt : list Q -> list nat) (labels : list image_label) (predictions : list image_pred) (K : nat).
Hypothesis Hs : argsort_ok srt.
Hypothesis Hd : forall a b, unit_interval (dist a b).
Hypothesis Hl : length labels = length predictions.
Hypothesis Hb : forall i, (i < length labels)%nat -> boxes_ok (nth i labels []) (nth i predictions []).
Hypothesis Hp : forall i, (i < length labels)%nat -> probabilities_ok (nth i predictions []).
Hypothesis HK : same_classes K labels predictions.
Hypothesis HK0 : (0 < K)%nat.
Hypothesis Hne : labels <> [].
Definition apq (k : nat) : Q := qmean (map (fun thr => ap_class srt thr labels predictions k) iou_thresholds) * AP_SCALE_FACTOR.
Lemma alpha_unit : unit_interval ALPHA. Proof. split; unfold ALPHA; Lqa.lra. Qed.
Lemma apq_bounds k : 0 <= apq k <= 1 # 4.
Proof.
  unfold apq. assert (B : 0 <= qmean (map (fun thr => ap_class srt thr labels predictions k) iou_thresholds) /\ qmean (map (fun thr => ap_class srt thr labels predictions k) iou_thresholds) <= 1).
  { apply ProofNoise.qmean_bounds; [discriminate|]. intros x Hx. apply in_map_iff in Hx as (thr & <- & _). apply ap_class_unit; auto. }
  unfold AP_SCALE_FACTOR. Lqa.lra.
Qed.
Lemma apq_mean k : apq k * THRESHOLD_FACTOR == mean_ap srt labels predictions k / 5.
Proof.
  unfold apq, mean_ap, qmean, iou_thresholds. rewrite map_map, map_length, seq_length. set (x := qsum _). unfold AP_SCALE_FACTOR, THRESHOLD_FACTOR.
  change (Qnat 10) with (10 # 1). field.
Qed.
Lemma valid_ok : assert_valid_detection labels predictions = Ok tt.
Proof.
  unfold assert_valid_detection. rewrite Hl, Nat.eqb_refl. cbn [negb]. destruct predictions as [|p ps] eqn:E; [destruct labels; [congruence|discriminate]|].
  destruct HK as (H1 & _). specialize (H1 p (or_introl eq_refl)). destruct p; [simpl in H1; lia|reflexivity].
Qed.
Lemma per_class_ok : per_class_ap srt labels predictions = Ok (tab K apq).
Proof.
  unfold per_class_ap. destruct HK as (H1 & _). destruct predictions as [|p ps] eqn:E; [destruct labels; [congruence|discriminate]|]. rewrite <- E in *.
  assert (E0 : length p = K) by (apply H1; rewrite E; left; auto).
  destruct (existsb _ _) eqn:EX; [|rewrite E0; reflexivity].
  apply existsb_exists in EX as (q & A & B). apply Nat.ltb_lt in B. rewrite (H1 q A) in B. lia.
Qed.
Lemma thresholds_ok cs : (forall k, In k cs -> (k < K)%nat) -> class_thresholds (tab K apq) cs = Ok (map apq cs).
Proof.
  intros H. apply rmap_all. intros k Hk. specialize (H k Hk). rewrite (nth_error_nth' _ 0) by (rewrite tab_length; auto). rewrite nth_tab by auto. reflexivity.
Qed.
Lemma any_issue_iff scores thr : length thr = length scores -> (forall t, In t thr -> t <= 1 # 4) ->
  (any_issue (issues_per_box scores thr) = true <-> exists j s t, nth_error scores j = Some (Some s) /\ nth_error thr j = Some t /\ s <= t * THRESHOLD_FACTOR).
Proof.
  intros L HT. assert (G : any_issue (map (fun st => Qleb (match fst st with None => 1 | Some s => s end) (snd st * THRESHOLD_FACTOR)) (combine scores thr)) = true <->
    exists j s t, nth_error scores j = Some (Some s) /\ nth_error thr j = Some t /\ s <= t * THRESHOLD_FACTOR).
  { unfold any_issue. rewrite Nat.ltb_lt, count_true_map. split.
    - intros H. destruct (filter _ _) as [|st l] eqn:E; [simpl in H; lia|].
      assert (Hin : In st (filter (fun st : option Q * Q => Qleb match fst st with Some s => s | None => 1 end (snd st * THRESHOLD_FACTOR)) (combine scores thr))) by (rewrite E; left; auto).
      apply filter_In in Hin as (A & B). apply In_nth_error in A as (j & A). destruct st as [o t]. apply nth_error_combine in A as (A1 & A2). cbn [fst snd] in B. apply Qleb_iff in B.
      destruct o as [s|]; [exists j, s, t; auto|]. exfalso. specialize (HT t ltac:(apply nth_error_In in A2; auto)). unfold THRESHOLD_FACTOR in B. Lqa.lra.
    - intros (j & s & t & A & B & C). pose proof (nth_error_combine' _ _ _ _ _ A B) as D. apply nth_error_In in D.
      assert (Hin : In (Some s, t) (filter (fun st : option Q * Q => Qleb match fst st with Some s => s | None => 1 end (snd st * THRESHOLD_FACTOR)) (combine scores thr))) by (apply filter_In; split; auto; apply Qleb_iff; auto).
      destruct (filter _ _); [destruct Hin|simpl; lia]. }
  unfold issues_per_box. destruct scores as [|o l]; [|exact G]. split; [discriminate|].
  intros (j & s & t & A & _). destruct j; discriminate.
Qed.
Lemma swap_len hp check a : length (swap_scores hp check a) = length (a_labs a).
Proof. unfold swap_scores. rewrite map_length, combine_length, seq_length. lia. Qed.
Lemma badloc_len lp a : length (badloc_scores lp a) = length (a_labs a).
Proof. unfold badloc_scores. rewrite map_length, combine_length, seq_length. lia. Qed.
Lemma overlooked_len hp a : length (overlooked_scores hp a) = length (a_preds a).
Proof. unfold overlooked_scores. rewrite map_length, combine_length, seq_length. lia. Qed.
Notation ia := (image_aux dist ALPHA labels predictions).
Definition flagged (check : bool) (i : nat) : bool :=
  (any_issue (issues_per_box (overlooked_scores HIGH_PROBABILITY_THRESHOLD (ia i)) (map apq (map fst (a_preds (ia i)))))
   || any_issue (issues_per_box (map Some (badloc_scores LOW_PROBABILITY_THRESHOLD (ia i))) (map apq (map fst (a_labs (ia i)))))
   || any_issue (issues_per_box (map Some (swap_scores HIGH_PROBABILITY_THRESHOLD check (ia i))) (map apq (map fst (a_labs (ia i))))))%bool.
Lemma nth_in_or {A} (l : list (list A)) i x : In x (nth i l []) -> In (nth i l []) l.
Proof. intros H. destruct (le_lt_dec (length l) i); [rewrite nth_overflow in H by auto; destruct H|apply nth_In; auto]. Qed.
Lemma mask_eq check : find_label_issues_mask dist srt labels predictions check = Ok (tab (length labels) (flagged check)).
Proof.
  unfold find_label_issues_mask. rewrite valid_ok. cbn [rbind]. rewrite per_class_ok. cbn [rbind]. rewrite (aux_inputs_tab dist ALPHA labels predictions Hl).
  apply rmap_tab. intros i Hi. destruct HK as (H1 & H2).
  rewrite thresholds_ok.
  - cbn [rbind]. rewrite thresholds_ok; [reflexivity|]. intros k Hk. cbn [image_aux a_labs] in Hk. apply in_map_iff in Hk as (kb & <- & Hk).
    apply (H2 (nth i labels [])); auto. apply nth_in_or with kb; auto.
  - intros k Hk. cbn [image_aux a_preds] in Hk. apply in_map_iff in Hk as ([k' d] & <- & Hk). apply separate_predicted in Hk. unfold SpecDetection.predicted in Hk. cbn [fst].
    destruct (le_lt_dec K k') as [G|G]; auto. exfalso. rewrite (nth_overflow (nth i predictions [])) in Hk; [destruct Hk|]. rewrite H1; auto. apply nth_In. lia.
Qed.
Lemma nth_map_tab {A} (f : aux -> list A) i : (i < length labels)%nat -> nth i (map f (aux_inputs dist ALPHA labels predictions)) [] = f (ia i).
Proof.
  intros Hi. rewrite (aux_inputs_tab dist ALPHA labels predictions Hl). rewrite (nth_map_gen _ _ _ _ (ia 0)) by (rewrite tab_length; auto). rewrite nth_tab by auto. reflexivity.
Qed.
Lemma flagged_iff check i : (i < length labels)%nat -> (flagged check i = true <-> has_low_box dist srt check labels predictions i).
Proof.
  intros Hi. unfold flagged, has_low_box. rewrite !orb_true_iff.
  assert (HB : forall cs t, In t (map apq cs) -> t <= 1 # 4) by (intros cs t Ht; apply in_map_iff in Ht as (k & <- & _); apply apq_bounds).
  rewrite !any_issue_iff; try (apply HB); rewrite ?map_length, ?overlooked_len, ?badloc_len, ?swap_len; auto.
  unfold compute_overlooked_box_scores, compute_badloc_box_scores, compute_swap_box_scores. fold ALPHA.
  assert (X1 : forall j k, nth_error (map apq (map fst (a_preds (ia i)))) j = Some k <-> exists k' d, nth_prediction 0 (nth i predictions []) j = Some (k', d) /\ k = apq k').
  { intros j k. cbn [image_aux a_preds]. rewrite map_map, nth_error_map, separate_nth'. destruct (nth_prediction 0 (nth i predictions []) j) as [[k' d]|]; cbn [option_map fst].
    - split; [intros E; injection E as <-; eauto|intros (k2 & d2 & E & ->); injection E as -> ->; auto].
    - split; [discriminate|intros (? & ? & ? & _); discriminate]. }
  assert (X2 : forall j k, nth_error (map apq (map fst (a_labs (ia i)))) j = Some k <-> exists k' b, nth_error (nth i labels []) j = Some (k', b) /\ k = apq k').
  { intros j k. cbn [image_aux a_labs]. rewrite map_map, nth_error_map. destruct (nth_error (nth i labels []) j) as [[k' d]|]; cbn [option_map fst].
    - split; [intros E; injection E as <-; eauto|intros (k2 & d2 & E & ->); injection E as -> ->; auto].
    - split; [discriminate|intros (? & ? & ? & _); discriminate]. }
  assert (X3 : forall l j (s : Q), nth_error (map Some l) j = Some (Some s) <-> nth_error l j = Some s).
  { intros l j s. rewrite nth_error_map. destruct (nth_error l j); cbn; split; intros E; try discriminate; injection E as ->; auto. }
  split.
  - intros [[(j & s & t & A & B & C)|(j & s & t & A & B & C)]|(j & s & t & A & B & C)].
    + apply X1 in B as (k & d & B & ->). exists j, k, s. rewrite apq_mean in C. split; auto. left. exists d. split; auto. rewrite nth_map_tab by auto. auto.
    + apply X2 in B as (k & b & B & ->). exists j, k, s. rewrite apq_mean in C. split; auto. right. exists b. split; auto. left. rewrite nth_map_tab by auto. apply X3; auto.
    + apply X2 in B as (k & b & B & ->). exists j, k, s. rewrite apq_mean in C. split; auto. right. exists b. split; auto. right. rewrite nth_map_tab by auto. apply X3; auto.
  - intros (j & k & s & C & [(d & A & B)|(b & A & [B|B])]); rewrite <- apq_mean in C; rewrite nth_map_tab in B by auto.
    + left; left. exists j, s, (apq k). split; auto. split; auto. apply X1. eauto.
    + left; right. exists j, s, (apq k). split; [apply X3; auto|]. split; auto. apply X2. eauto.
    + right. exists j, s, (apq k). split; [apply X3; auto|]. split; auto. apply X2. eauto.
Qed.
(** all the scores of an image lie between 0 and 1 *)
Lemma units check i : (i < length labels)%nat -> all_unit (overlooked_scores HIGH_PROBABILITY_THRESHOLD (ia i)) /\
  all_unit (map Some (badloc_scores LOW_PROBABILITY_THRESHOLD (ia i))) /\ all_unit (map Some (swap_scores HIGH_PROBABILITY_THRESHOLD check (ia i))).
Proof.
  intros Hi. assert (X3 : forall (l : list Q) s, In (Some s) (map Some l) -> exists j, nth_error l j = Some s /\ (j < length l)%nat).
  { intros l s H. apply in_map_iff in H as (x & E & H). injection E as ->. apply In_nth_error in H as (j & H). exists j. split; auto. apply nth_error_Some. congruence. }
  split; [|split].
  - intros s H. apply In_nth_error in H as (j & H). assert (Hj : (j < length (overlooked_scores HIGH_PROBABILITY_THRESHOLD (ia i)))%nat) by (apply nth_error_Some; congruence).
    rewrite overlooked_len in Hj. cbn [image_aux a_preds] in Hj. apply nth_error_Some in Hj. rewrite separate_nth' in Hj.
    destruct (nth_prediction 0 (nth i predictions []) j) as [[k d]|] eqn:E; [|congruence].
    destruct (overlooked_ok dist ALPHA labels predictions Hd alpha_unit Hl Hb HIGH_PROBABILITY_THRESHOLD i j k d Hi (Hp i Hi) E) as (o & A & _ & B).
    rewrite H in A. injection A as <-. apply B. reflexivity.
  - intros s H. apply X3 in H as (j & H & Hj). rewrite badloc_len in Hj. cbn [image_aux a_labs] in Hj. apply nth_error_Some in Hj.
    destruct (nth_error (nth i labels []) j) as [[k b]|] eqn:E; [|congruence].
    destruct (badloc_ok dist ALPHA labels predictions Hd alpha_unit Hl Hb LOW_PROBABILITY_THRESHOLD i j k b Hi E) as (s' & A & B & _).
    rewrite H in A. injection A as <-. auto.
  - intros s H. apply X3 in H as (j & H & Hj). rewrite swap_len in Hj. cbn [image_aux a_labs] in Hj. apply nth_error_Some in Hj.
    destruct (nth_error (nth i labels []) j) as [[k b]|] eqn:E; [|congruence].
    destruct (swap_ok dist ALPHA labels predictions Hd alpha_unit Hl Hb HIGH_PROBABILITY_THRESHOLD check i j k b Hi E) as (s' & A & B & _).
    rewrite H in A. injection A as <-. auto.
Qed.
Lemma filter_all {A} (f : A -> bool) l : (forall x, In x l -> f x = true) -> filter f l = l.
Proof. induction l as [|x l IH]; intros H; [reflexivity|]. simpl. rewrite (H x (or_introl eq_refl)), IH; auto. intros; apply H; right; auto. Qed.
Lemma prune_id : prune_by_threshold 0 predictions = predictions.
Proof.
  unfold prune_by_threshold. rewrite <- (map_id predictions) at 2. apply map_ext_in. intros p H.
  rewrite <- (map_id p) at 2. apply map_ext_in. intros ds Hds. apply filter_all. intros d Hdd. apply Qleb_iff.
  apply (In_nth _ _ []) in H as (i & Hi & <-). apply (Hp i ltac:(lia) ds d); auto.
Qed.
Lemma scores_eq w check : valid_weights w = true -> detection_scores dist labels predictions w check = Ok (tab (length labels) (fun i => image_score w check (ia i))).
Proof.
  intros Hw. unfold detection_scores. rewrite valid_ok, Hw. cbn [rbind negb]. rewrite prune_id, (aux_inputs_tab dist ALPHA labels predictions Hl).
  unfold tab. rewrite map_map. reflexivity.
Qed.
Lemma score_bounds w check i : valid_weights w = true -> (i < length labels)%nat ->
  (0 < image_score w check (ia i) <= (1 + Q2R TINY_VALUE) * (1 + Q2R TINY_VALUE))%R.
Proof. intros Hw Hi. destruct (units check i Hi) as (A & B & C). apply image_score_bounds; auto; apply valid_unit; auto. Qed.
Lemma score_bounds_default check i : (i < length labels)%nat -> (image_score default_weights check (ia i) <= 1 + Q2R TINY_VALUE)%R.
Proof. intros Hi. destruct (units check i Hi) as (A & B & C). apply image_score_default; auto; apply valid_unit; auto. Qed.
Lemma swap_check_mono i j s : (i < length labels)%nat -> forall check, nth_error (swap_scores HIGH_PROBABILITY_THRESHOLD check (ia i)) j = Some s ->
  exists s', nth_error (swap_scores HIGH_PROBABILITY_THRESHOLD true (ia i)) j = Some s' /\ s' <= s.
Proof.
  intros Hi check H. assert (Hj : (j < length (swap_scores HIGH_PROBABILITY_THRESHOLD check (ia i)))%nat) by (apply nth_error_Some; congruence).
  rewrite swap_len in Hj. cbn [image_aux a_labs] in Hj. apply nth_error_Some in Hj. destruct (nth_error (nth i labels []) j) as [[k b]|] eqn:E; [|congruence].
  destruct (swap_ok dist ALPHA labels predictions Hd alpha_unit Hl Hb HIGH_PROBABILITY_THRESHOLD check i j k b Hi E) as (s2 & A2 & _ & M2 & _).
  rewrite H in A2. injection A2 as <-.
  rewrite (swap_nth dist ALPHA labels predictions Hl HIGH_PROBABILITY_THRESHOLD check i j k b Hi E) in H.
  rewrite (swap_nth dist ALPHA labels predictions Hl HIGH_PROBABILITY_THRESHOLD true i j k b Hi E). eexists. split; [reflexivity|].
  match type of H with Some ?x = Some _ => assert (H' : x = s) by congruence end. clear H.
  destruct check; [rewrite H'; Lqa.lra|]. cbn [andb] in *. destruct (has_overlap _ j); [exact M2|rewrite H'; Lqa.lra].
Qed.
Lemma flagged_low check i : (i < length labels)%nat -> (Z.of_nat (num_boxes (nth i labels []) (nth i predictions [])) <= 10 ^ 99)%Z ->
  flagged check i = true -> (image_score default_weights true (ia i) <= 1)%R.
Proof.
  intros Hi HN HF. destruct (units true i Hi) as (U1 & U2 & U3).
  set (n := num_boxes (nth i labels []) (nth i predictions [])) in *.
  assert (Lp : (length (a_preds (ia i)) <= n)%nat).
  { unfold n, num_boxes. cbn [image_aux a_preds]. assert (E : forall p k, length (flat_map (fun kd : nat * list detection => map (fun d => (fst kd, d)) (snd kd)) (combine (seq k (length p)) p)) = length (concat p)).
    { induction p as [|ds p IH]; intros k; [reflexivity|]. rewrite separate_from, app_length, map_length, IH. cbn [concat]. rewrite app_length. reflexivity. }
    unfold separate_prediction. rewrite E. lia. }
  assert (Ll : (length (a_labs (ia i)) <= n)%nat) by (unfold n, num_boxes; cbn [image_aux a_labs]; lia).
  assert (Low : forall scores s, all_unit scores -> In (Some s) scores -> s <= 1 # 5 -> (length scores <= n)%nat ->
     (valid_score (Q2R TEMPERATURE) scores <= 1 - 4 / 5 / INR n)%R /\ (0 < n)%nat).
  { intros scores s HU Hin Hs' HLn. assert (Hlen : (0 < length scores)%nat) by (destruct scores; [destruct Hin|simpl; lia]). split; [|lia].
    eapply Rle_trans; [apply (valid_low _ scores s (1 / 5)); auto; try Lra.lra|].
    - apply Qle_Rle in Hs'. replace (Q2R (1 # 5)) with (1 / 5)%R in Hs' by (unfold Q2R; simpl; Lra.lra). auto.
    - assert (0 < INR (length scores))%R by (apply lt_0_INR; auto). apply le_INR in HLn.
      assert (/ INR n <= / INR (length scores))%R by (apply Rinv_le_contravar; auto). unfold Rdiv. Lra.lra. }
  assert (AB : forall t cs, In t (map apq cs) -> t <= 1 # 4) by (intros t cs Ht; apply in_map_iff in Ht as (k & <- & _); apply apq_bounds).
  assert (G : ((valid_score (Q2R TEMPERATURE) (overlooked_scores HIGH_PROBABILITY_THRESHOLD (ia i)) <= 1 - 4 / 5 / INR n \/
              valid_score (Q2R TEMPERATURE) (map Some (badloc_scores LOW_PROBABILITY_THRESHOLD (ia i))) <= 1 - 4 / 5 / INR n \/
              valid_score (Q2R TEMPERATURE) (map Some (swap_scores HIGH_PROBABILITY_THRESHOLD true (ia i))) <= 1 - 4 / 5 / INR n)%R) /\ (0 < n)%nat).
  { unfold flagged in HF. rewrite !orb_true_iff in HF. unfold THRESHOLD_FACTOR in *. destruct HF as [[HF|HF]|HF].
    - apply any_issue_iff in HF as (j & s & t & A & B & C); [|rewrite !map_length, overlooked_len; auto|intros; eapply AB; eauto].
      apply nth_error_In in A. apply nth_error_In in B. specialize (AB _ _ B). unfold THRESHOLD_FACTOR in C.
      destruct (Low _ s U1 A ltac:(Lqa.lra) ltac:(rewrite overlooked_len; auto)). auto.
    - apply any_issue_iff in HF as (j & s & t & A & B & C); [|rewrite !map_length, badloc_len; auto|intros; eapply AB; eauto].
      apply nth_error_In in A. apply nth_error_In in B. specialize (AB _ _ B). unfold THRESHOLD_FACTOR in C.
      destruct (Low _ s U2 A ltac:(Lqa.lra) ltac:(rewrite map_length, badloc_len; auto)). auto.
    - apply any_issue_iff in HF as (j & s & t & A & B & C); [|rewrite !map_length, swap_len; auto|intros; eapply AB; eauto].
      apply nth_error_In in B. specialize (AB _ _ B). unfold THRESHOLD_FACTOR in C. rewrite nth_error_map in A.
      destruct (nth_error (swap_scores _ _ _) j) as [s2|] eqn:E2; [|discriminate]. injection A as ->.
      destruct (swap_check_mono i j s Hi check E2) as (s' & A' & C'). apply nth_error_In in A'.
      destruct (Low _ s' U3 (in_map Some _ _ A') ltac:(Lqa.lra) ltac:(rewrite map_length, swap_len; auto)). auto. }
  destruct G as (G & Hn). apply (image_score_low true (ia i) (valid_unit _ _ U1) (valid_unit _ _ U2) (valid_unit _ _ U3) (4 / 5 / INR n)); auto.
  - assert (N0 : (0 < INR n)%R) by (apply lt_0_INR; auto). apply Rle_div_r; auto.
    assert (NT : (INR n * Q2R TINY_VALUE <= 1 / 10)%R).
    { clear - HN. rewrite INR_IZR_INZ. replace (IZR (Z.of_nat n)) with (Q2R (inject_Z (Z.of_nat n))) by (unfold Q2R; simpl; Lra.lra).
      rewrite <- Q2R_mult. replace (1 / 10)%R with (Q2R (1 # 10)) by (unfold Q2R; simpl; Lra.lra). apply Qle_Rle.
      unfold TINY_VALUE, Qle, Qmult, inject_Z. cbn [Qnum Qden]. rewrite Z.mul_1_r.
      assert (E : Z.pos (1 * 10 ^ 100) = (10 * 10 ^ 99)%Z) by (vm_compute; reflexivity). rewrite E. clear E.
      generalize dependent (10 ^ 99)%Z. intros z Hz. lia. }
    generalize dependent (Q2R TINY_VALUE). clear. intros. Lra.lra.
  - assert (1 <= INR n)%R by (change 1%R with (INR 1); apply le_INR; lia). apply Rle_div_l; Lra.lra.
Qed.
Lemma ranked_eq srtR check : argsortR_ok srtR ->
  (forall i, (i < length labels)%nat -> (Z.of_nat (num_boxes (nth i labels []) (nth i predictions [])) <= 10 ^ 99)%Z) ->
  exists idx, find_label_issues_ranked dist srt srtR labels predictions check = Ok idx /\ NoDup idx /\
    (forall i, In i idx <-> (i < length labels)%nat /\ flagged check i = true) /\
    StronglySorted (fun i j => (image_score default_weights true (ia i) <= image_score default_weights true (ia j))%R) idx.
Proof.
  intros HR HN. unfold find_label_issues_ranked. rewrite mask_eq. cbn [rbind]. rewrite scores_eq by reflexivity. cbn [rbind].
  unfold detection_issues_from_scores. destruct (Rlt_dec 1 1) as [G|_]; [Lra.lra|]. cbn [rbind]. eexists. split; [reflexivity|]. rewrite tab_length.
  set (sc := tab (length labels) (fun i => image_score default_weights true (ia i))).
  assert (SC : forall i, (i < length labels)%nat -> nth i sc 0%R = image_score default_weights true (ia i)) by (intros i Hi; unfold sc; rewrite nth_tab by auto; auto).
  set (keep := filter (fun i => if Rle_dec (nth i sc 0%R) 1 then true else false) (seq 0 (length labels))).
  destruct (HR (take_idx 0%R sc keep)) as (Pm & SS). set (order := srtR _) in *.
  assert (LK : length (take_idx 0%R sc keep) = length keep) by (unfold take_idx; apply map_length). rewrite LK in Pm.
  assert (PK : Permutation (take_idx 0%nat keep order) keep).
  { unfold take_idx. rewrite (Permutation_map _ Pm). fold (tab (length keep) (fun i => nth i keep 0%nat)). rewrite tab_nth. reflexivity. }
  assert (NK : NoDup keep) by (unfold keep; apply NoDup_filter, seq_NoDup).
  assert (KI : forall i, In i keep <-> (i < length labels)%nat /\ (image_score default_weights true (ia i) <= 1)%R).
  { intros i. unfold keep. rewrite filter_In, in_seq. split; intros (A & B); (split; [lia|]); rewrite SC in * by lia; destruct (Rle_dec _ 1); auto; discriminate || contradiction. }
  assert (ND : NoDup (take_idx 0%nat keep order)) by (eapply Permutation_NoDup; [symmetry; exact PK|auto]).
  split; [apply NoDup_filter; auto|]. split.
  - intros i. rewrite filter_In, mem_iff, in_where. rewrite (Permutation_in' eq_refl PK), KI.
    split.
    + intros ((A & B) & C). split; auto. rewrite nth_tab in C by auto. auto.
    + intros (A & B). split; [split; auto; eapply flagged_low; eauto|]. rewrite nth_tab by auto. auto.
  - assert (S2 : StronglySorted (fun i j => (image_score default_weights true (ia i) <= image_score default_weights true (ia j))%R) (take_idx 0%nat keep order)).
    { assert (OI : forall i, In i order -> (i < length keep)%nat) by (intros i Hi; apply (Permutation_in _ Pm) in Hi; apply in_seq in Hi; lia).
      clear - SS OI KI SC LK. unfold take_idx at 1. induction SS as [|i l SS IH HF]; cbn [map]; constructor.
      - apply IH. intros; apply OI; right; auto.
      - rewrite Forall_forall in *. intros y Hy. apply in_map_iff in Hy as (j & <- & Hj). specialize (HF j Hj). unfold take_idx in HF.
        assert (Hi' : (i < length keep)%nat) by (apply OI; left; auto). assert (Hj' : (j < length keep)%nat) by (apply OI; right; auto).
        rewrite !(nth_map_gen _ _ _ _ 0%nat) in HF by auto. rewrite !SC in HF by (apply KI, nth_In; auto). auto. }
    clear - S2. induction S2 as [|i l S2 IH HF]; [constructor|]. cbn [filter]. destruct (mem _ _); auto. constructor; auto.
    rewrite Forall_forall in *. intros y Hy. apply filter_In in Hy as (Hy & _). auto.
Qed.
End Mask.

(** ** The statements over the public functions *)
Lemma ap_summary srt thr labels predictions k tp fp fn : argsort_ok srt -> length labels = length predictions ->
  class_counts srt thr labels predictions k = (tp, fp, fn) ->
  (tp + fn = nsum (map (fun l => length (class_labels k l)) labels))%nat /\
  (tp + fp = nsum (map (fun p => length (class_preds k p)) predictions))%nat /\
  0 <= ap_class srt thr labels predictions k <= 1 /\
  (tp = 0%nat -> ap_class srt thr labels predictions k == 0) /\
  ((0 < tp)%nat ->
   Qnat tp / Qnat (tp + fn) * (Qnat tp / Qnat (tp + fp)) <= ap_class srt thr labels predictions k /\
   ap_class srt thr labels predictions k <= Qnat tp / Qnat (tp + fn)) /\
  ((0 < tp)%nat -> fp = 0%nat -> fn = 0%nat -> ap_class srt thr labels predictions k == 1).
Proof.
  intros Hs Hl E. pose proof (ap_class_bounds srt thr labels predictions k Hs Hl) as H. rewrite E in H. destruct H as (A & B & C & D).
  pose proof (ap_class_unit srt thr labels predictions k Hs Hl) as U.
  assert (R : forall n, (0 < tp)%nat -> ratio tp (tp + n) == Qnat tp / Qnat (tp + n)) by (intros n Ht; unfold ratio; rewrite qmax_nat by lia; reflexivity).
  split; auto. split; auto. split; auto. split; [|split].
  - intros ->. assert (Z : ratio 0 (0 + fn) == 0) by apply div0. rewrite Z in D. Lqa.lra.
  - intros Ht. rewrite !R in C by auto. rewrite R in D by auto. auto.
  - intros Ht -> ->. rewrite !R in C by auto. rewrite Nat.add_0_r in C.
    assert (O : Qnat tp / Qnat tp == 1) by (field; pose proof (Qnat_pos tp Ht); Lqa.lra). rewrite O in C. Lqa.lra.
Qed.
Lemma mask_ok dist srt labels predictions K check : argsort_ok srt -> (forall a b, unit_interval (dist a b)) ->
  detection_inputs K labels predictions ->
  exists mask, find_label_issues_mask dist srt labels predictions check = Ok mask /\ length mask = length labels /\
    forall i, (i < length labels)%nat -> (nth i mask false = true <-> has_low_box dist srt check labels predictions i).
Proof.
  intros Hs Hd (Hne & Hl & HK0 & HK & HI). exists (tab (length labels) (flagged dist srt labels predictions check)).
  assert (Hb : forall i, (i < length labels)%nat -> boxes_ok (nth i labels []) (nth i predictions [])) by (intros i Hi; exact (proj1 (HI i Hi))).
  assert (Hp : forall i, (i < length labels)%nat -> probabilities_ok (nth i predictions [])) by (intros i Hi; exact (proj2 (HI i Hi))). clear HI.
  split; [apply (mask_eq dist srt labels predictions K); auto|]. split; [apply tab_length|].
  intros i Hi. rewrite nth_tab by auto. apply (flagged_iff dist srt labels predictions K); auto.
Qed.
Lemma ranked_ok dist srt srtR labels predictions K check mask : argsort_ok srt -> argsortR_ok srtR -> (forall a b, unit_interval (dist a b)) ->
  detection_inputs K labels predictions ->
  (forall i, (i < length labels)%nat -> (Z.of_nat (num_boxes (nth i labels []) (nth i predictions [])) <= 10 ^ 99)%Z) ->
  find_label_issues_mask dist srt labels predictions check = Ok mask ->
  exists idx scores, find_label_issues_ranked dist srt srtR labels predictions check = Ok idx /\
    detection_scores dist labels predictions default_weights true = Ok scores /\ NoDup idx /\
    (forall i, In i idx <-> nth i mask false = true) /\
    StronglySorted (fun i j => (nth i scores 0 <= nth j scores 0)%R) idx.
Proof.
  intros Hs HR Hd (Hne & Hl & HK0 & HK & HI) HN EM.
  assert (Hb : forall i, (i < length labels)%nat -> boxes_ok (nth i labels []) (nth i predictions [])) by (intros i Hi; exact (proj1 (HI i Hi))).
  assert (Hp : forall i, (i < length labels)%nat -> probabilities_ok (nth i predictions [])) by (intros i Hi; exact (proj2 (HI i Hi))).
  clear HI. rewrite (mask_eq dist srt labels predictions K) in EM by auto. injection EM as <-.
  destruct (ranked_eq dist srt labels predictions K Hs Hd Hl Hb Hp HK HK0 Hne srtR check HR HN) as (idx & A & B & C & D).
  eexists idx, _. split; [exact A|]. split; [apply (scores_eq dist labels predictions K); auto; reflexivity|]. split; [exact B|]. split.
  - intros i. rewrite C. split.
    + intros (G1 & G2). rewrite nth_tab by auto. auto.
    + intros G. destruct (le_lt_dec (length labels) i) as [G'|G']; [rewrite nth_overflow in G by (rewrite tab_length; auto); discriminate|].
      rewrite nth_tab in G by auto. auto.
  - assert (CI : forall i, In i idx -> (i < length labels)%nat) by (intros i Hi; apply C in Hi; tauto). clear - D CI.
    induction D as [|i l D IH HF]; constructor; [apply IH; intros; apply CI; right; auto|].
    rewrite Forall_forall in *. intros j Hj. rewrite !nth_tab by (apply CI; simpl; auto). apply HF; auto.
Qed.
Lemma scores_ok dist labels predictions w check K : (forall a b, unit_interval (dist a b)) ->
  detection_inputs K labels predictions -> valid_weights w = true ->
  exists scores, detection_scores dist labels predictions w check = Ok scores /\ length scores = length labels /\
    (forall s, In s scores -> (0 < s <= (1 + Q2R (1 # 10 ^ 100)) * (1 + Q2R (1 # 10 ^ 100)))%R) /\
    (w = default_weights -> forall s, In s scores -> (s <= 1 + Q2R (1 # 10 ^ 100))%R).
Proof.
  intros Hd (Hne & Hl & HK0 & HK & HI) Hw.
  assert (Hb : forall i, (i < length labels)%nat -> boxes_ok (nth i labels []) (nth i predictions [])) by (intros i Hi; exact (proj1 (HI i Hi))).
  assert (Hp : forall i, (i < length labels)%nat -> probabilities_ok (nth i predictions [])) by (intros i Hi; exact (proj2 (HI i Hi))).
  eexists. split; [apply (scores_eq dist labels predictions K); auto|]. split; [apply tab_length|]. split.
  - intros s Hs. apply in_tab in Hs as (i & Hi & ->). fold TINY_VALUE. apply (score_bounds dist labels predictions K); auto.
  - intros -> s Hs. apply in_tab in Hs as (i & Hi & ->). fold TINY_VALUE. apply (score_bounds_default dist labels predictions K); auto.
Qed.
Lemma weights_rejected dist labels predictions w check K : detection_inputs K labels predictions ->
  (w_overlooked w < 0 \/ w_badloc w < 0 \/ w_swap w < 0 \/ (101 # 100) < w_overlooked w + w_badloc w + w_swap w \/
   w_overlooked w + w_badloc w + w_swap w < 99 # 100) ->
  detection_scores dist labels predictions w check = Raise ValueError.
Proof.
  intros (Hne & Hl & HK0 & HK & HI) HW.
  assert (Hb : forall i, (i < length labels)%nat -> boxes_ok (nth i labels []) (nth i predictions [])) by (intros i Hi; exact (proj1 (HI i Hi))).
  assert (Hp : forall i, (i < length labels)%nat -> probabilities_ok (nth i predictions [])) by (intros i Hi; exact (proj2 (HI i Hi))). clear HI.
  unfold detection_scores. rewrite (valid_ok labels predictions K) by auto. cbn [rbind].
  destruct (valid_weights w) eqn:E; [|reflexivity]. exfalso. unfold valid_weights in E. rewrite !andb_true_iff, !Qle_bool_iff in E.
  destruct E as (((A & B) & C) & D). apply Qabs_Qle_condition in A as (A1 & A2). destruct HW as [?|[?|[?|[?|?]]]]; Lqa.lra.
Qed.
Lemma confusion_refuted : exists labels predictions c,
  average_confusion argsort_ins labels predictions = Ok c /\
  (forall thr, In thr iou_thresholds -> class_counts argsort_ins thr labels predictions 0 = (1, 0, 0)%nat) /\
  fst (fst (nth 0 c (0, 0, 0))) == 1 # 2.
Proof.
  exists [[(0%nat, mk_box 0 0 2 2)]], [[[(mk_box 0 0 2 2, 9 # 10)]; []]]. eexists. split; [vm_compute; reflexivity|]. split; [|reflexivity].
  intros thr H. repeat (destruct H as [<-|H]; [vm_compute; reflexivity|]). destruct H.
Qed.
Lemma metrics_summary srt labels predictions K : argsort_ok srt -> length labels = length predictions ->
  (forall p, In p predictions -> length p = K) -> (0 < K)%nat -> predictions <> [] ->
  exists m, per_class_metrics srt labels predictions = Ok m /\ length m = K /\
  forall k p r f, nth_error m k = Some (p, r, f) ->
    unit_interval p /\ unit_interval r /\ unit_interval f /\ f <= qmax p r /\
    ((forall thr, In thr iou_thresholds -> fst (fst (class_counts srt thr labels predictions k)) = 0%nat) -> p == 0 /\ r == 0 /\ f == 0) /\
    ((exists thr, In thr iou_thresholds /\ fst (fst (class_counts srt thr labels predictions k)) <> 0%nat) -> 0 < p /\ 0 < r /\ 0 < f).
Proof.
  intros Hs Hl HK HK0 Hne. destruct (confusion_ok srt labels predictions K Hs Hl HK HK0 Hne) as (c & E & L & H).
  unfold per_class_metrics. rewrite E. cbn [rbind]. eexists. split; [reflexivity|]. split; [rewrite map_length; auto|].
  intros k p r f Hk. rewrite nth_error_map in Hk. destruct (nth_error c k) as [[[tp fp] fn]|] eqn:Ec; [|discriminate]. cbn [option_map] in Hk.
  assert (EM : class_metrics (tp, fp, fn) = (p, r, f)) by congruence. clear Hk.
  destruct (H k tp fp fn Ec) as (T1 & T2 & T3 & _ & _ & T4).
  destruct (metrics_ok tp fp fn p r f T1 T2 T3 EM) as (M1 & M2 & M3 & M4 & M5 & M6).
  assert (PK : 0 < Qnat K) by (apply Qnat_pos; auto).
  assert (NN : forall l, (forall x, In x l -> 0 <= x) -> 0 <= qsum l).
  { induction l as [|x l IH]; intros G; [simpl; Lqa.lra|]. change (qsum (x :: l)) with (x + qsum l). specialize (IH ltac:(intros; apply G; right; auto)). specialize (G x (or_introl eq_refl)). Lqa.lra. }
  split; auto. split; auto. split; auto. split; auto. split.
  - intros Z. apply M5. assert (Q0 : qmean (map (fun thr => Qnat (fst (fst (class_counts srt thr labels predictions k)))) iou_thresholds) == 0).
    { rewrite (map_ext_in _ (fun _ => 0)) by (intros thr Ht; rewrite Z by auto; reflexivity). reflexivity. }
    rewrite Q0 in T4. apply Qmult_integral in T4 as [T4|T4]; [Lqa.lra|auto].
  - intros (thr & Ht & Hn). assert (Ptp : 0 < tp).
    { assert (Q0 : 0 < qmean (map (fun thr => Qnat (fst (fst (class_counts srt thr labels predictions k)))) iou_thresholds)).
      { unfold qmean. apply Qlt_shift_div_l; [rewrite map_length; reflexivity|]. rewrite Qmult_0_l.
        apply Qlt_le_trans with (Qnat (fst (fst (class_counts srt thr labels predictions k)))); [apply Qnat_pos; lia|].
        apply qsum_ge_elem; [|apply in_map_iff; exists thr; auto]. intros x Hx. apply in_map_iff in Hx as (t' & <- & _). apply Qnat_nonneg. }
      rewrite <- T4 in Q0. destruct (Qlt_le_dec 0 tp); auto. exfalso. assert (tp == 0) by Lqa.lra. rewrite H0 in Q0. Lqa.lra. }
    destruct (M6 Ptp) as (F1 & F2 & F3 & F4). unfold class_metrics in EM. injection EM as <- <- _. pose proof tiny_posQ.
    split; [|split; auto]; apply Qlt_shift_div_l; try Lqa.lra.
Qed.
Section Api.
Variables (dist : box -> box -> Q) (alpha : Q) (labels : list image_label) (predictions : list image_pred).
Hypothesis Hd : forall a b, unit_interval (dist a b).
Hypothesis Ha : unit_interval alpha.
Hypothesis Hl : length labels = length predictions.
Hypothesis Hb : forall i, (i < length labels)%nat -> boxes_ok (nth i labels []) (nth i predictions []).
Lemma api_nth {A} (f : aux -> list A) i : (i < length labels)%nat -> nth i (map f (aux_inputs dist alpha labels predictions)) [] = f (image_aux dist alpha labels predictions i).
Proof.
  intros Hi. rewrite (aux_inputs_tab dist alpha labels predictions Hl). rewrite (nth_map_gen _ _ _ _ (image_aux dist alpha labels predictions 0)) by (rewrite tab_length; auto). rewrite nth_tab by auto. reflexivity.
Qed.
End Api.
Lemma overlooked_api dist alpha hp labels predictions i j k d : (forall a b, unit_interval (dist a b)) -> unit_interval alpha ->
  length labels = length predictions ->
  (forall i, (i < length labels)%nat -> boxes_ok (nth i labels []) (nth i predictions [])) ->
  (i < length labels)%nat -> probabilities_ok (nth i predictions []) ->
  nth_prediction 0 (nth i predictions []) j = Some (k, d) ->
  exists m o, least_similarity dist alpha labels predictions m /\
  nth_error (nth i (compute_overlooked_box_scores dist alpha hp labels predictions) []) j = Some o /\
  (o = None <-> snd d < hp \/ exists kb, In kb (nth i labels []) /\ overlap (snd kb) (fst d)) /\
  (forall s, o = Some s -> unit_interval s /\
     ((~ (exists b, In (k, b) (nth i labels [])) /\ s == m * (1 - snd d)) \/
      (exists b, In (k, b) (nth i labels []) /\ s == sim dist alpha b (fst d) /\
         forall b', In (k, b') (nth i labels []) -> sim dist alpha b' (fst d) <= s))).
Proof.
  intros Hd Ha Hl Hb Hi Hp E. destruct (overlooked_ok dist alpha labels predictions Hd Ha Hl Hb hp i j k d Hi Hp E) as (o & A & B & C).
  exists (min_possible_similarity dist alpha labels predictions), o. split; [apply amin_spec; auto|]. split; [|split; [|exact C]].
  - unfold compute_overlooked_box_scores. rewrite (api_nth dist alpha labels predictions Hl) by auto. exact A.
  - rewrite B. split; (intros [G|(kb & G1 & G2)]; [left; exact G|right; exists kb; split; [exact G1|apply iou_pos; exact G2]]).
Qed.
Lemma badloc_api dist alpha lp labels predictions i j k b : (forall a b, unit_interval (dist a b)) -> unit_interval alpha ->
  length labels = length predictions ->
  (forall i, (i < length labels)%nat -> boxes_ok (nth i labels []) (nth i predictions [])) ->
  (i < length labels)%nat -> nth_error (nth i labels []) j = Some (k, b) ->
  exists s, nth_error (nth i (compute_badloc_box_scores dist alpha lp labels predictions) []) j = Some s /\ unit_interval s /\
  ((s == 1 /\ ~ exists d, SpecDetection.predicted (nth i predictions []) k d /\ lp < snd d /\ overlap b (fst d)) \/
   ((exists d, SpecDetection.predicted (nth i predictions []) k d /\ lp < snd d /\ overlap b (fst d) /\ s == sim dist alpha b (fst d)) /\
    forall d, SpecDetection.predicted (nth i predictions []) k d -> lp < snd d -> overlap b (fst d) -> sim dist alpha b (fst d) <= s)).
Proof.
  intros Hd Ha Hl Hb Hi E. destruct (badloc_ok dist alpha labels predictions Hd Ha Hl Hb lp i j k b Hi E) as (s & A & B & C).
  exists s. split; [unfold compute_badloc_box_scores; rewrite (api_nth dist alpha labels predictions Hl) by auto; exact A|]. split; [exact B|].
  destruct C as [(C1 & C2)|((d & C1 & C2 & C3 & C4) & C5)].
  - left. split; auto. intros (d & G1 & G2 & G3). apply C2. exists d. split; auto. split; auto. apply iou_pos; auto.
  - right. split; [exists d; split; auto; split; auto; split; auto; apply iou_pos; auto|]. intros d' G1 G2 G3. apply C5; auto. apply iou_pos; auto.
Qed.
Lemma swap_api dist alpha hp check labels predictions i j k b : (forall a b, unit_interval (dist a b)) -> unit_interval alpha ->
  length labels = length predictions ->
  (forall i, (i < length labels)%nat -> boxes_ok (nth i labels []) (nth i predictions [])) ->
  (i < length labels)%nat -> nth_error (nth i labels []) j = Some (k, b) ->
  exists m s, least_similarity dist alpha labels predictions m /\
  nth_error (nth i (compute_swap_box_scores dist alpha hp check labels predictions) []) j = Some s /\ unit_interval s /\ m <= s /\
  (check = true -> conflicting (nth i labels []) j -> s == m) /\
  (check = false \/ ~ conflicting (nth i labels []) j ->
   ((s == 1 /\ ~ exists k' d, k' <> k /\ SpecDetection.predicted (nth i predictions []) k' d /\ hp < snd d) \/
    ((exists k' d, k' <> k /\ SpecDetection.predicted (nth i predictions []) k' d /\ hp < snd d /\ s == qmax m (1 - sim dist alpha b (fst d))) /\
     forall k' d, k' <> k -> SpecDetection.predicted (nth i predictions []) k' d -> hp < snd d -> s <= qmax m (1 - sim dist alpha b (fst d))))).
Proof.
  intros Hd Ha Hl Hb Hi E. destruct (swap_ok dist alpha labels predictions Hd Ha Hl Hb hp check i j k b Hi E) as (s & A & B).
  exists (min_possible_similarity dist alpha labels predictions), s. split; [apply amin_spec; auto|].
  split; [unfold compute_swap_box_scores; rewrite (api_nth dist alpha labels predictions Hl) by auto; exact A|exact B].
Qed.
