(** * Proofs of the object-detection properties *)
From Coq Require Import QArith Qabs Qreals Reals List ZArith Bool Arith Lia Lqa Permutation Sorting.Sorted.
From Verif Require Import Base BaseFacts ModelUtil ModelDetection SpecDetection ProofUtil SpecCount ProofCount ProofMultilabel ProofNoise ProofMultiannotator.
Import ListNotations.
Open Scope Q_scope.

(** ** IoU *)
Ltac qplain x := lazymatch x with context[qmax _ _] => fail | context[qmin _ _] => fail | _ => idtac end.
Ltac qcases :=
  repeat match goal with H : context[qmax _ _] |- _ => revert H | H : context[qmin _ _] |- _ => revert H end;
  repeat match goal with
  | |- context [qmax ?x ?y] => qplain x; qplain y;
      let H := fresh "Hm" in let E := fresh "Em" in destruct (qmax_spec x y) as [[H E]|[H E]]; rewrite E; clear E
  | |- context [qmin ?x ?y] => qplain x; qplain y;
      let H := fresh "Hm" in let E := fresh "Em" in destruct (qmin_spec x y) as [[H E]|[H E]]; rewrite E; clear E
  end; intros.
Definition olen (l h l' h' : Q) : Q := qmax 0 (qmin h h' - qmax l l').
Lemma olen_nonneg l h l' h' : 0 <= olen l h l' h'.
Proof. unfold olen. qcases; lra. Qed.
Lemma olen_le l h l' h' : l <= h -> olen l h l' h' <= h - l.
Proof. unfold olen. intros. qcases; lra. Qed.
Lemma olen_le' l h l' h' : l' <= h' -> olen l h l' h' <= h' - l'.
Proof. unfold olen. intros. qcases; lra. Qed.
Lemma olen_comm l h l' h' : olen l h l' h' == olen l' h' l h.
Proof. unfold olen. qcases; lra. Qed.
Lemma olen_mid l h l' h' : 0 < olen l h l' h' -> exists x, l < x /\ x < h /\ l' < x /\ x < h'.
Proof. intros H. exists ((qmax l l' + qmin h h') * (1#2)). unfold olen in H. qcases; repeat split; lra. Qed.
Lemma olen_mid' l h l' h' x : l < x -> x < h -> l' < x -> x < h' -> 0 < olen l h l' h'.
Proof. intros. unfold olen. qcases; lra. Qed.
Lemma olen_in l h l' h' : l <= h -> l' <= l -> h <= h' -> olen l h l' h' == h - l.
Proof. intros. unfold olen. qcases; lra. Qed.
Definition inter (a b : box) : Q := olen (bx1 a) (bx2 a) (bx1 b) (bx2 b) * olen (by1 a) (by2 a) (by1 b) (by2 b).
Lemma inter_nonneg a b : 0 <= inter a b.
Proof. unfold inter. apply Qmult_le_0_compat; apply olen_nonneg. Qed.
Lemma mult_le a b c d : 0 <= a -> 0 <= b -> a <= c -> b <= d -> a * b <= c * d.
Proof. intros. nra. Qed.
Lemma inter_le a b : well_formed a -> inter a b <= box_area a.
Proof. intros [H1 H2]. unfold inter, box_area. apply mult_le; auto using olen_nonneg, olen_le. Qed.
Lemma inter_le' a b : well_formed b -> inter a b <= box_area b.
Proof. intros [H1 H2]. unfold inter, box_area. apply mult_le; auto using olen_nonneg, olen_le'. Qed.
Lemma inter_comm a b : inter a b == inter b a.
Proof. unfold inter. rewrite olen_comm, (olen_comm (by1 a)). reflexivity. Qed.
Lemma clip_pos x : 0 < clip_lo EPSILON x.
Proof. apply Qlt_le_trans with EPSILON; [reflexivity|apply clip_lo_ge]. Qed.
Lemma div0 x : 0 / x == 0.
Proof. unfold Qdiv. ring. Qed.
Lemma olen_pos_eq l h l' h' : qmax l l' <= qmin h h' -> olen l h l' h' == qmin h h' - qmax l l'.
Proof. unfold olen. intros. qcases; lra. Qed.
Lemma olen_zero l h l' h' : qmin h h' < qmax l l' -> olen l h l' h' == 0.
Proof. unfold olen. intros. qcases; lra. Qed.
Lemma iou_eq a b : iou a b == inter a b / clip_lo EPSILON (box_area a + box_area b - inter a b).
Proof.
  unfold iou. destruct (Qltb _ _ || Qltb _ _) eqn:E.
  - assert (Z : inter a b == 0).
    { unfold inter. apply orb_true_iff in E as [E|E]; apply Qltb_iff in E; rewrite (olen_zero _ _ _ _ E); ring. }
    rewrite Z at 1. rewrite div0. reflexivity.
  - apply orb_false_iff in E as [E1 E2]. apply Qltb_false in E1. apply Qltb_false in E2.
    assert (I : (qmin (bx2 a) (bx2 b) - qmax (bx1 a) (bx1 b)) * (qmin (by2 a) (by2 b) - qmax (by1 a) (by1 b)) == inter a b).
    { unfold inter. rewrite !olen_pos_eq by auto. reflexivity. }
    cbv zeta. rewrite I. reflexivity.
Qed.
Lemma iou_nonneg a b : 0 <= iou a b.
Proof. rewrite iou_eq. apply Qle_shift_div_l; [apply clip_pos|]. pose proof (inter_nonneg a b). lra. Qed.
Lemma iou_le1 a b : well_formed a -> well_formed b -> iou a b <= 1.
Proof.
  intros Ha Hb. rewrite iou_eq. apply Qle_shift_div_r; [apply clip_pos|]. pose proof (inter_le a b Ha). pose proof (inter_le' a b Hb).
  unfold clip_lo. qcases; lra.
Qed.
Lemma iou_sym a b : iou a b == iou b a.
Proof. rewrite !iou_eq. rewrite (inter_comm b a). rewrite (Qplus_comm (box_area b)). reflexivity. Qed.
Lemma inter_self a : well_formed a -> inter a a == box_area a.
Proof. intros [H1 H2]. unfold inter, box_area. rewrite !olen_in by (auto; apply Qle_refl). reflexivity. Qed.
Lemma iou_self a : well_formed a -> iou a a == box_area a / clip_lo EPSILON (box_area a).
Proof.
  intros H. rewrite iou_eq, (inter_self a H). assert (E : box_area a + box_area a - box_area a == box_area a) by ring. rewrite E. reflexivity.
Qed.
Lemma iou_self1 a : well_formed a -> EPSILON <= box_area a -> iou a a == 1.
Proof. intros H HE. rewrite (iou_self a H), clip_lo_id by auto. field. intros E. assert (0 < EPSILON) by reflexivity. lra. Qed.
Lemma iou_pos a b : 0 < iou a b <-> overlap a b.
Proof.
  assert (G : 0 < iou a b <-> 0 < inter a b).
  { rewrite iou_eq. split; intros H.
    - apply Qnot_le_lt. intros F. assert (Z : inter a b == 0) by (pose proof (inter_nonneg a b); lra). rewrite Z in H at 1. rewrite div0 in H. lra.
    - apply Qlt_shift_div_l; [apply clip_pos|]. lra. }
  rewrite G. clear G. unfold inter, overlap, inside.
  pose proof (olen_nonneg (bx1 a) (bx2 a) (bx1 b) (bx2 b)) as N1. pose proof (olen_nonneg (by1 a) (by2 a) (by1 b) (by2 b)) as N2. split.
  - intros H. destruct (olen_mid (bx1 a) (bx2 a) (bx1 b) (bx2 b)) as (x & X1 & X2 & X3 & X4).
    { apply Qnot_le_lt. intros F. assert (Z : olen (bx1 a) (bx2 a) (bx1 b) (bx2 b) == 0) by lra. rewrite Z in H. lra. }
    destruct (olen_mid (by1 a) (by2 a) (by1 b) (by2 b)) as (y & Y1 & Y2 & Y3 & Y4).
    { apply Qnot_le_lt. intros F. assert (Z : olen (by1 a) (by2 a) (by1 b) (by2 b) == 0) by lra. rewrite Z in H. lra. }
    exists x, y. tauto.
  - intros (x & y & (H1 & H2 & H3 & H4) & (H5 & H6 & H7 & H8)). apply Qmult_lt_0_compat; eapply olen_mid'; eauto.
Qed.
Lemma iou_zero a b : iou a b == 0 <-> ~ overlap a b.
Proof. rewrite <- iou_pos. pose proof (iou_nonneg a b). split; intros; lra. Qed.
Lemma iou_contained a b : well_formed a -> well_formed b -> contained a b -> EPSILON <= box_area b -> iou a b == box_area a / box_area b.
Proof.
  intros [A1 A2] [B1 B2] (C1 & C2 & C3 & C4) HE. rewrite iou_eq.
  assert (I : inter a b == box_area a) by (unfold inter, box_area; rewrite !olen_in by auto; reflexivity).
  rewrite I. assert (U : box_area a + box_area b - box_area a == box_area b) by ring. rewrite U, clip_lo_id by auto. reflexivity.
Qed.
Lemma iou_shift dx dy a b : iou (shift dx dy a) (shift dx dy b) == iou a b.
Proof.
  rewrite !iou_eq. assert (O : forall d l h l' h', olen (l + d) (h + d) (l' + d) (h' + d) == olen l h l' h') by (intros; unfold olen; qcases; lra).
  assert (I : inter (shift dx dy a) (shift dx dy b) == inter a b) by (unfold inter, shift; cbn [bx1 bx2 by1 by2]; rewrite !O; reflexivity).
  assert (A : forall c, box_area (shift dx dy c) == box_area c) by (intros; unfold box_area, shift; cbn [bx1 bx2 by1 by2]; ring).
  rewrite I, !A. reflexivity.
Qed.

(** ** Matching *)
Lemma count_upd l i : (i < length l)%nat -> nth i l false = false -> count_true (upd l i true) = S (count_true l).
Proof.
  revert i. induction l as [|b l IH]; intros [|i] Hi Hn; simpl in *; try lia.
  - subst. unfold count_true. simpl. reflexivity.
  - rewrite !count_true_cons, IH by (auto; lia). destruct b; lia.
Qed.
Lemma count_none {A} (l : list A) : count_true (map (fun _ => false) l) = 0%nat.
Proof. induction l; simpl; auto. Qed.
Lemma nth_none {A} (l : list A) i : nth i (map (fun _ => false) l) false = false.
Proof. revert i. induction l; intros [|i]; simpl; auto. Qed.
Lemma upd_cases l i j : nth j (upd l i true) false = true -> nth j l false = true \/ (j = i /\ (i < length l)%nat).
Proof.
  intros H. destruct (Nat.eq_dec j i) as [->|E].
  - destruct (le_lt_dec (length l) i); [|auto]. left. rewrite nth_overflow in H by (rewrite upd_length; auto). discriminate.
  - rewrite nth_upd_neq in H by auto. auto.
Qed.
Lemma upd_keep l i j : nth j l false = true -> nth j (upd l i true) false = true.
Proof.
  intros H. destruct (Nat.eq_dec j i) as [->|E]; [|rewrite nth_upd_neq; auto].
  rewrite nth_upd_eq; auto. destruct (le_lt_dec (length l) i); auto. rewrite nth_overflow in H by auto. discriminate.
Qed.
Section Matching.
Variables (ious : list (list Q)) (thr : Q) (pr : nat -> Q) (n L : nat).
Definition good i := thr <= qmaximum (nth i ious []).
Definition tgt i := argmax (nth i ious []).
Hypothesis Htgt : forall i, (i < n)%nat -> (tgt i < L)%nat.
Record inv (dn : list nat) (st : list bool * list bool * list bool) : Prop := {
  iv_lc : length (fst (fst st)) = L; iv_lt : length (snd (fst st)) = n; iv_lf : length (snd st) = n;
  iv_t : forall i, nth i (snd (fst st)) false = true -> In i dn /\ good i /\ nth (tgt i) (fst (fst st)) false = true;
  iv_f : forall i, nth i (snd st) false = true -> In i dn;
  iv_x : forall i, In i dn -> nth i (snd (fst st)) false = negb (nth i (snd st) false);
  iv_c : forall m, nth m (fst (fst st)) false = true -> exists i, In i dn /\ nth i (snd (fst st)) false = true /\ tgt i = m;
  iv_u : forall i j, nth i (snd (fst st)) false = true -> nth j (snd (fst st)) false = true -> tgt i = tgt j -> i = j;
  iv_p : forall i, nth i (snd st) false = true -> good i -> exists j, In j dn /\ nth j (snd (fst st)) false = true /\ tgt j = tgt i /\ pr i <= pr j;
  iv_n : count_true (snd (fst st)) = count_true (fst (fst st));
  iv_m : (count_true (snd (fst st)) + count_true (snd st) = length dn)%nat }.
Lemma inv_step dn st i : inv dn st -> (i < n)%nat -> ~ In i dn -> (forall j, In j dn -> pr i <= pr j) ->
  inv (dn ++ [i]) (match_step ious thr st i).
Proof.
  destruct st as [[cov tp] fp]. intros [LC LT LF T F X C U P N MM] Hi Hd Hp. cbn [fst snd] in *.
  assert (Ti : nth i tp false = false) by (apply not_true_is_false; intros E; apply T in E; tauto).
  assert (Fi : nth i fp false = false) by (apply not_true_is_false; intros E; apply F in E; tauto).
  unfold match_step. fold (tgt i).
  assert (G : (good i -> nth (tgt i) cov false = true) -> inv (dn ++ [i]) (cov, tp, upd fp i true)).
  { intros HG. constructor; cbn [fst snd]; rewrite ?upd_length; auto.
    - intros j Hj. destruct (T j Hj) as (A & B & D). split; [apply in_or_app; auto|auto].
    - intros j Hj. apply in_or_app. apply upd_cases in Hj as [Hj|[-> _]]; [left; auto|right; left; auto].
    - intros j Hj. apply in_app_or in Hj as [Hj|[<-|[]]].
      + rewrite nth_upd_neq by (intros ->; tauto). auto.
      + rewrite nth_upd_eq, Ti by lia. reflexivity.
    - intros m Hm. destruct (C m Hm) as (j & A & B & D). exists j. split; [apply in_or_app; auto|auto].
    - intros j Hj Hg. apply upd_cases in Hj as [Hj|[-> _]].
      + destruct (P j Hj Hg) as (j' & A & B & D & E). exists j'. split; [apply in_or_app; auto|auto].
      + destruct (C _ (HG Hg)) as (j' & A & B & D). exists j'. split; [apply in_or_app; auto|]. auto.
    - rewrite app_length, count_upd by (auto; lia). simpl. lia. }
  destruct (Qleb thr (qmaximum (nth i ious []))) eqn:E1.
  - apply Qleb_iff in E1. destruct (nth (tgt i) cov false) eqn:E2; [apply G; auto|]. clear G.
    constructor; cbn [fst snd]; rewrite ?upd_length; auto.
    + intros j Hj. apply upd_cases in Hj as [Hj|[-> _]].
      * destruct (T j Hj) as (A & B & D). split; [apply in_or_app; auto|]. split; auto. apply upd_keep; auto.
      * split; [apply in_or_app; right; left; auto|]. split; [exact E1|]. apply nth_upd_eq. rewrite LC. auto.
    + intros j Hj. apply in_or_app; auto.
    + intros j Hj. apply in_app_or in Hj as [Hj|[<-|[]]].
      * rewrite nth_upd_neq by (intros ->; tauto). auto.
      * rewrite nth_upd_eq, Fi by lia. reflexivity.
    + intros m Hm. apply upd_cases in Hm as [Hm|[-> _]].
      * destruct (C m Hm) as (j & A & B & D). exists j. split; [apply in_or_app; auto|]. split; auto. apply upd_keep; auto.
      * exists i. split; [apply in_or_app; right; left; auto|]. split; auto. apply nth_upd_eq. lia.
    + intros j k Hj Hk Ejk. apply upd_cases in Hj as [Hj|[-> _]]; apply upd_cases in Hk as [Hk|[-> _]]; auto.
      * destruct (T j Hj) as (_ & _ & D). rewrite Ejk in D. congruence.
      * destruct (T k Hk) as (_ & _ & D). rewrite <- Ejk in D. congruence.
    + intros j Hj Hg. destruct (P j Hj Hg) as (j' & A & B & D & E). exists j'. split; [apply in_or_app; auto|]. split; [apply upd_keep; auto|auto].
    + rewrite !count_upd by (auto; rewrite ?LC; auto; lia). lia.
    + rewrite app_length, count_upd by (auto; lia). simpl. lia.
  - apply G. intros Hg. unfold good in Hg. apply Qleb_iff in Hg. congruence.
Qed.
Lemma inv_fold rest : forall dn st, inv dn st -> NoDup (dn ++ rest) -> (forall i, In i rest -> (i < n)%nat) ->
  StronglySorted (fun i j => pr j <= pr i) (dn ++ rest) -> inv (dn ++ rest) (fold_left (match_step ious thr) rest st).
Proof.
  induction rest as [|i rest IH]; intros dn st HI ND Hn SS; [rewrite app_nil_r; auto|]. cbn [fold_left].
  replace (dn ++ i :: rest) with ((dn ++ [i]) ++ rest) in * by (rewrite <- app_assoc; reflexivity).
  apply IH; auto; [|intros; apply Hn; right; auto].
  apply inv_step; auto.
  - apply Hn; left; auto.
  - rewrite <- app_assoc in ND. apply NoDup_remove_2 in ND. intros H. apply ND, in_or_app; auto.
  - intros j Hj. rewrite <- app_assoc in SS. apply StronglySorted_app in SS as (_ & _ & H). apply (H j i); auto. left; auto.
Qed.
End Matching.
Lemma overlap_nth preds labs i l : (i < length preds)%nat -> (l < length labs)%nat ->
  nth l (nth i (overlap_matrix (map fst preds) labs) []) 0 = iou (pbox preds i) (nth l labs no_box).
Proof.
  intros Hi Hl. unfold overlap_matrix. rewrite (nth_map_gen _ _ _ _ no_box) by (rewrite map_length; auto).
  rewrite (nth_map_gen _ _ _ _ no_box) by auto. unfold pbox. change no_box with (fst (no_box, 0)) at 1. rewrite map_nth. reflexivity.
Qed.
Lemma overlap_row_length (preds : list detection) labs i : (i < length preds)%nat -> length (nth i (overlap_matrix (map fst preds) labs) []) = length labs.
Proof. intros Hi. unfold overlap_matrix. rewrite (nth_map_gen _ _ _ _ no_box) by (rewrite map_length; auto). apply map_length. Qed.
Lemma count_negb l : (count_true (map negb l) + count_true l = length l)%nat.
Proof. induction l as [|b l IH]; [reflexivity|]. cbn [map length]. rewrite !count_true_cons. destruct b; simpl; lia. Qed.
Lemma count_le l : (count_true l <= length l)%nat.
Proof. pose proof (count_negb l). lia. Qed.
Lemma best_unique labs p a b : best_box labs p a -> best_box labs p b -> a = b.
Proof.
  intros (A1 & A2 & A3) (B1 & B2 & B3). destruct (Nat.lt_trichotomy a b) as [H|[H|H]]; auto; exfalso.
  - specialize (B3 a H). specialize (A2 b B1). lra.
  - specialize (A3 b H). specialize (B2 a A1). lra.
Qed.
Lemma matching_ok srt preds labs thr tp fp fn : argsort_ok srt -> tp_fp_fn srt preds labs thr = (tp, fp, fn) ->
  (length tp = length preds /\ length fp = length preds /\ length fn = length labs) /\
  (forall i, (i < length preds)%nat -> nth i tp false = negb (nth i fp false)) /\
  (count_true tp + count_true fp = length preds)%nat /\ (count_true tp + count_true fn = length labs)%nat /\
  (labs <> [] -> exists m, matching preds labs thr tp fp fn m) /\
  (labs = [] -> forall i, nth i tp false = false).
Proof.
  intros Hs. unfold tp_fp_fn. destruct labs as [|b0 lb0] eqn:EL.
  { intros E. injection E as <- <- <-. rewrite !map_length. split; [auto|]. split; [|split; [|split; [|split]]].
    - intros i Hi. rewrite (nth_map_gen _ _ _ _ (no_box, 0)), (nth_map_gen _ _ _ _ (no_box, 0)) by auto. reflexivity.
    - induction preds as [|d preds IH]; [reflexivity|]. cbn [map length]. rewrite !count_true_cons. simpl. lia.
    - rewrite count_none. reflexivity.
    - congruence.
    - intros _ i. apply nth_none. }
  rewrite <- EL. assert (Hne : labs <> []) by congruence. assert (HL : (0 < length labs)%nat) by (rewrite EL; simpl; lia).
  clear b0 lb0 EL. set (ious := overlap_matrix (map fst preds) labs).
  pose proof (Hs (map (fun d => - snd d) preds)) as Ha. set (order := srt _) in *.
  destruct (fold_left _ order _) as [[cov tp'] fp'] eqn:E. intros EQ. injection EQ as -> -> <-.
  assert (Hrow : forall i, (i < length preds)%nat -> nth i ious [] <> []).
  { intros i Hi Hn. pose proof (overlap_row_length preds labs i Hi) as Hl. fold ious in Hl. rewrite Hn in Hl. simpl in Hl. lia. }
  assert (Htgt : forall i, (i < length preds)%nat -> (tgt ious i < length labs)%nat).
  { intros i Hi. unfold tgt. rewrite <- (overlap_row_length preds labs i Hi). apply argmax_lt. apply Hrow; auto. }
  assert (HI : inv ious thr (pprob preds) (length preds) (length labs) order (cov, tp, fp)).
  { rewrite <- E. change order with ([] ++ order) at 1. apply inv_fold; auto.
    - constructor; cbn [fst snd]; rewrite ?map_length, ?count_none; auto; intros; rewrite ?nth_none in *; try discriminate; simpl in *; tauto.
    - apply argsort_NoDup in Ha. auto.
    - intros i Hi. apply (argsort_in _ _ Ha) in Hi. rewrite map_length in Hi. auto.
    - destruct Ha as (Hp & Hss). clear - Hp Hss. rewrite app_nil_l. assert (forall i, In i order -> (i < length preds)%nat).
      { intros i Hi. apply (Permutation_in _ Hp) in Hi. apply in_seq in Hi. rewrite map_length in Hi. lia. } clear Hp.
      induction Hss as [|i l HS IH HF]; constructor.
      + apply IH. intros; apply H; right; auto.
      + rewrite Forall_forall in *. intros j Hj. specialize (HF j Hj). unfold pprob.
        rewrite !(nth_map_gen _ _ _ _ (no_box, 0)) in HF by (apply H; simpl; auto). lra. }
  assert (Hall : forall i, In i order <-> (i < length preds)%nat).
  { intros i. rewrite (argsort_in _ _ Ha i), map_length. reflexivity. }
  assert (Hlen : length order = length preds) by (rewrite (argsort_length _ _ Ha), map_length; auto).
  destruct HI as [LC LT LF T F X C U P N MM]. cbn [fst snd] in *.
  assert (Hgood : forall i, (i < length preds)%nat -> (good ious thr i <-> thr <= iou (pbox preds i) (nth (tgt ious i) labs no_box))).
  { intros i Hi. unfold good. rewrite qmaximum_argmax by (apply Hrow; auto). fold (tgt ious i). unfold ious. rewrite overlap_nth by (auto; apply Htgt; auto). reflexivity. }
  split; [rewrite map_length; auto|]. split; [intros i Hi; apply X, Hall; auto|]. split; [lia|].
  split; [pose proof (count_negb cov); lia|]. split; [|congruence]. intros _. exists (tgt ious). constructor.
  - intros i Hi. destruct (argmax_spec _ (Hrow i Hi)) as (A1 & A2 & A3). fold (tgt ious i) in A1, A2, A3.
    unfold ious in A1, A2. rewrite overlap_row_length in A1, A2 by auto. split; [auto|]. split.
    + intros l' Hl'. specialize (A2 l' Hl'). rewrite !overlap_nth in A2 by auto. auto.
    + intros l' Hl'. specialize (A3 l' Hl'). pose proof (Htgt i Hi) as Ht. assert (Hl2 : (l' < length labs)%nat) by (eapply Nat.lt_trans; eauto). unfold ious in A3. rewrite !overlap_nth in A3 by auto. exact A3.
  - intros i Hi. destruct (T i Hi) as (A & B & _). apply Hgood; auto. apply Hall; auto.
  - apply U.
  - intros i Hi Ht. assert (In i order) by auto. apply Hgood in Ht; [|apply Hall; auto].
    destruct (P i Hi Ht) as (j & A & B & D & G). exists j. auto.
  - intros l Hl. rewrite (nth_map_gen _ _ _ _ false) by lia. split.
    + intros Hn. apply negb_false_iff in Hn. destruct (C l Hn) as (i & A & B & D). exists i. split; [apply Hall; auto|]. split; auto.
      rewrite <- D. apply Hgood; [apply Hall; auto|]. apply T; auto.
    + intros (i & Hi & <- & Hg). apply negb_false_iff. apply Hgood in Hg; auto.
      destruct (nth i fp false) eqn:Ef.
      * destruct (P i Ef Hg) as (j & A & B & D & _). rewrite <- D. apply T; auto.
      * apply T. rewrite X by (apply Hall; auto). rewrite Ef. reflexivity.
Qed.

(** the number of true positives does not depend on how ties are ordered *)
Lemma count_ext l l' : length l = length l' -> (forall i, (i < length l)%nat -> nth i l true = nth i l' true) -> count_true l = count_true l'.
Proof. intros H H'. f_equal. apply (list_eq_nth l l' true); auto. Qed.
Lemma matching_order srt srt' preds labs thr tp fp fn tp' fp' fn' : argsort_ok srt -> argsort_ok srt' ->
  tp_fp_fn srt preds labs thr = (tp, fp, fn) -> tp_fp_fn srt' preds labs thr = (tp', fp', fn') ->
  fn = fn' /\ count_true tp = count_true tp' /\ count_true fp = count_true fp'.
Proof.
  intros H H' E E'. apply matching_ok in E as ((_ & _ & L) & _ & S1 & S2 & M & _); auto.
  apply matching_ok in E' as ((_ & _ & L') & _ & S1' & S2' & M' & _); auto.
  assert (fn = fn'); [|subst; split; [reflexivity|lia]].
  destruct labs as [|b0 lb0] eqn:EL.
  { destruct fn; [|discriminate]. destruct fn'; [|discriminate]. auto. }
  rewrite <- EL in *. assert (Hne : labs <> []) by congruence. destruct (M Hne) as (m & [Mb _ _ _ Mm]). destruct (M' Hne) as (m' & [Mb' _ _ _ Mm']).
  apply (list_eq_nth fn fn' true); [lia|]. intros l Hl. rewrite L in Hl.
  assert (G : nth l fn true = false <-> nth l fn' true = false).
  { rewrite Mm, Mm' by auto. split; intros (i & A & <- & D); exists i; (split; [auto|]); split; auto; eapply best_unique; eauto. }
  destruct G as [G1 G2]. destruct (nth l fn true), (nth l fn' true); try reflexivity; [specialize (G2 eq_refl)|specialize (G1 eq_refl)]; congruence.
Qed.
Lemma matching_perfect srt preds labs thr tp fp fn : argsort_ok srt -> tp_fp_fn srt preds labs thr = (tp, fp, fn) ->
  perfect_image preds labs thr -> count_true fp = 0%nat /\ count_true fn = 0%nat.
Proof.
  intros Hs E (Hl & HP). apply matching_ok in E as ((L1 & L2 & L) & _ & S1 & S2 & M & _); auto.
  destruct labs as [|b0 lb0] eqn:EL. { simpl in *. lia. }
  rewrite <- EL in *. assert (Hne : labs <> []) by congruence. destruct (M Hne) as (m & [Mb _ _ _ Mm]).
  assert (count_true fn = 0%nat).
  { assert (E : fn = map (fun _ => false) labs).
    { apply (list_eq_nth _ _ true); [rewrite map_length; auto|]. intros l Hl'. rewrite L in Hl'.
      rewrite (nth_map_gen _ _ _ _ no_box) by auto. apply Mm; auto. destruct (HP l Hl') as (i & A & B & D). exists i. split; [auto|]. split; auto.
      eapply best_unique; eauto. }
    rewrite E. apply count_none. }
  lia.
Qed.

(** ** Average precision *)
Lemma cumsum_length l : forall a, length (cumsum a l) = length l.
Proof. induction l; intros; simpl; auto. Qed.
Lemma cumsum_bounds l : forall a x, In x (cumsum a l) -> (a <= x <= a + count_true l)%nat.
Proof.
  induction l as [|b l IH]; simpl; intros a x H; [tauto|]. rewrite count_true_cons. destruct H as [<-|H]; [destruct b; lia|].
  apply IH in H. destruct b; lia.
Qed.
Lemma cumsum_sorted l : forall a, StronglySorted Nat.le (cumsum a l).
Proof.
  induction l as [|b l IH]; intros a; simpl; constructor; auto. apply Forall_forall. intros x Hx. apply cumsum_bounds in Hx. unfold Nat.le. lia.
Qed.
Lemma envelope_length l : length (envelope l) = length l.
Proof. induction l as [|x l IH]; [reflexivity|]. simpl. destruct (envelope l); simpl in *; lia. Qed.
Lemma envelope_in l lo hi : (forall x, In x l -> lo <= x <= hi) -> forall y, In y (envelope l) -> lo <= y <= hi.
Proof.
  induction l as [|x l IH]; intros H y; [simpl; tauto|]. assert (H' : forall z, In z l -> lo <= z <= hi) by (intros; apply H; right; auto).
  specialize (IH H'). pose proof (H x (or_introl eq_refl)) as Hx. simpl. destruct (envelope l) as [|e t] eqn:E.
  - intros [<-|[]]. auto.
  - intros [<-|Hy]; [|apply IH; auto]. pose proof (IH e (or_introl eq_refl)). destruct (qmax_spec x e) as [[? ->]|[? ->]]; auto.
Qed.
Lemma area_bounds r : forall p, length r = length p -> StronglySorted Qle r -> (forall y, In y p -> 0 <= y <= 1) ->
  0 <= area r p <= last r 0 - hd 0 r.
Proof.
  induction r as [|a r IH]; intros [|b p] L SS Hp; simpl in L; try lia; [simpl; lra|].
  destruct r as [|a1 r]; destruct p as [|b1 p]; simpl in L; try lia; [simpl; lra|].
  inversion SS as [|? ? SS' HF]; subst. specialize (IH (b1 :: p) ltac:(simpl; lia) SS' ltac:(intros; apply Hp; right; auto)).
  rewrite Forall_forall in HF. pose proof (HF a1 (or_introl eq_refl)) as Ha. pose proof (Hp b1 ltac:(simpl; auto)) as Hb.
  change (area (a :: a1 :: r) (b :: b1 :: p)) with ((if Qeq_bool a1 a then 0 else (a1 - a) * b1) + area (a1 :: r) (b1 :: p)).
  change (last (a :: a1 :: r) 0) with (last (a1 :: r) 0). change (hd 0 (a1 :: r)) with a1 in IH. change (hd 0 (a :: a1 :: r)) with a.
  destruct (Qeq_bool a1 a) eqn:E; [apply Qeq_bool_eq in E; lra|]. nra.
Qed.
Lemma qle_app1 l : StronglySorted Qle l -> (forall x, In x l -> 0 <= x <= 1) -> StronglySorted Qle (0 :: l ++ [1]).
Proof.
  intros SS H. constructor.
  - induction SS as [|x l SS IH HF]; simpl; constructor; auto; [constructor| |].
    + apply IH. intros; apply H; right; auto.
    + rewrite Forall_forall in *. intros y Hy. apply in_app_or in Hy as [Hy|[<-|[]]]; auto. apply H; simpl; auto.
  - apply Forall_forall. intros y Hy. apply in_app_or in Hy as [Hy|[<-|[]]]; [apply H; auto|lra].
Qed.

Lemma area_ge c r : forall p, 0 <= c -> length r = length p -> StronglySorted Qle r -> (forall y, In y p -> c <= y) ->
  c * (last r 0 - hd 0 r) <= area r p.
Proof.
  intros p Hc. revert p. induction r as [|a r IH]; intros [|b p] L SS Hp; simpl in L; try lia; [simpl; lra|].
  destruct r as [|a1 r]; destruct p as [|b1 p]; simpl in L; try lia; [simpl; lra|].
  inversion SS as [|? ? SS' HF]; subst. specialize (IH (b1 :: p) ltac:(simpl; lia) SS' ltac:(intros; apply Hp; right; auto)).
  rewrite Forall_forall in HF. pose proof (HF a1 (or_introl eq_refl)) as Ha. pose proof (Hp b1 ltac:(simpl; auto)) as Hb.
  change (area (a :: a1 :: r) (b :: b1 :: p)) with ((if Qeq_bool a1 a then 0 else (a1 - a) * b1) + area (a1 :: r) (b1 :: p)).
  change (last (a :: a1 :: r) 0) with (last (a1 :: r) 0). change (hd 0 (a1 :: r)) with a1 in IH. change (hd 0 (a :: a1 :: r)) with a.
  set (z := last (a1 :: r) 0) in *. clearbody z.
  assert (c * (a1 - a) <= (a1 - a) * b1) by nra.
  assert (X : (if Qeq_bool a1 a then 0 else (a1 - a) * b1) == (a1 - a) * b1).
  { destruct (Qeq_bool a1 a) eqn:E; [|reflexivity]. apply Qeq_bool_eq in E. rewrite E. ring. }
  rewrite X. lra.
Qed.
Lemma area_snoc r : forall p x y, length r = length p -> y == 0 -> area (r ++ [x]) (p ++ [y]) == area r p.
Proof.
  induction r as [|a r IH]; intros [|b p] x y L Hy; simpl in L; try lia; [simpl; lra|].
  destruct r as [|a1 r]; destruct p as [|b1 p]; simpl in L; try lia.
  - simpl. destruct (Qeq_bool x a); [lra|]. rewrite Hy. ring.
  - cbn [app].
    change (area (a :: a1 :: r ++ [x]) (b :: b1 :: p ++ [y])) with ((if Qeq_bool a1 a then 0 else (a1 - a) * b1) + area ((a1 :: r) ++ [x]) ((b1 :: p) ++ [y])).
    rewrite (IH (b1 :: p)) by (auto; simpl; lia). reflexivity.
Qed.
Lemma envelope_snoc z l : exists l', envelope (l ++ [z]) = l' ++ [z] /\ length l' = length l /\
  (l <> [] -> forall y, In y l' -> last l 0 <= y).
Proof.
  induction l as [|x l (l' & E & L & H)].
  - exists []. split; [reflexivity|]. split; auto. intros; congruence.
  - cbn [app envelope]. rewrite E. destruct l' as [|y t].
    + destruct l; [|discriminate]. cbn [app]. exists [qmax x z]. split; [reflexivity|]. split; [reflexivity|]. intros _ y [<-|[]]. cbn [last]. qcases; lra.
    + cbn [app]. exists (qmax x y :: y :: t). split; [reflexivity|]. split; [simpl in *; lia|]. intros _ w Hw.
      destruct l as [|x1 l]; [discriminate|]. change (last (x :: x1 :: l) 0) with (last (x1 :: l) 0).
      specialize (H ltac:(discriminate)). destruct Hw as [<-|Hw]; [|apply H; auto].
      pose proof (H y (or_introl eq_refl)). destruct (qmax_spec x y) as [[? ->]|[? ->]]; lra.
Qed.
Lemma last_In_gen {A} (l : list A) d : l <> [] -> In (last l d) l.
Proof. intros H. destruct (exists_last H) as (l' & x & ->). rewrite last_last. apply in_or_app. right; left; auto. Qed.
(** average precision lies between recall times precision of the whole list and recall *)
Lemma ap_bounds rec prec : length rec = length prec -> StronglySorted Qle rec -> (forall x, In x rec -> 0 <= x <= 1) ->
  (forall x, In x prec -> 0 <= x <= 1) ->
  last rec 0 * last prec 0 <= average_precision rec prec /\ average_precision rec prec <= last rec 0.
Proof.
  intros L SS Hr Hp. unfold average_precision.
  destruct (envelope_snoc 0 (0 :: prec)) as (l' & E & L' & H). cbn [app] in E.
  assert (B : forall y, In y l' -> 0 <= y <= 1).
  { intros y Hy. apply (envelope_in (0 :: prec ++ [0]) 0 1); [|rewrite E; apply in_or_app; auto].
    intros x [<-|Hx]; [lra|]. apply in_app_or in Hx as [Hx|[<-|[]]]; [auto|lra]. }
  rewrite E. change (0 :: rec ++ [1]) with ((0 :: rec) ++ [1]).
  rewrite area_snoc by (cbn [length] in *; try lia; reflexivity).
  assert (S0 : StronglySorted Qle (0 :: rec)) by (constructor; auto; apply Forall_forall; intros y Hy; apply Hr; auto).
  assert (EL : last (0 :: rec) 0 = last rec 0) by (destruct rec; reflexivity).
  assert (EP : last (0 :: prec) 0 = last prec 0) by (destruct prec; reflexivity).
  pose proof (area_bounds (0 :: rec) l' ltac:(cbn [length] in *; lia) S0 B) as U. rewrite EL in U. cbn [hd] in U.
  assert (P0 : 0 <= last prec 0). { destruct prec as [|p0 prec]; [simpl; lra|]. apply Hp. apply (last_In_gen (p0 :: prec) 0). discriminate. }
  pose proof (area_ge (last prec 0) (0 :: rec) l' P0 ltac:(cbn [length] in *; lia) S0) as G. rewrite EL in G. cbn [hd] in G.
  specialize (G ltac:(rewrite <- EP; apply H; discriminate)). split; lra.
Qed.

Lemma count_take (l : list bool) order : Permutation order (seq 0 (length l)) -> count_true (take_idx false l order) = count_true l.
Proof.
  intros H. unfold take_idx. rewrite (count_true_perm _ _ (Permutation_map _ H)). f_equal. apply (tab_nth l).
Qed.
Lemma last_indep {A} (l : list A) d d' : l <> [] -> last l d = last l d'.
Proof. intros H. destruct (exists_last H) as (l' & x & ->). rewrite !last_last. reflexivity. Qed.
Lemma last_cumsum l : forall a, last (cumsum a l) a = (a + count_true l)%nat.
Proof.
  induction l as [|b l IH]; intros a; [simpl; unfold count_true; simpl; lia|]. cbn [cumsum]. rewrite count_true_cons.
  set (a' := if b then S a else a). transitivity (last (cumsum a' l) a'); [destruct (cumsum a' l); [reflexivity|]; cbn [last]; apply (last_indep (n :: l0)); discriminate|].
  rewrite IH. unfold a'. destruct b; lia.
Qed.
Lemma last_map {A B} (f : A -> B) l d d' : l <> [] -> last (map f l) d = f (last l d').
Proof. intros H. destruct (exists_last H) as (l' & x & ->). rewrite map_app; cbn [map]; rewrite !last_last. reflexivity. Qed.
Lemma last_combine {A B} (l : list A) (l' : list B) d d' : length l = length l' -> last (combine l l') (d, d') = (last l d, last l' d').
Proof.
  revert l'. induction l as [|x l IH]; intros [|y l'] H; simpl in H; try lia; [reflexivity|].
  destruct l, l'; simpl in H; try lia; [reflexivity|]. change (last (combine (x :: a :: l) (y :: b :: l')) (d, d')) with (last (combine (a :: l) (b :: l')) (d, d')).
  rewrite IH by (simpl; lia). reflexivity.
Qed.
Lemma count_concat ls : count_true (concat ls) = nsum (map count_true ls).
Proof. induction ls; [reflexivity|]. cbn [concat map]. rewrite count_true_app, IHls. reflexivity. Qed.
Lemma nsum_le l l' : Forall2 Nat.le l l' -> (nsum l <= nsum l')%nat.
Proof. induction 1; unfold Nat.le in *; simpl; auto. change (nsum (x :: l)) with (x + nsum l)%nat. change (nsum (y :: l')) with (y + nsum l')%nat. lia. Qed.
Lemma qmax_eps n : 0 < qmax (Qnat n) EPS32.
Proof. assert (0 < EPS32) by reflexivity. destruct (qmax_spec (Qnat n) EPS32) as [[? ->]|[? ->]]; lra. Qed.
Lemma div_unit t n : (t <= n)%nat -> 0 <= Qnat t / qmax (Qnat n) EPS32 <= 1.
Proof.
  intros H. pose proof (Qnat_le _ _ H). pose proof (Qnat_nonneg t). pose proof (qmax_eps n). split.
  - apply Qle_shift_div_l; auto. lra.
  - apply Qle_shift_div_r; auto. destruct (qmax_spec (Qnat n) EPS32) as [[? ->]|[? ->]]; lra.
Qed.
Lemma qmax_nat n : (0 < n)%nat -> qmax (Qnat n) EPS32 == Qnat n.
Proof.
  intros H. assert (1 <= Qnat n) by (change 1 with (Qnat 1); apply Qnat_le; lia). assert (EPS32 < 1) by reflexivity.
  destruct (qmax_spec (Qnat n) EPS32) as [[? ->]|[? ->]]; lra.
Qed.
Section AP.
Variables (srt : list Q -> list nat) (thr : Q) (labels : list image_label) (predictions : list image_pred) (k : nat).
Hypothesis Hs : argsort_ok srt.
Hypothesis Hlen : length labels = length predictions.
Notation cnt := (class_counts srt thr labels predictions k).
Definition ratio (t n : nat) : Q := Qnat t / qmax (Qnat n) EPS32.
Lemma ap_class_bounds : let '(tp, fp, fn) := cnt in
  (tp + fn = nsum (map (fun l => length (class_labels k l)) labels))%nat /\
  (tp + fp = nsum (map (fun p => length (class_preds k p)) predictions))%nat /\
  ratio tp (tp + fn) * ratio tp (tp + fp) <= ap_class srt thr labels predictions k /\
  ap_class srt thr labels predictions k <= ratio tp (tp + fn).
Proof.
  unfold class_counts.
  set (res := map (fun pl : image_pred * image_label => tp_fp_fn srt (class_preds k (fst pl)) (class_labels k (snd pl)) thr) (combine predictions labels)).
  set (TP := nsum (map (fun r => count_true (fst (fst r))) res)). set (FP := nsum (map (fun r => count_true (snd (fst r))) res)).
  set (FN := nsum (map (fun r : list bool * list bool * list bool => count_true (snd r)) res)).
  assert (R : Forall2 (fun r pl => (count_true (fst (fst r)) + count_true (snd (fst r)) = length (class_preds k (fst pl)))%nat /\
      (count_true (fst (fst r)) + count_true (snd r) = length (class_labels k (snd pl)))%nat /\
      length (fst (fst r)) = length (class_preds k (fst pl)) /\ length (snd (fst r)) = length (class_preds k (fst pl)))
      res (combine predictions labels)).
  { unfold res. clear - Hs. induction (combine predictions labels) as [|pl l IH]; constructor; auto.
    destruct (tp_fp_fn _ _ _ _) as [[tp fp] fn] eqn:E. cbn [fst snd]. apply (matching_ok srt) in E as ((A & B & _) & _ & C & D & _); auto. }
  assert (ER : map (fun pl : list detection * list box => tp_fp_fn srt (fst pl) (snd pl) thr) (combine (map (class_preds k) predictions) (map (class_labels k) labels)) = res).
  { unfold res. clear. revert labels. induction predictions as [|p ps IH]; intros [|l ls]; cbn [map combine]; auto. f_equal. apply IH. }
  clearbody res.
  assert (S1 : (TP + FN = nsum (map (fun l => length (class_labels k l)) labels))%nat /\
               (TP + FP = nsum (map (fun p => length (class_preds k p)) predictions))%nat /\
               length (concat (map (fun r => fst (fst r)) res)) = length (concat (map (class_preds k) predictions)) /\
               length (concat (map (fun r => snd (fst r)) res)) = length (concat (map (class_preds k) predictions))).
  { unfold TP, FP, FN. clear TP FP FN ER Hs. revert labels Hlen res R. induction predictions as [|p ps IH]; intros [|l ls] Hl res R; simpl in Hl; try lia.
    - cbn [combine] in R. inversion R; subst. repeat split.
    - cbn [combine] in R. inversion R as [|r ? res' ? (A & B & C & D) HR]; subst. cbn [fst snd] in *.
      specialize (IH ls ltac:(lia) res' HR) as (I1 & I2 & I3 & I4). cbn [map concat]. rewrite !app_length.
      unfold nsum in *. cbn [fold_right]. repeat split; lia. }
  destruct S1 as (S1 & S2 & S3 & S4). split; [exact S1|]. split; [exact S2|].
  unfold ap_class. cbv zeta.
  rewrite ER. clear ER R.
  set (probs := map (fun d : detection => - snd d) (concat (map (class_preds k) predictions))).
  pose proof (Hs probs) as (Hp & _). set (order := srt probs) in *.
  assert (Lp : length probs = length (concat (map (class_preds k) predictions))) by apply map_length.
  set (tl_ := take_idx false (concat (map (fun r => fst (fst r)) res)) order). set (fl_ := take_idx false (concat (map (fun r => snd (fst r)) res)) order).
  assert (CT : count_true tl_ = TP) by (unfold tl_; rewrite count_take by (rewrite S3, <- Lp; auto); rewrite count_concat, map_map; reflexivity).
  assert (CF : count_true fl_ = FP) by (unfold fl_; rewrite count_take by (rewrite S4, <- Lp; auto); rewrite count_concat, map_map; reflexivity).
  assert (Ll : length tl_ = length fl_) by (unfold tl_, fl_, take_idx; rewrite !map_length; auto).
  clearbody tl_ fl_ TP FP FN. clear S3 S4 Hp order Lp probs res.
  replace (nsum (map (@length box) (map (class_labels k) labels))) with (TP + FN)%nat by (rewrite map_map; auto).
  set (rec := map (fun t => Qnat t / qmax (Qnat (TP + FN)) EPS32) (cumsum 0 tl_)).
  set (prec := map _ (combine _ _)).
  destruct (list_eq_dec Bool.bool_dec tl_ []) as [->|Hne].
  { assert (TP = 0)%nat as -> by (rewrite <- CT; reflexivity). destruct fl_; [|discriminate]. unfold rec, prec. cbn [cumsum combine map].
    assert (Z : average_precision [] [] == 0) by reflexivity. assert (Z' : forall n, ratio 0 n == 0) by (intros n; apply div0).
    rewrite Z, !Z'. split; lra. }
  assert (L1 : length rec = length prec) by (unfold rec, prec; rewrite !map_length, combine_length, !cumsum_length, Ll; lia).
  assert (Lc : length (cumsum 0 tl_) = length (cumsum 0 fl_)) by (rewrite !cumsum_length; auto).
  assert (NC : cumsum 0 tl_ <> []) by (destruct tl_; [congruence|discriminate]).
  assert (LR : last rec 0 = ratio TP (TP + FN)).
  { unfold rec. rewrite (last_map _ _ _ 0%nat) by auto. rewrite last_cumsum, CT. reflexivity. }
  assert (LP : last prec 0 = ratio TP (TP + FP)).
  { unfold prec. rewrite (last_map _ _ _ (0, 0)%nat) by (destruct (cumsum 0 tl_), (cumsum 0 fl_); discriminate || congruence).
    rewrite last_combine, !last_cumsum, CT, CF by auto. reflexivity. }
  rewrite <- LR, <- LP. apply ap_bounds; auto.
  - unfold rec. pose proof (cumsum_sorted tl_ 0) as SS. clear - SS. induction SS as [|x l SS IH HF]; cbn [map]; constructor; auto.
    apply Forall_forall. intros y Hy. apply in_map_iff in Hy as (z & <- & Hz). rewrite Forall_forall in HF. specialize (HF z Hz).
    apply Qle_shift_div_l; [apply qmax_eps|]. unfold Qdiv. rewrite <- Qmult_assoc, (Qmult_comm (/ _)), Qmult_inv_r, Qmult_1_r by (pose proof (qmax_eps (TP + FN)); lra).
    apply Qnat_le. exact HF.
  - intros x Hx. apply in_map_iff in Hx as (t & <- & Ht). apply cumsum_bounds in Ht. apply div_unit. lia.
  - intros x Hx. apply in_map_iff in Hx as (tf & <- & Ht). apply div_unit. lia.
Qed.
End AP.
Lemma ap_class_unit srt thr labels predictions k : argsort_ok srt -> length labels = length predictions ->
  0 <= ap_class srt thr labels predictions k <= 1.
Proof.
  intros Hs Hl. pose proof (ap_class_bounds srt thr labels predictions k Hs Hl) as H. destruct (class_counts _ _ _ _ _) as [[tp fp] fn].
  destruct H as (_ & _ & A & B). unfold ratio in *. pose proof (div_unit tp (tp + fn) ltac:(lia)). pose proof (div_unit tp (tp + fp) ltac:(lia)). nra.
Qed.

(** ** Box scores *)
Lemma nth_error_combine {A B} (l : list A) (l' : list B) i a b : nth_error (combine l l') i = Some (a, b) ->
  nth_error l i = Some a /\ nth_error l' i = Some b.
Proof. revert l' i. induction l as [|x l IH]; intros [|y l'] [|i]; simpl; try discriminate; auto. intros E. injection E as -> ->. auto. Qed.
Lemma nth_error_combine' {A B} (l : list A) (l' : list B) i a b : nth_error l i = Some a -> nth_error l' i = Some b ->
  nth_error (combine l l') i = Some (a, b).
Proof. revert l' i. induction l as [|x l IH]; intros [|y l'] [|i]; simpl; try discriminate; auto. intros E E'. injection E as ->. injection E' as ->. auto. Qed.
Lemma separate_from k (p : image_pred) : flat_map (fun kd => map (fun d => (fst kd, d)) (snd kd)) (combine (seq k (length p)) p) =
  match p with [] => [] | ds :: t => map (fun d => (k, d)) ds ++ flat_map (fun kd => map (fun d => (fst kd, d)) (snd kd)) (combine (seq (S k) (length t)) t) end.
Proof. destruct p; reflexivity. Qed.
Lemma separate_nth (p : image_pred) : forall k j, nth_error (flat_map (fun kd => map (fun d => (fst kd, d)) (snd kd)) (combine (seq k (length p)) p)) j = nth_prediction k p j.
Proof.
  induction p as [|ds p IH]; intros k j; [destruct j; reflexivity|]. rewrite separate_from. cbn [nth_prediction].
  destruct (nth_error ds j) eqn:E.
  - rewrite nth_error_app1 by (rewrite map_length; apply nth_error_Some; congruence). rewrite nth_error_map, E. reflexivity.
  - apply nth_error_None in E. rewrite nth_error_app2, map_length by (rewrite map_length; auto). apply IH.
Qed.
Lemma separate_in (p : image_pred) : forall k k' d, In (k', d) (flat_map (fun kd => map (fun d => (fst kd, d)) (snd kd)) (combine (seq k (length p)) p)) <->
  (k <= k')%nat /\ In d (nth (k' - k) p []).
Proof.
  induction p as [|ds p IH]; intros k k' d.
  - simpl. destruct (k' - k)%nat; tauto.
  - rewrite separate_from, in_app_iff, IH, in_map_iff. split.
    + intros [(x & E & H)|(H & H')].
      * injection E as -> ->. rewrite Nat.sub_diag. auto.
      * split; [lia|]. replace (k' - k)%nat with (S (k' - S k)) by lia. auto.
    + intros (H & H'). destruct (k' - k)%nat as [|m] eqn:E.
      * left. exists d. replace k' with k by lia. auto.
      * right. split; [lia|]. replace (k' - S k)%nat with m by lia. auto.
Qed.
Lemma separate_predicted p k d : In (k, d) (separate_prediction p) <-> predicted p k d.
Proof. unfold separate_prediction. rewrite separate_in, Nat.sub_0_r. unfold predicted. split; [tauto|]. intros; split; [lia|auto]. Qed.
Lemma separate_nth' p j : nth_error (separate_prediction p) j = nth_prediction 0 p j.
Proof. apply separate_nth. Qed.

Lemma simq dist alpha a b : similarity dist alpha a b == sim dist alpha a b.
Proof. unfold similarity, sim. ring. Qed.
Lemma fold_qmin_le l : forall x, fold_left qmin l x <= x /\ (forall y, In y l -> fold_left qmin l x <= y) /\ (fold_left qmin l x = x \/ In (fold_left qmin l x) l).
Proof.
  induction l as [|y l IH]; intros x; simpl; [split; [lra|]; split; [tauto|auto]|].
  destruct (IH (qmin x y)) as (A & B & C). destruct (qmin_spec x y) as [[H E]|[H E]].
  - rewrite E in *. split; [lra|]. split; [intros z [<-|Hz]; [lra|auto]|]. destruct C; auto.
  - rewrite E in *. split; [lra|]. split; [intros z [<-|Hz]; [lra|auto]|]. destruct C as [C|C]; auto.
Qed.
Section Aux.
Variables (dist : box -> box -> Q) (alpha : Q) (labels : list image_label) (predictions : list image_pred).
Hypothesis Hd : forall a b, unit_interval (dist a b).
Hypothesis Ha : unit_interval alpha.
Hypothesis Hl : length labels = length predictions.
Hypothesis Hb : forall i, (i < length labels)%nat -> boxes_ok (nth i labels []) (nth i predictions []).
Notation amin := (min_possible_similarity dist alpha labels predictions).
Definition image_aux (i : nat) : aux :=
  let preds := separate_prediction (nth i predictions []) in
  mk_aux (nth i labels []) preds (similarity_matrix dist alpha (nth i labels []) preds)
         (overlap_matrix (map snd (nth i labels [])) (map (fun p => fst (snd p)) preds)) amin.
Lemma aux_inputs_tab : aux_inputs dist alpha labels predictions = tab (length labels) image_aux.
Proof.
  unfold aux_inputs. cbv zeta. apply (list_eq_nth _ _ (mk_aux [] [] [] [] 0)).
  - rewrite map_length, combine_length, tab_length. lia.
  - intros i Hi. rewrite map_length, combine_length in Hi. rewrite nth_tab by lia.
    rewrite (nth_map_gen _ _ _ _ ([], [])) by (rewrite combine_length; auto). rewrite combine_nth by auto. reflexivity.
Qed.
Lemma sim_unit i kb kd : (i < length labels)%nat -> In kb (nth i labels []) -> In kd (separate_prediction (nth i predictions [])) ->
  0 <= similarity dist alpha (snd kb) (fst (snd kd)) <= 1.
Proof.
  intros Hi H1 H2. destruct (Hb i Hi) as (B1 & B2). destruct kd as [k d]. apply separate_predicted in H2.
  assert (W2 : well_formed (fst d)).
  { destruct (le_lt_dec (length (nth i predictions [])) k) as [G|G].
    - unfold predicted in H2. rewrite nth_overflow in H2 by auto. destruct H2.
    - apply (B2 (nth k (nth i predictions []) [])); auto. apply nth_In; auto. }
  specialize (B1 _ H1). cbn [snd]. rewrite simq. unfold sim.
  pose proof (iou_nonneg (snd kb) (fst d)). pose proof (iou_le1 _ _ B1 W2). pose proof (Hd (snd kb) (fst d)) as [D1 D2]. destruct Ha. nra.
Qed.
Lemma sim_concat i x : In x (concat (similarity_matrix dist alpha (nth i labels []) (separate_prediction (nth i predictions [])))) <->
  exists kb kd, In kb (nth i labels []) /\ In kd (separate_prediction (nth i predictions [])) /\ x = similarity dist alpha (snd kb) (fst (snd kd)).
Proof.
  unfold similarity_matrix. rewrite in_concat. split.
  - intros (r & Hr & Hx). apply in_map_iff in Hr as (kb & <- & Hk). apply in_map_iff in Hx as (kd & <- & Hkd). eauto.
  - intros (kb & kd & A & B & ->). eexists. split; [apply in_map_iff; exists kb; split; [reflexivity|auto]|]. apply in_map_iff. exists kd. auto.
Qed.
Lemma min_image_spec i : (i < length labels)%nat ->
  let m := min_image_similarity dist alpha (nth i labels []) (separate_prediction (nth i predictions [])) in
  0 < m <= 1 /\
  (forall kb kd, In kb (nth i labels []) -> In kd (separate_prediction (nth i predictions [])) -> 0 < similarity dist alpha (snd kb) (fst (snd kd)) ->
     m <= similarity dist alpha (snd kb) (fst (snd kd))) /\
  (m == 1 \/ exists kb kd, In kb (nth i labels []) /\ In kd (separate_prediction (nth i predictions [])) /\ m = similarity dist alpha (snd kb) (fst (snd kd))).
Proof.
  intros Hi. unfold min_image_similarity. set (l := filter _ _).
  assert (L : forall x, In x l <-> ~ x == 0 /\ exists kb kd, In kb (nth i labels []) /\ In kd (separate_prediction (nth i predictions [])) /\ x = similarity dist alpha (snd kb) (fst (snd kd))).
  { intros x. unfold l. rewrite filter_In, sim_concat, negb_true_iff. split; intros (A & B); split; auto.
    - intros E. apply Qeq_bool_iff in E. congruence.
    - apply not_true_is_false. intros E. apply Qeq_bool_iff in E. auto. }
  assert (P : forall x, In x l -> 0 < x <= 1).
  { intros x Hx. apply L in Hx as (A & kb & kd & B & C & ->). pose proof (sim_unit i kb kd Hi B C). split; [|lra].
    destruct H as [H _]. apply Qle_lteq in H as [H|H]; auto. symmetry in H. contradiction. }
  assert (M : l <> [] -> 0 < qminimum l <= 1 /\ (forall kb kd, In kb (nth i labels []) -> In kd (separate_prediction (nth i predictions [])) -> 0 < similarity dist alpha (snd kb) (fst (snd kd)) ->
     qminimum l <= similarity dist alpha (snd kb) (fst (snd kd))) /\
     (qminimum l == 1 \/ exists kb kd, In kb (nth i labels []) /\ In kd (separate_prediction (nth i predictions [])) /\ qminimum l = similarity dist alpha (snd kb) (fst (snd kd)))).
  { intros Hne. pose proof (qminimum_in l Hne) as Hin. split; [apply P; auto|]. split.
    - intros kb kd A B C. apply qminimum_le. apply L. split; [lra|]. eauto.
    - right. apply L in Hin as (_ & H). exact H. }
  destruct l as [|x l']; [|apply M; discriminate]. cbv zeta. split; [lra|]. split; [|left; reflexivity].
  intros kb kd A B C. exfalso. apply (L (similarity dist alpha (snd kb) (fst (snd kd)))). split; [lra|]. eauto.
Qed.
Lemma amin_spec : least_similarity dist alpha labels predictions amin.
Proof.
  unfold least_similarity, min_possible_similarity.
  set (ms := map _ _).
  assert (EM : ms = tab (length labels) (fun i => min_image_similarity dist alpha (nth i labels []) (separate_prediction (nth i predictions [])))).
  { unfold ms. apply (list_eq_nth _ _ 0).
    - rewrite map_length, combine_length, tab_length. lia.
    - intros i Hi. rewrite map_length, combine_length in Hi. rewrite nth_tab by lia.
      rewrite (nth_map_gen _ _ _ _ ([], [])) by (rewrite combine_length; auto). rewrite combine_nth by auto. reflexivity. }
  destruct (fold_qmin_le ms 1) as (A & B & C).
  assert (IN : forall x, In x ms -> exists i, (i < length labels)%nat /\ x = min_image_similarity dist alpha (nth i labels []) (separate_prediction (nth i predictions []))).
  { intros x Hx. rewrite EM in Hx. apply in_tab in Hx. auto. }
  split; [|split; [exact A|split]].
  - destruct C as [->|C]; [lra|]. apply IN in C as (i & Hi & ->). apply min_image_spec; auto.
  - intros a b (i & k & k' & q & H1 & H2) H3.
    assert (Hi : (i < length labels)%nat). { destruct (le_lt_dec (length labels) i); auto. rewrite nth_overflow in H1 by auto. destruct H1. }
    destruct (min_image_spec i Hi) as (_ & M & _). apply separate_predicted in H2. specialize (M _ _ H1 H2). cbn [fst snd] in M. rewrite simq in M.
    eapply Qle_trans; [apply B|apply M; auto]. rewrite EM. apply in_tab. eauto.
  - destruct C as [->|C]; [left; reflexivity|]. apply IN in C as (i & Hi & ->). destruct (min_image_spec i Hi) as (_ & _ & [M|(kb & (k & (b & q)) & M1 & M2 & M3)]); [left; auto|].
    right. exists (snd kb), b. split.
    + exists i, (fst kb), k, q. split; [destruct kb; auto|]. apply separate_predicted; auto.
    + rewrite M3, simq. reflexivity.
Qed.
Lemma amin_unit : 0 < amin <= 1. Proof. destruct amin_spec as (A & B & _). split; auto. Qed.

Lemma col_map {A} (f : A -> list Q) l j : col j (map f l) = map (fun x => nth j (f x) 0) l.
Proof. unfold col. rewrite map_map. reflexivity. Qed.
Lemma map_nth_error_col {A B} (g : A -> B -> Q) (l : list A) (ps : list B) j p : nth_error ps j = Some p ->
  col j (map (fun a => map (g a) ps) l) = map (fun a => g a p) l.
Proof.
  intros H. rewrite col_map. apply map_ext. intros a. rewrite (nth_map_gen _ _ _ _ p) by (apply nth_error_Some; congruence).
  rewrite (nth_error_nth _ _ p H). reflexivity.
Qed.
Lemma select_map {A B} (f : A -> bool) (g : A -> B) l : select (map f l) (map g l) = map g (filter f l).
Proof. unfold select. induction l as [|x l IH]; [reflexivity|]. cbn [map combine filter]. cbn [fst]. destruct (f x); cbn [map]; rewrite IH; reflexivity. Qed.
Lemma existsb_map {A B} (f : B -> bool) (g : A -> B) l : existsb f (map g l) = existsb (fun x => f (g x)) l.
Proof. induction l; simpl; auto. rewrite IHl. reflexivity. Qed.
Lemma argmax_nth_max {A} (g : A -> Q) l : l <> [] -> exists a, In a l /\ nth (argmax (map g l)) (map g l) 0 = g a /\ forall b, In b l -> g b <= g a.
Proof.
  intros H. assert (H' : map g l <> []) by (destruct l; [congruence|discriminate]).
  destruct (argmax_spec _ H') as (A1 & A2 & _). rewrite map_length in A1, A2. destruct (nth_error l (argmax (map g l))) as [a|] eqn:E.
  - exists a. split; [apply nth_error_In in E; auto|]. rewrite (nth_map_gen _ _ _ _ a) by auto. rewrite (nth_error_nth _ _ a E). split; auto.
    intros b Hb'. apply (In_nth _ _ a) in Hb' as (j & Hj & <-). specialize (A2 j Hj). rewrite !(nth_map_gen _ _ _ _ a) in A2 by auto.
    rewrite (nth_error_nth _ _ a E) in A2. auto.
  - apply nth_error_None in E. lia.
Qed.

Lemma overlooked_nth hp i j : (i < length labels)%nat ->
  nth_error (overlooked_scores hp (image_aux i)) j =
  match nth_prediction 0 (nth i predictions []) j with
  | None => None
  | Some (k, d) => Some (
      if Qltb (snd d) hp || existsb (fun kb => Qltb 0 (iou (snd kb) (fst d))) (nth i labels []) then None
      else match filter (fun kb => Nat.eqb (fst kb) k) (nth i labels []) with
           | [] => Some (amin * (1 - snd d))
           | l => Some (nth (argmax (map (fun kb => similarity dist alpha (snd kb) (fst d)) l)) (map (fun kb => similarity dist alpha (snd kb) (fst d)) l) 0)
           end)
  end.
Proof.
  intros Hi. unfold overlooked_scores. rewrite nth_error_map. cbn [image_aux a_preds a_labs a_iou a_sim a_min].
  set (ps := separate_prediction (nth i predictions [])). rewrite <- separate_nth'. fold ps.
  destruct (nth_error ps j) as [[k d]|] eqn:E.
  - assert (Hj : (j < length ps)%nat) by (apply nth_error_Some; congruence).
    rewrite (nth_error_combine' _ _ j j (k, d)); [|rewrite (nth_error_nth' _ 0%nat) by (rewrite seq_length; auto); rewrite seq_nth by auto; reflexivity|auto].
    cbn [option_map fst snd det_prob]. f_equal. unfold det_prob. cbn [fst snd].
    assert (E1 : col j (overlap_matrix (map snd (nth i labels [])) (map (fun p : nat * detection => fst (snd p)) ps)) = map (fun kb : nat * box => iou (snd kb) (fst d)) (nth i labels [])).
    { unfold overlap_matrix. rewrite (map_nth_error_col (fun a b => iou a b) _ _ _ (fst d)).
      - rewrite map_map. reflexivity.
      - rewrite nth_error_map, E. reflexivity. }
    assert (E2 : col j (similarity_matrix dist alpha (nth i labels []) ps) = map (fun kb : nat * box => similarity dist alpha (snd kb) (fst d)) (nth i labels [])).
    { unfold similarity_matrix. rewrite (map_nth_error_col (fun (l : nat * box) (p : nat * detection) => similarity dist alpha (snd l) (fst (snd p))) _ _ _ (k, d)) by auto. reflexivity. }
    rewrite E1, E2. rewrite select_map. rewrite existsb_map.
    destruct (Qltb (snd d) hp || existsb (fun kb : nat * box => Qltb 0 (iou (snd kb) (fst d))) (nth i labels [])); [reflexivity|].
    destruct (filter _ _); reflexivity.
  - destruct (nth_error (combine _ ps) j) as [[a b]|] eqn:E'; [|reflexivity]. apply nth_error_combine in E' as (_ & E'). congruence.
Qed.

Lemma well_formed_pred i k d : (i < length labels)%nat -> predicted (nth i predictions []) k d -> well_formed (fst d).
Proof.
  intros Hi H. destruct (Hb i Hi) as (B1 & B2). unfold predicted in H.
  destruct (le_lt_dec (length (nth i predictions [])) k) as [G|G].
  - rewrite nth_overflow in H by auto. destruct H.
  - apply (B2 (nth k (nth i predictions []) [])); auto. apply nth_In; auto.
Qed.
Lemma nth_prediction_predicted p j k d : nth_prediction 0 p j = Some (k, d) -> predicted p k d.
Proof. rewrite <- separate_nth'. intros H. apply nth_error_In in H. apply separate_predicted. auto. Qed.
Lemma overlooked_ok hp i j k d : (i < length labels)%nat -> probabilities_ok (nth i predictions []) ->
  nth_prediction 0 (nth i predictions []) j = Some (k, d) ->
  exists o, nth_error (overlooked_scores hp (image_aux i)) j = Some o /\
  (o = None <-> snd d < hp \/ exists kb, In kb (nth i labels []) /\ 0 < iou (snd kb) (fst d)) /\
  (forall s, o = Some s -> unit_interval s /\
     ((~ (exists b, In (k, b) (nth i labels [])) /\ s == amin * (1 - snd d)) \/
      (exists b, In (k, b) (nth i labels []) /\ s == sim dist alpha b (fst d) /\
         forall b', In (k, b') (nth i labels []) -> sim dist alpha b' (fst d) <= s))).
Proof.
  intros Hi Hq E. rewrite overlooked_nth by auto. rewrite E. eexists. split; [reflexivity|].
  pose proof (nth_prediction_predicted _ _ _ _ E) as HP.
  assert (Hq' : unit_interval (snd d)).
  { unfold predicted in HP. destruct (le_lt_dec (length (nth i predictions [])) k) as [G|G]; [rewrite nth_overflow in HP by auto; destruct HP|].
    apply (Hq (nth k (nth i predictions []) []) d); auto. apply nth_In; auto. }
  assert (EX : existsb (fun kb : nat * box => Qltb 0 (iou (snd kb) (fst d))) (nth i labels []) = true <-> exists kb, In kb (nth i labels []) /\ 0 < iou (snd kb) (fst d)).
  { rewrite existsb_exists. split; intros (kb & A & B); exists kb; split; auto; apply Qltb_iff; auto. }
  destruct (Qltb (snd d) hp || _) eqn:C.
  - split; [|discriminate]. split; auto. intros _. apply orb_true_iff in C as [C|C]; [left; apply Qltb_iff; auto|right; apply EX; auto].
  - assert (C' : ~ (snd d < hp \/ exists kb, In kb (nth i labels []) /\ 0 < iou (snd kb) (fst d))).
    { intros [G|G]; [apply Qltb_iff in G; rewrite G in C; discriminate|]. apply EX in G. rewrite G, orb_true_r in C. discriminate. }
    destruct (filter _ _) as [|kb0 l0] eqn:F.
    + split; [split; [discriminate|intros; contradiction]|]. intros s Es. injection Es as <-. split.
      * destruct Hq' as [Q1 Q2]. pose proof amin_unit. split; nra.
      * left. split; [|reflexivity]. intros (b & Hb'). assert (In (k, b) []); [|simpl in *; tauto]. rewrite <- F. apply filter_In. split; auto. apply Nat.eqb_refl.
    + rewrite <- F. split; [split; [discriminate|intros; contradiction]|]. intros s Es. injection Es as <-.
      destruct (argmax_nth_max (fun kb : nat * box => similarity dist alpha (snd kb) (fst d)) (filter (fun kb : nat * box => Nat.eqb (fst kb) k) (nth i labels [])) ltac:(rewrite F; discriminate)) as ([k1 b] & A1 & A2 & A3).
      rewrite A2. apply filter_In in A1 as (A1 & A4). apply Nat.eqb_eq in A4. cbn [fst snd] in *. subst k1. split.
      * apply (sim_unit i (k, b) (k, d)); auto. apply separate_predicted. auto.
      * right. exists b. split; auto. split; [apply simq|]. intros b' Hb'. rewrite <- simq. apply (A3 (k, b')). apply filter_In. split; auto. apply Nat.eqb_refl.
Qed.

Lemma filter_filter' {A} (f g : A -> bool) l : filter f (filter g l) = filter (fun x => (f x && g x)%bool) l.
Proof. induction l as [|x l IH]; [reflexivity|]. simpl. destruct (g x); simpl; destruct (f x); simpl; rewrite IH; reflexivity. Qed.
Lemma nth_row {A B} (g : A -> B -> Q) (l : list A) (ps : list B) j a : nth_error l j = Some a ->
  nth j (map (fun a => map (g a) ps) l) [] = map (g a) ps.
Proof. intros H. rewrite (nth_map_gen _ _ _ _ a) by (apply nth_error_Some; congruence). rewrite (nth_error_nth _ _ a H). reflexivity. Qed.
Lemma filter_seq_map {A B} (f : A -> bool) (g : A -> B) (l : list A) dA dB (F : nat -> bool) : (forall j, (j < length l)%nat -> F j = f (nth j l dA)) ->
  take_idx dB (map g l) (filter F (seq 0 (length l))) = map g (filter f l).
Proof.
  intros H. assert (E : filter F (seq 0 (length l)) = where_ (map f l)).
  { unfold where_. rewrite map_length. apply filter_ext_in. intros j Hj. apply in_seq in Hj. rewrite H by lia. rewrite (nth_map_gen _ _ _ _ dA) by lia. reflexivity. }
  rewrite E. rewrite <- (select_as_take dB) by (rewrite !map_length; auto). apply select_map.
Qed.
Lemma badloc_nth lp i j k b : (i < length labels)%nat -> nth_error (nth i labels []) j = Some (k, b) ->
  nth_error (badloc_scores lp (image_aux i)) j = Some (
    match filter (fun p : nat * detection => (Qltb lp (det_prob p) && Qltb 0 (iou b (fst (snd p))))%bool)
            (filter (fun p => Nat.eqb (fst p) k) (separate_prediction (nth i predictions []))) with
    | [] => 1
    | l => qmaximum (map (fun p => similarity dist alpha b (fst (snd p))) l)
    end).
Proof.
  intros Hi E. unfold badloc_scores. rewrite nth_error_map. cbn [image_aux a_labs].
  assert (Hj : (j < length (nth i labels []))%nat) by (apply nth_error_Some; congruence).
  rewrite (nth_error_combine' _ _ j j (k, b)); [|rewrite (nth_error_nth' _ 0%nat) by (rewrite seq_length; auto); rewrite seq_nth by auto; reflexivity|auto].
  cbn [option_map fst snd]. f_equal. unfold badloc_score. cbn [image_aux a_preds a_sim a_iou].
  set (ps := separate_prediction (nth i predictions [])).
  assert (E1 : nth j (similarity_matrix dist alpha (nth i labels []) ps) [] = map (fun p => similarity dist alpha b (fst (snd p))) ps).
  { unfold similarity_matrix. rewrite (nth_row (fun (l : nat * box) (p : nat * detection) => similarity dist alpha (snd l) (fst (snd p))) _ _ _ (k, b)) by auto. reflexivity. }
  assert (E2 : nth j (overlap_matrix (map snd (nth i labels [])) (map (fun p : nat * detection => fst (snd p)) ps)) [] = map (fun p => iou b (fst (snd p))) ps).
  { unfold overlap_matrix. rewrite (nth_row (fun a b => iou a b) _ _ _ b) by (rewrite nth_error_map, E; reflexivity). rewrite map_map. reflexivity. }
  rewrite E1, E2, !select_map. set (kp := filter (fun p : nat * detection => Nat.eqb (fst p) k) ps).
  set (combined := filter _ (seq 0 (length (map det_prob kp)))).
  assert (EC : take_idx 0 (map (fun p : nat * detection => similarity dist alpha b (fst (snd p))) kp) combined =
               map (fun p => similarity dist alpha b (fst (snd p))) (filter (fun p : nat * detection => (Qltb lp (det_prob p) && Qltb 0 (iou b (fst (snd p))))%bool) kp)).
  { unfold combined. rewrite map_length. apply (filter_seq_map _ _ _ (0%nat, (no_box, 0))). intros m Hm.
    rewrite !(nth_map_gen _ _ _ _ (0%nat, (no_box, 0))) by auto. reflexivity. }
  assert (LC : length combined = length (filter (fun p : nat * detection => (Qltb lp (det_prob p) && Qltb 0 (iou b (fst (snd p))))%bool) kp)).
  { apply (f_equal (@length Q)) in EC. unfold take_idx in EC. rewrite !map_length in EC. auto. }
  set (conf := filter _ kp) in *. destruct (map det_prob kp) as [|x0 t0] eqn:EK.
  - destruct kp; [|discriminate]. reflexivity.
  - rewrite <- EK in *. destruct (Qleb (qmaximum (map det_prob kp)) lp) eqn:EQ.
    + apply Qleb_iff in EQ. destruct conf as [|p0 c0] eqn:EF; [reflexivity|]. exfalso.
      assert (Hin' : In p0 (filter (fun p : nat * detection => (Qltb lp (det_prob p) && Qltb 0 (iou b (fst (snd p))))%bool) kp)) by (change (In p0 conf); rewrite EF; left; auto).
      apply filter_In in Hin' as (H1 & H2). apply andb_prop in H2 as (H2 & _). apply Qltb_iff in H2.
      pose proof (qmaximum_ge (map det_prob kp) (det_prob p0) ltac:(apply in_map; auto)). lra.
    + destruct conf as [|p0 c0] eqn:EF.
      * destruct combined; [reflexivity|simpl in LC; lia].
      * destruct combined as [|c1 cs] eqn:EB; [simpl in LC; lia|]. rewrite EC. reflexivity.
Qed.
Lemma badloc_ok lp i j k b : (i < length labels)%nat -> nth_error (nth i labels []) j = Some (k, b) ->
  exists s, nth_error (badloc_scores lp (image_aux i)) j = Some s /\ unit_interval s /\
  ((s == 1 /\ ~ exists d, predicted (nth i predictions []) k d /\ lp < snd d /\ 0 < iou b (fst d)) \/
   ((exists d, predicted (nth i predictions []) k d /\ lp < snd d /\ 0 < iou b (fst d) /\ s == sim dist alpha b (fst d)) /\
    forall d, predicted (nth i predictions []) k d -> lp < snd d -> 0 < iou b (fst d) -> sim dist alpha b (fst d) <= s)).
Proof.
  intros Hi E. rewrite (badloc_nth lp i j k b) by auto. eexists. split; [reflexivity|].
  set (conf := filter _ (filter _ _)).
  assert (HC : forall p, In p conf <-> fst p = k /\ predicted (nth i predictions []) k (snd p) /\ lp < det_prob p /\ 0 < iou b (fst (snd p))).
  { intros [k' d]. unfold conf. rewrite !filter_In, andb_true_iff, !Qltb_iff, Nat.eqb_eq. cbn [fst snd]. rewrite separate_predicted.
    split; [intros ((A & ->) & B & C); auto|intros (-> & A & B & C); auto]. }
  destruct conf as [|p0 c0] eqn:EF.
  - split; [split; lra|]. left. split; [reflexivity|]. intros (d & A & B & C). apply (HC (k, d)). auto.
  - rewrite <- EF in *. assert (Hne : conf <> []) by (rewrite EF; discriminate).
    assert (Hne' : map (fun p : nat * detection => similarity dist alpha b (fst (snd p))) conf <> []) by (destruct conf; [congruence|discriminate]).
    pose proof (qmaximum_in _ Hne') as Hin. apply in_map_iff in Hin as ([k' d] & E1 & H1). apply HC in H1 as (A & B & C & D). cbn [fst snd] in *. subst k'.
    unfold det_prob in C. cbn [snd] in C. split.
    + rewrite <- E1. apply (sim_unit i (k, b) (k, d)); auto; [apply nth_error_In in E; auto|]. apply separate_predicted. auto.
    + right. split.
      * exists d. rewrite <- E1. split; auto. split; auto. split; auto. apply simq.
      * intros d' A' C' D'. rewrite <- simq. apply qmaximum_ge. apply in_map_iff. exists (k, d'). split; auto. apply HC. cbn [fst snd det_prob]. auto.
Qed.
Lemma has_overlap_iff l j : (j < length l)%nat -> has_overlap l j = true <-> conflicting l j.
Proof.
  intros Hj. unfold has_overlap, conflicting. rewrite existsb_exists.
  assert (EM : forall j', (j' < length l)%nat -> mget (overlap_matrix (map snd l) (map snd l)) j j' = iou (snd (nth j l (0%nat, no_box))) (snd (nth j' l (0%nat, no_box)))).
  { intros j' Hj'. unfold mget, overlap_matrix. rewrite (nth_map_gen _ _ _ _ no_box) by (rewrite map_length; auto).
    rewrite (nth_map_gen _ _ _ _ no_box) by (rewrite map_length; auto). rewrite !(nth_map_gen _ _ _ _ (0%nat, no_box)) by auto. reflexivity. }
  split.
  - intros (j' & H1 & H2). apply in_seq in H1. apply andb_prop in H2 as (H2 & H3). apply andb_prop in H2 as (H2 & H4).
    exists j'. rewrite EM in H4 by lia. apply Qleb_iff in H4. apply negb_true_iff, Nat.eqb_neq in H2. apply negb_true_iff, Nat.eqb_neq in H3.
    rewrite !(nth_map_gen _ _ _ _ (0%nat, no_box)) in H3 by lia. split; [auto|]. split; [lia|]. split; auto.
  - intros (j' & H1 & H2 & H3 & H4). exists j'. split; [apply in_seq; lia|]. rewrite EM by lia. rewrite !(nth_map_gen _ _ _ _ (0%nat, no_box)) by lia.
    apply andb_true_intro; split; [apply andb_true_intro; split|].
    + apply negb_true_iff, Nat.eqb_neq. auto.
    + apply Qleb_iff. auto.
    + apply negb_true_iff, Nat.eqb_neq. auto.
Qed.
Lemma swap_nth hp check i j k b : (i < length labels)%nat -> nth_error (nth i labels []) j = Some (k, b) ->
  nth_error (swap_scores hp check (image_aux i)) j = Some (
    if check && has_overlap (nth i labels []) j then amin else
    match filter (fun p : nat * detection => (Qltb hp (det_prob p) && negb (Nat.eqb (fst p) k))%bool) (separate_prediction (nth i predictions [])) with
    | [] => 1
    | l => qmax amin (1 - nth (argmax (map (fun p => similarity dist alpha b (fst (snd p))) l)) (map (fun p => similarity dist alpha b (fst (snd p))) l) 0)
    end).
Proof.
  intros Hi E. unfold swap_scores. rewrite nth_error_map. cbn [image_aux a_labs].
  assert (Hj : (j < length (nth i labels []))%nat) by (apply nth_error_Some; congruence).
  rewrite (nth_error_combine' _ _ j j (k, b)); [|rewrite (nth_error_nth' _ 0%nat) by (rewrite seq_length; auto); rewrite seq_nth by auto; reflexivity|auto].
  cbn [option_map fst snd]. f_equal. unfold swap_score. cbn [image_aux a_preds a_sim a_iou a_min a_labs].
  destruct (check && has_overlap (nth i labels []) j); [reflexivity|].
  set (ps := separate_prediction (nth i predictions [])).
  assert (E1 : nth j (similarity_matrix dist alpha (nth i labels []) ps) [] = map (fun p => similarity dist alpha b (fst (snd p))) ps).
  { unfold similarity_matrix. rewrite (nth_row (fun (l : nat * box) (p : nat * detection) => similarity dist alpha (snd l) (fst (snd p))) _ _ _ (k, b)) by auto. reflexivity. }
  rewrite E1. set (not_k := filter _ (seq 0 (length ps))).
  assert (NK : forall m, In m not_k <-> (m < length ps)%nat /\ fst (nth m ps (0%nat, (no_box, 0))) <> k).
  { intros m. unfold not_k. rewrite filter_In, in_seq, negb_true_iff, Nat.eqb_neq. split; intros (A & B); (split; [lia|]); rewrite (nth_map_gen _ _ _ _ (0%nat, (no_box, 0))) in * by lia; auto. }
  assert (EC : take_idx 0 (map (fun p : nat * detection => similarity dist alpha b (fst (snd p))) ps) (filter (fun j0 => Qltb hp (nth j0 (map det_prob ps) 0)) not_k) =
     map (fun p => similarity dist alpha b (fst (snd p))) (filter (fun p : nat * detection => (Qltb hp (det_prob p) && negb (Nat.eqb (fst p) k))%bool) ps)).
  { unfold not_k. rewrite filter_filter'. apply (filter_seq_map _ _ _ (0%nat, (no_box, 0))). intros m Hm.
    rewrite !(nth_map_gen _ _ _ _ (0%nat, (no_box, 0))) by auto. reflexivity. }
  set (conf := filter _ ps) in *.
  destruct (forallb (fun j0 => Qleb (nth j0 (map det_prob ps) 0) hp) not_k) eqn:EA.
  - destruct conf as [|p0 c0] eqn:EF; [reflexivity|]. exfalso.
    assert (Hin : In p0 (filter (fun p : nat * detection => (Qltb hp (det_prob p) && negb (Nat.eqb (fst p) k))%bool) ps)) by (change (In p0 conf); rewrite EF; left; auto).
    apply filter_In in Hin as (H1 & H2). apply andb_prop in H2 as (H2 & H3). apply (In_nth _ _ (0%nat, (no_box, 0))) in H1 as (m & Hm & <-).
    rewrite forallb_forall in EA. specialize (EA m). rewrite NK in EA. apply negb_true_iff, Nat.eqb_neq in H3. specialize (EA (conj Hm H3)).
    apply Qleb_iff in EA. apply Qltb_iff in H2. rewrite (nth_map_gen _ _ _ _ (0%nat, (no_box, 0))) in EA by auto. lra.
  - rewrite EC. destruct conf as [|p0 c0] eqn:EF; [|reflexivity]. exfalso.
    rewrite <- not_true_iff_false in EA. apply EA. apply forallb_forall. intros m Hm. pose proof Hm as Hm'. apply NK in Hm as (H1 & H2).
    apply Qleb_iff. apply Qltb_false. apply not_true_is_false. intros H3.
    assert (Hin : In m (filter (fun j0 => Qltb hp (nth j0 (map det_prob ps) 0)) not_k)) by (apply filter_In; auto).
    destruct (filter (fun j0 => Qltb hp (nth j0 (map det_prob ps) 0)) not_k); [destruct Hin|discriminate].
Qed.
Lemma swap_ok hp check i j k b : (i < length labels)%nat -> nth_error (nth i labels []) j = Some (k, b) ->
  exists s, nth_error (swap_scores hp check (image_aux i)) j = Some s /\ unit_interval s /\ amin <= s /\
  (check = true -> conflicting (nth i labels []) j -> s == amin) /\
  (check = false \/ ~ conflicting (nth i labels []) j ->
   ((s == 1 /\ ~ exists k' d, k' <> k /\ predicted (nth i predictions []) k' d /\ hp < snd d) \/
    ((exists k' d, k' <> k /\ predicted (nth i predictions []) k' d /\ hp < snd d /\ s == qmax amin (1 - sim dist alpha b (fst d))) /\
     forall k' d, k' <> k -> predicted (nth i predictions []) k' d -> hp < snd d -> s <= qmax amin (1 - sim dist alpha b (fst d))))).
Proof.
  intros Hi E. rewrite (swap_nth hp check i j k b) by auto. eexists. split; [reflexivity|].
  assert (Hj : (j < length (nth i labels []))%nat) by (apply nth_error_Some; congruence).
  pose proof amin_unit as AM. pose proof (has_overlap_iff _ j Hj) as HO.
  destruct (check && has_overlap (nth i labels []) j) eqn:EC.
  { apply andb_prop in EC as (-> & EO). apply HO in EO. split; [split; lra|]. split; [lra|]. split; [reflexivity|]. intros [G|G]; [discriminate|contradiction]. }
  assert (NC : check = true -> conflicting (nth i labels []) j -> False).
  { intros -> G. apply HO in G. rewrite G in EC. discriminate. }
  set (conf := filter _ _).
  assert (HC : forall p, In p conf <-> fst p <> k /\ predicted (nth i predictions []) (fst p) (snd p) /\ hp < det_prob p).
  { intros [k' d]. unfold conf. rewrite filter_In, andb_true_iff, Qltb_iff, negb_true_iff, Nat.eqb_neq. cbn [fst snd]. rewrite separate_predicted. tauto. }
  destruct conf as [|p0 c0] eqn:EF.
  - split; [split; lra|]. split; [lra|]. split; [intros; exfalso; auto|]. intros _. left. split; [reflexivity|].
    intros (k' & d & A & B & C). apply (HC (k', d)). auto.
  - rewrite <- EF in *. cbv zeta. assert (Hne : conf <> []) by (rewrite EF; discriminate).
    destruct (argmax_nth_max (fun p : nat * detection => similarity dist alpha b (fst (snd p))) conf Hne) as ([k' d] & A1 & A2 & A3).
    rewrite A2. cbn [fst snd]. pose proof A1 as A1'. apply HC in A1 as (B1 & B2 & B3). cbn [fst snd] in *. unfold det_prob in B3. cbn [snd] in B3.
    pose proof (sim_unit i (k, b) (k', d) Hi ltac:(apply nth_error_In in E; auto) ltac:(apply separate_predicted; auto)) as SU. cbn [fst snd] in SU.
    assert (QM : forall x y, x == y -> qmax amin (1 - x) == qmax amin (1 - y)).
    { intros x y Exy. destruct (qmax_spec amin (1 - x)) as [[? ->]|[? ->]]; destruct (qmax_spec amin (1 - y)) as [[? ->]|[? ->]]; lra. }
    split; [|split; [|split]].
    + destruct (qmax_spec amin (1 - similarity dist alpha b (fst d))) as [[? ->]|[? ->]]; split; lra.
    + destruct (qmax_spec amin (1 - similarity dist alpha b (fst d))) as [[? ->]|[? ->]]; lra.
    + intros; exfalso; auto.
    + intros _. right. split.
      * exists k', d. split; [auto|]. split; [auto|]. split; [auto|]. apply QM, simq.
      * intros k2 d2 C1 C2 C3. specialize (A3 (k2, d2) ltac:(apply HC; auto)). cbn [fst snd] in A3. rewrite <- (QM _ _ (simq dist alpha b (fst d2))).
        destruct (qmax_spec amin (1 - similarity dist alpha b (fst d))) as [[? ->]|[? ->]]; destruct (qmax_spec amin (1 - similarity dist alpha b (fst d2))) as [[? ->]|[? ->]]; lra.
Qed.
End Aux.

(** ** Counts over the thresholds *)
Lemma Qnat_mult a b : Qnat (a * b) == Qnat a * Qnat b.
Proof. unfold Qnat. rewrite Nat2Z.inj_mul, inject_Z_mult. reflexivity. Qed.
Lemma nsum_ext_add l (f g : Q -> nat) c : (forall t, In t l -> (f t + g t = c)%nat) -> (nsum (map f l) + nsum (map g l) = length l * c)%nat.
Proof.
  induction l as [|t l IH]; intros H; [reflexivity|]. cbn [map length]. change (nsum (f t :: map f l)) with (f t + nsum (map f l))%nat. change (nsum (g t :: map g l)) with (g t + nsum (map g l))%nat.
  pose proof (H t (or_introl eq_refl)). specialize (IH ltac:(intros; apply H; right; auto)). simpl. lia.
Qed.
Section Confusion.
Variables (srt : list Q -> list nat) (labels : list image_label) (predictions : list image_pred) (K : nat).
Hypothesis Hs : argsort_ok srt.
Hypothesis Hl : length labels = length predictions.
Hypothesis HK : forall p, In p predictions -> length p = K.
Hypothesis HK0 : (0 < K)%nat.
Hypothesis Hne : predictions <> [].
Definition sumf (f : nat * nat * nat -> nat) (k : nat) : nat := nsum (map (fun thr => f (class_counts srt thr labels predictions k)) iou_thresholds).
Lemma confusion_eq : exists c, average_confusion srt labels predictions = Ok c /\ length c = K /\
  forall k, (k < K)%nat -> nth k c (0, 0, 0) = (Qnat (sumf (fun c => fst (fst c)) k) / Qnat (10 * K), Qnat (sumf (fun c => snd (fst c)) k) / Qnat (10 * K), Qnat (sumf snd k) / Qnat (10 * K)).
Proof.
  unfold average_confusion. destruct predictions as [|p0 ps] eqn:E; [congruence|]. rewrite <- E in *.
  assert (E0 : length p0 = K) by (apply HK; rewrite E; left; auto).
  destruct (existsb _ _) eqn:EX.
  { apply existsb_exists in EX as (q & A & B). apply Nat.ltb_lt in B. rewrite (HK q A) in B. lia. }
  rewrite E0. eexists. split; [reflexivity|]. split; [apply tab_length|]. intros k Hk. rewrite nth_tab by auto. reflexivity.
Qed.
Lemma sumf_eq k : (sumf (fun c => fst (fst c)) k + sumf snd k = 10 * nsum (map (fun l => length (class_labels k l)) labels))%nat /\
  (sumf (fun c => fst (fst c)) k + sumf (fun c => snd (fst c)) k = 10 * nsum (map (fun p => length (class_preds k p)) predictions))%nat.
Proof.
  unfold sumf. split; apply (nsum_ext_add iou_thresholds); intros thr _; pose proof (ap_class_bounds srt thr labels predictions k Hs Hl) as H;
    destruct (class_counts _ _ _ _ _) as [[tp fp] fn]; apply H.
Qed.
Lemma confusion_ok : exists c, average_confusion srt labels predictions = Ok c /\ length c = K /\
  forall k tp fp fn, nth_error c k = Some (tp, fp, fn) ->
    0 <= tp /\ 0 <= fp /\ 0 <= fn /\
    Qnat K * (tp + fp) == Qnat (nsum (map (fun p => length (class_preds k p)) predictions)) /\
    Qnat K * (tp + fn) == Qnat (nsum (map (fun l => length (class_labels k l)) labels)) /\
    Qnat K * tp == qmean (map (fun thr => Qnat (fst (fst (class_counts srt thr labels predictions k)))) iou_thresholds).
Proof.
  destruct confusion_eq as (c & E & L & H). exists c. split; auto. split; auto. intros k tp fp fn Hk.
  assert (HkK : (k < K)%nat) by (rewrite <- L; apply nth_error_Some; congruence).
  apply (nth_error_nth _ _ (0, 0, 0)) in Hk. rewrite H in Hk by auto. injection Hk as <- <- <-.
  destruct (sumf_eq k) as (S1 & S2). assert (P : 0 < Qnat (10 * K)) by (apply Qnat_pos; lia). assert (P' : 0 < Qnat K) by (apply Qnat_pos; lia).
  assert (M : Qnat (10 * K) == 10 * Qnat K). { rewrite Qnat_mult. reflexivity. }
  apply (f_equal Qnat) in S1. apply (f_equal Qnat) in S2. 
  assert (S1' : Qnat (sumf (fun c => fst (fst c)) k) + Qnat (sumf snd k) == 10 * Qnat (nsum (map (fun l => length (class_labels k l)) labels))).
  { rewrite <- Qnat_plus, S1, Qnat_mult. reflexivity. }
  assert (S2' : Qnat (sumf (fun c => fst (fst c)) k) + Qnat (sumf (fun c => snd (fst c)) k) == 10 * Qnat (nsum (map (fun p => length (class_preds k p)) predictions))).
  { rewrite <- Qnat_plus, S2, Qnat_mult. reflexivity. }
  assert (NN : forall n, 0 <= Qnat n / Qnat (10 * K)) by (intros n; apply Qle_shift_div_l; auto; pose proof (Qnat_nonneg n); lra).
  split; [apply NN|]. split; [apply NN|]. split; [apply NN|]. rewrite M. split; [|split].
  - rewrite <- (Qmult_inj_l _ _ 10) by lra. rewrite <- S2'. field. lra.
  - rewrite <- (Qmult_inj_l _ _ 10) by lra. rewrite <- S1'. field. lra.
  - unfold qmean. rewrite map_length. unfold sumf. rewrite Qnat_nsum, map_map. change (Qnat (length iou_thresholds)) with (10 # 1). field. lra.
Qed.
End Confusion.
Lemma tiny_posQ : 0 < TINY_VALUE. Proof. reflexivity. Qed.
Lemma metrics_ok tp fp fn p r f : 0 <= tp -> 0 <= fp -> 0 <= fn -> class_metrics (tp, fp, fn) = (p, r, f) ->
  unit_interval p /\ unit_interval r /\ unit_interval f /\ f <= qmax p r /\
  (tp == 0 -> p == 0 /\ r == 0 /\ f == 0) /\ (0 < tp -> 0 < f /\ p < 1 /\ p * (tp + fp) < tp /\ r * (tp + fn) < tp).
Proof.
  intros H1 H2 H3 E. unfold class_metrics in E. pose proof tiny_posQ as T. revert E T. generalize TINY_VALUE as t. intros t E T. injection E as <- <- <-.
  assert (P : forall x, 0 <= x -> 0 <= tp / (tp + x + t) /\ tp / (tp + x + t) < 1 /\ (tp == 0 -> tp / (tp + x + t) == 0) /\ (0 < tp -> 0 < tp / (tp + x + t) /\ tp / (tp + x + t) * (tp + x) < tp)).
  { intros x Hx. assert (0 < tp + x + t) by lra. split; [apply Qle_shift_div_l; auto; lra|]. split; [apply Qlt_shift_div_r; auto; lra|].
    split; [intros Z; rewrite Z at 1; apply div0|]. intros Hp. assert (L : 0 < tp / (tp + x + t)) by (apply Qlt_shift_div_l; auto; lra). split; auto.
    assert (EQ : tp / (tp + x + t) * (tp + x + t) == tp) by (field; lra). set (u := tp / (tp + x + t)) in *. nra. }
  destruct (P fp H2) as (A1 & A2 & A3 & A4). destruct (P fn H3) as (B1 & B2 & B3 & B4).
  set (p := tp / (tp + fp + t)) in *. set (r := tp / (tp + fn + t)) in *.
  assert (D : 0 < p + r + t) by lra.
  assert (F1 : 0 <= 2 * (p * r) / (p + r + t)) by (apply Qle_shift_div_l; auto; nra).
  assert (F2 : 2 * (p * r) / (p + r + t) <= qmax p r) by (destruct (qmax_spec p r) as [[? ->]|[? ->]]; apply Qle_shift_div_r; auto; nra).
  assert (M : qmax p r <= 1) by (destruct (qmax_spec p r) as [[? ->]|[? ->]]; lra).
  split; [split; lra|]. split; [split; lra|]. split; [split; [auto|lra]|]. split; [auto|]. split.
  - intros Z. split; auto. split; auto. rewrite (A3 Z) at 1. unfold Qdiv. ring.
  - intros Hp. destruct (A4 Hp) as (C1 & C2). destruct (B4 Hp) as (C3 & C4). split; [|auto]. apply Qlt_shift_div_l; auto. nra.
Qed.
