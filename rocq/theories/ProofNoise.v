(** * Proofs about synthetic noise and data valuation *)
From Coq Require Import QArith Qabs Qround List Permutation Sorted ZArith Bool Arith Lia Lqa.
From Verif Require Import Base BaseFacts ModelUtil ModelNoise SpecCount SpecNoise ProofUtil ProofCount ProofLatent.
Import ListNotations.
Open Scope Q_scope.

(** ** lists *)
Lemma qsum_map_upd (g : Q -> Q) l i v : (i < length l)%nat ->
  qsum (map g (upd l i v)) == qsum (map g l) + g v - g (nth i l 0).
Proof.
  revert i. induction l as [|x l IH]; intros [|i] H; simpl in *; try lia; [ring|]. rewrite IH by lia. ring.
Qed.
Lemma qsum_upd l i v : (i < length l)%nat -> qsum (upd l i v) == qsum l + v - nth i l 0.
Proof. intros H. pose proof (qsum_map_upd (fun x => x) l i v H) as E. rewrite !map_id in E. exact E. Qed.
Lemma in_upd {X} (l : list X) i v x : In x (upd l i v) -> x = v \/ In x l.
Proof. revert i. induction l as [|y l IH]; intros [|i] H; simpl in *; intuition. apply IH in H0. intuition. Qed.
Lemma qmaximum_argmax l : l <> [] -> qmaximum l == nth (argmax l) l 0.
Proof.
  intros H. pose proof (argmax_spec l H) as (A1 & A2 & _). apply Qle_antisym.
  - destruct (In_nth l (qmaximum l) 0 (qmaximum_in l H)) as (j & Hj & E). rewrite <- E at 1. auto.
  - apply qmaximum_ge, nth_In. auto.
Qed.
Lemma argmin_spec l : l <> [] -> (argmin l < length l)%nat /\
  (forall j, (j < length l)%nat -> nth (argmin l) l 0 <= nth j l 0) /\ (forall j, (j < argmin l)%nat -> nth (argmin l) l 0 < nth j l 0).
Proof.
  intros H. assert (map Qopp l <> []) as H' by (destruct l; [congruence|discriminate]).
  destruct (argmax_spec _ H') as (A1 & A2 & A3). unfold argmin. rewrite map_length in *. split; auto.
  split; intros j Hj.
  - specialize (A2 j Hj). rewrite !(nth_map_gen Qopp l _ 0 0) in A2 by auto. lra.
  - specialize (A3 j Hj). rewrite !(nth_map_gen Qopp l _ 0 0) in A3 by lia. lra.
Qed.
Lemma argmin_unique l i : (i < length l)%nat -> (forall j, (j < length l)%nat -> nth i l 0 <= nth j l 0) ->
  (forall j, (j < i)%nat -> nth i l 0 < nth j l 0) -> argmin l = i.
Proof.
  intros H1 H2 H3. assert (l <> []) as Hn by (destruct l; simpl in *; [lia|discriminate]).
  destruct (argmin_spec l Hn) as (A1 & A2 & A3).
  destruct (Nat.lt_trichotomy (argmin l) i) as [H|[H|H]]; auto; exfalso.
  - specialize (H3 _ H). specialize (A2 i H1). lra.
  - specialize (A3 _ H). specialize (H2 _ A1). lra.
Qed.
Lemma qminimum_argmin l : l <> [] -> qminimum l == nth (argmin l) l 0.
Proof.
  intros H. destruct (argmin_spec l H) as (A1 & A2 & _). apply Qle_antisym.
  - apply qminimum_le, nth_In. auto.
  - destruct (In_nth l (qminimum l) 0 (qminimum_in l H)) as (j & Hj & E). rewrite <- E. auto.
Qed.
Lemma scale_between d r : 0 <= r <= 1 -> (0 <= d -> 0 <= d * r /\ d * r <= d) /\ (d <= 0 -> d <= d * r /\ d * r <= 0).
Proof. intros (H1 & H2). split; intros H; split; nra. Qed.

Definition pos (x : Q) : Q := qmax x 0.
Lemma pos_spec x : (0 <= x /\ pos x == x) \/ (x <= 0 /\ pos x == 0).
Proof. unfold pos. destruct (qmax_spec x 0) as [(H & ->)|(H & ->)]; [right|left]; split; lra. Qed.
#[export] Instance pos_Proper : Proper (Qeq ==> Qeq) pos.
Proof. intros x y H. unfold pos. rewrite H. reflexivity. Qed.
Definition excess (M : Q) (l : list Q) : Q := qsum (map (fun x => pos (x - M)) l).
Definition deficit (M : Q) (l : list Q) : Q := qsum (map (fun x => pos (M - x)) l).
Lemma excess_deficit M l : excess M l - deficit M l == qsum l - Qnat (length l) * M.
Proof.
  unfold excess, deficit. induction l as [|x l IH]; [reflexivity|]. cbn [map qsum length fold_right]. fold (qsum (map (fun x => pos (x - M)) l)).
  fold (qsum (map (fun x => pos (M - x)) l)). fold (qsum l). rewrite Qnat_S.
  assert (pos (x - M) - pos (M - x) == x - M).
  { destruct (pos_spec (x - M)) as [(H & ->)|(H & ->)]; destruct (pos_spec (M - x)) as [(H' & ->)|(H' & ->)]; lra. }
  lra.
Qed.
Lemma excess_nonneg M l : 0 <= excess M l.
Proof. apply qsum_map_nonneg. intros x _. destruct (pos_spec (x - M)) as [(H & ->)|(H & ->)]; lra. Qed.
Lemma deficit_nonneg M l : 0 <= deficit M l.
Proof. apply qsum_map_nonneg. intros x _. destruct (pos_spec (M - x)) as [(H & ->)|(H & ->)]; lra. Qed.
Lemma excess_le M l mx : (forall x, In x l -> x <= mx) -> M <= mx -> excess M l <= Qnat (length l) * (mx - M).
Proof.
  intros H Hm. unfold excess. rewrite <- (qsum_map_const (mx - M) l). apply qsum_map_le. intros x Hx. specialize (H x Hx).
  destruct (pos_spec (x - M)) as [(H' & ->)|(H' & ->)]; lra.
Qed.
Lemma deficit_le M l mn : (forall x, In x l -> mn <= x) -> mn <= M -> deficit M l <= Qnat (length l) * (M - mn).
Proof.
  intros H Hm. unfold deficit. rewrite <- (qsum_map_const (M - mn) l). apply qsum_map_le. intros x Hx. specialize (H x Hx).
  destruct (pos_spec (M - x)) as [(H' & ->)|(H' & ->)]; lra.
Qed.
Lemma excess_ge M l x : In x l -> x - M <= excess M l.
Proof.
  intros H. apply Qle_trans with (pos (x - M)).
  - destruct (pos_spec (x - M)) as [(H' & ->)|(H' & ->)]; lra.
  - apply qsum_ge_elem; [|apply (in_map (fun x => pos (x - M))); auto].
    intros y Hy. apply in_map_iff in Hy as (z & <- & _). destruct (pos_spec (z - M)) as [(H' & ->)|(H' & ->)]; lra.
Qed.
Lemma deficit_ge M l x : In x l -> M - x <= deficit M l.
Proof.
  intros H. apply Qle_trans with (pos (M - x)).
  - destruct (pos_spec (M - x)) as [(H' & ->)|(H' & ->)]; lra.
  - apply qsum_ge_elem; [|apply (in_map (fun x => pos (M - x))); auto].
    intros y Hy. apply in_map_iff in Hy as (z & <- & _). destruct (pos_spec (M - z)) as [(H' & ->)|(H' & ->)]; lra.
Qed.

Section TwoWrites.
Context (l : list Q) (p q : nat) (v w : Q).
Context (Hp : (p < length l)%nat) (Hq : (q < length l)%nat) (Hpq : p <> q).
Let l2 := upd (upd l p v) q w.
Lemma two_len : length l2 = length l.
Proof. unfold l2. rewrite !upd_length. reflexivity. Qed.
Lemma two_map_sum g : qsum (map g l2) == qsum (map g l) + g v + g w - g (nth p l 0) - g (nth q l 0).
Proof.
  unfold l2. rewrite qsum_map_upd by (rewrite upd_length; auto). rewrite qsum_map_upd by auto.
  rewrite nth_upd_neq by auto. ring.
Qed.
Lemma two_sum : qsum l2 == qsum l + v + w - nth p l 0 - nth q l 0.
Proof. pose proof (two_map_sum (fun x => x)) as E. rewrite !map_id in E. exact E. Qed.
Lemma two_in x : In x l2 -> x = v \/ x = w \/ In x l.
Proof. unfold l2. intros H. apply in_upd in H as [->|H]; auto. apply in_upd in H as [->|H]; auto. Qed.
End TwoWrites.

Lemma lower_step M l r : l <> [] -> qsum l <= Qnat (length l) * M -> M + FLOATING_POINT_COMPARISON < qmaximum l ->
  0 <= r <= 1 ->
  let new_min := qminimum l + (qmaximum l - M) in
  let adj := (M - new_min) * r in
  let r1 := upd l (argmin l) (new_min + adj) in
  let l2 := upd r1 (argmax r1) (M - adj) in
  length l2 = length l /\ qsum l2 == qsum l /\ (forall x, In x l2 -> qminimum l <= x) /\
  excess M l2 <= excess M l - FLOATING_POINT_COMPARISON / Qnat (length l).
Proof.
  intros Hne Hsum Hmax Hr. cbv zeta.
  set (p := argmin l). set (q := argmax l).
  destruct (argmin_spec l Hne) as (P1 & P2 & P3). fold p in P1, P2, P3.
  destruct (argmax_spec l Hne) as (Q1 & Q2 & Q3). fold q in Q1, Q2, Q3.
  pose proof (qminimum_argmin l Hne) as Emn. fold p in Emn. pose proof (qmaximum_argmax l Hne) as Emx. fold q in Emx.
  set (mn := qminimum l) in *. set (mx := qmaximum l) in *.
  assert (Hn : 1 <= Qnat (length l)) by (change 1 with (Qnat 1); apply Qnat_le; lia).
  assert (tol : 0 < FLOATING_POINT_COMPARISON) by reflexivity.
  assert (Hmn : mn < M).
  { apply Qnot_le_lt. intros C.
    assert (deficit M l <= 0).
    { unfold deficit. apply Qle_trans with (qsum (map (fun _ => 0) l)).
      - apply qsum_map_le. intros x Hx. assert (mn <= x) by (apply qminimum_le; auto).
        destruct (pos_spec (M - x)) as [(H' & ->)|(H' & ->)]; lra.
      - rewrite qsum_map_const. lra. }
    pose proof (excess_deficit M l). pose proof (excess_ge M l (nth q l 0) ltac:(apply nth_In; auto)). lra. }
  assert (Hpq : p <> q) by (intros C; rewrite C in *; lra).
  set (new_min := mn + (mx - M)). set (adj := (M - new_min) * r).
  destruct (scale_between (M - new_min) r Hr) as (S1 & S2). fold adj in S1, S2.
  assert (Hv : new_min + adj < mx). { destruct (Qlt_le_dec (M - new_min) 0); [apply Qlt_le_weak in q0; specialize (S2 q0)|specialize (S1 q0)]; unfold new_min in *; lra. }
  assert (Eq : argmax (upd l p (new_min + adj)) = q).
  { apply argmax_unique. repeat split.
    - rewrite upd_length; auto.
    - intros j Hj. rewrite upd_length in Hj. rewrite (nth_upd_neq _ _ _ q) by auto.
      destruct (Nat.eq_dec j p) as [->|Hjp]; [rewrite nth_upd_eq by auto; lra|rewrite nth_upd_neq by auto; auto].
    - intros j Hj. rewrite (nth_upd_neq _ _ _ q) by auto.
      destruct (Nat.eq_dec j p) as [->|Hjp]; [rewrite nth_upd_eq by auto; lra|rewrite nth_upd_neq by auto; auto]. }
  rewrite Eq. split; [apply two_len|]. split; [rewrite (two_sum l p q _ _ P1 Q1 Hpq); unfold new_min; lra|]. split.
  - intros x Hx. apply two_in in Hx as [->|[->|Hx]]; [| |apply qminimum_le; auto];
      (destruct (Qlt_le_dec (M - new_min) 0) as [C|C]; [apply Qlt_le_weak in C; specialize (S2 C)|specialize (S1 C)]; unfold new_min in *; lra).
  - unfold excess. rewrite (two_map_sum l p q _ _ P1 Q1 Hpq). fold (excess M l).
    assert (E1 : pos (nth p l 0 - M) == 0) by (destruct (pos_spec (nth p l 0 - M)) as [(H' & ->)|(H' & ->)]; lra).
    assert (E2 : pos (nth q l 0 - M) == mx - M) by (destruct (pos_spec (nth q l 0 - M)) as [(H' & ->)|(H' & ->)]; lra).
    rewrite E1, E2.
    assert (Hdiv : FLOATING_POINT_COMPARISON / Qnat (length l) <= FLOATING_POINT_COMPARISON).
    { apply Qle_shift_div_r; [lra|]. nra. }
    destruct (Qlt_le_dec (M - new_min) 0) as [C|C].
    + apply Qlt_le_weak in C. specialize (S2 C).
      assert (E3 : pos (new_min + adj - M) == new_min + adj - M) by (destruct (pos_spec (new_min + adj - M)) as [(H' & ->)|(H' & ->)]; lra).
      assert (E4 : pos (M - adj - M) == - adj) by (destruct (pos_spec (M - adj - M)) as [(H' & ->)|(H' & ->)]; lra).
      rewrite E3, E4. unfold new_min.
      assert (FLOATING_POINT_COMPARISON / Qnat (length l) <= M - mn); [|lra].
      apply Qle_shift_div_r; [lra|].
      pose proof (deficit_le M l mn ltac:(intros; apply qminimum_le; auto) ltac:(lra)).
      pose proof (excess_deficit M l). pose proof (excess_ge M l (nth q l 0) ltac:(apply nth_In; auto)). lra.
    + specialize (S1 C).
      assert (E3 : pos (new_min + adj - M) == 0) by (destruct (pos_spec (new_min + adj - M)) as [(H' & ->)|(H' & ->)]; lra).
      assert (E4 : pos (M - adj - M) == 0) by (destruct (pos_spec (M - adj - M)) as [(H' & ->)|(H' & ->)]; lra).
      rewrite E3, E4. lra.
Qed.

Lemma raise_step M l r : l <> [] -> Qnat (length l) * M <= qsum l -> qminimum l < M - FLOATING_POINT_COMPARISON ->
  0 <= r <= 1 ->
  let new_max := qmaximum l - (M - qminimum l) in
  let adj := (new_max - M) * r in
  let r1 := upd l (argmax l) (new_max - adj) in
  let l2 := upd r1 (argmin r1) (M + adj) in
  length l2 = length l /\ qsum l2 == qsum l /\ (forall x, In x l2 -> qminimum l <= x /\ x <= qmaximum l) /\
  deficit M l2 <= deficit M l - FLOATING_POINT_COMPARISON / Qnat (length l).
Proof.
  intros Hne Hsum Hmin Hr. cbv zeta.
  set (q := argmin l). set (p := argmax l).
  destruct (argmin_spec l Hne) as (Q1 & Q2 & Q3). fold q in Q1, Q2, Q3.
  destruct (argmax_spec l Hne) as (P1 & P2 & P3). fold p in P1, P2, P3.
  pose proof (qminimum_argmin l Hne) as Emn. fold q in Emn. pose proof (qmaximum_argmax l Hne) as Emx. fold p in Emx.
  set (mn := qminimum l) in *. set (mx := qmaximum l) in *.
  assert (Hn : 1 <= Qnat (length l)) by (change 1 with (Qnat 1); apply Qnat_le; lia).
  assert (tol : 0 < FLOATING_POINT_COMPARISON) by reflexivity.
  assert (Hmx : M < mx).
  { apply Qnot_le_lt. intros C.
    assert (excess M l <= 0).
    { unfold excess. apply Qle_trans with (qsum (map (fun _ => 0) l)).
      - apply qsum_map_le. intros x Hx. assert (x <= mx) by (apply qmaximum_ge; auto).
        destruct (pos_spec (x - M)) as [(H' & ->)|(H' & ->)]; lra.
      - rewrite qsum_map_const. lra. }
    pose proof (excess_deficit M l). pose proof (deficit_ge M l (nth q l 0) ltac:(apply nth_In; auto)). lra. }
  assert (Hpq : p <> q) by (intros C; rewrite C in *; lra).
  set (new_max := mx - (M - mn)). set (adj := (new_max - M) * r).
  destruct (scale_between (new_max - M) r Hr) as (S1 & S2). fold adj in S1, S2.
  assert (Hv : mn < new_max - adj). { destruct (Qlt_le_dec (new_max - M) 0) as [C|C]; [apply Qlt_le_weak in C; specialize (S2 C)|specialize (S1 C)]; unfold new_max in *; lra. }
  assert (Eq : argmin (upd l p (new_max - adj)) = q).
  { apply argmin_unique.
    - rewrite upd_length; auto.
    - intros j Hj. rewrite upd_length in Hj. rewrite (nth_upd_neq _ _ _ q) by auto.
      destruct (Nat.eq_dec j p) as [->|Hjp]; [rewrite nth_upd_eq by auto; lra|rewrite nth_upd_neq by auto; auto].
    - intros j Hj. rewrite (nth_upd_neq _ _ _ q) by auto.
      destruct (Nat.eq_dec j p) as [->|Hjp]; [rewrite nth_upd_eq by auto; lra|rewrite nth_upd_neq by auto; auto]. }
  rewrite Eq. split; [apply two_len|]. split; [rewrite (two_sum l p q _ _ P1 Q1 Hpq); unfold new_max; lra|]. split.
  - intros x Hx. apply two_in in Hx as [->|[->|Hx]]; [| |split; [apply qminimum_le; auto|apply qmaximum_ge; auto]];
      (destruct (Qlt_le_dec (new_max - M) 0) as [C|C]; [apply Qlt_le_weak in C; specialize (S2 C)|specialize (S1 C)]; unfold new_max in *; lra).
  - unfold deficit. rewrite (two_map_sum l p q _ _ P1 Q1 Hpq (fun x => pos (M - x))). fold (deficit M l).
    assert (E1 : pos (M - nth p l 0) == 0) by (destruct (pos_spec (M - nth p l 0)) as [(H' & ->)|(H' & ->)]; lra).
    assert (E2 : pos (M - nth q l 0) == M - mn) by (destruct (pos_spec (M - nth q l 0)) as [(H' & ->)|(H' & ->)]; lra).
    rewrite E1, E2.
    assert (Hdiv : FLOATING_POINT_COMPARISON / Qnat (length l) <= FLOATING_POINT_COMPARISON).
    { apply Qle_shift_div_r; [lra|]. nra. }
    destruct (Qlt_le_dec (new_max - M) 0) as [C|C].
    + apply Qlt_le_weak in C. specialize (S2 C).
      assert (E3 : pos (M - (new_max - adj)) == M - (new_max - adj)) by (destruct (pos_spec (M - (new_max - adj))) as [(H' & ->)|(H' & ->)]; lra).
      assert (E4 : pos (M - (M + adj)) == - adj) by (destruct (pos_spec (M - (M + adj))) as [(H' & ->)|(H' & ->)]; lra).
      rewrite E3, E4. unfold new_max.
      assert (FLOATING_POINT_COMPARISON / Qnat (length l) <= mx - M); [|lra].
      apply Qle_shift_div_r; [lra|].
      pose proof (excess_le M l mx ltac:(intros; apply qmaximum_ge; auto) ltac:(lra)).
      pose proof (excess_deficit M l). pose proof (deficit_ge M l (nth q l 0) ltac:(apply nth_In; auto)). lra.
    + specialize (S1 C).
      assert (E3 : pos (M - (new_max - adj)) == 0) by (destruct (pos_spec (M - (new_max - adj))) as [(H' & ->)|(H' & ->)]; lra).
      assert (E4 : pos (M - (M + adj)) == 0) by (destruct (pos_spec (M - (M + adj))) as [(H' & ->)|(H' & ->)]; lra).
      rewrite E3, E4. lra.
Qed.

Lemma len_ne {X} (l l' : list X) : length l' = length l -> l <> [] -> l' <> [].
Proof. destruct l, l'; simpl; intros; try congruence; try lia. Qed.

Lemma lower_loop M rs : unit_stream rs -> forall fuel i l, l <> [] -> qsum l <= Qnat (length l) * M ->
  excess M l < Qnat fuel * (FLOATING_POINT_COMPARISON / Qnat (length l)) ->
  exists l' j, lower_max fuel M rs i l = Ok (l', j) /\ length l' = length l /\ qsum l' == qsum l /\
    (forall x, In x l' -> qminimum l <= x /\ x <= M + FLOATING_POINT_COMPARISON).
Proof.
  intros Hrs. induction fuel as [|fuel IH]; intros i l Hne Hsum Hex.
  - pose proof (excess_nonneg M l). change (Qnat 0) with 0 in Hex. lra.
  - cbn [lower_max]. destruct (Qltb (M + FLOATING_POINT_COMPARISON) (qmaximum l)) eqn:E; qb.
    + destruct (lower_step M l (rs i) Hne Hsum E (Hrs i)) as (L & S & B & X). cbv zeta in *.
      set (l2 := upd _ _ _) in *.
      destruct (IH (Datatypes.S i) l2) as (l' & j & R & L' & S' & B').
      * eapply len_ne; eauto.
      * rewrite L, S. auto.
      * rewrite L. rewrite Qnat_S in Hex. lra.
      * exists l', j. split; auto. split; [congruence|]. split; [rewrite S'; auto|].
        intros x Hx. destruct (B' x Hx) as (B1 & B2). split; auto.
        assert (qminimum l <= qminimum l2) by (apply B, qminimum_in; eapply len_ne; eauto). lra.
    + exists l, i. split; auto. split; auto. split; [reflexivity|]. intros x Hx.
      split; [apply qminimum_le; auto|]. pose proof (qmaximum_ge l x Hx). lra.
Qed.
Lemma raise_loop M rs : unit_stream rs -> forall fuel i l, l <> [] -> Qnat (length l) * M <= qsum l ->
  deficit M l < Qnat fuel * (FLOATING_POINT_COMPARISON / Qnat (length l)) ->
  exists l' j, raise_min fuel M rs i l = Ok (l', j) /\ length l' = length l /\ qsum l' == qsum l /\
    (forall x, In x l' -> qminimum l <= x /\ M - FLOATING_POINT_COMPARISON <= x /\ x <= qmaximum l).
Proof.
  intros Hrs. induction fuel as [|fuel IH]; intros i l Hne Hsum Hex.
  - pose proof (deficit_nonneg M l). change (Qnat 0) with 0 in Hex. lra.
  - cbn [raise_min]. destruct (Qltb (qminimum l) (M - FLOATING_POINT_COMPARISON)) eqn:E; qb.
    + destruct (raise_step M l (rs i) Hne Hsum E (Hrs i)) as (L & S & B & X). cbv zeta in *.
      set (l2 := upd _ _ _) in *.
      assert (Hne2 : l2 <> []) by (eapply len_ne; eauto).
      destruct (IH (Datatypes.S i) l2) as (l' & j & R & L' & S' & B'); auto.
      * rewrite L, S. auto.
      * rewrite L. rewrite Qnat_S in Hex. lra.
      * exists l', j. split; auto. split; [congruence|]. split; [rewrite S'; auto|].
        intros x Hx. destruct (B' x Hx) as (B1 & B2 & B3).
        pose proof (proj1 (B _ (qminimum_in l2 Hne2))). pose proof (proj2 (B _ (qmaximum_in l2 Hne2))).
        repeat split; auto; lra.
    + exists l, i. split; auto. split; auto. split; [reflexivity|]. intros x Hx.
      pose proof (qminimum_le l x Hx). pose proof (qmaximum_ge l x Hx). repeat split; auto; lra.
Qed.

Lemma C25_probs_full : forall fuel n m max_prob min_prob dir rs,
  (1 <= n)%nat -> 0 <= m -> Qnat n * min_prob <= m -> m <= Qnat n * max_prob ->
  prob_vector n dir -> unit_stream rs ->
  m * Qnat n * inject_Z 1000000 < Qnat fuel ->
  exists l, rand_probabilities fuel n m max_prob min_prob dir rs = Ok l /\ length l = n /\ qsum l == m /\
    forall x, In x l -> 0 <= x /\ min_prob - (1 # 1000000) <= x /\ x <= max_prob + (1 # 1000000).
Proof.
  intros fuel n m maxp minp dir rs Hn Hm Hlo Hhi (Dl & Dp & Ds) Hrs Hf.
  assert (Hq : 1 <= Qnat n) by (change 1 with (Qnat 1); apply Qnat_le; auto).
  unfold rand_probabilities. destruct (Nat.eqb_spec n 0) as [|_]; [lia|].
  assert (tol : FLOATING_POINT_COMPARISON == 1 # 1000000) by reflexivity.
  assert (Hdm : m / Qnat n <= maxp) by (apply Qle_shift_div_r; lra).
  assert (Hdm' : minp <= (m + FLOATING_POINT_COMPARISON) / Qnat n) by (apply Qle_shift_div_l; [lra|]; lra).
  destruct (Qltb (maxp + FLOATING_POINT_COMPARISON) (m / Qnat n)) eqn:E1; qb; [lra|].
  destruct (Qltb ((m + FLOATING_POINT_COMPARISON) / Qnat n) minp) eqn:E2; qb; [lra|].
  set (l0 := map (fun d => d * m) dir).
  assert (L0 : length l0 = n) by (unfold l0; rewrite map_length; auto).
  assert (Hne : l0 <> []) by (destruct l0; simpl in *; [lia|discriminate]).
  assert (S0 : qsum l0 == m). { unfold l0. rewrite (qsum_map_scale_r (fun d => d)), map_id, Ds. ring. }
  assert (P0 : forall x, In x l0 -> 0 <= x).
  { intros x Hx. apply in_map_iff in Hx as (d & <- & Hd). specialize (Dp d Hd). nra. }
  assert (Hmaxp : 0 <= maxp). { apply Qle_trans with (m / Qnat n); auto. apply Qle_shift_div_l; lra. }
  assert (Hfuel : m < Qnat fuel * (FLOATING_POINT_COMPARISON / Qnat n)).
  { rewrite tol. assert (m * Qnat n < Qnat fuel * (1 # 1000000)) by (unfold inject_Z in Hf; lra).
    setoid_replace (Qnat fuel * ((1 # 1000000) / Qnat n)) with (Qnat fuel * (1 # 1000000) / Qnat n) by (field; lra).
    apply Qlt_shift_div_l; lra. }
  destruct (lower_loop maxp rs Hrs fuel 0 l0) as (l1 & j1 & R1 & L1 & S1 & B1); auto.
  { rewrite L0, S0. auto. }
  { rewrite L0. apply Qle_lt_trans with m; auto. rewrite <- S0. unfold excess. rewrite <- (map_id l0) at 2.
    apply qsum_map_le. intros x Hx. specialize (P0 x Hx). destruct (pos_spec (x - maxp)) as [(H' & ->)|(H' & ->)]; lra. }
  rewrite R1. cbn [rbind fst snd].
  assert (M0 : 0 <= qminimum l0) by (apply P0, qminimum_in; auto).
  assert (Hne1 : l1 <> []) by (eapply len_ne; eauto).
  destruct (raise_loop minp rs Hrs fuel j1 l1) as (l2 & j2 & R2 & L2 & S2 & B2); auto.
  { rewrite L1, L0, S1, S0. auto. }
  { rewrite L1, L0. apply Qle_lt_trans with m; auto.
    destruct (Qlt_le_dec minp 0) as [C|C].
    - unfold deficit. apply Qle_trans with (qsum (map (fun _ => 0) l1)); [|rewrite qsum_map_const; lra].
      apply qsum_map_le. intros x Hx. destruct (B1 x Hx). destruct (pos_spec (minp - x)) as [(H' & ->)|(H' & ->)]; lra.
    - apply Qle_trans with (Qnat n * minp); auto. rewrite <- L0, <- L1. rewrite <- (qsum_map_const minp l1).
      unfold deficit. apply qsum_map_le. intros x Hx. destruct (B1 x Hx). destruct (pos_spec (minp - x)) as [(H' & ->)|(H' & ->)]; lra. }
  rewrite R2. cbn [rbind fst]. exists l2. split; auto. split; [congruence|]. split; [rewrite S2, S1; auto|].
  intros x Hx. destruct (B2 x Hx) as (C1 & C2 & C3).
  pose proof (proj1 (B1 _ (qminimum_in l1 Hne1))). pose proof (proj2 (B1 _ (qmaximum_in l1 Hne1))). rewrite tol in *. repeat split; lra.
Qed.

(** ** balls *)
Definition in_range (lo hi : Z) (arr : list Z) : Prop := forall x, In x arr -> (lo <= x <= hi)%Z.
Lemma zsum_lo lo arr : (forall x, In x arr -> lo <= x)%Z -> (Z.of_nat (length arr) * lo <= zsum arr)%Z.
Proof.
  induction arr as [|x arr IH]; intros H; [simpl; lia|]. cbn [zsum fold_right length]. fold (zsum arr).
  specialize (IH ltac:(intros; apply H; simpl; auto)). specialize (H x (or_introl eq_refl)). lia.
Qed.
Lemma zsum_hi hi arr : (forall x, In x arr -> x <= hi)%Z -> (zsum arr <= Z.of_nat (length arr) * hi)%Z.
Proof.
  induction arr as [|x arr IH]; intros H; [simpl; lia|]. cbn [zsum fold_right length]. fold (zsum arr).
  specialize (IH ltac:(intros; apply H; simpl; auto)). specialize (H x (or_introl eq_refl)). lia.
Qed.
Lemma zmax_at arr : arr <> [] -> (argmax (map inject_Z arr) < length arr)%nat /\
  forall x, In x arr -> (x <= nth (argmax (map inject_Z arr)) arr 0)%Z.
Proof.
  intros H. assert (map inject_Z arr <> []) as H' by (destruct arr; [congruence|discriminate]).
  destruct (argmax_spec _ H') as (A1 & A2 & _). rewrite map_length in *. split; auto.
  intros x Hx. destruct (In_nth _ _ 0%Z Hx) as (j & Hj & <-). specialize (A2 j Hj).
  rewrite !(nth_map_gen inject_Z arr _ 0 0%Z) in A2 by auto. rewrite <- Zle_Qle in A2. auto.
Qed.
Lemma zmin_at arr : arr <> [] -> (argmin (map inject_Z arr) < length arr)%nat /\
  forall x, In x arr -> (nth (argmin (map inject_Z arr)) arr 0 <= x)%Z.
Proof.
  intros H. assert (map inject_Z arr <> []) as H' by (destruct arr; [congruence|discriminate]).
  destruct (argmin_spec _ H') as (A1 & A2 & _). rewrite map_length in *. split; auto.
  intros x Hx. destruct (In_nth _ _ 0%Z Hx) as (j & Hj & <-). specialize (A2 j Hj).
  rewrite !(nth_map_gen inject_Z arr _ 0 0%Z) in A2 by auto. rewrite <- Zle_Qle in A2. auto.
Qed.
Lemma len_ne_z (l l' : list Z) : l <> [] -> length l' = length l -> l' <> [].
Proof. destruct l, l'; simpl; congruence. Qed.
Lemma remove_ok lo hi N : forall fuel arr, arr <> [] -> in_range lo hi arr ->
  (Z.of_nat (length arr) * lo <= N)%Z -> (zsum arr - N <= Z.of_nat fuel)%Z ->
  exists arr', remove_balls fuel N arr = Ok arr' /\ length arr' = length arr /\ in_range lo hi arr' /\ zsum arr' = Z.min (zsum arr) N.
Proof.
  induction fuel as [|fuel IH]; intros arr Hne Hr Hlo Hf; cbn [remove_balls].
  - destruct (Z.ltb_spec N (zsum arr)); [lia|]. exists arr. repeat split; auto; try apply Hr; auto. lia.
  - destruct (Z.ltb_spec N (zsum arr)).
    + destruct (zmax_at arr Hne) as (Hi & Hmx). set (i := argmax _) in *.
      assert (lo < nth i arr 0%Z)%Z.
      { destruct (Z.le_gt_cases (nth i arr 0%Z) lo); auto. pose proof (zsum_hi lo arr ltac:(intros x Hx; specialize (Hmx x Hx); lia)). lia. }
      assert (Es : zsum (upd arr i (nth i arr 0%Z - 1)%Z) = (zsum arr - 1)%Z) by (rewrite zsum_upd by auto; lia).
      destruct (IH (upd arr i (nth i arr 0%Z - 1)%Z)) as (arr' & R & L & B & S).
      * apply (len_ne_z arr); auto. apply upd_length.
      * intros x Hx. apply in_upd in Hx as [->|Hx]; auto. specialize (Hr _ (nth_In arr 0%Z Hi)). lia.
      * rewrite upd_length. auto.
      * lia.
      * exists arr'. rewrite upd_length in L. repeat split; auto; try apply B; auto. lia.
    + exists arr. repeat split; auto; try apply Hr; auto. lia.
Qed.
Lemma add_ok lo hi N : forall fuel arr, arr <> [] -> in_range lo hi arr ->
  (N <= Z.of_nat (length arr) * hi)%Z -> (N - zsum arr <= Z.of_nat fuel)%Z ->
  exists arr', add_balls fuel N arr = Ok arr' /\ length arr' = length arr /\ in_range lo hi arr' /\ zsum arr' = Z.max (zsum arr) N.
Proof.
  induction fuel as [|fuel IH]; intros arr Hne Hr Hlo Hf; cbn [add_balls].
  - destruct (Z.ltb_spec (zsum arr) N); [lia|]. exists arr. repeat split; auto; try apply Hr; auto. lia.
  - destruct (Z.ltb_spec (zsum arr) N).
    + destruct (zmin_at arr Hne) as (Hi & Hmx). set (i := argmin _) in *.
      assert (nth i arr 0%Z < hi)%Z.
      { destruct (Z.le_gt_cases hi (nth i arr 0%Z)); auto. pose proof (zsum_lo hi arr ltac:(intros x Hx; specialize (Hmx x Hx); lia)). lia. }
      assert (Es : zsum (upd arr i (nth i arr 0%Z + 1)%Z) = (zsum arr + 1)%Z) by (rewrite zsum_upd by auto; lia).
      destruct (IH (upd arr i (nth i arr 0%Z + 1)%Z)) as (arr' & R & L & B & S).
      * apply (len_ne_z arr); auto. apply upd_length.
      * intros x Hx. apply in_upd in Hx as [->|Hx]; auto. specialize (Hr _ (nth_In arr 0%Z Hi)). lia.
      * rewrite upd_length. auto.
      * lia.
      * exists arr'. rewrite upd_length in L. repeat split; auto; try apply B; auto. lia.
    + exists arr. repeat split; auto; try apply Hr; auto. lia.
Qed.
Lemma fix_ok lo hi N fuel fuel2 arr : arr <> [] -> in_range lo hi arr ->
  (Z.of_nat (length arr) * lo <= N)%Z -> (N <= Z.of_nat (length arr) * hi)%Z -> (1 <= fuel)%nat ->
  (zsum arr - N <= Z.of_nat fuel2)%Z -> (N - zsum arr <= Z.of_nat fuel2)%Z ->
  exists arr', fix_balls fuel fuel2 N arr = Ok arr' /\ length arr' = length arr /\ in_range lo hi arr' /\ zsum arr' = N.
Proof.
  intros Hne Hr Hlo Hhi Hf H1 H2. destruct fuel as [|fuel]; [lia|]. cbn [fix_balls].
  destruct (Z.eqb_spec (zsum arr) N); [exists arr; auto|].
  destruct (remove_ok lo hi N fuel2 arr Hne Hr Hlo H1) as (a1 & -> & L1 & R1 & S1). cbn [rbind].
  destruct (add_ok lo hi N fuel2 a1) as (a2 & -> & L2 & R2 & S2); auto.
  { eapply len_ne_z; eauto. } { rewrite L1; auto. } { lia. }
  cbn [rbind]. assert (zsum a2 = N) as E by lia. exists a2.
  split; [|split; [congruence|split; auto]].
  destruct fuel; cbn [fix_balls]; rewrite E, Z.eqb_refl; reflexivity.
Qed.

Lemma C25_balls_full : forall fuel N K max_balls min_balls dir rs,
  let mx := match max_balls with None => N | Some b => b end in
  let mn := match min_balls with None => 0%nat | Some b => b end in
  (1 <= K)%nat -> (1 <= mx \/ N = 0)%nat -> (mn <= mx)%nat -> (K * mn <= N)%nat -> Qnat N < inject_Z 500000 ->
  prob_vector K dir -> unit_stream rs -> Qnat K * inject_Z 1000000 < Qnat fuel ->
  exists arr, distribute_balls fuel N K max_balls min_balls dir rs = Ok arr /\ length arr = K /\
    zsum arr = Z.of_nat (Nat.min N (K * mx)) /\
    forall x, In x arr -> (Z.of_nat mn <= x <= Z.of_nat mx)%Z.
Proof.
  intros fuel N K max_balls min_balls dir rs mx mn HK Hmx Hmm HN HNb Hdir Hrs Hf.
  unfold distribute_balls. destruct (Nat.eqb_spec N 0) as [->|HN0].
  - exists (repeat 0%Z K). split; auto. split; [apply repeat_length|]. assert (mn = 0)%nat as Emn by nia.
    split; [clear; induction K; simpl in *; auto|].
    intros x Hx. apply repeat_spec in Hx as ->. rewrite Emn. lia.
  - destruct (Nat.eqb_spec K 0) as [|_]; [lia|]. cbv zeta.
    set (mx' := match max_balls with None => N | Some b => Nat.min b N end).
    assert (Emx : mx' = Nat.min mx N) by (unfold mx', mx; destruct max_balls; [reflexivity|lia]).
    set (mnq := match min_balls with None => 0 | Some b => qmin (Qnat b) (Qnat N / Qnat K) end).
    assert (HqK : 1 <= Qnat K) by (change 1 with (Qnat 1); apply Qnat_le; auto).
    assert (Qmul : forall x y, Qnat (x * y) == Qnat x * Qnat y).
    { intros. unfold Qnat. rewrite Nat2Z.inj_mul, inject_Z_mult. reflexivity. }
    assert (Emn : mnq == Qnat mn).
    { unfold mnq, mn in *. destruct min_balls as [b|]; [|reflexivity].
      assert (Qnat b <= Qnat N / Qnat K). { apply Qle_shift_div_l; [lra|]. rewrite <- Qmul. apply Qnat_le. lia. }
      qmm; lra. }
    set (N' := if Qltb (Qnat mx') (Qnat N / Qnat K) then (mx' * K)%nat else N).
    assert (EN : N' = Nat.min N (K * mx)).
    { unfold N'. destruct (Qltb (Qnat mx') (Qnat N / Qnat K)) eqn:E; qb.
      - assert (Qnat mx' * Qnat K < Qnat N).
        { apply Qmult_lt_r with (/ Qnat K); [apply Qinv_lt_0_compat; lra|]. unfold Qdiv in E. rewrite <- Qmult_assoc, Qmult_inv_r by lra. lra. }
        rewrite <- Qmul in H. apply Qnat_lt_iff in H. nia.
      - assert (Qnat N <= Qnat mx' * Qnat K).
        { apply Qmult_lt_0_le_reg_r with (/ Qnat K); [apply Qinv_lt_0_compat; lra|]. unfold Qdiv in E. rewrite <- Qmult_assoc, Qmult_inv_r by lra. lra. }
        rewrite <- Qmul in H. apply Qnat_le_iff in H. nia. }
    assert (HN' : (1 <= N')%nat) by nia.
    destruct (Nat.eqb_spec N' 0) as [|_]; [lia|].
    assert (HqN : 1 <= Qnat N') by (change 1 with (Qnat 1); apply Qnat_le; auto).
    destruct (C25_probs_full fuel K 1 (Qnat mx' / Qnat N') (mnq / Qnat N') dir rs) as (ps & R & L & S & B); auto; try lra.
    { rewrite Emn. unfold Qdiv. rewrite Qmult_assoc, <- Qmul. apply Qle_shift_div_r; [lra|].
      rewrite Qmult_1_l. apply Qnat_le. nia. }
    { unfold Qdiv. rewrite Qmult_assoc, <- Qmul. apply Qle_shift_div_l; [lra|].
      rewrite Qmult_1_l. apply Qnat_le. nia. }
    rewrite R. cbn [rbind]. set (arr := map (fun p => round_half_even (p * Qnat N')) ps).
    assert (La : length arr = K) by (unfold arr; rewrite map_length; auto).
    assert (Hrange : in_range (Z.of_nat mn) (Z.of_nat mx') arr).
    { intros x Hx. apply in_map_iff in Hx as (p & <- & Hp). destruct (B p Hp) as (B0 & B1 & B2).
      pose proof (round_half_even_bound (p * Qnat N')) as (R1 & R2).
      assert (HNN : Qnat N' <= Qnat N) by (apply Qnat_le; lia). unfold inject_Z in HNb.
      assert (T1 : Qnat mn - (1 # 2) < p * Qnat N').
      { assert ((mnq / Qnat N' - (1 # 1000000)) * Qnat N' <= p * Qnat N') by (apply Qmult_le_compat_r; lra).
        assert ((mnq / Qnat N' - (1 # 1000000)) * Qnat N' == Qnat mn - (1 # 1000000) * Qnat N') by (rewrite Emn; field; lra). lra. }
      assert (T2 : p * Qnat N' < Qnat mx' + (1 # 2)).
      { assert (p * Qnat N' <= (Qnat mx' / Qnat N' + (1 # 1000000)) * Qnat N') by (apply Qmult_le_compat_r; lra).
        assert ((Qnat mx' / Qnat N' + (1 # 1000000)) * Qnat N' == Qnat mx' + (1 # 1000000) * Qnat N') by (field; lra). lra. }
      set (z := round_half_even (p * Qnat N')) in *. unfold Qnat in T1, T2, R1, R2.
      split; apply inject_Z_lt_1; lra. }
    assert (Hne : arr <> []) by (destruct arr; simpl in *; [lia|discriminate]).
    pose proof (zsum_lo (Z.of_nat mn) arr ltac:(intros x Hx; apply (Hrange x Hx))) as Z1.
    pose proof (zsum_hi (Z.of_nat mx') arr ltac:(intros x Hx; apply (Hrange x Hx))) as Z2. rewrite La in *.
    assert (Hfz : (Z.of_nat K * 1000000 < Z.of_nat fuel)%Z).
    { unfold Qnat in Hf. rewrite <- inject_Z_mult in Hf. rewrite <- Zlt_Qlt in Hf. auto. }
    assert (HNz : (Z.of_nat N < 500000)%Z) by (unfold Qnat in HNb; rewrite <- Zlt_Qlt in HNb; auto).
    destruct (fix_ok (Z.of_nat mn) (Z.of_nat mx') (Z.of_nat N') fuel fuel arr) as (arr' & R' & L' & B' & S'); auto; try rewrite La; try nia.
    exists arr'. split; auto. split; [congruence|]. split; [rewrite S', EN; auto|].
    intros x Hx. specialize (B' x Hx). lia.
Qed.

(** ** noisy labels *)
Lemma assign_length idx : forall vals labels, length (assign_at labels idx vals) = length labels.
Proof.
  unfold assign_at. induction idx as [|i idx IH]; intros [|v vals] labels; cbn [combine fold_left]; auto.
  rewrite IH. apply upd_length.
Qed.
Lemma assign_out idx : forall vals labels j d, ~ In j idx -> nth j (assign_at labels idx vals) d = nth j labels d.
Proof.
  unfold assign_at. induction idx as [|i idx IH]; intros [|v vals] labels j d H; cbn [combine fold_left]; auto.
  rewrite IH by (intros C; apply H; simpl; auto). apply nth_upd_neq. intros ->. apply H. simpl; auto.
Qed.
Lemma assign_in idx : forall vals labels j v d, NoDup idx -> (forall i, In i idx -> (i < length labels)%nat) ->
  In (j, v) (combine idx vals) -> nth j (assign_at labels idx vals) d = v.
Proof.
  induction idx as [|i idx IH]; intros [|w vals] labels j v d Hn Hb Hin; cbn [combine In] in Hin; try tauto.
  inversion Hn as [|? ? Hi Hn']; subst. destruct Hin as [E|Hin].
  - inversion E; subst. change (nth j (assign_at (upd labels j v) idx vals) d = v). rewrite assign_out by auto.
    apply nth_upd_eq. apply Hb. simpl; auto.
  - change (nth j (assign_at (upd labels i w) idx vals) d = v). apply IH; auto.
    intros i' Hi'. rewrite upd_length. apply Hb. simpl; auto.
Qed.
Definition pair_positions (i k : nat) (labels true_labels : list nat) : list nat :=
  filter (fun j => (Nat.eqb (nth j labels 0%nat) i && Nat.eqb (nth j true_labels 0%nat) k)%bool) (seq 0 (length labels)).
Lemma n_pairs_positions i k : forall labels true_labels, length labels = length true_labels ->
  n_pairs i k labels true_labels = length (pair_positions i k labels true_labels).
Proof.
  unfold pair_positions. induction labels as [|l labels IH]; intros [|t true_labels] H; cbn [length] in *; try discriminate; auto.
  cbn [n_pairs seq filter nth]. rewrite IH by lia.
  rewrite filter_seq_shift.
  destruct (Nat.eqb l i && Nat.eqb t k)%bool; cbn [length]; rewrite map_length; reflexivity.
Qed.
Lemma in_positions i k labels true_labels j : In j (pair_positions i k labels true_labels) <->
  (j < length labels)%nat /\ nth j labels 0%nat = i /\ nth j true_labels 0%nat = k.
Proof.
  unfold pair_positions. rewrite filter_In, in_seq, andb_true_iff, !Nat.eqb_eq. intuition lia.
Qed.
Lemma positions_NoDup i k labels true_labels : NoDup (pair_positions i k labels true_labels).
Proof. apply NoDup_filter, seq_NoDup. Qed.
Lemma n_pairs_ext i k labels labels' true_labels : length labels = length true_labels -> length labels' = length labels ->
  (forall j, (j < length labels)%nat -> nth j true_labels 0%nat = k -> (nth j labels 0%nat = i <-> nth j labels' 0%nat = i)) ->
  n_pairs i k labels' true_labels = n_pairs i k labels true_labels.
Proof.
  intros H1 H2 H. rewrite !n_pairs_positions by congruence. apply NoDup_same_length; try apply positions_NoDup.
  intros j. rewrite !in_positions, H2. specialize (H j). intuition.
Qed.
Lemma n_pairs_same k : forall true_labels, n_pairs k k true_labels true_labels = n_labelled k true_labels.
Proof. induction true_labels as [|t l IH]; auto. cbn [n_pairs n_labelled]. rewrite IH, andb_diag. reflexivity. Qed.
Lemma n_pairs_other i k : forall true_labels, i <> k -> n_pairs i k true_labels true_labels = 0%nat.
Proof.
  induction true_labels as [|t l IH]; intros H; auto. cbn [n_pairs]. rewrite IH by auto.
  destruct (Nat.eqb_spec t i), (Nat.eqb_spec t k); subst; simpl; congruence.
Qed.
Lemma count_length v (l : list nat) : count v l = length (filter (fun x => Nat.eqb x v) l).
Proof.
  unfold count. induction l as [|x l IH]; auto. cbn [count_occ filter]. destruct (Nat.eq_dec x v), (Nat.eqb_spec x v); subst; try congruence.
  cbn [length]. congruence.
Qed.
Lemma count_app v a b : count v (a ++ b) = (count v a + count v b)%nat.
Proof. apply count_occ_app. Qed.
Lemma count_repeat v x n : count v (repeat x n) = if Nat.eqb x v then n else 0%nat.
Proof.
  unfold count. induction n as [|n IH]; cbn [repeat count_occ]; [destruct (Nat.eqb x v); auto|].
  rewrite IH. destruct (Nat.eq_dec x v), (Nat.eqb_spec x v); subst; try congruence; auto.
Qed.
Lemma count_flat (f : nat -> nat) v : forall l, NoDup l ->
  count v (flat_map (fun i => repeat i (f i)) l) = if mem v l then f v else 0%nat.
Proof.
  induction l as [|x l IH]; intros Hn; auto. inversion Hn; subst. cbn [flat_map]. rewrite count_app, count_repeat, IH by auto.
  unfold mem at 2. cbn [existsb]. fold (mem v l). rewrite (Nat.eqb_sym v x).
  destruct (Nat.eqb_spec x v) as [->|]; cbn [orb]; auto.
  destruct (mem v l) eqn:E; [apply mem_iff in E; tauto|lia].
Qed.
Lemma filter_combine_snd {X} (p : nat -> bool) : forall (idx : list X) vals, length idx = length vals ->
  length (filter (fun iv => p (snd iv)) (combine idx vals)) = length (filter p vals).
Proof.
  induction idx as [|i idx IH]; intros [|v vals] H; cbn [combine filter length snd] in *; try discriminate; auto.
  destruct (p v); cbn [length]; rewrite IH by lia; reflexivity.
Qed.
Lemma combine_NoDup_fst {X Y} (p : X * Y -> bool) : forall (idx : list X) (vals : list Y), NoDup idx ->
  NoDup (map fst (filter p (combine idx vals))).
Proof.
  induction idx as [|i idx IH]; intros [|v vals] Hn; cbn [combine filter map]; try constructor.
  inversion Hn; subst. destruct (p (i, v)); cbn [map fst]; auto. constructor; auto.
  rewrite in_map_iff. intros ((i' & v') & <- & Hin). apply filter_In in Hin as (Hin & _).
  apply in_combine_l in Hin. auto.
Qed.

Lemma flat_filter_le (f : nat -> nat) p l :
  (length (flat_map (fun i => repeat i (f i)) (filter p l)) <= nsum (map f l))%nat.
Proof.
  induction l as [|i l IH]; auto. cbn [filter map]. change (nsum (f i :: map f l)) with (f i + nsum (map f l))%nat.
  destruct (p i); cbn [flat_map]; [rewrite app_length, repeat_length|]; lia.
Qed.

Section flips.
Context (true_labels : list nat) (cj : list (list Z)) (choice : nat -> list nat -> nat -> list nat).
Hypothesis Hch : samples choice.
Hypothesis Hdiag : forall k, (k < length cj)%nat -> zget cj k k = 0%Z.
Hypothesis Hnn : forall i k, (i < length cj)%nat -> (k < length cj)%nat -> (0 <= zget cj i k)%Z.
Hypothesis Hsum : forall k, (k < length cj)%nat ->
  (nsum (map (fun i => Z.to_nat (zget cj i k)) (seq 0 (length cj))) <= n_labelled k true_labels)%nat.
Hypothesis Hlab : forall t, In t true_labels -> (t < length cj)%nat.

Definition flip_inv (k : nat) (labels : list nat) : Prop :=
  length labels = length true_labels /\
  (forall l, In l labels -> (l < length cj)%nat) /\
  (forall j, (j < length labels)%nat -> (k <= nth j true_labels 0)%nat -> nth j labels 0%nat = nth j true_labels 0%nat) /\
  (forall i k', (i < length cj)%nat -> (k' < k)%nat -> i <> k' -> Z.of_nat (n_pairs i k' labels true_labels) = zget cj i k').

Lemma flip_step k labels : (k < length cj)%nat -> flip_inv k labels -> flip_inv (S k) (flip_class true_labels cj choice labels k).
Proof.
  intros Hk (HL & HR & HI & HP). unfold flip_class.
  set (f := fun i => Z.to_nat (zget cj i k)).
  set (lpc := filter _ (seq 0 (length cj))). set (noise := flat_map _ lpc). set (idx := where_ _).
  assert (Hcount : forall i, (i < length cj)%nat -> i <> k -> count i noise = f i).
  { intros i Hi Hik. unfold noise. rewrite (count_flat f) by (apply NoDup_filter, seq_NoDup).
    destruct (mem i lpc) eqn:E; auto. apply mem_false in E. unfold lpc in E. rewrite filter_In, in_seq in E.
    unfold f. destruct (Z.eqb_spec (zget cj i k) 0) as [->|]; auto. exfalso. apply E. simpl. split; [lia|auto]. }
  assert (Hnk : forall v, In v noise -> (v < length cj)%nat /\ v <> k).
  { intros v Hv. unfold noise in Hv. apply in_flat_map in Hv as (i & Hi & Hv). apply repeat_spec in Hv as ->.
    unfold lpc in Hi. apply filter_In in Hi as (Hi & Hz). apply in_seq in Hi. split; [lia|].
    intros ->. rewrite Hdiag in Hz by auto. discriminate. }
  assert (Hidx : forall j, In j idx <-> (j < length labels)%nat /\ nth j true_labels 0%nat = k).
  { intros j. unfold idx. rewrite in_where. split.
    - intros H. assert (Hj : (j < length (combine labels true_labels))%nat).
      { destruct (Nat.lt_ge_cases j (length (combine labels true_labels))); auto.
        rewrite nth_overflow in H by (rewrite map_length; auto). discriminate. }
      rewrite (nth_map_gen _ _ _ _ (0, 0)%nat) in H by auto. rewrite combine_nth in H by auto. cbn [fst snd] in H.
      apply andb_true_iff in H as (_ & H). apply Nat.eqb_eq in H. rewrite combine_length in Hj. split; auto. lia.
    - intros (Hj & HT). assert (j < length (combine labels true_labels))%nat by (rewrite combine_length; lia).
      rewrite (nth_map_gen _ _ _ _ (0, 0)%nat) by auto. rewrite combine_nth by auto. cbn [fst snd].
      rewrite HI by (auto; lia). rewrite HT, Nat.eqb_refl. reflexivity. }
  assert (Hlen : length idx = n_labelled k true_labels).
  { rewrite <- n_pairs_same, n_pairs_positions by auto. apply NoDup_same_length; [apply where_NoDup|apply positions_NoDup|].
    intros j. rewrite Hidx, in_positions, HL. intuition. }
  assert (Hnl : (length noise <= length idx)%nat).
  { rewrite Hlen. eapply Nat.le_trans; [|apply Hsum; auto].
    apply flat_filter_le. }
  assert (Hle : Nat.leb (length noise) (length idx) = true) by (apply Nat.leb_le; auto).
  rewrite Hle, andb_true_r.
  destruct (Nat.eqb_spec (length noise) 0) as [E0|E0].
  - rewrite andb_false_r. apply length_zero_iff_nil in E0.
    split; auto. split; auto. split; [intros; apply HI; auto; lia|].
    intros i k' Hi Hk' Hne. destruct (Nat.eq_dec k' k) as [->|]; [|apply HP; auto; lia].
    specialize (Hcount i Hi Hne). rewrite E0 in Hcount. cbn in Hcount. unfold f in Hcount.
    specialize (Hnn i k Hi Hk). assert (zget cj i k = 0)%Z as -> by lia.
    rewrite n_pairs_positions by auto. destruct (pair_positions i k labels true_labels) as [|j l] eqn:E; auto.
    exfalso. assert (In j (pair_positions i k labels true_labels)) by (rewrite E; simpl; auto).
    apply in_positions in H as (A & B & C). rewrite HI in B by (auto; lia). congruence.
  - destruct (Nat.eqb_spec (length idx) 0) as [E1|E1]; [lia|]. cbn [negb andb].
    destruct (Hch k idx (length noise) (where_NoDup _) Hnl) as (Cl & Cn & Ci). set (ch := choice k idx (length noise)) in *.
    assert (Hb : forall i, In i ch -> (i < length labels)%nat) by (intros i Hi; apply Hidx; auto).
    set (labels' := assign_at labels ch noise).
    assert (L' : length labels' = length labels) by apply assign_length.
    assert (Hin : forall j, In j ch -> exists v, In (j, v) (combine ch noise) /\ nth j labels' 0%nat = v).
    { intros j Hj. destruct (In_nth ch j 0%nat Hj) as (p & Hp & Ep). exists (nth p noise 0%nat).
      assert (In (j, nth p noise 0%nat) (combine ch noise)).
      { rewrite <- Ep, <- combine_nth by auto. apply nth_In. rewrite combine_length. lia. }
      split; auto. apply assign_in; auto. }
    assert (Hout : forall j, ~ In j ch -> nth j labels' 0%nat = nth j labels 0%nat) by (intros; apply assign_out; auto).
    split; [congruence|]. split; [|split].
    + intros l Hl. destruct (In_nth _ _ 0%nat Hl) as (j & Hj & <-). rewrite L' in Hj.
      destruct (in_dec Nat.eq_dec j ch) as [C|C].
      * destruct (Hin j C) as (v & V1 & ->). apply in_combine_r in V1. apply Hnk; auto.
      * rewrite Hout by auto. apply HR, nth_In; auto.
    + intros j Hj Ht. rewrite L' in Hj. rewrite Hout; [apply HI; auto; lia|].
      intros C. apply Ci, Hidx in C. lia.
    + intros i k' Hi Hk' Hne. destruct (Nat.eq_dec k' k) as [->|Hkk].
      * rewrite n_pairs_positions by congruence.
        rewrite (NoDup_same_length _ (map fst (filter (fun iv => Nat.eqb (snd iv) i) (combine ch noise)))).
        -- rewrite map_length. rewrite (filter_combine_snd (fun v => Nat.eqb v i)) by auto.
           rewrite <- count_length. rewrite Hcount by auto. unfold f. apply Z2Nat.id; auto.
        -- apply positions_NoDup.
        -- apply combine_NoDup_fst; auto.
        -- intros j. rewrite in_positions, L', in_map_iff. split.
           ++ intros (Hj & Hi' & HT). destruct (in_dec Nat.eq_dec j ch) as [C|C].
              ** destruct (Hin j C) as (v & V1 & V2). exists (j, v). split; auto. apply filter_In. split; auto.
                 apply Nat.eqb_eq. cbn [snd]. congruence.
              ** exfalso. rewrite Hout in Hi' by auto. rewrite HI in Hi' by (auto; lia). congruence.
           ++ intros ((j' & v) & Ej & Hf). cbn [fst] in Ej. subst j'. apply filter_In in Hf as (Hf & Hv). apply Nat.eqb_eq in Hv. cbn [snd] in Hv. subst v.
              assert (In j ch) by (eapply in_combine_l; eauto). split; auto. split; [apply assign_in; auto|].
              apply Hidx; auto.
      * rewrite <- HP by (auto; lia). f_equal. apply n_pairs_ext; auto.
        intros j Hj HT. rewrite Hout; [tauto|]. intros C. apply Ci, Hidx in C. lia.
Qed.
Lemma flips_ok : forall n, (n <= length cj)%nat ->
  flip_inv n (fold_left (flip_class true_labels cj choice) (seq 0 n) true_labels).
Proof.
  induction n as [|n IH]; intros H.
  - split; auto. split; auto. split; auto. intros; lia.
  - rewrite seq_S, fold_left_app. cbn [fold_left Nat.add]. apply flip_step; [lia|]. apply IH. lia.
Qed.
End flips.

Lemma unique_all K labels : (1 <= K)%nat -> (forall k, In k labels <-> (k < K)%nat) -> unique labels = seq 0 K.
Proof.
  intros HK H. apply sorted_lt_ext.
  - unfold unique. apply filter_seq_sorted.
  - apply seq_sorted.
  - intros x. rewrite in_unique, H, in_seq. lia.
Qed.

Lemma truncate_comp x y : x == y -> truncate x = truncate y.
Proof.
  intros H. unfold truncate. rewrite (Qfloor_comp x y H), (Qceiling_comp x y H).
  destruct (Qle_bool 0 x) eqn:E1, (Qle_bool 0 y) eqn:E2; auto; qb; lra.
Qed.
Lemma truncate_floor x : 0 <= x -> truncate x = Qfloor x.
Proof. intros H. unfold truncate. apply Qle_bool_iff in H. rewrite H. reflexivity. Qed.
Lemma Qfloor_nn x : 0 <= x -> (0 <= Qfloor x)%Z.
Proof. intros H. change 0%Z with (Qfloor 0). apply Qfloor_resp_le; auto. Qed.

Lemma C26_full : forall K true_labels noise_matrix choice,
  (1 <= K)%nat -> length noise_matrix = K ->
  (forall k, In k true_labels <-> (k < K)%nat) ->
  (forall i k, (i < K)%nat -> (k < K)%nat -> 0 <= mget noise_matrix i k) ->
  (forall k, (k < K)%nat -> qsum (map (fun i => mget noise_matrix i k) (seq 0 K)) <= 1) ->
  samples choice ->
  exists labels, generate_noisy_labels true_labels noise_matrix choice = Ok labels /\
    length labels = length true_labels /\
    (forall l, In l labels -> (l < K)%nat) /\
    (forall i k, (i < K)%nat -> (k < K)%nat -> i <> k ->
       Z.of_nat (n_pairs i k labels true_labels) = Qfloor (mget noise_matrix i k * Qnat (n_labelled k true_labels))).
Proof.
  intros K T nm choice HK Hnm HT Hnn Hcol Hch. unfold generate_noisy_labels, count_joint.
  rewrite (unique_all K) by auto. rewrite map_length, seq_length, Hnm, Nat.eqb_refl. cbn [negb rbind].
  set (py := map _ (seq 0 K)). set (cj := tab K _).
  assert (Lcj : length cj = K) by apply tab_length.
  assert (HTn : (1 <= length T)%nat).
  { assert (In 0%nat T) by (apply HT; lia). destruct T; simpl in *; [tauto|lia]. }
  assert (Eoff : forall i k, (i < K)%nat -> (k < K)%nat -> i <> k ->
            zget cj i k = Qfloor (mget nm i k * Qnat (n_labelled k T))).
  { intros i k Hi Hk Hik. unfold zget, cj. rewrite nth_tab by auto. rewrite nth_tab by auto.
    destruct (Nat.eqb_spec i k); [congruence|].
    unfold py. rewrite (nth_map_gen _ _ _ _ 0%nat) by (rewrite seq_length; auto). rewrite seq_nth by auto. cbn [Nat.add].
    rewrite <- n_labelled_count. rewrite <- truncate_floor.
    - apply truncate_comp. field. pose proof (Qnat_le 1 _ HTn). change (Qnat 1) with 1 in H. lra.
    - apply Qmult_le_0_compat; [apply Hnn; auto|apply Qnat_nonneg]. }
  assert (Ediag : forall k, (k < K)%nat -> zget cj k k = 0%Z).
  { intros k Hk. unfold zget, cj. rewrite nth_tab by auto. rewrite nth_tab by auto. rewrite Nat.eqb_refl. reflexivity. }
  assert (Enn : forall i k, (i < K)%nat -> (k < K)%nat -> (0 <= zget cj i k)%Z).
  { intros i k Hi Hk. destruct (Nat.eq_dec i k) as [->|]; [rewrite Ediag by auto; lia|]. rewrite Eoff by auto.
    apply Qfloor_nn. apply Qmult_le_0_compat; [apply Hnn; auto|apply Qnat_nonneg]. }
  destruct (flips_ok T cj choice Hch) with (n := K) as (F1 & F2 & _ & F4); rewrite ?Lcj; auto.
  { intros k Hk. apply Qnat_le_iff.
    assert (B : forall l, (forall i, In i l -> (i < K)%nat) ->
       Qnat (nsum (map (fun i => Z.to_nat (zget cj i k)) l)) <= qsum (map (fun i => mget nm i k) l) * Qnat (n_labelled k T)).
    { induction l as [|i l IH]; intros Hl; [cbn [map nsum fold_right qsum]; change (Qnat 0) with 0; lra|]. cbn [map]. rewrite qsum_cons.
      change (nsum (Z.to_nat (zget cj i k) :: map (fun i => Z.to_nat (zget cj i k)) l))
        with (Z.to_nat (zget cj i k) + nsum (map (fun i => Z.to_nat (zget cj i k)) l))%nat.
      rewrite Qnat_plus. specialize (IH ltac:(intros; apply Hl; simpl; auto)).
      assert (Qnat (Z.to_nat (zget cj i k)) <= mget nm i k * Qnat (n_labelled k T)).
      { assert (Hi : (i < K)%nat) by (apply Hl; simpl; auto). unfold Qnat at 1. rewrite Z2Nat.id by auto.
        destruct (Nat.eq_dec i k) as [->|].
        - rewrite Ediag by auto. apply Qmult_le_0_compat; [apply Hnn; auto|apply Qnat_nonneg].
        - rewrite Eoff by auto. apply Qfloor_le. }
      lra. }
    eapply Qle_trans; [apply B; intros i Hi; apply in_seq in Hi; lia|].
    rewrite <- (Qmult_1_l (Qnat (n_labelled k T))) at 2. apply Qmult_le_compat_r; [apply Hcol; auto|apply Qnat_nonneg]. }
  { intros t Ht. apply HT; auto. }
  eexists. split; [reflexivity|]. split; auto. split; [intros l Hl; rewrite <- Lcj; auto|].
  intros i k Hi Hk Hik. rewrite <- Eoff by auto. apply F4; rewrite ?Lcj; auto.
Qed.

(** ** data valuation *)
Section row.
Context (n : nat) (idx : list nat) (ms : list bool) (k : nat).
Hypothesis Hk : (1 <= k)%nat.
Hypothesis Hlen : (k <= length idx)%nat.
Hypothesis Hidx : forall j, In j idx -> (j < n)%nat.
Let m j := b2q (nth j ms false).
Let step := fun (s : list Q) j => upd s (nth j idx 0%nat)
   (nth (nth (S j) idx 0%nat) s 0 + (b2q (nth j ms false) - b2q (nth (S j) ms false))).

Lemma b2q_range b : 0 <= b2q b /\ b2q b <= 1.
Proof. destruct b; cbn; lra. Qed.
Lemma rev_seq_S a : forall t, rev (seq a (S t)) = rev (seq (S a) t) ++ [a].
Proof. intros t. reflexivity. Qed.

(** state after the steps for j = k-2, ..., p *)
Definition row_inv (p : nat) (s : list Q) : Prop :=
  length s = n /\ nth (nth p idx 0%nat) s 0 == m p - m (k - 1)%nat /\ (forall x, In x s -> -1 <= x /\ x <= 1) /\
  (NoDup idx -> forall q, (p <= q < k)%nat -> nth (nth q idx 0%nat) s 0 == m q - m (k - 1)%nat) /\
  (forall i, ~ In i (firstn k idx) -> nth i s 0 == 0).
Lemma row_states : forall t, (t <= k - 1)%nat ->
  row_inv (k - 1 - t) (fold_left step (rev (seq (k - 1 - t) t)) (repeat 0 n)).
Proof.
  assert (Z0 : forall i, nth i (repeat 0 n) 0 = 0) by (intros; apply nth_repeat).
  induction t as [|t IH]; intros Ht.
  - cbn [seq rev fold_left]. rewrite Nat.sub_0_r. split; [apply repeat_length|]. split; [rewrite Z0; lra|]. split.
    + intros x Hx. apply repeat_spec in Hx as ->. lra.
    + split; [|intros; rewrite Z0; reflexivity].
      intros _ q Hq. rewrite Z0. assert (q = k - 1)%nat as -> by lia. lra.
  - set (p := (k - 1 - S t)%nat). assert (E : (k - 1 - t = S p)%nat) by lia.
    specialize (IH ltac:(lia)). rewrite E in IH. rewrite rev_seq_S, fold_left_app. cbn [fold_left].
    set (s := fold_left step (rev (seq (S p) t)) (repeat 0 n)) in *.
    destruct IH as (I1 & I2 & I3 & I4 & I5). unfold step at 1. fold (m p). fold (m (S p)).
    assert (Hp : (nth p idx 0 < n)%nat) by (apply Hidx, nth_In; lia).
    assert (V : nth (nth (S p) idx 0%nat) s 0 + (m p - m (S p)) == m p - m (k - 1)%nat) by (rewrite I2; ring).
    split; [rewrite upd_length; auto|]. split; [rewrite nth_upd_eq by lia; auto|]. split; [|split].
    + intros x Hx. apply in_upd in Hx as [->|Hx]; auto. rewrite V.
      pose proof (b2q_range (nth p ms false)). pose proof (b2q_range (nth (k - 1) ms false)). unfold m. lra.
    + intros Hn q Hq. destruct (Nat.eq_dec q p) as [->|Hne]; [rewrite nth_upd_eq by lia; auto|].
      rewrite nth_upd_neq; [apply I4; auto; lia|].
      intros C. apply Hne. apply (proj1 (NoDup_nth idx 0%nat) Hn); auto; lia.
    + intros i Hi. rewrite nth_upd_neq; auto. intros ->. apply Hi.
      assert (nth p idx 0 = nth p (firstn k idx) 0)%nat as ->.
      { rewrite <- (firstn_skipn k idx) at 1. apply app_nth1. rewrite firstn_length. lia. }
      apply nth_In. rewrite firstn_length. lia.
Qed.
Lemma shapley_row_ok : length (shapley_row n idx ms k) = n /\
  (forall x, In x (shapley_row n idx ms k) -> -1 <= x /\ x <= 1) /\
  (forall i, ~ In i (firstn k idx) -> nth i (shapley_row n idx ms k) 0 == 0) /\
  (NoDup idx -> forall q, (q < k)%nat -> nth (nth q idx 0%nat) (shapley_row n idx ms k) 0 == m q - m (k - 1)%nat).
Proof.
  pose proof (row_states (k - 1) (Nat.le_refl _)) as (A & _ & B & C & D). rewrite Nat.sub_diag in *.
  split; [exact A|]. split; [exact B|]. split; [exact D|]. intros H q Hq. apply (C H q). lia.
Qed.
End row.

Lemma knn_score_ok graph y k : (1 <= k)%nat -> knn_graph_ok (length y) k graph ->
  knn_shapley_score graph y k = Ok (tab (length y) (fun i => qmean (map (fun row => nth i row 0 / Qnat k)
    (map (fun a => shapley_row (length y) (nth a graph []) (map (fun j => Nat.eqb (nth j y 0%nat) (nth a y 0%nat)) (nth a graph [])) k)
         (seq 0 (length y)))))).
Proof.
  intros Hk (Hg & HG). unfold knn_shapley_score. destruct (Nat.eqb_spec k 0); [lia|].
  assert (E : existsb (fun idx => (Nat.ltb 1 k && Nat.ltb (length idx) k)%bool) (firstn (length y) graph) = false).
  { destruct (existsb _ _) eqn:E; auto. apply existsb_exists in E as (idx & Hin & E). apply andb_true_iff in E as (_ & E).
    apply Nat.ltb_lt in E. apply firstn_In in Hin. destruct (HG idx Hin). lia. }
  rewrite E. f_equal. apply tab_ext. intros i Hi. do 2 f_equal.
  apply (list_eq_nth _ _ []).
  - rewrite !map_length, combine_length, seq_length. lia.
  - intros a Ha. rewrite map_length, combine_length in Ha.
    rewrite (nth_map_gen _ _ _ _ (0%nat, [])) by (rewrite combine_length; lia). rewrite combine_nth by auto.
    rewrite (nth_map_gen _ _ _ _ 0%nat) by (rewrite seq_length; lia). rewrite seq_nth by lia. reflexivity.
Qed.
Lemma qmean_bounds lo hi l : l <> [] -> (forall x, In x l -> lo <= x /\ x <= hi) -> lo <= qmean l /\ qmean l <= hi.
Proof.
  intros Hne H. assert (0 < Qnat (length l)) by (apply Qnat_pos; destruct l; simpl; [congruence|lia]).
  assert (Qnat (length l) * lo <= qsum l).
  { rewrite <- (qsum_map_const lo l). rewrite <- (map_id l) at 2. apply qsum_map_le. intros x Hx. apply H; auto. }
  assert (qsum l <= Qnat (length l) * hi).
  { rewrite <- (qsum_map_const hi l). rewrite <- (map_id l) at 1. apply qsum_map_le. intros x Hx. apply H; auto. }
  unfold qmean. split; [apply Qle_shift_div_l|apply Qle_shift_div_r]; lra.
Qed.

Lemma C27_range_full : forall graph y k, (1 <= k)%nat -> y <> [] -> knn_graph_ok (length y) k graph ->
  exists scores, data_shapley_knn graph y k = Ok scores /\ length scores = length y /\
    forall s, In s scores -> (1 # 2) - 1 / (2 * Qnat k) <= s /\ s <= (1 # 2) + 1 / (2 * Qnat k) /\ 0 <= s /\ s <= 1.
Proof.
  intros graph y k Hk Hy HG. unfold data_shapley_knn. rewrite knn_score_ok by auto. cbn [rbind].
  eexists. split; [reflexivity|]. split; [rewrite map_length; apply tab_length|].
  intros s Hs. apply in_map_iff in Hs as (x & <- & Hx). apply in_tab in Hx as (i & Hi & ->).
  pose proof (Qnat_le 1 k Hk) as Hk1. change (Qnat 1) with 1 in Hk1.
  set (x := qmean _).
  assert (B : - (1 / Qnat k) <= x /\ x <= 1 / Qnat k).
  { apply qmean_bounds.
    - destruct y; [congruence|]. discriminate.
    - intros v Hv. apply in_map_iff in Hv as (row & <- & Hrow). apply in_map_iff in Hrow as (a & <- & Ha). apply in_seq in Ha.
      destruct HG as (G1 & G2). destruct (G2 (nth a graph [])) as (G3 & G4); [apply nth_In; lia|].
      destruct (shapley_row_ok (length y) (nth a graph []) (map (fun j => Nat.eqb (nth j y 0%nat) (nth a y 0%nat)) (nth a graph [])) k Hk G3 G4)
        as (S1 & S2 & _).
      set (row := shapley_row _ _ _ _) in *. destruct (S2 (nth i row 0)) as (T1 & T2); [apply nth_In; lia|].
      split; [|apply Qmult_le_compat_r; [auto|apply Qlt_le_weak, Qinv_lt_0_compat; lra]].
      setoid_replace (- (1 / Qnat k)) with ((-1) / Qnat k) by (field; lra).
      apply Qmult_le_compat_r; [auto|apply Qlt_le_weak, Qinv_lt_0_compat; lra]. }
  setoid_replace (1 / (2 * Qnat k)) with ((1 # 2) * (1 / Qnat k)) by (field; lra).
  assert (1 / Qnat k <= 1) by (apply Qle_shift_div_r; lra).
  repeat split; lra.
Qed.
Lemma C27_value_full : forall graph y k scores i, (1 <= k)%nat -> knn_graph_ok (length y) k graph ->
  (forall idx, In idx graph -> NoDup idx) -> data_shapley_knn graph y k = Ok scores -> (i < length y)%nat ->
  nth i scores 0 == (1 + total_contribution y graph k i / (Qnat k * Qnat (length y))) / 2.
Proof.
  intros graph y k scores i Hk HG Hn HR Hi. unfold data_shapley_knn in HR. rewrite knn_score_ok in HR by auto. cbn [rbind] in HR.
  injection HR as <-. rewrite (nth_map_gen _ _ _ _ 0) by (rewrite tab_length; auto). rewrite nth_tab by auto.
  unfold qmean. rewrite !map_length, seq_length. rewrite map_map. rewrite qsum_map_div.
  pose proof (Qnat_le 1 k Hk) as Hk1. change (Qnat 1) with 1 in Hk1.
  pose proof (Qnat_le 1 (length y) ltac:(lia)) as Hn1. change (Qnat 1) with 1 in Hn1.
  assert (E : qsum (map (fun a => nth i (shapley_row (length y) (nth a graph [])
                (map (fun j => Nat.eqb (nth j y 0%nat) (nth a y 0%nat)) (nth a graph [])) k) 0) (seq 0 (length y)))
              == total_contribution y graph k i).
  { apply qsum_map_ext. intros a Ha. apply in_seq in Ha. destruct HG as (G1 & G2).
    assert (Hin : In (nth a graph []) graph) by (apply nth_In; lia). destruct (G2 _ Hin) as (G3 & G4).
    set (idx := nth a graph []) in *. set (ya := nth a y 0%nat).
    destruct (shapley_row_ok (length y) idx (map (fun j => Nat.eqb (nth j y 0%nat) ya) idx) k Hk G3 G4) as (_ & _ & S3 & S4).
    unfold contribution. destruct (existsb (Nat.eqb i) (firstn k idx)) eqn:E.
    - apply existsb_exists in E as (i' & E & E'). apply Nat.eqb_eq in E'. subst i'.
      destruct (In_nth _ _ 0%nat E) as (q & Hq & Eq). rewrite firstn_length in Hq.
      assert (Ei : nth q idx 0%nat = i).
      { rewrite <- Eq. rewrite <- (firstn_skipn k idx) at 1. apply app_nth1. rewrite firstn_length. lia. }
      specialize (S4 (Hn _ Hin) q ltac:(lia)). rewrite Ei in S4. rewrite S4.
      rewrite !(nth_map_gen _ _ _ _ 0%nat) by lia. rewrite Ei. reflexivity.
    - apply S3. intros C. apply Bool.not_true_iff_false in E. apply E, existsb_exists. exists i. split; auto. apply Nat.eqb_refl. }
  rewrite E. field. split; lra.
Qed.
