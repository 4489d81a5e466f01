(** * Proofs about ModelMultilabel *)
From Coq Require Import QArith Qabs Qround List Permutation Sorted ZArith Bool Arith Lia Lqa Setoid Morphisms.
From Verif Require ProofToken.
From Verif Require Import Base BaseFacts ModelUtil ModelCount ModelRank ModelPool ModelFilter ModelBatched ModelMultilabel
     SpecCount SpecFilter SpecRank SpecMultilabel ProofUtil ProofCount ProofPool ProofFilter ProofRank.
Import ListNotations.
Open Scope Q_scope.
Opaque TINY_VALUE.

(** ** the exponential moving average *)
Definition desc (l : list Q) : Prop := StronglySorted (fun a b => b <= a) l.
Definition cnt_ge (x : Q) (l : list Q) : nat := length (filter (Qleb x) l).

Lemma cnt_ge_perm x l l' : Permutation l l' -> cnt_ge x l = cnt_ge x l'.
Proof.
  unfold cnt_ge. induction 1; simpl; auto.
  - destruct (Qleb x x0); simpl; congruence.
  - destruct (Qleb x x0), (Qleb x y); reflexivity.
  - congruence.
Qed.
Lemma cnt_ge_below x : forall l l', below l l' -> (cnt_ge x l <= cnt_ge x l')%nat.
Proof.
  unfold cnt_ge. induction l as [|a l IH]; intros [|b l'] (HL & H); simpl in *; try lia.
  assert (Hab : a <= b) by (apply (H 0%nat); lia).
  assert (B : below l l') by (split; [lia|intros i Hi; apply (H (S i)); lia]).
  specialize (IH _ B).
  destruct (Qleb x a) eqn:Ea; destruct (Qleb x b) eqn:Eb; simpl; try lia.
  exfalso. apply Qleb_iff in Ea. assert (x <= b) by lra. apply Qleb_iff in H0. congruence.
Qed.
Lemma desc_prefix x : forall d i, desc d -> (i < length d)%nat -> x <= nth i d 0 -> (S i <= cnt_ge x d)%nat.
Proof.
  unfold cnt_ge. induction d as [|a d IH]; intros i HS Hi Hx; simpl in *; [lia|].
  inversion HS as [|? ? HS' HF]; subst.
  assert (Ha : Qleb x a = true).
  { apply Qleb_iff. destruct i; [auto|]. rewrite Forall_forall in HF.
    assert (nth i d 0 <= a) by (apply HF, nth_In; lia). lra. }
  rewrite Ha. simpl. destruct i; [lia|]. specialize (IH i HS'). assert (i < length d)%nat by lia. specialize (IH H Hx). lia.
Qed.
Lemma desc_suffix x : forall d i, desc d -> (i < length d)%nat -> nth i d 0 < x -> (cnt_ge x d <= i)%nat.
Proof.
  unfold cnt_ge. induction d as [|a d IH]; intros i HS Hi Hx; simpl in *; [lia|].
  inversion HS as [|? ? HS' HF]; subst. destruct i.
  - rewrite Forall_forall in HF.
    destruct (filter (Qleb x) (a :: d)) as [|y t] eqn:E; [simpl in E; rewrite E; simpl; lia|].
    exfalso. assert (In y (filter (Qleb x) (a :: d))) by (rewrite E; left; auto).
    apply filter_In in H as (HI & HL). apply Qleb_iff in HL. destruct HI as [<-|HI]; [lra|]. apply HF in HI. lra.
  - specialize (IH i HS'). assert (i < length d)%nat by lia. specialize (IH H Hx).
    destruct (Qleb x a); simpl; lia.
Qed.
Lemma desc_below d d' : desc d -> desc d' -> length d = length d' ->
  (forall x, (cnt_ge x d <= cnt_ge x d')%nat) -> below d d'.
Proof.
  intros HS HS' HL HC. split; [auto|]. intros i Hi. destruct (Qlt_le_dec (nth i d' 0) (nth i d 0)); [|auto].
  exfalso. pose proof (desc_prefix (nth i d 0) d i HS Hi ltac:(lra)).
  pose proof (desc_suffix (nth i d 0) d' i HS' ltac:(lia) q). specialize (HC (nth i d 0)). lia.
Qed.

Lemma SS_app {A} (R : A -> A -> Prop) l l' : StronglySorted R l -> StronglySorted R l' ->
  (forall x y, In x l -> In y l' -> R x y) -> StronglySorted R (l ++ l').
Proof.
  induction l as [|a l IH]; intros H H' HR; simpl; [auto|]. inversion H; subst. constructor.
  - apply IH; auto. intros. apply HR; auto. right; auto.
  - apply Forall_app. split; [auto|]. rewrite Forall_forall. intros y Hy. apply HR; auto. left; auto.
Qed.
Lemma SS_rev {A} (R : A -> A -> Prop) l : StronglySorted R l -> StronglySorted (fun a b => R b a) (rev l).
Proof.
  induction 1; simpl; [constructor|]. apply SS_app; auto.
  - constructor; constructor.
  - intros x y Hx [<-|[]]. rewrite Forall_forall in H0. apply H0. apply in_rev. auto.
Qed.
Lemma sort_descending_perm srt row : argsort_ok srt -> Permutation (sort_descending srt row) row.
Proof.
  intros Hs. unfold sort_descending. destruct (Hs row) as (HP & _). rewrite <- Permutation_rev.
  unfold take_idx. eapply perm_trans; [apply Permutation_map; apply HP|]. fold (tab (length row) (fun i => nth i row 0)).
  rewrite (list_eq_nth (tab (length row) (fun i => nth i row 0)) row 0); auto.
  - apply tab_length.
  - intros i Hi. rewrite tab_length in Hi. rewrite nth_tab; auto.
Qed.
Lemma sort_descending_desc srt row : argsort_ok srt -> desc (sort_descending srt row).
Proof.
  intros Hs. destruct (Hs row) as (_ & HS). unfold sort_descending, desc.
  apply (SS_rev (fun a b => a <= b)). unfold take_idx.
  apply (StronglySorted_map (fun a b => a <= b) (fun i => nth i row 0)). auto.
Qed.

Definition ema (alpha : Q) (t : list Q) (x : Q) : Q := fold_left (fun acc s => alpha * s + (1 - alpha) * acc) t x.
Lemma ema_mono alpha : 0 <= alpha -> alpha <= 1 -> forall t t' x x', below t t' -> x <= x' -> ema alpha t x <= ema alpha t' x'.
Proof.
  intros H0 H1. induction t as [|s t IH]; intros [|s' t'] x x' (HL & H) Hx; simpl in *; try lia; [auto|].
  apply IH.
  - split; [lia|]. intros i Hi. apply (H (S i)). lia.
  - assert (s <= s') by (apply (H 0%nat); lia). nra.
Qed.
Lemma ema_bounds alpha lo hi : 0 <= alpha -> alpha <= 1 -> forall t x, (forall s, In s t -> lo <= s /\ s <= hi) ->
  lo <= x -> x <= hi -> lo <= ema alpha t x /\ ema alpha t x <= hi.
Proof.
  intros H0 H1. induction t as [|s t IH]; intros x H Hl Hh; simpl; [auto|].
  destruct (H s (or_introl eq_refl)). apply IH; [intros; apply H; right; auto| |]; nra.
Qed.
Lemma ema_0 alpha t : alpha == 0 -> forall x, ema alpha t x == x.
Proof.
  intros Ha. induction t as [|s t IH]; intros x; simpl; [reflexivity|]. unfold ema in *. simpl. rewrite IH.
  rewrite Ha. ring.
Qed.
Lemma ema_1 alpha : alpha == 1 -> forall t x, ema alpha t x == last t x.
Proof.
  intros Ha. induction t as [|s t IH]; intros x; simpl; [reflexivity|]. unfold ema in *. simpl. rewrite IH.
  destruct t as [|s' t].
  - simpl. rewrite Ha. ring.
  - assert (forall y, last (s' :: t) y = last (s' :: t) 0) as Hl.
    { clear. revert s'. induction t as [|a t IH]; intros s' y; [reflexivity|]. change (last (s' :: a :: t) y) with (last (a :: t) y).
      rewrite IH. reflexivity. }
    rewrite Hl, (Hl x). reflexivity.
Qed.

(** the weight actually used *)
Definition weight (alpha : option Q) (n : nat) : Q := match alpha with Some a => a | None => 2 / (Qnat n + 1) end.
Lemma default_weight n : (1 <= n)%nat -> 0 <= 2 / (Qnat n + 1) /\ 2 / (Qnat n + 1) <= 1.
Proof.
  intros Hn. assert (1 <= Qnat n).
  { unfold Qnat. change 1 with (inject_Z 1). rewrite <- Zle_Qle. lia. }
  split.
  - apply Qle_shift_div_l; lra.
  - apply Qle_shift_div_r; lra.
Qed.
Lemma ema_eq srt alpha row : row <> [] -> argsort_ok srt -> 0 <= weight alpha (length row) -> weight alpha (length row) <= 1 ->
  exists x t, sort_descending srt row = x :: t /\
    exponential_moving_average srt alpha row = Ok (ema (weight alpha (length row)) t x).
Proof.
  intros Hn Hs H0 H1. unfold exponential_moving_average. fold (weight alpha (length row)).
  apply Qleb_iff in H0. apply Qleb_iff in H1. rewrite H0, H1. cbn [andb negb].
  pose proof (sort_descending_perm srt row Hs) as HP.
  destruct (sort_descending srt row) as [|x t] eqn:E.
  - apply Permutation_nil in HP. congruence.
  - exists x, t. split; auto.
Qed.
Lemma ema_raise srt alpha row : ~ (0 <= weight alpha (length row) /\ weight alpha (length row) <= 1) ->
  exponential_moving_average srt alpha row = Raise ValueError.
Proof.
  intros H. unfold exponential_moving_average. fold (weight alpha (length row)).
  destruct (Qleb 0 (weight alpha (length row))) eqn:E0; [|reflexivity].
  destruct (Qleb (weight alpha (length row)) 1) eqn:E1; [|reflexivity].
  apply Qleb_iff in E0. apply Qleb_iff in E1. tauto.
Qed.
Lemma ema_ok_inv srt alpha row v : exponential_moving_average srt alpha row = Ok v ->
  0 <= weight alpha (length row) /\ weight alpha (length row) <= 1.
Proof.
  intros H. destruct (Qlt_le_dec (weight alpha (length row)) 0).
  - rewrite ema_raise in H; [discriminate|]. lra.
  - destruct (Qlt_le_dec 1 (weight alpha (length row))); [|lra]. rewrite ema_raise in H; [discriminate|]. lra.
Qed.

Lemma C34_rejects_full : forall srt row a, ~ (0 <= a /\ a <= 1) ->
  exponential_moving_average srt (Some a) row = Raise ValueError.
Proof. intros. apply ema_raise. auto. Qed.
Lemma C34_accepts_full : forall srt alpha row, argsort_ok srt -> row <> [] ->
  (forall a, alpha = Some a -> 0 <= a /\ a <= 1) ->
  exists v, exponential_moving_average srt alpha row = Ok v /\
    (forall lo hi, (forall s, In s row -> lo <= s /\ s <= hi) -> lo <= v /\ v <= hi) /\
    (forall a, alpha = Some a -> a == 0 -> In v row \/ exists w, In w row /\ v == w) /\
    (forall a, alpha = Some a -> a == 0 -> forall s, In s row -> s <= v) /\
    (forall a, alpha = Some a -> a == 1 -> forall s, In s row -> v <= s).
Proof.
  intros srt alpha row Hs Hn Ha.
  assert (HW : 0 <= weight alpha (length row) /\ weight alpha (length row) <= 1).
  { destruct alpha as [a|]; [apply Ha; auto|]. apply default_weight. destruct row; [congruence|simpl; lia]. }
  destruct HW as (H0 & H1). destruct (ema_eq srt alpha row Hn Hs H0 H1) as (x & t & E & Ev).
  pose proof (sort_descending_perm srt row Hs) as HP. rewrite E in HP.
  pose proof (sort_descending_desc srt row Hs) as HS. rewrite E in HS.
  assert (HI : forall s, In s row <-> In s (x :: t)).
  { intros s. split; apply Permutation_in; auto. apply Permutation_sym; auto. }
  exists (ema (weight alpha (length row)) t x). split; [auto|].
  split; [|split; [|split]].
  - intros lo hi HB. assert (lo <= x /\ x <= hi) by (apply HB, HI; left; auto).
    apply ema_bounds; auto; try tauto. intros s Hi. apply HB, HI. right; auto.
  - intros a -> Hz. right. exists x. split; [apply HI; left; auto|]. apply ema_0. auto.
  - intros a -> Hz s Hi. apply HI in Hi. rewrite ema_0 by auto.
    destruct Hi as [<-|Hi]; [lra|]. inversion HS as [|? ? ? HF]; subst. rewrite Forall_forall in HF. auto.
  - intros a -> Hz s Hi. apply HI in Hi. rewrite ema_1 by auto. clear - HS Hi.
    revert s x HS Hi. induction t as [|y t IH]; intros s x HS Hi; simpl.
    + destruct Hi as [<-|[]]. lra.
    + inversion HS as [|? ? HS' HF]; subst. rewrite Forall_forall in HF.
      assert (Hl : last (y :: t) x = last (y :: t) y).
      { clear. revert y. induction t as [|z t IH]; intros y; [reflexivity|].
        change (last (y :: z :: t) x) with (last (z :: t) x). change (last (y :: z :: t) y) with (last (z :: t) y).
        rewrite IH. clear. revert z. induction t as [|w t IH]; intros z; [reflexivity|].
        change (last (z :: w :: t) z) with (last (w :: t) z). change (last (z :: w :: t) y) with (last (w :: t) y).
        clear. revert w. induction t as [|v t IH]; intros w; [reflexivity|].
        change (last (w :: v :: t) z) with (last (v :: t) z). change (last (w :: v :: t) y) with (last (v :: t) y). apply IH. }
      change (match t with [] => y | _ :: _ => last t x end) with (last (y :: t) x). rewrite Hl.
      assert (Hly : last (y :: t) y = last t y) by (destruct t; reflexivity). rewrite Hly.
      destruct Hi as [<-|Hi].
      * apply Qle_trans with y; [apply (IH y y HS'); left; auto|]. apply HF. left; auto.
      * apply (IH s y HS'). auto.
Qed.
Lemma C34_monotone_full : forall srt srt' alpha row row' v v', argsort_ok srt -> argsort_ok srt' ->
  below row row' ->
  exponential_moving_average srt alpha row = Ok v -> exponential_moving_average srt' alpha row' = Ok v' -> v <= v'.
Proof.
  intros srt srt' alpha row row' v v' Hs Hs' HB Hv Hv'.
  destruct row as [|r0 row0] eqn:Er.
  { exfalso. unfold exponential_moving_average in Hv. destruct (negb _); [discriminate|].
    pose proof (sort_descending_perm srt [] Hs) as HP. apply Permutation_sym, Permutation_nil in HP. rewrite HP in Hv. discriminate. }
  rewrite <- Er in *. assert (Hn : row <> []) by (rewrite Er; discriminate).
  assert (Hn' : row' <> []) by (intros ->; destruct HB as (HL & _); rewrite Er in HL; discriminate).
  clear Er. assert (HL : length row = length row') by apply HB.
  pose proof (ema_ok_inv _ _ _ _ Hv) as (W0 & W1). pose proof (ema_ok_inv _ _ _ _ Hv') as (W0' & W1').
  destruct (ema_eq srt alpha row Hn Hs W0 W1) as (x & t & E & Ev).
  destruct (ema_eq srt' alpha row' Hn' Hs' W0' W1') as (x' & t' & E' & Ev').
  rewrite Ev in Hv. rewrite Ev' in Hv'. injection Hv as <-. injection Hv' as <-. rewrite <- HL.
  pose proof (sort_descending_perm srt row Hs) as HP. rewrite E in HP.
  pose proof (sort_descending_desc srt row Hs) as HS. rewrite E in HS.
  pose proof (sort_descending_perm srt' row' Hs') as HP'. rewrite E' in HP'.
  pose proof (sort_descending_desc srt' row' Hs') as HS'. rewrite E' in HS'.
  assert (B : below (x :: t) (x' :: t')).
  { apply desc_below; auto.
    - rewrite (Permutation_length HP), (Permutation_length HP'). auto.
    - intros y. rewrite (cnt_ge_perm y _ _ HP), (cnt_ge_perm y _ _ HP'). apply cnt_ge_below. auto. }
  destruct B as (BL & B). apply ema_mono; auto.
  - split; [simpl in BL; lia|]. intros i Hi. apply (B (S i)). simpl. lia.
  - apply (B 0%nat). simpl. lia.
Qed.
Lemma C34_order_full : forall srt srt' alpha row row' v v', argsort_ok srt -> argsort_ok srt' ->
  Permutation row row' ->
  exponential_moving_average srt alpha row = Ok v -> exponential_moving_average srt' alpha row' = Ok v' -> v == v'.
Proof.
  assert (Half : forall srt srt' alpha row row' v v', argsort_ok srt -> argsort_ok srt' ->
    Permutation row row' ->
    exponential_moving_average srt alpha row = Ok v -> exponential_moving_average srt' alpha row' = Ok v' -> v <= v').
  { intros srt srt' alpha row row' v v' Hs Hs' HPP Hv Hv'.
    destruct row as [|r0 row0] eqn:Er.
    { exfalso. unfold exponential_moving_average in Hv. destruct (negb _); [discriminate|].
      pose proof (sort_descending_perm srt [] Hs) as HP. apply Permutation_sym, Permutation_nil in HP. rewrite HP in Hv. discriminate. }
    rewrite <- Er in *. assert (Hn : row <> []) by (rewrite Er; discriminate).
    assert (HL : length row = length row') by (apply Permutation_length; auto).
    assert (Hn' : row' <> []) by (intros ->; rewrite Er in HL; discriminate). clear Er.
    pose proof (ema_ok_inv _ _ _ _ Hv) as (W0 & W1). pose proof (ema_ok_inv _ _ _ _ Hv') as (W0' & W1').
    destruct (ema_eq srt alpha row Hn Hs W0 W1) as (x & t & E & Ev).
    destruct (ema_eq srt' alpha row' Hn' Hs' W0' W1') as (x' & t' & E' & Ev').
    rewrite Ev in Hv. rewrite Ev' in Hv'. injection Hv as <-. injection Hv' as <-. rewrite <- HL.
    pose proof (sort_descending_perm srt row Hs) as HP. rewrite E in HP.
    pose proof (sort_descending_desc srt row Hs) as HS. rewrite E in HS.
    pose proof (sort_descending_perm srt' row' Hs') as HP'. rewrite E' in HP'.
    pose proof (sort_descending_desc srt' row' Hs') as HS'. rewrite E' in HS'.
    assert (B : below (x :: t) (x' :: t')).
    { apply desc_below; auto.
      - rewrite (Permutation_length HP), (Permutation_length HP'). auto.
      - intros y. rewrite (cnt_ge_perm y _ _ HP), (cnt_ge_perm y _ _ HP'), (cnt_ge_perm y _ _ HPP). auto. }
    destruct B as (BL & B). apply ema_mono; auto.
    - split; [simpl in BL; lia|]. intros i Hi. apply (B (S i)). simpl. lia.
    - apply (B 0%nat). simpl. lia. }
  intros srt srt' alpha row row' v v' H H0 HP H1 H2.
  apply Qle_antisym; [apply (Half srt srt' alpha row row'); auto|].
  apply (Half srt' srt alpha row' row); auto. apply Permutation_sym; auto.
Qed.

(** ** the one-vs-rest problems *)
Lemma binary_labels_eq labels K c : (c < K)%nat ->
  binary_labels labels K c = map (fun row => if mem c row then 1%nat else 0%nat) labels.
Proof.
  intros Hc. unfold binary_labels, ncol, int2onehot. rewrite map_map. apply map_ext. intros row. rewrite nth_tab; auto.
Qed.
Lemma binary_length labels K c : length (binary_labels labels K c) = length labels.
Proof. unfold binary_labels, ncol, int2onehot. rewrite !map_length. reflexivity. Qed.
Lemma binary_probs_eq pp c : binary_probs pp c = map (fun r => [1 - nth c r 0; nth c r 0]) pp.
Proof. unfold binary_probs, stack_complement, col. rewrite map_map. reflexivity. Qed.
Lemma binary_label_nth labels K c e : (c < K)%nat -> (e < length labels)%nat ->
  nth e (binary_labels labels K c) 0%nat = if mem c (nth e labels []) then 1%nat else 0%nat.
Proof. intros Hc He. rewrite binary_labels_eq by auto. rewrite nth_map_gen with (d' := []); auto. Qed.
Lemma binary_prob_nth pp c e : (e < length pp)%nat ->
  nth e (binary_probs pp c) [] = [1 - prob_of pp e c; prob_of pp e c].
Proof. intros He. rewrite binary_probs_eq. rewrite nth_map_gen with (d' := []); auto. Qed.
Lemma mem_has labels e c : mem c (nth e labels []) = true <-> has_class labels e c.
Proof. apply mem_iff. Qed.

Lemma binary_ovr labels pp K c : (c < K)%nat -> one_vs_rest labels pp c (binary_labels labels K c) (binary_probs pp c).
Proof.
  intros Hc. split; [apply binary_length|]. split; [rewrite binary_probs_eq; apply map_length|]. split.
  - intros e He. rewrite binary_label_nth by auto. pose proof (mem_has labels e c) as H.
    destruct (mem c (nth e labels [])); [left|right]; split; auto; [apply H; auto|].
    intros HC. apply H in HC. discriminate.
  - intros e He. apply binary_prob_nth. auto.
Qed.
Lemma ovr_unique labels pp c bl bp bl' bp' : one_vs_rest labels pp c bl bp -> one_vs_rest labels pp c bl' bp' ->
  bl = bl' /\ bp = bp'.
Proof.
  intros (L1 & L2 & H1 & H2) (L1' & L2' & H1' & H2'). split.
  - apply list_eq_nth with (d := 0%nat); [congruence|]. intros e He. rewrite L1 in He.
    destruct (H1 e He) as [(-> & A)|(-> & A)], (H1' e He) as [(-> & A')|(-> & A')]; auto; tauto.
  - apply list_eq_nth with (d := []); [congruence|]. intros e He. rewrite L2 in He. rewrite H2, H2'; auto.
Qed.
Lemma prob_range K labels pp e c : ml_dataset K labels pp -> (c < K)%nat -> (e < length pp)%nat ->
  0 <= prob_of pp e c /\ prob_of pp e c <= 1.
Proof.
  intros [HL Hn Hlab Hrow Hp] Hc He. apply (Hp (nth e pp [])); [apply nth_In; auto|].
  unfold prob_of. apply nth_In. rewrite (Hrow (nth e pp [])); auto. apply nth_In; auto.
Qed.
Lemma binary_dataset K labels pp c : ml_dataset K labels pp -> (c < K)%nat ->
  dataset 2 (binary_labels labels K c) (binary_probs pp c).
Proof.
  intros HD Hc. pose proof HD as [HL Hn Hlab Hrow Hp]. split.
  - rewrite binary_length, binary_probs_eq, map_length. auto.
  - intros E. apply Hn. apply length_zero_iff_nil. rewrite <- (binary_length labels K c), E. reflexivity.
  - rewrite binary_labels_eq by auto. intros l Hl. apply in_map_iff in Hl as (r & <- & _). destruct (mem c r); lia.
  - rewrite binary_probs_eq. intros r Hr. apply in_map_iff in Hr as (r' & <- & _). reflexivity.
  - rewrite binary_probs_eq. intros r x Hr Hx. apply in_map_iff in Hr as (r' & <- & Hr').
    assert (0 <= nth c r' 0 /\ nth c r' 0 <= 1).
    { apply (Hp r'); auto. apply nth_In. rewrite Hrow; auto. }
    destruct Hx as [<-|[<-|[]]]; lra.
Qed.
Lemma binary_two K labels c : (c < K)%nat -> mixed labels c -> two_classes (binary_labels labels K c).
Proof.
  intros Hc ((e & He & H) & (e' & He' & H')). exists 1%nat, 0%nat. split; [|split; [|lia]].
  - replace 1%nat with (nth e (binary_labels labels K c) 0%nat); [apply nth_In; rewrite binary_length; auto|].
    rewrite binary_label_nth by auto. apply mem_has in H. rewrite H. reflexivity.
  - replace 0%nat with (nth e' (binary_labels labels K c) 0%nat) at 1; [apply nth_In; rewrite binary_length; auto|].
    rewrite binary_label_nth by auto. destruct (mem c (nth e' labels [])) eqn:E; auto. apply mem_has in E. tauto.
Qed.

(** what a binary flag means *)
Lemma binary_clearly K labels pp e c : ml_dataset K labels pp -> (c < K)%nat -> (e < length labels)%nat ->
  clearly_beaten (binary_labels labels K c) (binary_probs pp c) e <-> clearly_disagrees labels pp e c.
Proof.
  intros HD Hc He. pose proof HD as [HL _ _ _ _]. unfold clearly_beaten, clearly_disagrees.
  unfold row_of, label_of. unfold prob_of at 1 2 3 4. rewrite binary_prob_nth by lia.
  rewrite binary_label_nth by auto. pose proof (mem_has labels e c) as HM.
  destruct (mem c (nth e labels [])) eqn:E.
  - assert (HH : has_class labels e c) by (apply HM; auto). split.
    + intros (j & Hj & Hb). left. split; [auto|]. destruct j as [|[|j]]; simpl in Hb, Hj; [|destruct Hb as [Hb|(Hb & _)]; [lra|lia]|lia].
      destruct Hb as [Hb|(_ & Hb)]; lra.
    + intros [(_ & H)|(H & _)]; [|tauto]. exists 0%nat. simpl. split; [lia|].
      destruct (Qlt_le_dec (prob_of pp e c + (1 # 1000000)) (1 - prob_of pp e c)); [left; auto|right]. split; [lia|]. lra.
  - assert (HH : ~ has_class labels e c) by (intros HC; apply HM in HC; discriminate). split.
    + intros (j & Hj & Hb). right. split; [auto|]. destruct j as [|[|j]]; simpl in Hb, Hj; [destruct Hb as [Hb|(Hb & _)]; [lra|lia]| |lia].
      destruct Hb as [Hb|(Hb & _)]; [lra|lia].
    + intros [(H & _)|(_ & H)]; [tauto|]. exists 1%nat. simpl. split; [lia|]. left. lra.
Qed.

(** ** the mask *)
Lemma any_class_length n cols : length (any_class n cols) = n.
Proof. apply tab_length. Qed.
Lemma any_class_flag n cols e : flagged (any_class n cols) e <-> (e < n)%nat /\ exists m, In m cols /\ flagged m e.
Proof.
  unfold flagged. split.
  - intros H. assert (He : (e < n)%nat).
    { destruct (Nat.lt_ge_cases e n); auto. rewrite nth_overflow in H; [discriminate|]. rewrite any_class_length; auto. }
    split; [auto|]. unfold any_class in H. rewrite nth_tab in H by auto. apply existsb_exists in H. auto.
  - intros (He & m & Hm & Hf). unfold any_class. rewrite nth_tab by auto. apply existsb_exists. eauto.
Qed.
Lemma Forall2_seq {B} (R : nat -> B -> Prop) K cols (d : B) : Forall2 R (seq 0 K) cols ->
  length cols = K /\ forall c, (c < K)%nat -> R c (nth c cols d).
Proof.
  intros H.
  assert (G : forall s n l, Forall2 R (seq s n) l -> length l = n /\ forall c, (c < n)%nat -> R (s + c)%nat (nth c l d)).
  { clear. intros s n. revert s. induction n as [|n IH]; intros s l H; inversion H; subst; simpl.
    - split; [auto|]. intros; lia.
    - apply IH in H4 as (L & G). split; [lia|]. intros [|c] Hc; [rewrite Nat.add_0_r; auto|].
      replace (s + S c)%nat with (S s + c)%nat by lia. apply G. lia. }
  apply G in H. auto.
Qed.

Lemma in_nth_range {A} (x d : A) l : In x l -> exists i, (i < length l)%nat /\ nth i l d = x.
Proof. intros H. apply (In_nth l x d) in H. auto. Qed.

Lemma ml_find_inv srt labels pp K flt o m : is_low flt = false ->
  ml_find_label_issues srt labels pp K flt o None = Ok m ->
  exists cols, length cols = K /\ m = any_class (length labels) cols /\
    forall c, (c < K)%nat ->
      find_label_issues srt (binary_labels labels K c) (binary_probs pp c) 2 flt (class_options o c) = Ok (nth c cols []).
Proof.
  intros Hl H. unfold ml_find_label_issues in H. rewrite Hl in H. cbn [andb] in H. unfold issues_per_class in H.
  destruct (rmap _ (seq 0 K)) as [cols|] eqn:E; [|discriminate]. cbn [rbind] in H. injection H as <-.
  apply rmap_ok in E. apply (Forall2_seq _ K cols []) in E as (L & G). exists cols. split; [auto|]. split; [auto|]. auto.
Qed.

Lemma C63_mask_full : forall srt labels pp K flt o m, ml_dataset K labels pp ->
  flt <> LowNormalizedMargin -> flt <> LowSelfConfidence ->
  ml_find_label_issues srt labels pp K flt o None = Ok m ->
  length m = length labels /\
  (forall e, flagged m e <-> exists c bl bp mc, (c < K)%nat /\ one_vs_rest labels pp c bl bp /\
      find_label_issues srt bl bp 2 flt (class_options o c) = Ok mc /\ flagged mc e) /\
  (forall e, flagged m e -> (e < length labels)%nat /\ exists c, (c < K)%nat /\ clearly_disagrees labels pp e c).
Proof.
  intros srt labels pp K flt o m HD H1 H2 H.
  assert (Hl : is_low flt = false) by (destruct flt; auto; congruence).
  apply ml_find_inv in H as (cols & L & -> & G); auto.
  assert (HF : forall e, flagged (any_class (length labels) cols) e -> exists c, (c < K)%nat /\ flagged (nth c cols []) e).
  { intros e Hf. apply any_class_flag in Hf as (He & mc & Hm & Hf). apply (in_nth_range mc []) in Hm as (c & Hc & <-).
    exists c. split; [lia|auto]. }
  split; [apply any_class_length|]. split.
  - intros e. split.
    + intros Hf. apply HF in Hf as (c & Hc & Hf). exists c, (binary_labels labels K c), (binary_probs pp c), (nth c cols []).
      split; [auto|]. split; [apply binary_ovr; auto|]. auto.
    + intros (c & bl & bp & mc & Hc & Ho & Hfl & Hf).
      destruct (ovr_unique _ _ _ _ _ _ _ Ho (binary_ovr labels pp K c Hc)) as (-> & ->).
      rewrite (G c Hc) in Hfl. injection Hfl as <-. apply any_class_flag. split.
      * apply flagged_lt in Hf. rewrite (find_length _ _ _ _ _ _ _ (ds_len _ _ _ (binary_dataset K labels pp c HD Hc)) (G c Hc)) in Hf.
        rewrite binary_length in Hf. auto.
      * exists (nth c cols []). split; [apply nth_In; lia|auto].
  - intros e Hf. pose proof Hf as Hf'. apply any_class_flag in Hf' as (He & _). split; [auto|].
    apply HF in Hf as (c & Hc & Hf). exists c. split; [auto|]. apply (binary_clearly K); auto.
    eapply find_flagged_beaten; eauto. apply binary_dataset; auto.
Qed.

Lemma per_class_ok srt labels pp K flt o (P : nat -> list bool -> Prop) :
  (forall c, (c < K)%nat -> exists mc,
     find_label_issues srt (binary_labels labels K c) (binary_probs pp c) 2 flt (class_options o c) = Ok mc /\ P c mc) ->
  exists cols, issues_per_class srt labels pp K flt o None = Ok cols /\ length cols = K /\
    forall c, (c < K)%nat ->
      find_label_issues srt (binary_labels labels K c) (binary_probs pp c) 2 flt (class_options o c) = Ok (nth c cols []) /\
      P c (nth c cols []).
Proof.
  intros H. unfold issues_per_class.
  assert (G : forall s n, (s + n <= K)%nat -> exists cols,
    rmap (fun c => find_label_issues srt (binary_labels labels K c) (binary_probs pp c) 2 flt (class_options o c)) (seq s n) = Ok cols /\
    Forall2 (fun c mc => find_label_issues srt (binary_labels labels K c) (binary_probs pp c) 2 flt (class_options o c) = Ok mc /\ P c mc)
      (seq s n) cols).
  { intros s n. revert s. induction n as [|n IH]; intros s Hs; simpl; [exists []; split; [auto|constructor]|].
    destruct (H s ltac:(lia)) as (mc & E & HP). destruct (IH (S s) ltac:(lia)) as (cols & E' & F).
    rewrite E. cbn [rbind]. rewrite E'. exists (mc :: cols). split; [auto|]. constructor; auto. }
  destruct (G 0%nat K ltac:(lia)) as (cols & E & F). apply (Forall2_seq _ K cols []) in F as (L & F).
  exists cols. auto.
Qed.

Lemma class_options_none o c : ml_num_to_remove o = None -> num_to_remove_per_class (class_options o c) = None.
Proof. intros H. unfold class_options. simpl. rewrite H. reflexivity. Qed.

Lemma C63_pneq_full : forall srt labels pp K o, argsort_ok srt -> ml_dataset K labels pp ->
  (forall c, (c < K)%nat -> mixed labels c) -> ml_num_to_remove o = None -> (1 <= ml_n_jobs o)%nat ->
  exists m, ml_find_label_issues srt labels pp K PredictedNeqGiven o None = Ok m /\ length m = length labels /\
    forall e, flagged m e <-> (e < length labels)%nat /\ exists c, (c < K)%nat /\ clearly_disagrees labels pp e c.
Proof.
  intros srt labels pp K o Hs HD HM Hn Hj.
  destruct (per_class_ok srt labels pp K PredictedNeqGiven o
    (fun c mc => forall e, flagged mc e <-> (e < length labels)%nat /\ clearly_disagrees labels pp e c)) as (cols & E & L & G).
  { intros c Hc. destruct (C07_pneq_full srt 2 _ _ (class_options o c) Hs (binary_dataset K labels pp c HD Hc)
      (binary_two K labels c Hc (HM c Hc)) (class_options_none o c Hn) Hj) as (mc & E & _ & F).
    exists mc. split; [auto|]. intros e. rewrite F, binary_length. split; intros (He & H); split; auto; apply (binary_clearly K); auto. }
  exists (any_class (length labels) cols). split; [unfold ml_find_label_issues; cbn [is_low andb]; rewrite E; reflexivity|].
  split; [apply any_class_length|]. intros e. rewrite any_class_flag. split.
  - intros (He & mc & Hm & Hf). apply (in_nth_range mc []) in Hm as (c & Hc & <-). split; [auto|].
    exists c. split; [lia|]. apply G in Hf; [tauto|lia].
  - intros (He & c & Hc & Hd). split; [auto|]. exists (nth c cols []). split; [apply nth_In; lia|]. apply G; auto.
Qed.

Lemma C63_cl_full : forall srt labels pp K o, argsort_ok srt -> ml_dataset K labels pp ->
  (forall c, (c < K)%nat -> mixed labels c) -> ml_num_to_remove o = None -> (1 <= ml_n_jobs o)%nat ->
  exists m, ml_find_label_issues srt labels pp K ConfidentLearning o None = Ok m /\ length m = length labels /\
    forall e, flagged m e <-> (e < length labels)%nat /\ exists c bl bp j, (c < K)%nat /\ clearly_disagrees labels pp e c /\
      one_vs_rest labels pp c bl bp /\
      counted_as (get_confident_thresholds bl bp 2) (row_of bp e) j /\ j <> label_of bl e.
Proof.
  intros srt labels pp K o Hs HD HM Hn Hj.
  destruct (per_class_ok srt labels pp K ConfidentLearning o
    (fun c mc => forall e, flagged mc e <-> (e < length labels)%nat /\ clearly_disagrees labels pp e c /\
       exists j, counted_as (get_confident_thresholds (binary_labels labels K c) (binary_probs pp c) 2)
                   (row_of (binary_probs pp c) e) j /\ j <> label_of (binary_labels labels K c) e)) as (cols & E & L & G).
  { intros c Hc. destruct (C06_full srt 2 _ _ (class_options o c) Hs (binary_dataset K labels pp c HD Hc)
      (binary_two K labels c Hc (HM c Hc)) (class_options_none o c Hn) Hj) as (mc & E & _ & _ & F).
    exists mc. split; [auto|]. intros e. rewrite F, binary_length.
    split; [intros (He & H & H')|intros (He & H' & H)]; split; auto; split; auto; apply (binary_clearly K); auto. }
  exists (any_class (length labels) cols). split; [unfold ml_find_label_issues; cbn [is_low andb]; rewrite E; reflexivity|].
  split; [apply any_class_length|]. intros e. rewrite any_class_flag. split.
  - intros (He & mc & Hm & Hf). apply (in_nth_range mc []) in Hm as (c & Hc & <-). split; [auto|].
    apply G in Hf; [|lia]. destruct Hf as (_ & Hd & j & Hcj & Hne).
    exists c, (binary_labels labels K c), (binary_probs pp c), j.
    split; [lia|]. split; [auto|]. split; [apply binary_ovr; lia|]. auto.
  - intros (He & c & bl & bp & j & Hc & Hd & Ho & Hcj & Hne). split; [auto|].
    destruct (ovr_unique _ _ _ _ _ _ _ Ho (binary_ovr labels pp K c Hc)) as (-> & ->).
    exists (nth c cols []). split; [apply nth_In; lia|]. apply G; eauto.
Qed.

(** ** a class on every example *)
Lemma rmap_raise {A B} (f : A -> res B) l a e : In a l -> f a = Raise e -> forall r, rmap f l <> Ok r.
Proof.
  intros Hi Hf r Hr. apply rmap_ok in Hr. induction Hr; [destruct Hi|]. destruct Hi as [->|Hi]; [congruence|auto].
Qed.
Lemma all_ones_invalid labels pp : labels <> [] -> (forall l, In l labels -> l = 1%nat) ->
  assert_valid_inputs labels pp 2 (set_is_zero labels) = Raise ValueError.
Proof.
  intros Hn H.
  assert (HU : unique labels = [1%nat]).
  { assert (N : NoDup (unique labels)) by apply unique_NoDup.
    assert (A : forall v, In v (unique labels) -> v = 1%nat) by (intros v Hv; apply H, in_unique; auto).
    assert (I : In 1%nat (unique labels)).
    { apply in_unique. destruct labels as [|l t]; [congruence|]. rewrite <- (H l); left; auto. }
    destruct (unique labels) as [|a [|b t]]; [destruct I| |].
    - rewrite (A a); auto. left; auto.
    - exfalso. inversion N; subst. apply H2. left. rewrite (A a), (A b); [auto|right; left; auto|left; auto]. }
  unfold set_is_zero. rewrite HU. unfold assert_valid_inputs.
  destruct labels as [|l t] eqn:E; [congruence|]. rewrite <- E in *.
  rewrite HU. reflexivity.
Qed.
Lemma per_class_universal srt labels pp K flt o c : labels <> [] -> (c < K)%nat ->
  (forall e, (e < length labels)%nat -> has_class labels e c) ->
  forall r, issues_per_class srt labels pp K flt o None <> Ok r.
Proof.
  intros Hn Hc HA r. unfold issues_per_class. apply rmap_raise with (a := c) (e := ValueError).
  - apply in_seq. lia.
  - unfold find_label_issues. rewrite all_ones_invalid; [reflexivity| |].
    + intros E. apply Hn. apply length_zero_iff_nil. rewrite <- (binary_length labels K c), E. reflexivity.
    + intros l Hl. apply (In_nth _ _ 0%nat) in Hl as (e & He & <-). rewrite binary_length in He.
      rewrite binary_label_nth by auto. pose proof (HA e He) as HH. apply mem_has in HH. rewrite HH. reflexivity.
Qed.
Lemma C63_universal_full : forall srt labels pp K flt o c, labels <> [] -> (c < K)%nat ->
  (forall e, (e < length labels)%nat -> has_class labels e c) ->
  forall m, ml_find_label_issues srt labels pp K flt o None <> Ok m.
Proof.
  intros srt labels pp K flt o c Hn Hc HA m H. unfold ml_find_label_issues in H.
  destruct (is_low flt); cbn [andb] in H.
  - unfold ml_low_indices in H. destruct (assert_valid_multilabel labels pp K); [|discriminate]. cbn [rbind] in H.
    destruct (issues_per_class _ _ _ _ _ _ _) eqn:E; [|discriminate]. eapply per_class_universal; eauto.
  - destruct (issues_per_class _ _ _ _ _ _ _) eqn:E; [|discriminate]. eapply per_class_universal; eauto.
Qed.

(** ** scores *)
Lemma rmap_tot {A B} (f : A -> res B) l : (forall a, In a l -> exists b, f a = Ok b) -> exists r, rmap f l = Ok r.
Proof.
  induction l as [|a l IH]; intros H; simpl; [eauto|].
  destruct (H a (or_introl eq_refl)) as (b & ->). cbn [rbind]. destruct (IH (fun a' Ha => H a' (or_intror Ha))) as (r & ->). exists (b :: r). reflexivity.
Qed.
Lemma compute_two_ok labels pp method adjust : length labels = length pp ->
  exists s, compute_label_quality_scores labels pp 2 method adjust = Ok s /\ length s = length labels.
Proof.
  intros HL. unfold compute_label_quality_scores. set (q := if adjust then _ else _).
  assert (length labels = length q).
  { unfold q. destruct adjust; auto. unfold subtract_confident_thresholds. rewrite map_length. auto. }
  destruct method; cbn [Nat.leb]; eexists; (split; [reflexivity|]).
  - apply get_self_confidence_length. auto.
  - apply get_normalized_margin_length. auto.
Qed.
Lemma class_scores_ok labels pp K method adjust : length labels = length pp ->
  exists s, class_scores (int2onehot labels K) pp K method adjust = Ok s /\ length s = length labels /\
    (forall r, In r s -> length r = K) /\
    forall c, (c < K)%nat -> exists sc, compute_label_quality_scores (binary_labels labels K c) (binary_probs pp c) 2 method adjust = Ok sc /\
      forall e, (e < length labels)%nat -> nth c (nth e s []) 0 = nth e sc 0.
Proof.
  intros HL. unfold class_scores.
  destruct (rmap_tot (fun c => compute_label_quality_scores (ncol c (int2onehot labels K)) (stack_complement (col c pp)) 2 method adjust) (seq 0 K)) as (cols & E).
  { intros c Hc. destruct (compute_two_ok (binary_labels labels K c) (binary_probs pp c) method adjust) as (s & Hs & _).
    - rewrite binary_length, binary_probs_eq, map_length. auto.
    - exists s. exact Hs. }
  rewrite E. cbn [rbind]. eexists. split; [reflexivity|]. apply rmap_ok in E. apply (Forall2_seq _ K cols []) in E as (L & G).
  assert (LO : length (int2onehot labels K) = length labels) by (unfold int2onehot; apply map_length).
  split; [rewrite tab_length; auto|]. split.
  - intros r Hr. unfold tab in Hr. apply in_map_iff in Hr as (e & <- & _). rewrite map_length. auto.
  - intros c Hc. exists (nth c cols []). split; [apply (G c Hc)|]. intros e He. rewrite nth_tab by lia.
    rewrite nth_map_gen with (d' := []) by lia. reflexivity.
Qed.
Lemma onehot_has labels K v : In v (concat (int2onehot labels K)) <->
  exists e c, (e < length labels)%nat /\ (c < K)%nat /\ v = if mem c (nth e labels []) then 1%nat else 0%nat.
Proof.
  rewrite in_concat. split.
  - intros (r & Hr & Hv). unfold int2onehot in Hr. apply in_map_iff in Hr as (row & <- & Hrow).
    unfold tab in Hv. apply in_map_iff in Hv as (c & <- & Hc). apply in_seq in Hc.
    apply (in_nth_range row []) in Hrow as (e & He & <-). exists e, c. split; [auto|]. split; [lia|auto].
  - intros (e & c & He & Hc & ->). exists (tab K (fun k => if mem k (nth e labels []) then 1%nat else 0%nat)). split.
    + unfold int2onehot. apply in_map_iff. exists (nth e labels []). split; [auto|]. apply nth_In; auto.
    + unfold tab. apply in_map_iff. exists c. split; [auto|]. apply in_seq. lia.
Qed.
Lemma check_ok labels pp K : length labels = length pp -> (2 <= K)%nat -> both_values labels K ->
  check_onehot (int2onehot labels K) pp K = Ok tt.
Proof.
  intros HL HK ((e & c & He & Hc & H) & (e' & c' & He' & Hc' & H')). unfold check_onehot.
  destruct (Nat.leb_spec K 1); [lia|]. cbn [orb].
  assert (mem 0 (concat (int2onehot labels K)) = true) as ->.
  { apply mem_iff. apply onehot_has. exists e', c'. split; [auto|]. split; [auto|].
    destruct (mem c' (nth e' labels [])) eqn:E; auto. apply mem_has in E. tauto. }
  assert (mem 1 (concat (int2onehot labels K)) = true) as ->.
  { apply mem_iff. apply onehot_has. exists e, c. split; [auto|]. split; [auto|]. apply mem_has in H. rewrite H. auto. }
  cbn [andb negb]. unfold int2onehot. rewrite map_length, HL, Nat.eqb_refl. reflexivity.
Qed.
Lemma ml_valid K labels pp : ml_dataset K labels pp -> (exists e c, (e < length labels)%nat /\ has_class labels e c) ->
  assert_valid_multilabel labels pp K = Ok tt.
Proof.
  intros [HL Hn Hlab Hrow Hp] (e & c & He & Hc). unfold assert_valid_multilabel. rewrite HL, Nat.eqb_refl. cbn [negb].
  assert (HI : In c (concat labels)) by (apply in_concat; exists (nth e labels []); split; [apply nth_In; auto|auto]).
  destruct (concat labels) as [|x t] eqn:E; [destruct HI|]. rewrite <- E in *.
  assert (nmax (concat labels) < K)%nat.
  { assert (HX : In (nmax (concat labels)) (concat labels)) by (apply nmax_in; rewrite E; discriminate).
    apply in_concat in HX as (l & Hl & HX). eapply Hlab; eauto. }
  destruct (Nat.ltb_spec K (nmax (concat labels) + 1)); [lia|].
  assert (Hall : forall x, In x (concat pp) -> 0 <= x /\ x <= 1).
  { intros y Hy. apply in_concat in Hy as (r & Hr & Hy). eauto. }
  assert (Qltb (qminimum (concat pp)) (0 - FLOATING_POINT_COMPARISON) = false) as ->.
  { apply Qltb_false. unfold FLOATING_POINT_COMPARISON. destruct (concat pp) eqn:E2.
    - simpl. lra.
    - rewrite <- E2 in *. assert (HX : In (qminimum (concat pp)) (concat pp)) by (apply qminimum_in; rewrite E2; congruence).
      apply Hall in HX. lra. }
  assert (Qltb (1 + FLOATING_POINT_COMPARISON) (qmaximum (concat pp)) = false) as ->.
  { apply Qltb_false. unfold FLOATING_POINT_COMPARISON. destruct (concat pp) eqn:E2.
    - simpl. lra.
    - rewrite <- E2 in *. assert (HX : In (qmaximum (concat pp)) (concat pp)) by (apply qmaximum_in; rewrite E2; congruence).
      apply Hall in HX. lra. }
  reflexivity.
Qed.
Lemma onehot_scores_ok srt labels pp K method adjust alpha : argsort_ok srt -> length labels = length pp -> (2 <= K)%nat ->
  both_values labels K -> (forall a, alpha = Some a -> 0 <= a /\ a <= 1) ->
  exists cs s, class_scores (int2onehot labels K) pp K method adjust = Ok cs /\ length cs = length labels /\
    onehot_scores srt (int2onehot labels K) pp K method adjust alpha = Ok s /\ length s = length labels /\
    forall e, (e < length labels)%nat -> exponential_moving_average srt alpha (nth e cs []) = Ok (nth e s 0).
Proof.
  intros Hs HL HK HB Ha. destruct (class_scores_ok labels pp K method adjust HL) as (cs & E & L & LR & _).
  assert (HE : exists s, rmap (exponential_moving_average srt alpha) cs = Ok s).
  { apply rmap_tot. intros r Hr. destruct (C34_accepts_full srt alpha r Hs) as (v & Hv & _); eauto.
    intros ->. apply LR in Hr. simpl in Hr. lia. }
  destruct HE as (s & HE). exists cs, s. split; [auto|]. split; [auto|].
  unfold onehot_scores. rewrite check_ok by auto. cbn [rbind]. rewrite E. cbn [rbind]. split; [auto|].
  apply rmap_ok in HE.
  assert (HF : forall l s', Forall2 (fun a b => exponential_moving_average srt alpha a = Ok b) l s' ->
    length s' = length l /\ forall e, (e < length l)%nat -> exponential_moving_average srt alpha (nth e l []) = Ok (nth e s' 0)).
  { clear. induction 1; simpl; [split; [auto|intros; lia]|]. destruct IHForall2 as (L & G). split; [lia|].
    intros [|e] He; [auto|]. apply G. lia. }
  apply HF in HE as (LS & G). split; [lia|]. intros e He. apply G. lia.
Qed.

Lemma C64_class_full : forall labels pp K method, ml_dataset K labels pp ->
  (exists e c, (e < length labels)%nat /\ has_class labels e c) ->
  exists s, ml_label_quality_scores_per_class labels pp K method false = Ok s /\ length s = length labels /\
    forall e, (e < length labels)%nat -> length (nth e s []) = K /\
      forall c, (c < K)%nat ->
        (has_class labels e c -> nth c (nth e s []) 0 == prob_of pp e c) /\
        (~ has_class labels e c -> nth c (nth e s []) 0 == 1 - prob_of pp e c) /\
        0 <= nth c (nth e s []) 0 /\ nth c (nth e s []) 0 <= 1.
Proof.
  intros labels pp K method HD HE. pose proof HD as [HL _ _ _ _].
  destruct (class_scores_ok labels pp K method false HL) as (s & E & L & LR & G).
  exists s. unfold ml_label_quality_scores_per_class. rewrite ml_valid by auto. cbn [rbind]. split; [auto|]. split; [auto|].
  intros e He. split; [apply LR, nth_In; lia|]. intros c Hc. destruct (G c Hc) as (sc & Hsc & Hn). rewrite (Hn e He).
  assert (LB : length (binary_labels labels K c) = length (binary_probs pp c)) by apply (binary_dataset K labels pp c HD Hc).
  assert (HeB : (e < length (binary_labels labels K c))%nat) by (rewrite binary_length; auto).
  pose proof (binary_label_nth labels K c e Hc He) as HBL.
  pose proof (binary_prob_nth pp c e ltac:(lia)) as HBP.
  pose proof (prob_range K labels pp e c HD Hc ltac:(lia)) as HR.
  assert (HV : nth e sc 0 == if mem c (nth e labels []) then prob_of pp e c else 1 - prob_of pp e c).
  { unfold compute_label_quality_scores in Hsc. destruct method; cbn [Nat.leb] in Hsc; injection Hsc as <-.
    - rewrite self_conf_nth by auto. unfold prob_of at 1, label_of. rewrite HBP, HBL. destruct (mem c _); simpl; reflexivity.
    - rewrite margin_nth by auto. unfold row_of, prob_of at 1, label_of. rewrite HBP, HBL. destruct (mem c _); simpl; field. }
  pose proof (mem_has labels e c) as HM. destruct (mem c (nth e labels [])).
  - split; [auto|]. split; [intros HC; exfalso; apply HC, HM; auto|]. lra.
  - split; [intros HC; apply HM in HC; discriminate|]. split; [auto|]. lra.
Qed.

Lemma C64_overall_full : forall srt labels pp K method adjust alpha, argsort_ok srt -> ml_dataset K labels pp ->
  (2 <= K)%nat -> both_values labels K -> (forall a, alpha = Some a -> 0 <= a /\ a <= 1) ->
  exists cs s, ml_label_quality_scores_per_class labels pp K method adjust = Ok cs /\
    ml_label_quality_scores srt labels pp K method adjust alpha = Ok s /\ length s = length labels /\
    forall e, (e < length labels)%nat ->
      exponential_moving_average srt alpha (nth e cs []) = Ok (nth e s 0) /\
      (exists c, (c < K)%nat /\ nth c (nth e cs []) 0 <= nth e s 0) /\
      (exists c, (c < K)%nat /\ nth e s 0 <= nth c (nth e cs []) 0) /\
      (adjust = false -> 0 <= nth e s 0 /\ nth e s 0 <= 1).
Proof.
  intros srt labels pp K method adjust alpha Hs HD HK HB Ha. pose proof HD as [HL _ _ _ _].
  destruct (onehot_scores_ok srt labels pp K method adjust alpha Hs HL HK HB Ha) as (cs & s & E & L & E' & L' & G).
  destruct (class_scores_ok labels pp K method adjust HL) as (cs' & E2 & _ & LR & _).
  rewrite E in E2. injection E2 as <-.
  assert (HV : assert_valid_multilabel labels pp K = Ok tt).
  { apply ml_valid; auto. destruct HB as ((e & c & He & _ & Hh) & _). eauto. }
  exists cs, s. unfold ml_label_quality_scores_per_class, ml_label_quality_scores. rewrite HV. cbn [rbind].
  split; [auto|]. split; [auto|]. split; [auto|]. intros e He. split; [auto|].
  assert (Hrow : nth e cs [] <> []) by (intros H; assert (length (nth e cs []) = K) by (apply LR, nth_In; lia); rewrite H in *; simpl in *; lia).
  assert (HlenK : length (nth e cs []) = K) by (apply LR, nth_In; lia).
  destruct (C34_accepts_full srt alpha _ Hs Hrow Ha) as (v & Hv & Hb & _). rewrite (G e He) in Hv. injection Hv as Hv. rewrite <- Hv in Hb.
  clear Hv v. split; [|split].
  - destruct (Hb (qminimum (nth e cs [])) (qmaximum (nth e cs []))) as (H1 & _).
    { intros x Hx. split; [apply qminimum_le|apply qmaximum_ge]; auto. }
    apply (qminimum_in) in Hrow. apply (in_nth_range _ 0) in Hrow as (c & Hc & Hc'). exists c. rewrite Hc'. split; [lia|auto].
  - destruct (Hb (qminimum (nth e cs [])) (qmaximum (nth e cs []))) as (_ & H1).
    { intros x Hx. split; [apply qminimum_le|apply qmaximum_ge]; auto. }
    apply (qmaximum_in) in Hrow. apply (in_nth_range _ 0) in Hrow as (c & Hc & Hc'). exists c. rewrite Hc'. split; [lia|auto].
  - intros ->. apply Hb. intros x Hx. apply (in_nth_range _ 0) in Hx as (c & Hc & <-).
    destruct (C64_class_full labels pp K method HD) as (cs2 & E2 & _ & G2).
    { destruct HB as ((e0 & c0 & He0 & _ & Hh) & _). eauto. }
    unfold ml_label_quality_scores_per_class in E2. rewrite HV in E2. cbn [rbind] in E2. rewrite E in E2. injection E2 as <-.
    destruct (G2 e He) as (_ & G3). apply G3. lia.
Qed.
Lemma C64_raise_full : forall srt labels pp K method adjust alpha, ml_dataset K labels pp ->
  (K <= 1)%nat \/ ~ both_values labels K ->
  ml_label_quality_scores srt labels pp K method adjust alpha = Raise ValueError.
Proof.
  intros srt labels pp K method adjust alpha HD H. unfold ml_label_quality_scores.
  assert (HV : assert_valid_multilabel labels pp K = Ok tt \/ assert_valid_multilabel labels pp K = Raise ValueError).
  { unfold assert_valid_multilabel. destruct (negb _); [auto|]. destruct (concat labels); [auto|].
    destruct (Nat.ltb _ _); [auto|]. destruct (_ || _)%bool; auto. }
  destruct HV as [-> | ->]; cbn [rbind]; [|auto].
  assert (check_onehot (int2onehot labels K) pp K = Raise ValueError) as HC; [|unfold onehot_scores; rewrite HC; reflexivity].
  unfold check_onehot. destruct (Nat.leb_spec K 1); [reflexivity|]. cbn [orb].
  destruct H as [H|H]; [lia|].
  destruct (mem 0 (concat (int2onehot labels K)) && mem 1 (concat (int2onehot labels K)))%bool eqn:E; [|reflexivity].
  exfalso. apply H. apply andb_true_iff in E as (E0 & E1). apply mem_iff in E0, E1.
  apply onehot_has in E0 as (e & c & He & Hc & HE). apply onehot_has in E1 as (e' & c' & He' & Hc' & HE').
  split.
  - exists e', c'. split; [auto|]. split; [auto|]. apply mem_has. destruct (mem c' _); [auto|discriminate].
  - exists e, c. split; [auto|]. split; [auto|]. intros HH. apply mem_has in HH. rewrite HH in HE. discriminate.
Qed.

(** ** the ranked output *)
Lemma mixed_both labels K : (1 <= K)%nat -> (forall c, (c < K)%nat -> mixed labels c) -> both_values labels K.
Proof. intros HK HM. destruct (HM 0%nat ltac:(lia)) as ((e & He & H) & (e' & He' & H')). split; [exists e, 0%nat|exists e', 0%nat]; split; auto; split; auto; lia. Qed.

Lemma ranked_lists srt labels pp K flt o rank_by adjust cols : argsort_ok srt -> ml_dataset K labels pp ->
  (forall c, (c < K)%nat -> mixed labels c) -> length cols = K ->
  (forall c, (c < K)%nat ->
     find_label_issues srt (binary_labels labels K c) (binary_probs pp c) 2 flt (class_options o c) = Ok (nth c cols [])) ->
  exists lists, ranked_issues_per_class srt labels pp K flt o rank_by adjust = Ok lists /\ length lists = K /\
    forall c, (c < K)%nat -> NoDup (nth c lists []) /\ forall e, In e (nth c lists []) <-> flagged (nth c cols []) e.
Proof.
  intros Hs HD HM L G. unfold ranked_issues_per_class.
  assert (HT : forall c, (c < K)%nat -> exists idx, find_label_issues_ranked srt (binary_labels labels K c) (binary_probs pp c) 2 flt (class_options o c) rank_by adjust = Ok idx /\
     NoDup idx /\ forall e, In e idx <-> flagged (nth c cols []) e).
  { intros c Hc. destruct (find_ranked_spec srt 2 _ _ flt (class_options o c) rank_by adjust _ Hs (binary_dataset K labels pp c HD Hc)
      (binary_two K labels c Hc (HM c Hc)) (G c Hc)) as (idx & sc & E & _ & _ & N & I & _). eauto. }
  destruct (rmap_tot (fun c => find_label_issues_ranked srt (binary_labels labels K c) (binary_probs pp c) 2 flt (class_options o c)
                   rank_by adjust) (seq 0 K)) as (lists & E).
  { intros c Hc. apply in_seq in Hc. destruct (HT c ltac:(lia)) as (idx & E & _). eauto. }
  exists lists. split; [auto|]. apply rmap_ok in E. apply (Forall2_seq _ K lists []) in E as (LL & F). split; [auto|].
  intros c Hc. destruct (HT c Hc) as (idx & E & N & I). rewrite (F c Hc) in E. injection E as ->. auto.
Qed.

Lemma C63_ranked_full : forall srt labels pp K flt o rank_by adjust m, argsort_ok srt -> ml_dataset K labels pp -> (2 <= K)%nat ->
  (forall c, (c < K)%nat -> mixed labels c) -> flt <> LowNormalizedMargin -> flt <> LowSelfConfidence ->
  ml_find_label_issues srt labels pp K flt o None = Ok m ->
  exists idx scores, ml_find_label_issues_ranked srt labels pp K flt o rank_by adjust = Ok idx /\
    ml_label_quality_scores srt labels pp K rank_by adjust (Some (4 # 5)) = Ok scores /\
    NoDup idx /\ (forall e, In e idx <-> flagged m e) /\
    StronglySorted (fun a b => nth a scores 0 <= nth b scores 0) idx.
Proof.
  intros srt labels pp K flt o rank_by adjust m Hs HD HK HM H1 H2 H. pose proof HD as [HL _ _ _ _].
  assert (Hl : is_low flt = false) by (destruct flt; auto; congruence).
  apply ml_find_inv in H as (cols & L & -> & G); auto.
  assert (HB : both_values labels K) by (apply mixed_both; auto; lia).
  destruct (onehot_scores_ok srt labels pp K rank_by adjust (Some (4#5)) Hs HL HK HB) as (cs & s & E & LC & E' & L' & _).
  { intros a Ea. injection Ea as <-. split; discriminate. }
  destruct (ranked_lists srt labels pp K flt o rank_by adjust cols Hs HD HM L G) as (lists & EL & LL & GL).
  set (idx := unique (concat lists)).
  assert (HIN : forall e, In e idx <-> flagged (any_class (length labels) cols) e).
  { intros e. unfold idx. rewrite in_unique, in_concat, any_class_flag. split.
    - intros (l & Hl' & He). apply (in_nth_range _ []) in Hl' as (c & Hc & <-). apply GL in He; [|lia]. split.
      + apply flagged_lt in He. rewrite (find_length _ _ _ _ _ _ _ (ds_len _ _ _ (binary_dataset K labels pp c HD ltac:(lia))) (G c ltac:(lia))) in He.
        rewrite binary_length in He. auto.
      + exists (nth c cols []). split; [apply nth_In; lia|auto].
    - intros (He & mc & Hm & Hf). apply (in_nth_range _ []) in Hm as (c & Hc & <-). exists (nth c lists []).
      split; [apply nth_In; lia|]. apply GL; [lia|auto]. }
  assert (HC : concat lists = [] -> idx = []) by (intros EC; unfold idx; rewrite EC; reflexivity).
  assert (Hnd : NoDup idx) by apply unique_NoDup. assert (EI : idx = unique (concat lists)) by reflexivity. clearbody idx.
  set (r := take_idx 0%nat idx (srt (take_idx 0 s idx))).
  assert (HR : ml_find_label_issues_ranked srt labels pp K flt o rank_by adjust = Ok r).
  { unfold ml_find_label_issues_ranked. rewrite Hl, EL. cbn [rbind]. destruct lists as [|l0 ls] eqn:El; [simpl in LL; lia|].
    rewrite <- El in *. rewrite E'. cbn [rbind]. f_equal. unfold r. destruct (concat lists) eqn:EC; [|rewrite EI; reflexivity].
    rewrite EI. cbn [unique nmax fold_right seq filter mem existsb].
    pose proof (Hs (take_idx 0 s [])) as (HP & _). cbn [take_idx map length] in HP. simpl in HP. apply Permutation_sym, Permutation_nil in HP.
    simpl. rewrite HP. reflexivity. }
  exists r, s. split; [auto|]. split.
  { unfold ml_label_quality_scores. rewrite ml_valid; auto. destruct HB as ((e & c & He & _ & Hh) & _). eauto. }
  pose proof (Hs (take_idx 0 s idx)) as HA. pose proof HA as (HP & _).
  assert (HPI : Permutation r idx).
  { unfold r. apply ProofToken.take_perm. unfold take_idx in HP at 2. rewrite map_length in HP. auto. }
  split; [|split].
  - eapply Permutation_NoDup; [apply Permutation_sym; eauto|]. auto.
  - intros e. rewrite <- HIN. split; apply Permutation_in; auto. apply Permutation_sym; auto.
  - unfold r. apply (ProofToken.take_sorted 0%nat (fun i => nth i s 0)). exact HA.
Qed.

Lemma C63_low_full : forall srt labels pp K flt o, argsort_ok srt -> ml_dataset K labels pp -> (2 <= K)%nat ->
  (forall c, (c < K)%nat -> mixed labels c) -> (1 <= ml_n_jobs o)%nat ->
  (flt = LowNormalizedMargin \/ flt = LowSelfConfidence) ->
  exists m mcl scores, ml_find_label_issues srt labels pp K flt o None = Ok m /\
    ml_find_label_issues srt labels pp K ConfidentLearning
      {| ml_frac_noise := 1; ml_num_to_remove := None; ml_min_examples := 1; ml_confident_joint := ml_confident_joint o;
         ml_n_jobs := ml_n_jobs o; ml_sched := ml_sched o |} None = Ok mcl /\
    ml_label_quality_scores srt labels pp K SelfConfidence false (Some (4 # 5)) = Ok scores /\
    length m = length labels /\ count_true m = count_true mcl /\
    (forall e e', (e' < length labels)%nat -> flagged m e -> ~ flagged m e' -> nth e scores 0 <= nth e' scores 0).
Proof.
  intros srt labels pp K flt o Hs HD HK HM Hj Hlow. pose proof HD as [HL _ _ _ _].
  assert (HB : both_values labels K) by (apply mixed_both; auto; lia).
  assert (HV : assert_valid_multilabel labels pp K = Ok tt).
  { apply ml_valid; auto. destruct HB as ((e & c & He & _ & Hh) & _). eauto. }
  destruct (onehot_scores_ok srt labels pp K SelfConfidence false (Some (4#5)) Hs HL HK HB) as (cs & s & E & LC & E' & L' & _).
  { intros a Ea. injection Ea as <-. split; discriminate. }
  destruct (C63_cl_full srt labels pp K (default_options (ml_confident_joint o) (ml_sched o) (ml_n_jobs o)) Hs HD HM eq_refl Hj)
    as (mcl & EM & LM & _).
  pose proof EM as EM'. unfold ml_find_label_issues in EM'. cbn [is_low andb] in EM'.
  destruct (issues_per_class srt labels pp K ConfidentLearning _ None) as [cols|] eqn:EI; [|discriminate].
  cbn [rbind] in EM'. injection EM' as EM'.
  assert (HN : (count_true mcl <= length labels)%nat).
  { rewrite <- LM. unfold count_true. apply filter_len_le. }
  assert (EF : ml_find_label_issues srt labels pp K flt o None = Ok (mask_of (length labels) (firstn (count_true mcl) (srt s)))).
  { unfold ml_find_label_issues. replace (is_low flt) with true by (destruct Hlow; subst; reflexivity). cbn [andb].
    unfold ml_low_indices. rewrite HV. cbn [rbind]. rewrite EI. cbn [rbind]. rewrite E'. cbn [rbind]. rewrite EM'. reflexivity. }
  exists (mask_of (length labels) (firstn (count_true mcl) (srt s))), mcl, s.
  split; [auto|]. split; [auto|].
  split; [unfold ml_label_quality_scores; rewrite HV; auto|].
  split; [apply mask_of_length|].
  destruct (argsort_firstn s (srt s) (count_true mcl) (Hs s)) as (A1 & A2 & A3 & A4).
  split.
  - rewrite count_mask_of; auto; [rewrite A2; lia|]. intros i Hi. apply A3 in Hi. lia.
  - intros e e' He' Hf Hnf. apply mask_of_flag in Hf as (_ & Hf). apply A4; auto; [lia|].
    intros Hin. apply Hnf. apply mask_of_flag. auto.
Qed.

(** ** confident joint *)
Lemma n_labelled_holds labels k : holds_for (length labels) (fun e => nth e labels 0%nat = k) (n_labelled k labels).
Proof.
  exists (filter (fun e => Nat.eqb (nth e labels 0%nat) k) (seq 0 (length labels))). split; [apply NoDup_filter, seq_NoDup|]. split.
  - rewrite <- count_cls, <- where_length. unfold where_. rewrite cls_length. f_equal. apply filter_ext_in.
    intros e He. apply in_seq in He. rewrite cls_nth by lia. reflexivity.
  - intros i. rewrite filter_In, in_seq. rewrite Nat.eqb_eq. intuition lia.
Qed.
Lemma holds_for_ext n P P' k : (forall e, (e < n)%nat -> P e <-> P' e) -> holds_for n P k -> holds_for n P' k.
Proof.
  intros H (idx & N & L & I). exists idx. split; [auto|]. split; [auto|]. intros i. rewrite I.
  split; intros (Hi & HP); split; auto; apply H; auto.
Qed.
Lemma C66_full : forall srt labels pp K, argsort_ok srt -> ml_dataset K labels pp ->
  exists cjs, ml_confident_joint_counts srt labels pp K = Ok cjs /\ length cjs = K /\
    forall c, (c < K)%nat -> exists a b p q, nth c cjs [] = [[a; b]; [p; q]] /\
      (0 <= a)%Z /\ (0 <= b)%Z /\ (0 <= p)%Z /\ (0 <= q)%Z /\
      n_lacking labels c (Z.to_nat (a + b)) /\ n_having labels c (Z.to_nat (p + q)) /\
      (a + b + (p + q) = Z.of_nat (length labels))%Z.
Proof.
  intros srt labels pp K Hs HD. unfold ml_confident_joint_counts.
  assert (HT : forall c, (c < K)%nat -> exists zm,
    rbind (compute_confident_joint srt (binary_labels labels K c) (binary_probs pp c) 2 None true) (fun r => Ok (fst r)) = Ok zm /\
    exists a b p q, zm = [[a; b]; [p; q]] /\
      (0 <= a)%Z /\ (0 <= b)%Z /\ (0 <= p)%Z /\ (0 <= q)%Z /\
      n_lacking labels c (Z.to_nat (a + b)) /\ n_having labels c (Z.to_nat (p + q)) /\
      (a + b + (p + q) = Z.of_nat (length labels))%Z).
  { intros c Hc. pose proof (binary_dataset K labels pp c HD Hc) as HB. pose proof HB as [BL Bne Blab Brow Bp].
    unfold compute_confident_joint.
    destruct (calibrate_full srt 2 (zmat_to_q (confident_joint_uncalibrated (binary_labels labels K c) (binary_probs pp c) 2
       (get_confident_thresholds (binary_labels labels K c) (binary_probs pp c) 2))) (binary_labels labels K c) Hs) as (zm & E & LZ & ROW & TOT & NN).
    1-4: pose proof (uncalibrated_cj_ok (binary_labels labels K c) (binary_probs pp c) (get_confident_thresholds (binary_labels labels K c) (binary_probs pp c) 2) 2) as U; apply U.
    { auto. } { auto. }
    rewrite E. cbn [rbind fst]. exists zm. split; [auto|].
    destruct (ROW 0%nat ltac:(lia)) as (L0 & S0). destruct (ROW 1%nat ltac:(lia)) as (L1 & S1).
    destruct zm as [|r0 [|r1 [|]]]; simpl in LZ; try lia. simpl in L0, L1, S0, S1.
    destruct r0 as [|a [|b [|]]]; simpl in L0; try lia. destruct r1 as [|p [|q [|]]]; simpl in L1; try lia.
    exists a, b, p, q. split; [auto|].
    destruct (NN 0%nat 0%nat ltac:(lia) ltac:(lia)) as (N1 & _). destruct (NN 0%nat 1%nat ltac:(lia) ltac:(lia)) as (N2 & _).
    destruct (NN 1%nat 0%nat ltac:(lia) ltac:(lia)) as (N3 & _). destruct (NN 1%nat 1%nat ltac:(lia) ltac:(lia)) as (N4 & _).
    unfold zget in *. simpl in *. split; [auto|]. split; [auto|]. split; [auto|]. split; [auto|].
    rewrite binary_length in TOT.
    split; [|split; [|lia]].
    - replace (Z.to_nat (a + b)) with (n_labelled 0 (binary_labels labels K c)) by lia.
      pose proof (n_labelled_holds (binary_labels labels K c) 0) as HH. rewrite binary_length in HH. unfold n_lacking.
      eapply holds_for_ext; [|apply HH]. intros e He. cbn beta. rewrite binary_label_nth by auto. pose proof (mem_has labels e c) as HM.
      destruct (mem c (nth e labels [])); split; intros X; try discriminate; auto.
      + exfalso. apply X, HM; auto.
      + intros Y. apply HM in Y. discriminate.
    - replace (Z.to_nat (p + q)) with (n_labelled 1 (binary_labels labels K c)) by lia.
      pose proof (n_labelled_holds (binary_labels labels K c) 1) as HH. rewrite binary_length in HH. unfold n_having.
      eapply holds_for_ext; [|apply HH]. intros e He. cbn beta. rewrite binary_label_nth by auto. pose proof (mem_has labels e c) as HM.
      destruct (mem c (nth e labels [])); split; intros X; try discriminate; auto; try (apply HM; auto). apply HM in X. discriminate. }
  destruct (rmap_tot (fun c => rbind (compute_confident_joint srt (binary_labels labels K c) (binary_probs pp c) 2 None true) (fun r => Ok (fst r))) (seq 0 K)) as (cjs & E).
  { intros c Hc. apply in_seq in Hc. destruct (HT c ltac:(lia)) as (zm & E & _). eauto. }
  exists cjs. split; [auto|]. apply rmap_ok in E. apply (Forall2_seq _ K cjs []) in E as (LL & F). split; [auto|].
  intros c Hc. destruct (HT c Hc) as (zm & E & X). rewrite (F c Hc) in E. injection E as ->. auto.
Qed.

(** ** summaries *)
Lemma holds_mask (m : list bool) P : (forall e, (e < length m)%nat -> nth e m false = true <-> P e) ->
  holds_for (length m) P (count_true m).
Proof.
  intros H. exists (where_ m). split; [unfold where_; apply NoDup_filter, seq_NoDup|]. split; [apply where_length|].
  intros i. unfold where_. rewrite filter_In, in_seq. split.
  - intros (Hi & Hn). split; [lia|]. apply H; auto; lia.
  - intros (Hi & HP). split; [lia|]. apply H; auto.
Qed.
(** number of flagged examples of class [c] whose annotation is [b] *)
Definition cell (labels : list (list nat)) (K : nat) (lists : list (list nat)) (c : nat) (b : bool) : nat :=
  count_true (map (fun lb => (Nat.eqb (fst lb) (if b then 1 else 0) && snd lb)%bool)
    (combine (binary_labels labels K c) (mask_of (length labels) (nth c lists [])))).
Definition the_row labels K lists c b : issue_row :=
  (c, b, cell labels K lists c b, Qnat (cell labels K lists c b) / Qnat (length labels)).

Lemma cell_spec labels K lists c b : (c < K)%nat ->
  holds_for (length labels) (fun e => In e (nth c lists []) /\ (has_class labels e c <-> b = true)) (cell labels K lists c b).
Proof.
  intros Hc. unfold cell. set (m := map _ _).
  assert (L : length m = length labels) by (unfold m; rewrite map_length, combine_length, binary_length, mask_of_length; lia).
  rewrite <- L. apply holds_mask. intros e He. rewrite L in He. unfold m.
  rewrite nth_map_gen with (d' := (0%nat, false)) by (rewrite combine_length, binary_length, mask_of_length; lia).
  rewrite combine_nth by (rewrite binary_length, mask_of_length; auto). cbn [fst snd].
  rewrite binary_label_nth by auto. rewrite andb_true_iff. pose proof (mem_has labels e c) as HM.
  pose proof (mask_of_flag (length labels) (nth c lists []) e) as HF.
  rewrite HF. destruct b, (mem c (nth e labels [])) eqn:E; cbn [Nat.eqb]; split.
  - intros (_ & _ & Hi). split; [auto|]. split; auto. intros _. apply HM; auto.
  - intros (Hi & _). auto.
  - intros (X & _). discriminate.
  - intros (_ & X). exfalso. assert (Y : has_class labels e c) by (apply X; auto). apply HM in Y. discriminate.
  - intros (X & _). discriminate.
  - intros (_ & X). assert (Y : has_class labels e c) by (apply HM; auto). apply X in Y. discriminate.
  - intros (_ & _ & Hi). split; [auto|]. split; [intros Y; apply HM in Y; discriminate|discriminate].
  - intros (Hi & _). auto.
Qed.

Definition base_rows labels K lists : list issue_row :=
  concat (map (fun c => [the_row labels K lists c true; the_row labels K lists c false]) (seq 0 K)).
Lemma combine_seq {A B} (f : nat * A -> B) (d : A) : forall l s,
  map f (combine (seq s (length l)) l) = map (fun c => f (c, nth (c - s) l d)) (seq s (length l)).
Proof.
  induction l as [|a l IH]; intros s; simpl; [auto|]. rewrite Nat.sub_diag. f_equal. rewrite IH. apply map_ext_in.
  intros c Hc. apply in_seq in Hc. destruct (c - s)%nat as [|k] eqn:E; [lia|]. replace (c - S s)%nat with k by lia. reflexivity.
Qed.
Lemma common_eq srt labels pp K o lists : ranked_issues_per_class srt labels pp K PruneByNoiseRate o SelfConfidence false = Ok lists ->
  length lists = K ->
  common_multilabel_issues srt labels pp K o =
  Ok (take_idx (0%nat, true, 0%nat, 0) (base_rows labels K lists) (srt (map (fun r => - snd r) (base_rows labels K lists)))).
Proof.
  intros E L. unfold common_multilabel_issues. rewrite E. cbn [rbind].
  match goal with |- context [concat (map ?f (combine (seq 0 K) lists))] => set (F := f) end.
  assert (H : concat (map F (combine (seq 0 K) lists)) = base_rows labels K lists).
  { unfold base_rows. f_equal. rewrite <- L at 1. rewrite (combine_seq F [] lists 0). rewrite L. apply map_ext. intros c.
    rewrite Nat.sub_0_r. reflexivity. }
  rewrite H. reflexivity.
Qed.
Lemma in_base labels K lists r : In r (base_rows labels K lists) <-> exists c b, (c < K)%nat /\ r = the_row labels K lists c b.
Proof.
  unfold base_rows. rewrite in_concat. split.
  - intros (l & Hl & Hr). apply in_map_iff in Hl as (c & <- & Hc). apply in_seq in Hc.
    destruct Hr as [<-|[<-|[]]]; [exists c, true|exists c, false]; split; auto; lia.
  - intros (c & b & Hc & ->). eexists. split; [apply in_map_iff; exists c; split; [reflexivity|apply in_seq; lia]|].
    destruct b; [left|right; left]; auto.
Qed.
Lemma base_length labels K lists : length (base_rows labels K lists) = (2 * K)%nat.
Proof.
  unfold base_rows. rewrite <- (seq_length K 0) at 2. generalize (seq 0 K) as l. induction l as [|c l IH]; [auto|].
  cbn [map concat app length]. rewrite IH. lia.
Qed.

Lemma C65_common_full : forall srt labels pp K o cols, argsort_ok srt -> ml_dataset K labels pp ->
  (forall c, (c < K)%nat -> mixed labels c) ->
  issues_per_class srt labels pp K PruneByNoiseRate o None = Ok cols ->
  exists rows, common_multilabel_issues srt labels pp K o = Ok rows /\ length rows = (2 * K)%nat /\
    (forall c b, (c < K)%nat -> exists n q, In (c, b, n, q) rows /\
       (forall n' q', In (c, b, n', q') rows -> n' = n /\ q' = q) /\
       holds_for (length labels) (fun e => flagged (nth c cols []) e /\ (has_class labels e c <-> b = true)) n /\
       q == Qnat n / Qnat (length labels)) /\
    (forall c b n q, In (c, b, n, q) rows -> (c < K)%nat) /\
    StronglySorted (fun r r' => snd r' <= snd r) rows.
Proof.
  intros srt labels pp K o cols Hs HD HM HI.
  assert (HC : length cols = K /\ forall c, (c < K)%nat ->
     find_label_issues srt (binary_labels labels K c) (binary_probs pp c) 2 PruneByNoiseRate (class_options o c) = Ok (nth c cols [])).
  { unfold issues_per_class in HI. apply rmap_ok in HI. apply (Forall2_seq _ K cols []) in HI. auto. }
  destruct HC as (L & G).
  destruct (ranked_lists srt labels pp K PruneByNoiseRate o SelfConfidence false cols Hs HD HM L G) as (lists & EL & LL & GL).
  rewrite (common_eq srt labels pp K o lists EL LL).
  set (base := base_rows labels K lists). set (rows := take_idx _ _ _).
  pose proof (Hs (map (fun r => - snd r) base)) as HA. pose proof HA as (HP & _). rewrite map_length in HP.
  assert (HPR : Permutation rows base) by (apply ProofToken.take_perm; auto).
  assert (HIn : forall r, In r rows <-> exists c b, (c < K)%nat /\ r = the_row labels K lists c b).
  { intros r. rewrite <- in_base. fold base. split; apply Permutation_in; auto. apply Permutation_sym; auto. }
  exists rows. split; [auto|]. split; [exact (eq_trans (Permutation_length HPR) (base_length labels K lists))|]. split; [|split].
  - intros c b Hc. exists (cell labels K lists c b), (Qnat (cell labels K lists c b) / Qnat (length labels)).
    split; [apply HIn; exists c, b; auto|]. split.
    + intros n' q' Hr. apply HIn in Hr as (c' & b' & Hc' & E). unfold the_row in E. injection E as <- <- -> ->. auto.
    + split; [|reflexivity]. eapply holds_for_ext; [|apply cell_spec; auto]. intros e He. cbn beta.
      destruct (GL c Hc) as (_ & GI). rewrite GI. reflexivity.
  - intros c b n q Hr. apply HIn in Hr as (c' & b' & Hc' & E). unfold the_row in E. injection E as -> _ _ _. auto.
  - assert (HS : StronglySorted (fun a b => - snd a <= - snd b) rows).
    { apply (ProofToken.take_sorted (0%nat, true, 0%nat, 0) (fun r : issue_row => - snd r)). exact HA. }
    eapply StronglySorted_weaken; [|exact HS]. intros a b _ _ Hab. cbn beta in Hab. lra.
Qed.

Lemma truncate_nat q n : q == Qnat n -> truncate q = Z.of_nat n.
Proof.
  intros H. unfold truncate. assert (0 <= Qnat n) by (unfold Qnat; change 0 with (inject_Z 0); rewrite <- Zle_Qle; lia).
  assert (Qle_bool 0 q = true) as -> by (apply Qle_bool_iff; rewrite H; auto).
  rewrite H. unfold Qnat. apply Qfloor_Z.
Qed.
Lemma find_row_spec labels K lists rows c b : (forall r, In r rows <-> exists c b, (c < K)%nat /\ r = the_row labels K lists c b) ->
  (c < K)%nat -> find_row c b rows = Some (the_row labels K lists c b).
Proof.
  intros HIn Hc. unfold find_row. match goal with |- find ?f rows = _ => set (F := f) end. destruct (find F rows) as [r|] eqn:E.
  - apply find_some in E as (Hi & E). apply HIn in Hi as (c' & b' & Hc' & ->). unfold the_row in E.
    apply andb_true_iff in E as (E1 & E2). apply Nat.eqb_eq in E1. apply eqb_prop in E2. subst. reflexivity.
  - exfalso. assert (Hi : In (the_row labels K lists c b) rows) by (apply HIn; eauto).
    apply (find_none _ _ E) in Hi. unfold F, the_row in Hi. cbn beta iota in Hi. rewrite Nat.eqb_refl, eqb_reflx in Hi. discriminate.
Qed.

Lemma C65_rank_full : forall srt labels pp K o rows, argsort_ok srt -> ml_dataset K labels pp ->
  (forall c, (c < K)%nat -> mixed labels c) ->
  (exists cols, issues_per_class srt labels pp K PruneByNoiseRate o None = Ok cols) ->
  common_multilabel_issues srt labels pp K o = Ok rows ->
  exists table, rank_classes_by_multilabel_quality srt labels pp K o = Ok table /\
    Permutation (map q_class table) (seq 0 K) /\
    (forall r, In r table -> exists n n' q q', In (q_class r, true, n, q) rows /\ In (q_class r, false, n', q') rows /\
       q_issues r = Z.of_nat n /\ q_inverse r = Z.of_nat n' /\ q_noise r = q /\ q_inv_noise r = q' /\
       q_score r == 1 - q /\ 0 <= q_score r /\ q_score r <= 1) /\
    StronglySorted (fun r r' => q_score r <= q_score r') table.
Proof.
  intros srt labels pp K o rows Hs HD HM (cols & HI) HR. pose proof HD as [_ Hne _ _ _].
  assert (HC : length cols = K /\ forall c, (c < K)%nat ->
     find_label_issues srt (binary_labels labels K c) (binary_probs pp c) 2 PruneByNoiseRate (class_options o c) = Ok (nth c cols [])).
  { unfold issues_per_class in HI. apply rmap_ok in HI. apply (Forall2_seq _ K cols []) in HI. auto. }
  destruct HC as (L & G).
  destruct (ranked_lists srt labels pp K PruneByNoiseRate o SelfConfidence false cols Hs HD HM L G) as (lists & EL & LL & GL).
  pose proof HR as HR'. rewrite (common_eq srt labels pp K o lists EL LL) in HR'. injection HR' as HR'.
  assert (HIn : forall r, In r rows <-> exists c b, (c < K)%nat /\ r = the_row labels K lists c b).
  { intros r. rewrite <- in_base. rewrite <- HR'.
    assert (HPR : Permutation (take_idx (0%nat, true, 0%nat, 0) (base_rows labels K lists) (srt (map (fun r => - snd r) (base_rows labels K lists)))) (base_rows labels K lists)).
    { apply ProofToken.take_perm. pose proof (Hs (map (fun r => - snd r) (base_rows labels K lists))) as (HP & _). rewrite map_length in HP. auto. }
    split; apply Permutation_in; auto. apply Permutation_sym; auto. }
  clear HR'. unfold rank_classes_by_multilabel_quality. rewrite HR. cbn [rbind].
  set (classes := nodup Nat.eq_dec _).
  assert (HCl : Permutation classes (seq 0 K)).
  { apply NoDup_Permutation; [apply NoDup_nodup|apply seq_NoDup|]. intros c. unfold classes. rewrite nodup_In, in_map_iff, in_seq. split.
    - intros (r & <- & Hr). apply HIn in Hr as (c' & b & Hc' & ->). simpl. lia.
    - intros Hc. exists (the_row labels K lists c true). split; [reflexivity|]. apply HIn. exists c, true. split; auto; lia. }
  match goal with |- context [map ?f classes] => set (mk := f) end. set (table := map mk classes).
  match goal with |- context [take_idx ?x table _] => set (d := x) end.
  pose proof (Hs (map q_score table)) as HA. pose proof HA as (HP & _). rewrite map_length in HP.
  assert (HPT : Permutation (take_idx d table (srt (map q_score table))) table) by (apply ProofToken.take_perm; auto).
  eexists. split; [reflexivity|]. split; [|split].
  - rewrite HPT. unfold table. rewrite map_map. eapply perm_trans; [|exact HCl]. rewrite <- (map_id classes) at 2. apply Permutation_refl.
  - intros r Hr. apply (Permutation_in _ HPT) in Hr. unfold table in Hr. apply in_map_iff in Hr as (c & <- & Hc).
    apply (Permutation_in _ HCl) in Hc. apply in_seq in Hc.
    exists (cell labels K lists c true), (cell labels K lists c false), (Qnat (cell labels K lists c true) / Qnat (length labels)),
           (Qnat (cell labels K lists c false) / Qnat (length labels)).
    assert (HN : 0 < Qnat (length labels)).
    { unfold Qnat. change 0 with (inject_Z 0). rewrite <- Zlt_Qlt. destruct labels; [congruence|simpl; lia]. }
    assert (HB : 0 <= Qnat (cell labels K lists c true) /\ Qnat (cell labels K lists c true) <= Qnat (length labels)).
    { split; unfold Qnat; [change 0 with (inject_Z 0)|]; rewrite <- Zle_Qle; [lia|]. apply inj_le. unfold cell, count_true.
      etransitivity; [apply filter_len_le|]. rewrite map_length, combine_length, binary_length. lia. }
    unfold mk. rewrite !(find_row_spec labels K lists) by (auto; lia). cbn [q_class q_issues q_inverse q_noise q_inv_noise q_score snd the_row].
    split; [apply HIn; exists c, true; split; [lia|reflexivity]|]. split; [apply HIn; exists c, false; split; [lia|reflexivity]|].
    split; [apply truncate_nat; field; lra|]. split; [apply truncate_nat; field; lra|]. split; [auto|]. split; [auto|]. split; [reflexivity|].
    assert (0 <= Qnat (cell labels K lists c true) / Qnat (length labels)) by (apply Qle_shift_div_l; lra).
    assert (Qnat (cell labels K lists c true) / Qnat (length labels) <= 1) by (apply Qle_shift_div_r; lra).
    lra.
  - apply (ProofToken.take_sorted d q_score). exact HA.
Qed.

Lemma C65_health_full : forall srt labels pp K o m, ml_dataset K labels pp ->
  ml_find_label_issues srt labels pp K PruneByNoiseRate o None = Ok m ->
  exists h, overall_multilabel_health_score srt labels pp K o = Ok h /\ 0 <= h /\ h <= 1 /\
    exists n, holds_for (length labels) (fun e => ~ flagged m e) n /\ h * Qnat (length labels) == Qnat n.
Proof.
  intros srt labels pp K o m HD H. pose proof HD as [_ Hne _ _ _].
  unfold overall_multilabel_health_score. rewrite H. cbn [rbind]. eexists. split; [reflexivity|].
  assert (LM : length m = length labels).
  { apply ml_find_inv in H as (cols & _ & -> & _); auto. apply any_class_length. }
  assert (HN : 0 < Qnat (length labels)).
  { unfold Qnat. change 0 with (inject_Z 0). rewrite <- Zlt_Qlt. destruct labels; [congruence|simpl; lia]. }
  assert (HC : (count_true m + count_true (map negb m) = length labels)%nat).
  { rewrite <- LM. clear. induction m as [|b m IH]; [auto|]. cbn [map length]. rewrite !count_true_cons. destruct b; simpl; lia. }
  assert (HQ : Qnat (count_true m) + Qnat (count_true (map negb m)) == Qnat (length labels)).
  { rewrite <- HC. unfold Qnat. rewrite Nat2Z.inj_add, inject_Z_plus. reflexivity. }
  assert (P1 : 0 <= Qnat (count_true m)) by (unfold Qnat; change 0 with (inject_Z 0); rewrite <- Zle_Qle; lia).
  assert (P2 : 0 <= Qnat (count_true (map negb m))) by (unfold Qnat; change 0 with (inject_Z 0); rewrite <- Zle_Qle; lia).
  assert (A1 : 0 <= Qnat (count_true m) / Qnat (length labels)) by (apply Qle_shift_div_l; lra).
  assert (A2 : Qnat (count_true m) / Qnat (length labels) <= 1) by (apply Qle_shift_div_r; lra).
  split; [lra|]. split; [lra|]. exists (count_true (map negb m)). split.
  - assert (L2 : length (map negb m) = length labels) by (rewrite map_length; auto). rewrite <- L2. apply holds_mask.
    intros e He. rewrite map_length in He. rewrite nth_map_gen with (d' := false) by auto. unfold flagged.
    destruct (nth e m false); simpl; split; intros X; auto; try discriminate.
  - setoid_replace (Qnat (count_true (map negb m))) with (Qnat (length labels) - Qnat (count_true m)) by lra. field. lra.
Qed.
