(** * Proofs about the neighbour graph *)
From Coq Require Import QArith Qreals Reals List Bool Arith Permutation Sorted Lia Lqa.
From Verif Require Import Base BaseFacts ModelKnn SpecKnn ProofUtil ProofCount.
Import ListNotations.
Open Scope Q_scope.

(** ** Lists *)
Lemma SS_NoDup (l : list nat) : StronglySorted lt l -> NoDup l.
Proof.
  induction 1 as [|a l H IH F]; constructor; auto. rewrite Forall_forall in F.
  intros C. apply F in C. lia.
Qed.
Lemma SS_filter {A} (R : A -> A -> Prop) f l : StronglySorted R l -> StronglySorted R (filter f l).
Proof.
  induction 1 as [|a l H IH F]; simpl; [constructor|]. destruct (f a); auto. constructor; auto.
  rewrite Forall_forall in *. intros x Hx. apply filter_In in Hx as (Hx & _). auto.
Qed.
Lemma SS_firstn {A} (R : A -> A -> Prop) n l : StronglySorted R l -> StronglySorted R (firstn n l).
Proof. intros H. rewrite <- (firstn_skipn n l) in H. apply StronglySorted_app in H. tauto. Qed.

Lemma ninsert_in x l y : In y (ninsert x l) <-> y = x \/ In y l.
Proof.
  induction l as [|z l IH]; simpl; [intuition|]. destruct (Nat.leb x z); simpl; rewrite ?IH; intuition.
Qed.
Lemma ninsert_sorted x l : StronglySorted lt l -> ~ In x l -> StronglySorted lt (ninsert x l).
Proof.
  induction 1 as [|a l H IH F]; simpl; intros Hn; [constructor; constructor|].
  rewrite Forall_forall in F. destruct (Nat.leb x a) eqn:E.
  - apply Nat.leb_le in E. constructor; [constructor; auto; apply Forall_forall; auto|].
    apply Forall_forall. intros y [<-|Hy]; [lia|]. apply F in Hy. lia.
  - apply Nat.leb_gt in E. constructor; auto. apply Forall_forall. intros y Hy.
    apply ninsert_in in Hy as [->|Hy]; auto.
Qed.
Lemma nsort_in l y : In y (nsort l) <-> In y l.
Proof. induction l as [|a l IH]; cbn [nsort fold_right]; [tauto|]. rewrite ninsert_in. fold (nsort l). rewrite IH. simpl. intuition. Qed.
Lemma nsort_sorted l : NoDup l -> StronglySorted lt (nsort l).
Proof.
  induction 1 as [|a l H1 H2 IH]; cbn [nsort fold_right]; [constructor|]. apply ninsert_sorted; auto.
  fold (nsort l). rewrite nsort_in. assumption.
Qed.
Lemma NoDup_map_in {A B} (f : A -> B) l :
  (forall x y, In x l -> In y l -> f x = f y -> x = y) -> NoDup l -> NoDup (map f l).
Proof.
  intros Hi H. induction H as [|a l H1 H2 IH]; simpl; constructor.
  - intros C. apply in_map_iff in C as (y & E & Hy). apply Hi in E; simpl; auto. subst. auto.
  - apply IH. intros x y Hx Hy. apply Hi; simpl; auto.
Qed.

Lemma NoDup_app_in {A} (l l' : list A) : NoDup l -> NoDup l' -> (forall x, In x l -> ~ In x l') -> NoDup (l ++ l').
Proof.
  induction 1 as [|a l H1 H2 IH]; simpl; intros HL H; auto. constructor.
  - intros C. apply in_app_or in C as [C|C]; auto. apply (H a); auto.
  - apply IH; auto.
Qed.

(** ** The circulant rows *)
Lemma circ_index t n j : (t < n)%nat -> (j < n)%nat ->
  ((t + n - j) mod n = if Nat.leb j t then t - j else t + n - j)%nat.
Proof.
  intros Ht Hj. destruct (Nat.leb j t) eqn:E.
  - apply Nat.leb_le in E. replace (t + n - j)%nat with (t - j + 1 * n)%nat by lia.
    rewrite Nat.mod_add by lia. apply Nat.mod_small. lia.
  - apply Nat.leb_gt in E. apply Nat.mod_small. lia.
Qed.
Lemma tl_tab {A} n (f : nat -> A) : tl (tab n f) = map f (seq 1 (n - 1)).
Proof. unfold tab. destruct n; simpl; [reflexivity|]. rewrite Nat.sub_0_r. reflexivity. Qed.
Lemma circ_row base t : StronglySorted lt base -> (t < length base)%nat ->
  nth t (map (fun row => nsort (tl row)) (circulant base)) [] =
  filter (fun x => negb (Nat.eqb x (nth t base 0%nat))) base.
Proof.
  intros HS Ht. pose proof (SS_NoDup _ HS) as HN.
  set (n := length base) in *.
  rewrite (nth_map_gen _ _ _ _ []) by (unfold circulant; rewrite tab_length; assumption).
  unfold circulant. rewrite nth_tab by assumption. fold n. rewrite tl_tab.
  set (f := fun j => nth ((t + n - j) mod n) base 0%nat).
  assert (forall j, (j < n)%nat -> (if Nat.leb j t then t - j else t + n - j) < n)%nat as Hlt.
  { intros j Hj. destruct (Nat.leb j t) eqn:E; [lia|]. apply Nat.leb_gt in E. lia. }
  assert (NoDup (map f (seq 1 (n - 1)))) as HND.
  { apply NoDup_map_in; [|apply seq_NoDup]. intros x y Hx Hy E. apply in_seq in Hx, Hy.
    unfold f in E. rewrite !circ_index in E by lia.
    rewrite NoDup_nth in HN. apply HN in E; [|apply Hlt; lia..].
    destruct (Nat.leb x t) eqn:E1, (Nat.leb y t) eqn:E2;
      rewrite ?Nat.leb_le, ?Nat.leb_gt in E1, E2; lia. }
  apply sorted_lt_ext.
  - apply nsort_sorted. assumption.
  - apply SS_filter. assumption.
  - intros x. rewrite nsort_in, filter_In, negb_true_iff, Nat.eqb_neq, in_map_iff. split.
    + intros (j & <- & Hj). apply in_seq in Hj. unfold f. rewrite circ_index by lia. split.
      * apply nth_In. apply Hlt. lia.
      * intros E. rewrite NoDup_nth in HN. apply HN in E; [|apply Hlt; lia|assumption].
        destruct (Nat.leb j t) eqn:E1; rewrite ?Nat.leb_le, ?Nat.leb_gt in E1; lia.
    + intros (Hx & Hne). apply In_nth with (d := 0%nat) in Hx as (s & Hs & <-).
      assert (s <> t) as Hst by congruence. fold n in Hs.
      destruct (Nat.ltb_spec s t).
      * exists (t - s)%nat. split; [|apply in_seq; lia]. unfold f. rewrite circ_index by lia.
        destruct (Nat.leb_spec (t - s) t); [|lia]. f_equal. lia.
      * exists (t + n - s)%nat. split; [|apply in_seq; lia]. unfold f. rewrite circ_index by lia.
        destruct (Nat.leb_spec (t + n - s) t); [lia|]. f_equal. lia.
Qed.

Lemma filter_all_in {A} f (l : list A) : (forall x, In x l -> f x = true) -> filter f l = l.
Proof.
  induction l as [|a l IH]; simpl; intros H; [reflexivity|]. rewrite H by auto. f_equal. auto.
Qed.
Lemma filter_neq_id i l : ~ In i l -> filter (fun x => negb (Nat.eqb x i)) l = l.
Proof.
  intros H. apply filter_all_in. intros x Hx. apply negb_true_iff, Nat.eqb_neq. congruence.
Qed.
Lemma filter_neq_firstn_lt dup : forall t k, NoDup dup -> (t < length dup)%nat -> (t <= k)%nat ->
  filter (fun x => negb (Nat.eqb x (nth t dup 0%nat))) (firstn (k + 1) dup) =
  firstn k (filter (fun x => negb (Nat.eqb x (nth t dup 0%nat))) dup).
Proof.
  induction dup as [|a r IH]; intros t k HN Ht Hk; [simpl in Ht; lia|].
  apply NoDup_cons_iff in HN as (Ha & HN). rewrite Nat.add_1_r. cbn [firstn].
  destruct t as [|t]; cbn [nth].
  - cbn [filter]. rewrite Nat.eqb_refl. cbn [negb].
    rewrite !filter_neq_id; auto. intros C. apply Ha. eapply firstn_In; eauto.
  - simpl in Ht. destruct k as [|k]; [lia|]. cbn [filter].
    assert (Nat.eqb a (nth t r 0%nat) = false) as ->.
    { apply Nat.eqb_neq. intros ->. apply Ha, nth_In. lia. }
    cbn [negb]. cbn [firstn]. f_equal.
    specialize (IH t k HN ltac:(lia) ltac:(lia)). rewrite Nat.add_1_r in IH. exact IH.
Qed.
Lemma filter_neq_firstn_ge dup : forall t k, NoDup dup -> (t < length dup)%nat -> (k <= t)%nat ->
  firstn k dup = firstn k (filter (fun x => negb (Nat.eqb x (nth t dup 0%nat))) dup).
Proof.
  induction dup as [|a r IH]; intros t k HN Ht Hk; [simpl in Ht; lia|].
  apply NoDup_cons_iff in HN as (Ha & HN).
  destruct k as [|k]; [reflexivity|]. destruct t as [|t]; [lia|]. simpl in Ht. cbn [nth filter].
  assert (Nat.eqb a (nth t r 0%nat) = false) as ->.
  { apply Nat.eqb_neq. intros ->. apply Ha, nth_In. lia. }
  cbn [negb firstn]. f_equal. apply IH; auto; lia.
Qed.
Lemma filter_neq_length dup t : NoDup dup -> (t < length dup)%nat ->
  length (filter (fun x => negb (Nat.eqb x (nth t dup 0%nat))) dup) = (length dup - 1)%nat.
Proof.
  revert t. induction dup as [|a r IH]; intros t HN Ht; [simpl in Ht; lia|].
  apply NoDup_cons_iff in HN as (Ha & HN). destruct t as [|t]; cbn [nth filter].
  - rewrite Nat.eqb_refl. cbn [negb]. rewrite filter_neq_id by assumption. simpl. lia.
  - simpl in Ht. assert (Nat.eqb a (nth t r 0%nat) = false) as ->.
    { apply Nat.eqb_neq. intros ->. apply Ha, nth_In. lia. }
    cbn [negb length]. rewrite IH by (auto; lia). lia.
Qed.

(** ** Row assignment *)
Lemma set_rows_length {A} idx : forall rows (m : list (list A)), length (set_rows m idx rows) = length m.
Proof.
  unfold set_rows. induction idx as [|i idx IH]; intros rows m; simpl; [reflexivity|].
  destruct rows as [|r rows]; simpl; [reflexivity|]. rewrite IH. apply upd_length.
Qed.
Lemma set_rows_other {A} i idx : forall rows (m : list (list A)), ~ In i idx ->
  nth i (set_rows m idx rows) [] = nth i m [].
Proof.
  unfold set_rows. induction idx as [|a idx IH]; intros rows m H; simpl; [reflexivity|].
  destruct rows as [|r rows]; simpl; [reflexivity|]. rewrite IH by (intros C; apply H; right; auto).
  apply nth_upd_neq. intros ->. apply H. left; reflexivity.
Qed.
Lemma set_rows_at {A} idx : forall rows (m : list (list A)) t, NoDup idx ->
  (forall i, In i idx -> i < length m)%nat -> length rows = length idx -> (t < length idx)%nat ->
  nth (nth t idx 0%nat) (set_rows m idx rows) [] = nth t rows [].
Proof.
  induction idx as [|a idx IH]; intros rows m t HN Hlt HL Ht; [simpl in Ht; lia|].
  destruct rows as [|r rows]; [discriminate|]. apply NoDup_cons_iff in HN as (Ha & HN).
  unfold set_rows. cbn [combine fold_left fst snd]. fold (set_rows (upd m a r) idx rows).
  destruct t as [|t]; cbn [nth].
  - rewrite set_rows_other by assumption. apply nth_upd_eq. apply Hlt. left; reflexivity.
  - apply IH; auto.
    + intros i Hi. rewrite upd_length. apply Hlt. right; auto.
    + simpl in Ht. lia.
Qed.
Lemma get_rows_length {A} (m : list (list A)) idx : length (get_rows m idx) = length idx.
Proof. apply map_length. Qed.
Lemma nth_get_rows {A} (m : list (list A)) idx t : (t < length idx)%nat ->
  nth t (get_rows m idx) [] = nth (nth t idx 0%nat) m [].
Proof. intros H. unfold get_rows. apply (nth_map_gen (fun i => nth i m []) idx t [] 0%nat H). Qed.
Lemma nth_map_combine {A B C} (f : A * B -> C) la lb t dc da db : (t < length la)%nat -> (t < length lb)%nat ->
  nth t (map f (combine la lb)) dc = f (nth t la da, nth t lb db).
Proof.
  revert lb t. induction la as [|a la IH]; intros lb t H1 H2; [simpl in H1; lia|].
  destruct lb as [|b lb]; [simpl in H2; lia|]. destruct t; simpl; [reflexivity|].
  simpl in H1, H2. apply IH; lia.
Qed.
Lemma map_combine_length {A B C} (f : A * B -> C) la lb : length la = length lb ->
  length (map f (combine la lb)) = length la.
Proof. intros H. rewrite map_length, combine_length. lia. Qed.
Lemma nth_firstn {A} n (l : list A) t d : (t < n)%nat -> nth t (firstn n l) d = nth t l d.
Proof.
  revert l t. induction n; intros l t H; [lia|]. destruct l; [destruct t; reflexivity|].
  destruct t; simpl; [reflexivity|]. apply IHn. lia.
Qed.
Lemma nth_skipn {A} n (l : list A) t d : nth t (skipn n l) d = nth (n + t) l d.
Proof.
  revert l. induction n; intros l; simpl; [reflexivity|]. destruct l; [destruct t; reflexivity|]. apply IHn.
Qed.

(** ** One duplicate set *)
Section One.
Context (E : env) (Esort : argsort_ok (bsort E)).

Definition others (dup : list nat) (i : nat) : list nat := filter (fun x => negb (Nat.eqb x i)) dup.
(** what becomes of the row of the [t]-th member *)
Definition new_i (k : nat) (dup : list nat) (i : nat) (row : list nat) : list nat :=
  if Nat.leb (k + 1) (length dup) then firstn k (others dup i)
  else others dup i ++ take_idx 0%nat row (true_indices E dup (length dup - 1) row).
Definition new_d (k : nat) (dup : list nat) (row : list nat) (drow : list Q) : list Q :=
  if Nat.leb (k + 1) (length dup) then repeat 0 k
  else repeat 0 (length dup - 1) ++ take_idx 0 drow (true_indices E dup (length dup - 1) row).

Definition good_set (N : nat) (dup : list nat) : Prop :=
  StronglySorted lt dup /\ (forall i, In i dup -> i < N)%nat /\ (2 <= length dup)%nat.

Lemma prepare_length dup inc : length (prepare_neighborhood dup inc) = Nat.min (inc + 1) (length dup).
Proof. unfold prepare_neighborhood, circulant. rewrite map_length, tab_length, firstn_length. lia. Qed.
Lemma nth_prepare dup inc t : StronglySorted lt dup -> (t <= inc)%nat -> (t < length dup)%nat ->
  nth t (prepare_neighborhood dup inc) [] = firstn inc (others dup (nth t dup 0%nat)).
Proof.
  intros HS H1 H2. unfold prepare_neighborhood.
  rewrite circ_row; [|apply SS_firstn; auto|rewrite firstn_length; lia].
  rewrite nth_firstn by lia. apply filter_neq_firstn_lt; auto. apply SS_NoDup; auto.
Qed.

Lemma true_indices_length dup inc row : length (true_indices E dup inc row) = (length row - inc)%nat.
Proof.
  unfold true_indices. rewrite firstn_length, (argsort_length _ _ (Esort _)), map_length. lia.
Qed.

Lemma correct_one_length k g dup : length (fst (correct_one E k g dup)) = length (fst g) /\
  length (snd (correct_one E k g dup)) = length (snd g).
Proof.
  unfold correct_one. destruct g as (d, ix). destruct (Nat.leb _ _); cbn [fst snd]; rewrite !set_rows_length; auto.
Qed.
Lemma correct_one_other k g dup i : ~ In i dup ->
  nth i (fst (correct_one E k g dup)) [] = nth i (fst g) [] /\
  nth i (snd (correct_one E k g dup)) [] = nth i (snd g) [].
Proof.
  intros H. unfold correct_one. destruct g as (d, ix). destruct (Nat.leb _ _); cbn [fst snd].
  - split; [apply set_rows_other; auto|]. rewrite !set_rows_other; auto.
    + intros C. apply H. eapply firstn_In; eauto.
    + intros C. apply H. eapply skipn_In; eauto.
  - rewrite !set_rows_other by auto. auto.
Qed.

Lemma correct_one_at N k g dup t : graph_shape N k g -> good_set N dup -> (t < length dup)%nat ->
  nth (nth t dup 0%nat) (fst (correct_one E k g dup)) [] =
    new_d k dup (nth (nth t dup 0%nat) (snd g) []) (nth (nth t dup 0%nat) (fst g) []) /\
  nth (nth t dup 0%nat) (snd (correct_one E k g dup)) [] =
    new_i k dup (nth t dup 0%nat) (nth (nth t dup 0%nat) (snd g) []).
Proof.
  intros (HL1 & HL2 & Hrow) (HS & Hlt & H2) Ht.
  pose proof (SS_NoDup _ HS) as HN. destruct g as (d, ix). cbn [fst snd] in *.
  unfold correct_one, new_d, new_i. destruct (Nat.leb_spec (k + 1) (length dup)) as [Hbig|Hsmall]; cbn [fst snd].
  - replace (Nat.min (length dup - 1) k) with k by lia. split.
    + rewrite set_rows_at; auto; [|intros i Hi; rewrite HL1; auto|apply map_length].
      rewrite (nth_map_gen _ _ _ _ 0%nat) by assumption. reflexivity.
    + assert (length (firstn (k + 1) dup) = k + 1)%nat as Hf by (rewrite firstn_length; lia).
      destruct (Nat.leb_spec t k) as [Htk|Htk].
      * rewrite set_rows_other.
        2:{ intros C. apply In_nth with (d := 0%nat) in C as (s & Hs & C). rewrite skipn_length in Hs.
            rewrite nth_skipn in C. rewrite NoDup_nth in HN. apply HN in C; lia. }
        rewrite <- (nth_firstn (k + 1) dup t 0%nat) by lia.
        rewrite set_rows_at.
        -- rewrite nth_prepare by (auto; lia). rewrite nth_firstn by lia. reflexivity.
        -- apply firstn_NoDup; auto.
        -- intros i Hi. rewrite HL2. apply Hlt. eapply firstn_In; eauto.
        -- rewrite prepare_length. lia.
        -- lia.
      * replace (nth t dup 0%nat) with (nth (t - (k + 1)) (skipn (k + 1) dup) 0%nat)
          by (rewrite nth_skipn; f_equal; lia).
        rewrite set_rows_at.
        -- rewrite (nth_map_gen _ _ _ _ 0%nat) by (rewrite skipn_length; lia).
           rewrite nth_skipn. replace (k + 1 + (t - (k + 1)))%nat with t by lia.
           apply filter_neq_firstn_ge; auto. lia.
        -- apply SS_NoDup. rewrite <- (firstn_skipn (k + 1) dup) in HS. apply StronglySorted_app in HS. tauto.
        -- intros i Hi. rewrite set_rows_length, HL2. apply Hlt. eapply skipn_In; eauto.
        -- apply map_length.
        -- rewrite skipn_length. lia.
  - replace (Nat.min (length dup - 1) k) with (length dup - 1)%nat by lia.
    set (inc := (length dup - 1)%nat) in *.
    assert (forall i, In i dup -> (i < N)%nat) as Hlt' by auto.
    destruct (Hrow (nth t dup 0%nat)) as (Hr1 & Hr2); [apply Hlt, nth_In; auto|].
    set (ti := map (true_indices E dup inc) (get_rows ix dup)).
    assert (length ti = length dup) as Hti by (unfold ti; rewrite map_length; apply get_rows_length).
    assert (nth t ti [] = true_indices E dup inc (nth (nth t dup 0%nat) ix [])) as Ent.
    { unfold ti. rewrite (nth_map_gen _ _ _ _ []) by (rewrite get_rows_length; auto).
      rewrite nth_get_rows by auto. reflexivity. }
    split.
    + rewrite set_rows_at; auto.
      2:{ intros i Hi. rewrite set_rows_length, HL1. auto. }
      2:{ rewrite map_length. apply get_rows_length. }
      rewrite (nth_map_gen _ _ _ _ []) by (rewrite get_rows_length; auto).
      rewrite nth_get_rows by auto. rewrite set_rows_at; auto.
      2:{ intros i Hi. rewrite HL1. auto. }
      2:{ rewrite map_combine_length; rewrite map_combine_length; rewrite ?get_rows_length; auto. }
      rewrite (nth_map_combine _ _ _ _ _ [] []).
      2:{ rewrite map_combine_length; rewrite ?get_rows_length; auto. }
      2:{ rewrite get_rows_length; auto. }
      rewrite (nth_map_combine _ _ _ _ _ [] []); [|rewrite get_rows_length; auto|lia].
      rewrite nth_get_rows, Ent by auto. cbn [fst snd]. unfold set_first, set_last. f_equal.
      rewrite Hr1. replace (k - (k - inc))%nat with inc by lia.
      rewrite skipn_app, skipn_all2 by (rewrite firstn_length; lia).
      rewrite firstn_length, Hr1. replace (inc - Nat.min inc k)%nat with 0%nat by lia. reflexivity.
    + assert (length (prepare_neighborhood dup inc) = length dup) as HP by (rewrite prepare_length; lia).
      rewrite set_rows_at; auto.
      2:{ intros i Hi. rewrite set_rows_length, HL2. auto. }
      2:{ rewrite map_combine_length; rewrite ?get_rows_length; auto. }
      rewrite (nth_map_combine _ _ _ _ _ [] []); [|lia|rewrite get_rows_length; auto].
      rewrite nth_get_rows by auto. rewrite set_rows_at; auto.
      2:{ intros i Hi. rewrite HL2. auto. }
      2:{ rewrite map_combine_length; rewrite map_combine_length; rewrite ?get_rows_length; auto. }
      rewrite (nth_map_combine _ _ _ _ _ [] []).
      2:{ rewrite map_combine_length; rewrite ?get_rows_length; auto. }
      2:{ rewrite get_rows_length; auto. }
      rewrite (nth_map_combine _ _ _ _ _ [] []); [|rewrite get_rows_length; auto|lia].
      rewrite nth_get_rows, Ent by auto. cbn [fst snd]. unfold set_first, set_last. f_equal.
      * rewrite nth_prepare by (auto; lia). apply firstn_all2.
        unfold others. rewrite filter_neq_length by auto. lia.
      * rewrite Hr2. replace (k - (k - inc))%nat with inc by lia.
        rewrite skipn_app, skipn_all2 by (rewrite firstn_length; lia).
        rewrite firstn_length, Hr2. replace (inc - Nat.min inc k)%nat with 0%nat by lia. reflexivity.
Qed.

(** the positions kept are positions of non-members *)
Lemma true_indices_spec dup inc row :
  (length row - inc <= length (filter (fun j => negb (mem j dup)) row))%nat ->
  NoDup (true_indices E dup inc row) /\
  forall p, In p (true_indices E dup inc row) -> (p < length row)%nat /\ ~ In (nth p row 0%nat) dup.
Proof.
  intros Hc. unfold true_indices.
  set (v := map (fun j => if mem j dup then 1 else 0) row).
  pose proof (Esort v) as Hs. set (s := bsort E v) in *.
  assert (length v = length row) as Hv by apply map_length.
  assert (length s = length row) as Hls by (unfold s; rewrite (argsort_length v); auto).
  rewrite Hls. set (c := (length row - inc)%nat) in *.
  split; [apply firstn_NoDup, (argsort_NoDup v), Hs|].
  intros p Hp. assert (p < length row)%nat as Hpl.
  { rewrite <- Hv. apply (argsort_in v s Hs). eapply firstn_In; eauto. }
  split; auto. intros C.
  apply In_nth with (d := 0%nat) in Hp as (a & Ha & Ep). rewrite firstn_length in Ha.
  rewrite nth_firstn in Ep by lia.
  (* every zero position is among the first [a] *)
  set (m := map (fun j => negb (mem j dup)) row).
  assert (incl (where_ m) (firstn a s)) as Hi.
  { intros q Hq. assert (q < length row)%nat as Hql.
    { apply where_lt in Hq. unfold m in Hq. rewrite map_length in Hq. auto. }
    apply in_where in Hq. unfold m in Hq. rewrite (nth_map_gen _ _ _ _ 0%nat) in Hq by auto.
    assert (In q s) as Hqs by (apply (argsort_in v s Hs); lia).
    rewrite <- (firstn_skipn a s) in Hqs. apply in_app_or in Hqs as [|Hqs]; auto. exfalso.
    apply In_nth with (d := 0%nat) in Hqs as (b & Hb & Eq). rewrite skipn_length in Hb. rewrite nth_skipn in Eq.
    assert (nth p v 0 <= nth q v 0) as Hle.
    { destruct (Nat.eq_dec b 0) as [->|].
      - rewrite Nat.add_0_r in Eq. assert (p = q) as -> by congruence. apply Qle_refl.
      - destruct Hs as (_ & Hs). rewrite <- (firstn_skipn (a + 1) s) in Hs.
        apply StronglySorted_app in Hs as (_ & _ & Hs). apply Hs.
        + rewrite <- Ep. rewrite <- (nth_firstn (a + 1) s a 0%nat) by lia. apply nth_In.
          rewrite firstn_length. lia.
        + rewrite <- Eq. replace (a + b)%nat with (a + 1 + (b - 1))%nat by lia. rewrite <- nth_skipn.
          apply nth_In. rewrite skipn_length. lia. }
    unfold v in Hle. rewrite !(nth_map_gen _ _ _ _ 0%nat) in Hle by auto.
    apply mem_iff in C. rewrite C in Hle. apply negb_true_iff in Hq. rewrite Hq in Hle. lra. }
  apply NoDup_incl_length in Hi; [|apply where_NoDup].
  rewrite where_length in Hi. unfold m in Hi. rewrite count_true_map, firstn_length in Hi. lia.
Qed.

Lemma kept_enough dup i row : NoDup dup -> In i dup -> NoDup row -> ~ In i row ->
  (length row - (length dup - 1) <= length (filter (fun j => negb (mem j dup)) row))%nat.
Proof.
  intros HN Hi HR Hn.
  assert (length (filter (fun j => mem j dup) row) <= length dup - 1)%nat as H.
  { assert (NoDup (i :: filter (fun j => mem j dup) row)) as H1.
    { constructor; [|apply NoDup_filter; auto]. intros C. apply filter_In in C. tauto. }
    apply NoDup_incl_length with (l' := dup) in H1; [simpl in H1; lia|].
    intros x [<-|Hx]; auto. apply filter_In in Hx as (_ & Hx). apply mem_iff. auto. }
  assert (length row = length (filter (fun j => mem j dup) row) + length (filter (fun j => negb (mem j dup)) row))%nat as H2.
  { clear. induction row as [|a r IH]; simpl; [reflexivity|]. destruct (mem a dup); simpl; lia. }
  lia.
Qed.

Lemma new_lengths N k dup i row drow : good_set N dup -> In i dup -> length row = k -> length drow = k ->
  length (new_i k dup i row) = k /\ length (new_d k dup row drow) = k.
Proof.
  intros (HS & Hlt & H2) Hi H1 H1d. unfold new_i, new_d.
  pose proof (SS_NoDup _ HS) as HN.
  apply In_nth with (d := 0%nat) in Hi as (t & Ht & <-).
  pose proof (filter_neq_length dup t HN Ht) as HL.
  destruct (Nat.leb_spec (k + 1) (length dup)).
  - rewrite firstn_length, repeat_length. unfold others. rewrite HL. split; [lia|reflexivity].
  - unfold take_idx. rewrite !app_length, !map_length, repeat_length, true_indices_length.
    unfold others. rewrite HL. lia.
Qed.

Lemma correct_one_shape N k g dup : graph_shape N k g -> good_set N dup -> graph_shape N k (correct_one E k g dup).
Proof.
  intros HG HD. pose proof HG as (H1 & H2 & H3). destruct (correct_one_length k g dup) as (E1 & E2).
  split; [congruence|]. split; [congruence|]. intros i Hi.
  destruct (in_dec Nat.eq_dec i dup) as [Hin|Hin].
  - pose proof Hin as Hin'. apply In_nth with (d := 0%nat) in Hin as (t & Ht & <-).
    destruct (correct_one_at N k g dup t HG HD Ht) as (-> & ->).
    destruct (H3 _ Hi). split; eapply new_lengths; eauto.
  - destruct (correct_one_other k g dup i Hin) as (-> & ->). auto.
Qed.

Definition disjoint_sets (sets : list (list nat)) : Prop :=
  ForallOrdPairs (fun a b => forall i, In i a -> ~ In i b) sets.

Lemma correct_with_sets_spec N k sets : forall g, graph_shape N k g -> Forall (good_set N) sets ->
  disjoint_sets sets ->
  graph_shape N k (correct_with_sets E k g sets) /\
  (forall i, (forall D, In D sets -> ~ In i D) ->
     nth i (fst (correct_with_sets E k g sets)) [] = nth i (fst g) [] /\
     nth i (snd (correct_with_sets E k g sets)) [] = nth i (snd g) []) /\
  (forall D i, In D sets -> In i D ->
     nth i (fst (correct_with_sets E k g sets)) [] = new_d k D (nth i (snd g) []) (nth i (fst g) []) /\
     nth i (snd (correct_with_sets E k g sets)) [] = new_i k D i (nth i (snd g) [])).
Proof.
  unfold correct_with_sets. induction sets as [|D sets IH]; intros g HG HF HD; cbn [fold_left].
  - split; [auto|]. split; [auto|]. intros D i [].
  - inversion HF; subst. inversion HD as [|? ? HD1 HD2]; subst.
    destruct (IH (correct_one E k g D)) as (I1 & I2 & I3); auto.
    { apply correct_one_shape; auto. }
    split; [exact I1|]. split.
    + intros i Hi. destruct (I2 i) as (-> & ->).
      { intros D' HD'. apply Hi. right; auto. }
      apply correct_one_other. apply Hi. left; reflexivity.
    + rewrite Forall_forall in HD1. intros D' i [<-|HD'] Hi.
      * destruct (I2 i) as (-> & ->).
        { intros D' HD'. apply (HD1 D' HD'). auto. }
        apply In_nth with (d := 0%nat) in Hi as (t & Ht & <-).
        apply (correct_one_at N); auto.
      * destruct (I3 D' i HD' Hi) as (-> & ->).
        destruct (correct_one_other k g D i) as (-> & ->); auto.
        intros C. apply (HD1 D' HD' i C Hi).
Qed.
End One.

(** ** The duplicate sets *)
Lemma in_dup_set inv u i : In i (where_ (map (fun v => Nat.eqb v u) inv)) <->
  (i < length inv)%nat /\ nth i inv 0%nat = u.
Proof.
  rewrite in_where. split.
  - intros H. destruct (Nat.ltb_spec i (length inv)).
    + split; auto. rewrite (nth_map_gen _ _ _ _ 0%nat) in H by auto. apply Nat.eqb_eq. auto.
    + rewrite nth_overflow in H by (rewrite map_length; auto). discriminate.
  - intros (H1 & H2). rewrite (nth_map_gen _ _ _ _ 0%nat) by auto. apply Nat.eqb_eq. auto.
Qed.
Lemma dup_set_length inv u : length (where_ (map (fun v => Nat.eqb v u) inv)) = count u inv.
Proof.
  rewrite where_length, count_true_map. unfold count. induction inv as [|a l IH]; [reflexivity|].
  cbn [filter count_occ]. destruct (Nat.eqb_spec a u), (Nat.eq_dec a u); try congruence; cbn [length]; auto.
Qed.

Section Sets.
Context (E : env) (HE : env_ok E) (features : list (list Q)).
Notation N := (length features).
Notation inv := (unique_inverse E features).

Lemma sets_good : Forall (good_set N) (exact_duplicate_sets E features).
Proof.
  destruct HE as (_ & HU & _). destruct (HU features) as (HL & _).
  apply Forall_forall. intros D HD. unfold exact_duplicate_sets in HD.
  apply in_map_iff in HD as (u & <- & Hu). apply filter_In in Hu as (_ & Hu). apply Nat.ltb_lt in Hu.
  split; [apply where_sorted|]. split.
  - intros i Hi. apply in_dup_set in Hi. lia.
  - rewrite dup_set_length. lia.
Qed.
Lemma sets_disjoint : disjoint_sets (exact_duplicate_sets E features).
Proof.
  destruct HE as (_ & _ & HO). destruct (HO inv) as (HN & _). unfold exact_duplicate_sets.
  apply (NoDup_filter (fun u => Nat.ltb 1 (count u inv))) in HN.
  unfold disjoint_sets. induction HN as [|u l Hu HN IH]; simpl; constructor; auto.
  apply Forall_forall. intros D HD i Hi C. apply in_map_iff in HD as (u' & <- & Hu').
  apply in_dup_set in Hi as (_ & Hi). apply in_dup_set in C as (_ & C). congruence.
Qed.
Lemma sets_cover i : (i < N)%nat ->
  (exists D, In D (exact_duplicate_sets E features) /\ In i D /\
     forall j, In j D <-> same_features features i j) \/
  ((forall D, In D (exact_duplicate_sets E features) -> ~ In i D) /\
   forall j, ~ exact_dup features i j).
Proof.
  intros Hi. destruct HE as (_ & HU & HO). destruct (HU features) as (HL & HUi).
  set (u := nth i inv 0%nat).
  assert (In u inv) as Hu by (apply nth_In; lia).
  destruct (Nat.ltb 1 (count u inv)) eqn:Ec.
  - left. exists (where_ (map (fun v => Nat.eqb v u) inv)). split; [|split].
    + unfold exact_duplicate_sets.
      apply (in_map (fun u => where_ (map (fun v => Nat.eqb v u) inv))). apply filter_In. split; auto.
      apply HO. auto.
    + apply in_dup_set. split; [lia|reflexivity].
    + intros j. rewrite in_dup_set. split.
      * intros (Hj & Ej). apply HUi; auto; lia.
      * intros Hs. pose proof Hs as (_ & Hj & _). split; [lia|]. symmetry. apply HUi; auto.
  - right. apply Nat.ltb_ge in Ec. split.
    + intros D HD Hin. unfold exact_duplicate_sets in HD. apply in_map_iff in HD as (u' & <- & Hu').
      apply in_dup_set in Hin as (_ & Hin). apply filter_In in Hu' as (_ & Hc). subst u'.
      fold u in Hc. apply Nat.ltb_lt in Hc. lia.
    + intros j (Hne & Hs). pose proof Hs as (_ & Hj & _). apply HUi in Hs; auto.
      rewrite <- dup_set_length in Ec.
      assert (NoDup [i; j]) as H2 by (repeat constructor; simpl; intuition).
      apply NoDup_incl_length with (l' := where_ (map (fun v => Nat.eqb v u) inv)) in H2; [simpl in H2; lia|].
      intros x [<-|[<-|[]]]; apply in_dup_set; split; try lia; auto.
Qed.
End Sets.

(** ** C40 *)
Definition tail_ok (k m : nat) (features : list (list Q)) (g g' : graph) (i : nat) : Prop :=
  forall p, (m <= p < k)%nat ->
    ~ exact_dup features i (nbr g' i p) /\
    exists q, (q < k)%nat /\ nbr g' i p = nbr g i q /\ dst g' i p = dst g i q.

Section C40.
Context (E : env) (HE : env_ok E) (features : list (list Q)) (k : nat) (g : graph).
Notation N := (length features).
Context (HG : graph_shape N k g).
Notation g' := (correct_knn_graph E features k g).

Lemma env_sort : argsort_ok (bsort E). Proof. apply HE. Qed.

Lemma correct_shape : graph_shape N k g'.
Proof.
  apply (correct_with_sets_spec E env_sort N k (exact_duplicate_sets E features) g); auto.
  - apply sets_good; auto.
  - apply sets_disjoint; auto.
Qed.
Lemma correct_unchanged i : (i < N)%nat -> (forall j, ~ exact_dup features i j) ->
  nth i (fst g') [] = nth i (fst g) [] /\ nth i (snd g') [] = nth i (snd g) [].
Proof.
  intros Hi Hn.
  destruct (correct_with_sets_spec E env_sort N k (exact_duplicate_sets E features) g) as (_ & H & _); auto.
  { apply sets_good; auto. } { apply sets_disjoint; auto. }
  apply H. destruct (sets_cover E HE features i Hi) as [(D & HD & HiD & Hs)|(Hs & _)]; auto.
  exfalso. pose proof (sets_good E HE features) as HF. rewrite Forall_forall in HF.
  destruct (HF D HD) as (HS & _ & H2). apply SS_NoDup in HS.
  destruct D as [|a [|b D]]; simpl in H2; try lia.
  apply NoDup_cons_iff in HS as (HS & _).
  destruct (Nat.eq_dec a i) as [->|].
  - apply (Hn b). split; [intros ->; apply HS; left; auto|]. apply Hs. right; left; auto.
  - apply (Hn a). split; [auto|]. apply Hs. left; auto.
Qed.
Lemma correct_set i : (i < N)%nat -> (exists j, exact_dup features i j) ->
  exists D, In i D /\ good_set N D /\ (forall j, In j D <-> same_features features i j) /\
    nth i (fst g') [] = new_d E k D (nth i (snd g) []) (nth i (fst g) []) /\
    nth i (snd g') [] = new_i E k D i (nth i (snd g) []).
Proof.
  intros Hi (j & Hj).
  destruct (correct_with_sets_spec E env_sort N k (exact_duplicate_sets E features) g) as (_ & _ & H); auto.
  { apply sets_good; auto. } { apply sets_disjoint; auto. }
  destruct (sets_cover E HE features i Hi) as [(D & HD & HiD & Hs)|(_ & Hs)]; [|exfalso; eapply Hs; eauto].
  exists D. split; auto. pose proof (sets_good E HE features) as HF. rewrite Forall_forall in HF.
  split; [auto|]. split; [exact Hs|]. apply H; auto.
Qed.

Lemma others_eq i D O : In i D -> good_set N D -> (forall j, In j D <-> same_features features i j) ->
  StronglySorted lt O -> (forall j, In j O <-> exact_dup features i j) ->
  others D i = O /\ length O = (length D - 1)%nat.
Proof.
  intros HiD (HS & _ & _) Hs HO1 HO2.
  assert (others D i = O) as <-.
  { apply sorted_lt_ext; auto.
    - apply SS_filter; auto.
    - intros j. unfold others. rewrite filter_In, negb_true_iff, Nat.eqb_neq, HO2, Hs. unfold exact_dup. intuition. }
  split; auto. apply In_nth with (d := 0%nat) in HiD as (t & Ht & <-).
  apply filter_neq_length; auto. apply SS_NoDup; auto.
Qed.

Context (HS : simple_graph N g).

Lemma correct_row i O : (i < N)%nat -> StronglySorted lt O -> (forall j, In j O <-> exact_dup features i j) ->
  let m := Nat.min k (length O) in
  firstn m (nth i (snd g') []) = firstn m O /\
  firstn m (nth i (fst g') []) = repeat 0 m /\
  tail_ok k m features g g' i.
Proof.
  intros Hi HO1 HO2 m. pose proof HG as (_ & _ & Hrow). destruct (Hrow i Hi) as (Hr1 & Hr2).
  destruct O as [|o O'].
  - destruct (correct_unchanged i Hi) as (E1 & E2).
    { intros j C. apply HO2 in C. destruct C. }
    unfold m. cbn [length]. rewrite Nat.min_0_r. split; [reflexivity|]. split; [reflexivity|].
    intros p Hp. unfold nbr, dst. rewrite E1, E2. split.
    + intros C. apply HO2 in C. destruct C.
    + exists p. split; [lia|auto].
  - destruct (correct_set i Hi) as (D & HiD & HGD & Hs & E1 & E2).
    { exists o. apply HO2. left; auto. }
    destruct (others_eq i D (o :: O') HiD HGD Hs HO1 HO2) as (Eo & Lo).
    set (O := o :: O') in *. clearbody O.
    pose proof HGD as (HSD & _ & H2).
    unfold new_i in E2. unfold new_d in E1. rewrite Eo in E2.
    destruct (Nat.leb_spec (k + 1) (length D)) as [Hb|Hb].
    + assert (m = k) as -> by (unfold m; lia). rewrite E1, E2.
      split; [rewrite firstn_firstn; f_equal; lia|]. split.
      * rewrite firstn_all2; [reflexivity|]. rewrite repeat_length. lia.
      * intros p Hp. lia.
    + assert (m = length D - 1)%nat as Em by (unfold m; lia).
      destruct (HS i Hi) as (HND & Hns).
      destruct (true_indices_spec E env_sort D (length D - 1) (nth i (snd g) [])) as (HT1 & HT2).
      { apply (kept_enough D i); auto. apply SS_NoDup; auto. }
      rewrite E1, E2. split; [|split].
      * rewrite firstn_app. replace (m - length O)%nat with 0%nat by lia.
        cbn [firstn]. apply app_nil_r.
      * rewrite firstn_app, repeat_length. replace (m - (length D - 1))%nat with 0%nat by lia.
        rewrite Em. cbn [firstn]. rewrite app_nil_r. apply firstn_all2. rewrite repeat_length. lia.
      * intros p Hp. unfold nbr, dst. rewrite E1, E2.
        rewrite !app_nth2 by (rewrite ?repeat_length; lia). rewrite repeat_length.
        replace (p - length O)%nat with (p - (length D - 1))%nat by lia.
        set (q := (p - (length D - 1))%nat).
        pose proof (true_indices_length E env_sort D (length D - 1) (nth i (snd g) [])) as HLt.
        assert (q < length (true_indices E D (length D - 1) (nth i (snd g) [])))%nat as Hq by lia.
        unfold take_idx. rewrite !(nth_map_gen _ _ _ _ 0%nat) by auto.
        destruct (HT2 _ (nth_In _ 0%nat Hq)) as (Hq1 & Hq2). split.
        -- intros (_ & C). apply Hs in C. tauto.
        -- eexists. split; [|split; reflexivity]. lia.
Qed.

Lemma correct_simple : simple_graph N g'.
Proof.
  intros i Hi. destruct (HS i Hi) as (HND & Hns). pose proof HG as (_ & _ & Hrow). destruct (Hrow i Hi) as (Hr1 & Hr2).
  destruct (sets_cover E HE features i Hi) as [(D0 & HD0 & HiD0 & Hs0)|(_ & Hs)].
  2:{ destruct (correct_unchanged i Hi Hs) as (_ & ->). auto. }
  assert (exists j, exact_dup features i j) as Hex.
  { pose proof (sets_good E HE features) as HF. rewrite Forall_forall in HF.
    destruct (HF D0 HD0) as (HSD & _ & H2). apply SS_NoDup in HSD.
    destruct D0 as [|a [|b D]]; simpl in H2; try lia.
    apply NoDup_cons_iff in HSD as (HSD & _).
    destruct (Nat.eq_dec a i) as [->|].
    - exists b. split; [intros ->; apply HSD; left; auto|]. apply Hs0. right; left; auto.
    - exists a. split; [auto|]. apply Hs0. left; auto. }
  destruct (correct_set i Hi Hex) as (D & HiD & (HSD & _ & H2) & Hs & _ & ->).
  pose proof (SS_NoDup _ HSD) as HND'.
  assert (NoDup (others D i) /\ ~ In i (others D i) /\ (forall x, In x (others D i) -> In x D)) as (Ho1 & Ho2 & Ho3).
  { unfold others. split; [apply NoDup_filter; auto|]. split.
    - intros C. apply filter_In in C as (_ & C). rewrite Nat.eqb_refl in C. discriminate.
    - intros x Hx. apply filter_In in Hx. tauto. }
  unfold new_i. destruct (Nat.leb_spec (k + 1) (length D)).
  - split; [apply firstn_NoDup; auto|]. intros C. apply Ho2. eapply firstn_In; eauto.
  - destruct (true_indices_spec E env_sort D (length D - 1) (nth i (snd g) [])) as (HT1 & HT2).
    { apply (kept_enough D i); auto. }
    assert (forall x, In x (take_idx 0%nat (nth i (snd g) []) (true_indices E D (length D - 1) (nth i (snd g) []))) -> ~ In x D) as Hk.
    { intros x Hx. unfold take_idx in Hx. apply in_map_iff in Hx as (p & <- & Hp). apply HT2. auto. }
    split.
    + apply NoDup_app_in.
      * auto.
      * unfold take_idx. apply NoDup_map_in; auto. intros x y Hx Hy Exy.
        rewrite NoDup_nth in HND. apply HT2 in Hx, Hy. eapply HND; eauto; tauto.
      * intros x Hx C. apply (Hk x C). auto.
    + intros C. apply in_app_or in C as [C|C]; auto. apply (Hk i C). auto.
Qed.
End C40.

(** ** C74: with a stable sort *)
Lemma SS_of_nth {A} (R : A -> A -> Prop) (l : list A) d :
  (forall a b, (a < b)%nat -> (b < length l)%nat -> R (nth a l d) (nth b l d)) -> StronglySorted R l.
Proof.
  induction l as [|x l IH]; intros H; constructor.
  - apply IH. intros a b Ha Hb. apply (H (S a) (S b)); simpl; lia.
  - apply Forall_forall. intros y Hy. apply In_nth with (d := d) in Hy as (b & Hb & <-).
    apply (H 0%nat (S b)); simpl; lia.
Qed.
Lemma SS_map {A B} (R : B -> B -> Prop) (f : A -> B) l :
  StronglySorted R (map f l) <-> StronglySorted (fun x y => R (f x) (f y)) l.
Proof.
  induction l as [|a l IH]; simpl; [split; constructor|]. split; intros H; inversion H; subst; constructor.
  - apply IH; auto.
  - rewrite Forall_forall in *. intros x Hx. apply H3. apply in_map; auto.
  - apply IH; auto.
  - rewrite Forall_forall in *. intros x Hx. apply in_map_iff in Hx as (y & <- & Hy). auto.
Qed.
Lemma take_as_map {A} (d : A) l p : take_idx d l p = map (fun i => nth i l d) p.
Proof. reflexivity. Qed.
Lemma filter_as_select {A} (f : A -> bool) l : filter f l = select (map f l) l.
Proof.
  unfold select. induction l as [|a l IH]; simpl; [reflexivity|]. destruct (f a); simpl; rewrite IH; reflexivity.
Qed.
Lemma map_combine_snd {A B C} (f : B -> C) (la : list A) (lb : list B) : length la = length lb ->
  map (fun p => f (snd p)) (combine la lb) = map f lb.
Proof.
  revert lb. induction la as [|a la IH]; intros [|b lb] H; simpl in *; try discriminate; auto.
  f_equal. apply IH. congruence.
Qed.
Lemma take_combine (d : list Q) (ix : list nat) p : length d = length ix -> (forall i, In i p -> i < length ix)%nat ->
  take_idx (0, 0%nat) (combine d ix) p = combine (take_idx 0 d p) (take_idx 0%nat ix p).
Proof.
  intros HL. induction p as [|i p IH]; intros H; simpl; [reflexivity|]. f_equal.
  - rewrite combine_nth by assumption. reflexivity.
  - apply IH. intros j Hj. apply H. right; auto.
Qed.
Lemma firstn_map {A B} (f : A -> B) n l : firstn n (map f l) = map f (firstn n l).
Proof. revert l. induction n; intros [|a l]; simpl; auto. f_equal. auto. Qed.

Lemma true_indices_stable E dup inc row : argsort_ok (bsort E) -> stable_sort (bsort E) ->
  (length row - inc <= length (filter (fun j => negb (mem j dup)) row))%nat ->
  true_indices E dup inc row =
  firstn (length row - inc) (where_ (map (fun j => negb (mem j dup)) row)).
Proof.
  intros Hs Hst Hc. set (z := length (filter (fun j => negb (mem j dup)) row)) in *.
  assert (z <= length row)%nat as Hz.
  { unfold z. clear. induction row; simpl; [lia|]. destruct (negb _); simpl; lia. }
  assert (true_indices E dup (length row - z) row = where_ (map (fun j => negb (mem j dup)) row)) as Hw.
  { destruct (true_indices_spec E Hs dup (length row - z) row) as (H1 & H2); [lia|].
    pose proof (true_indices_length E Hs dup (length row - z) row) as HL.
    apply sorted_lt_ext.
    - apply SS_of_nth with (d := 0%nat). intros a b Hab Hb.
      assert (forall c, (c < length (true_indices E dup (length row - z) row))%nat ->
              nth c (true_indices E dup (length row - z) row) 0%nat =
              nth c (bsort E (map (fun j => if mem j dup then 1 else 0) row)) 0%nat) as Hn.
      { intros c Hcc. unfold true_indices. apply nth_firstn. rewrite (argsort_length _ _ (Hs _)), map_length. lia. }
      assert (forall c, (c < length (true_indices E dup (length row - z) row))%nat ->
         nth (nth c (true_indices E dup (length row - z) row) 0%nat) (map (fun j => if mem j dup then 1 else 0) row) 0 = 0) as H0.
      { intros c Hcc. destruct (H2 _ (nth_In _ 0%nat Hcc)) as (H3 & H4).
        rewrite (nth_map_gen _ _ _ _ 0%nat) by auto. apply mem_false in H4. rewrite H4. reflexivity. }
      rewrite (Hn a), (Hn b) by lia. apply Hst; auto.
      + rewrite (argsort_length _ _ (Hs _)), map_length. lia.
      + rewrite <- (Hn a), <- (Hn b), !H0 by lia. reflexivity.
    - apply where_sorted.
    - assert (incl (true_indices E dup (length row - z) row) (where_ (map (fun j => negb (mem j dup)) row))) as Hi.
      { intros p Hp. destruct (H2 p Hp) as (H3 & H4). apply in_where. rewrite (nth_map_gen _ _ _ _ 0%nat) by auto.
        apply negb_true_iff, mem_false. auto. }
      intros x. split; [apply Hi|]. apply NoDup_length_incl; auto.
      rewrite where_length, count_true_map. fold z. lia. }
  rewrite <- Hw. unfold true_indices. rewrite firstn_firstn. f_equal.
  rewrite (argsort_length _ _ (Hs _)), map_length. lia.
Qed.

Section C74.
Context (E : env) (HE : env_ok E) (Hstable : stable_sort (bsort E)).
Context (features : list (list Q)) (k : nat) (g : graph).
Notation N := (length features).
Context (HG : graph_shape N k g) (HS : simple_graph N g).
Notation g' := (correct_knn_graph E features k g).

Lemma correct_stable i O : (i < N)%nat -> StronglySorted lt O -> (forall j, In j O <-> exact_dup features i j) ->
  let m := Nat.min k (length O) in
  skipn m (pairs g' i) = firstn (k - m) (filter (fun p => negb (mem (snd p) O)) (pairs g i)).
Proof.
  intros Hi HO1 HO2 m. pose proof HG as (_ & _ & Hrow). destruct (Hrow i Hi) as (Hr1 & Hr2).
  destruct (HS i Hi) as (HND & Hns).
  destruct O as [|o O'].
  - destruct (correct_unchanged E HE features k g HG i Hi) as (E1 & E2).
    { intros j C. apply HO2 in C. destruct C. }
    unfold m, pairs. cbn [length]. rewrite Nat.min_0_r, E1, E2. cbn [skipn].
    rewrite filter_all_in by reflexivity. rewrite firstn_all2; [reflexivity|]. rewrite combine_length. lia.
  - destruct (correct_set E HE features k g HG i Hi) as (D & HiD & HGD & Hs & E1 & E2).
    { exists o. apply HO2. left; auto. }
    destruct (others_eq features i D (o :: O') HiD HGD Hs HO1 HO2) as (Eo & Lo).
    set (O := o :: O') in *. clearbody O.
    pose proof HGD as (HSD & _ & H2).
    unfold new_i in E2. unfold new_d in E1. rewrite Eo in E2. unfold pairs. rewrite E1, E2. clear E1 E2.
    destruct (Nat.leb_spec (k + 1) (length D)) as [Hb|Hb].
    + assert (m = k) as -> by (unfold m; lia). rewrite Nat.sub_diag. cbn [firstn].
      apply skipn_all2. rewrite combine_length, repeat_length. lia.
    + assert (m = length D - 1)%nat as Em by (unfold m; lia). rewrite <- Em.
      assert (k - m <= length (filter (fun j => negb (mem j D)) (nth i (snd g) [])))%nat as Hen.
      { rewrite <- Hr2, Em. apply (kept_enough D i); auto. apply SS_NoDup; auto. }
      rewrite true_indices_stable; auto; [|apply HE|lia].
      rewrite Hr2.
      assert (filter (fun p => negb (mem (snd p) O)) (combine (nth i (fst g) []) (nth i (snd g) [])) =
              take_idx (0, 0%nat) (combine (nth i (fst g) []) (nth i (snd g) []))
                (where_ (map (fun j => negb (mem j D)) (nth i (snd g) [])))) as ->.
      { rewrite filter_as_select, (map_combine_snd (fun j => negb (mem j O))) by lia.
        rewrite (select_as_take (0, 0%nat)) by (rewrite map_length, combine_length; lia).
        f_equal. f_equal. apply map_ext_in. intros j Hj. f_equal.
        apply eq_true_iff_eq. rewrite !mem_iff, <- Eo. unfold others.
        rewrite filter_In, negb_true_iff, Nat.eqb_neq. split; [tauto|].
        intros Hj'. split; auto. intros ->. auto. }
      unfold take_idx at 3. rewrite firstn_map. fold (take_idx (0, 0%nat) (combine (nth i (fst g) []) (nth i (snd g) []))
         (firstn (k - m) (where_ (map (fun j => negb (mem j D)) (nth i (snd g) []))))).
      rewrite take_combine; [|lia|].
      2:{ intros j Hj. apply firstn_In in Hj. apply where_lt in Hj. rewrite map_length in Hj. auto. }
      assert (length O = m) as HLO by lia.
      assert (forall (a b : list Q) (c d : list nat), length a = length c -> combine (a ++ b) (c ++ d) = combine a c ++ combine b d) as Happ.
      { induction a as [|x a IH]; intros b [|y c] d Hac; simpl in *; try discriminate; auto. f_equal. apply IH. congruence. }
      rewrite Happ by (rewrite repeat_length; lia).
      rewrite skipn_app, skipn_all2 by (rewrite combine_length, repeat_length; lia).
      rewrite combine_length, repeat_length. replace (m - Nat.min m (length O))%nat with 0%nat by lia.
      reflexivity.
Qed.

Lemma map_fst_combine {A B} (la : list A) (lb : list B) : length la = length lb -> map fst (combine la lb) = la.
Proof.
  revert lb. induction la as [|a la IH]; intros [|b lb] H; simpl in *; try discriminate; auto. f_equal. auto.
Qed.

Lemma correct_sorted i : (i < N)%nat -> ordered_row (nth i (fst g) []) -> ordered_row (nth i (fst g') []).
Proof.
  intros Hi (Hpos & Hord). pose proof HG as (_ & _ & Hrow). destruct (Hrow i Hi) as (Hr1 & Hr2).
  destruct (correct_shape E HE features k g HG) as (_ & _ & Hrow'). destruct (Hrow' i Hi) as (Hr1' & Hr2').
  assert (exists O, StronglySorted lt O /\ (forall j, In j O <-> exact_dup features i j)) as (O & HO1 & HO2).
  { destruct (sets_cover E HE features i Hi) as [(D & HD & HiD & Hs)|(_ & Hn)].
    - exists (others D i). pose proof (sets_good E HE features) as HF. rewrite Forall_forall in HF.
      destruct (HF D HD) as (HSD & _). split; [apply SS_filter; auto|].
      intros j. unfold others. rewrite filter_In, negb_true_iff, Nat.eqb_neq, Hs. unfold exact_dup. intuition.
    - exists []. split; [constructor|]. intros j. split; [intros []|]. intros C. eapply Hn; eauto. }
  destruct (correct_row E HE features k g HG HS i O Hi HO1 HO2) as (_ & Hz & _).
  pose proof (correct_stable i O Hi HO1 HO2) as Ht.
  set (m := Nat.min k (length O)) in *.
  assert (nth i (fst g') [] = repeat 0 m ++ map fst (firstn (k - m) (filter (fun p => negb (mem (snd p) O)) (pairs g i)))) as ->.
  { rewrite <- Hz, <- Ht. unfold pairs. rewrite <- (firstn_skipn m (nth i (fst g') [])) at 1. f_equal.
    rewrite <- skipn_map, map_fst_combine by lia. reflexivity. }
  set (L := filter (fun p => negb (mem (snd p) O)) (pairs g i)).
  assert (StronglySorted Qle (map fst L)) as HL.
  { apply SS_map, SS_filter, SS_map. unfold pairs. rewrite map_fst_combine by lia. auto. }
  assert (forall x, In x (map fst L) -> 0 <= x) as HLp.
  { intros x Hx. apply in_map_iff in Hx as (p & <- & Hp). apply filter_In in Hp as (Hp & _).
    destruct p as (x, y). apply in_combine_l in Hp. apply Hpos. auto. }
  rewrite <- firstn_map. split.
  - intros x Hx. apply in_app_or in Hx as [Hx|Hx].
    + apply repeat_spec in Hx. subst. lra.
    + apply HLp. eapply firstn_In; eauto.
  - assert (StronglySorted Qle (firstn (k - m) (map fst L))) as HL' by (apply SS_firstn; auto).
    clear Hz Ht. induction m as [|m' IH]; simpl; [exact HL'|]. 
    assert (forall n, StronglySorted Qle (repeat 0 n ++ firstn (k - S m') (map fst L))) as Hg.
    { induction n; simpl; auto. constructor; auto. apply Forall_forall. intros x Hx.
      apply in_app_or in Hx as [Hx|Hx]; [apply repeat_spec in Hx; subst; lra|].
      apply HLp. eapply firstn_In; eauto. }
    exact (Hg (S m')).
Qed.
End C74.

(** ** Neighbours stay valid indices *)
Lemma correct_valid E features k g : env_ok E -> graph_shape (length features) k g ->
  simple_graph (length features) g -> valid_indices (length features) g ->
  valid_indices (length features) (correct_knn_graph E features k g).
Proof.
  intros HE HG HS HV i j Hi Hj.
  destruct (correct_shape E HE features k g HG) as (_ & _ & Hrow'). destruct (Hrow' i Hi) as (Hr1' & Hr2').
  destruct HG as (HG1 & HG2 & HG3) eqn:EG. clear EG. pose proof (conj HG1 (conj HG2 HG3) : graph_shape (length features) k g) as HG'.
  assert (exists O, StronglySorted lt O /\ (forall j, In j O <-> exact_dup features i j)) as (O & HO1 & HO2).
  { destruct (sets_cover E HE features i Hi) as [(D & HD & HiD & Hs)|(_ & Hn)].
    - exists (others D i). pose proof (sets_good E HE features) as HF. rewrite Forall_forall in HF.
      destruct (HF D HD) as (HSD & _). split; [apply SS_filter; auto|].
      intros j'. unfold others. rewrite filter_In, negb_true_iff, Nat.eqb_neq, Hs. unfold exact_dup. intuition.
    - exists []. split; [constructor|]. intros j'. split; [intros []|]. intros C. eapply Hn; eauto. }
  destruct (correct_row E HE features k g HG' HS i O Hi HO1 HO2) as (Ho & _ & Ht).
  set (m := Nat.min k (length O)) in *.
  apply In_nth with (d := 0%nat) in Hj as (p & Hp & <-). rewrite Hr2' in Hp.
  destruct (Nat.ltb_spec p m).
  - rewrite <- (nth_firstn m) by auto. rewrite Ho, nth_firstn by auto.
    assert (In (nth p O 0%nat) O) as Hin by (apply nth_In; lia).
    apply HO2 in Hin as (_ & _ & Hin & _). auto.
  - destruct (Ht p) as (_ & q & Hq & Eq & _); [lia|]. unfold nbr in Eq. rewrite Eq. apply (HV i); auto.
    apply nth_In. destruct (HG3 i Hi) as (_ & ->). auto.
Qed.
