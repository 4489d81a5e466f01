(** * Proofs about the near-duplicate check and the choice of the neighbour graph *)
From Coq Require Import QArith Qreals Reals List Bool Arith Permutation Sorted Lia Lqa.
From Coq Require Lra.
From Verif Require Import Base BaseFacts ModelKnn SpecKnn ProofUtil ProofCount ProofKnn.
Import ListNotations.
Open Scope Q_scope.

(** ** First pass *)
Lemma cumsum0_nth l : forall acc i, (i <= length l)%nat -> nth i (cumsum0 acc l) 0%nat = (acc + nsum (firstn i l))%nat.
Proof.
  induction l as [|x l IH]; intros acc i Hi; simpl in *.
  - assert (i = 0)%nat as -> by lia. simpl. lia.
  - destruct i; simpl; [lia|]. rewrite IH by lia. lia.
Qed.
Lemma select_app {A} m1 (l1 : list A) m2 l2 : length m1 = length l1 ->
  select (m1 ++ m2) (l1 ++ l2) = select m1 l1 ++ select m2 l2.
Proof.
  unfold select. revert l1. induction m1 as [|b m1 IH]; intros [|a l1] H; simpl in *; try discriminate; auto.
  destruct b; simpl; rewrite IH by congruence; reflexivity.
Qed.
Lemma select_concat_slice {A} (ms : list (list bool)) : forall (rows : list (list A)) i, length ms = length rows ->
  (forall j, (j < length rows)%nat -> length (nth j ms []) = length (nth j rows [])) ->
  (i < length rows)%nat ->
  slice (nsum (firstn i (map count_true ms))) (nsum (firstn (S i) (map count_true ms)))
    (select (concat ms) (concat rows)) = select (nth i ms []) (nth i rows []).
Proof.
  induction ms as [|m ms IH]; intros rows i HL Hj Hi; destruct rows as [|r rows]; simpl in HL, Hi; try lia; try discriminate.
  cbn [concat]. rewrite select_app by (apply (Hj 0%nat); simpl; lia).
  pose proof (select_length m r (Hj 0%nat ltac:(simpl; lia))) as Hs.
  destruct i as [|i].
  - cbn [firstn map nsum fold_right nth]. unfold slice. cbn [skipn]. rewrite Nat.add_0_r, Nat.sub_0_r.
    rewrite firstn_app, Hs, Nat.sub_diag. cbn [firstn]. rewrite app_nil_r. apply firstn_all2. lia.
  - assert (forall n, nsum (firstn (S n) (map count_true (m :: ms))) = (count_true m + nsum (firstn n (map count_true ms)))%nat) as Hn by reflexivity.
    rewrite (Hn i), (Hn (S i)). cbn [nth]. clear Hn.
    rewrite <- (IH rows i); [|lia| |lia].
    + unfold slice. set (x := nsum (firstn i (map count_true ms))). set (y := nsum (firstn (S i) (map count_true ms))).
      rewrite skipn_app, skipn_all2 by lia. rewrite Hs. cbn [app].
      replace (count_true m + y - (count_true m + x))%nat with (y - x)%nat by lia.
      replace (count_true m + x - count_true m)%nat with x by lia. reflexivity.
    + intros j Hjj. apply (Hj (S j)). simpl. lia.
Qed.

Lemma within_radius_row N k g r i : graph_shape N k g -> (i < N)%nat ->
  nth i (within_radius g r) [] = select (map (fun d => Qltb d r) (nth i (fst g) [])) (nth i (snd g) []).
Proof.
  intros (H1 & H2 & H3) Hi. destruct g as (ds, ix). cbn [fst snd] in *. unfold within_radius.
  rewrite nth_tab by lia. rewrite !cumsum0_nth by (rewrite !map_length; lia). cbn [plus].
  rewrite select_concat_slice.
  - rewrite (nth_map_gen _ _ _ _ []) by lia. reflexivity.
  - rewrite map_length. lia.
  - intros j Hj. rewrite (nth_map_gen _ _ _ _ []) by lia. rewrite map_length.
    destruct (H3 j ltac:(lia)). lia.
  - lia.
Qed.
Lemma within_radius_length g r : length (within_radius g r) = length (fst g).
Proof. unfold within_radius. destruct g. apply tab_length. Qed.
Lemma within_radius_in N k g r i j : graph_shape N k g -> (i < N)%nat ->
  (In j (nth i (within_radius g r) []) <-> close_edge k g r i j).
Proof.
  intros HG Hi. rewrite (within_radius_row N k) by auto. destruct HG as (H1 & H2 & H3).
  destruct (H3 i Hi) as (Hd & Hx). rewrite (select_as_take 0%nat) by (rewrite map_length; lia).
  unfold take_idx, close_edge, nbr, dst. rewrite in_map_iff. split.
  - intros (p & <- & Hp). pose proof Hp as Hp'. apply where_lt in Hp'. rewrite map_length in Hp'.
    apply in_where in Hp. rewrite (nth_map_gen _ _ _ _ 0) in Hp by auto. apply Qltb_iff in Hp.
    exists p. split; [lia|]. auto.
  - intros (p & Hp & <- & Hlt). exists p. split; auto. apply in_where.
    rewrite (nth_map_gen _ _ _ _ 0) by lia. apply Qltb_iff. auto.
Qed.
Lemma within_radius_NoDup N k g r i : graph_shape N k g -> (i < N)%nat -> NoDup (nth i (snd g) []) ->
  NoDup (nth i (within_radius g r) []).
Proof.
  intros HG Hi HN. rewrite (within_radius_row N k) by auto. destruct HG as (H1 & H2 & H3).
  destruct (H3 i Hi) as (Hd & Hx). rewrite (select_as_take 0%nat) by (rewrite map_length; lia).
  apply NoDup_map_in; [|apply where_NoDup]. intros a b Ha Hb Eab.
  apply where_lt in Ha, Hb. rewrite map_length in Ha, Hb.
  rewrite NoDup_nth in HN. eapply HN; eauto; lia.
Qed.

(** ** Second pass *)
Lemma add_back_length t s j : length (add_back t s j) = length s.
Proof. unfold add_back. destruct (mem _ _); auto. apply upd_length. Qed.
Lemma add_back_in t s j i a : (i < length s)%nat ->
  (In a (nth i (add_back t s j) []) <-> In a (nth i s []) \/ (a = t /\ i = j)).
Proof.
  intros Hi. unfold add_back. destruct (mem t (nth j s [])) eqn:Em.
  - apply mem_iff in Em. split; [tauto|]. intros [|(-> & ->)]; auto.
  - destruct (Nat.eq_dec i j) as [->|Hne].
    + rewrite nth_upd_eq by auto. rewrite in_app_iff. simpl. intuition.
    + rewrite nth_upd_neq by auto. intuition.
Qed.
Lemma add_back_NoDup t s j i : NoDup (nth i s []) -> NoDup (nth i (add_back t s j) []).
Proof.
  intros H. unfold add_back. destruct (mem t (nth j s [])) eqn:Em; auto. apply mem_false in Em.
  destruct (Nat.eq_dec i j) as [->|Hne]; [|rewrite nth_upd_neq by auto; auto].
  destruct (Nat.ltb_spec j (length s)).
  - rewrite nth_upd_eq by auto. apply NoDup_app_in; auto.
    + repeat constructor. intros [].
    + intros x Hx [<-|[]]. auto.
  - rewrite nth_overflow by (rewrite upd_length; auto). constructor.
Qed.
Lemma inner_spec t L : forall s,
  length (fold_left (add_back t) L s) = length s /\
  (forall i a, (i < length s)%nat ->
    (In a (nth i (fold_left (add_back t) L s) []) <-> In a (nth i s []) \/ (a = t /\ In i L))) /\
  (forall i, NoDup (nth i s []) -> NoDup (nth i (fold_left (add_back t) L s) [])).
Proof.
  induction L as [|j L IH]; intros s; simpl.
  - split; auto. split; [|auto]. intros; intuition.
  - destruct (IH (add_back t s j)) as (I1 & I2 & I3). rewrite add_back_length in *. split; auto. split.
    + intros i a Hi. rewrite I2 by auto. rewrite add_back_in by auto. intuition.
    + intros i Hn. apply I3, add_back_NoDup. auto.
Qed.
Lemma second_pass_spec s0 : (forall i j, (i < length s0)%nat -> In j (nth i s0 []) -> (j < length s0)%nat) ->
  length (second_pass s0) = length s0 /\
  (forall i j, (i < length s0)%nat -> (In j (nth i (second_pass s0) []) <->
     In j (nth i s0 []) \/ ((j < length s0)%nat /\ In i (nth j s0 [])))) /\
  (forall i, NoDup (nth i s0 []) -> NoDup (nth i (second_pass s0) [])).
Proof.
  intros Hv. unfold second_pass. set (n := length s0) in *.
  set (step := fun sets i => fold_left (add_back i) (nth i sets []) sets).
  assert (forall t, (t <= n)%nat ->
    length (fold_left step (seq 0 t) s0) = n /\
    (forall i j, (i < n)%nat -> (In j (nth i (fold_left step (seq 0 t) s0) []) <->
       In j (nth i s0 []) \/ ((j < t)%nat /\ In i (nth j s0 [])))) /\
    (forall i, NoDup (nth i s0 []) -> NoDup (nth i (fold_left step (seq 0 t) s0) []))) as H.
  { induction t as [|t IH]; intros Ht.
    - simpl. split; auto. split; auto. intros i j Hi. intuition; lia.
    - destruct IH as (I1 & I2 & I3); [lia|].
      rewrite seq_S, fold_left_app. cbn [plus fold_left].
      set (S := fold_left step (seq 0 t) s0) in *. change (step S t) with (fold_left (add_back t) (nth t S []) S).
      destruct (inner_spec t (nth t S []) S) as (J1 & J2 & J3).
      split; [congruence|]. split; [|intros i Hn; apply J3, I3; auto].
      intros i j Hi. rewrite J2 by lia. rewrite !I2 by lia.
      split.
      + intros [[H|(H & H')]|(-> & [H|(H & H')])]; auto; right; split; auto; lia.
      + intros [H|(H & H')]; auto. destruct (Nat.eq_dec j t) as [->|]; [right; auto|].
        left. right. split; [lia|auto]. }
  apply H. lia.
Qed.

Lemma close_edge_valid N k g r i j : graph_shape N k g -> valid_indices N g -> (i < N)%nat ->
  close_edge k g r i j -> (j < N)%nat.
Proof.
  intros (_ & _ & H3) HV Hi (p & Hp & <- & _). apply (HV i); auto. apply nth_In.
  destruct (H3 i Hi) as (_ & ->). auto.
Qed.

Theorem sets_spec N k g t m : graph_shape N k g -> valid_indices N g ->
  let sets := neighbors_within_radius g t m in
  length sets = N /\
  (forall i j, (i < N)%nat -> (In j (nth i sets []) <->
      (j < N)%nat /\ (close_edge k g (t * m) i j \/ close_edge k g (t * m) j i))) /\
  (forall i, (i < N)%nat -> NoDup (nth i (snd g) []) -> NoDup (nth i sets [])).
Proof.
  intros HG HV sets. unfold sets, neighbors_within_radius.
  assert (length (within_radius g (t * m)) = N) as HL by (rewrite within_radius_length; apply HG).
  destruct (second_pass_spec (within_radius g (t * m))) as (S1 & S2 & S3).
  { intros i j Hi Hj. rewrite HL in *. apply (within_radius_in N k) in Hj; auto. eapply close_edge_valid; eauto. }
  rewrite HL in *. split; auto. split.
  - intros i j Hi. rewrite S2 by auto. rewrite (within_radius_in N k) by auto. split.
    + intros [H|(Hj & H)].
      * split; [eapply close_edge_valid; eauto|auto].
      * split; auto. right. apply (within_radius_in N k) in H; auto.
    + intros (Hj & [H|H]); auto. right. split; auto. apply (within_radius_in N k); auto.
  - intros i Hi Hn. apply S3. eapply within_radius_NoDup; eauto.
Qed.

(** ** The check *)
Lemma SS_take (l : list Q) p : StronglySorted (fun i j => nth i l 0 <= nth j l 0) p -> StronglySorted Qle (take_idx 0 l p).
Proof. intros H. unfold take_idx. apply SS_map. exact H. Qed.
Lemma take_perm {A} (d : A) l p : Permutation p (seq 0 (length l)) -> Permutation (take_idx d l p) l.
Proof.
  intros H. unfold take_idx. rewrite H. fold (tab (length l) (fun i => nth i l d)). rewrite tab_nth. reflexivity.
Qed.
Lemma median_ok srt l : argsort_ok srt -> l <> [] -> is_median l (median srt l).
Proof.
  intros Hs Hl. destruct (Hs l) as (H1 & H2). exists (take_idx 0 l (srt l)).
  split; [apply take_perm; auto|]. split; [apply SS_take; auto|].
  unfold median. set (s := take_idx 0 l (srt l)). destruct (Nat.even (length l)) eqn:Ev.
  - right. apply Nat.even_spec in Ev as (h & Eh). exists (h - 1)%nat.
    assert (h <> 0)%nat. { intros ->. destruct l; [congruence|simpl in Eh; lia]. }
    split; [lia|]. rewrite Eh. replace (2 * h / 2)%nat with h by (rewrite Nat.mul_comm, Nat.div_mul; lia).
    replace (S (h - 1)) with h by lia. field.
  - left. assert (Nat.odd (length l) = true) as Ho by (rewrite <- Nat.negb_even, Ev; reflexivity).
    apply Nat.odd_spec in Ho as (h & Eh). exists h. split; auto. rewrite Eh.
    replace ((2 * h + 1) / 2)%nat with h; [reflexivity|].
    rewrite Nat.add_comm, Nat.mul_comm, Nat.div_add by lia. reflexivity.
Qed.
Lemma median_pos srt l : EPSILON <= median_nn_distance srt l.
Proof. unfold median_nn_distance. destruct (qmax_spec (median srt l) EPSILON) as [(? & ->)|(? & ->)]; lra. Qed.
Lemma EPS_pos : 0 < EPSILON. Proof. reflexivity. Qed.
Lemma set_threshold_spec t : set_threshold t == qmax t 0.
Proof.
  unfold set_threshold. destruct (Qltb t 0) eqn:E1; [apply Qltb_iff in E1|apply Qltb_false in E1];
  destruct (qmax_spec t 0) as [(? & ->)|(? & ->)]; lra.
Qed.

Section Check.
Context (srt : list Q -> list nat) (Hsrt : argsort_ok srt) (N k : nat) (g : graph) (threshold : Q).
Context (HG : graph_shape N k g) (HV : valid_indices N g) (HN : (0 < N)%nat).

Definition nn : list Q := map (fun row => nth 0 row 0) (fst g).
Definition med : Q := median_nn_distance srt nn.
Definition result : near_dup_result :=
  let sets := neighbors_within_radius g (set_threshold threshold) med in
  NearDup sets (mask_of N (concat sets)) (map (exp_score (1 / med)) nn).

Lemma med_pos : 0 < med. Proof. pose proof (median_pos srt nn). pose proof EPS_pos. unfold med. lra. Qed.
Lemma find_ok : find_near_duplicates srt threshold g = Ok result.
Proof.
  unfold find_near_duplicates. destruct HG as (H1 & _). rewrite H1.
  destruct (Nat.eqb_spec N 0); [lia|]. fold nn. fold med. unfold compute_scores.
  destruct (Qleb (1 / med) 0) eqn:E.
  - apply Qleb_iff in E. pose proof med_pos. exfalso.
    assert (0 < 1 / med). { apply Qlt_shift_div_l; lra. } lra.
  - reflexivity.
Qed.
Lemma nn_length : length nn = N. Proof. unfold nn. rewrite map_length. apply HG. Qed.
Lemma nth_nn i : (i < N)%nat -> nth i nn 0 = dst g i 0.
Proof. intros H. unfold nn, dst. rewrite (nth_map_gen _ _ _ _ []); auto. destruct HG as (-> & _); auto. Qed.

Lemma flags_spec i : (i < N)%nat -> (nth i (nd_flags result) false = true <-> nth i (nd_sets result) [] <> []).
Proof.
  intros Hi. cbn [result nd_flags nd_sets].
  destruct (sets_spec N k g (set_threshold threshold) med HG HV) as (S1 & S2 & _).
  set (sets := neighbors_within_radius g (set_threshold threshold) med) in *.
  rewrite nth_mask_of by auto. rewrite mem_iff, in_concat. split.
  - intros (l & Hl & Hi'). apply In_nth with (d := []) in Hl as (j & Hj & <-). rewrite S1 in Hj.
    apply S2 in Hi' as (_ & Hc); auto. intros C.
    assert (In j (nth i sets [])) as Hin by (apply S2; intuition). rewrite C in Hin. destruct Hin.
  - intros Hne. destruct (nth i sets []) as [|j l] eqn:El; [congruence|].
    assert (In j (nth i sets [])) as Hj by (rewrite El; left; auto). apply S2 in Hj as (Hj & Hc); auto.
    exists (nth j sets []). split; [apply nth_In; lia|]. apply S2; intuition.
Qed.
End Check.

(** ** Scores *)
Section Scores.
Open Scope R_scope.
Lemma Q2R_pos q : (0 < q)%Q -> 0 < Q2R q.
Proof. intros H. apply Qlt_Rlt in H. rewrite RMicromega.Q2R_0 in H. exact H. Qed.
Lemma isclose0_spec d : (0 <= d)%Q -> (isclose0 d = true <-> (d <= 1 # 100000000)%Q).
Proof.
  intros H. unfold isclose0. rewrite andb_true_iff, !Qleb_iff. split; [tauto|]. intros H'. split; auto.
  apply Qle_trans with 0%Q; auto. discriminate.
Qed.
Lemma exp_score_range t d : (0 < t)%Q -> (0 <= d)%Q -> 0 <= exp_score t d < 1.
Proof.
  intros Ht Hd. unfold exp_score. destruct (isclose0 d) eqn:E; [Lra.lra|].
  apply Q2R_pos in Ht. assert (0 < Q2R d) as Hd'.
  { apply Q2R_pos. apply not_true_iff_false in E. rewrite isclose0_spec in E by auto. Lqa.lra. }
  pose proof (exp_pos (- Q2R t * Q2R d)). split; [|Lra.lra].
  assert (exp (- Q2R t * Q2R d) < exp 0); [|rewrite exp_0 in *; Lra.lra].
  apply exp_increasing. rewrite Ropp_mult_distr_l_reverse. 
  assert (0 < Q2R t * Q2R d) by (apply Rmult_lt_0_compat; auto). Lra.lra.
Qed.
Lemma exp_score_zero t d : (0 < t)%Q -> (0 <= d)%Q -> (exp_score t d = 0 <-> (d <= 1 # 100000000)%Q).
Proof.
  intros Ht Hd. rewrite <- isclose0_spec by auto. unfold exp_score. destruct (isclose0 d) eqn:E; [tauto|].
  split; [|discriminate]. intros C. exfalso.
  apply Q2R_pos in Ht. assert (0 < Q2R d) as Hd'.
  { apply Q2R_pos. apply not_true_iff_false in E. rewrite isclose0_spec in E by auto. Lqa.lra. }
  assert (exp (- Q2R t * Q2R d) < exp 0); [|rewrite exp_0 in *; Lra.lra].
  apply exp_increasing. rewrite Ropp_mult_distr_l_reverse. 
  assert (0 < Q2R t * Q2R d) by (apply Rmult_lt_0_compat; auto). Lra.lra.
Qed.
Lemma exp_score_mono t d d' : (0 < t)%Q -> (0 <= d)%Q -> (d <= d')%Q -> exp_score t d <= exp_score t d'.
Proof.
  intros Ht Hd Hdd. destruct (isclose0 d) eqn:E.
  - apply isclose0_spec in E; auto. apply (exp_score_zero t d) in E; auto. rewrite E.
    apply exp_score_range; auto. Lqa.lra.
  - assert (isclose0 d' = false) as E'.
    { apply not_true_iff_false. apply not_true_iff_false in E. rewrite isclose0_spec in * by Lqa.lra. Lqa.lra. }
    unfold exp_score. rewrite E, E'. apply Q2R_pos in Ht. apply Qle_Rle in Hdd.
    assert (exp (- Q2R t * Q2R d') <= exp (- Q2R t * Q2R d)); [|Lra.lra].
    destruct (Req_dec (Q2R d) (Q2R d')) as [->|Hne]; [Lra.lra|]. left. apply exp_increasing.
    assert (Q2R t * Q2R d < Q2R t * Q2R d') by (apply Rmult_lt_compat_l; auto; Lra.lra). Lra.lra.
Qed.
Lemma exp_score_strict t d d' : (0 < t)%Q -> (0 <= d)%Q -> (d < d')%Q -> (1 # 100000000 < d')%Q -> exp_score t d < exp_score t d'.
Proof.
  intros Ht Hd Hdd Hb. 
  assert (isclose0 d' = false) as E'.
  { apply not_true_iff_false. rewrite isclose0_spec by Lqa.lra. Lqa.lra. }
  destruct (isclose0 d) eqn:E.
  - apply isclose0_spec in E; auto. apply (exp_score_zero t d) in E; auto. rewrite E.
    destruct (exp_score_range t d' Ht) as ([H|H] & _); auto; [Lqa.lra|].
    exfalso. symmetry in H. apply exp_score_zero in H; auto; Lqa.lra.
  - unfold exp_score. rewrite E, E'. apply Q2R_pos in Ht. apply Qlt_Rlt in Hdd.
    assert (exp (- Q2R t * Q2R d') < exp (- Q2R t * Q2R d)); [|Lra.lra].
    apply exp_increasing.
    assert (Q2R t * Q2R d < Q2R t * Q2R d') by (apply Rmult_lt_compat_l; auto; Lra.lra). Lra.lra.
Qed.
End Scores.

(** ** Concrete environments *)
Lemma insert_after_perm l i p : Permutation (insert_after l i p) (i :: p).
Proof.
  induction p as [|j t IH]; simpl; auto.
  destruct (Qltb _ _); auto. rewrite IH. apply perm_swap.
Qed.
Lemma argsort_unstable_ok : argsort_ok argsort_unstable.
Proof.
  intros l. unfold argsort_unstable, is_argsort. generalize (seq 0 (length l)) as s.
  induction s as [|a s IH]; simpl; [split; constructor|].
  destruct IH as (IH1 & IH2). split.
  - rewrite insert_after_perm. constructor. assumption.
  - clear IH1. revert IH2. generalize (fold_right (insert_after l) [] s) as p.
    induction p as [|j t IH']; simpl; intros H.
    + constructor; constructor.
    + inversion H as [|? ? H1 H2]; subst. rewrite Forall_forall in H2.
      destruct (Qltb (nth a l 0) (nth j l 0)) eqn:E.
      * apply Qltb_iff in E. constructor; auto. apply Forall_forall. intros x [->|Hx]; [lra|].
        specialize (H2 x Hx). lra.
      * apply Qltb_false in E. constructor; auto. apply Forall_forall. intros x Hx.
        apply (Permutation_in _ (insert_after_perm l a t)) in Hx as [->|Hx]; auto.
Qed.
Lemma insert_idx_stable l i p :
  (forall j, In j p -> i < j)%nat ->
  StronglySorted (fun i j => nth i l 0 <= nth j l 0) p ->
  StronglySorted (fun i j => nth i l 0 == nth j l 0 -> (i < j)%nat) p ->
  StronglySorted (fun i j => nth i l 0 == nth j l 0 -> (i < j)%nat) (insert_idx l i p).
Proof.
  induction p as [|j t IH]; simpl; intros Hi Hs H; [constructor; constructor|].
  inversion H as [|? ? H1 H2]; subst. inversion Hs as [|? ? Hs1 Hs2]; subst. rewrite Forall_forall in *.
  destruct (Qle_bool _ _) eqn:E.
  - constructor; [constructor; auto; apply Forall_forall; auto|]. apply Forall_forall.
    intros x [<-|Hx] _; auto.
  - apply Qle_bool_false in E. constructor; auto. apply Forall_forall. intros x Hx.
    apply (Permutation_in _ (insert_idx_perm l i t)) in Hx as [<-|Hx]; auto.
    intros C. exfalso. lra.
Qed.
Lemma SS_nth {A} (R : A -> A -> Prop) (l : list A) d : StronglySorted R l ->
  forall a b, (a < b)%nat -> (b < length l)%nat -> R (nth a l d) (nth b l d).
Proof.
  induction 1 as [|x l H IH F]; intros a b Hab Hb; simpl in Hb; [lia|].
  rewrite Forall_forall in F. destruct b as [|b]; [lia|]. destruct a as [|a]; simpl.
  - apply F, nth_In. lia.
  - apply IH; lia.
Qed.
Lemma argsort_ins_stable : stable_sort argsort_ins.
Proof.
  intros l a b Hab Hb Heq. revert Heq. 
  assert (StronglySorted (fun i j => nth i l 0 == nth j l 0 -> (i < j)%nat) (argsort_ins l)) as H.
  { clear. unfold argsort_ins. generalize 0%nat as s, (length l) as n. intros s n. revert s.
    induction n as [|n IH]; intros s; cbn [seq fold_right]; [constructor|].
    assert (Permutation (fold_right (insert_idx l) [] (seq (S s) n)) (seq (S s) n) /\
            StronglySorted (fun i j => nth i l 0 <= nth j l 0) (fold_right (insert_idx l) [] (seq (S s) n))) as (P1 & P2).
    { generalize (seq (S s) n) as q. induction q as [|x q (I1 & I2)]; simpl; [split; constructor|].
      split; [rewrite insert_idx_perm; constructor; auto|apply insert_idx_sorted; auto]. }
    apply insert_idx_stable; auto. intros j Hj. apply (Permutation_in _ P1) in Hj. apply in_seq in Hj. lia. }
  exact (SS_nth _ _ 0%nat H a b Hab Hb).
Qed.

Lemma row_eqb_iff a : forall b, row_eqb a b = true <-> Forall2 Qeq a b.
Proof.
  induction a as [|x a IH]; intros [|y b]; simpl.
  - split; auto.
  - split; [discriminate|]. intros H; inversion H.
  - split; [discriminate|]. intros H; inversion H.
  - rewrite andb_true_iff, Qeq_bool_iff, IH. split.
    + intros (H1 & H2). constructor; auto.
    + intros H. inversion H; auto.
Qed.
Lemma Forall2_Qeq_sym a b : Forall2 Qeq a b -> Forall2 Qeq b a.
Proof. induction 1; constructor; auto. symmetry. auto. Qed.
Lemma Forall2_Qeq_trans a b c : Forall2 Qeq a b -> Forall2 Qeq b c -> Forall2 Qeq a c.
Proof.
  intros H. revert c. induction H as [|x y l l' H1 H2 IH]; intros c Hc; inversion Hc; subst; constructor; auto.
  etransitivity; eauto.
Qed.
Lemma Forall2_Qeq_refl a : Forall2 Qeq a a.
Proof. induction a; constructor; auto. reflexivity. Qed.
Lemma first_equal_spec f i : (i < length f)%nat ->
  (first_equal f (nth i f []) < length f)%nat /\ Forall2 Qeq (nth i f []) (nth (first_equal f (nth i f [])) f []).
Proof.
  intros Hi. unfold first_equal, argmax_bool.
  set (m := map (row_eqb (nth i f [])) f).
  assert (forall d, exists j, first_true_aux m d = Some (d + j)%nat /\ (j < length m)%nat /\ nth j m false = true) as H.
  { assert (In true m) as Hin.
    { apply in_map_iff. exists (nth i f []). split; [apply row_eqb_iff, Forall2_Qeq_refl|apply nth_In; auto]. }
    clear - Hin. induction m as [|b m IH]; intros d; [destruct Hin|]. simpl. destruct b.
    - exists 0%nat. rewrite Nat.add_0_r. split; auto. split; [simpl; lia|reflexivity].
    - destruct Hin as [|Hin]; [discriminate|]. destruct (IH Hin (S d)) as (j & H1 & H2 & H3).
      exists (S j). rewrite H1. split; [f_equal; lia|]. split; [simpl; lia|auto]. }
  destruct (H 0%nat) as (j & H1 & H2 & H3). rewrite H1. cbn [plus]. unfold m in H2, H3. rewrite map_length in H2.
  split; auto. rewrite (nth_map_gen _ _ _ _ []) in H3 by auto. apply row_eqb_iff. auto.
Qed.
Lemma first_equal_ext f a b : Forall2 Qeq a b -> first_equal f a = first_equal f b.
Proof.
  intros H. unfold first_equal. f_equal. apply map_ext. intros r.
  apply eq_true_iff_eq. rewrite !row_eqb_iff. split; intros H'.
  - eapply Forall2_Qeq_trans; [apply Forall2_Qeq_sym|]; eauto.
  - eapply Forall2_Qeq_trans; eauto.
Qed.
Lemma concrete_env_ok srt : argsort_ok srt -> env_ok (concrete_env srt).
Proof.
  intros H. split; [exact H|]. split.
  - intros f. cbn [concrete_env unique_inverse]. split; [apply map_length|].
    intros i j Hi Hj. rewrite !(nth_map_gen _ _ _ _ []) by auto. unfold same_features. split.
    + intros E. split; [auto|]. split; [auto|].
      destruct (first_equal_spec f i Hi) as (_ & H1). destruct (first_equal_spec f j Hj) as (_ & H2).
      rewrite <- E in H2. eapply Forall2_Qeq_trans; [exact H1|]. apply Forall2_Qeq_sym. auto.
    + intros (_ & _ & E). apply first_equal_ext. auto.
  - intros l. cbn [concrete_env set_order]. split; [apply NoDup_nodup|]. intros u. apply nodup_In.
Qed.

(** ** Choosing the graph *)
Lemma configure_spec N k n : configure_num_neighbors N k = Ok n ->
  (match k with Some k' => (k' < N)%nat /\ (k' <> 0%nat -> n = k') /\ (k' = 0%nat -> n = Nat.min 10 (N - 1))
   | None => n = Nat.min 10 (N - 1) end).
Proof.
  unfold configure_num_neighbors. destruct k as [k'|].
  - destruct (Nat.leb_spec N k'); intros H'; inversion H'; subst. split; auto.
    destruct (Nat.eqb_spec k' 0); split; intros; congruence || auto.
  - intros H; inversion H; auto.
Qed.
Lemma create_spec E B f nk m c g n mt : env_ok E -> backend_ok B ->
  create_knn_graph E B (Some f) nk m c = Ok (g, n, mt) ->
  (0 < n < length (rows f))%nat /\
  (match nk with Some k' => (k' <> 0%nat -> n = k') /\ (k' = 0%nat -> n = Nat.min 10 (length (rows f) - 1))
   | None => n = Nat.min 10 (length (rows f) - 1) end) /\
  graph_shape (length (rows f)) n g /\ simple_graph (length (rows f)) g /\ valid_indices (length (rows f)) g /\
  (match m with Some m' => mt = m' | None => mt = decide_default_metric (length (rows f)) (ncols f) end) /\
  g = if c then correct_knn_graph E (rows f) n (B n mt (rows f)) else B n mt (rows f).
Proof.
  intros HE HB. unfold create_knn_graph.
  destruct (configure_num_neighbors (length (rows f)) nk) as [n'|] eqn:Ec; cbn [rbind]; [|discriminate].
  apply configure_spec in Ec. destruct (Nat.eqb_spec n' 0) as [|Hn0]; [discriminate|].
  intros H. set (mt' := match m with Some m' => m' | None => _ end) in *.
  assert (n' = n /\ mt' = mt) as (-> & Emt) by (split; congruence). rewrite Emt in H.
  assert (g = if c then correct_knn_graph E (rows f) n (B n mt (rows f)) else B n mt (rows f)) as Eg by congruence.
  assert (0 < n < length (rows f))%nat as Hn.
  { split; [lia|]. destruct nk as [k'|].
    - destruct Ec as (H1 & H2 & H3). destruct (Nat.eq_dec k' 0); [rewrite H3 in * by auto|rewrite H2 by auto]; lia.
    - lia. }
  destruct (HB n mt (rows f) Hn) as (B1 & B2 & B3).
  split; [auto|]. split; [destruct nk; tauto|].
  assert (graph_shape (length (rows f)) n g /\ simple_graph (length (rows f)) g /\ valid_indices (length (rows f)) g) as (G1 & G2 & G3).
  { rewrite Eg. destruct c; auto. split; [apply correct_shape; auto|]. split; [apply correct_simple; auto|apply correct_valid; auto]. }
  split; [auto|]. split; [auto|]. split; [auto|]. split; [|auto].
  unfold mt' in Emt. destruct m; auto.
Qed.
Lemma create_raises E B f nk m c :
  (exists k', nk = Some k' /\ (length (rows f) <= k')%nat) \/ (length (rows f) <= 1)%nat ->
  create_knn_graph E B (Some f) nk m c = Raise ValueError.
Proof.
  intros H. unfold create_knn_graph, configure_num_neighbors.
  destruct nk as [k'|]; cbn [rbind].
  - destruct (Nat.leb_spec (length (rows f)) k'); [reflexivity|].
    destruct H as [(k'' & H & Hk)|H]; [injection H as <-; lia|]. cbn [rbind].
    destruct (Nat.eqb_spec k' 0); [|lia].
    replace (Nat.min 10 (length (rows f) - 1)) with 0%nat by lia. reflexivity.
  - destruct H as [(k'' & H & Hk)|H]; [discriminate|].
    replace (Nat.min 10 (length (rows f) - 1)) with 0%nat by lia. reflexivity.
Qed.

Lemma metric_eqb_iff a b : metric_eqb a b = true <-> a = b.
Proof. destruct a, b; simpl; rewrite ?Nat.eqb_eq; split; intros; try congruence. Qed.

Lemma set_graph_spec E B f provided m k sg sm g n mt :
  set_knn_graph E B f provided m k sg sm = Ok (g, n, mt) ->
  (provided = Some (g, n) /\ mt = m /\ ~ metric_conflict m sm) \/
  (provided = None /\ sg = Some (g, n) /\ (k <= n)%nat /\ mt = m /\ ~ metric_conflict m sm) \/
  (exists fe mt', f = Some fe /\ mt = Some mt' /\
     create_knn_graph E B (Some fe) (Some k) m true = Ok (g, n, mt') /\
     (metric_conflict m sm \/ (provided = None /\ forall g0 n0, sg = Some (g0, n0) -> (n0 < k)%nat))).
Proof.
  unfold set_knn_graph. set (mc := match m with None => false | Some _ => _ end).
  assert (mc = true <-> metric_conflict m sm) as Hmc.
  { unfold mc, metric_conflict. destruct m as [a|].
    - destruct sm as [b|].
      + rewrite negb_true_iff, <- not_true_iff_false, metric_eqb_iff. split.
        * intros H. exists a, b. auto.
        * intros (a' & b' & E1 & E2 & H). congruence.
      + split; [discriminate|]. intros (? & ? & _ & E2 & _). discriminate.
    - split; [discriminate|]. intros (? & ? & E2 & _). discriminate. }
  unfold process_knn_graph_from_inputs. intros H.
  assert ((metric_conflict m sm \/ (provided = None /\ forall g0 n0, sg = Some (g0, n0) -> (n0 < k)%nat)) ->
    match f with None => Raise AssertionError
    | Some f => do r <- create_knn_graph E B (Some f) (Some k) m true ; let '(g, n, mt) := r in Ok (g, n, Some mt) end = Ok (g, n, mt) ->
    exists fe mt', f = Some fe /\ mt = Some mt' /\
     create_knn_graph E B (Some fe) (Some k) m true = Ok (g, n, mt') /\
     (metric_conflict m sm \/ (provided = None /\ forall g0 n0, sg = Some (g0, n0) -> (n0 < k)%nat))) as Hc.
  { intros Hw Hf. destruct f as [fe|]; [|discriminate].
    destruct (create_knn_graph E B (Some fe) (Some k) m true) as [((g1, n1), m1)|] eqn:Ecr; cbn [rbind] in Hf; [|discriminate].
    exists fe, m1. inversion Hf; subst. auto. }
  destruct provided as [(gp, np)|].
  - destruct mc eqn:Em.
    + right; right. apply Hc; [|exact H]. left. apply Hmc. reflexivity.
    + left. inversion H; subst. split; auto. split; auto. rewrite <- Hmc. congruence.
  - destruct sg as [(gs, ns)|].
    + destruct (Nat.ltb_spec ns k) as [Hlt|Hge].
      * right; right. apply Hc; [|exact H]. right. split; auto. intros g0 n0 E0. inversion E0; subst. auto.
      * destruct mc eqn:Em.
        -- right; right. apply Hc; [|exact H]. left. apply Hmc. reflexivity.
        -- right; left. inversion H; subst. split; auto. split; auto. split; auto. split; auto. rewrite <- Hmc. congruence.
    + right; right. apply Hc; [|exact H]. right. split; auto. discriminate.
Qed.

(** ** Assembled statements *)
Section Final.
Context (E : env) (HE : env_ok E) (features : list (list Q)) (k : nat) (g : graph).
Notation N := (length features).
Context (HG : graph_shape N k g) (HS : simple_graph N g) (HV : valid_indices N g).

Lemma corrected_first i j : exact_dup features i j -> (0 < k)%nat ->
  exact_dup features i (nbr (correct_knn_graph E features k g) i 0) /\
  dst (correct_knn_graph E features k g) i 0 == 0.
Proof.
  intros Hd Hk. pose proof Hd as (_ & Hi & _).
  assert (exists O, StronglySorted lt O /\ (forall j, In j O <-> exact_dup features i j)) as (O & HO1 & HO2).
  { destruct (sets_cover E HE features i Hi) as [(D & HD & HiD & Hs)|(_ & Hn)].
    - exists (others D i). pose proof (sets_good E HE features) as HF. rewrite Forall_forall in HF.
      destruct (HF D HD) as (HSD & _). split; [apply SS_filter; auto|].
      intros j'. unfold others. rewrite filter_In, negb_true_iff, Nat.eqb_neq, Hs. unfold exact_dup. intuition.
    - exfalso. eapply Hn; eauto. }
  destruct (correct_row E HE features k g HG HS i O Hi HO1 HO2) as (R1 & R2 & _).
  assert (0 < length O)%nat as HO. { apply HO2 in Hd. destruct O; [destruct Hd|simpl; lia]. }
  set (m := Nat.min k (length O)) in *. assert (0 < m)%nat as Hm by lia.
  unfold nbr, dst. rewrite <- (nth_firstn m) by auto. rewrite R1, nth_firstn by auto.
  rewrite <- (nth_firstn m (nth i (fst (correct_knn_graph E features k g)) [])) by auto. rewrite R2.
  split; [apply HO2, nth_In; auto|]. destruct m; [lia|]. simpl. reflexivity.
Qed.

Lemma exact_flagged srt t r : argsort_ok srt -> 0 < t -> (0 < k)%nat ->
  find_near_duplicates srt t (correct_knn_graph E features k g) = Ok r ->
  forall i O, (i < N)%nat -> StronglySorted lt O -> (forall j, In j O <-> exact_dup features i j) -> O <> [] ->
    nth i (nd_flags r) false = true /\ nth i (nd_scores r) 0%R = 0%R /\
    (forall j, In j (firstn k O) -> In j (nth i (nd_sets r) []) /\ In i (nth j (nd_sets r) [])).
Proof.
  intros Hsrt Ht Hk Hr i O Hi HO1 HO2 Hne.
  set (g' := correct_knn_graph E features k g) in *.
  assert (graph_shape N k g') as HG' by (apply correct_shape; auto).
  assert (valid_indices N g') as HV' by (apply correct_valid; auto).
  rewrite (find_ok srt N k g' t HG') in Hr by lia. injection Hr as <-.
  destruct (sets_spec N k g' (set_threshold t) (med srt g') HG' HV') as (S1 & S2 & _).
  destruct (correct_row E HE features k g HG HS i O Hi HO1 HO2) as (R1 & R2 & _).
  fold g' in R1, R2. set (m := Nat.min k (length O)) in *.
  assert (0 < set_threshold t * med srt g') as Hrad.
  { pose proof (med_pos srt g'). pose proof (set_threshold_spec t) as Hst.
    destruct (qmax_spec t 0) as [(? & Eq)|(? & Eq)]; rewrite Eq in Hst; [lra|].
    rewrite Hst. apply Qmult_lt_0_compat; auto. }
  assert (forall j, In j (firstn k O) -> In j (nth i (nd_sets (result srt N g' t)) []) /\ In i (nth j (nd_sets (result srt N g' t)) [])) as Hsets.
  { intros j Hj.
    assert (close_edge k g' (set_threshold t * med srt g') i j) as Hce.
    { apply In_nth with (d := 0%nat) in Hj as (p & Hp & <-). rewrite firstn_length in Hp. fold m in Hp.
      exists p. split; [lia|]. unfold nbr, dst. split.
      - rewrite <- (nth_firstn m) by auto. rewrite R1. rewrite !nth_firstn by lia. reflexivity.
      - rewrite <- (nth_firstn m) by auto. rewrite R2. rewrite nth_repeat. exact Hrad. }
    assert (j < N)%nat as HjN. { apply firstn_In, HO2 in Hj as (_ & _ & Hj & _). auto. }
    cbn [result nd_sets]. split; apply S2; auto. }
  assert (In (nth 0 O 0%nat) (firstn k O)) as H0.
  { destruct O as [|o O']; [congruence|]. destruct k; [lia|]. left. reflexivity. }
  split; [|split; [|exact Hsets]].
  - apply Hsets in H0 as (H0 & _). refine (proj2 (flags_spec srt N k g' t HG' HV' (Nat.le_lt_trans 0 i N (Nat.le_0_l i) Hi) i Hi) _).
    intros C. rewrite C in H0. destruct H0.
  - cbn [result nd_scores]. rewrite (nth_map_gen _ _ _ _ 0) by (rewrite (nn_length N k); auto).
    rewrite (nth_nn N k) by auto.
    assert (dst g' i 0 == 0) as Hz.
    { apply firstn_In, HO2 in H0. eapply corrected_first; eauto. }
    apply exp_score_zero.
    + pose proof (med_pos srt g'). apply Qlt_shift_div_l; lra.
    + lra.
    + rewrite Hz. discriminate.
Qed.
End Final.

Lemma zero_threshold srt N k g t r : graph_shape N k g -> valid_indices N g -> t <= 0 ->
  (forall i p, (i < N)%nat -> (p < k)%nat -> 0 <= dst g i p) -> (0 < N)%nat ->
  find_near_duplicates srt t g = Ok r -> forall i, (i < N)%nat -> nth i (nd_flags r) false = false.
Proof.
  intros HG HV Ht Hd HN Hr i Hi. rewrite (find_ok srt N k g t HG HN) in Hr. injection Hr as <-.
  apply not_true_iff_false. rewrite (flags_spec srt N k g t HG HV) by auto.
  destruct (sets_spec N k g (set_threshold t) (med srt g) HG HV) as (_ & S2 & _).
  intros C. apply C. cbn [result nd_sets].
  destruct (nth i (neighbors_within_radius g (set_threshold t) (med srt g)) []) as [|j l] eqn:El; [reflexivity|].
  exfalso. assert (In j (nth i (neighbors_within_radius g (set_threshold t) (med srt g)) [])) as Hj by (rewrite El; left; auto).
  apply S2 in Hj as (Hj & Hc); auto.
  assert (set_threshold t == 0) as H0.
  { rewrite set_threshold_spec. destruct (qmax_spec t 0) as [(? & ->)|(? & ->)]; lra. }
  assert (forall x, 0 <= x -> ~ x < set_threshold t * med srt g) as Hno. { intros x Hx. rewrite H0. lra. }
  destruct Hc as [(p & Hp & _ & Hlt)|(p & Hp & _ & Hlt)]; (eapply Hno; [|exact Hlt]); apply Hd; auto.
Qed.

Lemma close_edge_ext k g r r' i j : r == r' -> (close_edge k g r i j <-> close_edge k g r' i j).
Proof. intros H. unfold close_edge. split; intros (p & H1 & H2 & H3); exists p; rewrite H in * || rewrite <- H in *; auto. Qed.

Lemma near_dup_spec srt N k g t r : argsort_ok srt -> graph_shape N k g -> valid_indices N g -> (0 < N)%nat ->
  find_near_duplicates srt t g = Ok r ->
  exists q md, is_median (map (fun i => dst g i 0) (seq 0 N)) q /\ md == qmax q (1 # 1000000) /\
    length (nd_sets r) = N /\ length (nd_flags r) = N /\
    (forall i j, (i < N)%nat -> (In j (nth i (nd_sets r) []) <->
      (j < N)%nat /\ (close_edge k g (qmax t 0 * md) i j \/ close_edge k g (qmax t 0 * md) j i))) /\
    (forall i, (i < N)%nat -> NoDup (nth i (snd g) []) -> NoDup (nth i (nd_sets r) [])) /\
    (forall i, (i < N)%nat -> (nth i (nd_flags r) false = true <-> nth i (nd_sets r) [] <> [])).
Proof.
  intros Hsrt HG HV HN Hr. rewrite (find_ok srt N k g t HG HN) in Hr. injection Hr as <-.
  assert (map (fun i => dst g i 0) (seq 0 N) = nn g) as Enn.
  { apply (list_eq_nth _ _ 0).
    - rewrite map_length, seq_length, (nn_length N k); auto.
    - rewrite map_length, seq_length. intros i Hi. rewrite (nth_nn N k) by auto.
      rewrite (nth_map_gen _ _ _ _ 0%nat) by (rewrite seq_length; auto). rewrite seq_nth; auto. }
  rewrite Enn. exists (median srt (nn g)), (med srt g).
  split; [|split; [|split; [|split; [|split; [|split]]]]].
  - apply median_ok; auto. intros C. pose proof (nn_length N k g HG) as HL. rewrite C in HL. simpl in HL. lia.
  - reflexivity.
  - cbn [result nd_sets]. destruct (sets_spec N k g (set_threshold t) (med srt g) HG HV). auto.
  - cbn [result nd_flags]. apply mask_of_length.
  - intros i j Hi. destruct (sets_spec N k g (set_threshold t) (med srt g) HG HV) as (_ & S2 & _).
    cbn [result nd_sets]. rewrite S2 by auto.
    assert (set_threshold t * med srt g == qmax t 0 * med srt g) as Eq by (rewrite set_threshold_spec; reflexivity).
    rewrite !(close_edge_ext k g _ _ _ _ Eq). reflexivity.
  - destruct (sets_spec N k g (set_threshold t) (med srt g) HG HV) as (_ & _ & S3). exact S3.
  - intros i Hi. exact (flags_spec srt N k g t HG HV HN i Hi).
Qed.

Lemma near_dup_scores srt N k g t r : graph_shape N k g -> (0 < N)%nat ->
  (forall i, (i < N)%nat -> 0 <= dst g i 0) ->
  find_near_duplicates srt t g = Ok r ->
  length (nd_scores r) = N /\
  (forall i, (i < N)%nat -> 0 <= nth i (nd_scores r) 0 < 1)%R /\
  (forall i, (i < N)%nat -> (nth i (nd_scores r) 0%R = 0%R <-> dst g i 0 <= 1 # 100000000)) /\
  (forall i j, (i < N)%nat -> (j < N)%nat -> dst g i 0 <= dst g j 0 -> (nth i (nd_scores r) 0 <= nth j (nd_scores r) 0)%R) /\
  (forall i j, (i < N)%nat -> (j < N)%nat -> dst g i 0 < dst g j 0 -> 1 # 100000000 < dst g j 0 ->
     (nth i (nd_scores r) 0 < nth j (nd_scores r) 0)%R).
Proof.
  intros HG HN Hd Hr. rewrite (find_ok srt N k g t HG HN) in Hr. injection Hr as <-.
  cbn [result nd_scores].
  assert (0 < 1 / med srt g) as Ht. { pose proof (med_pos srt g). apply Qlt_shift_div_l; lra. }
  assert (forall i, (i < N)%nat -> nth i (map (exp_score (1 / med srt g)) (nn g)) 0%R = exp_score (1 / med srt g) (dst g i 0)) as Hn.
  { intros i Hi. rewrite (nth_map_gen _ _ _ _ 0) by (rewrite (nn_length N k); auto). rewrite (nth_nn N k); auto. }
  refine (conj _ (conj _ (conj _ (conj _ _)))).
  - rewrite map_length. apply (nn_length N k); auto.
  - intros i Hi. rewrite Hn by auto. apply exp_score_range; auto.
  - intros i Hi. rewrite Hn by auto. apply exp_score_zero; auto.
  - intros i j Hi Hj Hle. rewrite !Hn by auto. apply exp_score_mono; auto.
  - intros i j Hi Hj Hlt Hb. rewrite !Hn by auto. apply exp_score_strict; auto.
Qed.
Lemma near_dup_total srt g t : (0 < length (fst g))%nat -> exists r, find_near_duplicates srt t g = Ok r.
Proof.
  intros HN. unfold find_near_duplicates. destruct (Nat.eqb_spec (length (fst g)) 0); [lia|].
  fold (nn g). fold (med srt g). unfold compute_scores. destruct (Qleb (1 / med srt g) 0) eqn:E.
  - apply Qleb_iff in E. pose proof (med_pos srt g). exfalso.
    assert (0 < 1 / med srt g). { apply Qlt_shift_div_l; lra. } lra.
  - eexists. reflexivity.
Qed.
Lemma create_default_metric E B f nk c g n mt : create_knn_graph E B (Some f) nk None c = Ok (g, n, mt) ->
  (ncols f > 3 -> mt = CosineM)%nat /\
  (ncols f <= 3 -> length (rows f) <= 100 -> mt = EuclideanScipy)%nat /\
  (ncols f <= 3 -> length (rows f) > 100 -> mt = EuclideanSklearn)%nat.
Proof.
  intros H. assert (Hm : mt = decide_default_metric (length (rows f)) (ncols f)).
  { unfold create_knn_graph in H. destruct (configure_num_neighbors _ nk); cbn [rbind] in H; [|discriminate].
    repeat match type of H with (if ?b then _ else _) = _ => destruct b end; try discriminate; congruence. }
  subst mt. unfold decide_default_metric.
  destruct (Nat.ltb_spec 3 (ncols f)), (Nat.ltb_spec 100 (length (rows f))); repeat split; intros; try reflexivity; lia.
Qed.
