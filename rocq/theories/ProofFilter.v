(** * Proofs about ModelFilter *)
From Coq Require Import QArith Qabs Qround List Permutation Sorted ZArith Bool Arith Lia Lqa Setoid Morphisms.
From Verif Require Import Base BaseFacts ModelUtil ModelCount ModelRank ModelPool ModelFilter
     SpecCount SpecFilter ProofUtil ProofCount ProofPool.
Import ListNotations.
Open Scope Q_scope.
Opaque TINY_VALUE.

(** ** validation *)
Lemma two_in_length (l : list nat) a b : In a l -> In b l -> a <> b -> (2 <= length l)%nat.
Proof.
  intros Ha Hb Hn. destruct l as [|x [|y l]]; simpl in *; [tauto| |lia].
  destruct Ha as [->|[]], Hb as [->|[]]. congruence.
Qed.
Lemma valid_ok K labels pp allow : dataset K labels pp -> (allow = true \/ two_classes labels) ->
  assert_valid_inputs labels pp K allow = Ok tt.
Proof.
  intros [Hlen Hne Hlab Hrow Hprob] Hc. unfold assert_valid_inputs.
  destruct labels as [|l0 ls] eqn:El; [congruence|]. rewrite <- El in *.
  assert ((negb allow && Nat.ltb (length (unique labels)) 2)%bool = false) as ->.
  { destruct Hc as [->|(a & b & Ha & Hb & Hn)]; [reflexivity|].
    assert (2 <= length (unique labels))%nat.
    { apply two_in_length with a b; auto; apply in_unique; auto. }
    destruct (Nat.ltb_spec (length (unique labels)) 2); [lia|]. apply andb_false_r. }
  rewrite Hlen, Nat.eqb_refl. cbn [negb].
  assert (nmax labels < K)%nat by (apply Hlab, nmax_in; auto).
  destruct (Nat.ltb_spec K (nmax labels + 1)); [lia|].
  assert (Hall : forall x, In x (concat pp) -> 0 <= x /\ x <= 1).
  { intros x Hx. apply in_concat in Hx as (r & Hr & Hx). eauto. }
  assert (Qltb (qminimum (concat pp)) (0 - FLOATING_POINT_COMPARISON) = false) as ->.
  { apply Qltb_false. unfold FLOATING_POINT_COMPARISON. destruct (concat pp) eqn:E.
    - simpl. lra.
    - rewrite <- E in *. assert (In (qminimum (concat pp)) (concat pp)) by (apply qminimum_in; rewrite E; congruence).
      apply Hall in H1. lra. }
  assert (Qltb (1 + FLOATING_POINT_COMPARISON) (qmaximum (concat pp)) = false) as ->.
  { apply Qltb_false. unfold FLOATING_POINT_COMPARISON. destruct (concat pp) eqn:E.
    - simpl. lra.
    - rewrite <- E in *. assert (In (qmaximum (concat pp)) (concat pp)) by (apply qmaximum_in; rewrite E; congruence).
      apply Hall in H1. lra. }
  reflexivity.
Qed.

(** ** [_reduce_issues] *)
Lemma upd_bump_nth row l i : (l < length row)%nat ->
  nth i (upd row l (nth l row 0 + FLOATING_POINT_COMPARISON)) 0 ==
  nth i row 0 + (if Nat.eqb i l then 1 # 1000000 else 0).
Proof.
  intros Hl. destruct (Nat.eqb_spec i l).
  - subst. rewrite nth_upd_eq by auto. reflexivity.
  - rewrite nth_upd_neq by auto. ring.
Qed.

Lemma bumped_argmax row l : (l < length row)%nat ->
  argmax (upd row l (nth l row 0 + FLOATING_POINT_COMPARISON)) <> l <->
  exists j, (j < length row)%nat /\
    (nth l row 0 + (1#1000000) < nth j row 0 \/
     ((j < l)%nat /\ nth l row 0 + (1#1000000) == nth j row 0)).
Proof.
  intros Hl. set (r' := upd _ _ _).
  assert (Hlen : length r' = length row) by (unfold r'; apply upd_length).
  assert (r' <> []) by (intros E; rewrite E in Hlen; simpl in Hlen; lia).
  pose proof (argmax_spec r' H) as (Ha1 & Ha2 & Ha3).
  assert (Hn : forall i, nth i r' 0 == nth i row 0 + (if Nat.eqb i l then 1 # 1000000 else 0)).
  { intros i. apply upd_bump_nth; auto. }
  pose proof (Hn l) as Hnl. rewrite Nat.eqb_refl in Hnl.
  split.
  - intros Hne. exists (argmax r'). split; [lia|].
    pose proof (Hn (argmax r')) as Hna. destruct (Nat.eqb_spec (argmax r') l); [congruence|].
    assert (nth l r' 0 <= nth (argmax r') r' 0) by (apply Ha2; lia).
    destruct (Qlt_le_dec (nth l row 0 + (1#1000000)) (nth (argmax r') row 0)); [left; auto|].
    right. split; [|lra].
    destruct (Nat.lt_ge_cases (argmax r') l); auto.
    assert (nth l r' 0 < nth (argmax r') r' 0) by (apply Ha3; lia). lra.
  - intros (j & Hj & Hc) E.
    rewrite E in Ha2, Ha3.
    assert (nth j r' 0 <= nth l r' 0) by (apply Ha2; lia).
    pose proof (Hn j) as Hnj. destruct (Nat.eqb_spec j l).
    + subst j. destruct Hc as [Hc|(Hc & _)]; [lra|lia].
    + destruct Hc as [Hc|(Hc & He)]; [lra|].
      assert (nth j r' 0 < nth l r' 0) by (apply Ha3; lia). lra.
Qed.

Lemma reduce_length pp labels : length labels = length pp -> length (reduce_issues pp labels) = length labels.
Proof. intros. unfold reduce_issues. rewrite map_length, combine_length. lia. Qed.

Lemma reduce_false_iff K labels pp e : dataset K labels pp -> (e < length labels)%nat ->
  nth e (reduce_issues pp labels) false = false <-> clearly_beaten labels pp e.
Proof.
  intros [Hlen Hne Hlab Hrow Hprob] He. unfold reduce_issues.
  rewrite (nth_map_gen _ _ _ _ ([], 0%nat)) by (rewrite combine_length; lia).
  rewrite combine_nth by auto. cbv beta iota.
  assert (Hl : (nth e labels 0%nat < length (nth e pp []))%nat).
  { rewrite Hrow by (apply nth_In; lia). apply Hlab, nth_In; auto. }
  pose proof (bumped_argmax (nth e pp []) (nth e labels 0%nat) Hl) as Hb.
  rewrite Nat.eqb_neq. exact Hb.
Qed.

Lemma clearly_beaten_beaten labels pp e : clearly_beaten labels pp e -> beaten labels pp e.
Proof. intros (j & Hj & H). exists j. split; auto. destruct H as [H|(_ & H)]; lra. Qed.

Lemma clear_where_length a b : length a = length b -> length (clear_where a b) = length a.
Proof. intros. unfold clear_where. rewrite map_length, combine_length. lia. Qed.
Lemma clear_where_nth a b e : length a = length b ->
  nth e (clear_where a b) false = (nth e a false && negb (nth e b false))%bool.
Proof.
  intros H. unfold clear_where.
  destruct (Nat.lt_ge_cases e (length a)).
  - rewrite (nth_map_gen _ _ _ _ (false, false)) by (rewrite combine_length; lia).
    rewrite combine_nth by auto. cbn [fst snd]. destruct (nth e b false), (nth e a false); reflexivity.
  - rewrite !nth_overflow by (rewrite ?map_length, ?combine_length; lia). reflexivity.
Qed.

(** ** scatter / assemble *)
Lemma select_scatter_same {A} m : forall (dst sub : list A), length m = length dst ->
  length sub = count_true m -> select m (scatter m dst sub) = sub.
Proof.
  induction m as [|b m IH]; intros [|x dst] sub H1 H2; simpl in *; try lia.
  - unfold count_true in H2. simpl in H2. destruct sub; [reflexivity|simpl in H2; lia].
  - rewrite count_true_cons in H2. destruct b.
    + destruct sub as [|y sub]; [simpl in H2; lia|]. unfold select in *. simpl. f_equal. apply IH; simpl in *; lia.
    + unfold select in *. simpl. apply IH; lia.
Qed.
Lemma scatter_length {A} m : forall (dst sub : list A), length (scatter m dst sub) = length dst.
Proof.
  induction m as [|b m IH]; intros [|x dst] sub; simpl; auto. destruct b; [destruct sub|]; simpl; rewrite IH; auto.
Qed.
Lemma select_scatter_other {A} (m m' : list bool) : forall (dst sub : list A),
  length m = length dst -> length m' = length dst ->
  (forall i, nth i m false = true -> nth i m' false = false) ->
  select m (scatter m' dst sub) = select m dst.
Proof.
  revert m'. induction m as [|b m IH]; intros [|b' m'] [|x dst] sub H1 H2 Hd; simpl in *; try lia; auto.
  assert (Hd' : forall i, nth i m false = true -> nth i m' false = false) by (intros i; apply (Hd (S i))).
  specialize (Hd 0%nat). simpl in Hd. unfold select in *. simpl.
  destruct b, b'; simpl; try (specialize (Hd eq_refl); discriminate); try (destruct sub; simpl); rewrite ?IH by (auto; lia); reflexivity.
Qed.

Definition cls (k : nat) (labels : list nat) : list bool := map (fun l => Nat.eqb l k) labels.
Lemma cls_length k labels : length (cls k labels) = length labels.
Proof. unfold cls. apply map_length. Qed.
Lemma cls_nth k labels e : (e < length labels)%nat -> nth e (cls k labels) false = Nat.eqb (nth e labels 0%nat) k.
Proof. intros. unfold cls. rewrite (nth_map_gen _ _ _ _ 0%nat) by auto. reflexivity. Qed.
Lemma cls_true k labels e : nth e (cls k labels) false = true <-> (e < length labels)%nat /\ nth e labels 0%nat = k.
Proof.
  split.
  - intros H. destruct (Nat.lt_ge_cases e (length labels)) as [Hl|Hl].
    + split; auto. rewrite cls_nth in H by auto. apply Nat.eqb_eq; auto.
    + rewrite nth_overflow in H by (rewrite cls_length; auto). discriminate.
  - intros (Hl & <-). rewrite cls_nth by auto. apply Nat.eqb_refl.
Qed.
Lemma count_cls k labels : count_true (cls k labels) = n_labelled k labels.
Proof.
  unfold cls. rewrite count_true_map. induction labels; simpl; auto. destruct (Nat.eqb a k); simpl; auto.
Qed.

Lemma assemble_length labels masks : forall k acc, length (assemble_masks_from k labels masks acc) = length acc.
Proof.
  induction masks; intros k acc; simpl; auto. rewrite IHmasks. destruct (Nat.ltb 1 (length a)); auto. apply scatter_length.
Qed.

Lemma assemble_from_select labels masks : forall s acc k,
  length acc = length labels ->
  (forall i, (i < length masks)%nat -> length (nth i masks []) = n_labelled (s + i) labels) ->
  select (cls k labels) (assemble_masks_from s labels masks acc) =
  if (Nat.leb s k && Nat.ltb k (s + length masks) && Nat.ltb 1 (n_labelled k labels))%bool
  then nth (k - s) masks [] else select (cls k labels) acc.
Proof.
  induction masks as [|m ms IH]; intros s acc k Hacc Hm; simpl assemble_masks_from.
  - replace (s + length (@nil (list bool)))%nat with s by (simpl; lia).
    destruct (Nat.leb_spec s k), (Nat.ltb_spec k s); try lia; reflexivity.
  - set (acc' := if Nat.ltb 1 (length m) then scatter (map (fun l => Nat.eqb l s) labels) acc m else acc).
    assert (Hacc' : length acc' = length labels).
    { unfold acc'. destruct (Nat.ltb 1 (length m)); auto. rewrite scatter_length; auto. }
    rewrite IH; auto.
    2:{ intros i Hi. replace (S s + i)%nat with (s + S i)%nat by lia. apply (Hm (S i)). simpl; lia. }
    pose proof (Hm 0%nat) as H0. simpl in H0. rewrite Nat.add_0_r in H0. specialize (H0 ltac:(lia)).
    destruct (Nat.eq_dec k s) as [->|Hks].
    + destruct (Nat.leb_spec (S s) s); [lia|]. cbn [andb].
      destruct (Nat.leb_spec s s); [|lia]. destruct (Nat.ltb_spec s (s + length (m :: ms))); [|simpl in *; lia].
      cbn [andb]. rewrite Nat.sub_diag. cbn [nth]. unfold acc'. rewrite H0.
      destruct (Nat.ltb_spec 1 (n_labelled s labels)); auto.
      apply select_scatter_same; [rewrite map_length; auto|]. fold (cls s labels). rewrite count_cls; auto.
    + assert (Hsel : select (cls k labels) acc' = select (cls k labels) acc).
      { unfold acc'. destruct (Nat.ltb 1 (length m)); auto. fold (cls s labels).
        apply select_scatter_other; rewrite ?cls_length; auto.
        intros i Hi. apply cls_true in Hi as (Hi & E). rewrite cls_nth by auto. apply Nat.eqb_neq. congruence. }
      rewrite Hsel.
      destruct (Nat.leb_spec (S s) k), (Nat.leb_spec s k); try lia; cbn [andb]; auto.
      replace (S s + length ms)%nat with (s + length (m :: ms))%nat by (simpl; lia).
      replace (k - s)%nat with (S (k - S s)) by lia. cbn [nth]. reflexivity.
Qed.

Lemma select_falses m : forall n, length m = n ->
  select m (mask_of n []) = mask_of (count_true m) [].
Proof.
  assert (Hf : forall n, mask_of n [] = repeat false n).
  { intros n. unfold mask_of. generalize 0%nat. induction n; intros s; simpl; f_equal; auto. }
  intros n <-. rewrite !Hf. induction m as [|b m IH]; auto.
  rewrite count_true_cons. unfold select in *. simpl. destruct b; simpl; rewrite IH; reflexivity.
Qed.

Lemma assemble_select labels masks K k :
  length masks = K -> (k < K)%nat ->
  (forall i, (i < K)%nat -> length (nth i masks []) = n_labelled i labels) ->
  select (cls k labels) (assemble_masks labels masks) =
  if Nat.ltb 1 (n_labelled k labels) then nth k masks [] else mask_of (n_labelled k labels) [].
Proof.
  intros HK Hk Hm. unfold assemble_masks. rewrite assemble_from_select.
  - cbn [Nat.leb andb]. rewrite HK. destruct (Nat.ltb_spec k (0 + K)); [|lia]. cbn [andb].
    rewrite Nat.sub_0_r. destruct (Nat.ltb 1 (n_labelled k labels)); auto.
    rewrite select_falses by apply cls_length. rewrite count_cls. reflexivity.
  - apply mask_of_length.
  - intros i Hi. apply Hm. lia.
Qed.

(** positions inside a class *)
Definition rank_in (m : list bool) (e : nat) : nat := count_true (firstn e m).
Lemma select_nth {A} m : forall (l : list A) e d, length m = length l -> nth e m false = true ->
  nth (rank_in m e) (select m l) d = nth e l d.
Proof.
  unfold rank_in. induction m as [|b m IH]; intros [|x l] e d H Hn; simpl in *; try lia.
  - destruct e; discriminate.
  - destruct e as [|e].
    + subst b. reflexivity.
    + simpl. rewrite count_true_cons. unfold select in *. simpl. destruct b; simpl; apply IH; auto.
Qed.
Lemma rank_in_lt m : forall e, nth e m false = true -> (rank_in m e < count_true m)%nat.
Proof.
  unfold rank_in. induction m as [|b m IH]; intros e Hn; simpl in *.
  - destruct e; discriminate.
  - destruct e as [|e]; simpl; rewrite !count_true_cons.
    + subst b. unfold count_true at 1. simpl. lia.
    + specialize (IH e Hn). lia.
Qed.
Lemma rank_in_where m e : nth e m false = true -> nth (rank_in m e) (where_ m) 0%nat = e.
Proof.
  intros H. rewrite <- select_seq. rewrite select_nth by (rewrite ?seq_length; auto).
  apply seq_nth. destruct (Nat.lt_ge_cases e (length m)); auto. rewrite nth_overflow in H by auto. discriminate.
Qed.
Lemma where_rank m r : (r < count_true m)%nat ->
  nth (nth r (where_ m) 0%nat) m false = true /\ rank_in m (nth r (where_ m) 0%nat) = r.
Proof.
  intros Hr. rewrite <- where_length in Hr.
  assert (Hin : In (nth r (where_ m) 0%nat) (where_ m)) by (apply nth_In; auto).
  apply in_where in Hin. split; auto.
  pose proof (rank_in_where m _ Hin) as E.
  pose proof (rank_in_lt m _ Hin) as Hlt. rewrite <- where_length in Hlt.
  apply (proj1 (NoDup_nth (where_ m) 0%nat) (where_NoDup m)); auto.
Qed.

Lemma n_flagged_select k labels : forall mask, length labels = length mask ->
  n_flagged k labels mask = count_true (select (cls k labels) mask).
Proof.
  induction labels as [|l ls IH]; intros [|b bs] H; simpl in *; try lia; auto.
  rewrite IH by lia. unfold select. simpl. destruct (Nat.eqb l k); simpl; auto.
  destruct b; reflexivity.
Qed.

(** ** running the per-class step *)
Lemma run_per_class_ok {A B} nj K sched (f : A -> B) args r :
  run_per_class nj K sched f args = Ok r -> r = map f args.
Proof.
  unfold run_per_class. destruct (Nat.ltb 1 nj).
  - apply pool_map_ok. lia.
  - intros H. inversion H. reflexivity.
Qed.
Lemma run_per_class_cases {A B} nj K sched (f : A -> B) args :
  run_per_class nj K sched f args = Ok (map f args) \/ run_per_class nj K sched f args = Raise Diverges.
Proof.
  destruct (run_per_class nj K sched f args) eqn:E.
  - left. f_equal. eapply run_per_class_ok; eauto.
  - right. unfold run_per_class in E. destruct (Nat.ltb 1 nj); [|discriminate]. unfold pool_map in E.
    destruct (pool_finished _); congruence.
Qed.

Lemma prune_by_class_length srt min_ex k pp c : length (prune_by_class srt min_ex (k, (pp, c))) = length pp.
Proof.
  unfold prune_by_class. destruct (Nat.ltb min_ex (length pp)); [destruct (1 <=? _)%Z|]; apply mask_of_length.
Qed.

Lemma class_masks_lengths (f : nat * (list (list Q) * list Z) -> list bool) labels pp K pcm :
  length labels = length pp ->
  (forall k pk c, length (f (k, (pk, c))) = length pk) ->
  forall i, (i < K)%nat -> length (nth i (map f (class_args labels pp K pcm)) []) = n_labelled i labels.
Proof.
  intros Hl Hf i Hi. unfold class_args. rewrite map_tab, nth_tab by auto. rewrite Hf.
  fold (cls i labels). rewrite select_length by (rewrite cls_length; auto). apply count_cls.
Qed.

Lemma nth_col k pp r : nth r (col k pp) 0 = nth k (nth r pp []) 0.
Proof.
  unfold col. destruct (Nat.lt_ge_cases r (length pp)).
  - apply (nth_map_gen (fun r => nth k r 0)); auto.
  - rewrite !nth_overflow with (n := r) by (rewrite ?map_length; auto). destruct k; reflexivity.
Qed.

Lemma nth_zcol pcm j k : nth j (zcol k pcm) 0%Z = zget pcm j k.
Proof.
  unfold zcol, zget. destruct (Nat.lt_ge_cases j (length pcm)).
  - apply (nth_map_gen (fun r => nth k r 0%Z)); auto.
  - rewrite !nth_overflow with (n := j) by (rewrite ?map_length; auto). destruct k; reflexivity.
Qed.

(** C11 *)
Lemma mask_of_flag n idx i : nth i (mask_of n idx) false = true <-> (i < n)%nat /\ In i idx.
Proof.
  destruct (Nat.lt_ge_cases i n).
  - rewrite nth_mask_of by auto. rewrite mem_iff. tauto.
  - rewrite nth_overflow by (rewrite mask_of_length; auto). split; [discriminate|lia].
Qed.

Lemma prune_by_class_count srt min_ex k pp c : argsort_ok srt ->
  count_true (prune_by_class srt min_ex (k, (pp, c))) =
  if Nat.leb (length pp) min_ex then 0%nat
  else Nat.min (Z.to_nat (Z.of_nat (length pp) - nth k c 0%Z)) (length pp).
Proof.
  intros Hs. unfold prune_by_class. rewrite Nat.ltb_antisym.
  assert (Hz : count_true (mask_of (length pp) []) = 0%nat).
  { rewrite count_mask_of; [reflexivity|constructor|intros i []]. }
  destruct (Nat.leb_spec (length pp) min_ex); cbn [negb]; auto.
  destruct (Z.leb_spec 1 (Z.of_nat (length pp) - nth k c 0%Z)%Z).
  - rewrite count_mask_of.
    + rewrite firstn_length, (argsort_length _ _ (Hs _)). unfold col. rewrite map_length. reflexivity.
    + apply firstn_NoDup. eapply argsort_NoDup, Hs.
    + intros i Hi. apply firstn_In in Hi. apply (argsort_in _ _ (Hs _)) in Hi. unfold col in Hi. rewrite map_length in Hi. auto.
  - rewrite Hz. lia.
Qed.

Lemma prune_by_class_order srt min_ex k pp c r r' : argsort_ok srt ->
  nth r (prune_by_class srt min_ex (k, (pp, c))) false = true ->
  nth r' (prune_by_class srt min_ex (k, (pp, c))) false = false -> (r' < length pp)%nat ->
  nth k (nth r pp []) 0 <= nth k (nth r' pp []) 0.
Proof.
  intros Hs. unfold prune_by_class.
  destruct (Nat.ltb min_ex (length pp)); [destruct (1 <=? _)%Z|]; try (intros H; apply mask_of_flag in H as (_ & []); fail).
  intros H1 H2 Hr'. apply mask_of_flag in H1 as (Hr & H1).
  rewrite nth_mask_of in H2 by auto. apply mem_false in H2.
  rewrite <- !nth_col. eapply (argsort_firstn _ _ _ (Hs _)); eauto.
  unfold col. rewrite map_length. auto.
Qed.

Lemma by_class_spec srt labels pp K pcm o M : argsort_ok srt -> dataset K labels pp ->
  by_class_mask srt labels pp K pcm o = Ok M ->
  length M = length labels /\
  (forall k, (k < K)%nat -> (2 <= n_labelled k labels)%nat ->
    n_flagged k labels M =
      (if Nat.leb (n_labelled k labels) (min_examples_per_class o) then 0%nat
       else Nat.min (Z.to_nat (Z.of_nat (n_labelled k labels) - zget pcm k k)) (n_labelled k labels))) /\
  (forall k, (k < K)%nat -> (n_labelled k labels < 2)%nat -> n_flagged k labels M = 0%nat) /\
  (forall e e', (e < length labels)%nat -> (e' < length labels)%nat -> label_of labels e = label_of labels e' ->
     flagged M e -> ~ flagged M e' ->
     prob_of pp e (label_of labels e) <= prob_of pp e' (label_of labels e')).
Proof.
  intros Hs [Hlen Hne Hlab Hrow Hprob]. unfold by_class_mask.
  destruct (run_per_class _ _ _ _ _) as [masks|] eqn:E; cbn [rbind]; [|discriminate].
  apply run_per_class_ok in E. intros H; inversion H; subst M; clear H.
  assert (HL : length (assemble_masks labels masks) = length labels).
  { unfold assemble_masks. rewrite assemble_length, mask_of_length. reflexivity. }
  assert (Hlm : length masks = K).
  { rewrite E. unfold class_args. rewrite map_length, tab_length. reflexivity. }
  assert (Hmlen : forall i, (i < K)%nat -> length (nth i masks []) = n_labelled i labels).
  { rewrite E. apply class_masks_lengths; auto. intros; apply prune_by_class_length. }
  assert (Hmk : forall k, (k < K)%nat -> nth k masks [] =
     prune_by_class srt (min_examples_per_class o) (k, (select (cls k labels) pp, zcol k pcm))).
  { intros k Hk. rewrite E. unfold class_args. rewrite map_tab, nth_tab by auto. reflexivity. }
  assert (Hsl : forall k, length (select (cls k labels) pp) = n_labelled k labels).
  { intros k. rewrite select_length by (rewrite cls_length; auto). apply count_cls. }
  assert (Hzc : forall k, nth k (zcol k pcm) 0%Z = zget pcm k k).
  { intros k. apply nth_zcol. }
  split; auto. split; [|split].
  - intros k Hk Hn. rewrite n_flagged_select by auto. rewrite (assemble_select labels masks K) by auto.
    destruct (Nat.ltb_spec 1 (n_labelled k labels)); [|lia].
    rewrite Hmk, prune_by_class_count, Hsl, Hzc by auto. reflexivity.
  - intros k Hk Hn. rewrite n_flagged_select by auto. rewrite (assemble_select labels masks K) by auto.
    destruct (Nat.ltb_spec 1 (n_labelled k labels)); [lia|].
    rewrite count_mask_of; [reflexivity|constructor|intros i []].
  - intros e e' He He' El Hf Hnf. unfold flagged, label_of, prob_of in *.
    set (k := nth e labels 0%nat) in *.
    assert (Hk : (k < K)%nat) by (apply Hlab, nth_In; auto).
    assert (Hce : nth e (cls k labels) false = true) by (apply cls_true; auto).
    assert (Hce' : nth e' (cls k labels) false = true) by (apply cls_true; auto).
    rewrite <- (select_nth (cls k labels) (assemble_masks labels masks) e false) in Hf by (rewrite ?cls_length; auto).
    rewrite <- (select_nth (cls k labels) (assemble_masks labels masks) e' false) in Hnf by (rewrite ?cls_length; auto).
    rewrite (assemble_select labels masks K) in Hf, Hnf by auto.
    destruct (Nat.ltb_spec 1 (n_labelled k labels)).
    + rewrite Hmk in Hf, Hnf by auto. apply not_true_is_false in Hnf.
      pose proof (prune_by_class_order _ _ _ _ _ _ _ Hs Hf Hnf) as G.
      rewrite <- El. rewrite !select_nth in G by (rewrite ?cls_length; auto). apply G.
      rewrite Hsl, <- count_cls. apply rank_in_lt. auto.
    + apply mask_of_flag in Hf as (_ & []).
Qed.

(** C12 *)
Definition count_step (srt : list Q -> list nat) (k : nat) (pp : list (list Q)) (c : list Z)
           (mask : list bool) (j : nat) : list bool :=
  let num2prune := nth j c 0%Z in
  if (negb (Nat.eqb k j) && (0 <? num2prune)%Z)%bool
  then
    let margin := map (fun r => nth j r 0 - nth k r 0) pp in
    let order := srt (map Qopp margin) in
    map (fun bi => (fst bi || mem (snd bi) (firstn (Z.to_nat num2prune) order))%bool)
        (combine mask (seq 0 (length pp)))
  else mask.
Definition margin_top (srt : list Q -> list nat) (k j : nat) (pp : list (list Q)) (c : Z) : list nat :=
  firstn (Z.to_nat c) (srt (map Qopp (map (fun r => nth j r 0 - nth k r 0) pp))).

Lemma count_step_length srt k pp c mask j : length mask = length pp -> length (count_step srt k pp c mask j) = length pp.
Proof.
  intros H. unfold count_step. destruct (_ && _)%bool; auto. rewrite map_length, combine_length, seq_length. lia.
Qed.
Lemma count_step_nth srt k pp c mask j r : length mask = length pp -> (r < length pp)%nat ->
  nth r (count_step srt k pp c mask j) false = true <->
  nth r mask false = true \/ (j <> k /\ (0 < nth j c 0)%Z /\ In r (margin_top srt k j pp (nth j c 0%Z))).
Proof.
  intros H Hr. unfold count_step. destruct (Nat.eqb_spec k j) as [->|Hn]; cbn [negb andb].
  - tauto.
  - destruct (Z.ltb_spec 0 (nth j c 0%Z)) as [Hz|Hz].
    + rewrite (nth_map_gen _ _ _ _ (false, 0%nat)) by (rewrite combine_length, seq_length; lia).
      rewrite combine_nth by (rewrite seq_length; auto). cbn [fst snd]. rewrite seq_nth by auto.
      rewrite orb_true_iff, mem_iff. fold (margin_top srt k j pp (nth j c 0%Z)). cbn [Nat.add].
      split; intros [G|G]; auto. right; tauto.
    + split; auto. intros [G|(_ & G & _)]; [auto|lia].
Qed.

Lemma fold_count_spec srt k pp c js : forall mask, length mask = length pp ->
  length (fold_left (count_step srt k pp c) js mask) = length pp /\
  forall r, (r < length pp)%nat ->
   (nth r (fold_left (count_step srt k pp c) js mask) false = true <->
    nth r mask false = true \/
    exists j, In j js /\ j <> k /\ (0 < nth j c 0)%Z /\ In r (margin_top srt k j pp (nth j c 0%Z))).
Proof.
  induction js as [|j js IH]; intros mask H; simpl.
  - split; auto. intros r Hr. split; auto. intros [G|(j & [] & _)]; auto.
  - destruct (IH (count_step srt k pp c mask j)) as (IH1 & IH2); [apply count_step_length; auto|].
    split; auto. intros r Hr. rewrite IH2, count_step_nth by auto. split.
    + intros [[G|G]|(j' & G1 & G2)]; auto; right; eauto.
    + intros [G|(j' & [->|G1] & G2)]; auto. right. eauto.
Qed.

Lemma prune_by_count_unfold srt min_ex K k pp c :
  prune_by_count srt min_ex K (k, (pp, c)) =
  if Nat.leb (length pp) min_ex then mask_of (length pp) []
  else fold_left (count_step srt k pp c) (seq 0 K) (mask_of (length pp) []).
Proof. reflexivity. Qed.

Lemma prune_by_count_length srt min_ex K k pp c : length (prune_by_count srt min_ex K (k, (pp, c))) = length pp.
Proof.
  rewrite prune_by_count_unfold. destruct (Nat.leb _ _); [apply mask_of_length|].
  apply fold_count_spec, mask_of_length.
Qed.

Lemma margin_top_class srt labels pp k j c : argsort_ok srt -> length labels = length pp ->
  top_of_class k labels (fun e => prob_of pp e j - prob_of pp e k) (Z.to_nat c)
    (map (fun r => nth r (where_ (cls k labels)) 0%nat)
         (margin_top srt k j (select (cls k labels) pp) c)).
Proof.
  intros Hs Hlen. unfold margin_top.
  set (sub := select (cls k labels) pp). set (ms := map Qopp _).
  assert (Hms : length ms = n_labelled k labels).
  { unfold ms. rewrite !map_length. unfold sub. rewrite select_length by (rewrite cls_length; auto). apply count_cls. }
  pose proof (Hs ms) as Hms_sort.
  assert (Hlt : forall r, In r (firstn (Z.to_nat c) (srt ms)) -> (r < count_true (cls k labels))%nat).
  { intros r Hr. apply firstn_In in Hr. apply (argsort_in _ _ Hms_sort) in Hr. rewrite count_cls. lia. }
  assert (Hval : forall e, nth e (cls k labels) false = true ->
     nth (rank_in (cls k labels) e) ms 0 = - (prob_of pp e j - prob_of pp e k)).
  { intros e He. pose proof (rank_in_lt _ _ He) as Hr. rewrite count_cls in Hr.
    unfold ms. rewrite map_map. rewrite (nth_map_gen _ _ _ _ []).
    2:{ unfold sub. rewrite select_length by (rewrite cls_length; auto). rewrite count_cls. auto. }
    unfold sub. rewrite select_nth by (rewrite ?cls_length; auto). reflexivity. }
  split; [|split; [|split]].
  - assert (Hnd : NoDup (firstn (Z.to_nat c) (srt ms))).
    { apply firstn_NoDup. eapply argsort_NoDup; eauto. }
    revert Hlt Hnd. generalize (firstn (Z.to_nat c) (srt ms)). intros l Hlt Hnd.
    induction Hnd as [|r l Hr Hnd IH]; simpl; constructor.
    + intros Hin. apply in_map_iff in Hin as (r' & E & Hr').
      apply (f_equal (rank_in (cls k labels))) in E.
      rewrite !(fun r H => proj2 (where_rank (cls k labels) r H)) in E by (apply Hlt; simpl; auto).
      congruence.
    + apply IH. intros; apply Hlt; simpl; auto.
  - rewrite map_length, firstn_length, (argsort_length _ _ Hms_sort), Hms. reflexivity.
  - intros e He. apply in_map_iff in He as (r & <- & Hr).
    destruct (where_rank (cls k labels) r (Hlt r Hr)) as (Hc & _). apply cls_true in Hc. exact Hc.
  - intros e e' He He' Hk Hnin. apply in_map_iff in He as (r & <- & Hr).
    destruct (where_rank (cls k labels) r (Hlt r Hr)) as (Hc & Hrk).
    assert (Hc' : nth e' (cls k labels) false = true) by (apply cls_true; auto).
    assert (G : nth r ms 0 <= nth (rank_in (cls k labels) e') ms 0).
    { eapply (argsort_firstn _ _ _ Hms_sort); eauto.
      - rewrite Hms, <- count_cls. apply rank_in_lt; auto.
      - intros Hin. apply Hnin. apply in_map_iff. exists (rank_in (cls k labels) e'). split; auto. apply rank_in_where; auto. }
    rewrite (Hval _ Hc'), <- Hrk, (Hval _ Hc) in G. lra.
Qed.

Lemma n_flagged_bound k labels mask : length labels = length mask -> forall Ts : list (list nat),
  (forall e, (e < length labels)%nat -> label_of labels e = k -> flagged mask e -> exists T, In T Ts /\ In e T) ->
  (n_flagged k labels mask <= nsum (map (@length nat) Ts))%nat.
Proof.
  intros Hlen Ts H. rewrite n_flagged_select by auto. rewrite <- where_length.
  set (idx := map (fun r => nth r (where_ (cls k labels)) 0%nat) (where_ (select (cls k labels) mask))).
  assert (Hincl : incl idx (concat Ts)).
  { intros e He. apply in_map_iff in He as (r & <- & Hr). apply in_where in Hr.
    assert (Hr' : (r < count_true (cls k labels))%nat).
    { rewrite <- (select_length (cls k labels) mask) by (rewrite cls_length; auto).
      destruct (Nat.lt_ge_cases r (length (select (cls k labels) mask))); auto. rewrite nth_overflow in Hr by auto. discriminate. }
    destruct (where_rank (cls k labels) r Hr') as (Hc & Hrk). apply cls_true in Hc as Hc2. destruct Hc2 as (Hc1 & Hc2).
    destruct (H (nth r (where_ (cls k labels)) 0%nat)) as (T & HT & HeT); auto.
    - unfold flagged. rewrite <- (select_nth (cls k labels) mask _ false) by (rewrite ?cls_length; auto). rewrite Hrk. auto.
    - apply in_concat. eauto. }
  assert (Hnd : NoDup idx).
  { unfold idx. assert (Hlt : forall r, In r (where_ (select (cls k labels) mask)) -> (r < count_true (cls k labels))%nat).
    { intros r Hr. apply where_lt in Hr. rewrite select_length in Hr by (rewrite cls_length; auto). auto. }
    pose proof (where_NoDup (select (cls k labels) mask)) as Hd. revert Hlt Hd.
    generalize (where_ (select (cls k labels) mask)). intros l Hlt Hd.
    induction Hd as [|r l Hr Hnd IH]; simpl; constructor.
    - intros Hin. apply in_map_iff in Hin as (r' & E & Hr').
      apply (f_equal (rank_in (cls k labels))) in E.
      rewrite !(fun r H => proj2 (where_rank (cls k labels) r H)) in E by (apply Hlt; simpl; auto).
      congruence.
    - apply IH. intros; apply Hlt; simpl; auto. }
  apply NoDup_incl_length in Hincl; auto. unfold idx in Hincl. rewrite map_length in Hincl.
  assert (length (concat Ts) = nsum (map (@length nat) Ts)) as <-; auto.
  clear. induction Ts; simpl; auto. rewrite app_length, IHTs. reflexivity.
Qed.

Lemma by_noise_rate_spec srt labels pp K pcm o M : argsort_ok srt -> dataset K labels pp ->
  by_noise_rate_mask srt labels pp K pcm o = Ok M ->
  length M = length labels /\
  (forall k, (k < K)%nat -> (n_labelled k labels <= Nat.max 1 (min_examples_per_class o))%nat -> n_flagged k labels M = 0%nat) /\
  (forall k, (k < K)%nat -> (Nat.max 1 (min_examples_per_class o) < n_labelled k labels)%nat ->
    (exists T : nat -> list nat,
       (forall j, (j < K)%nat -> j <> k -> (0 < zget pcm j k)%Z ->
          top_of_class k labels (fun e => prob_of pp e j - prob_of pp e k) (Z.to_nat (zget pcm j k)) (T j)) /\
       (forall e, (e < length labels)%nat -> label_of labels e = k ->
          (flagged M e <-> exists j, (j < K)%nat /\ j <> k /\ (0 < zget pcm j k)%Z /\ In e (T j)))) /\
    (n_flagged k labels M <=
       nsum (tab K (fun j => if Nat.eqb j k then 0%nat else Z.to_nat (zget pcm j k))))%nat).
Proof.
  intros Hs [Hlen Hne Hlab Hrow Hprob]. unfold by_noise_rate_mask.
  destruct (run_per_class _ _ _ _ _) as [masks|] eqn:E; cbn [rbind]; [|discriminate].
  apply run_per_class_ok in E. intros H; inversion H; subst M; clear H.
  assert (HL : length (assemble_masks labels masks) = length labels).
  { unfold assemble_masks. rewrite assemble_length, mask_of_length. reflexivity. }
  assert (Hlm : length masks = K).
  { rewrite E. unfold class_args. rewrite map_length, tab_length. reflexivity. }
  assert (Hmlen : forall i, (i < K)%nat -> length (nth i masks []) = n_labelled i labels).
  { rewrite E. apply class_masks_lengths; auto. intros; apply prune_by_count_length. }
  assert (Hmk : forall k, (k < K)%nat -> nth k masks [] =
     prune_by_count srt (min_examples_per_class o) K (k, (select (cls k labels) pp, zcol k pcm))).
  { intros k Hk. rewrite E. unfold class_args. rewrite map_tab, nth_tab by auto. reflexivity. }
  assert (Hsl : forall k, length (select (cls k labels) pp) = n_labelled k labels).
  { intros k. rewrite select_length by (rewrite cls_length; auto). apply count_cls. }
  split; auto. split.
  - intros k Hk Hn. rewrite n_flagged_select by auto. rewrite (assemble_select labels masks K) by auto.
    destruct (Nat.ltb_spec 1 (n_labelled k labels)).
    + rewrite Hmk, prune_by_count_unfold, Hsl by auto.
      destruct (Nat.leb_spec (n_labelled k labels) (min_examples_per_class o)); [|lia].
      rewrite count_mask_of; [reflexivity|constructor|intros i []].
    + rewrite count_mask_of; [reflexivity|constructor|intros i []].
  - intros k Hk Hn.
    set (sub := select (cls k labels) pp).
    set (T := fun j => map (fun r => nth r (where_ (cls k labels)) 0%nat) (margin_top srt k j sub (zget pcm j k))).
    assert (HT : forall j, top_of_class k labels (fun e => prob_of pp e j - prob_of pp e k) (Z.to_nat (zget pcm j k)) (T j)).
    { intros j. apply margin_top_class; auto. }
    assert (Hflag : forall e, (e < length labels)%nat -> label_of labels e = k ->
       (flagged (assemble_masks labels masks) e <-> exists j, (j < K)%nat /\ j <> k /\ (0 < zget pcm j k)%Z /\ In e (T j))).
    { intros e He Hle. assert (Hce : nth e (cls k labels) false = true) by (apply cls_true; auto).
      unfold flagged. rewrite <- (select_nth (cls k labels) (assemble_masks labels masks) e false) by (rewrite ?cls_length; auto).
      rewrite (assemble_select labels masks K) by auto.
      destruct (Nat.ltb_spec 1 (n_labelled k labels)); [|lia].
      rewrite Hmk, prune_by_count_unfold, Hsl by auto.
      destruct (Nat.leb_spec (n_labelled k labels) (min_examples_per_class o)); [lia|].
      fold sub.
      pose proof (rank_in_lt _ _ Hce) as Hr. rewrite count_cls in Hr.
      destruct (fold_count_spec srt k sub (zcol k pcm) (seq 0 K) (mask_of (n_labelled k labels) [])) as (_ & Hf).
      { rewrite mask_of_length. unfold sub. auto. }
      rewrite Hf by (unfold sub; rewrite Hsl; auto). split.
      - intros [G|(j & Hj & Hjk & Hz & Hin)].
        + apply mask_of_flag in G as (_ & []).
        + apply in_seq in Hj. rewrite nth_zcol in Hz, Hin. exists j. split; [lia|]. split; auto. split; auto.
          apply in_map_iff. exists (rank_in (cls k labels) e). split; auto. apply rank_in_where; auto.
      - intros (j & Hj & Hjk & Hz & Hin). right. exists j. rewrite nth_zcol. split; [apply in_seq; lia|].
        split; auto. split; auto. apply in_map_iff in Hin as (r & Er & Hin).
        assert (rank_in (cls k labels) e = r) as ->; auto.
        rewrite <- Er. apply where_rank. unfold margin_top in Hin. apply firstn_In in Hin.
        apply (argsort_in _ _ (Hs _)) in Hin. rewrite !map_length in Hin. unfold sub in Hin. rewrite Hsl in Hin. rewrite count_cls. auto. }
    split.
    + exists T. split; auto.
    + set (Ts := map (fun j => if (Nat.eqb j k || negb (0 <? zget pcm j k)%Z)%bool then [] else T j) (seq 0 K)).
      etransitivity; [apply (n_flagged_bound k labels _ (eq_sym HL) Ts)|].
      * intros e He Hle Hf. apply Hflag in Hf as (j & Hj & Hjk & Hz & Hin); auto.
        exists (T j). split; auto. unfold Ts. apply in_map_iff. exists j. split; [|apply in_seq; lia].
        destruct (Nat.eqb_spec j k); [congruence|]. destruct (Z.ltb_spec 0 (zget pcm j k)); [reflexivity|lia].
      * unfold Ts. rewrite map_map. unfold tab. generalize (seq 0 K). intros js.
        induction js as [|j js IH]; [simpl; lia|]. simpl. apply Nat.add_le_mono; auto.
        destruct (Nat.eqb j k); simpl; [lia|]. destruct (Z.ltb_spec 0 (zget pcm j k)); simpl; [|lia].
        destruct (HT j) as (_ & -> & _). lia.
Qed.

(** ** C06 *)
Lemma compute_cj_calibrated_ok srt K labels pp : argsort_ok srt -> dataset K labels pp ->
  exists zm, compute_confident_joint srt labels pp K None true =
    Ok (zm, confident_off_diagonal_indices labels pp (get_confident_thresholds labels pp K)).
Proof.
  intros Hs [Hlen Hne Hlab Hrow Hprob]. unfold compute_confident_joint.
  destruct (calibrate_spec srt K _ labels Hs
              (uncalibrated_cj_ok labels pp (get_confident_thresholds labels pp K) K) Hne Hlab) as (zm & -> & _).
  cbn [rbind]. eauto.
Qed.

Definition cl_mask (labels : list nat) (pp : list (list Q)) (K : nat) : list bool :=
  clear_where (mask_of (length labels) (confident_off_diagonal_indices labels pp (get_confident_thresholds labels pp K)))
              (reduce_issues pp labels).

Lemma num_label_issues_eq srt K labels pp : dataset K labels pp -> two_classes labels ->
  num_label_issues srt labels pp K = Ok (count_true (cl_mask labels pp K)).
Proof.
  intros Hd H2. unfold num_label_issues. rewrite (valid_ok K) by auto. reflexivity.
Qed.
Lemma find_cl_eq srt K labels pp o : argsort_ok srt -> dataset K labels pp -> two_classes labels ->
  num_to_remove_per_class o = None -> (1 <= n_jobs o)%nat ->
  find_label_issues srt labels pp K ConfidentLearning o = Ok (cl_mask labels pp K).
Proof.
  intros Hs Hd H2 Hn Hj. unfold find_label_issues. rewrite (valid_ok K) by auto. cbn [rbind is_prune negb andb].
  rewrite Hn. destruct (Nat.ltb_spec (n_jobs o) 1); [lia|].
  unfold raw_mask. destruct (compute_cj_calibrated_ok srt K labels pp Hs Hd) as (zm & ->).
  destruct (confident_joint o); reflexivity.
Qed.

(** ** decomposition of a successful run *)
Lemma raw_mask_length srt labels pp K flt o m : length labels = length pp ->
  raw_mask srt labels pp K flt o = Ok m -> length m = length labels.
Proof.
  intros Hlen. unfold raw_mask.
  destruct (match confident_joint o with Some _ => _ | None => _ end) as [ci|]; cbn [rbind]; [|discriminate].
  assert (Hc : forall pcm mm, by_class_mask srt labels pp K pcm o = Ok mm -> length mm = length labels).
  { intros pcm mm. unfold by_class_mask. destruct (run_per_class _ _ _ _ _); cbn [rbind]; [|discriminate].
    intros H; inversion H. unfold assemble_masks. rewrite assemble_length. apply mask_of_length. }
  assert (Hn : forall pcm mm, by_noise_rate_mask srt labels pp K pcm o = Ok mm -> length mm = length labels).
  { intros pcm mm. unfold by_noise_rate_mask. destruct (run_per_class _ _ _ _ _); cbn [rbind]; [|discriminate].
    intros H; inversion H. unfold assemble_masks. rewrite assemble_length. apply mask_of_length. }
  destruct flt.
  - destruct (get_label_quality_scores _ _ _ _ _); cbn [rbind]; [|discriminate].
    destruct (num_label_issues _ _ _ _); cbn [rbind]; [|discriminate].
    intros H; inversion H. apply mask_of_length.
  - destruct (get_label_quality_scores _ _ _ _ _); cbn [rbind]; [|discriminate].
    destruct (num_label_issues _ _ _ _); cbn [rbind]; [|discriminate].
    intros H; inversion H. apply mask_of_length.
  - destruct (prune_counts _ _ _ _ _); cbn [rbind]; [|discriminate]. apply Hn.
  - destruct (prune_counts _ _ _ _ _); cbn [rbind]; [|discriminate]. apply Hc.
  - destruct (prune_counts _ _ _ _ _); cbn [rbind]; [|discriminate].
    destruct (by_class_mask _ _ _ _ _ _) eqn:E1; cbn [rbind]; [|discriminate].
    destruct (by_noise_rate_mask _ _ _ _ _ _) eqn:E2; cbn [rbind]; [|discriminate].
    intros H; inversion H. rewrite map_length, combine_length.
    apply Hc in E1. apply Hn in E2. lia.
  - intros H; inversion H. apply mask_of_length.
  - unfold find_predicted_neq_given. destruct (assert_valid_inputs _ _ _ _); cbn [rbind]; [|discriminate].
    intros H; inversion H. rewrite map_length, combine_length. lia.
Qed.

Lemma find_inv srt labels pp K flt o m : find_label_issues srt labels pp K flt o = Ok m ->
  exists r, raw_mask srt labels pp K flt o = Ok r /\
            m = if is_low flt then r else clear_where r (reduce_issues pp labels).
Proof.
  unfold find_label_issues. destruct (assert_valid_inputs _ _ _ _); cbn [rbind]; [|discriminate].
  destruct (_ && _)%bool; [discriminate|]. destruct (Nat.ltb _ _); [discriminate|].
  destruct (raw_mask _ _ _ _ _ _) as [r|]; cbn [rbind]; [|discriminate].
  intros H; inversion H. eauto.
Qed.
Lemma find_length srt labels pp K flt o m : length labels = length pp ->
  find_label_issues srt labels pp K flt o = Ok m -> length m = length labels.
Proof.
  intros Hl H. apply find_inv in H as (r & Hr & ->). apply raw_mask_length in Hr; auto.
  destruct (is_low flt); auto. rewrite clear_where_length; auto. rewrite reduce_length; auto.
Qed.

(** ** C07 *)
Lemma flagged_lt m e : flagged m e -> (e < length m)%nat.
Proof.
  unfold flagged. intros H. destruct (Nat.lt_ge_cases e (length m)); auto. rewrite nth_overflow in H by auto. discriminate.
Qed.
Lemma find_flagged_beaten srt labels pp K flt o m e : dataset K labels pp -> is_low flt = false ->
  find_label_issues srt labels pp K flt o = Ok m -> flagged m e -> clearly_beaten labels pp e.
Proof.
  intros Hd Hl Hf He. pose proof Hd as [Hlen _ _ _ _].
  assert (Hlt : (e < length labels)%nat).
  { apply flagged_lt in He. rewrite (find_length _ _ _ _ _ _ _ Hlen Hf) in He. auto. }
  apply find_inv in Hf as (r & Hr & ->). rewrite Hl in He. unfold flagged in He.
  rewrite clear_where_nth in He by (rewrite (raw_mask_length _ _ _ _ _ _ _ Hlen Hr), reduce_length; auto).
  apply andb_prop in He as (_ & He). apply negb_true_iff in He.
  apply (reduce_false_iff K) in He; auto.
Qed.

Lemma find_pneq srt labels pp K o m : dataset K labels pp ->
  find_label_issues srt labels pp K PredictedNeqGiven o = Ok m ->
  forall e, flagged m e <-> (e < length labels)%nat /\ clearly_beaten labels pp e.
Proof.
  intros Hd Hf e. split.
  - intros He. split; [|eapply find_flagged_beaten; eauto; reflexivity].
    apply flagged_lt in He. rewrite (find_length _ _ _ _ _ _ _ (ds_len _ _ _ Hd) Hf) in He. auto.
  - intros (Hlt & Hb). apply find_inv in Hf as (r & Hr & ->). cbn [is_low]. unfold flagged.
    pose proof Hd as [Hlen Hne Hlab Hrow Hprob].
    rewrite clear_where_nth by (rewrite (raw_mask_length _ _ _ _ _ _ _ Hlen Hr), reduce_length; auto).
    apply andb_true_intro. split; [|apply negb_true_iff; apply (reduce_false_iff K); auto].
    unfold raw_mask in Hr.
    destruct (match confident_joint o with Some _ => _ | None => _ end) as [ci|]; cbn [rbind] in Hr; [|discriminate].
    unfold find_predicted_neq_given in Hr. destruct (assert_valid_inputs _ _ _ _); cbn [rbind] in Hr; [|discriminate].
    inversion Hr. rewrite (nth_map_gen _ _ _ _ ([], 0%nat)) by (rewrite combine_length; lia).
    rewrite combine_nth by auto. cbn [fst snd]. apply negb_true_iff, Nat.eqb_neq.
    intros E. destruct Hb as (j & Hj & Hb). unfold row_of, prob_of, label_of in *.
    pose proof (argmax_max (nth e pp []) j Hj) as Hm. rewrite E in Hm.
    destruct Hb as [Hb|(_ & Hb)]; lra.
Qed.

Lemma find_pneq_ok srt labels pp K o : argsort_ok srt -> dataset K labels pp -> two_classes labels ->
  num_to_remove_per_class o = None -> (1 <= n_jobs o)%nat ->
  exists m, find_label_issues srt labels pp K PredictedNeqGiven o = Ok m.
Proof.
  intros Hs Hd H2 Hn Hj. unfold find_label_issues. rewrite (valid_ok K) by auto. cbn [rbind is_prune negb andb].
  rewrite Hn. destruct (Nat.ltb_spec (n_jobs o) 1); [lia|].
  unfold raw_mask, find_predicted_neq_given. destruct (compute_cj_calibrated_ok srt K labels pp Hs Hd) as (zm & ->).
  rewrite (valid_ok K labels pp false) by auto.
  destruct (confident_joint o); cbn [rbind]; eauto.
Qed.

(** ** C08 *)
Lemma find_both_eq srt labels pp K o :
  find_label_issues srt labels pp K Both o =
  (do mc <- find_label_issues srt labels pp K PruneByClass o ;
   do mn <- find_label_issues srt labels pp K PruneByNoiseRate o ;
   Ok (map (fun ab => (fst ab && snd ab)%bool) (combine mc mn))).
Proof.
  unfold find_label_issues. destruct (assert_valid_inputs _ _ _ _); cbn [rbind is_prune negb andb is_low]; [|reflexivity].
  destruct (Nat.ltb _ _); [reflexivity|].
  unfold raw_mask. set (ci := match confident_joint o with Some _ => _ | None => _ end).
  replace (match confident_joint o with Some cj => Ok (cj, []) | None => _ end) with ci
    by (unfold ci; destruct (confident_joint o); reflexivity).
  destruct ci as [ci|]; cbn [rbind]; [|reflexivity].
  destruct (prune_counts _ _ _ _ _) as [pcm|]; cbn [rbind]; [|reflexivity].
  destruct (by_class_mask _ _ _ _ _ _) as [mc|] eqn:E1; cbn [rbind]; [|reflexivity].
  destruct (by_noise_rate_mask _ _ _ _ _ _) as [mn|] eqn:E2; cbn [rbind]; [|reflexivity].
  assert (length mc = length mn) as Hl.
  { unfold by_class_mask in E1. unfold by_noise_rate_mask in E2.
    destruct (run_per_class _ _ _ _ _); cbn [rbind] in E1; [|discriminate].
    destruct (run_per_class _ _ _ _ _); cbn [rbind] in E2; [|discriminate].
    inversion E1; inversion E2. unfold assemble_masks. rewrite !assemble_length. reflexivity. }
  f_equal. unfold clear_where. generalize (reduce_issues pp labels). intros rd. clear E1 E2. revert mn Hl rd.
  induction mc as [|x mc IH]; intros [|y mn] Hl [|z rd]; simpl in *; try lia; auto.
  f_equal; [|apply IH; lia]. destruct x, y, z; reflexivity.
Qed.

Lemma combine_and_flag a b e : length a = length b ->
  flagged (map (fun ab => (fst ab && snd ab)%bool) (combine a b)) e <-> flagged a e /\ flagged b e.
Proof.
  intros Hl. unfold flagged. rewrite <- andb_true_iff. destruct (Nat.lt_ge_cases e (length a)).
  - rewrite (nth_map_gen _ _ _ _ (false, false)) by (rewrite combine_length; lia).
    rewrite combine_nth by auto. reflexivity.
  - rewrite !nth_overflow by (rewrite ?map_length, ?combine_length; lia). reflexivity.
Qed.

Lemma find_both_spec srt labels pp K o m : length labels = length pp ->
  find_label_issues srt labels pp K Both o = Ok m <->
  exists mc mn, find_label_issues srt labels pp K PruneByClass o = Ok mc /\
    find_label_issues srt labels pp K PruneByNoiseRate o = Ok mn /\
    length m = length labels /\ (forall e, flagged m e <-> flagged mc e /\ flagged mn e).
Proof.
  intros Hlen. rewrite find_both_eq. split.
  - destruct (find_label_issues _ _ _ _ PruneByClass _) as [mc|] eqn:E1; cbn [rbind]; [|discriminate].
    destruct (find_label_issues _ _ _ _ PruneByNoiseRate _) as [mn|] eqn:E2; cbn [rbind]; [|discriminate].
    intros H; inversion H; subst. exists mc, mn.
    apply find_length in E1, E2; auto.
    split; auto. split; auto. split.
    + rewrite map_length, combine_length. lia.
    + intros e. apply combine_and_flag. lia.
  - intros (mc & mn & E1 & E2 & Hl & H). rewrite E1, E2. cbn [rbind]. f_equal.
    apply find_length in E1, E2; auto.
    apply list_eq_nth with (d := false).
    + rewrite map_length, combine_length. lia.
    + intros e _. specialize (H e). rewrite <- combine_and_flag in H by lia. unfold flagged in H.
      destruct (nth e (map _ _) false), (nth e m false); auto; destruct H as (H1 & H2); auto.
      * symmetry. auto.
Qed.

(** ** C09 *)
Lemma get_self_confidence_length labels pp : length labels = length pp -> length (get_self_confidence labels pp) = length labels.
Proof. intros. unfold get_self_confidence. rewrite map_length, combine_length. lia. Qed.
Lemma get_normalized_margin_length labels pp : length labels = length pp -> length (get_normalized_margin labels pp) = length labels.
Proof.
  intros. unfold get_normalized_margin, get_self_confidence.
  rewrite map_length, combine_length, !map_length, combine_length. lia.
Qed.
Lemma scores_ok K labels pp method adjust : dataset K labels pp -> (method = SelfConfidence \/ (2 <= K)%nat) ->
  exists scores, get_label_quality_scores labels pp K method adjust = Ok scores /\ length scores = length labels.
Proof.
  intros Hd Hk. unfold get_label_quality_scores. rewrite (valid_ok K) by auto. cbn [rbind].
  unfold compute_label_quality_scores.
  set (pp' := if adjust then _ else pp).
  assert (length labels = length pp').
  { unfold pp'. destruct adjust; [|apply Hd]. unfold subtract_confident_thresholds. rewrite map_length. apply Hd. }
  destruct method.
  - eexists; split; [reflexivity|]. apply get_self_confidence_length; auto.
  - destruct (Nat.leb_spec K 1); [destruct Hk; [congruence|lia]|].
    eexists; split; [reflexivity|]. apply get_normalized_margin_length; auto.
Qed.

Lemma StronglySorted_map {A B} (R : B -> B -> Prop) (f : A -> B) l :
  StronglySorted (fun a b => R (f a) (f b)) l -> StronglySorted R (map f l).
Proof.
  induction 1; simpl; constructor; auto. apply Forall_map. auto.
Qed.
Lemma StronglySorted_weaken {A} (R R' : A -> A -> Prop) l :
  (forall a b, In a l -> In b l -> R a b -> R' a b) -> StronglySorted R l -> StronglySorted R' l.
Proof.
  intros H. induction 1; constructor.
  - apply IHStronglySorted. intros; apply H; simpl; auto.
  - rewrite Forall_forall in *. intros x Hx. apply H; simpl; auto.
Qed.

Lemma order_label_issues_spec srt K mask labels pp method adjust :
  argsort_ok srt -> dataset K labels pp -> (set_is_zero labels = true \/ two_classes labels) ->
  (method = SelfConfidence \/ (2 <= K)%nat) -> length mask = length labels ->
  exists idx scores, order_label_issues srt mask labels pp K method adjust = Ok idx /\
    get_label_quality_scores labels pp K method adjust = Ok scores /\ length scores = length labels /\
    NoDup idx /\ (forall e, In e idx <-> flagged mask e) /\
    StronglySorted (fun a b => nth a scores 0 <= nth b scores 0) idx.
Proof.
  intros Hs Hd H0 Hk Hm. unfold order_label_issues. rewrite (valid_ok K) by (auto; tauto). cbn [rbind].
  destruct (scores_ok K labels pp method adjust Hd Hk) as (scores & -> & Hsl). cbn [rbind].
  rewrite <- Hm, select_seq. set (ss := select mask scores).
  assert (Hss : length ss = length (where_ mask)).
  { unfold ss. rewrite select_length by lia. rewrite where_length. reflexivity. }
  exists (take_idx 0%nat (where_ mask) (srt ss)), scores.
  assert (Hval : forall r, (r < length ss)%nat -> nth r ss 0 = nth (nth r (where_ mask) 0%nat) scores 0).
  { intros r Hr. unfold ss. rewrite (select_as_take 0) by lia. unfold take_idx.
    rewrite (nth_map_gen _ _ _ _ 0%nat) by lia. reflexivity. }
  pose proof (Hs ss) as Hsort.
  split; auto. split; auto. split; [lia|]. split; [|split].
  - unfold take_idx. pose proof (argsort_NoDup _ _ Hsort) as Hnd.
    assert (Hlt : forall r, In r (srt ss) -> (r < length (where_ mask))%nat).
    { intros r Hr. apply (argsort_in _ _ Hsort) in Hr. lia. }
    revert Hlt Hnd. generalize (srt ss). intros l Hlt Hnd. induction Hnd as [|r l Hr Hnd IH]; simpl; constructor.
    + intros Hin. apply in_map_iff in Hin as (r' & E & Hr').
      apply (proj1 (NoDup_nth (where_ mask) 0%nat) (where_NoDup mask)) in E; try (apply Hlt; simpl; auto). congruence.
    + apply IH. intros; apply Hlt; simpl; auto.
  - intros e. unfold take_idx, flagged. rewrite <- in_where. rewrite in_map_iff. split.
    + intros (r & <- & Hr). apply nth_In. apply (argsort_in _ _ Hsort) in Hr. lia.
    + intros Hin. apply In_nth with (d := 0%nat) in Hin as (r & Hr & E). exists r. split; auto.
      apply (argsort_in _ _ Hsort). lia.
  - unfold take_idx. apply StronglySorted_map. destruct Hsort as (Hp & Hsort).
    eapply StronglySorted_weaken; [|exact Hsort]. intros a b Ha Hb Hab. cbn beta in Hab.
    rewrite !Hval in Hab; auto; apply (argsort_in _ _ (Hs ss)); auto.
Qed.

Lemma find_ranked_spec srt K labels pp flt o rank_by adjust m :
  argsort_ok srt -> dataset K labels pp -> two_classes labels ->
  find_label_issues srt labels pp K flt o = Ok m ->
  exists idx scores, find_label_issues_ranked srt labels pp K flt o rank_by adjust = Ok idx /\
    get_label_quality_scores labels pp K rank_by adjust = Ok scores /\ length scores = length labels /\
    NoDup idx /\ (forall e, In e idx <-> flagged m e) /\
    StronglySorted (fun a b => nth a scores 0 <= nth b scores 0) idx.
Proof.
  intros Hs Hd H2 Hf. unfold find_label_issues_ranked. rewrite Hf. cbn [rbind].
  apply order_label_issues_spec; auto.
  - right. destruct H2 as (a & b & Ha & Hb & Hn). pose proof (ds_lab _ _ _ Hd a Ha). pose proof (ds_lab _ _ _ Hd b Hb). lia.
  - eapply find_length; eauto. apply Hd.
Qed.

Lemma find_ranked_inv srt K labels pp flt o rank_by adjust idx :
  find_label_issues_ranked srt labels pp K flt o rank_by adjust = Ok idx ->
  exists m, find_label_issues srt labels pp K flt o = Ok m.
Proof.
  unfold find_label_issues_ranked. destruct (find_label_issues _ _ _ _ _ _); cbn [rbind]; [eauto|discriminate].
Qed.

(** ** C10 *)
Lemma run_seq {A B} K sched (f : A -> B) args : run_per_class 1 K sched f args = Ok (map f args).
Proof. reflexivity. Qed.

Lemma parallel_eq srt labels pp K flt o n sc sn sc' sn' : (1 <= n)%nat ->
  find_label_issues srt labels pp K flt (with_jobs o n sc sn) = Raise Diverges \/
  find_label_issues srt labels pp K flt (with_jobs o n sc sn) =
  find_label_issues srt labels pp K flt (with_jobs o 1 sc' sn').
Proof.
  intros Hn. unfold find_label_issues. destruct (assert_valid_inputs _ _ _ _); cbn [rbind]; [|auto].
  unfold with_jobs. cbn [num_to_remove_per_class n_jobs].
  destruct (_ && _)%bool; auto.
  destruct (Nat.ltb_spec n 1); [lia|]. change (Nat.ltb 1 1) with false. cbv iota.
  unfold raw_mask. cbn [confident_joint].
  destruct (match confident_joint o with Some _ => _ | None => _ end) as [ci|]; cbn [rbind]; [|auto].
  destruct flt; cbn [is_low];
    try (right; reflexivity).
  - unfold prune_counts. cbn [min_examples_per_class frac_noise num_to_remove_per_class].
    match goal with |- context [rbind ?e (fun pcm => by_noise_rate_mask _ _ _ _ pcm _)] => destruct e as [pcm|] end;
      cbn [rbind]; [|auto].
    unfold by_noise_rate_mask. cbn [n_jobs sched_n min_examples_per_class].
    destruct (run_per_class_cases n K sn (prune_by_count srt (min_examples_per_class o) K) (class_args labels pp K pcm)) as [->| ->];
      cbn [rbind]; auto.
  - unfold prune_counts. cbn [min_examples_per_class frac_noise num_to_remove_per_class].
    match goal with |- context [rbind ?e (fun pcm => by_class_mask _ _ _ _ pcm _)] => destruct e as [pcm|] end;
      cbn [rbind]; [|auto].
    unfold by_class_mask. cbn [n_jobs sched_c min_examples_per_class].
    destruct (run_per_class_cases n K sc (prune_by_class srt (min_examples_per_class o)) (class_args labels pp K pcm)) as [->| ->];
      cbn [rbind]; auto.
  - unfold prune_counts. cbn [min_examples_per_class frac_noise num_to_remove_per_class].
    match goal with |- context [rbind ?e (fun pcm => rbind (by_class_mask _ _ _ _ pcm _) _)] => destruct e as [pcm|] end;
      cbn [rbind]; [|auto].
    unfold by_class_mask. cbn [n_jobs sched_c min_examples_per_class].
    destruct (run_per_class_cases n K sc (prune_by_class srt (min_examples_per_class o)) (class_args labels pp K pcm)) as [->| ->];
      cbn [rbind]; auto.
    unfold by_noise_rate_mask. cbn [n_jobs sched_n min_examples_per_class].
    destruct (run_per_class_cases n K sn (prune_by_count srt (min_examples_per_class o) K) (class_args labels pp K pcm)) as [->| ->];
      cbn [rbind]; auto.
Qed.

Lemma run_per_class_can {A B} n K (f : A -> B) args : (1 <= n)%nat ->
  exists sched, run_per_class n K sched f args = Ok (map f args).
Proof.
  intros Hn. unfold run_per_class. destruct (Nat.ltb 1 n).
  - apply pool_map_can_finish; lia.
  - exists []. reflexivity.
Qed.

Lemma parallel_can_finish srt labels pp K flt o n sc' sn' : (1 <= n)%nat ->
  exists sc sn,
  find_label_issues srt labels pp K flt (with_jobs o n sc sn) =
  find_label_issues srt labels pp K flt (with_jobs o 1 sc' sn').
Proof.
  intros Hn.
  set (ci := match confident_joint o, flt with
     | Some _, ConfidentLearning | None, _ =>
         do r <- compute_confident_joint srt labels pp K None true ;
         Ok (zmat_to_q (fst r), snd r)
     | Some cj, _ => Ok (cj, [])
     end).
  set (pc := do c <- ci ; prune_counts srt labels K (fst c) o).
  set (args := match pc with Ok pcm => class_args labels pp K pcm | Raise _ => [] end).
  destruct (run_per_class_can n K (prune_by_class srt (min_examples_per_class o)) args Hn) as (sc & Hsc).
  destruct (run_per_class_can n K (prune_by_count srt (min_examples_per_class o) K) args Hn) as (sn & Hsn).
  exists sc, sn. unfold find_label_issues.
  destruct (assert_valid_inputs _ _ _ _); cbn [rbind]; [|auto].
  unfold with_jobs. cbn [num_to_remove_per_class n_jobs].
  destruct (_ && _)%bool; auto.
  destruct (Nat.ltb_spec n 1); [lia|]. change (Nat.ltb 1 1) with false. cbv iota.
  unfold raw_mask. cbn [confident_joint]. fold ci. subst pc.
  destruct ci as [c|]; cbn [rbind] in *; [|auto].
  unfold prune_counts in *. cbn [min_examples_per_class frac_noise num_to_remove_per_class] in *.
  destruct flt; cbn [is_low]; try reflexivity.
  - match goal with |- context [rbind ?e (fun pcm => by_noise_rate_mask _ _ _ _ pcm _)] => destruct e as [pcm|] end;
      cbn [rbind]; [|auto].
    subst args. cbn [rbind] in *. unfold by_noise_rate_mask. cbn [n_jobs sched_n min_examples_per_class].
    rewrite Hsn, run_seq. reflexivity.
  - match goal with |- context [rbind ?e (fun pcm => by_class_mask _ _ _ _ pcm _)] => destruct e as [pcm|] end;
      cbn [rbind]; [|auto].
    subst args. cbn [rbind] in *. unfold by_class_mask. cbn [n_jobs sched_c min_examples_per_class].
    rewrite Hsc, run_seq. reflexivity.
  - match goal with |- context [rbind ?e (fun pcm => rbind (by_class_mask _ _ _ _ pcm _) _)] => destruct e as [pcm|] end;
      cbn [rbind]; [|auto].
    subst args. cbn [rbind] in *. unfold by_class_mask, by_noise_rate_mask.
    cbn [n_jobs sched_c sched_n min_examples_per_class].
    rewrite Hsc, Hsn, !run_seq. reflexivity.
Qed.

(** ** C13 *)
Lemma round_preserving_sum_Z srt z : round_preserving_sum srt (map inject_Z z) = Ok z.
Proof.
  unfold round_preserving_sum, round_preserving_sum_fuel.
  assert (map round_half_even (map inject_Z z) = z) as ->.
  { rewrite map_map. rewrite <- (map_id z) at 2. apply map_ext. intros; apply round_half_even_Z. }
  assert (round_half_even (qsum (map inject_Z z)) = zsum z) as ->.
  { rewrite qsum_inject. apply round_half_even_Z. }
  cbn [rps_loop]. rewrite Z.sub_diag.
  assert (Qltb FLOATING_POINT_COMPARISON (Qabs (inject_Z 0)) = false) as ->; reflexivity.
Qed.
Lemma round_preserving_row_totals_Z srt zm : round_preserving_row_totals srt (zmat_to_q zm) = Ok zm.
Proof.
  unfold round_preserving_row_totals, zmat_to_q. induction zm as [|z zm IH]; simpl; auto.
  rewrite round_preserving_sum_Z. cbn [rbind]. rewrite IH. reflexivity.
Qed.

Lemma truncate_ge (n : nat) q : Qnat n <= q -> (Z.of_nat n <= truncate q)%Z.
Proof.
  intros H. unfold truncate. assert (0 <= q) by (pose proof (Qnat_nonneg n); lra).
  assert (Qle_bool 0 q = true) as -> by (apply Qle_bool_iff; auto).
  unfold Qnat in H. apply Qfloor_resp_le in H. rewrite Qfloor_Z in H. auto.
Qed.

Lemma zmap_get f (m : list (list Q)) i j : (i < length m)%nat -> (j < length (nth i m []))%nat ->
  zget (map (map f) m) i j = f (mget m i j).
Proof.
  intros Hi Hj. unfold zget, mget. rewrite (nth_map_gen (map f) m i [] []) by auto.
  apply (nth_map_gen f); auto.
Qed.
Lemma mget_tab K f i j : (i < K)%nat -> (j < K)%nat -> mget (tab K (fun i => tab K (fun j => f i j))) i j = f i j.
Proof. intros. unfold mget. rewrite !nth_tab by auto. reflexivity. Qed.

Lemma keep_diag srt m n frac pcm k : (k < length m)%nat -> frac <= 1 ->
  keep_at_least_n_per_class srt m n frac = Ok pcm -> (Z.of_nat n <= zget pcm k k)%Z.
Proof.
  intros Hk Hf. unfold keep_at_least_n_per_class. set (K := length m) in *.
  rewrite round_preserving_row_totals_Z. intros H; inversion H; subst pcm; clear H.
  set (nd := tab K (fun k => qmax (mget m k k) (Qnat n))).
  set (nm := tab K _).
  assert (HK : length nm = K) by (unfold nm; apply tab_length).
  unfold reduce_prune_counts. rewrite HK.
  assert (Hmat : forall i j, (i < K)%nat -> (j < K)%nat -> 0 <= mget nm i j /\ (i = j -> Qnat n <= mget nm i j)).
  { intros i j Hi Hj. unfold nm. rewrite mget_tab by auto.
    pose proof (Qnat_nonneg n). destruct (Nat.eqb_spec i j).
    - subst. unfold nd. rewrite nth_tab by auto.
      destruct (qmax_spec (mget m j j) (Qnat n)) as [(? & ->)|(? & ->)]; split; intros; lra.
    - split; [|congruence]. match goal with |- context [Qltb ?v 0] => destruct (Qltb v 0) eqn:E end; qb; lra. }
  rewrite zmap_get by (rewrite ?nth_tab, ?tab_length by auto; rewrite ?tab_length; auto).
  rewrite mget_tab by auto. rewrite Nat.eqb_refl. apply truncate_ge.
  assert (0 <= qsum (tab K (fun r => mget nm r k - mget (tab K (fun i => tab K (fun j =>
                   if Nat.eqb i j then mget nm i j else mget nm i j * frac))) r k))).
  { apply qsum_nonneg. intros x Hx. apply in_tab in Hx as (r & Hr & ->).
    rewrite mget_tab by auto. destruct (Hmat r k Hr Hk) as (H0 & _).
    destruct (Nat.eqb r k); [lra|]. setoid_replace (mget nm r k - mget nm r k * frac) with (mget nm r k * (1 - frac)) by ring.
    apply Qmult_le_0_compat; lra. }
  destruct (Hmat k k Hk Hk) as (_ & G). specialize (G eq_refl). lra.
Qed.

Lemma prune_counts_diag srt labels K cj o pcm k : num_to_remove_per_class o = None -> frac_noise o <= 1 ->
  (k < K)%nat -> prune_counts srt labels K cj o = Ok pcm ->
  (Z.of_nat (min_examples_per_class o) <= zget pcm k k)%Z.
Proof.
  intros Hn Hf Hk. unfold prune_counts. destruct (value_counts labels K); cbn [rbind]; [|discriminate].
  rewrite Hn. destruct (keep_at_least_n_per_class _ _ _ _) eqn:E; cbn [rbind]; [|discriminate].
  intros H; inversion H; subst. eapply keep_diag; eauto. unfold transpose. rewrite tab_length. auto.
Qed.

Lemma n_flagged_mono k labels : forall m m', length m = length m' ->
  (forall e, flagged m e -> flagged m' e) -> (n_flagged k labels m <= n_flagged k labels m')%nat.
Proof.
  induction labels as [|l ls IH]; intros [|b m] [|b' m'] Hl H; simpl in *; try lia.
  assert (n_flagged k ls m <= n_flagged k ls m')%nat.
  { apply IH; [lia|]. intros e. apply (H (S e)). }
  specialize (H 0%nat). unfold flagged in H. simpl in H.
  destruct (Nat.eqb l k); [|lia]. destruct b; [rewrite H by auto; lia|]. destruct b'; lia.
Qed.

Lemma raw_by_class srt labels pp K o r : raw_mask srt labels pp K PruneByClass o = Ok r ->
  exists cj pcm, prune_counts srt labels K cj o = Ok pcm /\ by_class_mask srt labels pp K pcm o = Ok r /\
    (forall c, confident_joint o = Some c -> cj = c) /\
    (confident_joint o = None -> exists counts idx,
       compute_confident_joint srt labels pp K None true = Ok (counts, idx) /\ cj = zmat_to_q counts).
Proof.
  unfold raw_mask. destruct (confident_joint o) as [c|].
  - cbn [rbind fst]. destruct (prune_counts _ _ _ _ _) eqn:E; cbn [rbind]; [|discriminate].
    intros H. exists c, a. repeat split; auto; congruence.
  - destruct (compute_confident_joint _ _ _ _ _ _) as [[x ix]|]; cbn [rbind fst]; [|discriminate].
    destruct (prune_counts _ _ _ _ _) eqn:E; cbn [rbind]; [|discriminate].
    intros H. eexists; eexists. repeat split; eauto. discriminate.
Qed.
Lemma raw_by_noise srt labels pp K o r : raw_mask srt labels pp K PruneByNoiseRate o = Ok r ->
  exists cj pcm, prune_counts srt labels K cj o = Ok pcm /\ by_noise_rate_mask srt labels pp K pcm o = Ok r /\
    (forall c, confident_joint o = Some c -> cj = c) /\
    (confident_joint o = None -> exists counts idx,
       compute_confident_joint srt labels pp K None true = Ok (counts, idx) /\ cj = zmat_to_q counts).
Proof.
  unfold raw_mask. destruct (confident_joint o) as [c|].
  - cbn [rbind fst]. destruct (prune_counts _ _ _ _ _) eqn:E; cbn [rbind]; [|discriminate].
    intros H. exists c, a. repeat split; auto; congruence.
  - destruct (compute_confident_joint _ _ _ _ _ _) as [[x ix]|]; cbn [rbind fst]; [|discriminate].
    destruct (prune_counts _ _ _ _ _) eqn:E; cbn [rbind]; [|discriminate].
    intros H. eexists; eexists. repeat split; eauto. discriminate.
Qed.

Lemma clear_where_sub r b e : length r = length b -> flagged (clear_where r b) e -> flagged r e.
Proof. intros Hl. unfold flagged. rewrite clear_where_nth by auto. intros H. apply andb_prop in H. tauto. Qed.

Lemma min_examples_by_class srt labels pp K o m k : argsort_ok srt -> dataset K labels pp ->
  num_to_remove_per_class o = None -> frac_noise o <= 1 ->
  find_label_issues srt labels pp K PruneByClass o = Ok m -> (k < K)%nat ->
  (min_examples_per_class o <= n_labelled k labels)%nat ->
  (n_flagged k labels m + min_examples_per_class o <= n_labelled k labels)%nat.
Proof.
  intros Hs Hd Hn Hf H Hk Hm. apply find_inv in H as (r & Hr & ->). cbn [is_low].
  pose proof (raw_mask_length _ _ _ _ _ _ _ (ds_len _ _ _ Hd) Hr) as Hlr.
  apply raw_by_class in Hr as (cj & pcm & Hpc & Hbc & _).
  pose proof (prune_counts_diag srt labels K cj o pcm k Hn Hf Hk Hpc) as Hdiag.
  destruct (by_class_spec _ _ _ _ _ _ _ Hs Hd Hbc) as (HL & Hc & Hc1 & _).
  assert (Hlen2 : length r = length (reduce_issues pp labels)) by (rewrite reduce_length; [lia|apply Hd]).
  assert (n_flagged k labels (clear_where r (reduce_issues pp labels)) <= n_flagged k labels r)%nat.
  { apply n_flagged_mono; [apply clear_where_length; auto|]. intros e. apply clear_where_sub; auto. }
  destruct (Nat.lt_ge_cases (n_labelled k labels) 2) as [Hlt|Hge].
  - rewrite (Hc1 k Hk Hlt) in H. lia.
  - rewrite (Hc k Hk Hge) in H. destruct (Nat.leb_spec (n_labelled k labels) (min_examples_per_class o)); lia.
Qed.

Lemma min_examples_both srt labels pp K o m k : argsort_ok srt -> dataset K labels pp ->
  num_to_remove_per_class o = None -> frac_noise o <= 1 ->
  find_label_issues srt labels pp K Both o = Ok m -> (k < K)%nat ->
  (min_examples_per_class o <= n_labelled k labels)%nat ->
  (n_flagged k labels m + min_examples_per_class o <= n_labelled k labels)%nat.
Proof.
  intros Hs Hd Hn Hf H Hk Hm. pose proof (ds_len _ _ _ Hd) as Hlen.
  apply find_both_spec in H as (mc & mn & Hc & _ & Hl & Hfl); auto.
  pose proof (min_examples_by_class srt labels pp K o mc k Hs Hd Hn Hf Hc Hk Hm).
  assert (n_flagged k labels m <= n_flagged k labels mc)%nat; [|lia].
  apply n_flagged_mono; [rewrite (find_length _ _ _ _ _ _ _ Hlen Hc); auto|]. intros e He. apply Hfl. auto.
Qed.

(** ** C14 *)
Lemma filter_len_le {A} (f : A -> bool) l : (length (filter f l) <= length l)%nat.
Proof. induction l; simpl; auto. destruct (f a); simpl; lia. Qed.
Lemma low_spec srt labels pp K flt o : argsort_ok srt -> dataset K labels pp -> two_classes labels ->
  num_to_remove_per_class o = None -> (1 <= n_jobs o)%nat -> is_low flt = true ->
  exists m scores N,
    find_label_issues srt labels pp K flt o = Ok m /\
    get_label_quality_scores labels pp K
      (match flt with LowSelfConfidence => SelfConfidence | _ => NormalizedMargin end) false = Ok scores /\
    num_label_issues srt labels pp K = Ok N /\
    length m = length labels /\ count_true m = N /\
    (forall e e', (e' < length labels)%nat -> flagged m e -> ~ flagged m e' -> nth e scores 0 <= nth e' scores 0).
Proof.
  intros Hs Hd H2 Hn Hj Hlow.
  assert (HK : (2 <= K)%nat).
  { destruct H2 as (a & b & Ha & Hb & Hne). pose proof (ds_lab _ _ _ Hd a Ha). pose proof (ds_lab _ _ _ Hd b Hb). lia. }
  set (mth := match flt with LowSelfConfidence => SelfConfidence | _ => NormalizedMargin end).
  destruct (scores_ok K labels pp mth false Hd (or_intror HK)) as (scores & Hsc & Hsl).
  pose proof (num_label_issues_eq srt K labels pp Hd H2) as HN.
  set (N := count_true (cl_mask labels pp K)) in *.
  set (m := mask_of (length labels) (firstn N (srt scores))).
  exists m, scores, N.
  assert (HNle : (N <= length labels)%nat).
  { unfold N. rewrite <- where_length. unfold cl_mask.
    assert (length (clear_where (mask_of (length labels)
         (confident_off_diagonal_indices labels pp (get_confident_thresholds labels pp K)))
        (reduce_issues pp labels)) = length labels) as El.
    { rewrite clear_where_length; rewrite mask_of_length; auto. rewrite reduce_length; auto. apply Hd. }
    rewrite <- El at 2. unfold where_. etransitivity; [apply filter_len_le|]. rewrite seq_length. apply le_n. }
  split.
  - unfold find_label_issues. rewrite (valid_ok K) by auto. cbn [rbind]. rewrite Hn, andb_false_r.
    destruct (Nat.ltb_spec (n_jobs o) 1); [lia|]. rewrite Hlow.
    unfold raw_mask. destruct (compute_cj_calibrated_ok srt K labels pp Hs Hd) as (zm & ->).
    destruct flt; try discriminate; destruct (confident_joint o); cbn [rbind fst snd];
      fold mth; unfold mth in *; rewrite Hsc, HN; reflexivity.
  - split; auto. split; auto. split; [apply mask_of_length|]. split.
    + unfold m. destruct (argsort_firstn scores (srt scores) N (Hs scores)) as (A1 & A2 & A3 & A4).
      rewrite count_mask_of; auto.
      * rewrite A2. lia.
      * intros i Hi. apply A3 in Hi. lia.
    + intros e e' He' Hf Hnf. unfold flagged, m in *. apply mask_of_flag in Hf as (_ & Hf).
      destruct (argsort_firstn scores (srt scores) N (Hs scores)) as (A1 & A2 & A3 & A4).
      apply A4; auto; [lia|]. intros Hin. apply Hnf. apply mask_of_flag. auto.
Qed.

(** ** C55 *)
Lemma close_integer z z' q : q == inject_Z z' -> Qabs (inject_Z z - q) < 1 -> z = z'.
Proof.
  intros E H. rewrite E in H. apply Qabs_Qlt_condition in H as (H1 & H2).
  assert (inject_Z z' < inject_Z z + 1) by lra. assert (inject_Z z < inject_Z z' + 1) by lra.
  apply inject_Z_lt_1 in H, H0. lia.
Qed.

Lemma apply_ntr_diag srt K pcm0 lc ntr pcm k r : argsort_ok srt -> length pcm0 = K -> (k < K)%nat ->
  nth k ntr 0 == Qnat r ->
  apply_num_to_remove srt pcm0 lc ntr = Ok pcm ->
  zget pcm k k = (Z.of_nat (nth k lc 0%nat) - Z.of_nat r)%Z.
Proof.
  intros Hs HK Hk Hr. unfold apply_num_to_remove. rewrite HK. destruct (_ || _)%bool; [discriminate|].
  set (tmp := tab K _). intros H.
  destruct (round_preserving_row_totals_spec srt tmp Hs) as (zm & E & HF). rewrite E in H. inversion H; subst pcm.
  apply (Forall2_nth _ _ _ [] []) in HF as (Hl & HF).
  assert (Ht : length tmp = K) by (unfold tmp; apply tab_length).
  destruct (HF k) as (H1 & H2 & H3); [lia|]. specialize (H3 k).
  unfold zget. eapply close_integer; [|apply H3].
  - unfold tmp. rewrite nth_tab by auto. rewrite nth_tab by auto. rewrite Nat.eqb_refl, Hr. unfold Qnat.
    unfold Zminus, Qminus. rewrite inject_Z_plus, inject_Z_opp. reflexivity.
  - unfold tmp. rewrite nth_tab by auto. rewrite tab_length. auto.
Qed.

Lemma num_to_remove_by_class srt labels pp K o ntr r : argsort_ok srt -> dataset K labels pp ->
  num_to_remove_per_class o = Some ntr ->
  raw_mask srt labels pp K PruneByClass o = Ok r ->
  forall k t, (k < K)%nat -> nth k ntr 0 == Qnat t -> (t <= n_labelled k labels)%nat ->
    (2 <= n_labelled k labels)%nat -> (min_examples_per_class o < n_labelled k labels)%nat ->
    n_flagged k labels r = t.
Proof.
  intros Hs Hd Hn Hr k t Hk Ht Htn H2 Hm. pose proof Hd as [Hlen Hne Hlab _ _].
  apply raw_by_class in Hr as (cj & pcm & Hpc & Hbc & _).
  destruct (by_class_spec _ _ _ _ _ _ _ Hs Hd Hbc) as (HL & Hc & _).
  rewrite (Hc k Hk H2). destruct (Nat.leb_spec (n_labelled k labels) (min_examples_per_class o)); [lia|].
  unfold prune_counts in Hpc. rewrite value_counts_ok in Hpc by auto. cbn [rbind] in Hpc. rewrite Hn in Hpc.
  unfold keep_at_least_n_per_class in Hpc. rewrite round_preserving_row_totals_Z in Hpc. cbn [rbind] in Hpc.
  assert (zget pcm k k = (Z.of_nat (n_labelled k labels) - Z.of_nat t)%Z) as ->.
  { erewrite (apply_ntr_diag srt K _ _ ntr pcm k t Hs); [| |exact Hk|exact Ht|exact Hpc].
    - rewrite nth_tab by auto. reflexivity.
    - unfold reduce_prune_counts, transpose. rewrite map_length, !tab_length. reflexivity. }
  lia.
Qed.

(** ** find-level statements *)
Lemma cl_flagged_iff K labels pp e : dataset K labels pp ->
  flagged (cl_mask labels pp K) e <->
  (e < length labels)%nat /\
  (exists j, counted_as (get_confident_thresholds labels pp K) (row_of pp e) j /\ j <> label_of labels e) /\
  clearly_beaten labels pp e.
Proof.
  intros Hd. pose proof Hd as [Hlen Hne Hlab Hrow Hprob].
  destruct (off_diag_spec labels pp (get_confident_thresholds labels pp K) K) as (_ & Ho); auto.
  { apply thresholds_length. }
  assert (Hl : length (mask_of (length labels) (confident_off_diagonal_indices labels pp (get_confident_thresholds labels pp K)))
            = length (reduce_issues pp labels)) by (rewrite mask_of_length, reduce_length; auto).
  unfold cl_mask. split.
  - intros H. assert (He : (e < length labels)%nat).
    { apply flagged_lt in H. rewrite clear_where_length, mask_of_length in H by auto. auto. }
    unfold flagged in H. rewrite clear_where_nth in H by auto. apply andb_prop in H as (H1 & H2).
    split; auto. split.
    + apply mask_of_flag in H1 as (_ & H1). apply Ho in H1 as (_ & H1). exact H1.
    + apply negb_true_iff in H2. apply (reduce_false_iff K) in H2; auto.
  - intros (He & Hj & Hb). unfold flagged. rewrite clear_where_nth by auto. apply andb_true_intro. split.
    + apply mask_of_flag. split; auto. apply Ho. split; auto.
    + apply negb_true_iff. apply (reduce_false_iff K); auto.
Qed.

Lemma C06_full : forall srt K labels pp o, argsort_ok srt -> dataset K labels pp -> two_classes labels ->
  num_to_remove_per_class o = None -> (1 <= n_jobs o)%nat ->
  exists m, find_label_issues srt labels pp K ConfidentLearning o = Ok m /\ length m = length labels /\
    num_label_issues srt labels pp K = Ok (count_true m) /\
    (forall e, flagged m e <->
       (e < length labels)%nat /\
       (exists j, counted_as (get_confident_thresholds labels pp K) (row_of pp e) j /\ j <> label_of labels e) /\
       clearly_beaten labels pp e).
Proof.
  intros srt K labels pp o Hs Hd H2 Hn Hj. exists (cl_mask labels pp K).
  rewrite find_cl_eq, num_label_issues_eq by auto. split; auto. split; [|split; auto].
  - apply (find_length srt labels pp K ConfidentLearning o); [apply Hd|]. apply find_cl_eq; auto.
  - intros e. apply cl_flagged_iff; auto.
Qed.

Lemma C07_full : forall srt K labels pp flt o, argsort_ok srt -> dataset K labels pp ->
  flt <> LowNormalizedMargin -> flt <> LowSelfConfidence ->
  (forall m e, find_label_issues srt labels pp K flt o = Ok m -> flagged m e -> beaten labels pp e) /\
  (forall idx rank_by adjust e, two_classes labels ->
     find_label_issues_ranked srt labels pp K flt o rank_by adjust = Ok idx -> In e idx -> beaten labels pp e).
Proof.
  intros srt K labels pp flt o Hs Hd H1 H2.
  assert (is_low flt = false) as Hl by (destruct flt; try reflexivity; congruence).
  assert (A : forall m e, find_label_issues srt labels pp K flt o = Ok m -> flagged m e -> beaten labels pp e).
  { intros m e Hf He. eapply find_flagged_beaten in He; eauto. destruct He as (j & Hj & Hb). exists j. split; auto.
    destruct Hb as [Hb|(_ & Hb)]; lra. }
  split; auto. intros idx rank_by adjust e H3 Hf He. pose proof Hf as Hf'.
  apply find_ranked_inv in Hf as (m & Hm).
  destruct (find_ranked_spec srt K labels pp flt o rank_by adjust m Hs Hd H3 Hm) as (idx' & sc & E & _ & _ & _ & G & _).
  rewrite Hf' in E. inversion E; subst. apply (A m); auto. apply G. auto.
Qed.

Lemma C07_pneq_full : forall srt K labels pp o, argsort_ok srt -> dataset K labels pp -> two_classes labels ->
  num_to_remove_per_class o = None -> (1 <= n_jobs o)%nat ->
  exists m, find_label_issues srt labels pp K PredictedNeqGiven o = Ok m /\ length m = length labels /\
    forall e, flagged m e <-> (e < length labels)%nat /\ clearly_beaten labels pp e.
Proof.
  intros. destruct (find_pneq_ok srt labels pp K o) as (m & Hm); auto. exists m. split; auto. split.
  - eapply find_length; eauto. apply H0.
  - eapply find_pneq; eauto.
Qed.

Lemma find_marked srt labels pp K flt o m : dataset K labels pp -> is_low flt = false ->
  find_label_issues srt labels pp K flt o = Ok m ->
  exists r, raw_mask srt labels pp K flt o = Ok r /\ length r = length labels /\ length m = length labels /\
    forall e, (e < length labels)%nat -> (flagged m e <-> flagged r e /\ clearly_beaten labels pp e).
Proof.
  intros Hd Hl Hf. pose proof (find_length _ _ _ _ _ _ _ (ds_len _ _ _ Hd) Hf) as HL.
  apply find_inv in Hf as (r & Hr & ->). rewrite Hl in *. pose proof Hd as [Hlen Hne Hlab Hrow Hprob].
  pose proof (raw_mask_length _ _ _ _ _ _ _ Hlen Hr) as Hlr.
  exists r. split; auto. split; auto. split; auto.
  intros e He. unfold flagged. rewrite clear_where_nth by (rewrite Hlr, reduce_length; auto).
  rewrite andb_true_iff, negb_true_iff, (reduce_false_iff K) by auto. tauto.
Qed.

Lemma C11_full : forall srt K labels pp o m, argsort_ok srt -> dataset K labels pp ->
  find_label_issues srt labels pp K PruneByClass o = Ok m ->
  exists cj pcm marked,
    (forall c, confident_joint o = Some c -> cj = c) /\
    (confident_joint o = None -> exists counts idx,
       compute_confident_joint srt labels pp K None true = Ok (counts, idx) /\ cj = zmat_to_q counts) /\
    prune_counts srt labels K cj o = Ok pcm /\
    length marked = length labels /\
    (forall k, (k < K)%nat -> (2 <= n_labelled k labels)%nat ->
      n_flagged k labels marked =
        (if Nat.leb (n_labelled k labels) (min_examples_per_class o) then 0%nat
         else Nat.min (Z.to_nat (Z.of_nat (n_labelled k labels) - zget pcm k k)) (n_labelled k labels))) /\
    (forall k, (k < K)%nat -> (n_labelled k labels < 2)%nat -> n_flagged k labels marked = 0%nat) /\
    (forall e e', (e < length labels)%nat -> (e' < length labels)%nat -> label_of labels e = label_of labels e' ->
       flagged marked e -> ~ flagged marked e' ->
       prob_of pp e (label_of labels e) <= prob_of pp e' (label_of labels e')) /\
    (forall e, (e < length labels)%nat -> (flagged m e <-> flagged marked e /\ clearly_beaten labels pp e)).
Proof.
  intros srt K labels pp o m Hs Hd Hf.
  destruct (find_marked _ _ _ _ _ _ _ Hd (eq_refl : is_low PruneByClass = false) Hf) as (r & Hr & Hlr & Hlm & Hfl).
  apply raw_by_class in Hr as (cj & pcm & Hpc & Hbc & Hcj & Hcn).
  destruct (by_class_spec _ _ _ _ _ _ _ Hs Hd Hbc) as (HL & Hc & Hc1 & Ho).
  exists cj, pcm, r. auto 10.
Qed.

Lemma C12_full : forall srt K labels pp o m, argsort_ok srt -> dataset K labels pp ->
  find_label_issues srt labels pp K PruneByNoiseRate o = Ok m ->
  exists cj pcm marked,
    (forall c, confident_joint o = Some c -> cj = c) /\
    (confident_joint o = None -> exists counts idx,
       compute_confident_joint srt labels pp K None true = Ok (counts, idx) /\ cj = zmat_to_q counts) /\
    prune_counts srt labels K cj o = Ok pcm /\
    length marked = length labels /\
    (forall k, (k < K)%nat -> (n_labelled k labels <= Nat.max 1 (min_examples_per_class o))%nat ->
       n_flagged k labels marked = 0%nat) /\
    (forall k, (k < K)%nat -> (Nat.max 1 (min_examples_per_class o) < n_labelled k labels)%nat ->
      (exists T : nat -> list nat,
         (forall j, (j < K)%nat -> j <> k -> (0 < zget pcm j k)%Z ->
            top_of_class k labels (fun e => prob_of pp e j - prob_of pp e k) (Z.to_nat (zget pcm j k)) (T j)) /\
         (forall e, (e < length labels)%nat -> label_of labels e = k ->
            (flagged marked e <-> exists j, (j < K)%nat /\ j <> k /\ (0 < zget pcm j k)%Z /\ In e (T j)))) /\
      (n_flagged k labels marked <=
         nsum (tab K (fun j => if Nat.eqb j k then 0%nat else Z.to_nat (zget pcm j k))))%nat) /\
    (forall e, (e < length labels)%nat -> (flagged m e <-> flagged marked e /\ clearly_beaten labels pp e)).
Proof.
  intros srt K labels pp o m Hs Hd Hf.
  destruct (find_marked _ _ _ _ _ _ _ Hd (eq_refl : is_low PruneByNoiseRate = false) Hf) as (r & Hr & Hlr & Hlm & Hfl).
  apply raw_by_noise in Hr as (cj & pcm & Hpc & Hbc & Hcj & Hcn).
  destruct (by_noise_rate_spec _ _ _ _ _ _ _ Hs Hd Hbc) as (HL & Hc & Hc1).
  exists cj, pcm, r. auto 10.
Qed.

Lemma C55_full : forall srt K labels pp o ntr m, argsort_ok srt -> dataset K labels pp ->
  num_to_remove_per_class o = Some ntr ->
  find_label_issues srt labels pp K PruneByClass o = Ok m ->
  exists pruned, length pruned = length labels /\
    (forall e, (e < length labels)%nat -> (flagged m e <-> flagged pruned e /\ clearly_beaten labels pp e)) /\
    forall k t, (k < K)%nat -> nth k ntr 0 == Qnat t -> (t <= n_labelled k labels)%nat ->
      (2 <= n_labelled k labels)%nat -> (min_examples_per_class o < n_labelled k labels)%nat ->
      n_flagged k labels pruned = t.
Proof.
  intros srt K labels pp o ntr m Hs Hd Hn Hf.
  destruct (find_marked _ _ _ _ _ _ _ Hd (eq_refl : is_low PruneByClass = false) Hf) as (r & Hr & Hlr & Hlm & Hfl).
  exists r. split; auto. split; auto. eapply num_to_remove_by_class; eauto.
Qed.

Lemma C10_full : forall srt labels pp K flt o n, (1 <= n)%nat ->
  (forall sc sn sc' sn',
     find_label_issues srt labels pp K flt (with_jobs o n sc sn) = Raise Diverges \/
     find_label_issues srt labels pp K flt (with_jobs o n sc sn) =
     find_label_issues srt labels pp K flt (with_jobs o 1 sc' sn')) /\
  (exists sc sn, forall sc' sn',
     find_label_issues srt labels pp K flt (with_jobs o n sc sn) =
     find_label_issues srt labels pp K flt (with_jobs o 1 sc' sn')).
Proof.
  intros srt labels pp K flt o n Hn. split.
  - intros; apply parallel_eq; auto.
  - destruct (parallel_can_finish srt labels pp K flt o n [] [] Hn) as (sc & sn & E).
    exists sc, sn. intros sc' sn'. rewrite E.
    destruct (parallel_eq srt labels pp K flt o 1 [] [] sc' sn' (le_n 1)) as [E'|E']; auto.
Qed.

Lemma C13_full : forall srt labels pp K flt o m k, argsort_ok srt -> dataset K labels pp ->
  (flt = PruneByClass \/ flt = Both) ->
  num_to_remove_per_class o = None -> frac_noise o <= 1 ->
  find_label_issues srt labels pp K flt o = Ok m -> (k < K)%nat ->
  (min_examples_per_class o <= n_labelled k labels)%nat ->
  (n_flagged k labels m + min_examples_per_class o <= n_labelled k labels)%nat.
Proof.
  intros srt labels pp K flt o m k Hs Hd [->| ->] Hn Hf H Hk Hm.
  - eapply min_examples_by_class; eauto.
  - eapply min_examples_both; eauto.
Qed.

Lemma C14_full : forall srt labels pp K flt o,
  argsort_ok srt -> dataset K labels pp -> two_classes labels ->
  num_to_remove_per_class o = None -> (1 <= n_jobs o)%nat ->
  (flt = LowSelfConfidence \/ flt = LowNormalizedMargin) ->
  exists m scores N,
    find_label_issues srt labels pp K flt o = Ok m /\
    get_label_quality_scores labels pp K
      (match flt with LowSelfConfidence => SelfConfidence | _ => NormalizedMargin end) false = Ok scores /\
    num_label_issues srt labels pp K = Ok N /\
    length m = length labels /\ count_true m = N /\
    (forall e e', (e' < length labels)%nat -> flagged m e -> ~ flagged m e' -> nth e scores 0 <= nth e' scores 0).
Proof.
  intros srt labels pp K flt o Hs Hd H2 Hn Hj [->| ->]; apply low_spec; auto.
Qed.

(** boolean check of [dataset], for concrete examples *)
Definition dataset_b (K : nat) (labels : list nat) (pp : list (list Q)) : bool :=
  (Nat.eqb (length labels) (length pp) && negb (Nat.eqb (length labels) 0) &&
   forallb (fun l => Nat.ltb l K) labels &&
   forallb (fun r => (Nat.eqb (length r) K && forallb (fun x => (Qle_bool 0 x && Qle_bool x 1)%bool) r)%bool) pp)%bool.
Lemma dataset_b_ok K labels pp : dataset_b K labels pp = true -> dataset K labels pp.
Proof.
  unfold dataset_b. rewrite !andb_true_iff. intros (((H1 & H2) & H3) & H4).
  apply Nat.eqb_eq in H1. apply negb_true_iff, Nat.eqb_neq in H2.
  rewrite forallb_forall in H3, H4. split; auto.
  - intros ->. simpl in H2. lia.
  - intros l Hl. apply Nat.ltb_lt. auto.
  - intros r Hr. specialize (H4 r Hr). apply andb_prop in H4 as (H4 & _). apply Nat.eqb_eq. auto.
  - intros r x Hr Hx. specialize (H4 r Hr). apply andb_prop in H4 as (_ & H4). rewrite forallb_forall in H4.
    specialize (H4 x Hx). apply andb_prop in H4 as (Ha & Hb). split; apply Qle_bool_iff; auto.
Qed.
