(** * Proofs about ModelUtil *)
From Coq Require Import QArith Qabs Qround List Permutation Sorted ZArith Bool Arith Lia Lqa Setoid Morphisms.
From Verif Require Import Base BaseFacts ModelUtil SpecCount.
Import ListNotations.
Open Scope Q_scope.

(** ** constants *)
Lemma TINY_pos : 0 < TINY_VALUE. Proof. reflexivity. Qed.
Lemma TINY_le_1 : TINY_VALUE <= 1. Proof. unfold TINY_VALUE, Qle. vm_compute. discriminate. Qed.
Lemma TINY_le_1e6 : TINY_VALUE <= 1 # 1000000. Proof. unfold TINY_VALUE, Qle. vm_compute. discriminate. Qed.

(** ** upd *)
Lemma upd_length {A} (l : list A) i v : length (upd l i v) = length l.
Proof. revert i; induction l; intros [|i]; simpl; auto. Qed.
Lemma nth_upd {A} (l : list A) i v j d :
  nth j (upd l i v) d = if (Nat.eqb j i && Nat.ltb i (length l))%bool then v else nth j l d.
Proof.
  revert i j; induction l as [|a l IH]; intros [|i] [|j]; simpl; auto.
  - rewrite Nat.ltb_irrefl || idtac. destruct (Nat.eqb j i && _)%bool eqn:E; auto.
    apply andb_prop in E as (_ & E). apply Nat.ltb_lt in E. lia.
  - rewrite IH. destruct (Nat.eqb j i); simpl; auto.
Qed.
Lemma nth_upd_eq {A} (l : list A) i v d : (i < length l)%nat -> nth i (upd l i v) d = v.
Proof. intros H. rewrite nth_upd, Nat.eqb_refl. apply Nat.ltb_lt in H. rewrite H. reflexivity. Qed.
Lemma nth_upd_neq {A} (l : list A) i v j d : j <> i -> nth j (upd l i v) d = nth j l d.
Proof. intros H. rewrite nth_upd. apply Nat.eqb_neq in H. rewrite H. reflexivity. Qed.
Lemma zsum_upd l i v : (i < length l)%nat -> zsum (upd l i v) = (zsum l + v - nth i l 0)%Z.
Proof.
  revert i; induction l as [|a l IH]; intros [|i] H; simpl in *; try lia.
  rewrite IH by lia. lia.
Qed.

Lemma add_at_length inc idx : forall ints, length (add_at inc ints idx) = length ints.
Proof.
  unfold add_at. induction idx as [|i idx IH]; intros ints; simpl; auto. rewrite IH, upd_length. reflexivity.
Qed.
Lemma add_at_zsum inc idx : forall ints, (forall i, In i idx -> (i < length ints)%nat) ->
  zsum (add_at inc ints idx) = (zsum ints + inc * Z.of_nat (length idx))%Z.
Proof.
  unfold add_at. induction idx as [|i idx IH]; intros ints H; [cbn [fold_left length]; change (Z.of_nat 0) with 0%Z; ring|]. cbn [fold_left length].
  rewrite IH.
  - rewrite zsum_upd by (apply H; left; auto). rewrite Nat2Z.inj_succ. ring.
  - intros j Hj. rewrite upd_length. apply H; right; auto.
Qed.
Lemma add_at_nth inc idx : forall ints j, NoDup idx -> (forall i, In i idx -> (i < length ints)%nat) ->
  nth j (add_at inc ints idx) 0%Z = (nth j ints 0 + (if mem j idx then inc else 0))%Z.
Proof.
  unfold add_at. induction idx as [|i idx IH]; intros ints j Hd H; cbn [fold_left mem existsb].
  - lia.
  - inversion Hd; subst. rewrite IH; auto.
    2:{ intros k Hk. rewrite upd_length. apply H; right; auto. }
    destruct (Nat.eqb_spec j i) as [->|Hne].
    + rewrite nth_upd_eq by (apply H; left; auto).
      assert (mem i idx = false) as -> by (apply mem_false; auto). cbn [orb]. lia.
    + rewrite nth_upd_neq by auto. cbn [orb]. reflexivity.
Qed.

(** ** rounding *)
Lemma round_half_even_rounds q : rounds_to q (round_half_even q).
Proof.
  pose proof (round_half_even_bound q) as (H1 & H2). split.
  - apply Qabs_Qle_condition. split; lra.
  - unfold round_half_even in *. pose proof (Qfloor_le q) as H3. pose proof (Qlt_floor q) as H4.
    rewrite inject_Z_plus in H4. change (inject_Z 1) with 1 in H4.
    destruct (q - inject_Z (Qfloor q) ?= 1#2) eqn:E.
    + destruct (Z.even (Qfloor q)) eqn:Ev; auto. intros _. rewrite Z.even_add, Ev. reflexivity.
    + apply Qlt_alt in E. rewrite Qabs_pos by lra. intros C. lra.
    + apply Qgt_alt in E. rewrite inject_Z_plus in *. change (inject_Z 1) with 1 in *.
      rewrite Qabs_neg by lra. intros C. lra.
Qed.
Lemma rounds_to_unique q a b : rounds_to q a -> rounds_to q b -> a = b.
Proof.
  intros (Ha & Ea) (Hb & Eb).
  apply Qabs_Qle_condition in Ha as (Ha1 & Ha2). apply Qabs_Qle_condition in Hb as (Hb1 & Hb2).
  assert (inject_Z a <= inject_Z (b + 1)) as H1 by (rewrite inject_Z_plus; change (inject_Z 1) with 1; lra).
  assert (inject_Z b <= inject_Z (a + 1)) as H2 by (rewrite inject_Z_plus; change (inject_Z 1) with 1; lra).
  rewrite <- Zle_Qle in H1, H2.
  assert (a = b \/ a = b + 1 \/ b = a + 1)%Z as [H|[H|H]] by lia; auto; exfalso.
  - subst a. rewrite inject_Z_plus in *. change (inject_Z 1) with 1 in *.
    assert (Z.even (b+1) = true) as E1. { apply Ea. rewrite Qabs_neg by lra. lra. }
    assert (Z.even b = true) as E2. { apply Eb. rewrite Qabs_pos by lra. lra. }
    rewrite Z.even_add, E2 in E1. discriminate.
  - subst b. rewrite inject_Z_plus in *. change (inject_Z 1) with 1 in *.
    assert (Z.even (a+1) = true) as E1. { apply Eb. rewrite Qabs_neg by lra. lra. }
    assert (Z.even a = true) as E2. { apply Ea. rewrite Qabs_pos by lra. lra. }
    rewrite Z.even_add, E2 in E1. discriminate.
Qed.

(** the c largest of a family of values in [-1/2, 1/2] with sum at least c - 1/2 are positive *)
Lemma top_positive (d : nat -> Q) (T rest : list nat) :
  (forall i, In i (T ++ rest) -> d i <= 1#2) ->
  (forall x y, In x T -> In y rest -> d y <= d x) ->
  Qnat (length T) - (1#2) <= qsum (map d (T ++ rest)) ->
  forall i, In i T -> 0 < d i.
Proof.
  intros Hb Ho Hs i Hi. destruct (Qlt_le_dec 0 (d i)) as [|Hn]; auto. exfalso.
  destruct (in_split i T Hi) as (T1 & T2 & HT).
  assert (qsum (map d rest) <= 0).
  { apply Qle_trans with (qsum (map (fun _ => 0) rest)).
    - apply qsum_map_le. intros y Hy. specialize (Ho i y Hi Hy). lra.
    - rewrite qsum_map_const. lra. }
  assert (qsum (map d T1) <= Qnat (length T1) * (1#2)).
  { rewrite <- qsum_map_const. apply qsum_map_le. intros y Hy. apply Hb.
    apply in_or_app; left. rewrite HT. apply in_or_app; auto. }
  assert (qsum (map d T2) <= Qnat (length T2) * (1#2)).
  { rewrite <- qsum_map_const. apply qsum_map_le. intros y Hy. apply Hb.
    apply in_or_app; left. rewrite HT. apply in_or_app; right; right; auto. }
  rewrite map_app, qsum_app, HT, map_app, qsum_app in Hs. cbn [map] in Hs. rewrite qsum_cons in Hs.
  rewrite app_length in Hs. cbn [length] in Hs. rewrite Qnat_plus, Qnat_S in Hs.
  pose proof (Qnat_nonneg (length T1)). pose proof (Qnat_nonneg (length T2)). lra.
Qed.

Lemma loop_cond a b : Qltb FLOATING_POINT_COMPARISON (Qabs (inject_Z (a - b))) = negb (Z.eqb a b).
Proof.
  destruct (Z.eqb_spec a b) as [->|H]; cbn [negb].
  - rewrite Z.sub_diag. reflexivity.
  - qb. unfold FLOATING_POINT_COMPARISON.
    destruct (Z_lt_le_dec (a - b) 0).
    + rewrite Qabs_neg by (change 0 with (inject_Z 0); rewrite <- Zle_Qle; lia).
      assert (inject_Z (a - b) <= inject_Z (-1)) as Hx by (rewrite <- Zle_Qle; lia).
      change (inject_Z (-1)) with (-(1)) in Hx. lra.
    + rewrite Qabs_pos by (change 0 with (inject_Z 0); rewrite <- Zle_Qle; lia).
      assert (inject_Z 1 <= inject_Z (a - b)) as Hx by (rewrite <- Zle_Qle; lia).
      change (inject_Z 1) with 1 in Hx. lra.
Qed.

Lemma combine_nth_pair {A B} (l : list A) (l' : list B) i da db :
  length l = length l' -> nth i (combine l l') (da, db) = (nth i l da, nth i l' db).
Proof. intros. apply combine_nth. assumption. Qed.

(** The core of C01: one pass of the loop reaches the target. *)
Lemma rps_loop_ok srt fuel xs : argsort_ok srt ->
  exists zs, round_preserving_sum_fuel srt (S fuel) xs = Ok zs /\
    length zs = length xs /\ zsum zs = round_half_even (qsum xs) /\
    forall i, (i < length xs)%nat -> Qabs (inject_Z (nth i zs 0%Z) - nth i xs 0) < 1.
Proof.
  intros Hsrt. unfold round_preserving_sum_fuel.
  set (ints := map round_half_even xs). set (S0 := round_half_even (qsum xs)).
  assert (Hlen : length ints = length xs) by (unfold ints; rewrite map_length; reflexivity).
  set (dl := map (fun fi => fst fi - inject_Z (snd fi)) (combine xs ints)).
  set (d := fun i => nth i dl 0).
  assert (Hdl : length dl = length xs).
  { unfold dl. rewrite map_length, combine_length, Hlen. lia. }
  assert (Hd : forall i, (i < length xs)%nat -> d i = nth i xs 0 - inject_Z (nth i ints 0%Z)).
  { intros i Hi. unfold d, dl.
    rewrite (nth_map_gen _ _ _ _ (0, 0%Z)) by (rewrite combine_length, Hlen; lia).
    rewrite combine_nth by auto. reflexivity. }
  assert (Hints : forall i, (i < length xs)%nat -> nth i ints 0%Z = round_half_even (nth i xs 0)).
  { intros i Hi. unfold ints. rewrite (nth_map_gen _ _ _ _ 0) by auto. reflexivity. }
  assert (Hdb : forall i, (i < length xs)%nat -> -(1#2) <= d i /\ d i <= 1#2).
  { intros i Hi. rewrite Hd, Hints by auto. pose proof (round_half_even_bound (nth i xs 0)). lra. }
  assert (Hsum : qsum (map d (seq 0 (length xs))) == qsum xs - inject_Z (zsum ints)).
  { rewrite (qsum_as_tab xs). rewrite <- qsum_inject. rewrite (qsum_as_tab (map inject_Z ints)).
    rewrite map_length, Hlen. unfold tab. rewrite <- qsum_map_minus. apply qsum_map_ext.
    intros i Hi. apply in_seq in Hi. rewrite Hd by lia.
    rewrite (nth_map_gen inject_Z ints i 0 0%Z) by lia. reflexivity. }
  pose proof (round_half_even_bound (qsum xs)) as (HS1 & HS2). fold S0 in HS1, HS2.
  cbn [rps_loop]. rewrite loop_cond.
  destruct (Z.eqb_spec (zsum ints) S0) as [E|E]; cbn [negb].
  { exists ints. split; [reflexivity|]. split; [auto|]. split; [auto|].
    intros i Hi. specialize (Hdb i Hi). rewrite Hd in Hdb by auto.
    apply Qabs_Qlt_condition. split; lra. }
  fold dl. set (order := srt dl).
  assert (Hord : is_argsort dl order) by apply Hsrt.
  assert (Hperm : Permutation order (seq 0 (length xs))) by (rewrite <- Hdl; apply Hord).
  assert (Hin : forall i, In i order <-> (i < length xs)%nat) by (apply Permutation_seq_lt; auto).
  assert (HnatQ : forall z, (0 <= z)%Z -> Qnat (Z.to_nat z) == inject_Z z).
  { intros z Hz. unfold Qnat. rewrite Z2Nat.id by lia. reflexivity. }
  assert (Hn2 : qsum (map d (seq 0 (length xs))) <= Qnat (length xs) * (1#2) /\
                - (Qnat (length xs) * (1#2)) <= qsum (map d (seq 0 (length xs)))).
  { split.
    - rewrite <- (seq_length (length xs) 0) at 2. rewrite <- (qsum_map_const (1#2)).
      apply qsum_map_le. intros i Hi. apply in_seq in Hi. apply Hdb; lia.
    - assert (- (Qnat (length xs) * (1 # 2)) == Qnat (length xs) * -(1#2)) as -> by ring.
      rewrite <- (seq_length (length xs) 0) at 1. rewrite <- (qsum_map_const (-(1#2))).
      apply qsum_map_le. intros i Hi. apply in_seq in Hi. apply Hdb; lia. }
  assert (Hsorted : StronglySorted (fun i j => d i <= d j) order) by apply Hord.
  (* the number of changes is |diff| *)
  assert (Hch : (Z.to_nat (Z.abs (S0 - zsum ints)) <= length xs)%nat).
  { destruct xs as [|x0 xs'].
    - exfalso. apply E. unfold S0, ints. simpl. reflexivity.
    - apply Qnat_le_iff. rewrite HnatQ by lia.
      assert (Qnat (length (x0 :: xs')) * (1#2) + (1#2) <= Qnat (length (x0 :: xs'))).
      { assert (1 <= Qnat (length (x0 :: xs'))).
        { change 1 with (Qnat 1). apply Qnat_le. simpl. lia. } lra. }
      destruct (Z_lt_le_dec (S0 - zsum ints) 0).
      + rewrite Z.abs_neq by lia. rewrite inject_Z_opp. unfold Z.sub. rewrite inject_Z_plus, inject_Z_opp. lra.
      + rewrite Z.abs_eq by lia. unfold Z.sub. rewrite inject_Z_plus, inject_Z_opp. lra. }
  rewrite Nat.min_l by assumption.
  set (c := Z.to_nat (Z.abs (S0 - zsum ints))) in *.
  destruct (Z.ltb_spec (S0 - zsum ints) 0) as [Hneg|Hpos].
  - (* decrement *)
    set (T := firstn c order).
    assert (HTlen : length T = c).
    { unfold T. rewrite firstn_length, (Permutation_length Hperm), seq_length. lia. }
    assert (HTin : forall i, In i T -> (i < length xs)%nat).
    { intros i Hi. apply Hin. eapply firstn_In; eauto. }
    assert (HTd : NoDup T). { apply firstn_NoDup. apply (argsort_NoDup dl). auto. }
    assert (HTpos : forall i, In i T -> 0 < - d i).
    { apply top_positive with (rest := skipn c order).
      - intros i Hi. unfold T in Hi. rewrite firstn_skipn in Hi. apply Hin in Hi. specialize (Hdb i Hi). lra.
      - intros x y Hx Hy. unfold T in Hx. rewrite <- (firstn_skipn c order) in Hsorted.
        apply StronglySorted_app in Hsorted as (_ & _ & HH). specialize (HH x y Hx Hy). cbn in HH. lra.
      - unfold T. rewrite firstn_skipn.
        assert (qsum (map (fun i => - d i) order) == - qsum (map d order)) as ->.
        { assert (- qsum (map d order) == (-(1)) * qsum (map d order)) as -> by ring.
          rewrite <- qsum_map_scale. apply qsum_map_ext. intros; ring. }
        rewrite (qsum_perm _ _ (Permutation_map d Hperm)), Hsum.
        fold T. rewrite HTlen. unfold c. rewrite Z.abs_neq by lia. rewrite HnatQ by lia.
        rewrite inject_Z_opp. unfold Z.sub. rewrite inject_Z_plus, inject_Z_opp. lra. }
    exists (add_at (-1) ints T).
    assert (Hs : zsum (add_at (-1) ints T) = S0).
    { rewrite add_at_zsum by (intros i Hi; rewrite Hlen; auto). rewrite HTlen. unfold c.
      rewrite Z2Nat.id by lia. rewrite Z.abs_neq by lia. lia. }
    split.
    { destruct fuel; cbn [rps_loop]; rewrite loop_cond, Hs, Z.eqb_refl; reflexivity. }
    split; [rewrite add_at_length; auto|]. split; [auto|].
    intros i Hi. rewrite add_at_nth by (auto; intros k Hk; rewrite Hlen; auto).
    rewrite inject_Z_plus. specialize (Hdb i Hi).
    destruct (mem i T) eqn:Em.
    + apply mem_iff in Em. specialize (HTpos i Em). rewrite Hd in * by auto.
      change (inject_Z (-1)) with (-(1)). apply Qabs_Qlt_condition. split; lra.
    + rewrite Hd in * by auto. change (inject_Z 0) with 0. apply Qabs_Qlt_condition. split; lra.
  - (* increment *)
    set (T := firstn c (rev order)).
    assert (Hpermr : Permutation (rev order) (seq 0 (length xs))).
    { rewrite <- Hperm. symmetry. apply Permutation_rev. }
    assert (HTlen : length T = c).
    { unfold T. rewrite firstn_length, (Permutation_length Hpermr), seq_length. lia. }
    assert (HTin : forall i, In i T -> (i < length xs)%nat).
    { intros i Hi. apply Hin. apply in_rev. eapply firstn_In; eauto. }
    assert (HTd : NoDup T). { apply firstn_NoDup. apply NoDup_rev. apply (argsort_NoDup dl). auto. }
    assert (HTpos : forall i, In i T -> 0 < d i).
    { apply top_positive with (rest := skipn c (rev order)).
      - intros i Hi. unfold T in Hi. rewrite firstn_skipn in Hi. apply in_rev in Hi.
        apply Hin in Hi. specialize (Hdb i Hi). lra.
      - intros x y Hx Hy.
        assert (order = rev (skipn c (rev order)) ++ rev T) as Ho.
        { rewrite <- rev_app_distr. unfold T. rewrite firstn_skipn, rev_involutive. reflexivity. }
        rewrite Ho in Hsorted. apply StronglySorted_app in Hsorted as (_ & _ & HH).
        apply HH; rewrite <- in_rev; auto.
      - unfold T. rewrite firstn_skipn. rewrite (qsum_perm _ _ (Permutation_map d Hpermr)), Hsum.
        fold T. rewrite HTlen. unfold c. rewrite Z.abs_eq by lia. rewrite HnatQ by lia.
        unfold Z.sub. rewrite inject_Z_plus, inject_Z_opp. lra. }
    exists (add_at 1 ints T).
    assert (Hs : zsum (add_at 1 ints T) = S0).
    { rewrite add_at_zsum by (intros i Hi; rewrite Hlen; auto). rewrite HTlen. unfold c.
      rewrite Z2Nat.id by lia. rewrite Z.abs_eq by lia. lia. }
    split.
    { destruct fuel; cbn [rps_loop]; rewrite loop_cond, Hs, Z.eqb_refl; reflexivity. }
    split; [rewrite add_at_length; auto|]. split; [auto|].
    intros i Hi. rewrite add_at_nth by (auto; intros k Hk; rewrite Hlen; auto).
    rewrite inject_Z_plus. specialize (Hdb i Hi).
    destruct (mem i T) eqn:Em.
    + apply mem_iff in Em. specialize (HTpos i Em). rewrite Hd in * by auto.
      change (inject_Z 1) with 1. apply Qabs_Qlt_condition. split; lra.
    + rewrite Hd in * by auto. change (inject_Z 0) with 0. apply Qabs_Qlt_condition. split; lra.
Qed.

Lemma round_preserving_sum_spec srt fuel xs : argsort_ok srt ->
  exists zs, round_preserving_sum_fuel srt (S fuel) xs = Ok zs /\ sum_preserving_rounding xs zs.
Proof.
  intros H. destruct (rps_loop_ok srt fuel xs H) as (zs & E & Hl & Hs & Hi).
  exists zs. split; auto. split; auto. split; auto. rewrite Hs. apply round_half_even_rounds.
Qed.

Lemma rmap_ok {A B} (f : A -> res B) l (P : A -> B -> Prop) :
  (forall a, In a l -> exists b, f a = Ok b /\ P a b) ->
  exists bs, rmap f l = Ok bs /\ Forall2 P l bs.
Proof.
  induction l as [|a l IH]; intros H; simpl.
  - exists []. split; auto.
  - destruct (H a) as (b & E & Hb); [left; auto|]. rewrite E. simpl.
    destruct IH as (bs & E' & Hbs); [intros; apply H; right; auto|]. rewrite E'. simpl.
    exists (b :: bs). split; auto.
Qed.

Lemma round_preserving_row_totals_spec srt m : argsort_ok srt ->
  exists zm, round_preserving_row_totals srt m = Ok zm /\ Forall2 sum_preserving_rounding m zm.
Proof.
  intros H. unfold round_preserving_row_totals. apply rmap_ok. intros row _.
  unfold round_preserving_sum. apply round_preserving_sum_spec. assumption.
Qed.
