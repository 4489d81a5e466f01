(** * Proofs for C91 *)
From Coq Require Import QArith Qabs Qround List Permutation Sorted ZArith Bool Arith Lia Lqa Setoid Morphisms.
From Verif Require Import Base BaseFacts ModelUtil ModelCount ModelFilter ModelIssueCount SpecCount SpecFilter
     SpecIssueCount ProofUtil ProofCount ProofFilter.
Import ListNotations.
Open Scope Q_scope.
Opaque TINY_VALUE.

Definition counts_ok (K : nat) (labels : list nat) (zm : list (list Z)) : Prop :=
  length zm = K /\
  (forall i, (i < K)%nat -> length (nth i zm []) = K /\
     zsum (nth i zm []) = Z.of_nat (n_labelled i labels) /\
     forall j, (j < K)%nat -> (0 <= zget zm i j)%Z).

Lemma zsum_zero_nonneg l : (forall x, In x l -> (0 <= x)%Z) -> zsum l = 0%Z -> forall x, In x l -> x = 0%Z.
Proof.
  induction l as [|a l IH]; intros H E x Hx; [destruct Hx|].
  assert (0 <= a)%Z by (apply H; left; auto).
  assert (forall l', (forall y, In y l' -> (0 <= y)%Z) -> (0 <= zsum l')%Z) as N.
  { induction l' as [|b l' IHl]; intros Hb; [simpl; lia|].
    change (zsum (b :: l')) with (b + zsum l')%Z. pose proof (Hb b (or_introl eq_refl)).
    assert (0 <= zsum l')%Z by (apply IHl; intros; apply Hb; right; auto). lia. }
  change (zsum (a :: l)) with (a + zsum l)%Z in E.
  pose proof (N l (fun y Hy => H y (or_intror Hy))).
  destruct Hx as [<-|Hx]; [lia|]. apply IH; auto; [intros; apply H; right; auto|lia].
Qed.

(** calibrating counts that already have the right row totals changes nothing *)
Lemma calibrate_fixed srt K labels zm : argsort_ok srt ->
  labels <> [] -> (forall l, In l labels -> (l < K)%nat) -> counts_ok K labels zm ->
  calibrate_confident_joint srt (zmat_to_q zm) labels = Ok zm.
Proof.
  intros Hsrt Hne Hlab (HK & H).
  set (cj := zmat_to_q zm).
  assert (Hcl : length cj = K) by (unfold cj, zmat_to_q; rewrite map_length; auto).
  unfold calibrate_confident_joint. rewrite Hcl, (value_counts_ok labels K) by auto.
  cbn [rbind]. set (lc := tab K (fun k => n_labelled k labels)).
  assert (Hlc : nsum lc = length labels) by (apply nsum_labelled; auto).
  set (calibrated := map _ (combine cj lc)).
  assert (Hlen1 : length calibrated = K).
  { unfold calibrated. rewrite map_length, combine_length, Hcl. unfold lc. rewrite tab_length. lia. }
  assert (Hrow : forall i, (i < K)%nat -> qsum (nth i cj []) == Qnat (n_labelled i labels)).
  { intros i Hi. unfold cj. rewrite zmat_row, qsum_inject. destruct (H i Hi) as (_ & -> & _). reflexivity. }
  assert (Hc1 : forall i, (i < K)%nat -> nth i calibrated [] =
     map (fun x => x / clip_lo TINY_VALUE (qsum (nth i cj [])) * Qnat (n_labelled i labels)) (nth i cj [])).
  { intros i Hi. unfold calibrated.
    rewrite (nth_map_gen _ _ _ _ ([], 0%nat)) by (unfold lc; rewrite combine_length, Hcl, tab_length; lia).
    rewrite combine_nth by (unfold lc; rewrite tab_length; auto).
    unfold lc. rewrite nth_tab by auto. reflexivity. }
  assert (Hval : forall i j, (i < K)%nat -> (j < K)%nat ->
    mget cj i j / clip_lo TINY_VALUE (qsum (nth i cj [])) * Qnat (n_labelled i labels) == mget cj i j).
  { intros i j Hi Hj. destruct (n_labelled i labels) as [|c] eqn:En.
    - assert (Z0 : mget cj i j == 0).
      { unfold cj. rewrite zmat_get. destruct (H i Hi) as (L & Sz & Nn). rewrite En in Sz.
        assert (zget zm i j = 0%Z) as ->; [|reflexivity].
        unfold zget. apply (zsum_zero_nonneg (nth i zm [])); auto.
        - intros x Hx. apply In_nth with (d := 0%Z) in Hx as (k & Hk & <-). apply Nn. lia.
        - apply nth_In. lia. }
      rewrite Z0. change (Qnat 0) with 0. unfold Qdiv. ring.
    - assert (1 <= Qnat (Datatypes.S c)) by (change 1 with (Qnat 1); apply Qnat_le; lia).
      rewrite clip_lo_id by (rewrite (Hrow i Hi), En; pose proof TINY_le_1; lra).
      rewrite (Hrow i Hi), En. field. lra. }
  assert (Hc1s : forall i, (i < K)%nat -> qsum (nth i calibrated []) == Qnat (n_labelled i labels)).
  { intros i Hi. rewrite <- (Hrow i Hi). rewrite Hc1 by auto.
    assert (Hli : length (nth i cj []) = K).
    { unfold cj. rewrite zmat_row, map_length. apply H; auto. }
    rewrite (qsum_as_tab (map _ _)), map_length, Hli, (qsum_as_tab (nth i cj [])), Hli.
    apply qsum_tab_ext. intros j Hj. rewrite (nth_map_gen _ (nth i cj []) j 0 0) by lia.
    rewrite <- (qsum_as_tab (nth i cj [])) || idtac. apply Hval; auto. }
  set (total := qsum (map qsum calibrated)).
  assert (Htot : total == Qnat (length labels)).
  { unfold total. rewrite <- Hlc, Qnat_nsum. unfold lc. rewrite map_tab.
    rewrite (qsum_as_tab (map qsum calibrated)), map_length, Hlen1.
    apply qsum_tab_ext. intros i Hi. rewrite (nth_map_gen qsum calibrated i 0 []) by lia. auto. }
  assert (HN : 1 <= Qnat (length labels)).
  { change 1 with (Qnat 1). apply Qnat_le. destruct labels; [congruence|simpl; lia]. }
  assert (Hct : clip_lo TINY_VALUE total == Qnat (length labels)).
  { rewrite clip_lo_id; auto. rewrite Htot. pose proof TINY_le_1. lra. }
  set (cal2 := map (map _) calibrated).
  assert (Hlen2 : length cal2 = K) by (unfold cal2; rewrite map_length; auto).
  assert (Hc2 : forall i, (i < K)%nat -> length (nth i cal2 []) = K /\
     forall j, (j < K)%nat -> nth j (nth i cal2 []) 0 == inject_Z (zget zm i j)).
  { intros i Hi. unfold cal2. rewrite (nth_map_gen _ calibrated i [] []) by lia.
    assert (Hli : length (nth i cj []) = K).
    { unfold cj. rewrite zmat_row, map_length. apply H; auto. }
    split.
    - rewrite map_length, Hc1, map_length by auto. auto.
    - intros j Hj.
      rewrite (nth_map_gen _ (nth i calibrated []) j 0 0) by (rewrite Hc1, map_length; auto; lia).
      rewrite Hc1 by auto. rewrite (nth_map_gen _ (nth i cj []) j 0 0) by lia.
      fold (mget cj i j). rewrite (Hval i j Hi Hj), Hct, Hlc. unfold cj. rewrite zmat_get. field. lra. }
  destruct (round_preserving_row_totals_spec srt cal2 Hsrt) as (z2 & -> & HF).
  f_equal. apply (Forall2_nth _ _ _ [] []) in HF as (Hlz & HF).
  apply list_eq_nth with (d := []); [lia|]. intros i Hi.
  destruct (HF i) as (Hlr & _ & Hclose); [lia|]. destruct (Hc2 i) as (Hl2 & Hv2); [lia|].
  destruct (H i) as (Lz & _ & _); [lia|].
  apply list_eq_nth with (d := 0%Z); [lia|]. intros j Hj.
  specialize (Hclose j ltac:(lia)). rewrite (Hv2 j) in Hclose by lia. unfold zget in Hclose.
  apply Qabs_Qlt_condition in Hclose as (A & B).
  assert (inject_Z (-1) < inject_Z (nth j (nth i z2 []) 0 - nth j (nth i zm []) 0)%Z) as A'.
  { unfold Z.sub. rewrite inject_Z_plus, inject_Z_opp. change (inject_Z (-1)) with (-(1)). lra. }
  assert (inject_Z (nth j (nth i z2 []) 0 - nth j (nth i zm []) 0)%Z < inject_Z 1) as B'.
  { unfold Z.sub. rewrite inject_Z_plus, inject_Z_opp. change (inject_Z 1) with 1. lra. }
  rewrite <- Zlt_Qlt in A'. rewrite <- Zlt_Qlt in B'. lia.
Qed.

Lemma zsum_tab_split K i f : (i < K)%nat ->
  zsum (tab K f) = (f i + zsum (tab K (fun j => if Nat.eqb i j then 0 else f j)))%Z.
Proof.
  unfold tab. intros Hi.
  assert (G : forall n a, zsum (map f (seq a n)) =
     ((if andb (Nat.leb a i) (Nat.ltb i (a + n)) then f i else 0)
      + zsum (map (fun j => if Nat.eqb i j then 0 else f j) (seq a n)))%Z).
  { induction n as [|n IH]; intros a; [simpl; destruct (Nat.leb a i) eqn:E1; cbn [andb]; auto;
      destruct (Nat.ltb_spec i (a + 0)); auto; apply Nat.leb_le in E1; lia|].
    cbn [seq map]. unfold zsum in *. cbn [fold_right]. rewrite IH.
    destruct (Nat.leb_spec a i), (Nat.ltb_spec i (a + Datatypes.S n)), (Nat.leb_spec (Datatypes.S a) i),
      (Nat.ltb_spec i (Datatypes.S a + n)), (Nat.eqb_spec i a); subst; cbn [andb]; lia. }
  rewrite G. replace (andb _ _) with true; auto. symmetry. apply andb_true_iff. split.
  - apply Nat.leb_le; lia.
  - apply Nat.ltb_lt; lia.
Qed.
Lemma qsum_tab_split K i f : (i < K)%nat ->
  qsum (tab K f) == f i + qsum (tab K (fun j => if Nat.eqb i j then 0 else f j)).
Proof.
  unfold tab. intros Hi.
  assert (G : forall n a, qsum (map f (seq a n)) ==
     (if andb (Nat.leb a i) (Nat.ltb i (a + n)) then f i else 0)
      + qsum (map (fun j => if Nat.eqb i j then 0 else f j) (seq a n))).
  { induction n as [|n IH]; intros a; [simpl; destruct (Nat.leb a i) eqn:E1; cbn [andb]; try (unfold qsum; simpl; lra);
      destruct (Nat.ltb_spec i (a + 0)); try (unfold qsum; simpl; lra); apply Nat.leb_le in E1; lia|].
    cbn [seq map]. specialize (IH (Datatypes.S a)). unfold qsum in *. cbn [fold_right]. rewrite IH.
    destruct (Nat.leb_spec a i), (Nat.ltb_spec i (a + Datatypes.S n)), (Nat.leb_spec (Datatypes.S a) i),
      (Nat.ltb_spec i (Datatypes.S a + n)), (Nat.eqb_spec i a); subst; cbn [andb]; try lia; lra. }
  rewrite G. replace (andb _ _) with true; [reflexivity|]. symmetry. apply andb_true_iff. split.
  - apply Nat.leb_le; lia.
  - apply Nat.ltb_lt; lia.
Qed.

Lemma zsum_as_tab l : zsum l = zsum (tab (length l) (fun i => nth i l 0%Z)).
Proof. f_equal. apply list_eq_nth with (d := 0%Z); rewrite ?tab_length; auto. intros i Hi. rewrite nth_tab; auto. Qed.
Lemma zsum_tab_ext n f g : (forall i, (i < n)%nat -> f i = g i) -> zsum (tab n f) = zsum (tab n g).
Proof.
  intros H. f_equal. apply list_eq_nth with (d := 0%Z); rewrite ?tab_length; auto.
  intros i Hi. rewrite !nth_tab by auto. auto.
Qed.
Lemma zsum_tab_minus n f g : zsum (tab n (fun i => f i - g i)%Z) = (zsum (tab n f) - zsum (tab n g))%Z.
Proof. unfold tab. induction (seq 0 n) as [|a l IH]; cbn [map]; [reflexivity|]. unfold zsum in *. cbn [fold_right]. lia. Qed.
Lemma zsum_nonneg l : (forall x, In x l -> (0 <= x)%Z) -> (0 <= zsum l)%Z.
Proof.
  induction l as [|b l' IHl]; intros Hb; [simpl; lia|].
  change (zsum (b :: l')) with (b + zsum l')%Z. pose proof (Hb b (or_introl eq_refl)).
  assert (0 <= zsum l')%Z by (apply IHl; intros; apply Hb; right; auto). lia.
Qed.
Lemma in_tab {A} n (f : nat -> A) x : In x (tab n f) -> exists i, (i < n)%nat /\ x = f i.
Proof. unfold tab. intros H. apply in_map_iff in H as (i & <- & Hi). apply in_seq in Hi. exists i. split; auto; lia. Qed.

Lemma off_total_diag K labels zm : (forall l, In l labels -> (l < K)%nat) -> counts_ok K labels zm ->
  off_diagonal_total K zm = (Z.of_nat (length labels) - zsum (tab K (fun i => zget zm i i)))%Z.
Proof.
  intros Hlab (HK & H). unfold off_diagonal_total.
  rewrite (zsum_tab_ext K _ (fun i => zsum (nth i zm []) - zget zm i i)%Z).
  - rewrite zsum_tab_minus. f_equal.
    rewrite <- (nsum_labelled K labels) by auto.
    rewrite <- (zsum_nth_total zm K (fun k => n_labelled k labels)) by (auto; intros i Hi; apply H; auto).
    rewrite (zsum_as_tab (map zsum zm)), map_length, HK. apply zsum_tab_ext. intros i Hi.
    rewrite (nth_map_gen zsum zm i 0%Z []) by lia. reflexivity.
  - intros i Hi. destruct (H i Hi) as (L & _ & _).
    rewrite (zsum_as_tab (nth i zm [])), L. 
    rewrite (zsum_tab_split K i (fun j => nth j (nth i zm []) 0%Z)) by auto. unfold zget. lia.
Qed.

Lemma off_total_range K labels zm : (forall l, In l labels -> (l < K)%nat) -> counts_ok K labels zm ->
  (0 <= off_diagonal_total K zm <= Z.of_nat (length labels))%Z.
Proof.
  intros Hlab Hc. split.
  - apply zsum_nonneg. intros x Hx. apply in_tab in Hx as (i & Hi & ->). apply zsum_nonneg. intros x Hx.
    apply in_tab in Hx as (j & Hj & ->). destruct (Nat.eqb i j); [lia|]. apply Hc; auto.
  - rewrite (off_total_diag K labels zm) by auto.
    assert (0 <= zsum (tab K (fun i => zget zm i i)))%Z; [|lia].
    apply zsum_nonneg. intros x Hx. apply in_tab in Hx as (i & Hi & ->). apply Hc; auto.
Qed.

(** the last two lines of the joint-based methods *)
Lemma rint_joint K labels zm : labels <> [] -> (forall l, In l labels -> (l < K)%nat) -> counts_ok K labels zm ->
  round_half_even ((1 - trace (let m := zmat_to_q zm in
     map (map (fun x => x / clip_lo TINY_VALUE (qsum (map qsum m)))) m)) * Qnat (length labels))
  = off_diagonal_total K zm.
Proof.
  intros Hne Hlab Hc. rewrite (off_total_diag K labels zm) by auto. destruct Hc as (HK & H).
  cbv zeta. set (m := zmat_to_q zm). set (tot := clip_lo _ _).
  assert (Hm : length m = K) by (unfold m, zmat_to_q; rewrite map_length; auto).
  assert (HN : 1 <= Qnat (length labels)).
  { change 1 with (Qnat 1). apply Qnat_le. destruct labels; [congruence|simpl; lia]. }
  assert (Ht : qsum (map qsum m) == Qnat (length labels)).
  { assert (map qsum m = map (fun r => qsum (map inject_Z r)) zm) as ->.
    { unfold m, zmat_to_q. rewrite map_map. reflexivity. }
    rewrite (qsum_map_ext _ (fun r => inject_Z (zsum r))) by (intros; apply qsum_inject).
    rewrite <- (map_map zsum inject_Z), qsum_inject.
    rewrite (zsum_nth_total zm K (fun k => n_labelled k labels)) by (auto; intros i Hi; apply H; auto).
    rewrite nsum_labelled by auto. reflexivity. }
  assert (Htot : tot == Qnat (length labels)).
  { unfold tot. rewrite clip_lo_id; auto. rewrite Ht. pose proof TINY_le_1. lra. }
  assert (Htr : trace (map (map (fun x => x / tot)) m) == inject_Z (zsum (tab K (fun i => zget zm i i))) / tot).
  { unfold trace. rewrite map_length, Hm, <- qsum_inject. unfold tab at 2. rewrite map_map.
    fold (tab K (fun i => inject_Z (zget zm i i))).
    transitivity (qsum (tab K (fun i => inject_Z (zget zm i i) / tot))).
    - apply qsum_tab_ext. intros i Hi. unfold mget. rewrite (nth_map_gen _ m i [] []) by lia.
      rewrite (nth_map_gen _ (nth i m []) i 0 0).
      2:{ unfold m. rewrite zmat_row, map_length. destruct (H i Hi) as (-> & _). auto. }
      fold (mget m i i). unfold m. rewrite zmat_get. reflexivity.
    - unfold tab. apply qsum_map_div. }
  rewrite Htr, Htot.
  setoid_replace ((1 - inject_Z (zsum (tab K (fun i => zget zm i i))) / Qnat (length labels)) * Qnat (length labels))
    with (inject_Z (Z.of_nat (length labels) - zsum (tab K (fun i => zget zm i i)))%Z).
  - apply round_half_even_Z.
  - unfold Z.sub. rewrite inject_Z_plus, inject_Z_opp. change (inject_Z (Z.of_nat (length labels))) with (Qnat (length labels)).
    field. lra.
Qed.

Lemma calibrated_counts_ok srt K cj labels zm : argsort_ok srt -> cj_ok K cj -> labels <> [] ->
  (forall l, In l labels -> (l < K)%nat) -> calibrate_confident_joint srt cj labels = Ok zm ->
  counts_ok K labels zm.
Proof.
  intros Hs Hc Hne Hl E. destruct (calibrate_spec srt K cj labels Hs Hc Hne Hl) as (z & E' & HK & H).
  rewrite E in E'. injection E' as <-. split; auto. intros i Hi. destruct (H i Hi) as (A & B & C).
  repeat split; auto. intros j Hj. apply C; auto.
Qed.

Lemma C91_calibrated_full : forall srt K labels pp cj, argsort_ok srt -> dataset K labels pp -> two_classes labels ->
  exists z idx, compute_confident_joint srt labels pp K None true = Ok (z, idx) /\
    num_label_issues_method srt labels pp K cj OffDiagonalCalibrated = Ok (off_diagonal_total K z) /\
    (0 <= off_diagonal_total K z <= Z.of_nat (length labels))%Z.
Proof.
  intros srt K labels pp cj Hs Hd Htw. pose proof Hd as [Hlen Hne Hlab Hrow Hprob].
  unfold num_label_issues_method. rewrite (valid_ok K labels pp false Hd) by auto. cbn [rbind].
  unfold num_label_issues_from_joint, compute_confident_joint.
  pose proof (uncalibrated_cj_ok labels pp (get_confident_thresholds labels pp K) K) as Hu.
  destruct (calibrate_spec srt K _ labels Hs Hu Hne Hlab) as (zm & E & _ & _).
  pose proof (calibrated_counts_ok srt K _ labels zm Hs Hu Hne Hlab E) as Hc.
  rewrite E. cbn [rbind fst]. unfold estimate_joint.
  rewrite (calibrate_fixed srt K labels zm) by auto. cbn [rbind].
  exists zm. eexists. split; [reflexivity|]. split.
  - f_equal. apply rint_joint; auto.
  - apply off_total_range; auto.
Qed.

Lemma C91_custom_full : forall srt K labels pp c, argsort_ok srt -> dataset K labels pp -> two_classes labels ->
  length c = K -> (forall r, In r c -> length r = K) ->
  (forall r x, In r c -> In x r -> 0 <= x) -> (forall r, In r c -> TINY_VALUE <= qsum r) ->
  exists z, calibrate_confident_joint srt c labels = Ok z /\
    num_label_issues_method srt labels pp K (Some c) OffDiagonalCustom = Ok (off_diagonal_total K z) /\
    (0 <= off_diagonal_total K z <= Z.of_nat (length labels))%Z.
Proof.
  intros srt K labels pp c Hs Hd Htw H1 H2 H3 H4. pose proof Hd as [Hlen Hne Hlab Hrow Hprob].
  unfold num_label_issues_method. rewrite (valid_ok K labels pp false Hd) by auto. cbn [rbind].
  unfold num_label_issues_from_joint.
  assert (Hu : cj_ok K c) by (repeat split; auto).
  destruct (calibrate_spec srt K _ labels Hs Hu Hne Hlab) as (zm & E & _ & _).
  pose proof (calibrated_counts_ok srt K _ labels zm Hs Hu Hne Hlab E) as Hc.
  unfold estimate_joint. cbn [rbind]. rewrite E. cbn [rbind].
  exists zm. split; auto. split.
  - f_equal. apply rint_joint; auto.
  - apply off_total_range; auto.
Qed.

Lemma qsum_tab_close n f g d : (forall i, (i < n)%nat -> Qabs (f i - g i) < d) -> (0 < n)%nat ->
  Qabs (qsum (tab n f) - qsum (tab n g)) < Qnat n * d.
Proof.
  intros H Hn. destruct n as [|n]; [lia|]. clear Hn.
  assert (G : forall k a, (forall i, (a <= i < a + Datatypes.S k)%nat -> Qabs (f i - g i) < d) ->
     Qabs (qsum (map f (seq a (Datatypes.S k))) - qsum (map g (seq a (Datatypes.S k)))) < Qnat (Datatypes.S k) * d).
  { induction k as [|k IH]; intros a Ha.
    - cbn [seq map]. unfold qsum. cbn [fold_right]. specialize (Ha a ltac:(lia)).
      apply Qabs_Qlt_condition in Ha. apply Qabs_Qlt_condition. change (Qnat 1) with 1. lra.
    - specialize (IH (Datatypes.S a) ltac:(intros; apply Ha; lia)). specialize (Ha a ltac:(lia)).
      set (K' := Datatypes.S k) in *. cbn [seq map]. unfold qsum in *. cbn [fold_right].
      apply Qabs_Qlt_condition in Ha. apply Qabs_Qlt_condition in IH. apply Qabs_Qlt_condition.
      assert (Qnat (Datatypes.S K') == Qnat K' + 1) as ->.
      { unfold Qnat. rewrite Nat2Z.inj_succ. unfold Z.succ. rewrite inject_Z_plus. reflexivity. }
      lra. }
  apply G. intros i Hi. apply H. lia.
Qed.

Lemma off_total_close srt K c labels z : argsort_ok srt -> cj_ok K c -> labels <> [] ->
  (forall l, In l labels -> (l < K)%nat) -> calibrate_confident_joint srt c labels = Ok z ->
  Qabs (inject_Z (off_diagonal_total K z) - suggested_issues K c labels) < Qnat K.
Proof.
  intros Hs Hc Hne Hl E. pose proof (calibrated_counts_ok srt K c labels z Hs Hc Hne Hl E) as Hz.
  destruct (calibrate_spec srt K c labels Hs Hc Hne Hl) as (z' & E' & HK & H).
  rewrite E in E'. injection E' as <-.
  destruct Hc as (C1 & C2 & C3 & C4).
  assert (K0 : (0 < K)%nat) by (destruct labels as [|l ?]; [congruence|]; pose proof (Hl l (or_introl eq_refl)); lia).
  unfold off_diagonal_total, suggested_issues.
  rewrite <- qsum_inject. unfold tab at 1. rewrite map_map.
  match goal with |- Qabs (qsum (map ?f _) - _) < _ => fold (tab K f) end.
  setoid_replace (Qnat K) with (Qnat K * 1) by ring. apply qsum_tab_close; auto.
  intros i Hi. destruct (H i Hi) as (L & Sz & Cl). destruct (Cl i Hi) as (_ & Ci).
  assert (Hli : length (nth i c []) = K) by (apply C2, nth_In; lia).
  assert (P : 0 < qsum (nth i c [])).
  { pose proof (C4 (nth i c []) ltac:(apply nth_In; lia)). pose proof TINY_pos. lra. }
  assert (E1 : qsum (nth i c []) == mget c i i + qsum (tab K (fun j => if Nat.eqb i j then 0 else mget c i j))).
  { rewrite (qsum_as_tab (nth i c [])), Hli. apply (qsum_tab_split K i (fun j => nth j (nth i c []) 0)); auto. }
  assert (E2 : inject_Z (zsum (tab K (fun j => if Nat.eqb i j then 0 else zget z i j)%Z))
               == Qnat (n_labelled i labels) - inject_Z (zget z i i)).
  { pose proof (zsum_as_tab (nth i z [])) as T. rewrite L, Sz in T.
    rewrite (zsum_tab_split K i (fun j => nth j (nth i z []) 0%Z)) in T by auto.
    unfold zget. unfold Qnat. rewrite T, inject_Z_plus. ring. }
  rewrite E2.
  setoid_replace (qsum (tab K (fun j => if Nat.eqb i j then 0 else mget c i j)))
    with (qsum (nth i c []) - mget c i i) by (rewrite E1; ring).
  setoid_replace (Qnat (n_labelled i labels) - inject_Z (zget z i i) -
    Qnat (n_labelled i labels) * ((qsum (nth i c []) - mget c i i) / qsum (nth i c [])))
    with (- (inject_Z (zget z i i) - mget c i i * Qnat (n_labelled i labels) / qsum (nth i c []))).
  - rewrite Qabs_opp. auto.
  - field. lra.
Qed.

Lemma C91_near_full : forall srt K labels pp c n, argsort_ok srt -> dataset K labels pp -> two_classes labels ->
  length c = K -> (forall r, In r c -> length r = K) ->
  (forall r x, In r c -> In x r -> 0 <= x) -> (forall r, In r c -> TINY_VALUE <= qsum r) ->
  num_label_issues_method srt labels pp K (Some c) OffDiagonalCustom = Ok n ->
  Qabs (inject_Z n - suggested_issues K c labels) < Qnat K.
Proof.
  intros srt K labels pp c n Hs Hd Htw H1 H2 H3 H4 En. pose proof Hd as [Hlen Hne Hlab Hrow Hprob].
  destruct (C91_custom_full srt K labels pp c) as (z & E & E' & _); auto.
  rewrite En in E'. injection E' as ->. apply off_total_close with srt; auto. repeat split; auto.
Qed.

Lemma C91_near_calibrated_full : forall srt K labels pp cj cj0 idx n,
  argsort_ok srt -> dataset K labels pp -> two_classes labels ->
  compute_confident_joint srt labels pp K None false = Ok (cj0, idx) ->
  num_label_issues_method srt labels pp K cj OffDiagonalCalibrated = Ok n ->
  Qabs (inject_Z n - suggested_issues K (zmat_to_q cj0) labels) < Qnat K.
Proof.
  intros srt K labels pp cj cj0 idx n Hs Hd Htw E0 En. pose proof Hd as [Hlen Hne Hlab Hrow Hprob].
  destruct (C91_calibrated_full srt K labels pp cj) as (z & idx' & E & E' & _); auto.
  rewrite En in E'. injection E' as ->.
  unfold compute_confident_joint in E0, E. injection E0 as <- _.
  destruct (calibrate_confident_joint srt _ labels) as [z'|] eqn:Ec; cbn [rbind] in E; [|discriminate].
  injection E as <- _. eapply off_total_close; eauto. apply uncalibrated_cj_ok.
Qed.

Lemma C91_choice_full : forall srt K labels pp cj,
  (dataset K labels pp -> two_classes labels ->
     num_label_issues_method srt labels pp K None OffDiagonalCustom = Raise ValueError) /\
  (dataset K labels pp -> two_classes labels ->
     num_label_issues_method srt labels pp K cj OtherMethod = Raise ValueError) /\
  num_label_issues_method srt labels pp K cj OffDiagonal =
    num_label_issues_method srt labels pp K None OffDiagonal.
Proof.
  intros srt K labels pp cj. unfold num_label_issues_method. repeat split.
  - intros Hd Ht. rewrite (valid_ok K labels pp false Hd) by auto. reflexivity.
  - intros Hd Ht. rewrite (valid_ok K labels pp false Hd) by auto. reflexivity.
Qed.
