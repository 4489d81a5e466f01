(** * Proofs about ModelCount *)
From Coq Require Import QArith Qabs Qround List Permutation Sorted ZArith Bool Arith Lia Lqa Setoid Morphisms.
From Verif Require Import Base BaseFacts ModelUtil ModelCount SpecCount ProofUtil.
Import ListNotations.
Open Scope Q_scope.
Opaque TINY_VALUE.

(** ** unique, counts *)
Lemma nmax_ge l x : In x l -> (x <= nmax l)%nat.
Proof. induction l; simpl; [tauto|]. intros [->|H]; [lia|]. specialize (IHl H). lia. Qed.
Lemma nmax_in l : l <> [] -> In (nmax l) l.
Proof.
  induction l as [|a l IH]; [congruence|]. intros _. simpl.
  destruct l as [|b l]; [left; simpl; lia|].
  assert (In (nmax (b :: l)) (b :: l)) as H by (apply IH; congruence).
  destruct (Nat.max_spec a (nmax (b :: l))) as [[_ ->]|[_ ->]]; auto.
Qed.
Lemma in_unique v l : In v (unique l) <-> In v l.
Proof.
  unfold unique. rewrite filter_In, in_seq, mem_iff. split; [tauto|]. intros H. split; auto.
  apply nmax_ge in H. lia.
Qed.
Lemma unique_NoDup l : NoDup (unique l).
Proof. unfold unique. apply NoDup_filter, seq_NoDup. Qed.
Lemma filter_seq_sorted p s n : StronglySorted lt (filter p (seq s n)).
Proof.
  revert s. induction n; intros s; simpl; [constructor|].
  destruct (p s); auto. constructor; auto.
  apply Forall_forall. intros x Hx. apply filter_In in Hx as (Hx & _). apply in_seq in Hx. lia.
Qed.
Lemma seq_sorted s n : StronglySorted lt (seq s n).
Proof.
  revert s; induction n; intros s; simpl; constructor; auto.
  apply Forall_forall. intros x Hx. apply in_seq in Hx. lia.
Qed.
Lemma n_labelled_count k l : n_labelled k l = count k l.
Proof.
  unfold count. induction l as [|a l IH]; simpl; auto. rewrite IH.
  destruct (Nat.eq_dec a k), (Nat.eqb_spec a k); subst; simpl; try congruence; lia.
Qed.
Lemma nsum_tab_ext n f g : (forall i, (i < n)%nat -> f i = g i) -> nsum (tab n f) = nsum (tab n g).
Proof. intros H. rewrite (tab_ext n f g); auto. Qed.
Lemma nsum_map_plus {A} (f g : A -> nat) l :
  nsum (map (fun x => (f x + g x)%nat) l) = (nsum (map f l) + nsum (map g l))%nat.
Proof. induction l; simpl; lia. Qed.
Lemma nsum_zero l : (forall x, In x l -> x = 0%nat) -> nsum l = 0%nat.
Proof. induction l; simpl; intros H; auto. rewrite (H a), IHl; auto. Qed.
Lemma nsum_indicator i n m : (m <= i < m + n)%nat ->
  nsum (map (fun j => if Nat.eqb i j then 1%nat else 0%nat) (seq m n)) = 1%nat.
Proof.
  revert m. induction n; intros m H; [lia|]. simpl.
  destruct (Nat.eqb_spec i m).
  - subst. rewrite (nsum_zero (map _ _)); [lia|].
    intros x Hx. apply in_map_iff in Hx as (j & <- & Hj). apply in_seq in Hj.
    destruct (Nat.eqb_spec m j); lia.
  - rewrite IHn by lia. lia.
Qed.
Lemma nsum_labelled K labels : (forall l, In l labels -> (l < K)%nat) ->
  nsum (tab K (fun k => n_labelled k labels)) = length labels.
Proof.
  induction labels as [|a t IH]; intros H; simpl.
  - apply nsum_zero. intros x Hx. apply in_tab in Hx as (? & _ & ->). reflexivity.
  - unfold tab in *. rewrite nsum_map_plus, IH by (intros; apply H; right; auto).
    rewrite nsum_indicator; [lia|]. specialize (H a (or_introl eq_refl)). lia.
Qed.
Lemma Qnat_nsum l : Qnat (nsum l) == qsum (map Qnat l).
Proof. induction l; simpl; [reflexivity|]. rewrite Qnat_plus, IHl. reflexivity. Qed.

Lemma fold_upd_nth l : forall (acc : list nat) k,
  NoDup (map fst l) -> (forall v, In v (map fst l) -> (v < length acc)%nat) ->
  nth k (fold_left (fun acc vc => upd acc (fst vc) (snd vc)) l acc) 0%nat =
  match find (fun vc : nat * nat => Nat.eqb (fst vc) k) l with
  | Some vc => snd vc | None => nth k acc 0%nat end.
Proof.
  induction l as [|[v c] l IH]; intros acc k Hd Hr; cbn [fold_left find fst snd map] in *; auto.
  inversion Hd; subst. rewrite IH; auto.
  2:{ intros w Hw. rewrite upd_length. apply Hr. right; auto. }
  destruct (find _ l) as [[v' c']|] eqn:E.
  - apply find_some in E as (E1 & E2). cbn in E2. apply Nat.eqb_eq in E2. subst v'.
    destruct (Nat.eqb_spec v k) as [->|]; auto. exfalso. apply H1. apply in_map_iff. exists (k, c'). auto.
  - destruct (Nat.eqb_spec v k) as [->|].
    + apply nth_upd_eq. apply Hr. left; auto.
    + apply nth_upd_neq. auto.
Qed.
Lemma fold_upd_length l : forall (acc : list nat),
  length (fold_left (fun acc vc => upd acc (fst vc) (snd vc)) l acc) = length acc.
Proof. induction l; intros acc; cbn [fold_left]; auto. rewrite IHl, upd_length. reflexivity. Qed.

Lemma value_counts_ok labels K : labels <> [] -> (forall l, In l labels -> (l < K)%nat) ->
  value_counts labels K = Ok (tab K (fun k => n_labelled k labels)).
Proof.
  intros Hne Hr. unfold value_counts.
  destruct (Nat.eqb_spec K (length (unique labels))) as [E|E].
  - f_equal.
    assert (unique labels = seq 0 K) as Hu.
    { apply sorted_lt_ext; [unfold unique; apply filter_seq_sorted|apply seq_sorted|].
      intros x. split.
      - intros H. apply in_unique, Hr in H. apply in_seq. lia.
      - assert (incl (seq 0 K) (unique labels)) as Hi.
        { apply NoDup_length_incl.
          - apply unique_NoDup.
          - rewrite seq_length. lia.
          - intros y Hy. apply in_unique, Hr in Hy. apply in_seq. lia. }
        intros H. apply Hi. auto. }
    rewrite Hu. unfold tab. apply map_ext. intros k. symmetry. apply n_labelled_count.
  - destruct (unique labels) as [|u us] eqn:Eu.
    + exfalso. destruct labels as [|a t]; [congruence|].
      assert (In a (unique (a :: t))) as H by (apply in_unique; left; auto). rewrite Eu in H. destruct H.
    + rewrite <- Eu in *.
      assert (nmax (unique labels) < K)%nat as Hm.
      { apply Hr. apply in_unique. apply nmax_in. rewrite Eu. congruence. }
      destruct (Nat.leb_spec K (nmax (unique labels))); [lia|]. f_equal.
      assert (Hfst : map fst (combine (unique labels) (map (fun v => count v labels) (unique labels))) = unique labels).
      { generalize (unique labels). intros us0. induction us0; simpl; f_equal; auto. }
      apply list_eq_nth with (d := 0%nat).
      * rewrite fold_upd_length, !tab_length. reflexivity.
      * rewrite fold_upd_length, tab_length. intros k Hk.
        rewrite fold_upd_nth.
        -- rewrite nth_tab with (f := fun k => n_labelled k labels) by auto. rewrite n_labelled_count.
           destruct (find _ _) as [[v c]|] eqn:Ef.
           ++ apply find_some in Ef as (Ef1 & Ef2). cbn [fst snd] in *. apply Nat.eqb_eq in Ef2. subst.
              clear -Ef1. revert Ef1. generalize (unique labels). intros us0. induction us0; simpl; intros Ef1; [tauto|].
              destruct Ef1 as [Ef1|]; auto. congruence.
           ++ rewrite nth_tab by auto. symmetry. apply count_occ_not_In.
              intros Hin. apply in_unique in Hin. rewrite <- Hfst in Hin.
              apply in_map_iff in Hin as (vc & Hf & Hin).
              pose proof (find_none _ _ Ef vc Hin) as Hn. cbn in Hn. rewrite Hf, Nat.eqb_refl in Hn. congruence.
        -- rewrite Hfst. apply unique_NoDup.
        -- rewrite Hfst. intros v Hv. rewrite tab_length. apply Hr, in_unique, Hv.
Qed.

(** ** C02 *)
Definition cj_ok (K : nat) (cj : list (list Q)) : Prop :=
  length cj = K /\ (forall r, In r cj -> length r = K) /\
  (forall r x, In r cj -> In x r -> 0 <= x) /\
  (forall r, In r cj -> TINY_VALUE <= qsum r).

Lemma Forall2_nth {A B} (R : A -> B -> Prop) l l' da db :
  Forall2 R l l' -> length l = length l' /\ forall i, (i < length l)%nat -> R (nth i l da) (nth i l' db).
Proof.
  induction 1 as [|x y l l' Hxy HF (IHl & IHn)]; simpl.
  - split; auto. intros i Hi. lia.
  - split; [congruence|]. intros [|i] Hi; auto. apply IHn. lia.
Qed.

Lemma rounds_to_Z q z z' : q == inject_Z z' -> rounds_to q z -> z = z'.
Proof.
  intros E H. apply rounds_to_unique with q; auto. split.
  - rewrite E. setoid_replace (inject_Z z' - inject_Z z') with 0 by ring. rewrite Qabs_pos; lra.
  - rewrite E. setoid_replace (inject_Z z' - inject_Z z') with 0 by ring. rewrite Qabs_pos by lra. intros; lra.
Qed.

(** the same with small rows allowed for classes without examples *)
Definition cj_ok_for (K : nat) (labels : list nat) (cj : list (list Q)) : Prop :=
  length cj = K /\ (forall r, In r cj -> length r = K) /\
  (forall r x, In r cj -> In x r -> 0 <= x) /\
  (forall i, (i < K)%nat -> In i labels -> TINY_VALUE <= qsum (nth i cj [])).
Lemma cj_ok_weaken K labels cj : cj_ok K cj -> cj_ok_for K labels cj.
Proof.
  intros (H1 & H2 & H3 & H4). split; auto. split; auto. split; auto. intros i Hi _. apply H4, nth_In. lia.
Qed.
Lemma n_labelled_in k labels : (0 < n_labelled k labels)%nat -> In k labels.
Proof.
  induction labels as [|l t IH]; simpl; [lia|]. destruct (Nat.eqb_spec l k); auto.
Qed.

Lemma calibrate_gen srt K cj labels : argsort_ok srt ->
  cj_ok_for K labels cj -> labels <> [] -> (forall l, In l labels -> (l < K)%nat) ->
  exists zm, calibrate_confident_joint srt cj labels = Ok zm /\ length zm = K /\
    (forall i, (i < K)%nat -> length (nth i zm []) = K /\
       zsum (nth i zm []) = Z.of_nat (n_labelled i labels) /\
       forall j, (j < K)%nat ->
         (0 <= zget zm i j)%Z /\
         Qabs (inject_Z (zget zm i j) - mget cj i j * Qnat (n_labelled i labels) / qsum (nth i cj [])) < 1).
Proof.
  intros Hsrt (HK & Hrl & Hnn & Hrs) Hne Hlab.
  unfold calibrate_confident_joint. rewrite HK, (value_counts_ok labels K) by auto.
  cbn [rbind]. set (lc := tab K (fun k => n_labelled k labels)).
  assert (Hlc : nsum lc = length labels) by (apply nsum_labelled; auto).
  set (calibrated := map _ (combine cj lc)).
  assert (Hlen1 : length calibrated = K).
  { unfold calibrated. rewrite map_length, combine_length, HK. unfold lc. rewrite tab_length. lia. }
  assert (Hpos : forall i, (i < K)%nat -> n_labelled i labels = 0%nat \/ TINY_VALUE <= qsum (nth i cj [])).
  { intros i Hi. destruct (Nat.eq_dec (n_labelled i labels) 0); [left; auto|right]. apply Hrs; auto. apply n_labelled_in. lia. }
  assert (Hc1 : forall i, (i < K)%nat -> nth i calibrated [] =
     map (fun x => x / clip_lo TINY_VALUE (qsum (nth i cj [])) * Qnat (n_labelled i labels)) (nth i cj [])).
  { intros i Hi. unfold calibrated.
    rewrite (nth_map_gen _ _ _ _ ([], 0%nat)) by (unfold lc; rewrite combine_length, HK, tab_length; lia).
    rewrite combine_nth by (unfold lc; rewrite tab_length; auto).
    unfold lc. rewrite nth_tab by auto. reflexivity. }
  assert (Hc1s : forall i, (i < K)%nat -> qsum (nth i calibrated []) == Qnat (n_labelled i labels)).
  { intros i Hi. rewrite Hc1 by auto. pose proof TINY_pos.
    rewrite (qsum_map_scale_r (fun x => x / clip_lo TINY_VALUE (qsum (nth i cj [])))).
    destruct (Hpos i Hi) as [H0|Hp]; [rewrite H0; change (Qnat 0) with 0; ring|].
    rewrite (qsum_map_div (fun x => x)). rewrite map_id, clip_lo_id by auto. field. lra. }
  set (total := qsum (map qsum calibrated)).
  assert (Htot : total == Qnat (length labels)).
  { unfold total. rewrite <- Hlc, Qnat_nsum. unfold lc. rewrite map_tab.
    rewrite (qsum_as_tab (map qsum calibrated)), map_length, Hlen1.
    apply qsum_tab_ext. intros i Hi. rewrite (nth_map_gen qsum calibrated i 0 []) by lia. auto. }
  assert (HN : 1 <= Qnat (length labels)).
  { change 1 with (Qnat 1). apply Qnat_le. destruct labels; [congruence|simpl; lia]. }
  assert (Hct : clip_lo TINY_VALUE total == Qnat (length labels)).
  { rewrite clip_lo_id; auto. rewrite Htot. pose proof TINY_le_1. lra. }
  set (cal2 := map (map _) calibrated).
  assert (Hlen2 : length cal2 = K) by (unfold cal2; rewrite map_length; auto).
  assert (Hc2 : forall i, (i < K)%nat -> length (nth i cal2 []) = K /\
     qsum (nth i cal2 []) == Qnat (n_labelled i labels) /\
     forall j, (j < K)%nat -> nth j (nth i cal2 []) 0 == mget cj i j * Qnat (n_labelled i labels) / qsum (nth i cj [])).
  { intros i Hi. unfold cal2. rewrite (nth_map_gen _ calibrated i [] []) by lia.
    assert (Hli : length (nth i cj []) = K) by (apply Hrl, nth_In; lia).
    split; [|split].
    - rewrite map_length, Hc1, map_length by auto. auto.
    - rewrite (qsum_map_scale_r (fun x => x / clip_lo TINY_VALUE total)), (qsum_map_div (fun x => x)), map_id.
      rewrite Hc1s by auto. rewrite Hct, Hlc. field. lra.
    - intros j Hj.
      rewrite (nth_map_gen _ (nth i calibrated []) j 0 0) by (rewrite Hc1, map_length; auto; lia).
      rewrite Hc1 by auto. rewrite (nth_map_gen _ (nth i cj []) j 0 0) by lia.
      rewrite Hct, Hlc. fold (mget cj i j). pose proof TINY_pos.
      destruct (Hpos i Hi) as [H0|Hp].
      + rewrite H0. change (Qnat 0) with 0. unfold Qdiv. ring.
      + rewrite clip_lo_id by auto. field. split; lra. }
  destruct (round_preserving_row_totals_spec srt cal2 Hsrt) as (zm & -> & HF).
  exists zm. split; auto.
  apply (Forall2_nth _ _ _ [] []) in HF as (Hlz & HF). split; [congruence|].
  intros i Hi. destruct (HF i) as (Hlr & Hround & Hclose); [lia|].
  destruct (Hc2 i Hi) as (Hl2 & Hs2 & Hv2).
  split; [congruence|]. split.
  - eapply rounds_to_Z; eauto.
  - intros j Hj. unfold zget.
    assert (Hcl : Qabs (inject_Z (nth j (nth i zm []) 0%Z) - mget cj i j * Qnat (n_labelled i labels) / qsum (nth i cj [])) < 1).
    { rewrite <- (Hv2 j Hj). apply Hclose. lia. }
    split; auto.
    assert (0 <= mget cj i j * Qnat (n_labelled i labels) / qsum (nth i cj [])).
    { destruct (Hpos i Hi) as [H0|Hp]; [rewrite H0; change (Qnat 0) with 0; unfold Qdiv; rewrite Qmult_0_r, Qmult_0_l; lra|].
      apply Qle_shift_div_l.
      - pose proof TINY_pos. lra.
      - rewrite Qmult_0_l. apply Qmult_le_0_compat; [|apply Qnat_nonneg].
        apply Hnn with (nth i cj []); apply nth_In; [lia|]. rewrite Hrl; [lia|]. apply nth_In; lia. }
    apply Qabs_Qlt_condition in Hcl as (Hcl & _).
    assert (inject_Z (-1) < inject_Z (nth j (nth i zm []) 0%Z)) as Hlt by (change (inject_Z (-1)) with (-(1)); lra).
    rewrite <- Zlt_Qlt in Hlt. lia.
Qed.

Lemma calibrate_spec srt K cj labels : argsort_ok srt ->
  cj_ok K cj -> labels <> [] -> (forall l, In l labels -> (l < K)%nat) ->
  exists zm, calibrate_confident_joint srt cj labels = Ok zm /\ length zm = K /\
    (forall i, (i < K)%nat -> length (nth i zm []) = K /\
       zsum (nth i zm []) = Z.of_nat (n_labelled i labels) /\
       forall j, (j < K)%nat ->
         (0 <= zget zm i j)%Z /\
         Qabs (inject_Z (zget zm i j) - mget cj i j * Qnat (n_labelled i labels) / qsum (nth i cj [])) < 1).
Proof.
  intros Hs Hc. apply calibrate_gen; auto. apply cj_ok_weaken. auto.
Qed.

Lemma zsum_nth_total (zm : list (list Z)) K f : length zm = K ->
  (forall i, (i < K)%nat -> zsum (nth i zm []) = Z.of_nat (f i)) ->
  zsum (map zsum zm) = Z.of_nat (nsum (tab K f)).
Proof.
  intros HK H. assert (map zsum zm = map Z.of_nat (tab K f)) as ->.
  { rewrite map_tab. apply list_eq_nth with (d := 0%Z); rewrite map_length, ?tab_length; auto.
    intros i Hi. rewrite nth_tab by lia. rewrite (nth_map_gen zsum zm i 0%Z []) by lia. apply H. lia. }
  generalize (tab K f). intros l. induction l; simpl; auto. rewrite IHl. lia.
Qed.

(** ** C03 *)
Lemma zmat_row (zm : list (list Z)) i : nth i (zmat_to_q zm) [] = map inject_Z (nth i zm []).
Proof. unfold zmat_to_q. change [] with (map inject_Z []) at 1. apply map_nth. Qed.
Lemma zmat_get zm i j : mget (zmat_to_q zm) i j = inject_Z (zget zm i j).
Proof. unfold mget, zget. rewrite zmat_row. change 0 with (inject_Z 0). apply map_nth. Qed.

Definition joint_ok (K : nat) (labels : list nat) (J : list (list Q)) : Prop :=
  length J = K /\ (forall r, In r J -> length r = K) /\
  (forall i j, (i < K)%nat -> (j < K)%nat -> 0 <= mget J i j) /\
  qsum (map qsum J) == 1 /\
  (forall i, (i < K)%nat -> qsum (nth i J []) == Qnat (n_labelled i labels) / Qnat (length labels)).

Lemma joint_of_counts K labels zm : labels <> [] -> (forall l, In l labels -> (l < K)%nat) ->
  length zm = K ->
  (forall i, (i < K)%nat -> length (nth i zm []) = K /\
     zsum (nth i zm []) = Z.of_nat (n_labelled i labels) /\
     forall j, (j < K)%nat -> (0 <= zget zm i j)%Z) ->
  joint_ok K labels (let m := zmat_to_q zm in
     map (map (fun x => x / clip_lo TINY_VALUE (qsum (map qsum m)))) m).
Proof.
  intros Hne Hlab HK H. cbv zeta. set (m := zmat_to_q zm). set (tot := clip_lo _ _).
  assert (Hm : length m = K) by (unfold m, zmat_to_q; rewrite map_length; auto).
  assert (HN : 1 <= Qnat (length labels)).
  { change 1 with (Qnat 1). apply Qnat_le. destruct labels; [congruence|simpl; lia]. }
  assert (Ht : qsum (map qsum m) == Qnat (length labels)).
  { assert (map qsum m = map (fun r => qsum (map inject_Z r)) zm) as ->.
    { unfold m, zmat_to_q. rewrite map_map. reflexivity. }
    rewrite (qsum_map_ext _ (fun r => inject_Z (zsum r))) by (intros; apply qsum_inject).
    rewrite <- (map_map zsum inject_Z), qsum_inject.
    rewrite (zsum_nth_total zm K (fun k => n_labelled k labels)) by (auto; intros i Hi; apply H; auto).
    rewrite nsum_labelled by auto. reflexivity. }
  assert (Htot : tot == Qnat (length labels)).
  { unfold tot. rewrite clip_lo_id; auto. rewrite Ht. pose proof TINY_le_1. lra. }
  assert (Hrow : forall i, (i < K)%nat -> qsum (nth i m []) == Qnat (n_labelled i labels)).
  { intros i Hi. unfold m. rewrite zmat_row, qsum_inject. destruct (H i Hi) as (_ & -> & _). reflexivity. }
  assert (Hrow' : forall i, (i < K)%nat -> nth i (map (map (fun x => x / tot)) m) [] = map (fun x => x / tot) (nth i m [])).
  { intros i Hi. rewrite (nth_map_gen _ m i [] []) by lia. reflexivity. }
  split; [rewrite map_length; auto|]. split; [|split; [|split]].
  - intros r Hr. apply in_map_iff in Hr as (r' & <- & Hr'). rewrite map_length.
    unfold m, zmat_to_q in Hr'. apply in_map_iff in Hr' as (r2 & <- & Hr2). rewrite map_length.
    apply In_nth with (d := []) in Hr2 as (i & Hi & <-). apply H. lia.
  - intros i j Hi Hj. unfold mget. rewrite Hrow' by auto.
    rewrite (nth_map_gen _ (nth i m []) j 0 0).
    2:{ unfold m. rewrite zmat_row, map_length. destruct (H i Hi) as (-> & _). auto. }
    unfold m. fold (mget (zmat_to_q zm) i j). rewrite zmat_get.
    apply Qle_shift_div_l; [lra|]. rewrite Qmult_0_l. change 0 with (inject_Z 0). rewrite <- Zle_Qle.
    apply H; auto.
  - rewrite map_map. rewrite (qsum_map_ext _ (fun r => qsum r / tot)).
    + rewrite qsum_map_div, Ht, Htot. field. lra.
    + intros r _. rewrite (qsum_map_div (fun x => x)), map_id. reflexivity.
  - intros i Hi. rewrite Hrow' by auto. rewrite (qsum_map_div (fun x => x)), map_id, Hrow, Htot by auto. reflexivity.
Qed.

(** ** C04 *)
Lemma combine_select {A B} m : forall (a : list A) (b : list B), length m = length a -> length a = length b ->
  combine (select m a) (select m b) = select m (combine a b).
Proof.
  induction m as [|x m IH]; intros [|y a] [|z b] H1 H2; simpl in *; try lia; auto.
  unfold select in *. simpl. destruct x; simpl; rewrite <- IH by lia; reflexivity.
Qed.
Lemma select_select {A B} (p : A -> bool) m : forall (l : list A) (l' : list B),
  length m = length l -> length l = length l' ->
  select (map p (select m l)) (select m l') =
  select (map (fun bx => (fst bx && p (snd bx))%bool) (combine m l)) l'.
Proof.
  induction m as [|x m IH]; intros [|y a] [|z b] H1 H2; simpl in *; try lia; auto.
  unfold select in *. simpl. destruct x; simpl.
  - destruct (p y); simpl; rewrite <- IH by lia; reflexivity.
  - rewrite <- IH by lia. reflexivity.
Qed.
Lemma select_seq m : select m (seq 0 (length m)) = where_ m.
Proof.
  destruct m as [|b m]; [reflexivity|].
  rewrite (select_as_take 0%nat) by (rewrite seq_length; auto). unfold take_idx.
  rewrite <- (map_id (where_ (b :: m))) at 2. apply map_ext_in. intros i Hi. apply where_lt in Hi.
  apply seq_nth. auto.
Qed.
Lemma filter_select_length {A} (p : A -> bool) m : forall l, length m = length l ->
  length (filter p (select m l)) = count_true (map (fun bx => (fst bx && p (snd bx))%bool) (combine m l)).
Proof.
  induction m as [|x m IH]; intros [|y a] H1; simpl in *; try lia; auto.
  rewrite count_true_cons, <- IH by lia. unfold select. simpl. destruct x; simpl; auto.
  destruct (p y); simpl; auto.
Qed.

Section Rule.
Variables (thr : list Q).

Lemma ppb_row row j : length row = length thr -> (j < length row)%nat ->
  nth j (map (fun pt => Qleb (snd pt - (1 # 1000000)) (fst pt)) (combine row thr)) false =
  Qleb (nth j thr 0 - (1#1000000)) (nth j row 0).
Proof.
  intros Hl Hj. rewrite (nth_map_gen _ _ _ _ (0,0)) by (rewrite combine_length; lia).
  rewrite combine_nth by auto. reflexivity.
Qed.

Definition row_bools (row : list Q) : list bool :=
  map (fun pt => Qleb (snd pt - (1 # 1000000)) (fst pt)) (combine row thr).
Definition row_guess (row : list Q) : nat :=
  if Nat.ltb 1 (count_true (row_bools row)) then argmax row else argmax_bool (row_bools row).
Definition row_conf (row : list Q) : bool := Nat.ltb 0 (count_true (row_bools row)).

Lemma reaches_where row j : length row = length thr -> reaches thr row j <-> In j (where_ (row_bools row)).
Proof.
  intros Hl. rewrite in_where. unfold reaches, row_bools. split.
  - intros (Hj & H). rewrite ppb_row by auto. qb. auto.
  - intros H. assert (j < length row)%nat as Hj.
    { destruct (Nat.lt_ge_cases j (length row)); auto.
      rewrite nth_overflow in H by (rewrite map_length, combine_length; lia). congruence. }
    rewrite ppb_row in H by auto. qb. auto.
Qed.

Lemma row_guess_spec row : length row = length thr ->
  row_conf row = true -> counted_as thr row (row_guess row).
Proof.
  intros Hl Hc. unfold row_conf in Hc. apply Nat.ltb_lt in Hc. unfold row_guess.
  pose proof (where_NoDup (row_bools row)) as Hd. rewrite <- where_length in *.
  destruct (Nat.ltb_spec 1 (length (where_ (row_bools row)))) as [H1|H1].
  - right. split.
    + destruct (where_ (row_bools row)) as [|a [|b w]] eqn:Ew; simpl in H1; try lia.
      exists a, b. split.
      * inversion Hd; subst. intros ->. apply H2. left; auto.
      * split; apply reaches_where; auto; rewrite Ew; simpl; auto.
    + assert (row <> []) as Hne.
      { intros ->. unfold row_bools in Hc. simpl in Hc. cbn in Hc. lia. }
      apply argmax_spec in Hne. exact Hne.
  - left. destruct (where_ (row_bools row)) as [|a [|b w]] eqn:Ew; simpl in H1, Hc; try lia.
    assert (argmax_bool (row_bools row) = a) as ->.
    { unfold argmax_bool. pose proof (first_true_aux_spec (row_bools row) 0) as H.
      destruct (first_true_aux (row_bools row) 0) as [k|].
      - destruct H as (_ & H & _). rewrite Nat.sub_0_r in H. apply in_where in H. rewrite Ew in H.
        destruct H as [H|[]]. auto.
      - assert (In a (where_ (row_bools row))) as Ha by (rewrite Ew; left; auto).
        apply in_where in Ha. rewrite H in Ha. congruence. }
    split.
    + apply reaches_where; auto. rewrite Ew; left; auto.
    + intros i Hi. apply reaches_where in Hi; auto. rewrite Ew in Hi. destruct Hi as [H|[]]; auto.
Qed.

Lemma counted_as_fun row i j : counted_as thr row i -> counted_as thr row j -> i = j.
Proof.
  intros [(Hi & Hiu)|((a & b & Hab & Ha & Hb) & Hi)] [(Hj & Hju)|((a' & b' & Hab' & Ha' & Hb') & Hj)].
  - auto.
  - exfalso. apply Hab'. rewrite (Hiu a' Ha'), (Hiu b' Hb'). reflexivity.
  - exfalso. apply Hab. rewrite (Hju a Ha), (Hju b Hb). reflexivity.
  - eapply is_argmax_unique; eauto.
Qed.

Lemma counted_as_conf row j : length row = length thr -> counted_as thr row j -> row_conf row = true.
Proof.
  intros Hl H. unfold row_conf. apply Nat.ltb_lt. rewrite <- where_length.
  assert (exists i, reaches thr row i) as (i & Hi).
  { destruct H as [(H & _)|((a & _ & _ & H & _) & _)]; eauto. }
  apply reaches_where in Hi; auto. destruct (where_ (row_bools row)); [destruct Hi|simpl; lia].
Qed.

Lemma counted_as_iff row j : length row = length thr ->
  counted_as thr row j <-> row_conf row = true /\ row_guess row = j.
Proof.
  intros Hl. split.
  - intros H. pose proof (counted_as_conf row j Hl H) as Hc. split; auto.
    apply counted_as_fun with row; auto. apply row_guess_spec; auto.
  - intros (Hc & <-). apply row_guess_spec; auto.
Qed.
End Rule.

Lemma counted_as_lt thr row j : counted_as thr row j -> (j < length row)%nat.
Proof. intros [((H & _) & _)|(_ & (H & _))]; auto. Qed.

Lemma guess_map thr pp : true_label_guess pp thr = map (row_guess thr) pp.
Proof.
  unfold true_label_guess, pred_probs_bool. rewrite !map_map. induction pp as [|r pp IH]; simpl; auto.
  f_equal; auto.
Qed.
Lemma alo_map thr pp : at_least_one_confident pp thr = map (row_conf thr) pp.
Proof. unfold at_least_one_confident, pred_probs_bool. rewrite map_map. reflexivity. Qed.

(** per-example statement of the cell count *)
Definition ex_counted (labels : list nat) (pp : list (list Q)) (thr : list Q) (i j e : nat) : bool :=
  (row_conf thr (nth e pp []) && (Nat.eqb (nth e labels 0%nat) i && Nat.eqb (row_guess thr (nth e pp [])) j))%bool.

Lemma confusion_cell labels pp thr K i j :
  length labels = length pp -> (i < K)%nat -> (j < K)%nat ->
  zget (confusion_matrix_T (select (at_least_one_confident pp thr) (true_label_guess pp thr))
                     (select (at_least_one_confident pp thr) labels) K) i j =
  Z.of_nat (length (filter (ex_counted labels pp thr i j) (seq 0 (length labels)))).
Proof.
  intros Hl Hi Hj. unfold confusion_matrix_T, zget. rewrite nth_tab by auto. rewrite nth_tab by auto.
  f_equal. rewrite alo_map, guess_map.
  rewrite combine_select by (rewrite ?map_length; lia).
  rewrite filter_select_length by (rewrite combine_length, !map_length; lia).
  rewrite <- where_length. unfold where_. rewrite map_length, combine_length, combine_length, !map_length.
  replace (Nat.min (length pp) (Nat.min (length pp) (length labels))) with (length labels) by lia.
  f_equal. apply filter_ext_in. intros e He. apply in_seq in He.
  rewrite (nth_map_gen _ _ _ _ (false, (0%nat, 0%nat))) by (rewrite !combine_length, !map_length; lia).
  rewrite combine_nth by (rewrite combine_length, !map_length; lia).
  rewrite combine_nth by (rewrite map_length; lia). cbn [fst snd].
  rewrite (nth_map_gen (row_conf thr) pp e false []) by lia.
  rewrite (nth_map_gen (row_guess thr) pp e 0%nat []) by lia. reflexivity.
Qed.

Lemma ex_counted_iff labels pp thr K i j e :
  (forall r, In r pp -> length r = K) -> length thr = K -> length labels = length pp -> (e < length labels)%nat ->
  ex_counted labels pp thr i j e = true <-> nth e labels 0%nat = i /\ counted_as thr (nth e pp []) j.
Proof.
  intros Hr Ht Hl He. unfold ex_counted.
  assert (length (nth e pp []) = length thr) as Hlr by (rewrite Ht; apply Hr, nth_In; lia).
  rewrite (counted_as_iff thr _ j Hlr). rewrite !andb_true_iff, !Nat.eqb_eq. tauto.
Qed.

Lemma confident_joint_cell labels pp thr K i j :
  (forall r, In r pp -> length r = K) -> length thr = K -> length labels = length pp ->
  (i < K)%nat -> (j < K)%nat ->
  exists n, holds_for (length labels)
              (fun e => nth e labels 0%nat = i /\ counted_as thr (nth e pp []) j) n /\
    zget (confident_joint_uncalibrated labels pp K thr) i j =
      if Nat.eqb i j then Z.max 1 (Z.of_nat n) else Z.of_nat n.
Proof.
  intros Hr Ht Hl Hi Hj.
  exists (length (filter (ex_counted labels pp thr i j) (seq 0 (length labels)))). split.
  - exists (filter (ex_counted labels pp thr i j) (seq 0 (length labels))). split; [|split]; auto.
    + apply NoDup_filter, seq_NoDup.
    + intros e. rewrite filter_In, in_seq. split.
      * intros ((_ & He) & H). simpl in He. split; auto. apply (ex_counted_iff labels pp thr K); auto.
      * intros (He & H). split; [lia|]. apply (ex_counted_iff labels pp thr K); auto.
  - unfold confident_joint_uncalibrated. cbv zeta. unfold zget at 1.
    rewrite nth_tab by auto. rewrite nth_tab by auto. rewrite confusion_cell by auto. reflexivity.
Qed.

Lemma off_diag_spec labels pp thr K :
  (forall r, In r pp -> length r = K) -> length thr = K -> length labels = length pp ->
  StronglySorted lt (confident_off_diagonal_indices labels pp thr) /\
  forall e, In e (confident_off_diagonal_indices labels pp thr) <->
    (e < length labels)%nat /\ exists j, counted_as thr (nth e pp []) j /\ j <> nth e labels 0%nat.
Proof.
  intros Hr Ht Hl. unfold confident_off_diagonal_indices. cbv zeta. rewrite alo_map, guess_map.
  rewrite combine_select by (rewrite ?map_length; lia).
  rewrite select_select by (rewrite ?combine_length, ?seq_length, ?map_length; lia).
  set (m := map _ _).
  assert (Hm : length m = length labels).
  { unfold m. rewrite map_length, !combine_length, !map_length. lia. }
  rewrite <- Hm. rewrite select_seq. split; [apply where_sorted|].
  intros e. rewrite in_where. split.
  - intros H. assert (e < length labels)%nat as He.
    { destruct (Nat.lt_ge_cases e (length m)); [lia|]. rewrite nth_overflow in H by lia. congruence. }
    split; [lia|]. unfold m in H.
    rewrite (nth_map_gen _ _ _ _ (false, (0%nat, 0%nat))) in H by (rewrite !combine_length, !map_length; lia).
    rewrite combine_nth in H by (rewrite combine_length, !map_length; lia).
    rewrite combine_nth in H by (rewrite map_length; lia). cbn [fst snd] in H.
    rewrite (nth_map_gen (row_conf thr) pp e false []) in H by lia.
    rewrite (nth_map_gen (row_guess thr) pp e 0%nat []) in H by lia.
    apply andb_prop in H as (H1 & H2). apply negb_true_iff, Nat.eqb_neq in H2.
    exists (row_guess thr (nth e pp [])). split; auto.
    apply row_guess_spec; auto. rewrite Ht. apply Hr, nth_In. lia.
  - intros (He & j & Hj & Hne). rewrite Hm in He. unfold m.
    assert (length (nth e pp []) = length thr) as Hlr by (rewrite Ht; apply Hr, nth_In; lia).
    apply counted_as_iff in Hj as (H1 & H2); auto.
    rewrite (nth_map_gen _ _ _ _ (false, (0%nat, 0%nat))) by (rewrite !combine_length, !map_length; lia).
    rewrite combine_nth by (rewrite combine_length, !map_length; lia).
    rewrite combine_nth by (rewrite map_length; lia). cbn [fst snd].
    rewrite (nth_map_gen (row_conf thr) pp e false []) by lia.
    rewrite (nth_map_gen (row_guess thr) pp e 0%nat []) by lia.
    rewrite H1, H2. apply Nat.eqb_neq in Hne. rewrite Hne. reflexivity.
Qed.

(** ** C05 *)
Lemma thresholds_length labels pp K : length (get_confident_thresholds labels pp K) = K.
Proof. unfold get_confident_thresholds. rewrite map_length, tab_length. reflexivity. Qed.

Lemma own_probs_select k labels : forall pp, length labels = length pp ->
  own_probs k labels pp = select (map (Nat.eqb k) labels) (col k pp).
Proof.
  induction labels as [|l ls IH]; intros [|r rs] H; simpl in *; try lia; auto.
  unfold select. simpl. rewrite (Nat.eqb_sym l k). destruct (Nat.eqb k l); simpl; rewrite IH by lia; reflexivity.
Qed.
Lemma own_probs_length k labels : forall pp, length labels = length pp ->
  length (own_probs k labels pp) = n_labelled k labels.
Proof.
  induction labels as [|l ls IH]; intros [|r rs] H; simpl in *; try lia; auto.
  destruct (Nat.eqb l k); simpl; rewrite IH by lia; reflexivity.
Qed.
Lemma n_labelled_pos k labels : In k labels <-> (0 < n_labelled k labels)%nat.
Proof.
  rewrite n_labelled_count. unfold count. pose proof (count_occ_In Nat.eq_dec labels k). unfold gt in *. tauto.
Qed.
Lemma qmean_average l : l <> [] -> is_average l (qmean l).
Proof.
  intros H. split; auto. unfold qmean. field.
  assert (0 < Qnat (length l)) by (apply Qnat_pos; destruct l; [congruence|simpl; lia]). lra.
Qed.
Lemma average_bounds l a lo hi : is_average l a -> (forall x, In x l -> lo <= x /\ x <= hi) -> lo <= a /\ a <= hi.
Proof.
  intros (Hne & Ha) H.
  assert (0 < Qnat (length l)) by (apply Qnat_pos; destruct l; [congruence|simpl; lia]).
  assert (Qnat (length l) * lo <= qsum l).
  { rewrite <- qsum_map_const. rewrite <- (map_id l) at 2. apply qsum_map_le. intros; apply H; auto. }
  assert (qsum l <= Qnat (length l) * hi).
  { rewrite <- qsum_map_const. rewrite <- (map_id l) at 1. apply qsum_map_le. intros; apply H; auto. }
  rewrite <- Ha in *. split.
  - apply Qmult_lt_0_le_reg_r with (Qnat (length l)); auto. lra.
  - apply Qmult_lt_0_le_reg_r with (Qnat (length l)); auto. lra.
Qed.

Lemma thresholds_spec labels pp K k : length labels = length pp -> (k < K)%nat ->
  (In k labels -> exists a, is_average (own_probs k labels pp) a /\
     nth k (get_confident_thresholds labels pp K) 0 == qmax a CONFIDENT_THRESHOLDS_LOWER_BOUND) /\
  (~ In k labels -> nth k (get_confident_thresholds labels pp K) 0 == 2).
Proof.
  intros Hl Hk. unfold get_confident_thresholds. cbv zeta.
  rewrite (nth_map_gen _ _ _ _ 0) by (rewrite tab_length; auto). rewrite nth_tab by auto.
  split; intros Hin.
  - assert (mem k (unique labels) = true) as -> by (apply mem_iff, in_unique; auto).
    exists (qmean (select (map (Nat.eqb k) labels) (col k pp))). rewrite own_probs_select by auto. split.
    + apply qmean_average. rewrite <- own_probs_select by auto. intros C.
      apply n_labelled_pos in Hin. rewrite <- (own_probs_length k labels pp Hl), C in Hin. simpl in Hin. lia.
    + reflexivity.
  - assert (mem k (unique labels) = false) as -> by (apply mem_false; rewrite in_unique; auto).
    rewrite clip_lo_id; [reflexivity|]. unfold CONFIDENT_THRESHOLDS_LOWER_BOUND. lra.
Qed.

(** the confident joint of any dataset can be calibrated *)
Lemma uncalibrated_cj_ok labels pp thr K : cj_ok K (zmat_to_q (confident_joint_uncalibrated labels pp K thr)).
Proof.
  set (cj := confident_joint_uncalibrated labels pp K thr).
  assert (Hl : length cj = K) by (unfold cj, confident_joint_uncalibrated; rewrite tab_length; auto).
  assert (Hrow : forall i, (i < K)%nat -> length (nth i cj []) = K).
  { intros i Hi. unfold cj, confident_joint_uncalibrated. rewrite nth_tab by auto. apply tab_length. }
  assert (Hget : forall i j, (i < K)%nat -> (j < K)%nat -> (0 <= zget cj i j)%Z /\ (i = j -> 1 <= zget cj i j)%Z).
  { intros i j Hi Hj. unfold cj, confident_joint_uncalibrated, zget. rewrite nth_tab by auto. rewrite nth_tab by auto.
    unfold confusion_matrix_T. rewrite nth_tab by auto. rewrite nth_tab by auto.
    destruct (Nat.eqb_spec i j); split; intros; try lia. }
  assert (Hnn : forall r x, In r (zmat_to_q cj) -> In x r -> 0 <= x).
  { intros r x Hr Hx. unfold zmat_to_q in Hr. apply in_map_iff in Hr as (r' & <- & Hr').
    apply in_map_iff in Hx as (z & <- & Hz).
    apply In_nth with (d := []) in Hr' as (i & Hi & <-).
    apply In_nth with (d := 0%Z) in Hz as (j & Hj & <-).
    rewrite Hrow in Hj by lia. change 0 with (inject_Z 0). rewrite <- Zle_Qle. apply (Hget i j); lia. }
  split; [unfold zmat_to_q; rewrite map_length; auto|]. split; [|split]; auto.
  - intros r Hr. unfold zmat_to_q in Hr. apply in_map_iff in Hr as (r' & <- & Hr'). rewrite map_length.
    apply In_nth with (d := []) in Hr' as (i & Hi & <-). apply Hrow. lia.
  - intros r Hr. pose proof TINY_le_1.
    pose proof Hr as Hr0. unfold zmat_to_q in Hr. apply in_map_iff in Hr as (r' & <- & Hr').
    apply In_nth with (d := []) in Hr' as (i & Hi & <-). rewrite Hl in Hi.
    assert (inject_Z (zget cj i i) <= qsum (map inject_Z (nth i cj []))).
    { apply qsum_ge_elem; [intros; eapply Hnn; eauto|]. apply in_map. unfold zget. apply nth_In. rewrite Hrow; auto. }
    assert (inject_Z 1 <= inject_Z (zget cj i i)) by (rewrite <- Zle_Qle; apply (Hget i i); auto).
    change (inject_Z 1) with 1 in *. lra.
Qed.

(** ** statements used by PropCount *)
Lemma calibrate_full : forall srt K cj labels, argsort_ok srt ->
  length cj = K -> (forall r, In r cj -> length r = K) ->
  (forall r x, In r cj -> In x r -> 0 <= x) ->
  (forall r, In r cj -> TINY_VALUE <= qsum r) ->
  labels <> [] -> (forall l, In l labels -> (l < K)%nat) ->
  exists zm, calibrate_confident_joint srt cj labels = Ok zm /\ length zm = K /\
    (forall i, (i < K)%nat -> length (nth i zm []) = K /\
       zsum (nth i zm []) = Z.of_nat (n_labelled i labels)) /\
    zsum (map zsum zm) = Z.of_nat (length labels) /\
    (forall i j, (i < K)%nat -> (j < K)%nat ->
       (0 <= zget zm i j)%Z /\
       Qabs (inject_Z (zget zm i j) - mget cj i j * Qnat (n_labelled i labels) / qsum (nth i cj [])) < 1).
Proof.
  intros srt K cj labels Hs H1 H2 H3 H4 Hne Hl.
  destruct (calibrate_spec srt K cj labels Hs) as (zm & E & HK & H); auto.
  { repeat split; auto. }
  exists zm. split; auto. split; auto. split; [|split].
  - intros i Hi. destruct (H i Hi) as (? & ? & _). auto.
  - rewrite (zsum_nth_total zm K (fun k => n_labelled k labels)) by (auto; intros i Hi; apply H; auto).
    rewrite nsum_labelled; auto.
  - intros i j Hi Hj. apply H; auto.
Qed.

Lemma calibrate_full_gen : forall srt K cj labels, argsort_ok srt ->
  length cj = K -> (forall r, In r cj -> length r = K) ->
  (forall r x, In r cj -> In x r -> 0 <= x) ->
  (forall i, (i < K)%nat -> In i labels -> TINY_VALUE <= qsum (nth i cj [])) ->
  labels <> [] -> (forall l, In l labels -> (l < K)%nat) ->
  exists zm, calibrate_confident_joint srt cj labels = Ok zm /\ length zm = K /\
    (forall i, (i < K)%nat -> length (nth i zm []) = K /\
       zsum (nth i zm []) = Z.of_nat (n_labelled i labels)) /\
    zsum (map zsum zm) = Z.of_nat (length labels) /\
    (forall i j, (i < K)%nat -> (j < K)%nat ->
       (0 <= zget zm i j)%Z /\
       Qabs (inject_Z (zget zm i j) - mget cj i j * Qnat (n_labelled i labels) / qsum (nth i cj [])) < 1).
Proof.
  intros srt K cj labels Hs H1 H2 H3 H4 Hne Hl.
  destruct (calibrate_gen srt K cj labels Hs) as (zm & E & HK & H); auto.
  { repeat split; auto. }
  exists zm. split; auto. split; auto. split; [|split].
  - intros i Hi. destruct (H i Hi) as (? & ? & _). auto.
  - rewrite (zsum_nth_total zm K (fun k => n_labelled k labels)) by (auto; intros i Hi; apply H; auto).
    rewrite nsum_labelled; auto.
  - intros i j Hi Hj. apply H; auto.
Qed.

Lemma estimate_joint_full : forall srt K labels pp cj, argsort_ok srt ->
  dataset K labels pp ->
  (forall c, cj = Some c -> cj_ok K c) ->
  exists J, estimate_joint srt labels pp K cj = Ok J /\ joint_ok K labels J.
Proof.
  intros srt K labels pp cj Hs [Hlen Hne Hlab Hrow Hprob] Hcj.
  destruct cj as [c|]; unfold estimate_joint.
  - destruct (calibrate_spec srt K c labels Hs (Hcj c eq_refl) Hne Hlab) as (zm & -> & HK & H).
    cbn [rbind]. eexists; split; [reflexivity|].
    apply (joint_of_counts K labels zm Hne Hlab HK). intros i Hi. destruct (H i Hi) as (Ha & Hb & Hc).
    split; auto. split; auto. intros j Hj. apply Hc; auto.
  - unfold compute_confident_joint.
    destruct (calibrate_spec srt K _ labels Hs
                (uncalibrated_cj_ok labels pp (get_confident_thresholds labels pp K) K) Hne Hlab) as (zm & -> & HK & H).
    cbn [rbind fst]. eexists; split; [reflexivity|].
    apply (joint_of_counts K labels zm Hne Hlab HK). intros i Hi. destruct (H i Hi) as (Ha & Hb & Hc).
    split; auto. split; auto. intros j Hj. apply Hc; auto.
Qed.

Lemma estimate_joint_gen : forall srt K labels pp cj, argsort_ok srt ->
  dataset K labels pp ->
  (forall c, cj = Some c -> cj_ok_for K labels c) ->
  exists J, estimate_joint srt labels pp K cj = Ok J /\ joint_ok K labels J.
Proof.
  intros srt K labels pp cj Hs [Hlen Hne Hlab Hrow Hprob] Hcj.
  destruct cj as [c|]; unfold estimate_joint.
  - destruct (calibrate_gen srt K c labels Hs (Hcj c eq_refl) Hne Hlab) as (zm & -> & HK & H).
    cbn [rbind]. eexists; split; [reflexivity|].
    apply (joint_of_counts K labels zm Hne Hlab HK). intros i Hi. destruct (H i Hi) as (Ha & Hb & Hc).
    split; auto. split; auto. intros j Hj. apply Hc; auto.
  - unfold compute_confident_joint.
    destruct (calibrate_spec srt K _ labels Hs
                (uncalibrated_cj_ok labels pp (get_confident_thresholds labels pp K) K) Hne Hlab) as (zm & -> & HK & H).
    cbn [rbind fst]. eexists; split; [reflexivity|].
    apply (joint_of_counts K labels zm Hne Hlab HK). intros i Hi. destruct (H i Hi) as (Ha & Hb & Hc).
    split; auto. split; auto. intros j Hj. apply Hc; auto.
Qed.

Lemma compute_confident_joint_full : forall srt K labels pp thr,
  dataset K labels pp -> (forall t, thr = Some t -> length t = K) ->
  let t := match thr with Some t => t | None => get_confident_thresholds labels pp K end in
  exists cj idx, compute_confident_joint srt labels pp K thr false = Ok (cj, idx) /\
  (forall i j, (i < K)%nat -> (j < K)%nat ->
     exists n, holds_for (length labels)
                 (fun e => nth e labels 0%nat = i /\ counted_as t (nth e pp []) j) n /\
       zget cj i j = if Nat.eqb i j then Z.max 1 (Z.of_nat n) else Z.of_nat n) /\
  (forall e j j', (e < length labels)%nat -> counted_as t (nth e pp []) j -> counted_as t (nth e pp []) j' ->
     j = j' /\ (j < K)%nat) /\
  StronglySorted lt idx /\
  (forall e, In e idx <->
     (e < length labels)%nat /\ exists j, counted_as t (nth e pp []) j /\ j <> nth e labels 0%nat).
Proof.
  intros srt K labels pp thr [Hlen Hne Hlab Hrow Hprob] Ht t.
  assert (length t = K) as Hlt.
  { unfold t. destruct thr; [apply Ht; auto|apply thresholds_length]. }
  assert (compute_confident_joint srt labels pp K thr false =
          Ok (confident_joint_uncalibrated labels pp K t, confident_off_diagonal_indices labels pp t)) as ->.
  { unfold compute_confident_joint, t. destruct thr; reflexivity. }
  eexists; eexists; split; [reflexivity|]. split; [|split].
  - intros i j Hi Hj. apply confident_joint_cell; auto.
  - intros e j j' He Hj Hj'. split; [eapply counted_as_fun; eauto|].
    apply counted_as_lt in Hj. rewrite Hrow in Hj; auto. apply nth_In. lia.
  - apply (off_diag_spec labels pp t K); auto.
Qed.

Lemma thresholds_full : forall K labels pp k, dataset K labels pp -> (k < K)%nat ->
  let t := nth k (get_confident_thresholds labels pp K) 0 in
  (In k labels ->
     exists a, is_average (own_probs k labels pp) a /\ t == qmax a (2 # 1000000) /\
       (forall lo hi, (forall x, In x (own_probs k labels pp) -> lo <= x /\ x <= hi) ->
          lo <= a /\ a <= hi)) /\
  (~ In k labels -> forall row, In row pp -> ~ reaches (get_confident_thresholds labels pp K) row k).
Proof.
  intros K labels pp k [Hlen Hne Hlab Hrow Hprob] Hk t.
  destruct (thresholds_spec labels pp K k Hlen Hk) as (H1 & H2). split.
  - intros Hin. destruct (H1 Hin) as (a & Ha & Hta). exists a. split; auto. split; auto.
    intros lo hi. apply average_bounds; auto.
  - intros Hin row Hr (Hj & Hle). rewrite (H2 Hin) in Hle.
    assert (nth k row 0 <= 1) by (apply Hprob with row; auto; apply nth_In; auto). lra.
Qed.

Lemma counted_not_reached :
  exists thr row j, counted_as thr row j /\ ~ reaches thr row j /\ length row = length thr /\
    qsum row == 1 /\ (forall x, In x row -> 0 <= x /\ x <= 1).
Proof.
  exists [6#10; 25#100; 15#100], [5#10; 3#10; 2#10], 0%nat. split.
  - apply counted_as_iff; [reflexivity|]. split; vm_compute; reflexivity.
  - split; [|split; [reflexivity|split; [vm_compute; reflexivity|]]].
    + intros (_ & H). revert H. vm_compute. auto.
    + intros x Hx. simpl in Hx. repeat (destruct Hx as [<-|Hx]; [split; discriminate|]). destruct Hx.
Qed.

Lemma documented_loop_differs :
  exists srt K labels pp, argsort_ok srt /\ dataset K labels pp /\
    forall cj idx, compute_confident_joint srt labels pp K None false = Ok (cj, idx) ->
      cj <> documented_loop labels pp (get_confident_thresholds labels pp K) K.
Proof.
  exists argsort_ins, 3%nat, [0; 1]%nat, [[9#10; 1#10; 0]; [1#10; 8#10; 1#10]].
  split; [exact argsort_ins_ok|]. split.
  - split; try reflexivity; try discriminate.
    + intros l H. simpl in H. repeat (destruct H as [<-|H]; [auto with arith|]). destruct H.
    + intros r H. simpl in H. repeat (destruct H as [<-|H]; [reflexivity|]). destruct H.
    + intros r x H. simpl in H.
      repeat (destruct H as [<-|H];
        [simpl; intros H; repeat (destruct H as [<-|H]; [split; discriminate|]); destruct H|]).
      destruct H.
  - intros cj idx H. vm_compute in H. inversion H. vm_compute. discriminate.
Qed.
