(** * Proofs about input checks *)
From Coq Require Import QArith Qround List ZArith Bool Arith Lia Lqa Sorted.
From Verif Require Import Base BaseFacts ModelUtil ModelRank ModelCount ModelFilter ModelValid SpecCount SpecFilter SpecValid ProofCount ProofFilter.
Import ListNotations.
Open Scope Q_scope.

(** ** Sorted distinct integers *)
Lemma zinsert_in z l x : In x (zinsert z l) <-> x = z \/ In x l.
Proof.
  induction l as [|y t IH]; cbn [zinsert In]; [intuition|].
  destruct (Z.ltb z y); cbn [In]; [intuition|]. destruct (Z.eqb_spec z y) as [->|N]; cbn [In]; [intuition|]. rewrite IH. intuition.
Qed.
Lemma zinsert_sorted z l : StronglySorted Z.lt l -> StronglySorted Z.lt (zinsert z l).
Proof.
  induction 1 as [|y t Hs IH Hf]; cbn [zinsert]; [repeat constructor|].
  destruct (Z.ltb_spec z y).
  - constructor; [constructor; auto|]. constructor; auto. rewrite Forall_forall in *. intros x Hx. specialize (Hf x Hx). lia.
  - destruct (Z.eqb_spec z y); [constructor; auto|]. constructor; auto. rewrite Forall_forall in *. intros x Hx. apply zinsert_in in Hx as [->|Hx]; [lia|auto].
Qed.
Lemma zunique_in l x : In x (zunique l) <-> In x l.
Proof. induction l as [|y t IH]; [tauto|]. change (zunique (y :: t)) with (zinsert y (zunique t)). rewrite zinsert_in, IH. simpl. intuition. Qed.
Lemma zunique_sorted l : StronglySorted Z.lt (zunique l).
Proof. induction l; [constructor|]. change (zunique (a :: l)) with (zinsert a (zunique l)). apply zinsert_sorted; auto. Qed.
Lemma zlist_eqb_eq a b : zlist_eqb a b = true <-> a = b.
Proof.
  revert b. induction a as [|x a IH]; intros [|y b]; cbn [zlist_eqb]; split; intros H; try discriminate; auto.
  - apply andb_true_iff in H as (H1 & H2). apply Z.eqb_eq in H1. apply IH in H2. congruence.
  - inversion H; subst. rewrite Z.eqb_refl. apply (proj2 (IH b)). reflexivity.
Qed.
Lemma closed_seq l : forall s, StronglySorted Z.lt l -> (forall x, In x l -> (Z.of_nat s <= x)%Z) ->
  (forall x y, In x l -> (Z.of_nat s <= y < x)%Z -> In y l) -> l = map Z.of_nat (seq s (length l)).
Proof.
  induction l as [|a l IH]; intros s Hs Hlo Hc; [reflexivity|]. cbn [length seq map]. inversion Hs as [|a' l' Hs' Hf]; subst. rewrite Forall_forall in Hf.
  assert (a = Z.of_nat s) as ->.
  { destruct (Z.eq_dec a (Z.of_nat s)); auto. exfalso. assert (In (Z.of_nat s) (a :: l)) as [E|E].
    - apply Hc with a; [left; auto|]. specialize (Hlo a (or_introl eq_refl)). lia.
    - congruence.
    - specialize (Hf _ E). specialize (Hlo a (or_introl eq_refl)). lia. }
  f_equal. apply IH; auto.
  - intros x Hx. specialize (Hf x Hx). lia.
  - intros x y Hx Hy. destruct (Hc x y) as [E|E]; auto; [right; auto|lia|lia].
Qed.

(** ** Labels *)
Lemma integral_iff q : integral q = true <-> q == inject_Z (Qfloor q).
Proof. unfold integral. rewrite Qeq_bool_iff. split; intros H; lra. Qed.
Lemma class_iff l : (exists c, is_class l c) <-> is_str l = false /\ integral (val l) = true /\ 0 <= val l.
Proof.
  split.
  - intros (c & q & -> & E). cbn [is_str val]. split; auto. split.
    + apply integral_iff. rewrite E at 1. assert (Qfloor q = Z.of_nat c) as -> by (rewrite (Qfloor_comp _ _ E); apply Qfloor_Z). reflexivity.
    + rewrite E. change 0 with (inject_Z 0). rewrite <- Zle_Qle. lia.
  - destruct l as [q|]; cbn [is_str val]; intros (A & B & C); [|discriminate]. apply integral_iff in B. exists (Z.to_nat (Qfloor q)), q. split; auto.
    assert (0 <= Qfloor q)%Z by (rewrite Zle_Qle; change (inject_Z 0) with 0; lra). rewrite Z2Nat.id by auto. exact B.
Qed.
Lemma class_val l c : is_class l c -> val l == inject_Z (Z.of_nat c) /\ Qfloor (val l) = Z.of_nat c.
Proof. intros (q & -> & E). cbn [val]. split; auto. rewrite (Qfloor_comp _ _ E). apply Qfloor_Z. Qed.
Lemma class_fun l c c' : is_class l c -> is_class l c' -> c = c'.
Proof. intros H H'. apply class_val in H as (_ & H). apply class_val in H' as (_ & H'). lia. Qed.
Lemma classes_fun y cs cs' : Forall2 is_class y cs -> Forall2 is_class y cs' -> cs = cs'.
Proof.
  intros H. revert cs'. induction H as [|l c y cs Hl H IH]; intros cs' H'; inversion H'; subst; auto. f_equal; [eapply class_fun; eauto|auto].
Qed.
Lemma classes_floor y cs : Forall2 is_class y cs -> map (fun l => Qfloor (val l)) y = map Z.of_nat cs.
Proof. induction 1 as [|l c y cs Hl H IH]; [reflexivity|]. cbn [map]. rewrite IH. apply class_val in Hl as (_ & ->). reflexivity. Qed.
Lemma classes_exist y : (forall l, In l y -> exists c, is_class l c) -> exists cs, Forall2 is_class y cs.
Proof.
  induction y as [|l y IH]; intros H; [exists []; constructor|]. destruct IH as (cs & Hcs); [intros; apply H; right; auto|]. destruct (H l (or_introl eq_refl)) as (c & Hc). exists (c :: cs). constructor; auto.
Qed.
Lemma unique_two cs : (length (zunique (map Z.of_nat cs)) < 2)%nat <-> ~ two_of cs.
Proof.
  split.
  - intros H (a & b & Ha & Hb & N). assert (A : In (Z.of_nat a) (zunique (map Z.of_nat cs))) by (apply zunique_in, in_map; auto).
    assert (B : In (Z.of_nat b) (zunique (map Z.of_nat cs))) by (apply zunique_in, in_map; auto).
    destruct (zunique (map Z.of_nat cs)) as [|x [|y t]]; [contradiction| |simpl in H; lia]. destruct A as [A|[]], B as [B|[]]. lia.
  - intros H. destruct (zunique (map Z.of_nat cs)) as [|x [|y t]] eqn:E; simpl; try lia. exfalso. apply H.
    pose proof (zunique_sorted (map Z.of_nat cs)) as S. rewrite E in S. inversion S as [|? ? S1 F]; subst. inversion F; subst.
    assert (In x (map Z.of_nat cs)) as X by (apply zunique_in; rewrite E; left; auto). assert (In y (map Z.of_nat cs)) as Y by (apply zunique_in; rewrite E; right; left; auto).
    apply in_map_iff in X as (a & <- & Ha). apply in_map_iff in Y as (b & <- & Hb). exists a, b. repeat split; auto. intros ->. lia.
Qed.
Lemma unique_gap cs : zlist_eqb (zunique (map Z.of_nat cs)) (map Z.of_nat (seq 0 (length (zunique (map Z.of_nat cs))))) = true <-> no_gap cs.
Proof.
  rewrite zlist_eqb_eq. split.
  - intros E a b Ha Hb. assert (In (Z.of_nat a) (zunique (map Z.of_nat cs))) as A by (apply zunique_in, in_map; auto). rewrite E in A.
    apply in_map_iff in A as (a' & Ea & Ha'). apply in_seq in Ha'. assert (In (Z.of_nat b) (zunique (map Z.of_nat cs))) as B.
    { rewrite E. apply in_map. apply in_seq. lia. }
    apply zunique_in, in_map_iff in B as (b' & Eb & Hb'). assert (b' = b) as <- by lia. auto.
  - intros G. apply closed_seq; [apply zunique_sorted| |].
    + intros x Hx. apply zunique_in, in_map_iff in Hx as (c & <- & _). lia.
    + intros x z Hx Hz. apply zunique_in, in_map_iff in Hx as (c & <- & Hc). apply zunique_in. rewrite <- (Z2Nat.id z) by lia. apply in_map. apply G with c; auto. lia.
Qed.

Lemma qmin_le l x : In x l -> qminimum l <= x.
Proof. apply qminimum_le. Qed.

Lemma min_neg (l : list Q) : l <> [] -> Qltb (qminimum l) 0 = false <-> forall x, In x l -> 0 <= x.
Proof.
  intros Hl. rewrite Qltb_false. split.
  - intros H x Hx. pose proof (qmin_le l x Hx). lra.
  - intros H. apply H. apply qminimum_in. auto.
Qed.

Lemma labels_outcome y am ao :
  (forall cs, class_labels y cs -> (ao = true \/ two_of cs) -> (am = true \/ no_gap cs) -> assert_valid_class_labels y am ao = Ok tt) /\
  (forall cs, class_labels y cs -> (ao = true \/ two_of cs) -> am = false -> ~ no_gap cs -> assert_valid_class_labels y am ao = Raise TypeError) /\
  ((forall cs, class_labels y cs -> ao = false /\ ~ two_of cs) -> assert_valid_class_labels y am ao = Raise ValueError).
Proof.
  assert (G : forall cs, class_labels y cs -> assert_valid_class_labels y am ao =
     if (negb ao && Nat.ltb (length (zunique (map Z.of_nat cs))) 2)%bool then Raise ValueError
     else if (negb am && negb (zlist_eqb (zunique (map Z.of_nat cs)) (map Z.of_nat (seq 0 (length (zunique (map Z.of_nat cs)))))))%bool then Raise TypeError else Ok tt).
  { intros cs (Hne & Hcs). unfold assert_valid_class_labels.
    assert (Hall : forall l, In l y -> exists c, is_class l c).
    { clear Hne. induction Hcs as [|l c y cs Hl H IH]; intros l0 H0; [contradiction|]. destruct H0 as [<-|Hl0]; eauto. }
    assert (existsb is_str y = false) as ->.
    { apply not_true_iff_false. intros E. apply existsb_exists in E as (l & Hl & E). destruct (proj1 (class_iff l) (Hall l Hl)) as (A & _). congruence. }
    assert (forallb (fun l => integral (val l)) y = true) as ->.
    { apply forallb_forall. intros l Hl. apply (proj1 (class_iff l) (Hall l Hl)). }
    cbn [negb]. rewrite (classes_floor y cs Hcs).
    assert (Qltb (qminimum (map val y)) 0 = false) as ->.
    { apply min_neg; [destruct y; [congruence|discriminate]|]. intros x Hx. apply in_map_iff in Hx as (l & <- & Hl). apply (proj1 (class_iff l) (Hall l Hl)). }
    destruct y; [congruence|reflexivity]. }
  split; [|split].
  - intros cs Hcs Ho Hm. rewrite (G cs Hcs).
    assert ((negb ao && Nat.ltb (length (zunique (map Z.of_nat cs))) 2)%bool = false) as ->.
    { destruct Ho as [->|H2]; [reflexivity|]. destruct (Nat.ltb_spec (length (zunique (map Z.of_nat cs))) 2); [|apply andb_false_r]. apply unique_two in H. contradiction. }
    destruct Hm as [->|Hg]; [reflexivity|]. rewrite (proj2 (unique_gap cs) Hg). rewrite andb_false_r. reflexivity.
  - intros cs Hcs Ho -> Hg. rewrite (G cs Hcs).
    assert ((negb ao && Nat.ltb (length (zunique (map Z.of_nat cs))) 2)%bool = false) as ->.
    { destruct Ho as [->|H2]; [reflexivity|]. destruct (Nat.ltb_spec (length (zunique (map Z.of_nat cs))) 2); [|apply andb_false_r]. apply unique_two in H. contradiction. }
    rewrite <- unique_gap in Hg. apply not_true_iff_false in Hg. rewrite Hg. reflexivity.
  - intros H. destruct y as [|l0 y0] eqn:Ey; [reflexivity|]. rewrite <- Ey in *. assert (Hne : y <> []) by (rewrite Ey; discriminate).
    destruct (existsb is_str y) eqn:E1; [unfold assert_valid_class_labels; rewrite E1; reflexivity|].
    destruct (forallb (fun l => integral (val l)) y) eqn:E2; [|unfold assert_valid_class_labels; rewrite E1, E2; reflexivity].
    destruct (Qltb (qminimum (map val y)) 0) eqn:E3; [unfold assert_valid_class_labels; rewrite E1, E2, E3; rewrite Ey; reflexivity|].
    assert (exists cs, Forall2 is_class y cs) as (cs & Hcs).
    { apply classes_exist. intros l Hl. apply class_iff. split; [|split].
      - apply not_true_iff_false. intros E. assert (existsb is_str y = true) by (apply existsb_exists; eauto). congruence.
      - rewrite forallb_forall in E2. apply E2; auto.
      - apply (proj1 (min_neg (map val y) ltac:(rewrite Ey; discriminate))); auto. apply in_map; auto. }
    destruct (H cs (conj Hne Hcs)) as (Ho & H2). rewrite (G cs (conj Hne Hcs)), Ho.
    apply unique_two in H2. destruct (Nat.ltb_spec (length (zunique (map Z.of_nat cs))) 2); [reflexivity|lia].
Qed.

(** decidability of the conditions *)
Lemma two_dec cs : two_of cs \/ ~ two_of cs.
Proof. destruct (Nat.ltb_spec (length (zunique (map Z.of_nat cs))) 2) as [H|H]; [right; apply unique_two; auto|left]. 
  destruct (zunique (map Z.of_nat cs)) as [|x [|y t]] eqn:E; simpl in H; try (exfalso; lia).
  pose proof (zunique_sorted (map Z.of_nat cs)) as S. rewrite E in S.
  assert ((x < y)%Z) by (inversion S as [|? ? S1 F]; subst; inversion F; auto).
  exists (Z.to_nat x), (Z.to_nat y).
  assert (In x (map Z.of_nat cs)) as X by (apply zunique_in; rewrite E; left; auto). assert (In y (map Z.of_nat cs)) as Y by (apply zunique_in; rewrite E; right; left; auto).
  apply in_map_iff in X as (a & <- & Ha). apply in_map_iff in Y as (b & <- & Hb). rewrite !Nat2Z.id. repeat split; auto. lia.
Qed.
Lemma gap_dec cs : no_gap cs \/ ~ no_gap cs.
Proof. destruct (zlist_eqb (zunique (map Z.of_nat cs)) (map Z.of_nat (seq 0 (length (zunique (map Z.of_nat cs)))))) eqn:E; [left; apply unique_gap; auto|right; rewrite <- unique_gap; congruence]. Qed.

Lemma labels_full y am ao : assert_valid_class_labels y am ao = Ok tt <->
  exists cs, class_labels y cs /\ (ao = true \/ two_of cs) /\ (am = true \/ no_gap cs).
Proof.
  destruct (labels_outcome y am ao) as (A & B & C). split.
  - intros H.
    assert (D : (exists cs, class_labels y cs /\ (ao = true \/ two_of cs)) \/ (forall cs, class_labels y cs -> ao = false /\ ~ two_of cs)).
    { destruct y as [|l0 y0] eqn:Ey; [right; intros cs (N & _); congruence|]. rewrite <- Ey in *.
      destruct (existsb is_str y) eqn:E1; [unfold assert_valid_class_labels in H; rewrite E1 in H; discriminate|].
      destruct (forallb (fun l => integral (val l)) y) eqn:E2; [|unfold assert_valid_class_labels in H; rewrite E1, E2 in H; discriminate].
      destruct (Qltb (qminimum (map val y)) 0) eqn:E3; [unfold assert_valid_class_labels in H; rewrite E1, E2, E3 in H; rewrite Ey in H; discriminate|].
      assert (exists cs, Forall2 is_class y cs) as (cs & Hcs).
      { apply classes_exist. intros l Hl. apply class_iff. split; [|split].
        - apply not_true_iff_false. intros E. assert (existsb is_str y = true) by (apply existsb_exists; eauto). congruence.
        - rewrite forallb_forall in E2. apply E2; auto.
        - apply (proj1 (min_neg (map val y) ltac:(rewrite Ey; discriminate))); auto. apply in_map; auto. }
      assert (Hne : y <> []) by (rewrite Ey; discriminate).
      destruct ao; [left; exists cs; split; [split; auto|auto]|]. destruct (two_dec cs); [left; exists cs; split; [split; auto|auto]|right].
      intros cs' (_ & Hcs'). rewrite (classes_fun _ _ _ Hcs' Hcs). auto. }
    destruct D as [(cs & Hcs & Ho)|D]; [|rewrite (C D) in H; discriminate].
    exists cs. split; auto. split; auto. destruct am; auto. destruct (gap_dec cs); auto. rewrite (B cs Hcs Ho eq_refl H0) in H. discriminate.
  - intros (cs & Hcs & Ho & Hm). eauto.
Qed.
Lemma labels_errors y am ao e : assert_valid_class_labels y am ao = Raise e ->
  e = ValueError \/ (e = TypeError /\ am = false /\ exists cs, class_labels y cs /\ ~ no_gap cs).
Proof.
  intros H. destruct (labels_outcome y am ao) as (A & B & C). 
  unfold assert_valid_class_labels in H. destruct (existsb is_str y) eqn:E1; [inversion H; auto|].
  destruct (forallb (fun l => integral (val l)) y) eqn:E2; cbn [negb] in H; [|inversion H; auto].
  destruct y as [|l0 y0] eqn:Ey; [inversion H; auto|]. rewrite <- Ey in *.
  destruct (Qltb (qminimum (map val y)) 0) eqn:E3; [inversion H; auto|]. cbv zeta in H.
  assert (exists cs, Forall2 is_class y cs) as (cs & Hcs).
  { apply classes_exist. intros l Hl. apply class_iff. split; [|split].
    - apply not_true_iff_false. intros E. assert (existsb is_str y = true) by (apply existsb_exists; eauto). congruence.
    - rewrite forallb_forall in E2. apply E2; auto.
    - apply (proj1 (min_neg (map val y) ltac:(rewrite Ey; discriminate))); auto. apply in_map; auto. }
  rewrite (classes_floor y cs Hcs) in H.
  destruct (negb ao && _)%bool; [inversion H; auto|]. destruct am; cbn [negb andb] in H; [discriminate|].
  destruct (zlist_eqb _ _) eqn:E4; cbn [negb] in H; [discriminate|]. inversion H; subst e. right. repeat split; auto. exists cs. split; [split; auto; rewrite Ey; discriminate|].
  rewrite <- unique_gap. congruence.
Qed.

(** ** Predictions *)
Lemma range_ok (l : list Q) : l <> [] ->
  (Qltb (qminimum l) (0 - FLOATING_POINT_COMPARISON) || Qltb (1 + FLOATING_POINT_COMPARISON) (qmaximum l))%bool = false <->
  forall p, In p l -> - (1 # 1000000) <= p /\ p <= 1 + (1 # 1000000).
Proof.
  intros Hl. rewrite orb_false_iff, !Qltb_false. unfold FLOATING_POINT_COMPARISON. split.
  - intros (A & B) p Hp. pose proof (qmin_le l p Hp). pose proof (qmaximum_ge l p Hp). lra.
  - intros H. destruct (H _ (qminimum_in l Hl)). destruct (H _ (qmaximum_in l Hl)). lra.
Qed.
Lemma concat_range rows : (forall p, In p (concat rows) -> - (1 # 1000000) <= p /\ p <= 1 + (1 # 1000000)) <-> near_probabilities rows.
Proof.
  unfold near_probabilities. split; intros H.
  - intros r p Hr Hp. apply H. apply in_concat. eauto.
  - intros p Hp. apply in_concat in Hp as (r & Hr & Hp). eauto.
Qed.
Lemma classes_max y cs K : class_labels y cs -> Qltb (Qnat K) (qmaximum (map val y) + 1) = false <-> forall c, In c cs -> (c < K)%nat.
Proof.
  intros (Hne & Hcs). rewrite Qltb_false. split.
  - intros H c Hc.
    assert (exists l, In l y /\ is_class l c) as (l & Hl & Hlc).
    { clear -Hcs Hc. induction Hcs as [|l c' y cs Hl H IH]; [contradiction|]. destruct Hc as [->|Hc]; [exists l; split; auto; left; auto|]. destruct (IH Hc) as (l' & A & B). exists l'. split; auto. right. auto. }
    apply class_val in Hlc as (E & _). pose proof (qmaximum_ge (map val y) (val l) (in_map val y l Hl)).
    assert (L : inject_Z (Z.of_nat c) + inject_Z 1 <= inject_Z (Z.of_nat K)) by (unfold Qnat in H; change (inject_Z 1) with 1; lra).
    rewrite <- inject_Z_plus, <- Zle_Qle in L. lia.
  - intros H. assert (N : map val y <> []) by (destruct y; [congruence|discriminate]). pose proof (qmaximum_in (map val y) N) as M.
    apply in_map_iff in M as (l & E & Hl). rewrite <- E.
    assert (exists c, In c cs /\ is_class l c) as (c & Hc & Hlc).
    { clear -Hcs Hl. induction Hcs as [|l' c' y cs Hl' H IH]; [contradiction|]. destruct Hl as [->|Hl]; [exists c'; split; auto; left; auto|]. destruct (IH Hl) as (c & A & B). exists c. split; auto. right. auto. }
    apply class_val in Hlc as (Ev & _). rewrite Ev. specialize (H c Hc). unfold Qnat. change 1 with (inject_Z 1). rewrite <- inject_Z_plus, <- Zle_Qle. lia.
Qed.
Lemma matrix_ne (rows : list (list Q)) K : (forall r, In r rows -> length r = K) -> rows <> [] -> (1 <= K)%nat -> concat rows <> [].
Proof. intros Hr Hn HK E. destruct rows as [|[|a r] rows]; [congruence| |discriminate]. specialize (Hr [] (or_introl eq_refl)). simpl in Hr. lia. Qed.

Lemma predictions_full x y rows K am ao : (forall r, In r rows -> length r = K) ->
  assert_valid_inputs_full x y (Some (rows, K)) am ao = Ok tt <->
  exists cs, class_labels y cs /\ (ao = true \/ two_of cs) /\ (am = true \/ no_gap cs) /\
    length rows = length y /\ (forall c, In c cs -> (c < K)%nat) /\ near_probabilities rows.
Proof.
  intros Hr. unfold assert_valid_inputs_full. split.
  - destruct (assert_valid_class_labels y am ao) as [[]|] eqn:E; cbn [rbind]; [|discriminate].
    apply labels_full in E as (cs & Hcs & Ho & Hm). intros H.
    destruct (Nat.eqb_spec (length rows) (length y)) as [L|]; cbn [negb] in H; [|discriminate].
    destruct (Qltb (Qnat K) (qmaximum (map val y) + 1)) eqn:E1; [discriminate|]. pose proof (proj1 (classes_max y cs K Hcs) E1) as HK.
    destruct ((_ || _)%bool) eqn:E2; [discriminate|]. exists cs. split; [auto|]. split; [auto|]. split; [auto|]. split; [auto|]. split; [auto|].
    pose proof Hcs as (Hne & F). assert (1 <= K)%nat. { destruct cs as [|c cs]; [inversion F; subst; congruence|]. specialize (HK c (or_introl eq_refl)). lia. }
    assert (N : concat rows <> []) by (apply (matrix_ne rows K); auto; destruct rows, y; try discriminate; congruence).
    pose proof (proj1 (range_ok _ N) E2) as E3.
    apply concat_range. auto.
  - intros (cs & Hcs & Ho & Hm & L & HK & HP). rewrite (proj2 (labels_full y am ao)) by eauto. cbn [rbind].
    rewrite L, Nat.eqb_refl. cbn [negb]. rewrite (proj2 (classes_max y cs K Hcs) HK).
    pose proof Hcs as (Hne & F). assert (1 <= K)%nat. { destruct cs as [|c cs]; [inversion F; subst; congruence|]. specialize (HK c (or_introl eq_refl)). lia. }
    assert (N : concat rows <> []) by (apply (matrix_ne rows K); auto; destruct rows, y; try discriminate; congruence).
    rewrite (proj2 (range_ok (concat rows) N)); [reflexivity|]. apply concat_range. auto.
Qed.
Lemma features_full x y am ao : assert_valid_inputs_full x y None am ao = Ok tt <->
  x = X (Some (length y)) true /\ exists cs, class_labels y cs /\ (ao = true \/ two_of cs) /\ (am = true \/ no_gap cs).
Proof.
  unfold assert_valid_inputs_full. rewrite <- labels_full. destruct (assert_valid_class_labels y am ao) as [[]|] eqn:E; cbn [rbind]; [|split; [discriminate|intros (_ & H); discriminate]].
  destruct x as [|[n|] ix]; cbn [rbind]; try (split; [discriminate|intros (H & _); discriminate]).
  destruct (Nat.eqb_spec n (length y)) as [->|N]; cbn [negb rbind]; [|split; [discriminate|intros (H & _); congruence]].
  destruct ix; cbn [negb rbind]; split; auto; try discriminate. intros (H & _). discriminate.
Qed.
Lemma multilabel_full y rows K : (forall r, In r rows -> length r = K) ->
  (assert_valid_inputs_multilabel y rows K = Ok tt <->
   length rows = length y /\ (exists ls l, In ls y /\ In l ls) /\ (forall ls l, In ls y -> In l ls -> (l < K)%nat) /\ near_probabilities rows) /\
  (assert_valid_inputs_multilabel y rows K = Ok tt \/ assert_valid_inputs_multilabel y rows K = Raise ValueError).
Proof.
  intros Hr. unfold assert_valid_inputs_multilabel.
  destruct (Nat.eqb_spec (length rows) (length y)) as [L|L]; cbn [negb]; [|split; [split; [discriminate|intros (H & _); congruence]|auto]].
  destruct (filter _ y) as [|a t] eqn:E.
  { split; [|auto]. split; [discriminate|]. intros (_ & (ls & l & H1 & H2) & _). exfalso.
    assert (In ls (filter (fun y_i => negb (Nat.eqb (length y_i) 0)) y)) as F by (apply filter_In; split; auto; destruct ls; [contradiction|reflexivity]). rewrite E in F. contradiction. }
  assert (Hne : a :: t <> []) by discriminate. rewrite <- E in *. clear E a t. set (ne := filter (fun y_i => negb (Nat.eqb (length y_i) 0)) y) in *.
  assert (Hin : forall ls, In ls ne <-> In ls y /\ ls <> []). { intros ls. unfold ne. rewrite filter_In. destruct ls; simpl; intuition discriminate. }
  assert (HK : (nmax (map nmax ne) < K)%nat <-> forall ls l, In ls y -> In l ls -> (l < K)%nat).
  { split.
    - intros H ls l H1 H2. assert (In ls ne) by (apply Hin; split; auto; intros ->; contradiction).
      pose proof (nmax_ge ls l H2). pose proof (nmax_ge (map nmax ne) (nmax ls) (in_map nmax ne ls H0)). lia.
    - intros H. assert (M : map nmax ne <> []) by (destruct ne; [congruence|discriminate]). pose proof (nmax_in _ M) as I. apply in_map_iff in I as (ls & <- & Hls).
      apply Hin in Hls as (A & B). apply (H ls); auto. apply nmax_in; auto. }
  assert (HE : exists ls l, In ls y /\ In l ls). { destruct ne as [|ls n] eqn:En; [congruence|]. destruct (proj1 (Hin ls) (or_introl eq_refl)) as (A & B). destruct ls as [|l ls]; [congruence|]. exists (l :: ls), l. split; auto. left. auto. }
  destruct (Nat.ltb_spec K (nmax (map nmax ne) + 1)) as [Hlt|Hge].
  { split; [|auto]. split; [discriminate|]. intros (_ & _ & H & _). apply HK in H. lia. }
  assert (HK' : (nmax (map nmax ne) < K)%nat) by lia.
  assert (Hc : concat rows <> []). { apply (matrix_ne rows K); auto; [|lia]. intros ->. destruct HE as (ls & l & A & _). destruct y; [contradiction|discriminate]. }
  destruct ((_ || _)%bool) eqn:E2.
  - split; [|auto]. split; [discriminate|]. intros (_ & _ & _ & H). pose proof (proj2 (range_ok _ Hc) (proj2 (concat_range rows) H)). congruence.
  - split; [|auto]. split; [|reflexivity]. intros _. split; auto. split; auto. split; [apply HK; auto|]. apply concat_range. apply (proj1 (range_ok _ Hc)). auto.
Qed.

(** ** The check used by the other models *)
Lemma nat_classes labels : Forall2 is_class (map (fun l => Num (Qnat l)) labels) labels.
Proof. induction labels; constructor; auto. exists (Qnat a). split; auto. reflexivity. Qed.
Lemma same_check labels pp K ao : assert_valid_inputs_full NoX (map (fun l => Num (Qnat l)) labels) (Some (pp, K)) true ao = assert_valid_inputs labels pp K ao.
Proof.
  unfold assert_valid_inputs_full, assert_valid_inputs. destruct labels as [|l0 ls] eqn:El; [reflexivity|]. rewrite <- El. set (y := map (fun l => Num (Qnat l)) labels).
  assert (Hcs : class_labels y labels). { split; [unfold y; rewrite El; discriminate|]. apply nat_classes. }
  destruct (labels_outcome y true ao) as (A & _ & C).
  assert (HU : (length (unique labels) < 2)%nat <-> ~ two_of labels).
  { split.
    - intros H (a & b & Ha & Hb & N). apply in_unique in Ha. apply in_unique in Hb. pose proof (two_in_length _ a b Ha Hb N). lia.
    - intros H. destruct (unique labels) as [|a [|b t]] eqn:E; simpl; try lia. exfalso. apply H. exists a, b. 
      assert (In a (unique labels)) as Ha by (rewrite E; left; auto). assert (In b (unique labels)) as Hb by (rewrite E; right; left; auto). apply (proj1 (in_unique _ _)) in Ha. apply (proj1 (in_unique _ _)) in Hb.
      pose proof (unique_NoDup labels) as N. rewrite E in N. apply NoDup_cons_iff in N as (N1 & _).
      split; [exact Ha|]. split; [exact Hb|]. intros Hab. apply N1. left. auto. }
  destruct ((negb ao && Nat.ltb (length (unique labels)) 2)%bool) eqn:E1.
  - apply andb_true_iff in E1 as (Ea & E1). apply Nat.ltb_lt, HU in E1. rewrite C; [reflexivity|]. intros cs F0. destruct F0 as (F00 & F). rewrite (classes_fun _ _ _ F (proj2 Hcs)). split; auto. destruct ao; auto; discriminate.
  - rewrite (A labels Hcs); auto.
    + cbn [rbind]. unfold y at 1. rewrite map_length. rewrite El at 1. destruct (negb (Nat.eqb (length pp) (length (l0 :: ls)))) eqn:E2; rewrite <- El in *; rewrite E2; [reflexivity|].
      assert (Qltb (Qnat K) (qmaximum (map val y) + 1) = Nat.ltb K (nmax labels + 1)) as ->; [|reflexivity].
      assert (Hne : labels <> []) by (rewrite El; discriminate).
      destruct (Nat.ltb_spec K (nmax labels + 1)) as [H|H].
      * apply not_false_iff_true. intros F. pose proof (proj1 (classes_max y labels K Hcs) F _ (nmax_in labels Hne)). lia.
      * apply (classes_max y labels K Hcs). intros c Hc. pose proof (nmax_ge labels c Hc). lia.
    + apply andb_false_iff in E1 as [E1|E1]; [left; destruct ao; auto; discriminate|right]. apply Nat.ltb_ge in E1. destruct (two_dec labels) as [|N]; auto. apply HU in N. lia.
Qed.
