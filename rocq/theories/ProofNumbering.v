(** * The numbering of the classes: out-of-distribution scores *)
From Coq Require Import QArith Qreals Reals List ZArith Bool Arith Lia Lqa Sorted Permutation.
From Verif Require Import Base BaseFacts ModelUtil ModelCount ModelRank ModelEntropy ModelOutlier SpecCount SpecOutlierCheck SpecSymmetry SpecRename SpecNumbering
  ProofUtil ProofCount ProofShuffle ProofPictures ProofRegRank ProofSymmetry ProofRows ProofRename.
Import ListNotations.
Open Scope Q_scope.

Lemma sort_perm sort a b : sorts_R sort -> Permutation a b -> sort a = sort b.
Proof.
  intros H P. destruct (H a) as (A & SA), (H b) as (B & SB). apply sorted_unique_R; auto. rewrite A, B. exact P.
Qed.
Lemma existsb_perm {A} (p : A -> bool) a b : Permutation a b -> existsb p a = existsb p b.
Proof.
  intros P. apply eq_true_iff_eq. rewrite !existsb_exists. split; intros (x & Hx & E); exists x; (split; [|exact E]).
  - apply (Permutation_in _ P), Hx.
  - apply (Permutation_in _ (Permutation_sym P)), Hx.
Qed.
Lemma row_score_perm sort m M g a b : sorts_R sort -> Permutation a b -> ood_row_score sort m M g a = ood_row_score sort m M g b.
Proof.
  intros Hs P. destruct m; cbn [ood_row_score]; [| | |reflexivity].
  - rewrite (existsb_perm _ _ _ P). unfold normalized_entropy. rewrite (Permutation_length P), (rsum_perm _ _ (Permutation_map xlogx P)). reflexivity.
  - now rewrite (ProofPictures.rmaximum_perm _ _ P).
  - destruct (Nat.eqb M 0); [reflexivity|]. assert (Q : Permutation (softmax a) (softmax b)).
    { unfold softmax. rewrite (rsum_perm _ _ (Permutation_map exp P)). now apply Permutation_map. }
    now rewrite (sort_perm _ _ _ Hs Q).
Qed.

Lemma NoDup_map_inj_in {A B} (f : A -> B) l : (forall a b, In a l -> In b l -> f a = f b -> a = b) -> NoDup l -> NoDup (map f l).
Proof.
  intros Inj N. induction N as [|x l H N IH]; [constructor|]. cbn [map]. constructor.
  - intros I. apply in_map_iff in I as (y & E & Hy). apply H. rewrite (Inj x y); auto; [now left|now right].
  - apply IH. intros a b Ha Hb. apply Inj; now right.
Qed.
Section Names.
Variables (K : nat) (names : list nat).
Hypothesis Pn : Permutation names (seq 0 K).
Let s k := nth k names 0%nat.

Lemma names_tab {A} (d : A) v : length v = K -> Permutation (map (fun k => nth (s k) v d) (seq 0 K)) v.
Proof.
  intros H. rewrite <- (map_map s (fun k => nth k v d)). transitivity (pick d (seq 0 (length v)) v); [|now rewrite pick_seq]. unfold pick. rewrite H. apply Permutation_map.
  assert (map s (seq 0 K) = names) as ->; [|exact Pn]. rewrite <- (names_length K names Pn). apply (list_eq_nth _ _ 0%nat).
  - now rewrite map_length, seq_length.
  - intros i Hi. rewrite map_length, seq_length in Hi. rewrite (nth_map_gen _ _ _ _ 0%nat) by (now rewrite seq_length). rewrite seq_nth by auto. reflexivity.
Qed.
Lemma list_tab {A} (d : A) v : length v = K -> v = map (fun k => nth k v d) (seq 0 K).
Proof. intros <-. symmetry. apply (pick_seq d v). Qed.
Lemma renamed_perm_R v v' : length v = K -> renamed_values names v v' -> Permutation (map Q2R v) (map Q2R v').
Proof.
  intros H (L & E). rewrite <- (names_tab 0 v') by congruence. rewrite (list_tab 0 v H) at 1. rewrite !map_map.
  erewrite map_ext_in; [reflexivity|]. intros k Hk. apply in_seq in Hk. cbn beta. apply Qeq_eqR. symmetry. apply E. lia.
Qed.
Lemma renamed_sum v v' : length v = K -> renamed_values names v v' -> qsum v' == qsum v.
Proof.
  intros H (L & E). rewrite <- (qsum_perm _ _ (names_tab 0 v' ltac:(congruence))). rewrite (list_tab 0 v H) at 1.
  apply qsum_map_ext. intros k Hk. apply in_seq in Hk. apply E. lia.
Qed.
Lemma renamed_max v v' : length v = K -> renamed_values names v v' -> qmaximum v' == qmaximum v.
Proof.
  intros H (L & E). destruct K as [|K0] eqn:EK; [destruct v, v'; try discriminate; reflexivity|]. symmetry.
  apply qmax_match; [intros ->; discriminate| |].
  - intros x Hx. apply In_nth with (d := 0) in Hx as (k & Hk & <-). exists (nth (s k) v' 0). split; [|symmetry; apply E; lia]. apply nth_In. rewrite L, H.
    apply (name_lt _ names Pn). lia.
  - intros y Hy. apply In_nth with (d := 0) in Hy as (i & Hi & <-). rewrite L, H in Hi. destruct (name_onto _ names Pn i Hi) as (k & Hk & <-).
    exists (nth k v 0). split; [apply nth_In; lia|]. symmetry. apply E. lia.
Qed.
Lemma renamed_row_values row row' : renamed_row names row row' -> renamed_values names row row'.
Proof. intros (L & E). split; [exact L|]. intros k Hk. now rewrite E. Qed.
Definition adjust_row (thr row : list Q) : list Q :=
  let adj := map (fun xt => fst xt - snd xt + qmaximum thr) (combine row thr) in map (fun x => x / qsum adj) adj.
Lemma nth_adj thr row k m : length row = length thr -> (k < length row)%nat ->
  nth k (map (fun xt : Q * Q => fst xt - snd xt + m) (combine row thr)) 0 = nth k row 0 - nth k thr 0 + m.
Proof.
  intros H Hk. rewrite (nth_map_gen _ _ _ _ (0, 0)) by (rewrite combine_length; lia). rewrite combine_nth by auto. reflexivity.
Qed.
Lemma adjust_renamed thr thr' row row' : length thr = K -> length row = K -> renamed_values names thr thr' -> renamed_values names row row' ->
  renamed_values names (adjust_row thr row) (adjust_row thr' row').
Proof.
  intros HT HR T R. pose proof (renamed_max thr thr' HT T) as M. destruct T as (T1 & T2), R as (R1 & R2).
  set (a := map (fun xt : Q * Q => fst xt - snd xt + qmaximum thr) (combine row thr)).
  set (a' := map (fun xt : Q * Q => fst xt - snd xt + qmaximum thr') (combine row' thr')).
  assert (La : length a = K) by (unfold a; rewrite map_length, combine_length; lia).
  assert (La' : length a' = K) by (unfold a'; rewrite map_length, combine_length; lia).
  assert (V : renamed_values names a a').
  { split; [lia|]. intros k Hk. rewrite La in Hk. pose proof (name_lt K names Pn k Hk) as Hsk. unfold a, a'. rewrite !nth_adj by lia.
    rewrite R2, T2, M by lia. reflexivity. }
  pose proof (renamed_sum a a' La V) as Es. unfold adjust_row. fold a. fold a'. split; [rewrite !map_length; lia|].
  rewrite map_length, La. intros k Hk. pose proof (name_lt K names Pn k Hk) as Hsk. rewrite !(nth_map_gen _ _ _ _ 0) by lia.
  rewrite Es. rewrite (proj2 V k) by lia. reflexivity.
Qed.
Lemma own_renamed labels pp pp' k : (forall l, In l labels -> (l < K)%nat) -> (forall r, In r pp -> length r = K) -> Forall2 (renamed_row names) pp pp' ->
  (k < K)%nat -> own_probs (s k) (renamed_labels names labels) pp' = own_probs k labels pp.
Proof.
  intros Hlab Hrow Hr Hk. pose proof (name_inj K names Pn) as Inj. unfold renamed_labels, s in *. clear - Hk Hlab Hrow Hr Inj. revert labels Hlab.
  induction Hr as [|r r' pp0 P0 H F0 IH]; intros [|l ls] Hlab; try reflexivity. cbn [map own_probs].
  assert (Hl : (l < K)%nat) by (apply Hlab; now left).
  rewrite IH; [|intros x Hx; apply Hrow; now right|intros x Hx; apply Hlab; now right].
  destruct (Nat.eqb_spec l k) as [->|N].
  - rewrite Nat.eqb_refl. f_equal. apply H. now rewrite Hrow by now left.
  - destruct (Nat.eqb_spec (nth l names 0%nat) (nth k names 0%nat)) as [E|_]; [|reflexivity]. elim N. now apply Inj.
Qed.
Lemma in_renamed labels k : (forall l, In l labels -> (l < K)%nat) -> (k < K)%nat -> In k labels <-> In (s k) (renamed_labels names labels).
Proof.
  intros Hlab Hk. split; intros H.
  - unfold renamed_labels. apply in_map_iff. exists k. auto.
  - apply in_map_iff in H as (j & E & H). rewrite <- (name_inj K names Pn j k); auto.
Qed.
Lemma F2_len {A B} (R : A -> B -> Prop) a b : Forall2 R a b -> length a = length b.
Proof. intros H. induction H; cbn; auto. Qed.
Lemma thresholds_renamed labels pp pp' : length labels = length pp -> (forall l, In l labels -> (l < K)%nat) -> (forall r, In r pp -> length r = K) ->
  Forall2 (renamed_row names) pp pp' ->
  renamed_values names (get_confident_thresholds labels pp K) (get_confident_thresholds (renamed_labels names labels) pp' K).
Proof.
  intros HL Hlab Hrow Hr. assert (LT : forall l p, length (get_confident_thresholds l p K) = K) by (intros; unfold get_confident_thresholds; now rewrite map_length, tab_length).
  split; [now rewrite !LT|]. rewrite LT. intros k Hk. symmetry.
  apply thresholds_same; [exact HL| |exact Hk|exact (name_lt K names Pn k Hk)|exact (in_renamed labels k Hlab Hk)|].
  - unfold renamed_labels. rewrite map_length, HL. eapply F2_len; eauto.
  - intros _ a b A B. change (nth k names 0%nat) with (s k) in B. rewrite (own_renamed labels pp pp') in B by auto. eapply average_unique; eauto.
Qed.

Lemma unique_renamed labels : (forall l, In l labels -> (l < K)%nat) -> length (unique (renamed_labels names labels)) = length (unique labels).
Proof.
  intros Hlab. rewrite <- (map_length s (unique labels)). apply Permutation_length, NoDup_Permutation.
  - apply unique_NoDup.
  - apply NoDup_map_inj_in; [|apply unique_NoDup]. intros a b Ha Hb E. apply (name_inj K names Pn a b); [apply Hlab; now apply in_unique|apply Hlab; now apply in_unique|exact E].
  - intros x. rewrite in_unique. unfold renamed_labels. rewrite !in_map_iff. split; intros (y & E & Hy); exists y; (split; [exact E|]); now apply in_unique.
Qed.
Lemma row_same_entries row row' : length row = K -> renamed_row names row row' -> forall x, In x row <-> In x row'.
Proof.
  intros H (L & E) x. split; intros I; apply In_nth with (d := 0) in I as (i & Hi & <-).
  - rewrite <- E by auto. apply nth_In. rewrite L, H. apply (name_lt K names Pn). lia.
  - rewrite L, H in Hi. destruct (name_onto K names Pn i Hi) as (k & Hk & <-). rewrite E by lia. apply nth_In. lia.
Qed.
Lemma concat_same pp pp' : (forall r, In r pp -> length r = K) -> Forall2 (renamed_row names) pp pp' -> forall x, In x (concat pp) <-> In x (concat pp').
Proof.
  intros Hrow F x. induction F as [|r r' p p' H F IH]; [reflexivity|]. cbn [concat]. rewrite !in_app_iff, IH by (intros; apply Hrow; now right).
  rewrite (row_same_entries r r'); [reflexivity| |exact H]. apply Hrow. now left.
Qed.
Lemma valid_renamed labels pp pp' b : (forall l, In l labels -> (l < K)%nat) -> (forall r, In r pp -> length r = K) -> Forall2 (renamed_row names) pp pp' ->
  assert_valid_inputs (renamed_labels names labels) pp' K b = assert_valid_inputs labels pp K b.
Proof.
  intros Hlab Hrow F. pose proof (unique_renamed labels Hlab) as U.
  assert (NM : forall l, l <> [] -> (forall x, In x l -> (x < K)%nat) -> Nat.ltb K (nmax l + 1) = false).
  { intros l Hl Hx. apply Nat.ltb_ge. enough (nmax l < K)%nat by lia. apply Hx. now apply nmax_in. }
  assert (C : qminimum (concat pp') == qminimum (concat pp) /\ qmaximum (concat pp') == qmaximum (concat pp)).
  { destruct (concat pp) as [|x t] eqn:E.
    - assert (concat pp' = []) as ->; [|split; reflexivity]. destruct (concat pp') as [|y u] eqn:E'; [reflexivity|exfalso].
      assert (I : In y (concat pp)) by (apply (concat_same pp pp' Hrow F); rewrite E'; now left). rewrite E in I. destruct I.
    - rewrite <- E. split; symmetry; [apply qmin_match|apply qmax_match]; try (rewrite E; discriminate);
        intros y Hy; exists y; (split; [|reflexivity]); now apply (concat_same pp pp' Hrow F). }
  destruct C as (C1 & C2). unfold assert_valid_inputs. rewrite U.
  destruct labels as [|l0 ls]; [reflexivity|]. change (renamed_labels names (l0 :: ls)) with (s l0 :: renamed_labels names ls) in *.
  rewrite !NM; try discriminate; auto.
  2:{ intros x [<-|Hx]; [apply (name_lt K names Pn), Hlab; now left|]. apply in_map_iff in Hx as (y & <- & Hy). apply (name_lt K names Pn), Hlab. now right. }
  rewrite (Qltb_comp _ _ _ _ C1 (Qeq_refl _)), (Qltb_comp _ _ _ _ (Qeq_refl _) C2). cbn [length]. unfold renamed_labels. rewrite map_length, <- (F2_len _ _ _ F). reflexivity.
Qed.
End Names.
