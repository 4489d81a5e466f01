(** * Proofs for C168 *)
From Coq Require Import QArith Qabs List Sorted ZArith Bool Arith Lia Lqa Setoid Morphisms.
From Verif Require Import Base BaseFacts ModelUtil ModelCount ModelRank ModelFilter SpecCount SpecReorder SpecFilter
     SpecResample ProofUtil ProofCount ProofFilter ProofIdeal ProofIssueCount ProofCalibCount.
From Verif Require Import SpecSymmetry.
From Verif Require ProofReorder ProofCopies2 ProofBatched.
Import ListNotations.
Open Scope Q_scope.
Opaque TINY_VALUE.

(** ** double counting *)
Lemma qsum_cons x l : qsum (x :: l) = x + qsum l. Proof. reflexivity. Qed.
Lemma qsum_map_plus {A} (f g : A -> Q) l : qsum (map (fun x => f x + g x) l) == qsum (map f l) + qsum (map g l).
Proof. induction l as [|x l IH]; [reflexivity|]. cbn [map]. rewrite !qsum_cons, IH. ring. Qed.
Lemma qsum_point n i (g : nat -> Q) : (i < n)%nat -> qsum (map (fun e => if Nat.eqb i e then g e else 0) (seq 0 n)) == g i.
Proof.
  intros H. change (qsum (tab n (fun e => if Nat.eqb i e then g e else 0)) == g i). rewrite (qsum_tab_split n i) by auto.
  rewrite Nat.eqb_refl.
  assert (qsum (tab n (fun j => if Nat.eqb i j then 0 else if Nat.eqb i j then g j else 0)) == 0) as ->; [|ring].
  rewrite (qsum_tab_ext n _ (fun _ => 0)) by (intros j _; destruct (Nat.eqb i j); reflexivity).
  unfold tab. clear. induction (seq 0 n) as [|a l IH]; [reflexivity|]. cbn [map]. rewrite qsum_cons, IH. ring.
Qed.
Lemma double_count n (f : nat -> nat) (g : nat -> Q) L : (forall x, In x L -> (f x < n)%nat) ->
  qsum (map (fun x => g (f x)) L) ==
  qsum (map (fun e => Qnat (length (filter (fun x => Nat.eqb (f x) e) L)) * g e) (seq 0 n)).
Proof.
  induction L as [|x L IH]; intros H.
  - cbn [map filter length]. change (Qnat 0) with 0. change (qsum []) with 0.
    induction (seq 0 n) as [|a l IHl]; [reflexivity|]. cbn [map]. rewrite qsum_cons, <- IHl. ring.
  - cbn [map]. rewrite qsum_cons, IH by (intros; apply H; right; auto).
    rewrite <- (qsum_point n (f x) g) at 1 by (apply H; left; auto).
    rewrite <- qsum_map_plus. apply qsum_map_ext. intros e _. cbn [filter].
    destruct (Nat.eqb (f x) e); cbn [length]; rewrite ?Qnat_S; ring.
Qed.
Lemma holds_filter n (P : nat -> bool) a : holds_for n (fun e => P e = true) a -> length (filter P (seq 0 n)) = a.
Proof.
  intros H. apply (holds_for_unique n (fun e => P e = true)); auto. exists (filter P (seq 0 n)).
  split; [apply NoDup_filter, seq_NoDup|]. split; auto. intros i. rewrite filter_In, in_seq. split; intros (A & B); split; auto; lia.
Qed.

(** ** averages as sums over positions *)
Definition pos_sum (labels : list nat) (g : nat -> Q) (k : nat) : Q :=
  qsum (map (fun e => if Nat.eqb (label_of labels e) k then g e else 0) (seq 0 (length labels))).
Lemma own_pos k labels : forall pp, length labels = length pp ->
  qsum (own_probs k labels pp) == pos_sum labels (fun e => prob_of pp e k) k /\
  Qnat (length (own_probs k labels pp)) == pos_sum labels (fun _ => 1) k.
Proof.
  unfold pos_sum, label_of, prob_of. induction labels as [|l ls IH]; intros [|r rs] Hl; try discriminate; [split; reflexivity|].
  destruct (IH rs) as (A & B); [cbn in Hl; lia|]. cbn [own_probs length seq map]. rewrite <- seq_shift, !map_map. cbn [nth].
  destruct (Nat.eqb l k); rewrite !qsum_cons; cbn [length]; rewrite ?qsum_cons, ?Qnat_S; split; rewrite ?A, ?B; ring.
Qed.

Section Resample.
  Context (K : nat) (labels : list nat) (pp : list (list Q)) (labels' : list nat) (pp' : list (list Q)) (c f : nat -> nat).
  Context (Hd : dataset K labels pp) (Hr : resampled c f labels pp labels' pp').

  Lemma fibre e : (e < length labels)%nat ->
    length (filter (fun x => Nat.eqb (f x) e) (seq 0 (length labels'))) = c (label_of labels e).
  Proof.
    intros He. destruct Hr as (_ & _ & H). apply holds_filter. apply (holds_for_iff _ (fun e' => f e' = e)); [|apply H; auto].
    intros x _. symmetry. apply Nat.eqb_eq.
  Qed.
  Lemma some_copy e : (e < length labels)%nat -> exists e', (e' < length labels')%nat /\ f e' = e.
  Proof.
    intros He. destruct Hr as (_ & _ & H). destruct (H e He) as (H1 & idx & ND & L & I).
    destruct idx as [|x idx]; [cbn in L; lia|]. exists x. apply I. left. auto.
  Qed.
  Lemma resampled_dataset : dataset K labels' pp'.
  Proof.
    pose proof Hd as [Hlen Hne Hlab Hrow Hprob]. pose proof Hr as (Hl & H & _).
    assert (R : forall r, In r pp' -> In r pp).
    { intros r Hin. apply (In_nth _ _ []) in Hin as (e' & He' & <-). destruct (H e' ltac:(lia)) as (A & _ & E).
      unfold row_of in E. rewrite E. apply nth_In. lia. }
    split; auto.
    - intros E. assert (0 < length labels)%nat as L0 by (destruct (length labels) eqn:Z; [apply length_zero_iff_nil in Z; congruence|lia]).
      destruct (some_copy 0%nat L0) as (e' & He' & _).
      rewrite E in He'. cbn in He'. lia.
    - intros l Hin. apply (In_nth _ _ 0%nat) in Hin as (e' & He' & <-). destruct (H e' He') as (A & E & _).
      unfold label_of in E. rewrite E. apply Hlab, nth_In. auto.
    - intros r x Hin. apply Hprob. auto.
  Qed.
  Lemma in_labels k : In k labels' <-> In k labels.
  Proof.
    destruct Hr as (Hl & H & _). split; intros Hin.
    - apply (In_nth _ _ 0%nat) in Hin as (e' & He' & <-). destruct (H e' He') as (A & E & _). unfold label_of in E. rewrite E. apply nth_In. auto.
    - apply (In_nth _ _ 0%nat) in Hin as (e & He & <-). destruct (some_copy e He) as (e' & He' & <-).
      destruct (H e' He') as (A & E & _). unfold label_of in E. rewrite <- E. apply nth_In. auto.
  Qed.
  Lemma resampled_two : two_classes labels -> two_classes labels'.
  Proof. intros (x & y & A & B & N). exists x, y. rewrite !in_labels. auto. Qed.

  Lemma pos_scaled (g g' : nat -> Q) k : (forall e', (e' < length labels')%nat -> g' e' = g (f e')) ->
    pos_sum labels' g' k == Qnat (c k) * pos_sum labels g k.
  Proof.
    intros Hg. pose proof Hr as (Hl & H & _). unfold pos_sum.
    rewrite (qsum_map_ext _ (fun e' => (fun e => if Nat.eqb (label_of labels e) k then g e else 0) (f e'))).
    2:{ intros e' He'. apply in_seq in He'. destruct (H e' ltac:(lia)) as (_ & -> & _). rewrite Hg by lia. reflexivity. }
    rewrite (double_count (length labels) f (fun e => if Nat.eqb (label_of labels e) k then g e else 0)).
    2:{ intros x Hx. apply in_seq in Hx. apply H. lia. }
    rewrite (qsum_map_ext _ (fun e => Qnat (c k) * (if Nat.eqb (label_of labels e) k then g e else 0))).
    2:{ intros e He. apply in_seq in He. rewrite fibre by lia.
        destruct (Nat.eqb_spec (label_of labels e) k) as [->|]; [reflexivity|ring]. }
    induction (seq 0 (length labels)) as [|x l IH]; [cbn; ring|]. cbn [map]. rewrite !qsum_cons, IH. ring.
  Qed.

  Let thr := get_confident_thresholds labels pp K.
  Let thr' := get_confident_thresholds labels' pp' K.
  Lemma thr_same k : (k < K)%nat -> nth k thr' 0 == nth k thr 0.
  Proof.
    intros Hk. pose proof resampled_dataset as Hd'.
    destruct (thresholds_spec labels pp K k (ds_len _ _ _ Hd) Hk) as (A & B).
    destruct (thresholds_spec labels' pp' K k (ds_len _ _ _ Hd') Hk) as (A' & B').
    destruct (in_dec Nat.eq_dec k labels) as [Hin|Hin].
    2:{ fold thr in B. fold thr' in B'. rewrite B, B' by (rewrite ?in_labels; auto). reflexivity. }
    destruct (A Hin) as (x & (Nx & Ax) & Ex). destruct (A' (proj2 (in_labels k) Hin)) as (x' & (Nx' & Ax') & Ex').
    fold thr in Ex. fold thr' in Ex'. rewrite Ex, Ex'.
    destruct (own_pos k labels pp (ds_len _ _ _ Hd)) as (S1 & L1). destruct (own_pos k labels' pp' (ds_len _ _ _ Hd')) as (S2 & L2).
    rewrite S1, L1 in Ax. rewrite S2, L2 in Ax'. pose proof Hr as (Hl & H & H3).
    rewrite (pos_scaled (fun e => prob_of pp e k) (fun e => prob_of pp' e k)) in Ax'.
    2:{ intros e' He'. destruct (H e' He') as (_ & _ & E). unfold prob_of, row_of in *. rewrite E. reflexivity. }
    rewrite (pos_scaled (fun _ => 1) (fun _ => 1)) in Ax' by reflexivity.
    assert (P : 0 < pos_sum labels (fun _ => 1) k).
    { rewrite <- L1. apply Qnat_pos. destruct (own_probs k labels pp); [congruence|cbn; lia]. }
    assert (C : 0 < Qnat (c k)).
    { apply Qnat_pos. apply (In_nth _ _ 0%nat) in Hin as (e & He & <-). apply (H3 e He). }
    assert (E : x' == x).
    { apply (Qmult_inj_r _ _ (Qnat (c k) * pos_sum labels (fun _ => 1) k)).
      - assert (0 < Qnat (c k) * pos_sum labels (fun _ => 1) k) by (apply Qmult_lt_0_compat; auto). lra.
      - rewrite Ax', <- Ax. ring. }
    rewrite E. reflexivity.
  Qed.
  Lemma reaches_same r k : length r = K -> reaches thr' r k <-> reaches thr r k.
  Proof.
    intros Hl. unfold reaches. rewrite Hl. split; intros (A & B); split; auto.
    - rewrite <- (thr_same k A). auto.
    - rewrite (thr_same k A). auto.
  Qed.
  Lemma counted_same r j : length r = K -> counted_as thr' r j <-> counted_as thr r j.
  Proof.
    intros Hl. unfold counted_as. split.
    - intros [(A & B)|((x & y & N & A & B) & C)]; [left|right].
      + split; [apply reaches_same; auto|]. intros i Hi. apply B, reaches_same; auto.
      + split; auto. exists x, y. rewrite <- !(reaches_same r) by auto. auto.
    - intros [(A & B)|((x & y & N & A & B) & C)]; [left|right].
      + split; [apply reaches_same; auto|]. intros i Hi. apply B, reaches_same; auto.
      + split; auto. exists x, y. rewrite !(reaches_same r) by auto. auto.
  Qed.
  Lemma copy_counted e' j : (e' < length labels')%nat -> counted_as thr' (row_of pp' e') j <-> counted_as thr (row_of pp (f e')) j.
  Proof.
    intros He'. destruct Hr as (_ & H & _). destruct (H e' He') as (A & _ & ->). apply counted_same.
    apply (ds_row _ _ _ Hd), nth_In. rewrite <- (ds_len _ _ _ Hd). auto.
  Qed.

  (** counting a class-restricted property *)
  Lemma holds_scaled (P P' : nat -> Prop) k n : (forall e', (e' < length labels')%nat -> P' e' <-> P (f e')) ->
    (forall e, (e < length labels)%nat -> P e -> label_of labels e = k) ->
    holds_for (length labels) P n -> holds_for (length labels') P' (c k * n).
  Proof.
    intros HP Hk (idx & ND & Ln & I). pose proof Hr as (Hl & H & _).
    set (Q := fun x => mem (f x) idx).
    exists (filter Q (seq 0 (length labels'))). split; [apply NoDup_filter, seq_NoDup|]. split.
    - assert (G : forall l, NoDup l -> (forall x, In x l -> (x < length labels)%nat /\ label_of labels x = k) ->
         length (filter (fun x => mem (f x) l) (seq 0 (length labels'))) = (c k * length l)%nat).
      { induction l as [|x l IH]; intros NDl Hx.
        - cbn [length]. rewrite (filter_none (fun x => mem (f x) [])); [cbn; lia|]. intros; reflexivity.
        - inversion NDl as [|? ? Nx NDl']. subst.
          rewrite (filter_split _ (fun y => Nat.eqb (f y) x)).
          rewrite (filter_ext (fun e => (mem (f e) (x :: l) && Nat.eqb (f e) x)%bool) (fun y => Nat.eqb (f y) x)).
          2:{ intros y. destruct (Nat.eqb_spec (f y) x) as [E|]; [|apply andb_false_r]. rewrite andb_true_r. apply mem_iff. left. auto. }
          rewrite fibre by (apply Hx; left; auto). destruct (Hx x (or_introl eq_refl)) as (_ & ->).
          rewrite (filter_ext (fun e => (mem (f e) (x :: l) && negb (Nat.eqb (f e) x))%bool) (fun y => mem (f y) l)).
          2:{ intros y. apply eq_true_iff_eq. rewrite andb_true_iff, negb_true_iff, Nat.eqb_neq, !mem_iff. cbn [In]. split.
              - intros ([A|A] & B); [congruence|auto].
              - intros A. split; [auto|]. intros E. rewrite E in A. contradiction. }
          rewrite IH by (auto; intros; apply Hx; right; auto). cbn [length]. lia. }
      unfold Q. rewrite G; [lia|auto|]. intros x Hx. apply I in Hx as (A & B). split; auto.
    - intros x. rewrite filter_In, in_seq. unfold Q. rewrite mem_iff, I. split.
      + intros ((_ & A) & B & C). cbn in A. split; auto. apply HP; auto.
      + intros (A & B). split; [lia|]. split; [apply H; auto|]. apply HP; auto.
  Qed.
End Resample.

Lemma C168_thresholds_full : forall K labels pp labels' pp' c f k,
  dataset K labels pp -> resampled c f labels pp labels' pp' -> (k < K)%nat ->
  nth k (get_confident_thresholds labels' pp' K) 0 == nth k (get_confident_thresholds labels pp K) 0.
Proof. intros. eapply thr_same; eauto. Qed.

Lemma C168_flags_full : forall srt K labels pp labels' pp' c f o,
  argsort_ok srt -> dataset K labels pp -> two_classes labels -> resampled c f labels pp labels' pp' ->
  num_to_remove_per_class o = None -> (1 <= n_jobs o)%nat ->
  exists m m', find_label_issues srt labels pp K ConfidentLearning o = Ok m /\
    find_label_issues srt labels' pp' K ConfidentLearning o = Ok m' /\ length m' = length labels' /\
    (forall e', (e' < length labels')%nat -> flagged m' e' <-> flagged m (f e')) /\
    (forall k n, holds_for (length labels) (fun e => flagged m e /\ label_of labels e = k) n ->
       holds_for (length labels') (fun e' => flagged m' e' /\ label_of labels' e' = k) (c k * n)).
Proof.
  intros srt K labels pp labels' pp' c f o Hs Hd H2 Hr Hn Hj.
  pose proof (resampled_dataset K labels pp labels' pp' c f Hd Hr) as Hd'.
  pose proof (resampled_two labels pp labels' pp' c f Hr H2) as H2'.
  destruct (C06_full srt K labels pp o Hs Hd H2 Hn Hj) as (m & Em & Lm & _ & Fm).
  destruct (C06_full srt K labels' pp' o Hs Hd' H2' Hn Hj) as (m' & Em' & Lm' & _ & Fm').
  exists m, m'. split; auto. split; auto. split; auto.
  assert (G : forall e', (e' < length labels')%nat -> flagged m' e' <-> flagged m (f e')).
  { intros e' He'. pose proof Hr as (_ & H & _). destruct (H e' He') as (A & B & C). rewrite Fm, Fm'.
    assert (Cb : clearly_beaten labels' pp' e' <-> clearly_beaten labels pp (f e')).
    { unfold clearly_beaten, prob_of. fold (row_of pp' e'). fold (row_of pp (f e')). rewrite B, C. tauto. }
    rewrite Cb, B. split.
    - intros (_ & (j & Cj & Nj) & Bt). split; auto. split; auto. exists j. split; auto.
      apply (copy_counted K labels pp labels' pp' c f Hd Hr e'); auto.
    - intros (_ & (j & Cj & Nj) & Bt). split; auto. split; auto. exists j. split; auto.
      apply (copy_counted K labels pp labels' pp' c f Hd Hr e'); auto. }
  split; auto. intros k n Hn'.
  apply (holds_scaled labels pp labels' pp' c f Hr (fun e => flagged m e /\ label_of labels e = k)); auto.
  - intros e' He'. pose proof Hr as (_ & H & _). destruct (H e' He') as (_ & B & _). rewrite B, (G e' He'). tauto.
  - intros e _ (_ & E). auto.
Qed.

Lemma C168_joint_full : forall srt K labels pp labels' pp' c f,
  dataset K labels pp -> resampled c f labels pp labels' pp' ->
  exists cj idx cj' idx', compute_confident_joint srt labels pp K None false = Ok (cj, idx) /\
    compute_confident_joint srt labels' pp' K None false = Ok (cj', idx') /\
    (forall e', (e' < length labels')%nat -> In e' idx' <-> In (f e') idx) /\
    (forall i j, (i < K)%nat -> (j < K)%nat -> In i labels ->
       i <> j \/ (exists e, (e < length labels)%nat /\ label_of labels e = i /\
                            counted_as (get_confident_thresholds labels pp K) (row_of pp e) i) ->
       zget cj' i j = (Z.of_nat (c i) * zget cj i j)%Z) /\
    (forall i, (i < K)%nat -> ~ (exists e, (e < length labels)%nat /\ label_of labels e = i /\
                            counted_as (get_confident_thresholds labels pp K) (row_of pp e) i) ->
       zget cj i i = 1%Z /\ zget cj' i i = 1%Z).
Proof.
  intros srt K labels pp labels' pp' c f Hd Hr.
  pose proof (resampled_dataset K labels pp labels' pp' c f Hd Hr) as Hd'.
  destruct (compute_confident_joint_full srt K labels pp None Hd ltac:(discriminate)) as (cj & idx & E & Hc & _ & _ & Hi).
  destruct (compute_confident_joint_full srt K labels' pp' None Hd' ltac:(discriminate)) as (cj' & idx' & E' & Hc' & _ & _ & Hi').
  exists cj, idx, cj', idx'. split; auto. split; auto. pose proof Hr as (_ & H & H3). split; [|split].
  - intros e' He'. rewrite Hi, Hi'. destruct (H e' He') as (A & B & _). unfold label_of in B. rewrite B.
    fold (row_of pp' e'). fold (row_of pp (f e')). split; intros (_ & j & Cj & Nj); split; auto; exists j; split; auto;
      apply (copy_counted K labels pp labels' pp' c f Hd Hr e'); auto.
  - intros i j Hij Hj Hin Hcase. destruct (Hc i j Hij Hj) as (n & Hn & ->). destruct (Hc' i j Hij Hj) as (n' & Hn' & ->).
    assert (En : n' = (c i * n)%nat).
    { eapply holds_for_unique; [exact Hn'|].
      apply (holds_scaled labels pp labels' pp' c f Hr (fun e => nth e labels 0%nat = i /\ counted_as (get_confident_thresholds labels pp K) (nth e pp []) j)); auto.
      - intros e' He'. destruct (H e' He') as (_ & B & _). unfold label_of in B. rewrite B.
        fold (row_of pp' e'). fold (row_of pp (f e')). rewrite (copy_counted K labels pp labels' pp' c f Hd Hr e' j He'). tauto.
      - intros e _ (Q & _). exact Q. }
    assert (Ci : (1 <= c i)%nat).
    { apply (In_nth _ _ 0%nat) in Hin as (e & He & <-). apply (H3 e He). }
    destruct (Nat.eqb_spec i j) as [<-|]; [|subst; lia].
    destruct Hcase as [?|(e & He & El & Ce)]; [congruence|].
    assert (1 <= n)%nat; [|subst; nia]. destruct Hn as (l & _ & <- & Il). destruct l as [|x l]; [|cbn; lia].
    exfalso. apply (Il e). auto.
  - intros i HiK Hno. destruct (Hc i i HiK HiK) as (n & Hn & ->). destruct (Hc' i i HiK HiK) as (n' & Hn' & ->).
    rewrite Nat.eqb_refl. destruct Hn as (l & _ & <- & Il). destruct Hn' as (l' & _ & <- & Il'). split.
    + destruct l as [|x l]; [reflexivity|]. exfalso. apply Hno. exists x. apply (Il x). left. auto.
    + destruct l' as [|x l']; [reflexivity|]. exfalso. apply Hno. destruct (proj1 (Il' x) (or_introl eq_refl)) as (A & B & C).
      destruct (H x A) as (F & G & _). exists (f x). split; auto. split; [unfold label_of in *; congruence|].
      apply (copy_counted K labels pp labels' pp' c f Hd Hr x); auto.
Qed.

Lemma F2_len (a b : list Q) : Forall2 Qeq a b -> length a = length b.
Proof. induction 1; cbn; auto. Qed.
Lemma C168_scores_full : forall K labels pp labels' pp' c f method adjust s,
  dataset K labels pp -> resampled c f labels pp labels' pp' ->
  get_label_quality_scores labels pp K method adjust = Ok s ->
  exists s', get_label_quality_scores labels' pp' K method adjust = Ok s' /\ length s' = length labels' /\
    forall e', (e' < length labels')%nat -> nth e' s' 0 == nth (f e') s 0.
Proof.
  intros K labels pp labels' pp' c f method adjust s Hd Hr E.
  pose proof (resampled_dataset K labels pp labels' pp' c f Hd Hr) as Hd'.
  pose proof (ds_len _ _ _ Hd) as L. pose proof (ds_len _ _ _ Hd') as L'. pose proof Hr as (_ & H & _).
  set (order := map f (seq 0 (length labels'))).
  assert (Ho : forall i, In i order -> (i < length labels)%nat).
  { intros i Hi. apply in_map_iff in Hi as (e' & <- & He'). apply in_seq in He'. apply H. lia. }
  assert (EL : labels' = pick 0%nat order labels).
  { unfold pick, order. rewrite map_map. apply (nth_ext _ _ 0%nat 0%nat); [now rewrite map_length, seq_length|]. intros e' He'.
    rewrite (nth_map_gen _ _ _ _ 0%nat) by (rewrite seq_length; auto). rewrite seq_nth by auto. apply (H e' He'). }
  assert (EP : pp' = pick [] order pp).
  { unfold pick, order. rewrite map_map. apply (nth_ext _ _ [] []); [now rewrite map_length, seq_length|]. intros e' He'. rewrite <- L' in He'.
    rewrite (nth_map_gen _ _ _ _ 0%nat) by (rewrite seq_length; auto). rewrite seq_nth by auto. apply (H e' He'). }
  assert (G : exists s', get_label_quality_scores labels' pp' K method adjust = Ok s' /\ Forall2 Qeq s' (pick 0 order s)).
  { unfold get_label_quality_scores in *. rewrite (ProofFilter.valid_ok K) in E by auto. rewrite (ProofFilter.valid_ok K) by auto. cbn [rbind] in *.
    destruct adjust.
    - change (compute_label_quality_scores labels pp K method true) with
        (compute_label_quality_scores labels (subtract_confident_thresholds labels pp K None) K method false) in E.
      change (compute_label_quality_scores labels' pp' K method true) with
        (compute_label_quality_scores labels' (subtract_confident_thresholds labels' pp' K None) K method false).
      assert (LS : length (subtract_confident_thresholds labels pp K None) = length pp) by apply map_length.
      apply (ProofCopies2.scores_pick K labels _ order s method) in E; [|congruence|auto].
      rewrite <- EL in E.
      apply (ProofCopies2.scores_F2 _ _ (subtract_confident_thresholds labels' pp' K None)) in E; auto.
      assert (EQ : pick [] order (subtract_confident_thresholds labels pp K None) =
        subtract_confident_thresholds [] pp' 0 (Some (get_confident_thresholds labels pp K))).
      { rewrite EP. unfold subtract_confident_thresholds. symmetry. apply ProofReorder.pick_map. intros i Hi. rewrite <- L. auto. }
      rewrite EQ. apply (ProofCopies2.adjust_F2 _ _ pp').
      apply Forall2_nth_intro with (d := 0) (d' := 0); [unfold get_confident_thresholds; now rewrite !map_length, !tab_length|]. intros k Hk. unfold get_confident_thresholds in Hk. rewrite map_length, tab_length in Hk.
      apply (thr_same K labels pp labels' pp' c f Hd Hr k Hk).
    - apply (ProofCopies2.scores_pick K labels pp order s method) in E; auto. rewrite <- EL, <- EP in E. eexists. split; [exact E|].
      generalize (pick 0 order s). clear. intros l. induction l; constructor; auto. reflexivity. }
  destruct G as (s' & E' & F). exists s'. split; auto.
  assert (LO : length order = length labels') by (unfold order; now rewrite map_length, seq_length).
  split.
  - rewrite (F2_len _ _ F). unfold pick. rewrite map_length. auto.
  - intros e' He'. rewrite (ProofBatched.Forall2_nth_Qeq _ _ e' F). unfold pick. rewrite (nth_map_gen _ _ _ _ 0%nat) by lia.
    unfold order. rewrite (nth_map_gen _ _ _ _ 0%nat) by (rewrite seq_length; auto). rewrite seq_nth by auto. reflexivity.
Qed.
