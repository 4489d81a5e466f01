(** * Lemmas about searching a cleaned dataset *)
From Coq Require Import QArith Qabs List Sorted ZArith Bool Arith Lia Lqa.
From Verif Require Import Base BaseFacts ModelUtil ModelCount ModelRank ModelFilter SpecCount SpecFilter SpecIdeal SpecTwice
  ProofUtil ProofCount ProofFilter ProofIdeal.
Import ListNotations.
Open Scope Q_scope.

Lemma kept_at : forall m (labels : list nat) (pp : list (list Q)) e', length labels = length pp -> length m = length labels ->
  (e' < length (kept m labels))%nat ->
  exists e, (e < length labels)%nat /\ ~ flagged m e /\
    label_of (kept m labels) e' = label_of labels e /\ row_of (kept m pp) e' = row_of pp e.
Proof.
  unfold flagged, label_of, row_of.
  induction m as [|b m IH]; intros [|l ls] [|r rs] e' Hl Hm He; simpl in *; try discriminate; try lia.
  destruct b; simpl in *.
  - destruct (IH ls rs e') as (e & He1 & Hf & E1 & E2); try lia. exists (S e). repeat split; auto; lia.
  - destruct e' as [|e'].
    + exists 0%nat. repeat split; auto; try lia.
    + destruct (IH ls rs e') as (e & He1 & Hf & E1 & E2); try lia. exists (S e). repeat split; auto; lia.
Qed.
Lemma kept_length {A B} : forall m (a : list A) (b : list B), length a = length b -> length (kept m a) = length (kept m b).
Proof.
  induction m as [|x m IH]; intros [|y a] [|z b] H; simpl in *; try discriminate; auto.
  destruct x; simpl; auto.
Qed.
Lemma kept_in {A} : forall m (l : list A) x, In x (kept m l) -> In x l.
Proof.
  induction m as [|b m IH]; intros [|y l] x H; simpl in *; try tauto.
  destruct b; simpl in *; intuition.
Qed.
Lemma dataset_kept K labels pp m : dataset K labels pp -> two_classes (kept m labels) ->
  dataset K (kept m labels) (kept m pp).
Proof.
  intros [H1 H2 H3 H4 H5] (a & b & Ha & Hb & _). split.
  - apply kept_length; auto.
  - intros C. rewrite C in Ha. destruct Ha.
  - intros l Hl. apply H3. eapply kept_in; eauto.
  - intros r Hr. apply H4. eapply kept_in; eauto.
  - intros r x Hr. apply H5. eapply kept_in; eauto.
Qed.
Lemma beaten_kept labels pp m e' e : label_of (kept m labels) e' = label_of labels e ->
  row_of (kept m pp) e' = row_of pp e ->
  clearly_beaten (kept m labels) (kept m pp) e' -> clearly_beaten labels pp e.
Proof.
  intros E1 E2. unfold clearly_beaten, prob_of. unfold row_of in *. rewrite E1, E2. auto.
Qed.

Lemma find_options srt labels pp K flt o m : find_label_issues srt labels pp K flt o = Ok m ->
  (is_prune flt = false -> num_to_remove_per_class o = None) /\ (1 <= n_jobs o)%nat.
Proof.
  unfold find_label_issues. destruct (assert_valid_inputs _ _ _ _); cbn [rbind]; [|discriminate].
  intros H. destruct (is_prune flt); cbn [negb andb] in H.
  - split; [discriminate|]. destruct (Nat.ltb_spec (n_jobs o) 1); [discriminate|lia].
  - destruct (num_to_remove_per_class o); [discriminate|]. split; [reflexivity|].
    destruct (Nat.ltb_spec (n_jobs o) 1); [discriminate|lia].
Qed.

Lemma count_true_none m : (forall e, ~ flagged m e) <-> count_true m = 0%nat.
Proof.
  unfold flagged. induction m as [|b m IH]; split; intros H.
  - reflexivity.
  - intros [|e]; discriminate.
  - destruct b; [destruct (H 0%nat); reflexivity|]. apply IH. intros e. apply (H (S e)).
  - destruct b; [discriminate|]. intros [|e]; [discriminate|]. apply IH. exact H.
Qed.

(** no example confidently counted elsewhere and clearly beaten: nothing to report *)
Lemma nothing srt K labels pp flt o m : argsort_ok srt -> dataset K labels pp -> two_classes labels ->
  (forall e, ~ flagged (cl_mask labels pp K) e) ->
  num_label_issues srt labels pp K = Ok 0%nat /\
  (flt = ConfidentLearning \/ flt = LowSelfConfidence \/ flt = LowNormalizedMargin ->
   find_label_issues srt labels pp K flt o = Ok m -> forall e, ~ flagged m e).
Proof.
  intros Hs Hd H2 Hnone. assert (HN : num_label_issues srt labels pp K = Ok 0%nat).
  { rewrite (num_label_issues_eq srt K) by auto. apply count_true_none in Hnone. rewrite Hnone. reflexivity. }
  split; [exact HN|]. intros Hf Hm.
  destruct (find_options _ _ _ _ _ _ _ Hm) as (Ho & Hj).
  assert (num_to_remove_per_class o = None) as Hn by (apply Ho; destruct Hf as [->|[->| ->]]; reflexivity).
  destruct Hf as [->|Hf].
  - rewrite find_cl_eq in Hm by auto. assert (m = cl_mask labels pp K) as -> by congruence. exact Hnone.
  - destruct (C14_full srt labels pp K flt o Hs Hd H2 Hn Hj Hf) as (m' & sc & N & E & _ & EN & _ & Hc & _).
    assert (m' = m) by congruence. assert (N = 0%nat) by congruence. subst. apply count_true_none. auto.
Qed.

Lemma C133_disagreements_full : forall srt K labels pp o m, argsort_ok srt -> dataset K labels pp ->
  two_classes labels -> two_classes (kept m labels) ->
  find_label_issues srt labels pp K PredictedNeqGiven o = Ok m ->
  num_label_issues srt (kept m labels) (kept m pp) K = Ok 0%nat /\
  forall flt o' m', find_label_issues srt (kept m labels) (kept m pp) K flt o' = Ok m' -> forall e, ~ flagged m' e.
Proof.
  intros srt K labels pp o m Hs Hd H2 H2' Hm.
  destruct (find_options _ _ _ _ _ _ _ Hm) as (Ho & Hj).
  destruct (C07_pneq_full srt K labels pp o Hs Hd H2 (Ho eq_refl) Hj) as (m0 & E & Hl & Hf).
  assert (m0 = m) by congruence. subst m0.
  pose proof (dataset_kept K labels pp m Hd H2') as Hd'.
  assert (Hnb : forall e, (e < length (kept m labels))%nat -> ~ clearly_beaten (kept m labels) (kept m pp) e).
  { intros e' He Hb. destruct (kept_at m labels pp e' (ds_len _ _ _ Hd) Hl He) as (e & He1 & Hnf & E1 & E2).
    apply Hnf, Hf. split; auto. eapply beaten_kept; eauto. }
  assert (Hnone : forall e, ~ flagged (cl_mask (kept m labels) (kept m pp) K) e).
  { intros e He. apply cl_flagged_iff in He as (He & _ & Hb); auto. eapply Hnb; eauto. }
  split.
  - apply (nothing srt K _ _ ConfidentLearning o m); auto.
  - intros flt o' m' Hm' e He. destruct (is_low flt) eqn:El.
    + eapply (nothing srt K _ _ flt o' m'); eauto. destruct flt; try discriminate; auto.
    + assert ((e < length (kept m labels))%nat).
      { rewrite <- (find_length srt _ _ K flt o' m' (ds_len _ _ _ Hd') Hm').
        apply Nat.nle_gt. intros C. unfold flagged in He. rewrite nth_overflow in He by exact C. discriminate. }
      destruct (find_marked srt _ _ K flt o' m' Hd' El Hm') as (r & _ & _ & _ & Hfm).
      apply Hfm in He; auto. destruct He as (_ & Hb). eapply Hnb; eauto.
Qed.

Lemma C133_separating_full : forall srt K labels tl pp o m, argsort_ok srt -> dataset K labels pp ->
  two_classes labels -> two_classes (kept m labels) -> ideal K labels tl pp ->
  find_label_issues srt labels pp K ConfidentLearning o = Ok m ->
  num_label_issues srt (kept m labels) (kept m pp) K = Ok 0%nat /\
  forall flt o' m', find_label_issues srt (kept m labels) (kept m pp) K flt o' = Ok m' -> forall e, ~ flagged m' e.
Proof.
  intros srt K labels tl pp o m Hs Hd H2 H2' Hi Hm.
  destruct (find_options _ _ _ _ _ _ _ Hm) as (Ho & Hj).
  destruct (C131_issues_full srt K labels tl pp o Hs Hd H2 Hi (Ho eq_refl) Hj) as (_ & H).
  destruct (H ConfidentLearning) as (m1 & E1 & L1 & F1); auto.
  destruct (H PredictedNeqGiven) as (m2 & E2 & L2 & F2); auto.
  assert (m1 = m) by congruence. subst m1.
  assert (m2 = m).
  { apply (nth_ext _ _ false false); [congruence|]. intros e _. specialize (F1 e). specialize (F2 e).
    unfold flagged in F1, F2. destruct (nth e m2 false), (nth e m false); auto.
    - symmetry. apply F1, F2. reflexivity.
    - apply F2, F1. reflexivity. }
  subst m2. eapply C133_disagreements_full; eauto.
Qed.

(** ** two classes *)
Lemma binary_flagged labels pp e : dataset 2 labels pp ->
  flagged (cl_mask labels pp 2) e <->
  (e < length labels)%nat /\ clearly_beaten labels pp e /\
  nth (1 - label_of labels e) (get_confident_thresholds labels pp 2) 0 - (1 # 1000000) <= prob_of pp e (1 - label_of labels e).
Proof.
  intros Hd. rewrite cl_flagged_iff by auto. pose proof Hd as [Hlen Hne Hlab Hrow Hprob].
  set (thr := get_confident_thresholds labels pp 2).
  assert (Hr : (e < length labels)%nat -> length (row_of pp e) = 2%nat).
  { intros He. apply Hrow. apply nth_In. lia. }
  assert (Hl : (e < length labels)%nat -> (label_of labels e < 2)%nat).
  { intros He. apply Hlab. apply nth_In. lia. }
  split.
  - intros (He & (j & Hc & Hj) & Hb). split; [auto|]. split; [auto|]. specialize (Hr He). specialize (Hl He).
    assert (Hrj : reaches thr (row_of pp e) (1 - label_of labels e)).
    { destruct Hc as [(Hc & _)|((a & b & Hab & Ha & Hb') & (Hj2 & _))].
      - assert (j = 1 - label_of labels e)%nat as <- by (destruct Hc; lia). exact Hc.
      - pose proof Ha as (Ha1 & _). pose proof Hb' as (Hb1 & _).
        assert (a = 1 - label_of labels e \/ b = 1 - label_of labels e)%nat as [<-|<-] by lia; auto. }
    apply Hrj.
  - intros (He & Hb & Ht). split; [auto|]. split; [|auto]. specialize (Hr He). specialize (Hl He).
    set (o := (1 - label_of labels e)%nat) in *.
    assert (Ho : (o < 2)%nat) by (unfold o; lia).
    assert (Hne' : o <> label_of labels e) by (unfold o; lia).
    exists o. split; [|exact Hne'].
    assert (Hro : reaches thr (row_of pp e) o) by (split; [lia|exact Ht]).
    destruct (Qlt_le_dec (nth (label_of labels e) (row_of pp e) 0) (nth (label_of labels e) thr 0 - (1 # 1000000))) as [Hn|Hy].
    + left. split; [auto|]. intros i (Hi & Hi2).
      assert (i = o \/ i = label_of labels e) as [->| ->] by (unfold o; lia); auto. lra.
    + right. split.
      { exists o, (label_of labels e). repeat split; auto; lia. }
      assert (Hlt : nth (label_of labels e) (row_of pp e) 0 < nth o (row_of pp e) 0).
      { destruct Hb as (j & Hj & Hb). unfold prob_of in Hb. fold (row_of pp e) in Hb.
        assert (j = o \/ j = label_of labels e) as [->| ->] by (unfold o; lia).
        - destruct Hb as [Hb|(_ & Hb)]; lra.
        - destruct Hb as [Hb|(C & _)]; [lra|lia]. }
      split; [lia|]. split.
      * intros i Hi. assert (i = o \/ i = label_of labels e) as [->| ->] by (unfold o; lia); lra.
      * intros i Hi. assert (i = label_of labels e) as -> by (unfold o in *; lia). exact Hlt.
Qed.

Lemma own_split j c : forall m labels pp, length labels = length pp -> length m = length labels ->
  (forall e, (e < length labels)%nat -> label_of labels e = j -> flagged m e -> prob_of pp e j <= c) ->
  qsum (own_probs j labels pp) <=
    qsum (own_probs j (kept m labels) (kept m pp)) +
    c * (Qnat (length (own_probs j labels pp)) - Qnat (length (own_probs j (kept m labels) (kept m pp)))).
Proof.
  induction m as [|b m IH]; intros [|l ls] [|r rs] Hl Hm H; simpl in Hl, Hm; try discriminate.
  - simpl. lra.
  - assert (IH' := IH ls rs ltac:(lia) ltac:(lia) (fun e He => H (S e) ltac:(simpl; lia))).
    pose proof (H 0%nat ltac:(simpl; lia)) as H0. unfold flagged, label_of, prob_of in H0. simpl in H0.
    cbn [kept own_probs]. destruct (Nat.eqb_spec l j) as [->|Hne]; destruct b; cbn [own_probs].
    + specialize (H0 eq_refl eq_refl). cbn [length]. rewrite Qnat_S. cbn [qsum]. unfold qsum in *. cbn [fold_right]. lra.
    + rewrite Nat.eqb_refl. cbn [length]. rewrite !Qnat_S. unfold qsum in *. cbn [fold_right]. lra.
    + exact IH'.
    + destruct (Nat.eqb_spec l j); [congruence|]. exact IH'.
Qed.
Lemma own_in j : forall labels pp x, length labels = length pp -> In x (own_probs j labels pp) ->
  exists e, (e < length labels)%nat /\ label_of labels e = j /\ x = prob_of pp e j.
Proof.
  induction labels as [|l ls IH]; intros [|r rs] x Hl Hx; simpl in *; try discriminate; try tauto.
  destruct (Nat.eqb_spec l j) as [->|Hne].
  - destruct Hx as [<-|Hx].
    + exists 0%nat. repeat split; auto. lia.
    + destruct (IH rs x) as (e & He & E1 & E2); auto. exists (S e). repeat split; auto. lia.
  - destruct (IH rs x) as (e & He & E1 & E2); auto. exists (S e). repeat split; auto. lia.
Qed.

Lemma threshold_up labels pp m j c : dataset 2 labels pp -> length m = length labels -> (j < 2)%nat ->
  two_classes (kept m labels) -> In j (kept m labels) ->
  (forall e, (e < length labels)%nat -> label_of labels e = j -> flagged m e -> prob_of pp e j <= c) ->
  (forall e, (e < length labels)%nat -> label_of labels e = j -> ~ flagged m e -> c <= prob_of pp e j) ->
  nth j (get_confident_thresholds labels pp 2) 0 <= nth j (get_confident_thresholds (kept m labels) (kept m pp) 2) 0.
Proof.
  intros Hd Hm Hj H2 Hin Hlo Hhi. pose proof (dataset_kept 2 labels pp m Hd H2) as Hd'.
  pose proof (ds_len _ _ _ Hd) as Hl. pose proof (ds_len _ _ _ Hd') as Hl'.
  destruct (thresholds_spec labels pp 2 j Hl Hj) as (Ha & _).
  destruct (thresholds_spec _ _ 2 j Hl' Hj) as (Ha' & _).
  destruct (Ha (kept_in _ _ _ Hin)) as (a & (Hane & Hav) & ->).
  destruct (Ha' Hin) as (a' & (Hane' & Hav') & ->).
  pose proof (own_split j c m labels pp Hl Hm Hlo) as Hs.
  assert (c <= a').
  { apply (average_bounds (own_probs j (kept m labels) (kept m pp)) a' c 1); [split; auto|].
    intros x Hx. destruct (own_in j _ _ _ Hl' Hx) as (e' & He & E1 & ->).
    destruct (kept_at m labels pp e' Hl Hm He) as (e & He1 & Hnf & E2 & E3).
    unfold prob_of. fold (row_of (kept m pp) e'). rewrite E3.
    split; [apply Hhi; auto; congruence|].
    apply (ds_prob _ _ _ Hd (row_of pp e)); [apply nth_In; lia|]. apply nth_In.
    rewrite (ds_row _ _ _ Hd (row_of pp e)); auto. apply nth_In. lia. }
  assert (0 < Qnat (length (own_probs j labels pp))).
  { apply Qnat_pos. destruct (own_probs j labels pp); [congruence|simpl; lia]. }
  assert (Hle : (length (own_probs j (kept m labels) (kept m pp)) <= length (own_probs j labels pp))%nat).
  { clear - Hl Hm. revert labels pp Hl Hm. induction m as [|b m IH]; intros [|l ls] [|r rs] Hl Hm; simpl in *; try discriminate; auto.
    specialize (IH ls rs ltac:(lia) ltac:(lia)).
    destruct b, (Nat.eqb_spec l j); simpl; try lia; subst; rewrite ?Nat.eqb_refl; simpl; try lia.
    destruct (Nat.eqb_spec l j); [congruence|]. lia. }
  assert (Hd0 : 0 <= Qnat (length (own_probs j labels pp)) - Qnat (length (own_probs j (kept m labels) (kept m pp)))).
  { apply Qnat_le in Hle. lra. }
  assert (a <= a').
  { set (n := Qnat (length (own_probs j labels pp))) in *.
    set (n' := Qnat (length (own_probs j (kept m labels) (kept m pp)))) in *.
    assert (c * (n - n') <= a' * (n - n')) by (apply Qmult_le_compat_r; auto).
    apply (Qmult_le_r _ _ n); auto. lra. }
  unfold qmax. repeat match goal with |- context [Qle_bool ?x ?y] => destruct (Qle_bool x y) eqn:?E end;
    rewrite ?Qle_bool_iff in *; try lra.
  all: repeat match goal with H : Qle_bool _ _ = false |- _ =>
         apply not_true_iff_false in H; rewrite Qle_bool_iff in H; apply Qnot_le_lt in H end; lra.
Qed.

Lemma C133_binary_full : forall srt labels pp o m, argsort_ok srt -> dataset 2 labels pp -> rows_sum_to_one pp ->
  two_classes labels -> two_classes (kept m labels) ->
  find_label_issues srt labels pp 2 ConfidentLearning o = Ok m ->
  num_label_issues srt (kept m labels) (kept m pp) 2 = Ok 0%nat /\
  forall flt o' m', flt = ConfidentLearning \/ flt = LowSelfConfidence \/ flt = LowNormalizedMargin ->
    find_label_issues srt (kept m labels) (kept m pp) 2 flt o' = Ok m' -> forall e, ~ flagged m' e.
Proof.
  intros srt labels pp o m Hs Hd H1 H2 H2' Hm.
  destruct (find_options _ _ _ _ _ _ _ Hm) as (Ho & Hj).
  assert (Hl : length m = length labels) by (eapply find_length; eauto; apply Hd).
  rewrite find_cl_eq in Hm by auto. assert (Em : m = cl_mask labels pp 2) by congruence.
  pose proof (dataset_kept 2 labels pp m Hd H2') as Hd'.
  assert (Hsum : forall e, (e < length labels)%nat -> prob_of pp e 0 + prob_of pp e 1 == 1).
  { intros e He. pose proof (ds_len _ _ _ Hd) as L. unfold prob_of.
    assert (Hi : In (nth e pp []) pp) by (apply nth_In; lia).
    pose proof (H1 _ Hi) as S. pose proof (ds_row _ _ _ Hd _ Hi) as Lr.
    destruct (nth e pp []) as [|x [|y [|z r]]]; try discriminate. unfold qsum in S. simpl in S. simpl. lra. }
  assert (Hlab : forall e, (e < length labels)%nat -> (label_of labels e < 2)%nat).
  { intros e He. apply (ds_lab _ _ _ Hd). apply nth_In. lia. }
  assert (Hin : forall j, (j < 2)%nat -> In j (kept m labels)).
  { intros j Hj2. destruct H2' as (a & b & Ha & Hb & Hab).
    pose proof (ds_lab _ _ _ Hd' a Ha). pose proof (ds_lab _ _ _ Hd' b Hb).
    assert (j = a \/ j = b) as [->| ->] by lia; auto. }
  assert (Hup : forall j, (j < 2)%nat -> nth j (get_confident_thresholds labels pp 2) 0 <=
            nth j (get_confident_thresholds (kept m labels) (kept m pp) 2) 0).
  { intros j Hj2. set (o1 := (1 - j)%nat). set (t := nth o1 (get_confident_thresholds labels pp 2) 0).
    assert (Hcase : forall e, (e < length labels)%nat -> label_of labels e = j ->
       prob_of pp e j + prob_of pp e o1 == 1).
    { intros e He _. unfold o1. specialize (Hsum e He). destruct j as [|[|]]; try lia; simpl; lra. }
    assert (HF : forall e, (e < length labels)%nat -> label_of labels e = j -> flagged m e ->
       prob_of pp e j <= 1 - t + (1 # 1000000) /\ prob_of pp e j <= (1 - (1 # 1000000)) * (1 # 2)).
    { intros e He El Hf. specialize (Hcase e He El). rewrite Em in Hf.
      apply binary_flagged in Hf as (_ & (i & Hi & Hb) & Ht); auto. rewrite El in *. fold o1 in Ht. fold t in Ht.
      split; [lra|]. pose proof (ds_len _ _ _ Hd) as L.
      rewrite (ds_row _ _ _ Hd (row_of pp e)) in Hi by (apply nth_In; lia).
      assert (i = o1 \/ i = j) as [->| ->] by (unfold o1; lia).
      - destruct Hb as [Hb|(_ & Hb)]; lra.
      - destruct Hb as [Hb|(C & _)]; [lra|lia]. }
    assert (HU : forall e, (e < length labels)%nat -> label_of labels e = j -> ~ flagged m e ->
       1 - t + (1 # 1000000) <= prob_of pp e j \/ (1 - (1 # 1000000)) * (1 # 2) <= prob_of pp e j).
    { intros e He El Hf. specialize (Hcase e He El).
      destruct (Qlt_le_dec (prob_of pp e o1) (t - (1 # 1000000))) as [Hn|Hy]; [left; lra|].
      destruct (Qlt_le_dec (prob_of pp e j + (1 # 1000000)) (prob_of pp e o1)) as [Hb|Hb]; [|right; lra].
      exfalso. apply Hf. rewrite Em. apply binary_flagged; auto. rewrite El. split; [auto|]. split; [|exact Hy].
      exists o1. rewrite El. pose proof (ds_len _ _ _ Hd) as L.
      rewrite (ds_row _ _ _ Hd (row_of pp e)) by (apply nth_In; lia). split; [unfold o1; lia|]. left. exact Hb. }
    destruct (Qlt_le_dec (1 - t + (1 # 1000000)) ((1 - (1 # 1000000)) * (1 # 2))).
    - apply (threshold_up labels pp m j (1 - t + (1 # 1000000))); auto.
      + intros e He El Hf. apply HF; auto.
      + intros e He El Hf. destruct (HU e He El Hf); lra.
    - apply (threshold_up labels pp m j ((1 - (1 # 1000000)) * (1 # 2))); auto.
      + intros e He El Hf. apply HF; auto.
      + intros e He El Hf. destruct (HU e He El Hf); lra. }
  assert (Hnone : forall e, ~ flagged (cl_mask (kept m labels) (kept m pp) 2) e).
  { intros e' He'. apply binary_flagged in He' as (He & Hb & Ht); auto.
    destruct (kept_at m labels pp e' (ds_len _ _ _ Hd) Hl He) as (e & He1 & Hnf & E1 & E2).
    apply Hnf. rewrite Em. apply binary_flagged; auto. split; [auto|]. split; [eapply beaten_kept; eauto|].
    rewrite E1 in Ht. unfold prob_of in *. unfold row_of in E2. rewrite E2 in Ht.
    pose proof (Hup (1 - label_of labels e)%nat ltac:(lia)). rewrite <- Em in *. lra. }
  split.
  - apply (nothing srt 2 _ _ ConfidentLearning o m); auto.
  - intros flt o' m' Hf Hm'. eapply (nothing srt 2 _ _ flt o' m'); eauto.
Qed.
