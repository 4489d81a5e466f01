(** * Proofs about what the batched search flags *)
From Coq Require Import QArith Qabs Qround List Permutation Sorted ZArith Bool Arith Lia Lqa Setoid Morphisms.
From Verif Require Import Base BaseFacts ModelUtil ModelCount ModelRank ModelPool ModelFilter ModelBatched
     SpecCount SpecFilter SpecBatched SpecBatchFlags ProofUtil ProofCount ProofFilter ProofRank ProofBatched.
Import ListNotations.
Open Scope Q_scope.

Lemma batched_inv srt labels pp K c method adjust calibrated js m : dataset K labels pp ->
  find_label_issues_batched srt labels pp K c method adjust calibrated js = Ok m ->
  (1 <= c)%nat /\ exists st,
    inspect K method adjust calibrated (split_batches c labels pp)
      (combine (split_batches c labels pp) (map js (seq 0 (length (split_batches c labels pp))))) = Ok st /\
    issues_mask srt K calibrated labels pp st = Ok m.
Proof.
  intros [Hlen _ _ _ _]. unfold find_label_issues_batched. rewrite Hlen, Nat.eqb_refl. cbn [negb].
  destruct (Nat.eqb_spec c 0); [discriminate|]. split; [lia|].
  destruct (inspect _ _ _ _ _ _) as [st|] eqn:E; [|discriminate]. cbn [rbind] in *. eauto.
Qed.

Lemma reduce_length K labels pp : dataset K labels pp -> length (reduce_issues pp labels) = length labels.
Proof. intros [Hlen _ _ _ _]. unfold reduce_issues. rewrite map_length, combine_length. lia. Qed.

Lemma mask_inv srt K calibrated labels pp st m : dataset K labels pp ->
  issues_mask srt K calibrated labels pp st = Ok m ->
  exists n, get_num_issues K calibrated st = Ok n /\ length m = length labels /\
    forall e, flagged m e <-> (e < length labels)%nat /\ In e (find_top_issues srt (quality_scores st) (Some n)) /\
                              clearly_beaten labels pp e.
Proof.
  intros Hd. unfold issues_mask, get_label_issues.
  destruct (Nat.ltb _ _); [discriminate|].
  destruct (get_num_issues K calibrated st) as [n|]; [|discriminate]. cbn [rbind]. intros H. injection H as <-.
  pose proof (reduce_length K labels pp Hd) as Hr.
  exists n. split; [reflexivity|]. split.
  { rewrite clear_where_length; rewrite mask_of_length; auto. }
  intros e. unfold flagged. rewrite clear_where_nth by (rewrite mask_of_length; auto).
  rewrite andb_true_iff, mask_of_flag, negb_true_iff. split.
  - intros ((He & Hin) & Hb). split; [auto|]. split; [auto|]. apply (reduce_false_iff K); auto.
  - intros (He & Hin & Hb). split; auto. apply (reduce_false_iff K); auto.
Qed.

Lemma beaten_full : forall srt labels pp K batch_size method adjust calibrated js m e,
  dataset K labels pp ->
  find_label_issues_batched srt labels pp K batch_size method adjust calibrated js = Ok m ->
  flagged m e -> clearly_beaten labels pp e.
Proof.
  intros srt labels pp K c method adjust calibrated js m e Hd H Hf.
  apply batched_inv in H as (_ & st & _ & Hm); auto. apply (mask_inv srt K calibrated) in Hm as (n & _ & _ & Hfl); auto.
  apply Hfl in Hf. tauto.
Qed.

Lemma holds_count {X} (d : X) (p : X -> bool) (P : nat -> Prop) (l : list X) :
  (forall e, (e < length l)%nat -> p (nth e l d) = true <-> P e) ->
  holds_for (length l) P (count_true (map p l)).
Proof.
  intros H. exists (filter (fun e => p (nth e l d)) (seq 0 (length l))).
  split; [apply NoDup_filter, seq_NoDup|]. split.
  - clear H. rewrite count_true_map. induction l as [|x l IH]; auto.
    cbn [length seq filter nth]. rewrite filter_seq_shift. cbn [nth].
    destruct (p x); cbn [length]; rewrite map_length, IH; reflexivity.
  - intros i. rewrite filter_In, in_seq. split.
    + intros (Hi & Hp). split; [lia|]. apply H; auto; lia.
    + intros (Hi & Hp). split; [lia|]. apply H; auto.
Qed.

Lemma flags_full : forall srt labels pp K batch_size method js m,
  argsort_ok srt -> dataset K labels pp -> (2 <= K)%nat -> own_prob_floor labels pp ->
  find_label_issues_batched srt labels pp K batch_size method false false js = Ok m ->
  exists scores n idx,
    get_label_quality_scores labels pp K method false = Ok scores /\
    holds_for (length labels) (confidently_other labels pp) n /\
    n_lowest scores n idx /\
    length m = length labels /\
    forall e, flagged m e <-> In e idx /\ clearly_beaten labels pp e.
Proof.
  intros srt labels pp K c method js m Hs Hd HK Hfl H. pose proof Hd as [Hlen Hne Hlab Hrow _].
  apply batched_inv in H as (Hc & st & E & Hm); auto.
  destruct (split_batches_split labels pp c Hc Hlen) as (Hsp & _).
  assert (Em : map fst (combine (split_batches c labels pp) (map js (seq 0 (length (split_batches c labels pp))))) = split_batches c labels pp)
    by (apply map_fst_combine; rewrite map_length, seq_length; auto).
  apply (inspect_canon K false method false _ _ labels pp) in E as (t & Et & ->); auto;
    [|refine (eq_ind_r (fun z => is_split labels pp z) Hsp Em)|intros; left; reflexivity].
  apply (mask_inv srt K false) in Hm as (n & Hn & HL & Hf); auto.
  destruct (scores_ok K labels pp method false) as (s & Hsc & HsL); auto.
  assert (Hq : quality_scores (canon K false method false t (combine labels pp)) = s).
  { cbn [canon quality_scores]. symmetry. apply batch_scores_map.
    revert Hsc. unfold get_label_quality_scores. destruct (assert_valid_inputs _ _ _ _); [|discriminate]. cbn [rbind].
    unfold compute_label_quality_scores, batch_scores. auto. }
  rewrite Hq in Hf.
  assert (En : n = count_true (map (fun lr => counts_as_issue (confident_thresholds t) (fst lr) (snd lr)) (combine labels pp))).
  { revert Hn. unfold get_num_issues. destruct (Nat.ltb _ _); [discriminate|]. cbn [canon prune_count]. congruence. }
  pose proof (thr_full K labels pp _ t Hsp Hlab Hne Et) as Ht.
  pose proof (floor_means labels pp _ Hsp Hfl) as Hmo.
  exists s, n, (find_top_issues srt s (Some n)). split; [auto|]. split; [|split; [|split; [auto|]]].
  - rewrite En. assert (length labels = length (combine labels pp)) as -> by (rewrite combine_length; lia).
    apply (holds_count (0%nat, [])). intros e He. rewrite combine_length in He.
    assert (He' : (e < length labels)%nat) by lia.
    rewrite combine_nth by auto. cbn [fst snd]. fold (row_of pp e). fold (label_of labels e).
    assert (HrL : length (row_of pp e) = K) by (apply Hrow, nth_In; lia).
    assert (Hrne : row_of pp e <> []) by (intros C; rewrite C in HrL; simpl in HrL; lia).
    destruct (argmax_spec _ Hrne) as (A1 & A2 & A3).
    assert (HA : most_likely (row_of pp e) (argmax (row_of pp e))) by (split; auto).
    unfold counts_as_issue, confident_prediction. rewrite andb_true_iff, negb_true_iff, Nat.eqb_neq, Qleb_iff.
    assert (Hj : (argmax (row_of pp e) < K)%nat) by lia.
    destruct (Ht _ Hj) as (T1 & T2).
    assert (HT : forall u, class_threshold labels pp (argmax (row_of pp e)) u <-> u == nth (argmax (row_of pp e)) (confident_thresholds t) 0).
    { intros u. set (j := argmax (row_of pp e)) in *. destruct (in_dec Nat.eq_dec j labels) as [Hin|Hin].
      - destruct (T1 Hin) as (T1a & T1b). rewrite (floored_means_ok labels pp) in T1a by auto.
        pose proof (n_labelled_pos j labels) as Hpos. apply Hpos in Hin as Hp.
        assert (0 < Qnat (n_labelled j labels)) by (apply Qnat_pos; lia).
        assert (Hne' : own_probs j labels pp <> []).
        { intros C. rewrite <- (own_probs_length j labels pp Hlen), C in Hp. simpl in Hp. lia. }
        split.
        + intros (U & _). destruct (U Hin) as (_ & Ha). rewrite own_probs_length in Ha by auto.
          rewrite <- T1a in Ha. apply Qmult_inj_r in Ha; auto. lra.
        + intros Hu. split; [|tauto]. intros _. split; auto. rewrite own_probs_length by auto. rewrite Hu. auto.
      - split.
        + intros (_ & U). rewrite U, T2 by auto. reflexivity.
        + intros Hu. split; [tauto|]. intros _. rewrite Hu. auto. }
    unfold FLOATING_POINT_COMPARISON. split.
    + intros (H1 & H2). exists (argmax (row_of pp e)), (nth (argmax (row_of pp e)) (confident_thresholds t) 0).
      split; [auto|]. split; [auto|]. split; [apply HT; reflexivity|]. exact H1.
    + intros (j & u & M & Hjl & U & Hle).
      assert (j = argmax (row_of pp e)) as ->.
      { destruct M as (M1 & M2 & M3). destruct (Nat.lt_trichotomy j (argmax (row_of pp e))) as [L|[L|L]]; auto; exfalso.
        - specialize (A3 _ L). specialize (M2 _ A1). lra.
        - specialize (M3 _ L). specialize (A2 _ M1). lra. }
      apply HT in U. split; auto. rewrite <- U. exact Hle.
  - destruct (C17_full srt s (Some n) Hs) as (F1 & F2 & F3 & _ & F5). split; [auto|]. split; [auto|]. split; auto.
  - intros e. rewrite Hf. destruct (C17_full srt s (Some n) Hs) as (_ & _ & F3 & _). split; [tauto|].
    intros (Hi & Hb). split; auto. specialize (F3 e Hi). lia.
Qed.

Lemma rejects_full : forall K st labels pp, length labels <> length pp ->
  update_confident_thresholds K st (labels, pp) = Raise ValueError /\
  (forall method adjust calibrated j, score_label_quality K method adjust calibrated j st (labels, pp) = Raise ValueError) /\
  (forall srt batch_size method adjust calibrated js,
     find_label_issues_batched srt labels pp K batch_size method adjust calibrated js = Raise ValueError).
Proof.
  intros K st labels pp H. unfold update_confident_thresholds, score_label_quality, find_label_issues_batched, batch_check.
  cbn [fst snd]. apply Nat.eqb_neq in H. rewrite H. cbn [negb rbind]. auto.
Qed.
