(** * Proofs for property C163 *)
From Coq Require Import QArith Qabs Qround List Permutation Sorted ZArith Bool Arith Lia Lqa.
From Verif Require Import Base BaseFacts ModelUtil ModelCount ModelRank ModelPool ModelFilter ModelBatched
     SpecCount SpecFilter SpecRank SpecBatched SpecBatchFlags SpecApprox ProofUtil ProofCount ProofFilter ProofRank ProofBatched ProofBatchFlags ProofIdeal.
Import ListNotations.
Open Scope Q_scope.

(** ** the state of the inspector after the whole data set, in any batches *)
Lemma inspect_count K method labels pp bs sbs st : dataset K labels pp -> (2 <= K)%nat -> own_prob_floor labels pp ->
  is_split labels pp bs -> is_split labels pp (map fst sbs) ->
  inspect K method false false bs sbs = Ok st ->
  exists scores n, get_label_quality_scores labels pp K method false = Ok scores /\ quality_scores st = scores /\
    get_num_issues K false st = Ok n /\ holds_for (length labels) (confidently_other labels pp) n.
Proof.
  intros Hd HK Hfl Hsp Hss E. pose proof Hd as [Hlen Hne Hlab Hrow _].
  apply (inspect_canon K false method false _ _ labels pp) in E as (t & Et & ->); auto; [|intros; left; reflexivity].
  destruct (scores_ok K labels pp method false) as (s & Hsc & HsL); auto.
  assert (Hq : quality_scores (canon K false method false t (combine labels pp)) = s).
  { cbn [canon quality_scores]. symmetry. apply batch_scores_map.
    revert Hsc. unfold get_label_quality_scores. destruct (assert_valid_inputs _ _ _ _); [|discriminate]. cbn [rbind].
    unfold compute_label_quality_scores, batch_scores. auto. }
  pose proof (thr_full K labels pp _ t Hsp Hlab Hne Et) as Ht.
  pose proof (floor_means labels pp _ Hsp Hfl) as Hmo.
  exists s, (count_true (map (fun lr => counts_as_issue (confident_thresholds t) (fst lr) (snd lr)) (combine labels pp))).
  split; [auto|]. split; [auto|]. split.
  { unfold get_num_issues. cbn [canon examples_processed_quality prune_count].
    destruct (Nat.ltb_spec (length (combine labels pp)) 1) as [L|L]; [|reflexivity].
    rewrite combine_length, <- Hlen, Nat.min_id in L. destruct labels; [congruence|]. simpl in L. lia. }
  assert (length labels = length (combine labels pp)) as -> by (rewrite combine_length; lia).
  apply (holds_count (0%nat, [])). intros e He. rewrite combine_length in He.
  assert (He' : (e < length labels)%nat) by lia.
  rewrite combine_nth by auto. cbn [fst snd]. fold (row_of pp e). fold (label_of labels e).
  assert (HrL : length (row_of pp e) = K) by (apply Hrow, nth_In; lia).
  assert (Hrne : row_of pp e <> []) by (intros C; rewrite C in HrL; simpl in HrL; lia).
  destruct (argmax_spec _ Hrne) as (A1 & A2 & A3).
  assert (HA : most_likely (row_of pp e) (argmax (row_of pp e))) by (split; auto).
  unfold counts_as_issue, confident_prediction. rewrite andb_true_iff, negb_true_iff, Nat.eqb_neq, Qleb_iff.
  assert (Hj : (argmax (row_of pp e) < K)%nat) by lia.
  destruct (Ht _ Hj) as (T1 & T2).
  assert (HT : forall u, class_threshold labels pp (argmax (row_of pp e)) u <-> u == nth (argmax (row_of pp e)) (confident_thresholds t) 0).
  { intros u. set (j := argmax (row_of pp e)) in *. destruct (in_dec Nat.eq_dec j labels) as [Hin|Hin].
    - destruct (T1 Hin) as (T1a & T1b). rewrite (floored_means_ok labels pp) in T1a by auto.
      pose proof (n_labelled_pos j labels) as Hpos. apply Hpos in Hin as Hp.
      assert (0 < Qnat (n_labelled j labels)) by (apply Qnat_pos; lia).
      assert (Hne' : own_probs j labels pp <> []).
      { intros C. rewrite <- (own_probs_length j labels pp Hlen), C in Hp. simpl in Hp. lia. }
      split.
      + intros (U & _). destruct (U Hin) as (_ & Ha). rewrite own_probs_length in Ha by auto.
        rewrite <- T1a in Ha. apply Qmult_inj_r in Ha; auto. lra.
      + intros Hu. split; [|tauto]. intros _. split; auto. rewrite own_probs_length by auto. rewrite Hu. auto.
    - split.
      + intros (_ & U). rewrite U, T2 by auto. reflexivity.
      + intros Hu. split; [tauto|]. intros _. rewrite Hu. auto. }
  unfold FLOATING_POINT_COMPARISON. split.
  + intros (H1 & H2). exists (argmax (row_of pp e)), (nth (argmax (row_of pp e)) (confident_thresholds t) 0).
    split; [auto|]. split; [auto|]. split; [apply HT; reflexivity|]. exact H1.
  + intros (j & u & M & Hjl & U & Hle).
    assert (j = argmax (row_of pp e)) as ->.
    { destruct M as (M1 & M2 & M3). destruct (Nat.lt_trichotomy j (argmax (row_of pp e))) as [L|[L|L]]; auto; exfalso.
      - specialize (A3 _ L). specialize (M2 _ A1). lra.
      - specialize (M3 _ L). specialize (A2 _ M1). lra. }
    apply HT in U. split; auto. rewrite <- U. exact Hle.
Qed.

Lemma flags_exact srt labels pp K c method js m :
  dataset K labels pp -> (2 <= K)%nat -> own_prob_floor labels pp ->
  find_label_issues_batched srt labels pp K c method false false js = Ok m ->
  exists scores n,
    get_label_quality_scores labels pp K method false = Ok scores /\
    holds_for (length labels) (confidently_other labels pp) n /\ length m = length labels /\
    forall e, flagged m e <-> (e < length labels)%nat /\ In e (find_top_issues srt scores (Some n)) /\ clearly_beaten labels pp e.
Proof.
  intros Hd HK Hfl H. pose proof Hd as [Hlen Hne Hlab Hrow _].
  apply batched_inv in H as (Hc & st & E & Hm); auto.
  destruct (split_batches_split labels pp c Hc Hlen) as (Hsp & _).
  assert (Em : map fst (combine (split_batches c labels pp) (map js (seq 0 (length (split_batches c labels pp))))) = split_batches c labels pp)
    by (apply map_fst_combine; rewrite map_length, seq_length; auto).
  apply (inspect_count K method labels pp) in E as (s & n & Hsc & Hq & Hn & Hh); auto;
    [|refine (eq_ind_r (fun z => is_split labels pp z) Hsp Em)].
  apply (mask_inv srt K false) in Hm as (n' & Hn' & HL & Hf); auto.
  rewrite Hn in Hn'. injection Hn' as <-. rewrite Hq in Hf. exists s, n. auto.
Qed.

(** ** the two thresholds agree *)
Lemma thr_average K labels pp j : dataset K labels pp -> own_prob_floor labels pp -> (j < K)%nat -> In j labels ->
  forall t, class_threshold labels pp j t <-> t == nth j (get_confident_thresholds labels pp K) 0.
Proof.
  intros Hd Hfl Hj Hin t. destruct (thresholds_full K labels pp j Hd Hj) as (H & _).
  destruct (H Hin) as (a & (Hne & Ha) & Ht & Hb). clear H.
  assert (2 # 1000000 <= a).
  { apply (Hb (2 # 1000000) 1). intros x Hx.
    assert (G : forall ls rs, length ls = length rs -> (forall e, (e < length ls)%nat -> 2 # 1000000 <= nth (nth e ls 0%nat) (nth e rs []) 0) ->
              (forall r y, In r rs -> In y r -> 0 <= y /\ y <= 1) ->
              In x (own_probs j ls rs) -> 2 # 1000000 <= x /\ x <= 1).
    { clear. induction ls as [|l ls IH]; intros [|r rs] Hl Hf Hp; simpl in *; try tauto; try discriminate.
      assert (In x (own_probs j ls rs) -> 2 # 1000000 <= x /\ x <= 1).
      { apply IH; [lia| |intros; eapply Hp; eauto]. intros e He. apply (Hf (S e)). lia. }
      destruct (Nat.eqb_spec l j); auto. intros [<-|Hx]; auto. subst l.
      specialize (Hf 0%nat ltac:(lia)). simpl in Hf. split; auto.
      destruct (Nat.lt_ge_cases j (length r)) as [L|L]; [apply (Hp r); auto; apply nth_In; auto|].
      rewrite nth_overflow by auto. lra. }
    apply (G labels pp); auto; apply Hd. }
  assert (nth j (get_confident_thresholds labels pp K) 0 == a) as ->.
  { rewrite Ht. unfold qmax. destruct (Qle_bool a (2 # 1000000)) eqn:E; [|reflexivity]. apply Qle_bool_iff in E. lra. }
  split.
  - intros (U & _). destruct (U Hin) as (_ & Hu). rewrite <- Ha in Hu.
    assert (0 < Qnat (length (own_probs j labels pp))).
    { apply Qnat_pos. destruct (own_probs j labels pp); [congruence|simpl; lia]. }
    apply Qmult_inj_r in Hu; auto. lra.
  - intros Hu. split; [|tauto]. intros _. split; auto. rewrite Hu. auto.
Qed.

Lemma most_likely_unique row i j : most_likely row i -> most_likely row j -> i = j.
Proof.
  intros (A1 & A2 & A3) (B1 & B2 & B3). destruct (Nat.lt_trichotomy i j) as [L|[L|L]]; auto; exfalso.
  - specialize (B3 _ L). specialize (A2 _ B1). lra.
  - specialize (A3 _ L). specialize (B2 _ A1). lra.
Qed.

Lemma exists_other_dec thr row j :
  (forall i, reaches thr row i -> i = j) \/ (exists i, reaches thr row i /\ i <> j).
Proof.
  set (f := fun i => (Qle_bool (nth i thr 0 - (1 # 1000000)) (nth i row 0) && negb (Nat.eqb i j))%bool).
  destruct (existsb f (seq 0 (length row))) eqn:E.
  - right. apply existsb_exists in E as (i & Hi & Hf). apply in_seq in Hi. unfold f in Hf.
    apply andb_prop in Hf as (H1 & H2). apply Qle_bool_iff in H1. apply negb_true_iff, Nat.eqb_neq in H2.
    exists i. repeat split; auto. lia.
  - left. intros i (R1 & R2). destruct (Nat.eq_dec i j); auto. exfalso.
    assert (existsb f (seq 0 (length row)) = true); [|congruence].
    apply existsb_exists. exists i. split; [apply in_seq; lia|]. unfold f. apply andb_true_intro. split.
    + apply Qle_bool_iff. auto.
    + apply negb_true_iff, Nat.eqb_neq. auto.
Qed.

Lemma holds_minus n (P P' : nat -> Prop) a b : holds_for n P a -> holds_for n P' b ->
  (forall e, (e < n)%nat -> P e -> P' e) ->
  exists d, b = (a + d)%nat /\ holds_for n (fun e => P' e /\ ~ P e) d.
Proof.
  intros (l & D1 & L1 & I1) (l' & D2 & L2 & I2) H.
  exists (length (filter (fun i => negb (mem i l)) l')). split.
  - assert (Permutation (filter (fun i => mem i l) l') l) as Hp.
    { apply NoDup_Permutation; [apply NoDup_filter; auto|auto|]. intros x. rewrite filter_In, mem_iff. split; [tauto|].
      intros Hx. split; auto. apply I1 in Hx as (Hx & Px). apply I2. auto. }
    apply Permutation_length in Hp. rewrite <- L1, <- Hp, <- L2. clear.
    induction l' as [|x l' IH]; simpl; auto. destruct (mem x l); simpl; lia.
  - exists (filter (fun i => negb (mem i l)) l'). split; [apply NoDup_filter; auto|]. split; auto.
    intros i. rewrite filter_In, negb_true_iff, I2. split.
    + intros ((Hi & Hq) & Hm). split; auto. split; auto. intros Hp.
      assert (mem i l = true) by (apply mem_iff, I1; auto). congruence.
    + intros (Hi & Hq & Hp). split; auto. destruct (mem i l) eqn:E; auto. apply mem_iff, I1 in E. tauto.
Qed.

Section Compare.
  Context (K : nat) (labels : list nat) (pp : list (list Q)).
  Context (Hd : dataset K labels pp) (Hfl : own_prob_floor labels pp).
  Context (Hall : forall k, (k < K)%nat -> In k labels) (Hm : clear_margins labels pp).
  Let thr := get_confident_thresholds labels pp K.

  Lemma row_len e : (e < length labels)%nat -> length (row_of pp e) = K.
  Proof. intros He. destruct Hd as [Hlen _ _ Hrow _]. apply Hrow, nth_In. lia. Qed.

  Lemma other_reaches e : (e < length labels)%nat ->
    confidently_other labels pp e <-> exists j, most_likely (row_of pp e) j /\ j <> label_of labels e /\ reaches thr (row_of pp e) j.
  Proof.
    intros He. pose proof (row_len e He) as HL. split.
    - intros (j & t & M & Hj & T & Hle). exists j. split; auto. split; auto. destruct M as (M1 & M2). split; auto.
      rewrite HL in M1. apply (thr_average K) in T; auto. fold thr in T. rewrite <- T. exact Hle.
    - intros (j & M & Hj & R1 & R2). exists j, (nth j thr 0). split; auto. split; auto. split; [|exact R2].
      rewrite HL in R1. apply (thr_average K); auto. reflexivity.
  Qed.

  Lemma beats_label e j : (e < length labels)%nat -> most_likely (row_of pp e) j -> j <> label_of labels e -> clearly_beaten labels pp e.
  Proof.
    intros He (M1 & M2 & M3) Hj. exists j. split; auto. left.
    destruct (Hm e j He M1 Hj) as [L|L]; auto. exfalso.
    assert (label_of labels e < length (row_of pp e))%nat as Hl.
    { rewrite row_len by auto. apply (ds_lab _ _ _ Hd). apply nth_In. auto. }
    specialize (M2 _ Hl). unfold prob_of in L. fold (row_of pp e) in L. lra.
  Qed.

  Definition standard e := (exists j, counted_as thr (row_of pp e) j /\ j <> label_of labels e) /\ clearly_beaten labels pp e.

  Lemma other_standard e : (e < length labels)%nat -> confidently_other labels pp e -> standard e.
  Proof.
    intros He Ho. apply other_reaches in Ho as (j & M & Hj & R); auto. split; [|eapply beats_label; eauto].
    exists j. split; auto.
    destruct (exists_other_dec thr (row_of pp e) j) as [H|H].
    - left. split; auto.
    - right. destruct H as (i & Ri & Hij). split; auto. exists i, j. auto.
  Qed.
  Lemma standard_split e : (e < length labels)%nat ->
    standard e <-> confidently_other labels pp e \/ overlooked thr labels pp e.
  Proof.
    intros He. split.
    - intros (H1 & H2). pose proof (row_len e He) as HL.
      assert (Hrne : row_of pp e <> []).
      { intros C. rewrite C in HL. simpl in HL. destruct Hd as [_ _ Hlab _ _]. specialize (Hlab (label_of labels e) (nth_In _ _ He)). lia. }
      destruct (argmax_spec _ Hrne) as (A1 & A2 & A3).
      assert (HA : most_likely (row_of pp e) (argmax (row_of pp e))) by (split; auto).
      destruct (Qlt_le_dec (nth (argmax (row_of pp e)) (row_of pp e) 0) (nth (argmax (row_of pp e)) thr 0 - (1 # 1000000))) as [L|L].
      + right. split; auto. split; auto. intros j M R.
        rewrite (most_likely_unique _ _ _ M HA) in R. destruct R as (_ & R). lra.
      + left. apply other_reaches; auto. exists (argmax (row_of pp e)). split; auto.
        assert (R : reaches thr (row_of pp e) (argmax (row_of pp e))) by (split; auto).
        split; auto. destruct H1 as (j & [(R1 & R2)|(_ & M)] & Hj).
        * rewrite (R2 _ R). auto.
        * rewrite <- (most_likely_unique _ _ _ M HA). auto.
    - intros [H|H]; [apply other_standard; auto|]. destruct H as (H1 & H2 & _). split; auto.
  Qed.
  Lemma split_disjoint e : (e < length labels)%nat -> confidently_other labels pp e -> overlooked thr labels pp e -> False.
  Proof.
    intros He Ho (_ & _ & Hv). apply other_reaches in Ho as (j & M & _ & R); auto. exact (Hv j M R).
  Qed.
End Compare.

Definition plain_options : options :=
  {| frac_noise := 1; num_to_remove_per_class := None; min_examples_per_class := 1; confident_joint := None;
     n_jobs := 1; sched_c := []; sched_n := [] |}.

Lemma all_two K (labels : list nat) : (2 <= K)%nat -> (forall k, (k < K)%nat -> In k labels) -> two_classes labels.
Proof. intros HK H. exists 0%nat, 1%nat. split; [apply H; lia|]. split; [apply H; lia|]. lia. Qed.

Lemma num_issues_holds srt K labels pp : argsort_ok srt -> dataset K labels pp -> two_classes labels ->
  exists N, num_label_issues srt labels pp K = Ok N /\ holds_for (length labels) (standard K labels pp) N.
Proof.
  intros Hs Hd H2. destruct (C06_full srt K labels pp plain_options Hs Hd H2 eq_refl (le_n 1)) as (m & _ & Hl & HN & Hf).
  exists (count_true m). split; auto. rewrite <- Hl.
  rewrite <- (map_id m) at 2. apply (holds_count false). intros e He. fold (flagged m e). rewrite Hf. unfold standard. rewrite Hl in He. tauto.
Qed.

Lemma count_full : forall srt K method labels pp bs sbs st,
  argsort_ok srt -> dataset K labels pp -> (2 <= K)%nat -> own_prob_floor labels pp ->
  (forall k, (k < K)%nat -> In k labels) -> clear_margins labels pp ->
  is_split labels pp bs -> is_split labels pp (map fst sbs) ->
  inspect K method false false bs sbs = Ok st ->
  exists n N d, get_num_issues K false st = Ok n /\ num_label_issues srt labels pp K = Ok N /\
    holds_for (length labels) (overlooked (get_confident_thresholds labels pp K) labels pp) d /\ N = (n + d)%nat.
Proof.
  intros srt K method labels pp bs sbs st Hs Hd HK Hfl Hall Hm Hb Hss E.
  destruct (inspect_count K method labels pp bs sbs st) as (_ & n & _ & _ & Hn & Hh); auto.
  destruct (num_issues_holds srt K labels pp Hs Hd (all_two K labels HK Hall)) as (N & HN & Hst).
  destruct (holds_minus _ _ _ _ _ Hh Hst) as (d & Ed & Hdd).
  { intros e He. apply other_standard; auto. }
  exists n, N, d. repeat split; auto. eapply holds_for_iff; [|exact Hdd].
  intros e He. cbv beta. rewrite (standard_split K labels pp Hd Hfl Hall Hm e He). split.
  - intros ([H|H] & Hn'); tauto.
  - intros H. split; auto. intros C. eapply split_disjoint; eauto.
Qed.

(** ** two classes *)
Lemma binary_none labels pp e : dataset 2 labels pp -> (e < length labels)%nat ->
  ~ overlooked (get_confident_thresholds labels pp 2) labels pp e.
Proof.
  intros Hd He ((j & Hc & Hj) & (b & Hb & Hbeat) & Hv). set (thr := get_confident_thresholds labels pp 2) in *.
  pose proof (row_len 2 labels pp Hd e He) as HL.
  assert (Hl : (label_of labels e < 2)%nat) by (apply (ds_lab _ _ _ Hd), nth_In; auto).
  pose proof (counted_as_lt thr _ j Hc) as Hj2. rewrite HL in *.
  set (l := label_of labels e) in *. set (row := row_of pp e) in *.
  assert (b = j) as ->.
  { assert (b <> l); [|lia]. intros ->. destruct Hbeat as [B|(B & _)]; [lra|lia]. }
  unfold prob_of in Hbeat. fold (row_of pp e) in Hbeat. fold row in Hbeat.
  assert (M : most_likely row j).
  { split; [lia|]. rewrite HL. split; intros i Hi.
    - assert (i = l \/ i = j) as [-> | ->] by lia; [|lra]. destruct Hbeat as [B|(_ & B)]; lra.
    - assert (i = l) as -> by lia. destruct Hbeat as [B|(_ & B)]; lra. }
  apply (Hv j M). destruct Hc as [(R & _)|((a & a' & Hne & Ra & Ra') & _)]; auto.
  destruct (Nat.eq_dec a j) as [->|]; auto. destruct (Nat.eq_dec a' j) as [->|]; auto. exfalso.
  destruct Ra as (Ra & _). destruct Ra' as (Ra' & _). fold row in Ra, Ra'. rewrite HL in *. lia.
Qed.

Lemma binary_count : forall srt method labels pp bs sbs st,
  argsort_ok srt -> dataset 2 labels pp -> own_prob_floor labels pp -> In 0%nat labels -> In 1%nat labels ->
  clear_margins labels pp -> is_split labels pp bs -> is_split labels pp (map fst sbs) ->
  inspect 2 method false false bs sbs = Ok st ->
  exists n, get_num_issues 2 false st = Ok n /\ num_label_issues srt labels pp 2 = Ok n.
Proof.
  intros srt method labels pp bs sbs st Hs Hd Hfl H0 H1 Hm Hb Hss E.
  destruct (count_full srt 2 method labels pp bs sbs st) as (n & N & d & Hn & HN & (l & D & L & I) & ->); auto.
  { intros k Hk. assert (k = 0 \/ k = 1)%nat as [-> | ->] by lia; auto. }
  exists n. split; auto. rewrite HN. f_equal. destruct l as [|x l]; [simpl in L; lia|]. exfalso.
  destruct (I x) as (I1 & _). destruct I1 as (Hx & Hov); [left; auto|]. eapply binary_none; eauto.
Qed.

(** ** the flagged examples *)
Definition low_filter (method : score_method) : filter_method :=
  match method with SelfConfidence => LowSelfConfidence | NormalizedMargin => LowNormalizedMargin end.

Lemma low_mask srt labels pp K method o scores N : argsort_ok srt -> dataset K labels pp -> two_classes labels ->
  num_to_remove_per_class o = None -> (1 <= n_jobs o)%nat ->
  get_label_quality_scores labels pp K method false = Ok scores -> num_label_issues srt labels pp K = Ok N ->
  find_label_issues srt labels pp K (low_filter method) o = Ok (mask_of (length labels) (firstn N (srt scores))).
Proof.
  intros Hs Hd H2 Hn Hj Hsc HN.
  unfold find_label_issues. rewrite (valid_ok K) by auto. cbn [rbind]. rewrite Hn, andb_false_r.
  destruct (Nat.ltb_spec (n_jobs o) 1); [lia|].
  unfold raw_mask. destruct (compute_cj_calibrated_ok srt K labels pp Hs Hd) as (zm & ->).
  destruct method; destruct (confident_joint o); cbn [rbind fst snd low_filter is_low]; rewrite Hsc, HN; reflexivity.
Qed.

Lemma top_firstn srt scores n : argsort_ok srt -> find_top_issues srt scores (Some n) = firstn n (srt scores).
Proof.
  intros Hs. unfold find_top_issues. destruct (Nat.ltb_spec (length scores) n) as [L|L]; auto.
  rewrite !firstn_all2; auto; rewrite (argsort_length scores); auto; lia.
Qed.

(** the lowest-scored examples all have a property that n examples have, when it goes with lower scores *)
Lemma lowest_have srt scores n (P P' : nat -> Prop) len : argsort_ok srt -> length scores = len -> holds_for len P n ->
  (forall e, (e < len)%nat -> P e -> P' e) ->
  (forall e e', (e < len)%nat -> (e' < len)%nat -> P e -> ~ P' e' -> nth e scores 0 < nth e' scores 0) ->
  forall e, In e (firstn n (srt scores)) -> ~ ~ P' e.
Proof.
  intros Hs Hl (l & D & L & I) HPP Hlt e He Hn.
  destruct (C17_full srt scores (Some n) Hs) as (F1 & F2 & F3 & _ & F5). rewrite top_firstn in * by auto.
  set (T := firstn n (srt scores)) in *.
  assert (exists x, In x l /\ ~ In x T) as (x & Hx & HxT).
  { destruct (existsb (fun x => negb (mem x T)) l) eqn:E.
    - apply existsb_exists in E as (x & Hx & Hm). exists x. split; auto. intros C. apply mem_iff in C. rewrite C in Hm. discriminate.
    - exfalso. assert (incl (e :: l) T) as Hi.
      { intros x [<-|Hx]; auto. destruct (mem x T) eqn:Em; [apply mem_iff; auto|].
        assert (existsb (fun x => negb (mem x T)) l = true); [|congruence]. apply existsb_exists. exists x. rewrite Em. auto. }
      assert (NoDup (e :: l)) as Hd.
      { constructor; auto. intros C. apply I in C as (C1 & C2). apply Hn. apply HPP; auto. }
      pose proof (NoDup_incl_length Hd Hi) as Hle. simpl in Hle. rewrite F1 in Hle. lia. }
  apply I in Hx as (Hxl & HPx).
  assert (He2 : (e < len)%nat) by (rewrite <- Hl; auto).
  pose proof (Hlt x e Hxl He2 HPx Hn) as A. specialize (F5 e x He ltac:(lia) HxT). lra.
Qed.

Lemma same_full : forall srt K labels pp c method js m o,
  argsort_ok srt -> dataset K labels pp -> (2 <= K)%nat -> own_prob_floor labels pp ->
  (forall k, (k < K)%nat -> In k labels) -> clear_margins labels pp ->
  (forall e, (e < length labels)%nat -> ~ overlooked (get_confident_thresholds labels pp K) labels pp e) ->
  num_to_remove_per_class o = None -> (1 <= n_jobs o)%nat ->
  find_label_issues_batched srt labels pp K c method false false js = Ok m ->
  exists m', find_label_issues srt labels pp K (low_filter method) o = Ok m' /\ length m' = length m /\
    (forall e, flagged m e <-> flagged m' e /\ clearly_beaten labels pp e) /\
    (method = NormalizedMargin \/ (K = 2%nat /\ row_stochastic pp) -> m = m').
Proof.
  intros srt K labels pp c method js m o Hs Hd HK Hfl Hall Hm Hov Hn Hj H.
  pose proof (all_two K labels HK Hall) as H2.
  destruct (flags_exact srt labels pp K c method js m Hd HK Hfl H) as (scores & n & Hsc & Hh & HL & Hf).
  destruct (num_issues_holds srt K labels pp Hs Hd H2) as (N & HN & Hst).
  assert (N = n) as ->.
  { eapply holds_for_unique; [exact Hst|]. eapply holds_for_iff; [|exact Hh]. intros e He.
    rewrite (standard_split K labels pp Hd Hfl Hall Hm e He). specialize (Hov e He). tauto. }
  exists (mask_of (length labels) (firstn n (srt scores))).
  split; [apply low_mask; auto|]. split; [rewrite mask_of_length; auto|].
  assert (Hf' : forall e, flagged m e <-> flagged (mask_of (length labels) (firstn n (srt scores))) e /\ clearly_beaten labels pp e).
  { intros e. rewrite Hf. unfold flagged. rewrite mask_of_flag, top_firstn by auto. tauto. }
  split; [exact Hf'|]. intros Hcase.
  destruct (C15_scores_full K labels pp method Hd HK) as (s' & Hsc' & HsL & Hs'). rewrite Hsc in Hsc'. injection Hsc' as <-.
  assert (Hdec : forall e, (e < length labels)%nat -> clearly_beaten labels pp e \/ ~ clearly_beaten labels pp e).
  { intros e He. rewrite <- (reduce_false_iff K labels pp e Hd He). destruct (nth e (reduce_issues pp labels) false); [right; discriminate|left; reflexivity]. }
  assert (Hlow : forall e, In e (firstn n (srt scores)) -> (e < length labels)%nat -> clearly_beaten labels pp e).
  { intros e He Hel. destruct (Hdec e Hel) as [|Hnb]; auto. exfalso. revert Hnb.
    apply (lowest_have srt scores n (confidently_other labels pp) (clearly_beaten labels pp) (length labels)); auto.
    - intros x Hx Ho. apply (other_standard K labels pp Hd Hfl Hall Hm x Hx Ho).
    - intros x y Hx Hy Ho Hny.
      assert (Hbx : clearly_beaten labels pp x) by apply (other_standard K labels pp Hd Hfl Hall Hm x Hx Ho).
      assert (Hwx : ~ label_wins (row_of pp x) (label_of labels x)).
      { intros W. destruct Hbx as (b & Hb & Hbb). specialize (W b Hb). unfold prob_of in Hbb. fold (row_of pp x) in Hbb.
        destruct Hbb as [B|(_ & B)]; lra. }
      assert (Hwy : label_wins (row_of pp y) (label_of labels y)).
      { intros b Hb. destruct (Nat.eq_dec b (label_of labels y)) as [->|Hne]; [lra|].
        destruct (Hm y b Hy Hb Hne) as [B|B]; unfold prob_of in B; fold (row_of pp y) in B; [lra|].
        exfalso. apply Hny. exists b. split; auto. }
      destruct (Hs' x Hx) as (_ & _ & Sx). destruct (Hs' y Hy) as (_ & _ & Sy).
      destruct method.
      + destruct Hcase as [C|(-> & Hrs)]; [discriminate|]. rewrite Sx, Sy.
        assert (forall z, (z < length labels)%nat -> prob_of pp z (label_of labels z) + prob_of pp z (1 - label_of labels z)%nat == 1) as S2.
        { intros z Hz. pose proof (row_len 2 labels pp Hd z Hz) as Hr.
          assert (label_of labels z < 2)%nat as Hlz by (apply (ds_lab _ _ _ Hd), nth_In; auto).
          assert (qsum (row_of pp z) == 1) as Hsum.
          { apply Hrs. apply nth_In. destruct Hd as [HH _ _ _ _]. lia. }
          unfold prob_of. fold (row_of pp z). destruct (row_of pp z) as [|p [|q [|]]]; try discriminate Hr.
          rewrite !qsum_cons in Hsum. change (qsum []) with 0 in Hsum.
          destruct (label_of labels z) as [|[|]]; simpl; [lra|lra|lia]. }
        pose proof (S2 x Hx) as Sx2. pose proof (S2 y Hy) as Sy2.
        assert (label_of labels x < 2)%nat as Hlx by (apply (ds_lab _ _ _ Hd), nth_In; auto).
        assert (label_of labels y < 2)%nat as Hly by (apply (ds_lab _ _ _ Hd), nth_In; auto).
        assert (prob_of pp y (1 - label_of labels y)%nat <= prob_of pp y (label_of labels y)) as Y.
        { apply Hwy. rewrite (row_len 2 labels pp Hd y Hy). lia. }
        assert (prob_of pp x (label_of labels x) < prob_of pp x (1 - label_of labels x)%nat) as X.
        { destruct Hbx as (b & Hb & Hbb). rewrite (row_len 2 labels pp Hd x Hx) in Hb.
          assert (b <> label_of labels x) as Hne.
          { intros ->. destruct Hbb as [B|(B & _)]; [lra|lia]. }
          assert (b = 1 - label_of labels x)%nat as -> by lia. destruct Hbb as [B|(_ & B)]; lra. }
        lra.
      + destruct Sx as (bx & _ & _ & Wx). destruct Sy as (by' & _ & _ & Wy).
        apply Wy in Hwy. destruct (Qlt_le_dec (nth x scores 0) (1 # 2)) as [L|L]; [lra|]. tauto. }
  apply list_eq_nth with (d := false); [rewrite mask_of_length; auto|].
  intros e He. specialize (Hf' e). unfold flagged in Hf'.
  destruct (nth e (mask_of (length labels) (firstn n (srt scores))) false) eqn:E1.
  - apply Hf'. split; auto. apply mask_of_flag in E1 as (E1 & E2). auto.
  - destruct (nth e m false) eqn:E2; auto. destruct Hf' as (Hf' & _). destruct (Hf' eq_refl); discriminate.
Qed.

Lemma binary_full : forall srt labels pp c method js m o,
  argsort_ok srt -> dataset 2 labels pp -> row_stochastic pp -> own_prob_floor labels pp -> In 0%nat labels -> In 1%nat labels ->
  clear_margins labels pp -> num_to_remove_per_class o = None -> (1 <= n_jobs o)%nat ->
  find_label_issues_batched srt labels pp 2 c method false false js = Ok m ->
  find_label_issues srt labels pp 2 (low_filter method) o = Ok m.
Proof.
  intros srt labels pp c method js m o Hs Hd Hrs Hfl H0 H1 Hm Hn Hj H.
  destruct (same_full srt 2 labels pp c method js m o) as (m' & E & _ & _ & Heq); auto.
  - intros k Hk. assert (k = 0 \/ k = 1)%nat as [-> | ->] by lia; auto.
  - intros e He. apply binary_none; auto.
  - rewrite Heq; auto.
Qed.
