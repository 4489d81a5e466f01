(** * The numbering of the classes: adjusted scores, batched search, tokens *)
From Coq Require Import QArith List ZArith Bool Arith Lia Lqa Sorted Permutation.
From Verif Require Import Base BaseFacts ModelUtil ModelCount ModelRank ModelPool ModelFilter ModelBatched ModelToken SpecCount SpecFilter SpecRank SpecBatched SpecBatchFlags SpecToken
  SpecSymmetry SpecRename SpecNumbering
  ProofUtil ProofCount ProofFilter ProofRank ProofIdeal ProofSymmetry ProofRows ProofRename ProofBatchFlags ProofToken ProofNumbering.
Import ListNotations.
Open Scope Q_scope.

Section Names.
Variables (K : nat) (names : list nat).
Hypothesis Pn : Permutation names (seq 0 K).
Let s k := nth k names 0%nat.

Lemma other_max_renamed row row' l : (2 <= K)%nat -> length row = K -> (l < K)%nat -> renamed_values names row row' ->
  qmaximum (delete_at (s l) row') == qmaximum (delete_at l row).
Proof.
  intros HK HL Hl (L & E). pose proof (name_lt K names Pn l Hl) as Hsl. fold (s l) in Hsl. symmetry. apply qmax_match.
  - assert (I : exists j, (j < K)%nat /\ j <> l) by (exists (if Nat.eqb l 0 then 1 else 0)%nat; destruct (Nat.eqb_spec l 0); lia).
    destruct I as (j & Hj & N). assert (I : In (nth j row 0) (delete_at l row)) by (apply (delete_at_in 0); [lia|exists j; split; [lia|auto]]).
    intros Z. rewrite Z in I. destruct I.
  - intros x Hx. apply (delete_at_in 0) in Hx as (j & Hj & N & <-); [|lia]. exists (nth (s j) row' 0). split; [|symmetry; now apply E].
    apply (delete_at_in 0); [rewrite L, HL; exact Hsl|]. exists (s j). pose proof (name_lt K names Pn j ltac:(lia)) as Hsj. split; [rewrite L, HL; exact Hsj|]. split; [|reflexivity].
    intros Z. apply N, (name_inj K names Pn); auto. lia.
  - intros y Hy. apply (delete_at_in 0) in Hy as (j & Hj & N & <-); [|rewrite L, HL; exact Hsl]. rewrite L, HL in Hj. destruct (name_onto K names Pn j Hj) as (k & Hk & <-). fold (s k) in *.
    exists (nth k row 0). split; [|symmetry; apply E; lia]. apply (delete_at_in 0); [lia|]. exists k. split; [lia|]. split; [|reflexivity]. intros ->. now apply N.
Qed.
Lemma scores_of_rows labels method : (2 <= K)%nat -> (forall l, In l labels -> (l < K)%nat) -> forall rows rows',
  Forall2 (fun r r' => length r = K /\ renamed_values names r r') rows rows' ->
  Forall2 Qeq (match method with SelfConfidence => get_self_confidence (renamed_labels names labels) rows' | NormalizedMargin => get_normalized_margin (renamed_labels names labels) rows' end)
              (match method with SelfConfidence => get_self_confidence labels rows | NormalizedMargin => get_normalized_margin labels rows end).
Proof.
  intros HK Hlab rows rows' HF. assert (SC : Forall2 Qeq (get_self_confidence (renamed_labels names labels) rows') (get_self_confidence labels rows)).
  { unfold get_self_confidence, renamed_labels. clear method. revert labels Hlab. induction HF as [|r r' p p' (Hr & H) HF IH]; intros [|l ls] Hlab; cbn; constructor.
    - apply H. rewrite Hr. apply Hlab. now left.
    - apply IH. intros; apply Hlab; now right. }
  destruct method; [exact SC|]. unfold get_normalized_margin.
  assert (MX : Forall2 Qeq (map (fun lr => qmaximum (delete_at (fst lr) (snd lr))) (combine (renamed_labels names labels) rows')) (map (fun lr => qmaximum (delete_at (fst lr) (snd lr))) (combine labels rows))).
  { unfold renamed_labels. clear SC. revert labels Hlab. induction HF as [|r r' p p' (Hr & H) HF IH]; intros [|l ls] Hlab; cbn [map combine fst snd]; constructor.
    - apply other_max_renamed; auto. apply Hlab. now left.
    - apply IH. intros; apply Hlab; now right. }
  revert MX. generalize (map (fun lr => qmaximum (delete_at (fst lr) (snd lr))) (combine (renamed_labels names labels) rows')) (map (fun lr => qmaximum (delete_at (fst lr) (snd lr))) (combine labels rows)).
  induction SC as [|x y a b E SC IH]; intros u v MX; [constructor|]. destruct MX as [|x' y' u v E' MX]; [constructor|]. cbn [combine map fst snd]. constructor; [now rewrite E, E'|]. now apply IH.
Qed.
Lemma rows_values pp pp' : (forall r, In r pp -> length r = K) -> Forall2 (renamed_row names) pp pp' -> Forall2 (fun r r' => length r = K /\ renamed_values names r r') pp pp'.
Proof.
  intros Hrow HF. induction HF as [|r r' p p' H HF IH]; [constructor|]. constructor.
  - split; [apply Hrow; now left|now apply renamed_row_values].
  - apply IH. intros; apply Hrow; now right.
Qed.
Lemma scores_any_renamed labels pp pp' method adjust sc : (2 <= K)%nat -> dataset K labels pp -> Forall2 (renamed_row names) pp pp' ->
  get_label_quality_scores labels pp K method adjust = Ok sc ->
  exists sc', get_label_quality_scores (renamed_labels names labels) pp' K method adjust = Ok sc' /\ Forall2 Qeq sc' sc.
Proof.
  intros HK [Hlen Hne Hlab Hrow Hprob] HF E. unfold get_label_quality_scores in *. rewrite (valid_renamed K names Pn labels pp pp' true Hlab Hrow HF).
  destruct (assert_valid_inputs labels pp K true) as [u|e]; [|discriminate]. cbn [rbind] in *. unfold compute_label_quality_scores in *.
  set (R := if adjust then subtract_confident_thresholds labels pp K None else pp) in *.
  set (R' := if adjust then subtract_confident_thresholds (renamed_labels names labels) pp' K None else pp').
  assert (HR : Forall2 (fun r r' => length r = K /\ renamed_values names r r') R R').
  { unfold R, R'. destruct adjust; [|now apply rows_values]. pose proof (thresholds_renamed K names Pn labels pp pp' Hlen Hlab Hrow HF) as T.
    unfold subtract_confident_thresholds. set (t := get_confident_thresholds labels pp K) in *. set (t' := get_confident_thresholds (renamed_labels names labels) pp' K) in *.
    assert (Lt : length t = K) by (unfold t, get_confident_thresholds; now rewrite map_length, tab_length).
    clearbody t t'. clear - Pn Lt T Hrow HF. induction HF as [|r r' p p' H G IH]; [constructor|]. cbn [map]. constructor.
    - assert (Lr : length r = K) by (apply Hrow; now left). split.
      + rewrite !map_length, combine_length. lia.
      + apply (adjust_renamed K names Pn t t' r r' Lt Lr T). now apply renamed_row_values.
    - apply IH. intros x Hx. apply Hrow. now right. }
  pose proof (scores_of_rows labels method HK Hlab R R' HR) as G. destruct method.
  - injection E as <-. eexists. split; [reflexivity|exact G].
  - destruct (Nat.leb K 1); [discriminate|]. injection E as <-. eexists. split; [reflexivity|exact G].
Qed.

(** ** the batched search *)
Section Data.
Variables (labels : list nat) (pp P' : list (list Q)).
Hypothesis Hd : dataset K labels pp.
Hypothesis Hr : Forall2 (renamed_row names) pp P'.
Hypothesis Dec : decided labels pp.
Let L' := renamed_labels names labels.

Lemma other_renamed e : (e < length labels)%nat -> confidently_other L' P' e <-> confidently_other labels pp e.
Proof.
  intros He. unfold confidently_other. pose proof (renamed_label names labels e He) as EL. fold L' in EL.
  assert (T : forall j t, (j < K)%nat -> class_threshold L' P' (s j) t <-> class_threshold labels pp j t).
  { intros j t Hj. unfold class_threshold, L'. pose proof (own_renamed K names Pn labels pp P' j (ds_lab _ _ _ Hd) (ds_row _ _ _ Hd) Hr Hj) as O. change (own_probs (s j) (renamed_labels names labels) P' = own_probs j labels pp) in O. rewrite O.
    pose proof (in_renamed K names Pn labels j (ds_lab _ _ _ Hd) Hj) as I. change (In j labels <-> In (s j) (renamed_labels names labels)) in I. rewrite <- I. reflexivity. }
  assert (M : forall j, (j < K)%nat -> most_likely (row_of P' e) (s j) <-> most_likely (row_of pp e) j) by (intros j Hj; exact (renamed_most K names labels pp P' Pn Hd Hr Dec e j He Hj)).
  assert (PR : forall j, (j < K)%nat -> prob_of P' e (s j) = prob_of pp e j) by (intros j Hj; exact (renamed_prob K names labels pp P' Hd Hr e j He Hj)).
  split; intros (j & t & A & B & C & D).
  - assert (Hj : (j < K)%nat) by (destruct A as (A & _); now rewrite (row_K' K names labels pp P' Hd Hr e He) in A).
    destruct (name_onto K names Pn j Hj) as (k & Hk & <-). exists k, t. change (nth k names 0%nat) with (s k) in *. rewrite M in A by auto. rewrite T in C by auto. rewrite PR in D by auto.
    split; [exact A|]. split; [|split; [exact C|exact D]]. intros ->. apply B. now rewrite EL.
  - assert (Hj : (j < K)%nat) by (destruct A as (A & _); now rewrite (row_K K labels pp Hd e He) in A).
    exists (s j), t. rewrite M, T, PR by auto. split; [exact A|]. split; [|split; [exact C|exact D]]. rewrite EL. intros Z. apply B, (name_inj K names Pn); auto. now apply (label_K K labels pp Hd).
Qed.
Lemma floor_renamed : own_prob_floor labels pp -> own_prob_floor L' P'.
Proof.
  intros H e He. unfold L', renamed_labels in He. rewrite map_length in He. specialize (H e He). change (2 # 1000000 <= prob_of P' e (label_of L' e)).
  unfold L'. rewrite renamed_label by auto. rewrite (renamed_prob K names labels pp P' Hd Hr) by (auto; now apply (label_K K labels pp Hd)). exact H.
Qed.
Lemma batched_renamed srt srt' batch_size batch_size' method js js' m m' : argsort_ok srt -> argsort_ok srt' -> (2 <= K)%nat -> own_prob_floor labels pp -> distinct_scores K labels pp method ->
  find_label_issues_batched srt labels pp K batch_size method false false js = Ok m ->
  find_label_issues_batched srt' L' P' K batch_size' method false false js' = Ok m' -> m' = m.
Proof.
  intros Hs Hs' HK Hfl Hdist E E'. pose proof (renamed_dataset K names labels pp P' Pn Hd Hr) as Hd'. fold L' in Hd'.
  destruct (flags_full srt labels pp K batch_size method js m Hs Hd HK Hfl E) as (sc & n & idx & S1 & N1 & I1 & L1 & F1).
  destruct (flags_full srt' L' P' K batch_size' method js' m' Hs' Hd' HK (floor_renamed Hfl) E') as (sc' & n' & idx' & S2 & N2 & I2 & L2 & F2).
  assert (LL : length L' = length labels) by (unfold L', renamed_labels; now rewrite map_length).
  destruct (scores_any_renamed labels pp P' method false sc HK Hd Hr S1) as (sc2 & S3 & Q). fold L' in S3. rewrite S2 in S3. injection S3 as <-.
  assert (n' = n) as ->.
  { eapply holds_for_unique; [exact N2|]. rewrite LL. eapply holds_for_iff; [|exact N1]. intros e He. symmetry. now apply other_renamed. }
  pose proof (F2_len _ _ _ Q) as LQ. destruct I1 as (A1 & A2 & A3 & A4), I2 as (B1 & B2 & B3 & B4).
  assert (Lsc : length sc = length labels) by (destruct (scores_ok K labels pp method false Hd (or_intror HK)) as (x & Hx & Hl); congruence).
  assert (Qn : forall e, nth e sc' 0 == nth e sc 0) by (intros e; apply F2_nth_Q; exact Q).
  apply mask_ext; [congruence|]. rewrite L2, LL. intros e He. rewrite F1, F2. unfold L'. rewrite (renamed_beaten K names labels pp P' Pn Hd Hr Dec e He).
  assert (forall x, In x idx' <-> In x idx) as ->; [|reflexivity].
  apply (lowest_unique (fun e => nth e sc 0) (fun e => (e < length labels)%nat)); auto.
  - rewrite A2, B2. congruence.
  - intros x Hx. rewrite <- Lsc, <- LQ. auto.
  - intros x Hx. rewrite <- Lsc. auto.
  - intros x y Hx Hy N. rewrite <- !Qn. apply B4; auto. rewrite LQ, Lsc. exact Hy.
  - intros x y Hx Hy N. apply A4; auto. rewrite Lsc. exact Hy.
  - intros x y Hx Hy Z. apply (Hdist sc); auto.
Qed.
End Data.
End Names.
