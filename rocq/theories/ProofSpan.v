(** * Proofs about span classification *)
From Coq Require Import QArith List Bool Arith Lia Sorted.
From Coq Require Import Lqa.
From Verif Require Import Base BaseFacts ModelUtil ModelCount ModelRank ModelFilter ModelToken ModelSpan SpecCount SpecFilter SpecToken SpecSpan ProofCount ProofFilter ProofToken ProofTotal.
Import ListNotations.
Open Scope Q_scope.

Section Span.
Variables (labels : list (list nat)) (probs : list (list Q)).
Hypothesis (D : span_data labels probs) (NE : labels <> []).
Let lens := map (@length nat) labels.
Let pps := get_pred_prob_token probs.

Lemma pps_lens : map (@length (list Q)) pps = lens.
Proof. unfold pps, get_pred_prob_token, lens. rewrite map_map. destruct D as (<- & _). apply map_ext. intros a. apply map_length. Qed.

Lemma span_dataset : dataset 2 (concat labels) (concat pps).
Proof.
  destruct D as (L & Hn & Hl & Hp). split.
  - rewrite !concat_length, pps_lens. reflexivity.
  - intros E. destruct labels as [|s t]; [congruence|]. pose proof (Hn s (or_introl eq_refl)). simpl in E. apply app_eq_nil in E. tauto.
  - intros l H. apply in_concat in H. destruct H as (s & Hs & H). eauto.
  - intros r H. apply in_concat in H. destruct H as (s & Hs & H). unfold pps, get_pred_prob_token in Hs. apply in_map_iff in Hs.
    destruct Hs as (q & <- & _). apply in_map_iff in H. destruct H as (p & <- & _). reflexivity.
  - intros r x H Hx. apply in_concat in H. destruct H as (s & Hs & H). unfold pps, get_pred_prob_token in Hs. apply in_map_iff in Hs.
    destruct Hs as (q & <- & Hq). apply in_map_iff in H. destruct H as (p & <- & Hpq). pose proof (Hp q p Hq Hpq) as P.
    destruct Hx as [<-|[<-|[]]]; lra.
Qed.
Lemma span_two : both_labels labels -> two_classes (concat labels).
Proof.
  intros B. destruct B as (a & b & Ha & Hb & Ea & Eb). exists 0%nat, 1%nat. split; [|split; [|lia]].
  - rewrite <- Ea, <- (concat_entry 0%nat labels a Ha). apply nth_In. rewrite concat_length. apply position_lt; assumption.
  - rewrite <- Eb, <- (concat_entry 0%nat labels b Hb). apply nth_In. rewrite concat_length. apply position_lt; assumption.
Qed.
Lemma entry_pps ij : in_text lens ij -> entry [] pps ij = [1 - entry 0 probs ij; entry 0 probs ij].
Proof.
  intros (H1 & H2). unfold entry, pps, get_pred_prob_token. destruct D as (L & _). assert (Hi : (fst ij < length probs)%nat).
  { unfold lens in H1. rewrite <- L, map_length in H1. exact H1. }
  change (@nil (list Q)) with (map (fun p : Q => [1 - p; p]) []) at 1. rewrite map_nth.
  assert (Hj : (snd ij < length (nth (fst ij) probs []))%nat).
  { unfold lens in H2. rewrite <- L in H2. change 0%nat with (length (@nil Q)) in H2. rewrite map_nth in H2. exact H2. }
  rewrite (nth_indep _ [] ((fun p : Q => [1 - p; p]) 0)) by (rewrite map_length; exact Hj).
  exact (map_nth (fun p : Q => [1 - p; p]) _ 0 (snd ij)).
Qed.
Lemma entry_label ij : in_text lens ij -> entry 0%nat labels ij = 0%nat \/ entry 0%nat labels ij = 1%nat.
Proof.
  intros H. assert (entry 0%nat labels ij < 2)%nat; [|lia]. rewrite <- (concat_entry 0%nat labels ij H). apply (ds_lab _ _ _ span_dataset).
  apply nth_In. rewrite concat_length. apply position_lt, H.
Qed.
Lemma own_confidence ij : in_text lens ij -> nth (entry 0%nat labels ij) (entry [] pps ij) 0 = confidence labels probs ij.
Proof.
  intros H. rewrite (entry_pps ij H). unfold confidence. destruct (entry_label ij H) as [E|E]; rewrite E; reflexivity.
Qed.

Lemma span_scores_full : exists sentence_scores token_scores, span_get_label_quality_scores labels probs = Ok (sentence_scores, token_scores) /\
  map (@length Q) token_scores = lens /\ length sentence_scores = length labels /\
  (forall ij, in_text lens ij -> entry 0 token_scores ij = confidence labels probs ij) /\
  (forall i, (i < length labels)%nat ->
     (exists j, in_text lens (i, j) /\ nth i sentence_scores 0 = confidence labels probs (i, j)) /\
     forall j, in_text lens (i, j) -> nth i sentence_scores 0 <= confidence labels probs (i, j)).
Proof.
  destruct D as (L & Hn & _). destruct (C30_scores_full 2 labels pps SelfConfidence span_dataset (le_n 2) Hn) as (ss & ts & flat & H1 & H2 & H3 & H4 & H5 & H6 & H7).
  fold lens in H1, H2, H3, H4, H5, H6, H7. assert (C : forall ij, in_text lens ij -> entry 0 ts ij = confidence labels probs ij).
  { intros ij H. rewrite (H7 eq_refl pps_lens ij H). apply own_confidence, H. }
  exists ss, ts. repeat split; auto.
  - destruct (H6 i H) as (M & _). apply (In_nth _ _ 0) in M. destruct M as (j & Hj & E). exists j. assert (T : in_text lens (i, j)).
    { split; simpl; [unfold lens; rewrite map_length; exact H|]. rewrite <- H3. change 0%nat with (length (@nil Q)). rewrite map_nth. exact Hj. }
    split; [exact T|]. rewrite <- E, <- (C (i, j) T). reflexivity.
  - intros j T. destruct (H6 i H) as (_ & M). rewrite <- (C (i, j) T). apply M. unfold entry. simpl. apply nth_In.
    destruct T as (_ & T). simpl in T. rewrite <- H3 in T. change 0%nat with (length (@nil Q)) in T. rewrite map_nth in T. exact T.
Qed.

Lemma span_find_full srt : argsort_ok srt -> both_labels labels -> exists issues, span_find_label_issues srt labels probs = Ok issues /\ NoDup issues /\
  (forall ij, In ij issues -> in_text lens ij /\ confidence labels probs ij + (1 # 1000000) <= 1 - confidence labels probs ij) /\
  StronglySorted (fun a b => confidence labels probs a <= confidence labels probs b) issues.
Proof.
  intros Hs B. destruct (total_full srt 2 (concat labels) (concat pps) PruneByNoiseRate span_options SelfConfidence false Hs span_dataset (span_two B) eq_refl eq_refl) as (m & _ & Hm & _).
  destruct (C30_find_full srt 2 labels pps SelfConfidence PruneByNoiseRate span_options m Hs span_dataset (span_two B) Hm) as (iss & flat & F & S & N & I & O).
  fold lens in I, O. destruct (C30_scores_full 2 labels pps SelfConfidence span_dataset (le_n 2) (proj1 (proj2 D))) as (ss & ts & flat' & H1 & H2 & H3 & H4 & H5 & H6 & H7).
  rewrite S in H2. injection H2 as <-. fold lens in H3, H5, H7.
  assert (C : forall ij, in_text lens ij -> nth (position lens ij) flat 0 = confidence labels probs ij).
  { intros ij H. rewrite <- (H5 ij H), (H7 eq_refl pps_lens ij H). apply own_confidence, H. }
  exists iss. split; [exact F|]. split; [exact N|]. assert (T : forall ij, In ij iss -> in_text lens ij) by (intros ij H; apply I in H; tauto). split.
  - intros ij H. split; [auto|]. apply I in H. destruct H as (H & Fl).
    apply (find_flagged_beaten srt _ _ 2 PruneByNoiseRate span_options m _ span_dataset eq_refl Hm) in Fl. destruct (clearly_beaten_beaten _ _ _ Fl) as (j & Hj & P).
    unfold prob_of, row_of, label_of in *.
    assert (R : nth (position lens ij) (concat pps) [] = entry [] pps ij).
    { rewrite <- pps_lens. apply concat_entry. rewrite pps_lens. exact H. }
    rewrite R in *. unfold lens in P at 1. rewrite (concat_entry 0%nat labels ij H) in P. fold lens in P. rewrite (own_confidence ij H) in P.
    rewrite (entry_pps ij H) in *. unfold confidence in *. destruct (entry_label ij H) as [E|E]; rewrite E in *; simpl in *;
    (destruct j as [|[|j]]; simpl in *; [| |lia]); lra.
  - clear - O T C. induction O as [|a l O IH Fa]; [constructor|]. constructor; [apply IH; intros; apply T; right; auto|].
    rewrite Forall_forall in *. intros b Hb. rewrite <- (C a (T a (or_introl eq_refl))), <- (C b (T b (or_intror Hb))). auto.
Qed.
End Span.
