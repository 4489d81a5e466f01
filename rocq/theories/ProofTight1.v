(** * Further facts about token, multi-label and outlier code *)
From Coq Require Import String QArith Qreals Reals List ZArith Bool Arith Lia Permutation Sorted.
From Coq Require Lqa Lra.
From Verif Require Import Base BaseFacts ModelUtil ModelCount ModelRank ModelPool ModelFilter ModelBatched ModelMultilabel
     SpecCount SpecFilter SpecBatched SpecBatchFlags SpecMultilabel ProofUtil ProofCount ProofFilter ProofRank ProofBatched ProofBatchFlags ProofMultilabel.
From Verif Require ModelToken SpecToken ProofToken ModelOutlier.
Import ListNotations.
Open Scope Q_scope.

(** ** Multi-label issues with little memory (C63) *)
Lemma finite_choice {B} (d : B) (P : nat -> B -> Prop) K : (forall c, (c < K)%nat -> exists x, P c x) ->
  exists f : nat -> B, forall c, (c < K)%nat -> P c (f c).
Proof.
  induction K as [|K IH]; intro H; [exists (fun _ => d); intros; lia|].
  destruct IH as (f & F); [intros; apply H; lia|]. destruct (H K) as (x & X); [lia|].
  exists (fun c => if Nat.eqb c K then x else f c). intros c Hc. destruct (Nat.eqb_spec c K) as [->|]; [exact X|apply F; lia].
Qed.

Lemma C63_low_memory_full : forall srt labels pp K flt o js m, argsort_ok srt -> ml_dataset K labels pp ->
  (forall e c, (e < length labels)%nat -> (c < K)%nat ->
     (has_class labels e c -> 2 # 1000000 <= prob_of pp e c) /\ (~ has_class labels e c -> prob_of pp e c <= 1 - (2 # 1000000))) ->
  ml_find_label_issues srt labels pp K flt o (Some js) = Ok m ->
  length m = length labels /\
  exists lowest : nat -> list nat,
    (forall c, (c < K)%nat -> exists bl bp scores n, one_vs_rest labels pp c bl bp /\
       get_label_quality_scores bl bp 2 SelfConfidence false = Ok scores /\
       holds_for (length labels) (confidently_other bl bp) n /\ n_lowest scores n (lowest c)) /\
    forall e, flagged m e <-> exists c, (c < K)%nat /\ In e (lowest c) /\ clearly_disagrees labels pp e c.
Proof.
  intros srt labels pp K flt o js m Hs HD HF H. unfold ml_find_label_issues in H. rewrite andb_false_r in H. unfold issues_per_class in H.
  destruct (rmap _ (seq 0 K)) as [cols|] eqn:E; [|discriminate]. cbn [rbind] in H. injection H as <-.
  apply rmap_ok in E. apply (Forall2_seq _ K cols []) in E as (L & G).
  split; [apply any_class_length|].
  assert (X : forall c, (c < K)%nat -> exists idx, (exists bl bp scores n, one_vs_rest labels pp c bl bp /\
       get_label_quality_scores bl bp 2 SelfConfidence false = Ok scores /\
       holds_for (length labels) (confidently_other bl bp) n /\ n_lowest scores n idx) /\
       (length (nth c cols []) = length labels) /\
       forall e, flagged (nth c cols []) e <-> In e idx /\ (e < length labels)%nat /\ clearly_disagrees labels pp e c).
  { intros c Hc. specialize (G c Hc). cbv beta in G.
    assert (FL : own_prob_floor (binary_labels labels K c) (binary_probs pp c)).
    { intros e He. rewrite binary_length in He. pose proof (ml_len _ _ _ HD) as LL. rewrite binary_prob_nth by lia. rewrite binary_label_nth by auto.
      destruct (HF e c He Hc) as [F1 F2]. pose proof (mem_has labels e c) as HM. destruct (mem c (nth e labels [])) eqn:E.
      + cbn [nth]. apply F1, HM. reflexivity.
      + cbn [nth]. assert (N : ~ has_class labels e c) by (intro N; apply HM in N; discriminate). specialize (F2 N). Lqa.lra. }
    destruct (flags_full srt _ _ 2 _ _ _ _ Hs (binary_dataset K labels pp c HD Hc) (le_n 2) FL G) as (scores & n & idx & Q1 & Q2 & Q3 & Q4 & Q5).
    { exists idx. rewrite binary_length in Q2, Q4. split; [|split; [exact Q4|]].
      + exists (binary_labels labels K c), (binary_probs pp c), scores, n. split; [apply binary_ovr; assumption|]. auto.
      + intro e. rewrite Q5. split.
        * intros [I B].
          assert (He : (e < length labels)%nat).
          { assert (Fe : flagged (nth c cols []) e) by (apply Q5; auto). apply flagged_lt in Fe. lia. }
          split; [exact I|]. split; [exact He|]. now apply (binary_clearly K).
        * intros (I & He & B). split; [exact I|]. now apply (binary_clearly K). } }
  apply (finite_choice []) in X. destruct X as (lowest & X). exists lowest. split; [intros c Hc; apply (X c Hc)|].
  intro e. rewrite any_class_flag. split.
  - intros (He & mc & Hm & Hf). apply (in_nth_range mc []) in Hm as (c & Hc & <-). rewrite L in Hc.
    exists c. destruct (X c Hc) as (_ & _ & Q). apply Q in Hf. tauto.
  - intros (c & Hc & I & B). destruct (X c Hc) as ((bl & bp & sc & n & (Lb & _) & Qs & _ & NL) & LM & Q).
    assert (He : (e < length labels)%nat).
    { destruct B as [[B _]|[_ B]].
      - destruct (Nat.lt_ge_cases e (length labels)); [assumption|]. unfold has_class in B. rewrite nth_overflow in B by assumption. destruct B.
      - destruct (Nat.lt_ge_cases e (length labels)) as [|Ge]; [assumption|]. unfold prob_of in B. rewrite (ml_len _ _ _ HD) in Ge.
        rewrite (nth_overflow pp) in B by assumption. destruct c; cbn in B; Lqa.lra. }
    split; [exact He|]. exists (nth c cols []). split; [apply nth_In; lia|]. apply Q. auto.
Qed.

(** ** Common label swaps with a label outside the classes (C59) *)
Lemma swaps_out tokens labels pps exclude n : forall issues count,
  (exists ij, In ij issues /\ SpecToken.in_text (map (@length string) tokens) ij /\ SpecToken.in_text (map (@length nat) labels) ij /\
     SpecToken.in_text (map (@length (list Q)) pps) ij /\
     ~ In (SpecToken.entry 0%nat labels ij, argmax (SpecToken.entry [] pps ij)) exclude /\
     ((n <= SpecToken.entry 0%nat labels ij)%nat \/ (n <= argmax (SpecToken.entry [] pps ij))%nat)) ->
  forall r, ModelToken.count_swaps n issues tokens labels pps exclude count <> Ok r.
Proof.
  induction issues as [|x issues IH]; intros count (ij & I & T1 & T2 & T3 & NE & O) r; [destruct I|].
  cbn [ModelToken.count_swaps].
  destruct I as [->|I].
  - rewrite (ProofToken.token_at_ok _ _ T1), (ProofToken.at2_ok 0%nat _ _ T2), (ProofToken.at2_ok [] _ _ T3). cbn [rbind].
    destruct (ModelToken.excluded _ _ _) eqn:E.
    + exfalso. apply NE. unfold ModelToken.excluded in E. apply existsb_exists in E. destruct E as ([a b] & I & E). cbn in E.
      apply andb_true_iff in E. destruct E as [E1 E2]. apply Nat.eqb_eq in E1, E2. now subst.
    + assert ((Nat.leb n (SpecToken.entry 0%nat labels ij) || Nat.leb n (argmax (SpecToken.entry [] pps ij)))%bool = true) as ->;
        [|discriminate]. apply orb_true_iff. destruct O as [O|O]; apply Nat.leb_le in O; auto.
  - destruct (ModelToken.token_at tokens x); cbn [rbind]; [|discriminate]. destruct (ModelToken.at2 labels x); cbn [rbind]; [|discriminate].
    destruct (ModelToken.at2 pps x); cbn [rbind]; [|discriminate].
    destruct (ModelToken.excluded _ _ _); [apply IH; eauto 10|]. destruct (_ || _)%bool; [discriminate|apply IH; eauto 10].
Qed.
Lemma C59_out_full : forall srt issues tokens labels pps exclude n,
  (exists row rest sents, pps = (row :: rest) :: sents /\ length row = n) ->
  (exists ij, In ij issues /\ SpecToken.in_text (map (@length string) tokens) ij /\ SpecToken.in_text (map (@length nat) labels) ij /\
     SpecToken.in_text (map (@length (list Q)) pps) ij /\
     ~ In (SpecToken.entry 0%nat labels ij, argmax (SpecToken.entry [] pps ij)) exclude /\
     ((n <= SpecToken.entry 0%nat labels ij)%nat \/ (n <= argmax (SpecToken.entry [] pps ij))%nat)) ->
  forall r, ModelToken.common_swaps srt issues tokens labels pps exclude <> Ok r.
Proof.
  intros srt issues tokens labels pps exclude n (row & rest & sents & -> & <-) H r. unfold ModelToken.common_swaps.
  destruct (ModelToken.count_swaps _ _ _ _ _ _ _) as [c|] eqn:E; cbn [rbind]; [|discriminate].
  exfalso. exact (swaps_out _ _ _ _ _ _ _ H _ E).
Qed.

(** ** Outliers (C28) *)
Section Outlier.
  Import ModelOutlier Lra.
  Open Scope R_scope.
  Lemma minkowski_two scores ds : correct_precision_errors scores ds (Minkowski (Some 2)) = correct_precision_errors scores ds Euclidean.
  Proof.
    unfold correct_precision_errors, tolerance. cbn [rbind]. do 2 f_equal.
    rewrite <- Rpower_sqrt. { do 2 f_equal. unfold Rdiv. now rewrite Rmult_1_l. }
    unfold float_eps. apply Rmult_lt_0_compat; [lra|]. apply Rinv_0_lt_compat, pow_lt. lra.
  Qed.
  Lemma gen_zero {F} (B : backend F) o pp K labels : p_method o = Gen -> p_M o = 0%nat -> pp <> [] -> p_adjust o = false ->
    pred_probs_scores B o pp K labels = Raise ZeroDivision.
  Proof.
    intros G M N A. unfold pred_probs_scores. rewrite A. cbn [rbind]. destruct pp as [|r pp]; [congruence|]. cbn [rmap].
    rewrite G, M. reflexivity.
  Qed.
End Outlier.
