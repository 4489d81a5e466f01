(** * Proofs for C182, multi-label data *)
From Coq Require Import QArith List ZArith Bool Arith Lia.
From Verif Require Import Base BaseFacts ModelUtil ModelCount ModelRank ModelPool ModelFilter ModelMultilabel ModelMultiCount SpecCount SpecFilter
     SpecMultilabel SpecNoop SpecNoopMulti ProofMultilabel ProofIssueCount ProofNoop.
From Verif Require ProofWays.
Import ListNotations.
Open Scope Q_scope.

Lemma rmap_nth_ok {A B} (f : A -> res B) l : forall s, rmap f l = Ok s -> forall c d d', (c < length l)%nat -> f (nth c l d) = Ok (nth c s d').
Proof.
  induction l as [|a l IH]; intros s E c d d' Hc; cbn [length] in Hc; [lia|]. cbn [rmap] in E.
  destruct (f a) as [b|] eqn:Ea; cbn [rbind] in E; [|discriminate].
  destruct (rmap f l) as [s'|] eqn:El; cbn [rbind] in E; [|discriminate]. injection E as <-.
  destruct c as [|c]; cbn [nth]; [exact Ea|]. apply IH; auto. lia.
Qed.
Lemma rmap_same {A B} (f g : A -> res B) l : (forall a, In a l -> f a = g a) -> rmap f l = rmap g l.
Proof.
  induction l as [|a l IH]; intros H; [reflexivity|]. cbn [rmap]. rewrite (H a (or_introl eq_refl)), IH; [reflexivity|]. intros; apply H; right; auto.
Qed.

Section Multi.
Variables (srt : list Q -> list nat) (K : nat) (labels : list (list nat)) (pp : list (list Q)) (cjs : list (list (list Z))).
Hypothesis E : ml_confident_joint_counts srt labels pp K = Ok cjs.

Lemma class_compute c : (c < K)%nat -> exists idx,
  compute_confident_joint srt (binary_labels labels K c) (binary_probs pp c) 2 None true = Ok (nth c cjs [], idx).
Proof.
  intros Hc. unfold ml_confident_joint_counts in E. pose proof (rmap_nth_ok _ _ _ E c 0%nat []) as H.
  rewrite seq_length in H. specialize (H Hc). rewrite seq_nth in H by auto. cbn [plus] in H.
  destruct (compute_confident_joint srt (binary_labels labels K c) (binary_probs pp c) 2 None true) as [(z & idx)|]; cbn [rbind fst] in H; [|discriminate].
  injection H as <-. exists idx. reflexivity.
Qed.
Lemma supplied c : (c < K)%nat -> nth c (map zmat_to_q cjs) [] = zmat_to_q (nth c cjs []).
Proof.
  intros Hc. change (@nil (list Q)) with (zmat_to_q []). apply map_nth.
Qed.
Lemma class_same flt o c : (c < K)%nat ->
  find_label_issues srt (binary_labels labels K c) (binary_probs pp c) 2 flt (class_options (ml_with_cj o (Some (map zmat_to_q cjs))) c) =
  find_label_issues srt (binary_labels labels K c) (binary_probs pp c) 2 flt (class_options (ml_with_cj o None) c).
Proof.
  intros Hc. destruct (class_compute c Hc) as (idx & H).
  change (class_options (ml_with_cj o (Some (map zmat_to_q cjs))) c) with (with_cj (class_options o c) (Some (nth c (map zmat_to_q cjs) []))).
  change (class_options (ml_with_cj o None) c) with (with_cj (class_options o c) None).
  rewrite supplied by auto. unfold find_label_issues. rewrite (raw_noop srt 2 _ _ _ idx) by exact H. reflexivity.
Qed.
Theorem per_class_noop flt o low : 
  issues_per_class srt labels pp K flt (ml_with_cj o (Some (map zmat_to_q cjs))) low = issues_per_class srt labels pp K flt (ml_with_cj o None) low.
Proof.
  unfold issues_per_class. apply rmap_same. intros c Hc. apply in_seq in Hc. destruct low; [reflexivity|]. apply class_same. lia.
Qed.
Theorem ranked_noop flt o rank_by adjust :
  ranked_issues_per_class srt labels pp K flt (ml_with_cj o (Some (map zmat_to_q cjs))) rank_by adjust =
  ranked_issues_per_class srt labels pp K flt (ml_with_cj o None) rank_by adjust.
Proof.
  unfold ranked_issues_per_class. apply rmap_same. intros c Hc. apply in_seq in Hc. unfold find_label_issues_ranked. rewrite class_same by lia. reflexivity.
Qed.
Lemma low_noop o : ml_low_indices srt labels pp K (ml_with_cj o (Some (map zmat_to_q cjs))) = ml_low_indices srt labels pp K (ml_with_cj o None).
Proof.
  unfold ml_low_indices. cbn [ml_with_cj ml_confident_joint ml_sched ml_n_jobs].
  change (default_options (Some (map zmat_to_q cjs)) (ml_sched o) (ml_n_jobs o)) with (ml_with_cj (default_options None (ml_sched o) (ml_n_jobs o)) (Some (map zmat_to_q cjs))).
  change (default_options None (ml_sched o) (ml_n_jobs o)) with (ml_with_cj (default_options None (ml_sched o) (ml_n_jobs o)) None) at 2.
  rewrite per_class_noop. reflexivity.
Qed.
Lemma find_ml_noop flt o low : ml_find_label_issues srt labels pp K flt (ml_with_cj o (Some (map zmat_to_q cjs))) low =
  ml_find_label_issues srt labels pp K flt (ml_with_cj o None) low.
Proof. unfold ml_find_label_issues. rewrite low_noop, per_class_noop. reflexivity. Qed.
Lemma find_ml_ranked_noop flt o rank_by adjust : ml_find_label_issues_ranked srt labels pp K flt (ml_with_cj o (Some (map zmat_to_q cjs))) rank_by adjust =
  ml_find_label_issues_ranked srt labels pp K flt (ml_with_cj o None) rank_by adjust.
Proof. unfold ml_find_label_issues_ranked. rewrite low_noop, ranked_noop. reflexivity. Qed.
End Multi.

Theorem multilabel_noop srt K labels pp : argsort_ok srt -> ml_dataset K labels pp ->
  exists cjs, ml_confident_joint_counts srt labels pp K = Ok cjs /\ length cjs = K /\ forall flt o,
    (forall low, issues_per_class srt labels pp K flt (ml_with_cj o (Some (map zmat_to_q cjs))) low = issues_per_class srt labels pp K flt (ml_with_cj o None) low) /\
    (forall low, ml_find_label_issues srt labels pp K flt (ml_with_cj o (Some (map zmat_to_q cjs))) low = ml_find_label_issues srt labels pp K flt (ml_with_cj o None) low) /\
    (forall rank_by adjust, ml_find_label_issues_ranked srt labels pp K flt (ml_with_cj o (Some (map zmat_to_q cjs))) rank_by adjust =
       ml_find_label_issues_ranked srt labels pp K flt (ml_with_cj o None) rank_by adjust).
Proof.
  intros Hs Hd. destruct (C66_full srt labels pp K Hs Hd) as (cjs & E & L & _). exists cjs. split; [exact E|]. split; [exact L|]. intros flt o.
  split; [intros; apply per_class_noop; exact E|]. split; [intros; apply find_ml_noop; exact E|]. intros; apply find_ml_ranked_noop; exact E.
Qed.
(** the joint, when every class from 0 to K-1 is used *)
Theorem multilabel_joint_noop srt K labels pp : argsort_ok srt -> ml_dataset K labels pp -> num_unique_classes labels = K ->
  exists cjs, ml_confident_joint_counts srt labels pp K = Ok cjs /\
    ml_estimate_joint srt labels pp K (Some (map zmat_to_q cjs)) = ml_estimate_joint srt labels pp K None.
Proof.
  intros Hs Hd HK. destruct (C66_full srt labels pp K Hs Hd) as (cjs & E & L & _). exists cjs. split; [exact E|].
  unfold ml_estimate_joint. rewrite E. cbn [rbind]. unfold ml_calibrate. rewrite HK.
  destruct (rmap_tot (fun p => calibrate_confident_joint srt (fst p) (binary_labels labels K (snd p))) (combine (map zmat_to_q cjs) (seq 0 K))) as (ms & Em).
  { intros (m & c) Hin. apply In_nth with (d := ([], 0%nat)) in Hin as (i & Hi & Ei).
    rewrite combine_length, map_length, seq_length, L in Hi. rewrite combine_nth in Ei by (rewrite map_length, seq_length; auto).
    rewrite seq_nth in Ei by lia. injection Ei as Em Ec. cbn [plus] in Ec. subst i. cbn [fst snd].
    assert (Hc : (c < K)%nat) by lia. rewrite <- Em, (supplied K) by auto.
    destruct (class_compute srt K labels pp cjs E c Hc) as (idx & H).
    destruct (ProofWays.ways srt 2 _ _ Hs (binary_dataset K labels pp c Hd Hc)) as (z & idx' & H' & _ & F).
    rewrite H in H'. injection H' as <- _. exists (nth c cjs []). exact F. }
  rewrite Em. cbn [rbind]. reflexivity.
Qed.
