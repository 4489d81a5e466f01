(** * Proofs for C182 *)
From Coq Require Import QArith List ZArith Bool Arith Lia.
From Verif Require Import Base BaseFacts ModelUtil ModelCount ModelRank ModelPool ModelFilter ModelIssueCount SpecCount SpecFilter SpecNoop
     ProofCount ProofFilter ProofIssueCount ProofWays.
Import ListNotations.
Open Scope Q_scope.

Section Noop.
Variables (srt : list Q -> list nat) (K : nat) (labels : list nat) (pp : list (list Q)).
Hypothesis Hs : argsort_ok srt.
Hypothesis Hd : dataset K labels pp.

Lemma raw_noop z idx flt o : compute_confident_joint srt labels pp K None true = Ok (z, idx) ->
  raw_mask srt labels pp K flt (with_cj o (Some (zmat_to_q z))) = raw_mask srt labels pp K flt (with_cj o None).
Proof. intros E. unfold raw_mask. cbn [with_cj confident_joint]. rewrite E. destruct flt; reflexivity. Qed.

Theorem find_noop : exists z idx, compute_confident_joint srt labels pp K None true = Ok (z, idx) /\
  forall flt o, find_label_issues srt labels pp K flt (with_cj o (Some (zmat_to_q z))) = find_label_issues srt labels pp K flt (with_cj o None) /\
    forall rank_by adjust, find_label_issues_ranked srt labels pp K flt (with_cj o (Some (zmat_to_q z))) rank_by adjust =
      find_label_issues_ranked srt labels pp K flt (with_cj o None) rank_by adjust.
Proof.
  destruct (ways srt K labels pp Hs Hd) as (z & idx & E & _ & _). exists z, idx. split; [exact E|]. intros flt o.
  assert (F : find_label_issues srt labels pp K flt (with_cj o (Some (zmat_to_q z))) = find_label_issues srt labels pp K flt (with_cj o None)).
  { unfold find_label_issues. rewrite (raw_noop z idx) by auto. reflexivity. }
  split; [exact F|]. intros rank_by adjust. unfold find_label_issues_ranked. rewrite F. reflexivity.
Qed.

Theorem find_ignored flt o cj : flt <> PruneByNoiseRate -> flt <> PruneByClass -> flt <> Both ->
  find_label_issues srt labels pp K flt (with_cj o (Some cj)) = find_label_issues srt labels pp K flt (with_cj o None).
Proof.
  intros N1 N2 N3. destruct (ways srt K labels pp Hs Hd) as (z & idx & E & _ & _).
  unfold find_label_issues, raw_mask. cbn [with_cj confident_joint num_to_remove_per_class n_jobs]. rewrite E.
  destruct flt; try congruence; reflexivity.
Qed.

Theorem count_noop : exists z idx, compute_confident_joint srt labels pp K None true = Ok (z, idx) /\
  num_label_issues_method srt labels pp K (Some (zmat_to_q z)) OffDiagonalCustom = num_label_issues_method srt labels pp K None OffDiagonalCalibrated /\
  estimate_joint srt labels pp K (Some (zmat_to_q z)) = estimate_joint srt labels pp K None.
Proof.
  destruct (ways srt K labels pp Hs Hd) as (z & idx & E & _ & F). exists z, idx. split; [exact E|]. split.
  - unfold num_label_issues_method. destruct (assert_valid_inputs labels pp K false); cbn [rbind]; [|reflexivity].
    unfold num_label_issues_from_joint. rewrite E. reflexivity.
  - unfold estimate_joint. rewrite E, F. reflexivity.
Qed.
End Noop.

Theorem count_ignored srt labels pp K cj cj' m : m <> OffDiagonalCustom ->
  num_label_issues_method srt labels pp K cj m = num_label_issues_method srt labels pp K cj' m.
Proof. intros N. unfold num_label_issues_method. destruct m; try congruence; reflexivity. Qed.
