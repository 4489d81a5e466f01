(** * Property C182: supplying what would have been computed anyway changes nothing *)
From Coq Require Import QArith List ZArith Bool Arith.
From Verif Require Import Base ModelUtil ModelCount ModelRank ModelPool ModelFilter ModelIssueCount SpecCount SpecFilter SpecNoop
     ProofFilter ProofNoop.
Import ListNotations.
Open Scope Q_scope.

(** find_label_issues, mask or ranked indices, every filter and all other options *)
Theorem C182_find : forall srt K labels pp, argsort_ok srt -> dataset K labels pp ->
  exists z idx, compute_confident_joint srt labels pp K None true = Ok (z, idx) /\
  forall flt o, find_label_issues srt labels pp K flt (with_cj o (Some (zmat_to_q z))) = find_label_issues srt labels pp K flt (with_cj o None) /\
    forall rank_by adjust, find_label_issues_ranked srt labels pp K flt (with_cj o (Some (zmat_to_q z))) rank_by adjust =
      find_label_issues_ranked srt labels pp K flt (with_cj o None) rank_by adjust.
Proof. exact find_noop. Qed.

(** only the pruning filters look at a supplied confident joint, whatever it is *)
Theorem C182_find_ignored : forall srt K labels pp, argsort_ok srt -> dataset K labels pp -> forall flt o cj,
  flt <> PruneByNoiseRate -> flt <> PruneByClass -> flt <> Both ->
  find_label_issues srt labels pp K flt (with_cj o (Some cj)) = find_label_issues srt labels pp K flt (with_cj o None).
Proof. exact find_ignored. Qed.

(** num_label_issues and estimate_joint *)
Theorem C182_count : forall srt K labels pp, argsort_ok srt -> dataset K labels pp ->
  exists z idx, compute_confident_joint srt labels pp K None true = Ok (z, idx) /\
  num_label_issues_method srt labels pp K (Some (zmat_to_q z)) OffDiagonalCustom = num_label_issues_method srt labels pp K None OffDiagonalCalibrated /\
  estimate_joint srt labels pp K (Some (zmat_to_q z)) = estimate_joint srt labels pp K None.
Proof. exact count_noop. Qed.
Theorem C182_count_ignored : forall srt labels pp K cj cj' m, m <> OffDiagonalCustom ->
  num_label_issues_method srt labels pp K cj m = num_label_issues_method srt labels pp K cj' m.
Proof. exact count_ignored. Qed.

Definition ex_l : list nat := [0; 0; 0; 0; 0; 0; 1; 1; 1; 1]%nat.
Definition ex_p : list (list Q) := [[9#10; 1#10]; [9#10; 1#10]; [9#10; 1#10]; [1#10; 9#10]; [45#100; 55#100]; [4#10; 6#10];
  [1#10; 9#10]; [1#10; 9#10]; [2#10; 8#10]; [3#10; 7#10]].
Definition ex_o : options := {| frac_noise := 1; num_to_remove_per_class := None; min_examples_per_class := 1;
  confident_joint := None; n_jobs := 1; sched_c := []; sched_n := [] |}.
Example ex_dataset : dataset 2 ex_l ex_p.
Proof. apply dataset_b_ok. vm_compute. reflexivity. Qed.
Example C182_example : compute_confident_joint argsort_ins ex_l ex_p 2 None true = Ok ([[4; 2]; [0; 4]]%Z, [3%nat]) /\
  find_label_issues argsort_ins ex_l ex_p 2 PruneByNoiseRate (with_cj ex_o (Some [[4; 2]; [0; 4]])) =
    Ok [false; false; false; true; false; true; false; false; false; false] /\
  find_label_issues argsort_ins ex_l ex_p 2 PruneByNoiseRate (with_cj ex_o None) =
    Ok [false; false; false; true; false; true; false; false; false; false].
Proof. split; [vm_compute; reflexivity|]. split; vm_compute; reflexivity. Qed.

(** The uncalibrated confident joint (calibrate=False) is not what would have been computed: supplying it changes the
    examples flagged by a pruning filter. *)
Theorem C182_uncalibrated_refuted : exists labels pp o z idx m m', dataset 2 labels pp /\
  compute_confident_joint argsort_ins labels pp 2 None false = Ok (z, idx) /\
  find_label_issues argsort_ins labels pp 2 PruneByNoiseRate (with_cj o None) = Ok m /\
  find_label_issues argsort_ins labels pp 2 PruneByNoiseRate (with_cj o (Some (zmat_to_q z))) = Ok m' /\
  count_true m = 2%nat /\ count_true m' = 1%nat.
Proof.
  exists ex_l, ex_p, ex_o, [[3; 1]; [0; 2]]%Z, [3%nat], [false; false; false; true; false; true; false; false; false; false],
    [false; false; false; true; false; false; false; false; false; false].
  split; [exact ex_dataset|]. split; [vm_compute; reflexivity|]. split; [vm_compute; reflexivity|].
  split; [vm_compute; reflexivity|]. split; reflexivity.
Qed.

Print Assumptions C182_find.
Print Assumptions C182_find_ignored.
Print Assumptions C182_count.
Print Assumptions C182_count_ignored.
Print Assumptions C182_uncalibrated_refuted.
