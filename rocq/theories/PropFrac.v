(** * Property C92: frac_noise *)
From Coq Require Import QArith Qabs List ZArith Bool Arith Lia.
From Verif Require Import Base BaseFacts ModelUtil ModelCount ModelRank ModelPool ModelFilter SpecCount SpecFilter SpecFrac
     ProofFilter ProofFrac PropCount PropFilter.
Import ListNotations.
Open Scope Q_scope.

(** ** C92 *)
(** a smaller fraction flags a subset *)
Theorem C92_nested : forall srt K labels pp flt o o' m m',
  flt = PruneByClass \/ flt = PruneByNoiseRate \/ flt = Both -> same_but_frac o o' ->
  num_to_remove_per_class o = None -> frac_noise o <= frac_noise o' ->
  find_label_issues srt labels pp K flt o = Ok m -> find_label_issues srt labels pp K flt o' = Ok m' ->
  forall e, flagged m e -> flagged m' e.
Proof. exact C92_nested_full. Qed.
Print Assumptions C92_nested.

(** prune_by_class marks the fraction of the off-diagonal examples of each class, rounded up (classes whose
    calibrated diagonal reaches [min_examples_per_class]; the marks are then thinned out by the agreement
    filter) *)
Theorem C92_count_partial : forall srt K labels pp o z idx m, argsort_ok srt -> dataset K labels pp ->
  num_to_remove_per_class o = None -> confident_joint o = None -> 0 <= frac_noise o -> frac_noise o <= 1 ->
  compute_confident_joint srt labels pp K None true = Ok (z, idx) ->
  find_label_issues srt labels pp K PruneByClass o = Ok m ->
  exists pruned, length pruned = length labels /\
    (forall e, (e < length labels)%nat -> (flagged m e <-> flagged pruned e /\ clearly_beaten labels pp e)) /\
    forall k, (k < K)%nat -> (2 <= n_labelled k labels)%nat -> (min_examples_per_class o < n_labelled k labels)%nat ->
      (Z.of_nat (min_examples_per_class o) <= zget z k k)%Z ->
      Qnat (n_flagged k labels pruned) - 1 < frac_noise o * (Qnat (n_labelled k labels) - inject_Z (zget z k k)) /\
      frac_noise o * (Qnat (n_labelled k labels) - inject_Z (zget z k k)) <= Qnat (n_flagged k labels pruned).
Proof. exact C92_count_full. Qed.
Print Assumptions C92_count_partial.

(** fraction 0 flags nothing ... *)
Theorem C92_zero : forall srt K labels pp flt o m, argsort_ok srt -> dataset K labels pp ->
  flt = PruneByNoiseRate \/ flt = Both -> num_to_remove_per_class o = None -> frac_noise o == 0 ->
  find_label_issues srt labels pp K flt o = Ok m -> forall e, ~ flagged m e.
Proof. exact C92_zero_full. Qed.
Print Assumptions C92_zero.

(** the other filters ignore it *)
Theorem C92_ignored : forall srt K labels pp flt o o', same_but_frac o o' ->
  flt <> PruneByClass -> flt <> PruneByNoiseRate -> flt <> Both ->
  find_label_issues srt labels pp K flt o = find_label_issues srt labels pp K flt o'.
Proof. exact C92_ignored_full. Qed.
Print Assumptions C92_ignored.

Definition ex92_labels : list nat := [0;0;1;1;2;2]%nat.
Definition ex92_pp : list (list Q) :=
  [[1#10;9#10;0]; [1#10;0;9#10]; [1#20;9#10;1#20]; [1#20;9#10;1#20]; [1#20;1#20;9#10]; [1#20;1#20;9#10]].
Definition ex92_options (f : Q) : options :=
  {| frac_noise := f; num_to_remove_per_class := None; min_examples_per_class := 1;
     confident_joint := None; n_jobs := 1; sched_c := []; sched_n := [] |}.
(** ... except with prune_by_class: raising the diagonal to [min_examples_per_class] takes the whole
    increase from each noisy cell when the diagonal was 0, so the column no longer adds up to the class
    size, and the missing example is flagged even with fraction 0 *)
Theorem C92_zero_by_class_refuted : exists labels pp K o m,
  dataset K labels pp /\ two_classes labels /\ num_to_remove_per_class o = None /\ confident_joint o = None /\
  frac_noise o = 0 /\ min_examples_per_class o = 1%nat /\
  find_label_issues argsort_ins labels pp K PruneByClass o = Ok m /\ exists e, flagged m e.
Proof.
  exists ex92_labels, ex92_pp, 3%nat, (ex92_options 0). eexists.
  split; [apply dataset_b_ok; vm_compute; reflexivity|].
  split; [exists 0%nat, 1%nat; simpl; repeat split; auto 20|].
  split; [reflexivity|]. split; [reflexivity|]. split; [reflexivity|]. split; [reflexivity|].
  split; [vm_compute; reflexivity|]. exists 0%nat. vm_compute. reflexivity.
Qed.
Print Assumptions C92_zero_by_class_refuted.

(** 7 examples off the diagonal: at fraction 1/2, 4 of them are marked *)
Definition ex92b_labels : list nat := (repeat 0 12 ++ repeat 1 6)%nat.
Definition ex92b_pp : list (list Q) :=
  repeat [1#10; 9#10] 7 ++ repeat [9#10; 1#10] 5 ++ repeat [1#10; 9#10] 6.
Example C92_example :
  find_label_issues argsort_ins ex92b_labels ex92b_pp 2 PruneByClass (ex92_options 1) = Ok (mask_of 18 (seq 0 7)) /\
  find_label_issues argsort_ins ex92b_labels ex92b_pp 2 PruneByClass (ex92_options (1 # 2)) = Ok (mask_of 18 (seq 0 4)) /\
  same_but_frac (ex92_options (1 # 2)) (ex92_options 1) /\ dataset 2 ex92b_labels ex92b_pp.
Proof.
  split; [vm_compute; reflexivity|]. split; [vm_compute; reflexivity|]. split; [vm_compute; auto 10|].
  apply dataset_b_ok; vm_compute; reflexivity.
Qed.
