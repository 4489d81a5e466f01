(** * C133: searching a dataset from which the label issues have been removed *)
From Coq Require Import QArith Qabs List Sorted ZArith Bool Arith Lia Lqa.
From Verif Require Import Base BaseFacts ModelUtil ModelCount ModelRank ModelFilter SpecCount SpecFilter SpecIdeal SpecTwice
  ProofUtil ProofCount ProofFilter ProofIdeal ProofTwice ProofMonotone.
Import ListNotations.
Open Scope Q_scope.

(** After removing every example whose label is not the predicted one, no later search with the same predictions
    finds anything, whatever the filter and its options. *)
Theorem C133_disagreements_removed : forall srt K labels pp o m, argsort_ok srt -> dataset K labels pp ->
  two_classes labels -> two_classes (kept m labels) ->
  find_label_issues srt labels pp K PredictedNeqGiven o = Ok m ->
  num_label_issues srt (kept m labels) (kept m pp) K = Ok 0%nat /\
  forall flt o' m', find_label_issues srt (kept m labels) (kept m pp) K flt o' = Ok m' -> forall e, ~ flagged m' e.
Proof. exact C133_disagreements_full. Qed.
Print Assumptions C133_disagreements_removed.

(** Likewise after giving these examples the predicted class as label instead of removing them. *)
Theorem C133_relabelled : forall srt K labels labels' pp o m, argsort_ok srt -> dataset K labels pp ->
  two_classes labels -> two_classes labels' -> length labels' = length labels ->
  find_label_issues srt labels pp K PredictedNeqGiven o = Ok m ->
  (forall e, flagged m e -> most_likely (row_of pp e) (label_of labels' e)) ->
  (forall e, (e < length labels)%nat -> ~ flagged m e -> label_of labels' e = label_of labels e) ->
  num_label_issues srt labels' pp K = Ok 0%nat /\
  forall flt o' m', find_label_issues srt labels' pp K flt o' = Ok m' -> forall e, ~ flagged m' e.
Proof. exact C133_relabelled_full. Qed.
Print Assumptions C133_relabelled.

(** With two classes, one round of confident learning is enough. *)
Theorem C133_binary : forall srt labels pp o m, argsort_ok srt -> dataset 2 labels pp -> rows_sum_to_one pp ->
  two_classes labels -> two_classes (kept m labels) ->
  find_label_issues srt labels pp 2 ConfidentLearning o = Ok m ->
  num_label_issues srt (kept m labels) (kept m pp) 2 = Ok 0%nat /\
  forall flt o' m', flt = ConfidentLearning \/ flt = LowSelfConfidence \/ flt = LowNormalizedMargin ->
    find_label_issues srt (kept m labels) (kept m pp) 2 flt o' = Ok m' -> forall e, ~ flagged m' e.
Proof. exact C133_binary_full. Qed.
Print Assumptions C133_binary.

(** So it is, with any number of classes, if the predictions separate the true classes. *)
Theorem C133_separating : forall srt K labels tl pp o m, argsort_ok srt -> dataset K labels pp ->
  two_classes labels -> two_classes (kept m labels) -> ideal K labels tl pp ->
  find_label_issues srt labels pp K ConfidentLearning o = Ok m ->
  num_label_issues srt (kept m labels) (kept m pp) K = Ok 0%nat /\
  forall flt o' m', find_label_issues srt (kept m labels) (kept m pp) K flt o' = Ok m' -> forall e, ~ flagged m' e.
Proof. exact C133_separating_full. Qed.
Print Assumptions C133_separating.

Definition opts133 (f : Q) : options := {| frac_noise := f; num_to_remove_per_class := None; min_examples_per_class := 1;
  confident_joint := None; n_jobs := 1; sched_c := []; sched_n := [] |}.
Definition y133 : list nat := [1; 1; 2; 0; 2; 0]%nat.
Definition pp133 : list (list Q) :=
  [[7#10; 1#10; 2#10]; [4#10; 3#10; 3#10]; [4#10; 4#10; 2#10]; [8#10; 1#10; 1#10]; [6#10; 1#10; 3#10]; [1; 0; 0]].

(** In general a second round can flag examples that the first one kept: removing an example lowers the threshold of
    its class when its probability for the class was above average. *)
Theorem C133_second_round_refuted :
  exists K labels pp m m', dataset K labels pp /\ two_classes labels /\ rows_sum_to_one pp /\ two_classes (kept m labels) /\
    find_label_issues argsort_ins labels pp K ConfidentLearning (opts133 1) = Ok m /\
    find_label_issues argsort_ins (kept m labels) (kept m pp) K ConfidentLearning (opts133 1) = Ok m' /\
    ~ flagged m 4 /\ flagged m' 2 /\ nth 2 (kept m [0; 1; 2; 3; 4; 5]%nat) 0%nat = 4%nat.
Proof.
  exists 3%nat, y133, pp133, [false; true; true; false; false; false], [false; false; true; false].
  split; [apply dataset_b_ok; vm_compute; reflexivity|].
  split; [exists 0%nat, 1%nat; cbn; intuition lia|].
  split. { intros r Hr. cbn in Hr. repeat (destruct Hr as [<-|Hr]; [vm_compute; reflexivity|]). destruct Hr. }
  split; [exists 0%nat, 1%nat; cbn; intuition lia|].
  split; [vm_compute; reflexivity|]. split; [vm_compute; reflexivity|].
  repeat split; try discriminate.
Qed.
Print Assumptions C133_second_round_refuted.

(** Pruning a fraction of the estimated noise leaves issues for the next round, also with two classes. *)
Definition y133b : list nat := [0; 0; 0; 0; 1; 1; 1; 1; 1; 1]%nat.
Definition pp133b : list (list Q) :=
  map (fun a => [a; 1 - a]) [9#10; 9#10; 9#10; 9#10; 1#10; 1#10; 1#10; 1#10; 9#10; 95#100].
Theorem C133_pruned_fraction_refuted :
  exists labels pp m m', dataset 2 labels pp /\ two_classes labels /\ rows_sum_to_one pp /\ two_classes (kept m labels) /\
    find_label_issues argsort_ins labels pp 2 PruneByNoiseRate (opts133 (1 # 2)) = Ok m /\
    find_label_issues argsort_ins (kept m labels) (kept m pp) 2 PruneByNoiseRate (opts133 1) = Ok m' /\
    count_true m = 1%nat /\ count_true m' = 1%nat.
Proof.
  exists y133b, pp133b. do 2 eexists.
  split; [apply dataset_b_ok; vm_compute; reflexivity|].
  split; [exists 0%nat, 1%nat; cbn; intuition lia|].
  split. { intros r Hr. cbn in Hr. repeat (destruct Hr as [<-|Hr]; [vm_compute; reflexivity|]). destruct Hr. }
  split; cycle 1.
  split; [vm_compute; reflexivity|]. split; [vm_compute; reflexivity|]. split; vm_compute; reflexivity.
  exists 0%nat, 1%nat. vm_compute. intuition lia.
Qed.
Print Assumptions C133_pruned_fraction_refuted.

(** the first round of the binary example flags two examples, and the second none *)
Example C133_binary_example : exists m m',
  find_label_issues argsort_ins y133b pp133b 2 ConfidentLearning (opts133 1) = Ok m /\ count_true m = 2%nat /\
  find_label_issues argsort_ins (kept m y133b) (kept m pp133b) 2 ConfidentLearning (opts133 1) = Ok m' /\
  count_true m' = 0%nat /\ length m' = 8%nat.
Proof. do 2 eexists. split; [vm_compute; reflexivity|]. split; [reflexivity|]. split; [vm_compute; reflexivity|]. split; reflexivity. Qed.
(** three classes, ten examples, three labels disagree with the predictions; seven examples of all classes are left *)
Definition y133c : list nat := [0; 0; 1; 1; 1; 2; 2; 2; 2; 0]%nat.
Definition pp133c : list (list Q) :=
  [[6#10; 2#10; 2#10]; [8#10; 1#10; 1#10]; [5#10; 3#10; 2#10]; [1#10; 8#10; 1#10]; [2#10; 6#10; 2#10]; [1#10; 5#10; 4#10];
   [1#10; 1#10; 8#10]; [2#10; 2#10; 6#10]; [0; 0; 1]; [1#10; 2#10; 7#10]].
Example C133_disagreements_example : exists m,
  find_label_issues argsort_ins y133c pp133c 3 PredictedNeqGiven (opts133 1) = Ok m /\ count_true m = 3%nat /\
  two_classes (kept m y133c) /\ length (kept m y133c) = 7%nat /\
  Forall (fun flt => find_label_issues argsort_ins (kept m y133c) (kept m pp133c) 3 flt (opts133 1) = Ok (repeat false 7))
    [LowNormalizedMargin; LowSelfConfidence; PruneByNoiseRate; PruneByClass; Both; ConfidentLearning; PredictedNeqGiven].
Proof.
  eexists. split; [vm_compute; reflexivity|]. split; [reflexivity|].
  split; [exists 0%nat, 1%nat; cbn; intuition lia|]. split; [reflexivity|].
  repeat constructor; vm_compute; reflexivity.
Qed.
Example C133_relabelled_example : exists m,
  find_label_issues argsort_ins y133c pp133c 3 PredictedNeqGiven (opts133 1) = Ok m /\
  let labels' := [0; 0; 0; 1; 1; 1; 2; 2; 2; 2]%nat in
  map argmax pp133c = labels' /\ (forall e, (e < 10)%nat -> ~ flagged m e -> label_of labels' e = label_of y133c e) /\
  Forall (fun flt => find_label_issues argsort_ins labels' pp133c 3 flt (opts133 1) = Ok (repeat false 10))
    [LowNormalizedMargin; LowSelfConfidence; PruneByNoiseRate; PruneByClass; Both; ConfidentLearning; PredictedNeqGiven].
Proof.
  eexists. split; [vm_compute; reflexivity|]. cbv zeta. split; [vm_compute; reflexivity|]. split.
  - intros e He F. do 10 (destruct e as [|e]; [first [reflexivity|destruct F; reflexivity]|]). lia.
  - repeat constructor; vm_compute; reflexivity.
Qed.
