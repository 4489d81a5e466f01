(** * Property C164: the calibrated number of label issues is at least the uncalibrated one *)
From Coq Require Import QArith Qabs List ZArith Bool Arith Lia Lqa.
From Verif Require Import Base BaseFacts ModelUtil ModelCount ModelFilter ModelIssueCount SpecCount SpecFilter
     SpecIssueCount SpecCalibCount ProofCount ProofFilter ProofCalibCount PropCount.
Import ListNotations.
Open Scope Q_scope.

(** The documented guarantee, "always equal to or greater", holds as soon as every class has an example that is not
    confidently counted into another class. *)
Theorem C164_at_least_partial : forall srt K labels pp cj, argsort_ok srt -> dataset K labels pp -> two_classes labels ->
  (forall k, ~ all_elsewhere (get_confident_thresholds labels pp K) labels pp k) ->
  exists n N, num_label_issues_method srt labels pp K cj OffDiagonal = Ok n /\
    num_label_issues_method srt labels pp K cj OffDiagonalCalibrated = Ok N /\ (n <= N)%Z.
Proof. exact C164_at_least_full. Qed.
Print Assumptions C164_at_least_partial.

(** In general the calibrated count falls short by at most one for every class that has no such example. *)
Theorem C164_bound : forall srt K labels pp cj, argsort_ok srt -> dataset K labels pp -> two_classes labels ->
  exists n N c, num_label_issues_method srt labels pp K cj OffDiagonal = Ok n /\
    num_label_issues_method srt labels pp K cj OffDiagonalCalibrated = Ok N /\
    holds_for K (all_elsewhere (get_confident_thresholds labels pp K) labels pp) c /\ (n <= N + Z.of_nat c)%Z.
Proof. exact C164_bound_full. Qed.
Print Assumptions C164_bound.

(** Five examples of each of two classes; some are not confident, so calibration raises two issues to four. *)
Definition y164 : list nat := [0; 0; 0; 0; 0; 1; 1; 1; 1; 1]%nat.
Definition pp164 : list (list Q) :=
  [[9#10; 1#10]; [6#10; 4#10]; [6#10; 4#10]; [1#10; 9#10]; [1#10; 9#10];
   [1#10; 9#10]; [4#10; 6#10]; [4#10; 6#10]; [4#10; 6#10]; [5#10; 5#10]].
Example C164_example :
  dataset 2 y164 pp164 /\ two_classes y164 /\
  (forall k, ~ all_elsewhere (get_confident_thresholds y164 pp164 2) y164 pp164 k) /\
  num_label_issues_method argsort_ins y164 pp164 2 None OffDiagonal = Ok 2%Z /\
  num_label_issues_method argsort_ins y164 pp164 2 None OffDiagonalCalibrated = Ok 4%Z.
Proof.
  split; [apply dataset_b_ok; vm_compute; reflexivity|]. split; [exists 0%nat, 1%nat; simpl; intuition congruence|].
  split; [|split; vm_compute; reflexivity].
  assert (C0 : counted_as (get_confident_thresholds y164 pp164 2) (row_of pp164 0) 0) by (apply counted_as_iff; [reflexivity|split; vm_compute; reflexivity]).
  assert (C1 : counted_as (get_confident_thresholds y164 pp164 2) (row_of pp164 5) 1) by (apply counted_as_iff; [reflexivity|split; vm_compute; reflexivity]).
  intros k (Hin & H). simpl in Hin. assert (k = 0%nat \/ k = 1%nat) as [->| ->] by lia.
  - destruct (H 0%nat) as (j & Cj & Hj); [vm_compute; lia|reflexivity|]. apply Hj. exact (counted_as_fun _ _ _ _ Cj C0).
  - destruct (H 5%nat) as (j & Cj & Hj); [vm_compute; lia|reflexivity|]. apply Hj. exact (counted_as_fun _ _ _ _ Cj C1).
Qed.

(** "Number will always be equal to or greater than the estimate of issues found with the method 'off_diagonal'": both
    examples of class 0 are confidently class 1.  The confident joint then still has a 1 on the diagonal of class 0, and
    calibrating the row [1; 2] to two examples gives [1; 1]. *)
Theorem C164_always_refuted : exists K labels pp,
  dataset K labels pp /\ two_classes labels /\
  num_label_issues_method argsort_ins labels pp K None OffDiagonal = Ok 2%Z /\
  num_label_issues_method argsort_ins labels pp K None OffDiagonalCalibrated = Ok 1%Z.
Proof.
  exists 2%nat, [0; 0; 1; 1]%nat, [[4#10; 6#10]; [4#10; 6#10]; [45#100; 55#100]; [45#100; 55#100]].
  split; [apply dataset_b_ok; vm_compute; reflexivity|]. split; [exists 0%nat, 1%nat; simpl; intuition congruence|].
  split; vm_compute; reflexivity.
Qed.
Print Assumptions C164_always_refuted.
