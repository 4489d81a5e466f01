(** * Property C91: the estimation methods of num_label_issues *)
From Coq Require Import QArith Qabs List ZArith Bool Arith Lia.
From Verif Require Import Base BaseFacts ModelUtil ModelCount ModelFilter ModelIssueCount SpecCount SpecFilter
     SpecIssueCount ProofIssueCount PropCount.
Import ListNotations.
Open Scope Q_scope.

(** ** C91 *)
(** "off_diagonal_calibrated" is exactly the off-diagonal total of the calibrated confident joint: the
    second calibration and the final rounding change nothing. *)
Theorem C91_calibrated : forall srt K labels pp cj, argsort_ok srt -> dataset K labels pp -> two_classes labels ->
  exists z idx, compute_confident_joint srt labels pp K None true = Ok (z, idx) /\
    num_label_issues_method srt labels pp K cj OffDiagonalCalibrated = Ok (off_diagonal_total K z) /\
    (0 <= off_diagonal_total K z <= Z.of_nat (length labels))%Z.
Proof. exact C91_calibrated_full. Qed.
Print Assumptions C91_calibrated.

Theorem C91_custom : forall srt K labels pp c, argsort_ok srt -> dataset K labels pp -> two_classes labels ->
  length c = K -> (forall r, In r c -> length r = K) ->
  (forall r x, In r c -> In x r -> 0 <= x) -> (forall r, In r c -> TINY_VALUE <= qsum r) ->
  exists z, calibrate_confident_joint srt c labels = Ok z /\
    num_label_issues_method srt labels pp K (Some c) OffDiagonalCustom = Ok (off_diagonal_total K z) /\
    (0 <= off_diagonal_total K z <= Z.of_nat (length labels))%Z.
Proof. exact C91_custom_full. Qed.
Print Assumptions C91_custom.

(** Both counts are less than K examples away from what the (custom, or computed uncalibrated) matrix
    suggests class by class. *)
Theorem C91_custom_near : forall srt K labels pp c n, argsort_ok srt -> dataset K labels pp -> two_classes labels ->
  length c = K -> (forall r, In r c -> length r = K) ->
  (forall r x, In r c -> In x r -> 0 <= x) -> (forall r, In r c -> TINY_VALUE <= qsum r) ->
  num_label_issues_method srt labels pp K (Some c) OffDiagonalCustom = Ok n ->
  Qabs (inject_Z n - suggested_issues K c labels) < Qnat K.
Proof. exact C91_near_full. Qed.
Print Assumptions C91_custom_near.

Theorem C91_calibrated_near : forall srt K labels pp cj cj0 idx n,
  argsort_ok srt -> dataset K labels pp -> two_classes labels ->
  compute_confident_joint srt labels pp K None false = Ok (cj0, idx) ->
  num_label_issues_method srt labels pp K cj OffDiagonalCalibrated = Ok n ->
  Qabs (inject_Z n - suggested_issues K (zmat_to_q cj0) labels) < Qnat K.
Proof. exact C91_near_calibrated_full. Qed.
Print Assumptions C91_calibrated_near.

(** "off_diagonal_custom" without a matrix and unknown methods are rejected; the default method ignores a
    supplied matrix. *)
Theorem C91_choice : forall srt K labels pp cj,
  (dataset K labels pp -> two_classes labels ->
     num_label_issues_method srt labels pp K None OffDiagonalCustom = Raise ValueError) /\
  (dataset K labels pp -> two_classes labels ->
     num_label_issues_method srt labels pp K cj OtherMethod = Raise ValueError) /\
  num_label_issues_method srt labels pp K cj OffDiagonal =
    num_label_issues_method srt labels pp K None OffDiagonal.
Proof. exact C91_choice_full. Qed.
Print Assumptions C91_choice.

Example C91_two_classes : two_classes ex_labels.
Proof. exists 0%nat, 1%nat. simpl. repeat split; auto; discriminate. Qed.
(** two of six examples; a custom matrix that blames two thirds of class 0 and one half of class 1 (class 2
    never occurs) suggests 3.5 and gives 3 *)
Example C91_example :
  num_label_issues_method argsort_ins ex_labels ex_pp 3 None OffDiagonalCalibrated = Ok 2%Z.
Proof. vm_compute. reflexivity. Qed.
Example C91_example_custom :
  num_label_issues_method argsort_ins ex_labels ex_pp 3 (Some [[1;2;0];[2;3;1];[0;0;1]]) OffDiagonalCustom = Ok 3%Z
  /\ suggested_issues 3 [[1;2;0];[2;3;1];[0;0;1]] ex_labels == 7 # 2.
Proof. split; vm_compute; reflexivity. Qed.
