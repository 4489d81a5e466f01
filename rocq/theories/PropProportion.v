(** * Property C179: only the proportions within the rows of a supplied confident joint matter *)
From Coq Require Import QArith List ZArith Bool Arith Lqa.
From Verif Require Import Base ModelUtil ModelCount ModelRank ModelPool ModelFilter SpecCount SpecBatched SpecFilter
     SpecProportion ProofFilter ProofBatched ProofProportion.
Import ListNotations.
Open Scope Q_scope.

Theorem C179_calibrate : forall srt cj cj' labels, respects_eq srt -> same_proportions cj cj' ->
  countable cj -> countable cj' ->
  calibrate_confident_joint srt cj labels = calibrate_confident_joint srt cj' labels.
Proof. exact calibrate_proportions. Qed.

Theorem C179_joint : forall srt cj cj' labels pp K, respects_eq srt -> same_proportions cj cj' ->
  countable cj -> countable cj' ->
  estimate_joint srt labels pp K (Some cj) = estimate_joint srt labels pp K (Some cj').
Proof. exact joint_proportions. Qed.

(** estimation_method="off_diagonal_custom" *)
Theorem C179_num_issues : forall srt cj cj' labels pp K, respects_eq srt -> same_proportions cj cj' ->
  countable cj -> countable cj' ->
  num_label_issues_from_joint srt labels pp K (Some cj) = num_label_issues_from_joint srt labels pp K (Some cj').
Proof. exact num_issues_proportions. Qed.

(** calibrating twice is calibrating once *)
Theorem C179_idempotent : forall srt K cj labels, argsort_ok srt ->
  length cj = K -> (forall r, In r cj -> length r = K) ->
  (forall r x, In r cj -> In x r -> 0 <= x) ->
  (forall i, (i < K)%nat -> In i labels -> TINY_VALUE <= qsum (nth i cj [])) ->
  labels <> [] -> (forall l, In l labels -> (l < K)%nat) ->
  exists zm, calibrate_confident_joint srt cj labels = Ok zm /\
    calibrate_confident_joint srt (zmat_to_q zm) labels = Ok zm /\
    forall pp, estimate_joint srt labels pp K (Some cj) = estimate_joint srt labels pp K (Some (zmat_to_q zm)).
Proof. exact calibrate_idempotent. Qed.

(** a concrete case: seven examples, two classes *)
Definition ex_l : list nat := [0; 0; 0; 0; 1; 1; 1]%nat.
Definition ex_p : list (list Q) :=
  [[9#10; 1#10]; [8#10; 2#10]; [3#10; 7#10]; [2#10; 8#10]; [1#10; 9#10]; [2#10; 8#10]; [7#10; 3#10]].
Definition ex_cj : list (list Q) := [[2; 1]; [1; 2]].
Definition ex_cj' : list (list Q) := [[6; 3]; [1 # 2; 1]].
Definition ex_cj3 : list (list Q) := [[20; 10]; [10; 20]].
Example ex_same : same_proportions ex_cj ex_cj'.
Proof.
  apply Forall2_cons; [exists 3|apply Forall2_cons; [exists (1 # 2)|apply Forall2_nil]];
    (split; [reflexivity|repeat apply Forall2_cons; try apply Forall2_nil; reflexivity]).
Qed.
Example ex_countable : countable ex_cj /\ countable ex_cj'.
Proof.
  split; intros r [<-|[<-|[]]]; (split; [intros x [<-|[<-|[]]]; discriminate|right; vm_compute; discriminate]).
Qed.
Example C179_example :
  respects_eq argsort_ins /\
  calibrate_confident_joint argsort_ins ex_cj ex_l = Ok [[3; 1]; [1; 2]]%Z /\
  calibrate_confident_joint argsort_ins ex_cj' ex_l = Ok [[3; 1]; [1; 2]]%Z /\
  num_label_issues_from_joint argsort_ins ex_l ex_p 2 (Some ex_cj') = Ok 2%Z.
Proof. split; [exact argsort_ins_respects|]. repeat split; vm_compute; reflexivity. Qed.

(** find_label_issues with a pruning method uses the supplied matrix as counts, without calibrating it:
    there the scale matters, and the number of flagged examples may exceed the estimate obtained from the
    same matrix *)
Theorem C179_find_label_issues_refuted : exists labels pp cj cj' m m',
  let opts c := {| frac_noise := 1; num_to_remove_per_class := None; min_examples_per_class := 1;
                   confident_joint := Some c; n_jobs := 1; sched_c := []; sched_n := [] |} in
  dataset 2 labels pp /\ same_proportions cj cj' /\ countable cj /\ countable cj' /\
  find_label_issues argsort_ins labels pp 2 PruneByNoiseRate (opts cj) = Ok m /\
  find_label_issues argsort_ins labels pp 2 PruneByNoiseRate (opts cj') = Ok m' /\
  count_true m = 2%nat /\ count_true m' = 3%nat /\
  num_label_issues_from_joint argsort_ins labels pp 2 (Some cj) = Ok 2%Z /\
  num_label_issues_from_joint argsort_ins labels pp 2 (Some cj') = Ok 2%Z.
Proof.
  exists ex_l, ex_p, ex_cj, ex_cj3, [false; false; false; true; false; false; true],
    [false; false; true; true; false; false; true]. cbv zeta.
  split; [apply dataset_b_ok; vm_compute; reflexivity|]. split.
  { apply Forall2_cons; [exists 10|apply Forall2_cons; [exists 10|apply Forall2_nil]];
    (split; [reflexivity|repeat apply Forall2_cons; try apply Forall2_nil; reflexivity]). }
  split; [exact (proj1 ex_countable)|]. split.
  { intros r [<-|[<-|[]]]; (split; [intros x [<-|[<-|[]]]; discriminate|right; vm_compute; discriminate]). }
  repeat split; vm_compute; reflexivity.
Qed.

Print Assumptions C179_calibrate.
Print Assumptions C179_joint.
Print Assumptions C179_num_issues.
Print Assumptions C179_idempotent.
Print Assumptions C179_find_label_issues_refuted.
