(** * Property C167: systematic over- or underconfidence in a class does not matter *)
From Coq Require Import QArith Qabs List ZArith Bool Arith Lia Lqa.
From Verif Require Import Base BaseFacts ModelUtil ModelCount ModelFilter ModelIssueCount SpecCount SpecFilter SpecRank SpecBatched
     SpecIssueCount SpecRescale ProofFilter ProofApprox ProofRescale PropCount.
Import ListNotations.
Open Scope Q_scope.

(** The confident joint and the indices counted off its diagonal are the same, calibrated or not. *)
Theorem C167_joint : forall srt K labels pp pp' a b calibrate,
  dataset K labels pp -> dataset K labels pp' -> own_prob_floor labels pp -> own_prob_floor labels pp' ->
  rescaled K a b pp pp' ->
  (forall k, (k < K)%nat -> a k == 1 \/
     (clear_threshold (get_confident_thresholds labels pp K) pp k /\ clear_threshold (get_confident_thresholds labels pp' K) pp' k)) ->
  one_confident (get_confident_thresholds labels pp K) pp ->
  compute_confident_joint srt labels pp' K None calibrate = compute_confident_joint srt labels pp K None calibrate.
Proof. exact C167_joint_full. Qed.
Print Assumptions C167_joint.

(** So are the estimated joint distribution and the calibrated number of issues. *)
Theorem C167_estimates : forall srt K labels pp pp' a b cj,
  dataset K labels pp -> dataset K labels pp' -> own_prob_floor labels pp -> own_prob_floor labels pp' -> two_classes labels ->
  rescaled K a b pp pp' ->
  (forall k, (k < K)%nat -> a k == 1 \/
     (clear_threshold (get_confident_thresholds labels pp K) pp k /\ clear_threshold (get_confident_thresholds labels pp' K) pp' k)) ->
  one_confident (get_confident_thresholds labels pp K) pp ->
  estimate_joint srt labels pp' K None = estimate_joint srt labels pp K None /\
  num_label_issues_method srt labels pp' K cj OffDiagonalCalibrated = num_label_issues_method srt labels pp K cj OffDiagonalCalibrated.
Proof. exact C167_estimates_full. Qed.
Print Assumptions C167_estimates.

(** The confident_learning filter flags the same examples, up to those whose label stops (or starts) being the most
    likely class. *)
Theorem C167_flags : forall srt K labels pp pp' a b o,
  argsort_ok srt -> dataset K labels pp -> dataset K labels pp' -> own_prob_floor labels pp -> own_prob_floor labels pp' ->
  two_classes labels -> rescaled K a b pp pp' ->
  (forall k, (k < K)%nat -> a k == 1 \/
     (clear_threshold (get_confident_thresholds labels pp K) pp k /\ clear_threshold (get_confident_thresholds labels pp' K) pp' k)) ->
  one_confident (get_confident_thresholds labels pp K) pp ->
  num_to_remove_per_class o = None -> (1 <= n_jobs o)%nat ->
  exists m m', find_label_issues srt labels pp K ConfidentLearning o = Ok m /\
    find_label_issues srt labels pp' K ConfidentLearning o = Ok m' /\
    (forall e, clearly_beaten labels pp e -> clearly_beaten labels pp' e -> flagged m e <-> flagged m' e) /\
    ((forall e, clearly_beaten labels pp e <-> clearly_beaten labels pp' e) -> m = m').
Proof. exact C167_flags_full. Qed.
Print Assumptions C167_flags.

(** Five examples whose predictions are averaged with the fixed distribution (0.8, 0.2): the model now prefers class 0,
    one example of class 1 is even undecided, and nothing changes. *)
Definition y167 : list nat := [0; 0; 1; 1; 1]%nat.
Definition pp167 : list (list Q) := [[9#10; 1#10]; [7#10; 3#10]; [2#10; 8#10]; [1#10; 9#10]; [85#100; 15#100]].
Definition pp167' : list (list Q) := [[85#100; 15#100]; [75#100; 25#100]; [5#10; 5#10]; [45#100; 55#100]; [825#1000; 175#1000]].
Example C167_example_hyps :
  dataset 2 y167 pp167 /\ dataset 2 y167 pp167' /\ own_prob_floor y167 pp167 /\ own_prob_floor y167 pp167' /\ two_classes y167 /\
  rescaled 2 (fun _ => 1#2) (fun k => match k with O => 4#10 | _ => 1#10 end) pp167 pp167' /\
  (forall k, (k < 2)%nat -> clear_threshold (get_confident_thresholds y167 pp167 2) pp167 k /\
                            clear_threshold (get_confident_thresholds y167 pp167' 2) pp167' k) /\
  one_confident (get_confident_thresholds y167 pp167 2) pp167.
Proof.
  split; [apply dataset_b_ok; vm_compute; reflexivity|]. split; [apply dataset_b_ok; vm_compute; reflexivity|].
  split; [intros e He; do 5 (destruct e as [|e]; [vm_compute; discriminate|]); simpl in He; lia|].
  split; [intros e He; do 5 (destruct e as [|e]; [vm_compute; discriminate|]); simpl in He; lia|].
  split; [exists 0%nat, 1%nat; simpl; intuition congruence|].
  split; [split; [reflexivity|]; intros e k He Hk; split; [reflexivity|];
    do 2 (destruct k as [|k]; [do 5 (destruct e as [|e]; [vm_compute; reflexivity|]); simpl in He; lia|]); lia|].
  split.
  - intros k Hk. do 2 (destruct k as [|k]; [split; intros e He; do 5 (destruct e as [|e]; [(left; vm_compute; discriminate) || (right; vm_compute; reflexivity)|]); simpl in He; lia|]). lia.
  - intros e j j' He (J & A) (J' & B). do 5 (destruct e as [|e];
      [do 2 (destruct j as [|j]; [do 2 (destruct j' as [|j']; [try reflexivity; exfalso; (apply A; vm_compute; reflexivity) || (apply B; vm_compute; reflexivity)|]); simpl in J'; lia|]); simpl in J; lia|]).
    simpl in He. lia.
Qed.
Example C167_example :
  compute_confident_joint argsort_ins y167 pp167 2 None false = Ok ([[1; 0]; [1; 2]]%Z, [4]%nat) /\
  compute_confident_joint argsort_ins y167 pp167' 2 None false = Ok ([[1; 0]; [1; 2]]%Z, [4]%nat) /\
  find_label_issues argsort_ins y167 pp167' 2 ConfidentLearning plain_options = Ok [false; false; false; false; true].
Proof. split; [|split]; vm_compute; reflexivity. Qed.

(** Examples that are confident for both classes are counted by the larger probability, which a shift does change. *)
Theorem C167_collisions_refuted : exists K labels pp pp' a b,
  dataset K labels pp /\ dataset K labels pp' /\ own_prob_floor labels pp /\ own_prob_floor labels pp' /\
  rescaled K a b pp pp' /\ (forall k, a k == 1) /\
  compute_confident_joint argsort_ins labels pp K None false = Ok ([[1; 2]; [0; 2]]%Z, [0; 1]%nat) /\
  compute_confident_joint argsort_ins labels pp' K None false = Ok ([[2; 0]; [2; 1]]%Z, [2; 3]%nat).
Proof.
  exists 2%nat, [0; 0; 1; 1]%nat, [[4#10; 6#10]; [4#10; 6#10]; [45#100; 55#100]; [45#100; 55#100]],
    [[6#10; 4#10]; [6#10; 4#10]; [65#100; 35#100]; [65#100; 35#100]], (fun _ => 1), (fun k => match k with O => 2#10 | _ => -2#10 end).
  split; [apply dataset_b_ok; vm_compute; reflexivity|]. split; [apply dataset_b_ok; vm_compute; reflexivity|].
  split; [intros e He; do 4 (destruct e as [|e]; [vm_compute; discriminate|]); simpl in He; lia|].
  split; [intros e He; do 4 (destruct e as [|e]; [vm_compute; discriminate|]); simpl in He; lia|].
  split; [split; [reflexivity|]; intros e k He Hk; split; [reflexivity|];
    do 2 (destruct k as [|k]; [do 4 (destruct e as [|e]; [vm_compute; reflexivity|]); simpl in He; lia|]); lia|].
  split; [reflexivity|]. split; vm_compute; reflexivity.
Qed.
Print Assumptions C167_collisions_refuted.
