(** * C135: less agreement with the given labels never makes issues disappear *)
From Coq Require Import QArith Qabs List Sorted ZArith Bool Arith Lia Lqa.
From Verif Require Import Base BaseFacts ModelUtil ModelCount ModelRank ModelFilter SpecCount SpecFilter SpecMonotone
  ProofCount ProofFilter ProofRank ProofMonotone.
Import ListNotations.
Open Scope Q_scope.

(** The default filter flags exactly the examples whose label is clearly beaten and for which some other class reaches
    its threshold (less the tolerance), whichever and however many classes do. *)
Theorem C135_rule : forall srt K labels pp o, argsort_ok srt -> dataset K labels pp -> two_classes labels ->
  num_to_remove_per_class o = None -> (1 <= n_jobs o)%nat ->
  exists m, find_label_issues srt labels pp K ConfidentLearning o = Ok m /\ length m = length labels /\
    forall e, flagged m e <-> (e < length labels)%nat /\ clearly_beaten labels pp e /\
      exists j, (j < K)%nat /\ j <> label_of labels e /\
        nth j (get_confident_thresholds labels pp K) 0 - (1 # 1000000) <= prob_of pp e j.
Proof. exact C135_rule_full. Qed.
Print Assumptions C135_rule.

(** If given labels get no more and other classes no less probability (for one example or for many), every example
    flagged before is flagged again, also those whose own predictions did not change ... *)
Theorem C135_issues : forall srt K labels pp pp' o flt m m', argsort_ok srt -> dataset K labels pp -> dataset K labels pp' ->
  two_classes labels -> less_agreement K labels pp pp' -> flt = ConfidentLearning \/ flt = PredictedNeqGiven ->
  find_label_issues srt labels pp K flt o = Ok m -> find_label_issues srt labels pp' K flt o = Ok m' ->
  forall e, flagged m e -> flagged m' e.
Proof. exact C135_issues_full. Qed.
Print Assumptions C135_issues.

(** ... the number of issues does not fall ... *)
Theorem C135_count : forall srt K labels pp pp' n n', argsort_ok srt -> dataset K labels pp -> dataset K labels pp' ->
  two_classes labels -> less_agreement K labels pp pp' ->
  num_label_issues srt labels pp K = Ok n -> num_label_issues srt labels pp' K = Ok n' -> (n <= n')%nat.
Proof. exact C135_count_full. Qed.
Print Assumptions C135_count.

(** ... and no score rises. *)
Theorem C135_scores : forall K labels pp pp' method, (2 <= K)%nat -> dataset K labels pp -> dataset K labels pp' -> less_agreement K labels pp pp' ->
  method = SelfConfidence \/ method = NormalizedMargin ->
  exists s s', get_label_quality_scores labels pp K method false = Ok s /\
    get_label_quality_scores labels pp' K method false = Ok s' /\ length s = length labels /\ length s' = length labels /\
    forall e, (e < length labels)%nat -> nth e s' 0 <= nth e s 0.
Proof. exact C135_scores_full. Qed.
Print Assumptions C135_scores.

Definition opts135 : options := {| frac_noise := 1; num_to_remove_per_class := None; min_examples_per_class := 1;
  confident_joint := None; n_jobs := 1; sched_c := []; sched_n := [] |}.
Definition y135 : list nat := [0; 0; 1; 1; 2]%nat.
Definition pp135 (r : list Q) : list (list Q) :=
  [[7#10; 2#10; 1#10]; r; [1#10; 8#10; 1#10]; [65#100; 35#100; 0]; [1#10; 1#10; 8#10]].
Definition before135 := pp135 [5#10; 3#10; 2#10].
Definition after135 := pp135 [2#10; 4#10; 4#10].

(** example 1 gets worse: its class' threshold falls, which makes no difference to example 3, flagged before and after *)
Example C135_example : dataset 3 y135 before135 /\ dataset 3 y135 after135 /\ less_agreement 3 y135 before135 after135 /\
  two_classes y135 /\
  find_label_issues argsort_ins y135 before135 3 ConfidentLearning opts135 = Ok [false; false; false; true; false] /\
  find_label_issues argsort_ins y135 after135 3 ConfidentLearning opts135 = Ok [false; false; false; true; false] /\
  find_label_issues argsort_ins y135 before135 3 PredictedNeqGiven opts135 = Ok [false; false; false; true; false] /\
  find_label_issues argsort_ins y135 after135 3 PredictedNeqGiven opts135 = Ok [false; true; false; true; false].
Proof.
  split; [apply dataset_b_ok; vm_compute; reflexivity|]. split; [apply dataset_b_ok; vm_compute; reflexivity|].
  split. { intros e k He Hk. cbn in He. destruct e as [|[|[|[|[|e]]]]]; try lia; destruct k as [|[|[|k]]]; try lia; cbv; discriminate. }
  split; [exists 0%nat, 1%nat; cbn; intuition lia|]. repeat split; vm_compute; reflexivity.
Qed.

(** The low-score filters return a number of lowest scores, so an example that gets worse can push another one out. *)
Theorem C135_low_filter_refuted : exists K labels pp pp' m m', dataset K labels pp /\ dataset K labels pp' /\ two_classes labels /\
  less_agreement K labels pp pp' /\
  find_label_issues argsort_ins labels pp K LowSelfConfidence opts135 = Ok m /\
  find_label_issues argsort_ins labels pp' K LowSelfConfidence opts135 = Ok m' /\
  flagged m 3 /\ ~ flagged m' 3.
Proof.
  exists 3%nat, y135, before135, after135. do 2 eexists.
  destruct C135_example as (D & D' & L & T & _). split; [exact D|]. split; [exact D'|]. split; [exact T|]. split; [exact L|].
  split; [vm_compute; reflexivity|]. split; [vm_compute; reflexivity|]. split; [reflexivity|discriminate].
Qed.
Print Assumptions C135_low_filter_refuted.
