(** * C136: a class that no example is labelled with does not matter *)
From Coq Require Import QArith Qabs List Sorted ZArith Bool Arith Lia Lqa.
From Verif Require Import Base BaseFacts ModelUtil ModelCount ModelRank ModelFilter SpecCount SpecFilter SpecUnused
  ProofCount ProofFilter ProofRank ProofUnused.
Import ListNotations.
Open Scope Q_scope.

(** The model knows one class more than the data: its threshold is 2, all the others stay the same ... *)
Theorem C136_thresholds : forall K labels pp qs, dataset K labels pp -> below_label labels pp qs ->
  (forall k, (k < K)%nat -> nth k (get_confident_thresholds labels (with_class pp qs) (S K)) 0 == nth k (get_confident_thresholds labels pp K) 0) /\
  nth K (get_confident_thresholds labels (with_class pp qs) (S K)) 0 == 2.
Proof. exact C136_thresholds_full. Qed.
Print Assumptions C136_thresholds.

(** ... and as long as it is nowhere likelier than the given label, the number of issues and the issues do too ... *)
Theorem C136_issues : forall srt K labels pp qs o flt, argsort_ok srt -> dataset K labels pp -> two_classes labels -> below_label labels pp qs ->
  num_to_remove_per_class o = None -> (1 <= n_jobs o)%nat -> flt = ConfidentLearning \/ flt = PredictedNeqGiven \/ flt = LowSelfConfidence ->
  num_label_issues srt labels (with_class pp qs) (S K) = num_label_issues srt labels pp K /\
  exists m, find_label_issues srt labels pp K flt o = Ok m /\ length m = length labels /\
    find_label_issues srt labels (with_class pp qs) (S K) flt o = Ok m.
Proof. exact C136_issues_full. Qed.
Print Assumptions C136_issues.

(** ... as well as the self-confidence scores, and the normalized margins where some other class is at least as likely. *)
Theorem C136_scores : forall K labels pp qs, (2 <= K)%nat -> dataset K labels pp -> below_label labels pp qs ->
  get_label_quality_scores labels (with_class pp qs) (S K) SelfConfidence false = get_label_quality_scores labels pp K SelfConfidence false /\
  ((forall e, (e < length labels)%nat -> exists j, (j < K)%nat /\ j <> label_of labels e /\ nth e qs 0 <= prob_of pp e j) ->
   exists s s', get_label_quality_scores labels pp K NormalizedMargin false = Ok s /\
    get_label_quality_scores labels (with_class pp qs) (S K) NormalizedMargin false = Ok s' /\ length s = length labels /\ length s' = length labels /\
    forall e, (e < length labels)%nat -> nth e s' 0 == nth e s 0).
Proof. exact C136_scores_full. Qed.
Print Assumptions C136_scores.

Definition opts136 : options := {| frac_noise := 1; num_to_remove_per_class := None; min_examples_per_class := 1;
  confident_joint := None; n_jobs := 1; sched_c := []; sched_n := [] |}.
Definition y136 : list nat := [0; 0; 1; 1; 0]%nat.
Definition pp136 : list (list Q) := [[6#10; 2#10]; [5#10; 4#10]; [1#10; 8#10]; [65#100; 2#10]; [2#10; 7#10]].
Definition qs136 : list Q := [2#10; 1#10; 1#10; 15#100; 1#10].

Example C136_example : dataset 2 y136 pp136 /\ below_label y136 pp136 qs136 /\ two_classes y136 /\
  with_class pp136 qs136 = [[6#10; 2#10; 2#10]; [5#10; 4#10; 1#10]; [1#10; 8#10; 1#10]; [65#100; 2#10; 15#100]; [2#10; 7#10; 1#10]] /\
  (forall e, (e < length y136)%nat -> exists j, (j < 2)%nat /\ j <> label_of y136 e /\ nth e qs136 0 <= prob_of pp136 e j) /\
  find_label_issues argsort_ins y136 pp136 2 ConfidentLearning opts136 = Ok [false; false; false; true; true] /\
  find_label_issues argsort_ins y136 (with_class pp136 qs136) 3 ConfidentLearning opts136 = Ok [false; false; false; true; true] /\
  num_label_issues argsort_ins y136 (with_class pp136 qs136) 3 = Ok 2%nat.
Proof.
  split; [apply dataset_b_ok; vm_compute; reflexivity|].
  split. { split; [reflexivity|]. intros e He. cbn in He. destruct e as [|[|[|[|[|e]]]]]; try lia; split; cbv; discriminate. }
  split; [exists 0%nat, 1%nat; cbn; intuition lia|]. split; [reflexivity|].
  split. { intros e He. cbn in He. destruct e as [|[|[|[|[|e]]]]]; try lia; [exists 1%nat|exists 1%nat|exists 0%nat|exists 0%nat|exists 1%nat]; (split; [lia|]); (split; [cbv; discriminate|]); cbv; discriminate. }
  repeat split; vm_compute; reflexivity.
Qed.

(** Where it is likelier than the label, even the default filter changes: the first example below has the label 0, which
    is the likeliest of the classes that occur (its thresholds are 1/2 and 2/5); once the class that does not occur gets
    more, the example is flagged, as a 1. *)
Definition pp136r : list (list Q) := [[42#100; 40#100]; [58#100; 1#10]; [1#10; 50#100]; [1#10; 30#100]].
Definition y136r : list nat := [0; 0; 1; 1]%nat.
Definition qs136r : list Q := [45#100; 0; 0; 0].
Theorem C136_likelier_refuted : dataset 2 y136r pp136r /\ dataset 3 y136r (with_class pp136r qs136r) /\ two_classes y136r /\
  ~ In 2%nat y136r /\ length qs136r = length y136r /\
  find_label_issues argsort_ins y136r pp136r 2 ConfidentLearning opts136 = Ok [false; false; false; false] /\
  find_label_issues argsort_ins y136r (with_class pp136r qs136r) 3 ConfidentLearning opts136 = Ok [true; false; false; false].
Proof.
  split; [apply dataset_b_ok; vm_compute; reflexivity|]. split; [apply dataset_b_ok; vm_compute; reflexivity|].
  split; [exists 0%nat, 1%nat; cbn; intuition lia|]. split; [cbn; intuition lia|]. repeat split; vm_compute; reflexivity.
Qed.
Print Assumptions C136_likelier_refuted.
