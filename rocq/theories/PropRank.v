(** * Properties C15-C17, C56: label quality scores *)
From Coq Require Import QArith Qabs Qround List Sorted ZArith Bool Arith Lia Reals.
From Verif Require Import Base BaseFacts ModelUtil ModelCount ModelRank ModelEntropy
     SpecCount SpecFilter SpecRank ProofFilter ProofRank ProofEntropy PropCount PropFilter.
Import ListNotations.
Open Scope Q_scope.

(** ** C15 *)
Theorem C15_scores : forall K labels pp method, dataset K labels pp -> (2 <= K)%nat ->
  exists s, get_label_quality_scores labels pp K method false = Ok s /\ length s = length labels /\
  forall e, (e < length labels)%nat ->
  0 <= nth e s 0 /\ nth e s 0 <= 1 /\
  match method with
  | SelfConfidence => nth e s 0 = prob_of pp e (label_of labels e)
  | NormalizedMargin => exists b, best_other (row_of pp e) (label_of labels e) b /\
        nth e s 0 == (prob_of pp e (label_of labels e) - b + 1) / 2 /\
        (1 # 2 <= nth e s 0 <-> label_wins (row_of pp e) (label_of labels e))
  end.
Proof. exact C15_scores_full. Qed.
Print Assumptions C15_scores.

(** the score depends only on the example's own label and probabilities *)
Theorem C15_scores_are_per_example : forall K method labels pp labels' pp' s s' e e',
  length labels = length pp -> length labels' = length pp' ->
  get_label_quality_scores labels pp K method false = Ok s ->
  get_label_quality_scores labels' pp' K method false = Ok s' ->
  (e < length labels)%nat -> (e' < length labels')%nat ->
  label_of labels e = label_of labels' e' -> row_of pp e = row_of pp' e' ->
  nth e s 0 = nth e' s' 0.
Proof. exact C15_local_full. Qed.
Print Assumptions C15_scores_are_per_example.

(** with adjustment: every adjusted row is the row minus the class thresholds, shifted by the largest
    threshold and rescaled to sum to one; scores stay in [0, 1] *)
Theorem C15_adjusted_scores : forall K labels pp method, dataset K labels pp -> (2 <= K)%nat -> row_stochastic pp ->
  let adj := subtract_confident_thresholds labels pp K None in
  (forall e, (e < length labels)%nat -> exists total, 0 < total /\
     forall k, (k < K)%nat -> exists top,
       (In top (get_confident_thresholds labels pp K) /\
        forall t, In t (get_confident_thresholds labels pp K) -> t <= top) /\
       prob_of adj e k * total == prob_of pp e k - nth k (get_confident_thresholds labels pp K) 0 + top) /\
  length adj = length labels /\ row_stochastic adj /\
  exists s, get_label_quality_scores labels pp K method true = Ok s /\ length s = length labels /\
  forall e, (e < length labels)%nat -> 0 <= nth e s 0 /\ nth e s 0 <= 1.
Proof. exact C15_adjusted_full. Qed.
Print Assumptions C15_adjusted_scores.

Example C15_hypotheses : dataset 3 ex_labels ex_pp /\ row_stochastic ex_pp.
Proof.
  split; [exact ex_dataset|]. intros r H. simpl in H.
  repeat (destruct H as [<-|H]; [split; [|vm_compute; reflexivity];
    intros x Hx; simpl in Hx; repeat (destruct Hx as [<-|Hx]; [vm_compute; discriminate|]); destruct Hx|]).
  destruct H.
Qed.
Example C15_example :
  exists s, get_label_quality_scores ex_labels ex_pp 3 NormalizedMargin false = Ok s /\
    Forall2 Qeq s [9#10; 85#100; 15#100; 85#100; 75#100; 25#100].
Proof. eexists. split; [vm_compute; reflexivity|]. repeat constructor. Qed.

(** ** C16 *)
Theorem C16_ensemble_is_average : forall K labels pps method adjust weighting ens,
  (weighting = Uniform \/ weighting = Accuracy) ->
  get_label_quality_ensemble_scores labels pps K method adjust weighting = Ok ens ->
  exists scores, Forall2 (fun pp s => get_label_quality_scores labels pp K method adjust = Ok s) pps scores /\
    length ens = length labels /\
    forall e, (e < length labels)%nat -> between (map (fun s => nth e s 0) scores) (nth e ens 0).
Proof. exact C16_full. Qed.
Print Assumptions C16_ensemble_is_average.

(** a single model, or copies of one model *)
Theorem C16_identical_models : forall K labels pps pp method adjust weighting ens,
  (weighting = Uniform \/ weighting = Accuracy) -> (forall p, In p pps -> p = pp) ->
  get_label_quality_ensemble_scores labels pps K method adjust weighting = Ok ens ->
  exists s, get_label_quality_scores labels pp K method adjust = Ok s /\
    Forall2 Qeq ens (map (fun e => nth e s 0) (seq 0 (length labels))).
Proof. exact C16_same_full. Qed.
Print Assumptions C16_identical_models.

(** the call succeeds: always with uniform weights, with accuracy weights as soon as one model predicts one
    given label correctly *)
Theorem C16_ensemble_succeeds : forall K labels pps method adjust,
  pps <> [] -> (forall pp, In pp pps -> dataset K labels pp) -> two_classes labels ->
  (exists ens, get_label_quality_ensemble_scores labels pps K method adjust Uniform = Ok ens) /\
  ((exists pp e, In pp pps /\ (e < length labels)%nat /\ argmax (row_of pp e) = label_of labels e) ->
   exists ens, get_label_quality_ensemble_scores labels pps K method adjust Accuracy = Ok ens).
Proof. exact C16_ok_full. Qed.
Print Assumptions C16_ensemble_succeeds.

Example C16_example :
  exists ens, get_label_quality_ensemble_scores [0;1;0]%nat
     [[[9#10;1#10];[2#10;8#10];[6#10;4#10]]; [[5#10;5#10];[8#10;2#10];[3#10;7#10]]] 2 SelfConfidence false Accuracy
   = Ok ens /\ Forall2 Qeq ens [8#10; 65#100; 525#1000].
Proof. eexists. split; [vm_compute; reflexivity|]. repeat constructor. Qed.

(** ** C17 *)
Theorem C17_find_top_issues : forall srt scores top, argsort_ok srt ->
  let r := find_top_issues srt scores top in
  let n := match top with None => length scores | Some t => Nat.min t (length scores) end in
  length r = n /\ NoDup r /\ (forall i, In i r -> (i < length scores)%nat) /\
  StronglySorted (fun i j => nth i scores 0 <= nth j scores 0) r /\
  (forall i j, In i r -> (j < length scores)%nat -> ~ In j r -> nth i scores 0 <= nth j scores 0).
Proof. exact C17_full. Qed.
Print Assumptions C17_find_top_issues.

Example C17_example : find_top_issues argsort_ins [5#10; 1#10; 1#10; 9#10] (Some 3%nat) = [1; 2; 0]%nat.
Proof. vm_compute. reflexivity. Qed.

(** ** C56 *)
Theorem C56_entropy_scores_range_partial : forall label row, (2 <= length row)%nat -> (label < length row)%nat ->
  (forall x, In x row -> 0 <= x)%R -> rsum row = 1%R ->
  (0 <= normalized_entropy row <= 1 /\ 0 <= confidence_weighted_entropy label row <= 1)%R.
Proof. exact cwe_range. Qed.
Print Assumptions C56_entropy_scores_range_partial.

(** The documentation says lower scores mean labels more likely to be wrong.  A certain and correct
    prediction (self-confidence 1) gets the lowest possible score, below that of an undecided one. *)
Theorem C56_certain_correct_label_scores_best_refuted : exists label row row',
  (label < length row)%nat /\ length row = length row' /\
  (forall x, In x row -> 0 <= x)%R /\ (forall x, In x row' -> 0 <= x)%R /\ rsum row = 1%R /\ rsum row' = 1%R /\
  nth label row 0%R = 1%R /\ nth label row' 0%R = (/2)%R /\
  confidence_weighted_entropy label row = 0%R /\ (0 < confidence_weighted_entropy label row')%R.
Proof. exact cwe_order_refuted. Qed.
Print Assumptions C56_certain_correct_label_scores_best_refuted.
