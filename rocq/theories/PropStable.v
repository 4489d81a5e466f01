(** * C134: small differences in the predicted probabilities *)
From Coq Require Import QArith Qabs List Sorted ZArith Bool Arith Lia Lqa.
From Verif Require Import Base BaseFacts ModelUtil ModelCount ModelRank ModelFilter SpecCount SpecFilter SpecStable
  ProofCount ProofFilter ProofRank ProofStable.
Import ListNotations.
Open Scope Q_scope.

(** If no comparison is nearly tied, predictions that differ by at most [d] give the same issues, with every filter. *)
Theorem C134_issues : forall d K labels pp pp' srt o flt, argsort_ok srt -> dataset K labels pp -> dataset K labels pp' ->
  two_classes labels -> close d pp pp' -> clear_cut d K labels pp -> far_apart d flt labels pp K ->
  num_to_remove_per_class o = None -> n_jobs o = 1%nat ->
  exists m, find_label_issues srt labels pp K flt o = Ok m /\ length m = length labels /\
    find_label_issues srt labels pp' K flt o = Ok m.
Proof. exact C134_issues_full. Qed.
Print Assumptions C134_issues.

(** Counts, confident joint and estimated joint are the same numbers. *)
Theorem C134_counts : forall d K labels pp pp' srt, dataset K labels pp -> dataset K labels pp' ->
  two_classes labels -> close d pp pp' -> clear_cut d K labels pp ->
  num_label_issues srt labels pp' K = num_label_issues srt labels pp K /\
  (forall cal, compute_confident_joint srt labels pp' K None cal = compute_confident_joint srt labels pp K None cal) /\
  (forall cj, estimate_joint srt labels pp' K cj = estimate_joint srt labels pp K cj).
Proof. exact C134_counts_full. Qed.
Print Assumptions C134_counts.

(** Thresholds and scores move by at most [d], tied or not. *)
Theorem C134_thresholds : forall d K labels pp pp', dataset K labels pp -> dataset K labels pp' -> close d pp pp' ->
  forall k, (k < K)%nat -> Qabs (nth k (get_confident_thresholds labels pp' K) 0 - nth k (get_confident_thresholds labels pp K) 0) <= d.
Proof. exact C134_thresholds_full. Qed.
Print Assumptions C134_thresholds.

Theorem C134_scores : forall d K labels pp pp' method, (2 <= K)%nat -> dataset K labels pp -> dataset K labels pp' -> close d pp pp' ->
  method = SelfConfidence \/ method = NormalizedMargin ->
  exists s s', get_label_quality_scores labels pp K method false = Ok s /\
    get_label_quality_scores labels pp' K method false = Ok s' /\ length s = length labels /\ length s' = length labels /\
    forall e, (e < length labels)%nat -> Qabs (nth e s' 0 - nth e s 0) <= d.
Proof. exact C134_scores_full. Qed.
Print Assumptions C134_scores.

Definition opts134 : options := {| frac_noise := 1; num_to_remove_per_class := None; min_examples_per_class := 1;
  confident_joint := None; n_jobs := 1; sched_c := []; sched_n := [] |}.
(** six examples; example 0 alone has label 0, so its probability is exactly the threshold of class 0; examples 3 and 4
    are wrong *)
Definition y134 : list nat := [0; 1; 1; 1; 2; 2]%nat.
Definition pp134 : list (list Q) :=
  [[6#10; 3#10; 1#10]; [1#10; 8#10; 1#10]; [2#10; 7#10; 1#10]; [75#100; 15#100; 10#100]; [1#10; 65#100; 25#100]; [5#100; 0; 95#100]].
(** the same probabilities with an error of one ten millionth *)
Definition e134 : Q := 1 # 10000000.
Definition pp134' : list (list Q) :=
  [[(6#10) - e134; (3#10) + e134; 1#10]; [(1#10) + e134; (8#10) - e134; 1#10]; [2#10; (7#10) + e134; (1#10) - e134];
   [(75#100) - e134; (15#100) + e134; 10#100]; [1#10; (65#100) - e134; (25#100) + e134]; [(5#100) - e134; e134; 95#100]].
Example C134_example_data : dataset 3 y134 pp134 /\ dataset 3 y134 pp134' /\ two_classes y134.
Proof. split; [|split]; [apply dataset_b_ok; vm_compute; reflexivity..|]. exists 0%nat, 1%nat. cbn. intuition lia. Qed.
Example C134_example_close : close e134 pp134 pp134'.
Proof.
  split; [reflexivity|]. intros e k.
  destruct e as [|[|[|[|[|[|e]]]]]]; destruct k as [|[|[|k]]]; unfold prob_of; cbn [nth pp134 pp134'];
    try (apply Qle_bool_iff; vm_compute; reflexivity); try destruct k; try destruct e; apply Qle_bool_iff; vm_compute; reflexivity.
Qed.
Example C134_example_clear : clear_cut e134 3 y134 pp134.
Proof.
  split.
  - intros e k He Hk. cbn in He. destruct e as [|[|[|[|[|[|e]]]]]]; try lia; destruct k as [|[|[|k]]]; try lia; vm_compute; reflexivity.
  - intros e k He Hk N. cbn in He. destruct e as [|[|[|[|[|[|e]]]]]]; try lia; destruct k as [|[|[|k]]]; try lia; cbn in N; try congruence; vm_compute; reflexivity.
  - intros e He _. cbn in He. exists (nth e [0; 1; 1; 0; 1; 2] 0)%nat.
    destruct e as [|[|[|[|[|[|e]]]]]]; try lia; (split; [cbn; lia|]); intros i Hi N; destruct i as [|[|[|i]]]; try lia; cbn in N; try congruence; vm_compute; reflexivity.
Qed.
Example C134_example_far : forall flt, flt <> LowNormalizedMargin -> far_apart e134 flt y134 pp134 3.
Proof.
  assert (C : forall e e', (e < length y134)%nat -> (e' < length y134)%nat -> e <> e' ->
    2 * e134 < Qabs (prob_of pp134 e (label_of y134 e) - prob_of pp134 e' (label_of y134 e'))).
  { intros e e' He He' N. cbn in He, He'.
    destruct e as [|[|[|[|[|[|e]]]]]]; try lia; destruct e' as [|[|[|[|[|[|e']]]]]]; try lia; try congruence; vm_compute; reflexivity. }
  assert (M : forall j, (j < 3)%nat -> forall e e', (e < length y134)%nat -> (e' < length y134)%nat ->
    label_of y134 e = label_of y134 e' /\ label_of y134 e <> j -> e <> e' ->
    4 * e134 < Qabs (prob_of pp134 e j - prob_of pp134 e (label_of y134 e) - (prob_of pp134 e' j - prob_of pp134 e' (label_of y134 e')))).
  { intros j Hj e e' He He' (R & R') N. cbn in He, He'.
    destruct e as [|[|[|[|[|[|e]]]]]]; try lia; destruct e' as [|[|[|[|[|[|e']]]]]]; try lia; try congruence; try discriminate R;
      destruct j as [|[|[|j]]]; try lia; try (now destruct R'); vm_compute; reflexivity. }
  intros flt Hf. destruct flt; try congruence; unfold far_apart; cbv zeta; try exact I; try exact M.
  - intros e e' He He' _. now apply C.
  - intros e e' He He' _. now apply C.
  - split; [|exact M]. intros e e' He He' _. now apply C.
Qed.
Example C134_example : Forall (fun flt =>
    find_label_issues argsort_ins y134 pp134 3 flt opts134 = Ok [false; false; false; true; true; false] /\
    find_label_issues argsort_ins y134 pp134' 3 flt opts134 = Ok [false; false; false; true; true; false])
  [LowNormalizedMargin; LowSelfConfidence; ConfidentLearning; PredictedNeqGiven] /\
  nth 0 (get_confident_thresholds y134 pp134 3) 0 == prob_of pp134 0 0.
Proof. split; [repeat constructor; vm_compute; reflexivity|vm_compute; reflexivity]. Qed.

(** A lead of exactly the tolerance is a near tie: one part in 10^9 decides. *)
Theorem C134_near_tie_refuted : exists K labels pp pp' m m', dataset K labels pp /\ dataset K labels pp' /\ two_classes labels /\
  close (1 # 1000000000) pp pp' /\ far_apart (1 # 1000000000) PredictedNeqGiven labels pp K /\
  find_label_issues argsort_ins labels pp K PredictedNeqGiven opts134 = Ok m /\
  find_label_issues argsort_ins labels pp' K PredictedNeqGiven opts134 = Ok m' /\ m <> m'.
Proof.
  exists 2%nat, [0; 1]%nat, [[499999 # 1000000; 500000 # 1000000]; [1 # 10; 9 # 10]],
    [[499999 # 1000000; 500000001 # 1000000000]; [1 # 10; 9 # 10]], [false; false], [true; false].
  split; [apply dataset_b_ok; vm_compute; reflexivity|]. split; [apply dataset_b_ok; vm_compute; reflexivity|].
  split; [exists 0%nat, 1%nat; cbn; intuition lia|].
  split. { split; [reflexivity|]. intros e k. destruct e as [|[|e]]; destruct k as [|[|k]]; try (apply Qle_bool_iff; vm_compute; reflexivity);
    unfold prob_of; cbn [nth]; try destruct k; try destruct e; apply Qle_bool_iff; vm_compute; reflexivity. }
  split; [exact I|]. split; [vm_compute; reflexivity|]. split; [vm_compute; reflexivity|]. discriminate.
Qed.
Print Assumptions C134_near_tie_refuted.
