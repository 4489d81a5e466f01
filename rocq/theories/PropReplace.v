(** * Property C170: the influence of one example *)
From Coq Require Import QArith Qabs List ZArith Bool Arith Lia Lqa.
From Verif Require Import Base BaseFacts ModelUtil ModelCount ModelFilter SpecCount SpecFilter
     SpecReplace ProofFilter ProofApprox ProofReplace PropCount.
Import ListNotations.
Open Scope Q_scope.

(** Replacing the label and the prediction of one example moves the threshold of a class by at most one over the number
    of its examples, and only those of its old and its new class. *)
Theorem C170_thresholds : forall K e0 labels pp labels' pp' k,
  dataset K labels pp -> dataset K labels' pp' -> replaced e0 labels pp labels' pp' ->
  (k < K)%nat -> In k labels -> In k labels' ->
  (k <> label_of labels e0 -> k <> label_of labels' e0 ->
     nth k (get_confident_thresholds labels' pp' K) 0 == nth k (get_confident_thresholds labels pp K) 0) /\
  Qabs (nth k (get_confident_thresholds labels' pp' K) 0 - nth k (get_confident_thresholds labels pp K) 0) <= influence labels labels' k.
Proof. exact C170_thresholds_full. Qed.
Print Assumptions C170_thresholds.

(** No other example becomes or ceases to be an issue unless it is that close to one of these two thresholds, and the
    number of issues changes by at most one plus the number of such examples. *)
Theorem C170_flags : forall srt K e0 labels pp labels' pp' o,
  argsort_ok srt -> dataset K labels pp -> dataset K labels' pp' -> two_classes labels ->
  replaced e0 labels pp labels' pp' -> (forall k, In k labels <-> In k labels') ->
  num_to_remove_per_class o = None -> (1 <= n_jobs o)%nat ->
  exists m m', find_label_issues srt labels pp K ConfidentLearning o = Ok m /\
    find_label_issues srt labels' pp' K ConfidentLearning o = Ok m' /\
    (forall e, (e < length labels)%nat -> e <> e0 -> ~ near_threshold K e0 labels pp labels' e -> flagged m' e <-> flagged m e) /\
    forall q n n', holds_for (length labels) (near_threshold K e0 labels pp labels') q ->
      num_label_issues srt labels pp K = Ok n -> num_label_issues srt labels' pp' K = Ok n' ->
      (n' <= n + q + 1)%nat /\ (n <= n' + q + 1)%nat.
Proof. exact C170_flags_full. Qed.
Print Assumptions C170_flags.

(** Forty examples, one of which gets another label and the opposite prediction: no other example is near a threshold, and
    nothing but the flag of this example changes. *)
Definition y170 : list nat := repeat 0%nat 20 ++ repeat 1%nat 20.
Definition pp170 : list (list Q) := repeat [99#100; 1#100] 10 ++ repeat [8#10; 2#10] 10 ++ repeat [1#100; 99#100] 10 ++ repeat [2#10; 8#10] 9 ++ [[1; 0]].
Definition y170' : list nat := 1%nat :: repeat 0%nat 19 ++ repeat 1%nat 20.
Definition pp170' : list (list Q) := [1; 0] :: repeat [99#100; 1#100] 9 ++ repeat [8#10; 2#10] 10 ++ repeat [1#100; 99#100] 10 ++ repeat [2#10; 8#10] 9 ++ [[1; 0]].
Example C170_example_hyps : dataset 2 y170 pp170 /\ dataset 2 y170' pp170' /\ two_classes y170 /\ replaced 0 y170 pp170 y170' pp170' /\
  (forall k, In k y170 <-> In k y170') /\ holds_for (length y170) (near_threshold 2 0 y170 pp170 y170') 0.
Proof.
  split; [apply dataset_b_ok; vm_compute; reflexivity|]. split; [apply dataset_b_ok; vm_compute; reflexivity|].
  split; [exists 0%nat, 1%nat; simpl; intuition congruence|].
  split; [split; [cbv; lia|]; split; [reflexivity|]; split; [reflexivity|]; intros [|e] He; [congruence|split; reflexivity]|].
  split; [intros k; simpl; intuition congruence|].
  exists []. split; [constructor|]. split; [reflexivity|]. intros e. split; [intros []|]. intros (He & Ne & k & Hk & L).
  assert (V : forallb (fun e => forallb (fun k => Qltb (influence y170 y170' k)
      (Qabs (prob_of pp170 e k - (nth k (get_confident_thresholds y170 pp170 2) 0 - (1 # 1000000))))) [0; 1]%nat) (seq 1 39) = true) by (vm_compute; reflexivity).
  rewrite forallb_forall in V. specialize (V e). rewrite forallb_forall in V.
  assert (I : In k [0; 1]%nat) by (destruct Hk as [->| ->]; vm_compute; auto).
  assert (J : In e (seq 1 39)) by (apply in_seq; change (length y170) with 40%nat in He; lia).
  specialize (V J k I). apply Qltb_iff in V. apply (Qlt_not_le _ _ V L).
Qed.
Example C170_example :
  num_label_issues argsort_ins y170 pp170 2 = Ok 1%nat /\ num_label_issues argsort_ins y170' pp170' 2 = Ok 2%nat.
Proof. split; vm_compute; reflexivity. Qed.

(** If the example was the only one of its class, the threshold of the class can move further: to 2. *)
Theorem C170_last_refuted : exists K e0 labels pp labels' pp' k,
  dataset K labels pp /\ dataset K labels' pp' /\ replaced e0 labels pp labels' pp' /\ (k < K)%nat /\
  ~ Qabs (nth k (get_confident_thresholds labels' pp' K) 0 - nth k (get_confident_thresholds labels pp K) 0) <= influence labels labels' k.
Proof.
  exists 2%nat, 1%nat, [0; 1]%nat, [[9#10; 1#10]; [2#10; 8#10]], [0; 0]%nat, [[9#10; 1#10]; [2#10; 8#10]], 1%nat.
  split; [apply dataset_b_ok; vm_compute; reflexivity|]. split; [apply dataset_b_ok; vm_compute; reflexivity|].
  split; [split; [cbv; lia|]; split; [reflexivity|]; split; [reflexivity|]; intros [|[|e]] He; [split; reflexivity|congruence|split; destruct e; reflexivity]|].
  split; [lia|]. vm_compute. intros H. apply H. reflexivity.
Qed.
Print Assumptions C170_last_refuted.
