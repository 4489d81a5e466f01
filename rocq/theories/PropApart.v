(** * Property C176: data sets without common classes *)
From Coq Require Import QArith List ZArith Bool Arith Lia Lqa.
From Verif Require Import Base BaseFacts ModelUtil ModelCount ModelRank ModelFilter SpecCount SpecFilter SpecApart
  ProofCount ProofFilter ProofApart.
Import ListNotations.
Open Scope Q_scope.

(** two data sets that have no class in common, searched together, give the issues of the one followed by those
    of the other, and the numbers of issues add up *)
Theorem C176_issues : forall srt K L1 P1 L2 P2 o flt, argsort_ok srt -> dataset K L1 P1 -> dataset K L2 P2 ->
  two_classes L1 -> two_classes L2 -> apart L1 P1 L2 P2 -> num_to_remove_per_class o = None -> (1 <= n_jobs o)%nat ->
  flt = ConfidentLearning \/ flt = PredictedNeqGiven ->
  exists m1 m2 n1 n2, find_label_issues srt L1 P1 K flt o = Ok m1 /\ find_label_issues srt L2 P2 K flt o = Ok m2 /\
    length m1 = length L1 /\ length m2 = length L2 /\
    find_label_issues srt (L1 ++ L2) (P1 ++ P2) K flt o = Ok (m1 ++ m2) /\
    num_label_issues srt L1 P1 K = Ok n1 /\ num_label_issues srt L2 P2 K = Ok n2 /\
    num_label_issues srt (L1 ++ L2) (P1 ++ P2) K = Ok (n1 + n2)%nat.
Proof. exact apart_issues. Qed.
Print Assumptions C176_issues.

(** every class keeps its threshold *)
Theorem C176_thresholds : forall K L1 P1 L2 P2 k, dataset K L1 P1 -> dataset K L2 P2 -> apart L1 P1 L2 P2 -> (k < K)%nat ->
  (In k L1 -> nth k (get_confident_thresholds (L1 ++ L2) (P1 ++ P2) K) 0 == nth k (get_confident_thresholds L1 P1 K) 0) /\
  (In k L2 -> nth k (get_confident_thresholds (L1 ++ L2) (P1 ++ P2) K) 0 == nth k (get_confident_thresholds L2 P2 K) 0).
Proof. exact apart_thresholds. Qed.
Print Assumptions C176_thresholds.

(** and its row of the confident joint *)
Theorem C176_counts : forall srt K L1 P1 L2 P2, dataset K L1 P1 -> dataset K L2 P2 -> apart L1 P1 L2 P2 ->
  exists c1 i1 c2 i2 c i, compute_confident_joint srt L1 P1 K None false = Ok (c1, i1) /\
    compute_confident_joint srt L2 P2 K None false = Ok (c2, i2) /\
    compute_confident_joint srt (L1 ++ L2) (P1 ++ P2) K None false = Ok (c, i) /\
    forall a b, (a < K)%nat -> (b < K)%nat -> (In a L1 -> zget c a b = zget c1 a b) /\ (In a L2 -> zget c a b = zget c2 a b).
Proof. exact apart_counts. Qed.
Print Assumptions C176_counts.

(** ** examples *)
Definition opts176 : options := {| frac_noise := 1; num_to_remove_per_class := None; min_examples_per_class := 1;
  confident_joint := None; n_jobs := 1; sched_c := []; sched_n := [] |}.
Definition y176 : list nat := [0; 0; 1; 1; 0]%nat.
Definition pp176 : list (list Q) := [[8#10; 2#10; 0; 0]; [7#10; 3#10; 0; 0]; [1#10; 9#10; 0; 0]; [2#10; 8#10; 0; 0]; [45#100; 55#100; 0; 0]].
Definition y176b : list nat := [2; 2; 3; 3; 3]%nat.
Definition pp176b : list (list Q) := [[0; 0; 6#10; 4#10]; [0; 0; 51#100; 49#100]; [0; 0; 4#10; 6#10]; [0; 0; 3#10; 7#10]; [0; 0; 7#10; 3#10]].
Lemma apart176 : apart y176 pp176 y176b pp176b.
Proof.
  split; [intros k A B; cbn in A, B; lia|]. split; intros e k He Hk; cbn in He, Hk.
  - destruct e as [|[|[|[|[|e]]]]]; try lia; repeat (destruct Hk as [<-|Hk]; [reflexivity|]); destruct Hk.
  - destruct e as [|[|[|[|[|e]]]]]; try lia; repeat (destruct Hk as [<-|Hk]; [reflexivity|]); destruct Hk.
Qed.
Example C176_example : dataset 4 y176 pp176 /\ dataset 4 y176b pp176b /\ two_classes y176 /\ two_classes y176b /\ apart y176 pp176 y176b pp176b /\
  find_label_issues argsort_ins y176 pp176 4 PredictedNeqGiven opts176 = Ok [false; false; false; false; true] /\
  find_label_issues argsort_ins y176b pp176b 4 ConfidentLearning opts176 = Ok [false; false; false; false; true] /\
  find_label_issues argsort_ins (y176 ++ y176b) (pp176 ++ pp176b) 4 ConfidentLearning opts176 =
    Ok [false; false; false; false; false; false; false; false; false; true] /\
  num_label_issues argsort_ins (y176 ++ y176b) (pp176 ++ pp176b) 4 = Ok 1%nat.
Proof.
  split; [apply dataset_b_ok; vm_compute; reflexivity|]. split; [apply dataset_b_ok; vm_compute; reflexivity|].
  split; [exists 0%nat, 1%nat; split; [cbn; tauto|]; split; [cbn; tauto|discriminate]|]. split; [exists 2%nat, 3%nat; split; [cbn; tauto|]; split; [cbn; tauto|discriminate]|]. split; [exact apart176|].
  repeat split; vm_compute; reflexivity.
Qed.

Definition y176l : list nat := [0; 1; 1; 1]%nat.
Definition pp176l : list (list Q) := [[8#10; 2#10; 0; 0]; [1#10; 9#10; 0; 0]; [2#10; 8#10; 0; 0]; [9#10; 2#10; 0; 0]].
Definition y176m : list nat := [2; 2; 3]%nat.
Definition pp176m : list (list Q) := [[0; 0; 1#10; 0]; [0; 0; 1#10; 0]; [0; 0; 0; 1#10]].
Lemma apart176l : apart y176l pp176l y176m pp176m.
Proof.
  split; [intros k A B; cbn in A, B; lia|]. split; intros e k He Hk; cbn in He, Hk.
  - destruct e as [|[|[|[|e]]]]; try lia; repeat (destruct Hk as [<-|Hk]; [reflexivity|]); destruct Hk.
  - destruct e as [|[|[|e]]]; try lia; repeat (destruct Hk as [<-|Hk]; [reflexivity|]); destruct Hk.
Qed.
(** the filters that flag the lowest scores of the whole data set take them from the other part *)
Theorem C176_lowest_refuted : ~ (forall srt K L1 P1 L2 P2 o m1 m2, argsort_ok srt -> dataset K L1 P1 -> dataset K L2 P2 ->
  two_classes L1 -> two_classes L2 -> apart L1 P1 L2 P2 -> num_to_remove_per_class o = None -> (1 <= n_jobs o)%nat ->
  find_label_issues srt L1 P1 K LowSelfConfidence o = Ok m1 -> find_label_issues srt L2 P2 K LowSelfConfidence o = Ok m2 ->
  find_label_issues srt (L1 ++ L2) (P1 ++ P2) K LowSelfConfidence o = Ok (m1 ++ m2)).
Proof.
  intros H.
  specialize (H argsort_ins 4%nat y176l pp176l y176m pp176m opts176 [false; false; false; true] [false; false; false] argsort_ins_ok).
  assert (D1 : dataset 4 y176l pp176l) by (apply dataset_b_ok; vm_compute; reflexivity).
  assert (D2 : dataset 4 y176m pp176m) by (apply dataset_b_ok; vm_compute; reflexivity).
  assert (T1 : two_classes y176l) by (exists 0%nat, 1%nat; split; [cbn; tauto|]; split; [cbn; tauto|discriminate]).
  assert (T2 : two_classes y176m) by (exists 2%nat, 3%nat; split; [cbn; tauto|]; split; [cbn; tauto|discriminate]).
  specialize (H D1 D2 T1 T2 apart176l eq_refl (le_n 1)).
  assert (E1 : find_label_issues argsort_ins y176l pp176l 4 LowSelfConfidence opts176 = Ok [false; false; false; true]) by (vm_compute; reflexivity).
  assert (E2 : find_label_issues argsort_ins y176m pp176m 4 LowSelfConfidence opts176 = Ok [false; false; false]) by (vm_compute; reflexivity).
  assert (E : find_label_issues argsort_ins (y176l ++ y176m) (pp176l ++ pp176m) 4 LowSelfConfidence opts176 =
    Ok [false; false; false; false; true; false; false]) by (vm_compute; reflexivity).
  specialize (H E1 E2). rewrite E in H. discriminate H.
Qed.
Print Assumptions C176_lowest_refuted.

(** once the model gives a class of the other data set a probability of two in a million or more the results
    may change: the example with label 0 is flagged when the classes 2 and 3 join *)
Theorem C176_confused_refuted : exists L1 P1 L2 P2 m1 m2 m, dataset 4 L1 P1 /\ dataset 4 L2 P2 /\ two_classes L1 /\ two_classes L2 /\
  (forall k, In k L1 -> ~ In k L2) /\
  find_label_issues argsort_ins L1 P1 4 ConfidentLearning opts176 = Ok m1 /\ find_label_issues argsort_ins L2 P2 4 ConfidentLearning opts176 = Ok m2 /\
  find_label_issues argsort_ins (L1 ++ L2) (P1 ++ P2) 4 ConfidentLearning opts176 = Ok m /\ m <> m1 ++ m2.
Proof.
  exists [0; 0; 1]%nat, [[8#10; 2#10; 0; 0]; [1#10; 2#10; 7#10; 0]; [1#10; 9#10; 0; 0]], [2; 2; 3]%nat,
    [[0; 0; 6#10; 4#10]; [0; 0; 51#100; 49#100]; [0; 0; 4#10; 6#10]]. do 3 eexists.
  split; [apply dataset_b_ok; vm_compute; reflexivity|]. split; [apply dataset_b_ok; vm_compute; reflexivity|].
  split; [exists 0%nat, 1%nat; split; [cbn; tauto|]; split; [cbn; tauto|discriminate]|]. split; [exists 2%nat, 3%nat; split; [cbn; tauto|]; split; [cbn; tauto|discriminate]|].
  split; [intros k A B; cbn in A, B; lia|].
  split; [vm_compute; reflexivity|]. split; [vm_compute; reflexivity|]. split; [vm_compute; reflexivity|]. discriminate.
Qed.
Print Assumptions C176_confused_refuted.
