(** * C50: class-level dataset summaries *)
From Coq Require Import QArith Qabs List ZArith Bool Arith Lia Lqa Permutation Sorted.
From Verif Require Import Base BaseFacts ModelUtil ModelCount ModelFilter ModelDataset SpecCount SpecLatent
  SpecDataset ProofDataset.
Import ListNotations.
Open Scope Q_scope.

(** Every class is listed once, worst quality first; quality and noise are complementary numbers of [0,1];
    quality is the probability that a label of the class is right, inverse noise the probability that an
    example of the class is labelled otherwise (when the class has probability at least 1e-6); the numbers
    of issues are the expected numbers rounded. *)
Theorem C50_classes : forall srt K a m n rows, argsort_ok srt -> nonneg_square K m ->
  in_joint a = Some m -> in_num_examples a = Some n ->
  rank_classes_by_label_quality srt a = Ok rows ->
  Permutation (map class_index rows) (seq 0 K) /\
  StronglySorted (fun r r' => class_quality r <= class_quality r') rows /\
  forall r, In r rows ->
  let k := class_index r in
  0 <= class_label_noise r <= 1 /\ 0 <= class_inverse_label_noise r <= 1 /\ 0 <= class_quality r <= 1 /\
  class_quality r + class_label_noise r == 1 /\
  ((1 # 1000000) <= pr_given m k -> class_quality r * pr_given m k == mget m k k) /\
  ((1 # 1000000) <= pr_true m k -> (1 - class_inverse_label_noise r) * pr_true m k == mget m k k) /\
  rounds_to ((pr_given m k - mget m k k) * n) (class_label_issues r) /\
  rounds_to ((pr_true m k - mget m k k) * n) (class_inverse_label_issues r).
Proof. exact rank_classes_spec. Qed.
Print Assumptions C50_classes.

Definition joint_ex : list (list Q) := [[3#10; 1#10; 0]; [1#20; 1#4; 1#10]; [0; 1#20; 3#20]].
Definition from_joint (m : list (list Q)) (n : Q) : inputs :=
  {| in_labels := None; in_pred_probs := None; in_K := length m; in_num_examples := Some n;
     in_joint := Some m; in_confident_joint := None |}.
Example C50_classes_example :
  nonneg_square 3 joint_ex /\
  match rank_classes_by_label_quality argsort_ins (from_joint joint_ex 100) with
  | Ok rows => map class_index rows = [1%nat; 0%nat; 2%nat] /\ map class_label_issues rows = [15%Z; 10%Z; 5%Z]
  | Raise _ => False
  end.
Proof.
  split.
  - split; [reflexivity|split].
    + intros r [<-|[<-|[<-|[]]]]; reflexivity.
    + intros r x [<-|[<-|[<-|[]]]]; cbn; intuition; subst; discriminate.
  - vm_compute. auto.
Qed.

(** Below probability 1e-6 the quality is not the probability of a right label: a class all of whose labels
    are wrong is reported with quality 9/10. *)
Theorem C50_tiny_class_refuted :
  exists m, nonneg_square 2 m /\ qsum (map qsum m) == 1 /\
    match rank_classes_by_label_quality argsort_ins (from_joint m 10000000) with
    | Ok rows => exists r, In r rows /\ class_index r = 0%nat /\ 0 < pr_given m 0 /\ mget m 0 0 == 0 /\
                           class_quality r == 9 # 10
    | Raise _ => False
    end.
Proof.
  exists [[0; 1 # 10000000]; [0; 9999999 # 10000000]]. split; [|split; [reflexivity|]].
  - split; [reflexivity|split].
    + intros r [<-|[<-|[]]]; reflexivity.
    + intros r x [<-|[<-|[]]]; cbn; intuition; subst; discriminate.
  - cbn [rank_classes_by_label_quality]. eexists. split; [left; reflexivity|]. vm_compute. auto.
Qed.
Print Assumptions C50_tiny_class_refuted.

(** Every pair of different classes (ordered, or unordered) is listed once, most confused first, with its
    probability and the rounded expected number of examples; together they make up the probability of a
    wrong label. *)
Theorem C50_overlap : forall srt K asym a m n rows, argsort_ok srt ->
  length m = K -> (forall r, In r m -> length r = K) ->
  in_joint a = Some m -> in_num_examples a = Some n ->
  find_overlapping_classes srt asym a = Ok rows ->
  NoDup (map (fun r => (overlap_a r, overlap_b r)) rows) /\
  (forall x y, In (x, y) (map (fun r => (overlap_a r, overlap_b r)) rows) <->
     (x < K)%nat /\ (y < K)%nat /\ (if asym then x <> y else (x < y)%nat)) /\
  StronglySorted (fun r r' => overlap_prob r' <= overlap_prob r) rows /\
  (forall r, In r rows ->
     overlap_prob r == (if asym then mget m (overlap_a r) (overlap_b r)
                        else pr_confused m (overlap_a r) (overlap_b r)) /\
     rounds_to (overlap_prob r * n) (overlap_num r)) /\
  qsum (map overlap_prob rows) == pr_wrong m.
Proof. exact find_overlapping_spec. Qed.
Print Assumptions C50_overlap.

Example C50_overlap_example :
  match find_overlapping_classes argsort_ins false (from_joint joint_ex 100) with
  | Ok rows => map (fun r => (overlap_a r, overlap_b r, overlap_num r)) rows =
                 [(0, 1, 15%Z); (1, 2, 15%Z); (0, 2, 0%Z)]%nat
  | Raise _ => False
  end /\
  match find_overlapping_classes argsort_ins true (from_joint joint_ex 100) with
  | Ok rows => map (fun r => (overlap_a r, overlap_b r)) rows =
                 [(0, 1); (1, 2); (1, 0); (2, 1); (0, 2); (2, 0)]%nat
  | Raise _ => False
  end.
Proof. vm_compute. auto. Qed.

(** With a joint the overall score is the probability of a right label, and with the probability of a wrong
    label it makes up the whole distribution. *)
Theorem C50_score_from_joint : forall srt a m n, in_joint a = Some m -> in_num_examples a = Some n ->
  in_labels a = None \/ in_pred_probs a = None ->
  overall_label_health_score srt a = Ok (pr_correct m).
Proof. exact score_from_joint. Qed.
Print Assumptions C50_score_from_joint.
Theorem C50_score_complement : forall m,
  pr_correct m + pr_wrong m == qsum (tab (length m) (fun s => pr_given m s)).
Proof. exact pr_split. Qed.
Print Assumptions C50_score_complement.
Example C50_score_example :
  match overall_label_health_score argsort_ins (from_joint joint_ex 100) with
  | Ok s => s == 7 # 10
  | Raise _ => False
  end.
Proof. vm_compute. reflexivity. Qed.

(** With labels and predicted probabilities the score is one minus the fraction of estimated issues. *)
Theorem C50_score_from_data : forall srt a l pp s,
  in_labels a = Some l -> in_pred_probs a = Some pp -> in_num_examples a = None ->
  overall_label_health_score srt a = Ok s ->
  exists issues, num_label_issues srt l pp (in_K a) = Ok issues /\ (issues <= length l)%nat /\
                 s * Qnat (length l) == Qnat (length l) - Qnat issues /\ 0 <= s <= 1.
Proof. exact score_from_data. Qed.
Print Assumptions C50_score_from_data.

(** The summary's tables describe the joint it returns. *)
Theorem C50_summary : forall srt K asym a score joint classes overlap, argsort_ok srt ->
  health_summary srt asym a = Ok (score, joint, classes, overlap) -> nonneg_square K joint ->
  Permutation (map class_index classes) (seq 0 K) /\
  StronglySorted (fun r r' => class_quality r <= class_quality r') classes /\
  (forall r, In r classes -> (1 # 1000000) <= pr_given joint (class_index r) ->
     class_quality r * pr_given joint (class_index r) == mget joint (class_index r) (class_index r)) /\
  StronglySorted (fun r r' => overlap_prob r' <= overlap_prob r) overlap /\
  qsum (map overlap_prob overlap) == pr_wrong joint.
Proof. exact summary_tables. Qed.
Print Assumptions C50_summary.

Definition from_data (l : list nat) (pp : list (list Q)) (K : nat) : inputs :=
  {| in_labels := Some l; in_pred_probs := Some pp; in_K := K; in_num_examples := None;
     in_joint := None; in_confident_joint := None |}.
Definition labels_ex : list nat := [0; 0; 0; 1; 0; 0]%nat.
Definition pp_ex : list (list Q) :=
  [[9#10; 1#10]; [9#10; 1#10]; [1#5; 4#5]; [1#5; 4#5]; [11#20; 9#20]; [11#20; 9#20]].
(** The score of a summary is not the one of its joint: here the joint says that 2 of 6 labels are wrong,
    the score counts 1 of 6. *)
Theorem C50_summary_score_refuted :
  match health_summary argsort_ins false (from_data labels_ex pp_ex 2) with
  | Ok (score, joint, classes, overlap) =>
      nonneg_square 2 joint /\ qsum (map qsum joint) == 1 /\ score == 5 # 6 /\ pr_correct joint == 4 # 6
  | Raise _ => False
  end.
Proof.
  vm_compute. split; [|auto]. split; [reflexivity|split].
  - intros r [<-|[<-|[]]]; reflexivity.
  - intros r x [<-|[<-|[]]]; cbn; intuition; subst; discriminate.
Qed.
Print Assumptions C50_summary_score_refuted.

(** A joint with the number of examples suffices for both tables and the score, yet not for the summary made
    of them; a confident joint suffices for the overlaps and the score, yet not for the class table. *)
Theorem C50_joint_only_refuted : forall srt asym m n K,
  health_summary srt asym {| in_labels := None; in_pred_probs := None; in_K := K; in_num_examples := Some n;
                             in_joint := Some m; in_confident_joint := None |} = Raise OtherError.
Proof. exact summary_joint_only. Qed.
Print Assumptions C50_joint_only_refuted.
Theorem C50_confident_joint_only_refuted : forall srt cj K,
  rank_classes_by_label_quality srt {| in_labels := None; in_pred_probs := None; in_K := K; in_num_examples := None;
                             in_joint := None; in_confident_joint := Some cj |} = Raise ValueError.
Proof. exact rank_confident_joint_only. Qed.
Print Assumptions C50_confident_joint_only_refuted.
