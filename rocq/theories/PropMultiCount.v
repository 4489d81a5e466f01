(** * Counting label issues in multi-label data: C123 *)
From Coq Require Import QArith List ZArith Bool Arith Lia Lqa.
From Verif Require Import Base BaseFacts ModelUtil ModelCount ModelRank ModelFilter ModelMultilabel ModelMultiCount
     SpecCount SpecFilter SpecMultilabel SpecMultiCount ProofMultiCount.
Import ListNotations.
Open Scope Q_scope.

(** ** C123 *)
Theorem C123_thresholds : forall labels pp K, ml_dataset K labels pp ->
  length (ml_thresholds labels pp K) = K /\
  forall c, (c < K)%nat -> exists t0 t1, nth c (ml_thresholds labels pp K) [] = [t0; t1] /\
    threshold_of (probs_absent c labels pp) t0 /\ threshold_of (probs_present c labels pp) t1.
Proof. exact C123_thresholds_full. Qed.
Print Assumptions C123_thresholds.

Theorem C123_joint : forall srt labels pp K cjs, argsort_ok srt -> ml_dataset K labels pp ->
  (forall cs, cjs = Some cs -> length cs = K /\ forall c, (c < K)%nat -> usable_joint labels c (nth c cs [])) ->
  exists J, ml_estimate_joint srt labels pp K cjs = Ok J /\ length J = K /\
    forall c, (c < K)%nat -> exists a b p q n, nth c J [] = [[a; b]; [p; q]] /\
      0 <= a /\ 0 <= b /\ 0 <= p /\ 0 <= q /\ a + b + p + q == 1 /\
      n_having labels c n /\ p + q == Qnat n / Qnat (length labels).
Proof. exact C123_joint_full. Qed.
Print Assumptions C123_joint.

Theorem C123_calibrated : forall srt labels cjs K, argsort_ok srt -> labels <> [] ->
  (forall l k, In l labels -> In k l -> (k < K)%nat) -> all_occur labels K -> length cjs = K ->
  (forall c, (c < K)%nat -> usable_joint labels c (nth c cjs [])) ->
  exists ms, ml_calibrate srt cjs labels = Ok ms /\ length ms = K /\
    forall c, (c < K)%nat -> exists a b p q n0 n1, nth c ms None = Some [[a; b]; [p; q]] /\
      (0 <= a)%Z /\ (0 <= b)%Z /\ (0 <= p)%Z /\ (0 <= q)%Z /\
      n_lacking labels c n0 /\ n_having labels c n1 /\ (a + b = Z.of_nat n0)%Z /\ (p + q = Z.of_nat n1)%Z.
Proof. exact C123_calibrated_full. Qed.
Print Assumptions C123_calibrated.

Theorem C123_count : forall srt labels pp K cjs method n sched, argsort_ok srt -> ml_dataset K labels pp ->
  (forall c, (c < K)%nat -> mixed labels c) -> (1 <= n)%nat ->
  exists k, ml_num_label_issues srt labels pp K cjs method n sched = Ok k /\
    holds_for (length labels) (fun e => exists c bl bp j, (c < K)%nat /\ clearly_disagrees labels pp e c /\
      one_vs_rest labels pp c bl bp /\
      counted_as (get_confident_thresholds bl bp 2) (row_of bp e) j /\ j <> label_of bl e) k.
Proof. exact C123_count_full. Qed.
Print Assumptions C123_count.

Theorem C123_predicted_neq_given : forall labels pp K, ml_dataset K labels pp ->
  (forall c, (c < K)%nat -> mixed labels c) ->
  exists m, ml_predicted_neq_given labels pp K = Ok m /\ length m = length labels /\
    forall e, flagged m e <-> (e < length labels)%nat /\ exists c, (c < K)%nat /\ disagrees labels pp e c.
Proof. exact C123_pneq_full. Qed.
Print Assumptions C123_predicted_neq_given.

Theorem C123_predicted_neq_given_raises : forall labels pp K c, (c < K)%nat -> ~ mixed labels c ->
  forall m, ml_predicted_neq_given labels pp K <> Ok m.
Proof. exact C123_pneq_raises_full. Qed.
Print Assumptions C123_predicted_neq_given_raises.

(** A class no example has: the calibrated result has fewer matrices than there are classes. *)
Theorem C123_calibrated_refuted : forall srt labels cjs K c ms,
  (forall l k, In l labels -> In k l -> (k < K)%nat) -> (c < K)%nat ->
  (forall e, (e < length labels)%nat -> ~ has_class labels e c) ->
  ml_calibrate srt cjs labels = Ok ms -> (length ms < K)%nat.
Proof. exact C123_calibrated_short_full. Qed.
Print Assumptions C123_calibrated_refuted.

(** ... and when the absent class is not the last one, the matrices of the classes used do not all appear: class 2
    occurs on both examples, its matrix is dropped, and the matrix kept at position 1 counts class 1, which no
    example has. *)
Theorem C123_calibrated_pairing_refuted :
  exists labels cjs, all_occur labels 1 /\ (forall e, (e < length labels)%nat -> has_class labels e 2) /\ length cjs = 3%nat /\
    ml_calibrate argsort_ins cjs labels = Ok [Some [[1; 0]; [0; 1]]%Z; Some [[2; 0]; [0; 0]]%Z].
Proof.
  exists [[0; 2]; [2]]%nat, [[[1; 0]; [0; 1]]; [[1; 0]; [0; 1]]; [[1; 0]; [0; 1]]].
  split; [intros c Hc; exists 0%nat; assert (c = 0)%nat by lia; subst; unfold has_class; simpl; auto|].
  split; [intros [|[|e]] He; unfold has_class; simpl in *; auto; lia|].
  split; [reflexivity|]. vm_compute. reflexivity.
Qed.
Print Assumptions C123_calibrated_pairing_refuted.

(** Too few matrices: entries of the result are never written. *)
Theorem C123_uninitialised_refuted :
  exists labels cjs ms, all_occur labels 2 /\ length cjs = 1%nat /\ usable_joint labels 0 (nth 0 cjs []) /\
    ml_calibrate argsort_ins cjs labels = Ok ms /\ length ms = 2%nat /\ nth 1 ms (Some []) = None.
Proof.
  exists [[0]; [1]]%nat, [[[1; 0]; [0; 1]]]. eexists.
  split; [intros c Hc; exists c; destruct c as [|[|c]]; unfold has_class; simpl; try lia; auto|].
  split; [reflexivity|]. split; [exists 1, 0, 0, 1; repeat split; try lra; vm_compute; discriminate|].
  split; [vm_compute; reflexivity|]. split; reflexivity.
Qed.
Print Assumptions C123_uninitialised_refuted.

Definition ex123_labels : list (list nat) := [[0]; [0;1]; [1]; []; [0;1]; [1]]%nat.
Definition ex123_pp : list (list Q) :=
  [[8#10; 1#10]; [2#10; 9#10]; [1#10; 8#10]; [9#10; 2#10]; [7#10; 6#10]; [3#10; 4#10]].
Lemma ex123_dataset : ml_dataset 2 ex123_labels ex123_pp.
Proof.
  split; [reflexivity|discriminate| | |].
  - intros l k H H'. unfold ex123_labels in H. repeat (destruct H as [<-|H]; [simpl in H'; lia|]). destruct H.
  - intros r H. unfold ex123_pp in H. repeat (destruct H as [<-|H]; [reflexivity|]). destruct H.
  - intros r x H Hx. unfold ex123_pp in H.
    repeat (destruct H as [<-|H]; [simpl in Hx; destruct Hx as [<-|[<-|[]]]; lra|]). destruct H.
Qed.
Lemma ex123_mixed : forall c, (c < 2)%nat -> mixed ex123_labels c.
Proof.
  intros [|[|c]] Hc; [| |lia]; split.
  - exists 0%nat. unfold has_class. simpl. auto with arith.
  - exists 2%nat. unfold has_class. simpl. split; [lia|]. intros [H|[]]. discriminate.
  - exists 1%nat. unfold has_class. simpl. auto with arith.
  - exists 0%nat. unfold has_class. simpl. split; [lia|]. intros [H|[]]. discriminate.
Qed.

(** num_label_issues with multi_label=True looks neither at the method nor at a confident joint: asked to count the
    off-diagonal of a diagonal confident joint (or asked for a method that does not exist) it counts two issues. *)
Theorem C123_method_refuted :
  exists labels pp cjs, ml_dataset 2 labels pp /\ (forall c, (c < 2)%nat -> mixed labels c) /\
    length cjs = 2%nat /\ (forall cj, In cj cjs -> usable_joint labels 0 cj /\ mget cj 0 1 == 0 /\ mget cj 1 0 == 0) /\
    ml_num_label_issues argsort_ins labels pp 2 (Some cjs) OffDiagonalCustom 1 (fun _ => ([], [])) = Ok 2%nat /\
    ml_num_label_issues argsort_ins labels pp 2 (Some cjs) OtherMethod 1 (fun _ => ([], [])) = Ok 2%nat.
Proof.
  exists ex123_labels, ex123_pp, [[[3; 0]; [0; 3]]; [[3; 0]; [0; 3]]].
  split; [apply ex123_dataset|]. split; [apply ex123_mixed|]. split; [reflexivity|].
  split; [|split; vm_compute; reflexivity].
  intros cj [<-|[<-|[]]]; (split; [exists 3, 0, 0, 3; repeat split; try lra; vm_compute; discriminate|split; reflexivity]).
Qed.
Print Assumptions C123_method_refuted.

Example C123_example :
  (exists t, nth 0 (ml_thresholds ex123_labels ex123_pp 2) [] = t /\ nth 0 t 0 == 17 # 30 /\ nth 1 t 0 == 17 # 30) /\
  (exists J, ml_estimate_joint argsort_ins ex123_labels ex123_pp 2 None = Ok J /\ length J = 2%nat /\
     mget (nth 0 J []) 1 0 == 1 # 6) /\
  ml_calibrate argsort_ins [[[1; 1]; [1; 3]]; [[5; 0]; [0; 1]]] ex123_labels = Ok [Some [[1; 2]; [1; 2]]; Some [[2; 0]; [0; 4]]]%Z /\
  ml_predicted_neq_given ex123_labels ex123_pp 2 = Ok [false; true; false; true; false; true] /\
  (forall m, ml_predicted_neq_given [[0]; [0; 1]]%nat [[8#10; 1#10]; [2#10; 9#10]] 2 <> Ok m).
Proof.
  split; [eexists; split; [reflexivity|split; vm_compute; reflexivity]|].
  split; [eexists; split; [vm_compute; reflexivity|split; vm_compute; reflexivity]|].
  split; [vm_compute; reflexivity|]. split; [vm_compute; reflexivity|].
  apply (C123_predicted_neq_given_raises _ _ _ 0); [lia|]. intros (_ & e & He & H). apply H.
  destruct e as [|[|e]]; unfold has_class; simpl in *; auto; lia.
Qed.
