(** * C114 - C116: reordering the examples, renaming the classes, repeating the data *)
From Coq Require Import QArith List Bool Arith Lia Lqa Permutation.
From Verif Require Import Base BaseFacts ModelUtil ModelCount ModelRank ModelPool ModelFilter SpecCount SpecFilter SpecSymmetry ProofSymmetry.
Import ListNotations.
Open Scope Q_scope.

Definition plain : options :=
  {| frac_noise := 1; num_to_remove_per_class := None; min_examples_per_class := 1; confident_joint := None; n_jobs := 1; sched_c := []; sched_n := [] |}.

(** ** C114 *)
(** reordering the examples reorders the mask, for every filter, when no two examples are tied in what the
    filter sorts by *)
Theorem C114_order : forall K labels pp order, dataset K labels pp -> Permutation order (seq 0 (length labels)) ->
  forall srt o flt, argsort_ok srt -> no_ties flt labels pp K -> two_classes labels -> num_to_remove_per_class o = None -> n_jobs o = 1%nat ->
  exists m, find_label_issues srt labels pp K flt o = Ok m /\ length m = length labels /\
    find_label_issues srt (pick 0%nat order labels) (pick [] order pp) K flt o = Ok (pick false order m).
Proof. exact order_full. Qed.
Print Assumptions C114_order.

(** the calibrated confident joint and the number of issues do not depend on the order, ties or not *)
Theorem C114_counts : forall K labels pp order srt, Permutation order (seq 0 (length labels)) -> dataset K labels pp -> two_classes labels -> argsort_ok srt ->
  num_label_issues srt (pick 0%nat order labels) (pick [] order pp) K = num_label_issues srt labels pp K /\
  exists cj idx idx', compute_confident_joint srt labels pp K None true = Ok (cj, idx) /\
    compute_confident_joint srt (pick 0%nat order labels) (pick [] order pp) K None true = Ok (cj, idx').
Proof. exact order_number. Qed.
Print Assumptions C114_counts.

(** with ties it does depend on the order *)
Theorem C114_tied_refuted : exists K labels pp order m m', dataset K labels pp /\ Permutation order (seq 0 (length labels)) /\ two_classes labels /\
  find_label_issues argsort_ins labels pp K PruneByClass plain = Ok m /\
  find_label_issues argsort_ins (pick 0%nat order labels) (pick [] order pp) K PruneByClass plain = Ok m' /\ m' <> pick false order m.
Proof.
  exists 3%nat, [2;0;1;0;1;0;2]%nat, [[1#8;5#8;2#8];[8#8;0#8;0#8];[1#8;0#8;7#8];[8#8;0#8;0#8];[1#8;5#8;2#8];[8#8;0#8;0#8];[5#8;1#8;2#8]], [2;4;1;6;0;5;3]%nat.
  eexists. eexists. split.
  { constructor; [reflexivity|discriminate| | |].
    - cbn. intros l H. repeat (destruct H as [<-|H]; [lia|]). destruct H.
    - cbn. intros r H. repeat (destruct H as [<-|H]; [reflexivity|]). destruct H.
    - cbn. intros r x H Hx. repeat (destruct H as [<-|H]; [cbn in Hx; repeat (destruct Hx as [<-|Hx]; [lra|]); destruct Hx|]). destruct H. }
  split; [symmetry; apply NoDup_Permutation; [apply seq_NoDup|repeat constructor; cbn; intuition congruence|cbn; intuition congruence]|].
  split; [exists 0%nat, 1%nat; cbn; intuition congruence|].
  split; [vm_compute; reflexivity|]. split; [vm_compute; reflexivity|]. vm_compute. discriminate.
Qed.
Print Assumptions C114_tied_refuted.

Example C114_example :
  let labels := [0;2;2;2;0;0;1]%nat in
  let pp := [[2#8;2#8;4#8];[0#8;6#8;2#8];[6#8;1#8;1#8];[0#8;1#8;7#8];[4#8;2#8;2#8];[1#8;4#8;3#8];[0#8;7#8;1#8]] in
  let order := [4;2;0;6;1;5;3]%nat in
  no_ties PruneByClass labels pp 3 /\
  find_label_issues argsort_ins labels pp 3 PruneByClass plain = Ok [true;false;true;false;false;true;false] /\
  find_label_issues argsort_ins (pick 0%nat order labels) (pick [] order pp) 3 PruneByClass plain = Ok [false;true;true;false;false;true;false].
Proof.
  cbv zeta. split; [|split; vm_compute; reflexivity].
  intros e e' He He' S E. cbn in He, He'.
  do 7 (destruct e as [|e]; [do 7 (destruct e' as [|e']; [cbn in S, E; (reflexivity || discriminate S || discriminate E)|]); lia|]). lia.
Qed.

(** ** C115 *)
(** a new numbering of the classes (of the labels and of the columns of pred_probs) changes neither the
    masks of confident_learning and predicted_neq_given nor the number of issues *)
Theorem C115_names : forall K names labels pp pp', Permutation names (seq 0 K) -> dataset K labels pp -> Forall2 (renamed_row names) pp pp' ->
  decided labels pp -> forall srt o flt, argsort_ok srt -> two_classes labels -> num_to_remove_per_class o = None -> (1 <= n_jobs o)%nat ->
  flt = ConfidentLearning \/ flt = PredictedNeqGiven ->
  exists m, find_label_issues srt labels pp K flt o = Ok m /\ find_label_issues srt (renamed_labels names labels) pp' K flt o = Ok m /\
    num_label_issues srt (renamed_labels names labels) pp' K = num_label_issues srt labels pp K.
Proof. exact renamed_full. Qed.
Print Assumptions C115_names.

(** nor the scores (ties or not) *)
Theorem C115_scores : forall K names labels pp pp' method, (2 <= K)%nat -> Permutation names (seq 0 K) -> dataset K labels pp -> Forall2 (renamed_row names) pp pp' ->
  exists sc sc', get_label_quality_scores labels pp K method false = Ok sc /\
    get_label_quality_scores (renamed_labels names labels) pp' K method false = Ok sc' /\ length sc = length labels /\ length sc' = length labels /\
    forall e, (e < length labels)%nat -> nth e sc' 0 == nth e sc 0.
Proof. exact renamed_scores. Qed.
Print Assumptions C115_scores.

(** the pruning filters do depend on the numbering, even without any tie *)
Theorem C115_pruning_refuted : exists K names labels pp pp' m m', Permutation names (seq 0 K) /\ dataset K labels pp /\ Forall2 (renamed_row names) pp pp' /\
  decided labels pp /\ no_ties PruneByClass labels pp K /\ two_classes labels /\
  find_label_issues argsort_ins labels pp K PruneByClass plain = Ok m /\
  find_label_issues argsort_ins (renamed_labels names labels) pp' K PruneByClass plain = Ok m' /\ m <> m'.
Proof.
  exists 3%nat, [2;0;1]%nat, [0;2;2;2;0;0;1]%nat, [[2#8;2#8;4#8];[0#8;6#8;2#8];[6#8;1#8;1#8];[0#8;1#8;7#8];[4#8;2#8;2#8];[1#8;4#8;3#8];[0#8;7#8;1#8]],
    [[2#8;4#8;2#8];[6#8;2#8;0#8];[1#8;1#8;6#8];[1#8;7#8;0#8];[2#8;2#8;4#8];[4#8;3#8;1#8];[7#8;1#8;0#8]].
  eexists. eexists.
  split; [symmetry; apply NoDup_Permutation; [apply seq_NoDup|repeat constructor; cbn; intuition congruence|cbn; intuition congruence]|].
  split.
  { constructor; [reflexivity|discriminate| | |].
    - cbn. intros l H. repeat (destruct H as [<-|H]; [lia|]). destruct H.
    - cbn. intros r H. repeat (destruct H as [<-|H]; [reflexivity|]). destruct H.
    - cbn. intros r x H Hx. repeat (destruct H as [<-|H]; [cbn in Hx; repeat (destruct Hx as [<-|Hx]; [lra|]); destruct Hx|]). destruct H. }
  split.
  { repeat constructor; cbn; intros k Hk; do 3 (destruct k as [|k]; [reflexivity|]); lia. }
  split.
  { intros e He. cbn in He. split.
    - intros i j Hi Hj N E. do 7 (destruct e as [|e];
        [cbn in Hi, Hj; do 3 (destruct i as [|i]; [do 3 (destruct j as [|j]; [cbn in E; (congruence || discriminate E ||
           (exists 0%nat; split; [cbn; lia|reflexivity]) || (exists 1%nat; split; [cbn; lia|reflexivity]) || (exists 2%nat; split; [cbn; lia|reflexivity]))|]); lia|]); lia|]). lia.
    - intros j Hj E. do 7 (destruct e as [|e]; [cbn in Hj; do 3 (destruct j as [|j]; [cbn in E; discriminate E|]); lia|]). lia. }
  split.
  { intros e e' He He' S E. cbn in He, He'.
    do 7 (destruct e as [|e]; [do 7 (destruct e' as [|e']; [cbn in S, E; (reflexivity || discriminate S || discriminate E)|]); lia|]). lia. }
  split; [exists 0%nat, 1%nat; cbn; intuition congruence|].
  split; [vm_compute; reflexivity|]. split; [vm_compute; reflexivity|]. discriminate.
Qed.
Print Assumptions C115_pruning_refuted.

(** a class ahead of the given label by exactly the tolerance 1e-6 counts or not according to its number *)
Theorem C115_exact_gap_refuted : exists labels pp pp' m m', dataset 2 labels pp /\ Forall2 (renamed_row [1;0]%nat) pp pp' /\ two_classes labels /\
  find_label_issues argsort_ins labels pp 2 PredictedNeqGiven plain = Ok m /\
  find_label_issues argsort_ins (renamed_labels [1;0]%nat labels) pp' 2 PredictedNeqGiven plain = Ok m' /\ m <> m'.
Proof.
  exists [1;0]%nat, [[500001#1000000; 1#2]; [1; 0]], [[1#2; 500001#1000000]; [0; 1]]. eexists. eexists. split.
  { constructor; [reflexivity|discriminate| | |].
    - cbn. intros l H. repeat (destruct H as [<-|H]; [lia|]). destruct H.
    - cbn. intros r H. repeat (destruct H as [<-|H]; [reflexivity|]). destruct H.
    - cbn. intros r x H Hx. repeat (destruct H as [<-|H]; [cbn in Hx; repeat (destruct Hx as [<-|Hx]; [lra|]); destruct Hx|]). destruct H. }
  split; [repeat constructor; cbn; intros k Hk; do 2 (destruct k as [|k]; [reflexivity|]); lia|].
  split; [exists 0%nat, 1%nat; cbn; intuition congruence|].
  split; [vm_compute; reflexivity|]. split; [vm_compute; reflexivity|]. discriminate.
Qed.
Print Assumptions C115_exact_gap_refuted.

Example C115_example :
  find_label_issues argsort_ins [0;2;2;2;0;0;1]%nat
     [[2#8;2#8;4#8];[0#8;6#8;2#8];[6#8;1#8;1#8];[0#8;1#8;7#8];[4#8;2#8;2#8];[1#8;4#8;3#8];[0#8;7#8;1#8]] 3 ConfidentLearning plain =
  find_label_issues argsort_ins (renamed_labels [2;0;1]%nat [0;2;2;2;0;0;1]%nat)
     [[2#8;4#8;2#8];[6#8;2#8;0#8];[1#8;1#8;6#8];[1#8;7#8;0#8];[2#8;2#8;4#8];[4#8;3#8;1#8];[7#8;1#8;0#8]] 3 ConfidentLearning plain.
Proof. vm_compute. reflexivity. Qed.

(** ** C116 *)
(** [c] copies of the data set: the mask of every copy is the mask of the data set, and the number of issues
    is multiplied by [c] *)
Theorem C116_copies : forall K labels pp srt o flt c, (1 <= c)%nat -> dataset K labels pp -> two_classes labels -> argsort_ok srt ->
  num_to_remove_per_class o = None -> (1 <= n_jobs o)%nat -> flt = ConfidentLearning \/ flt = PredictedNeqGiven ->
  exists m n, find_label_issues srt labels pp K flt o = Ok m /\ find_label_issues srt (copies c labels) (copies c pp) K flt o = Ok (copies c m) /\
    num_label_issues srt labels pp K = Ok n /\ num_label_issues srt (copies c labels) (copies c pp) K = Ok (c * n)%nat.
Proof. exact copies_full. Qed.
Print Assumptions C116_copies.

(** the pruning filters may flag an example and not its copy *)
Theorem C116_pruning_refuted : exists K labels pp m m', dataset K labels pp /\ two_classes labels /\
  find_label_issues argsort_ins labels pp K PruneByClass plain = Ok m /\
  find_label_issues argsort_ins (copies 2 labels) (copies 2 pp) K PruneByClass plain = Ok m' /\ m' <> copies 2 m.
Proof.
  exists 2%nat, [1;1;0;1;1;0]%nat, [[1#8;7#8];[7#8;1#8];[2#8;6#8];[3#8;5#8];[2#8;6#8];[1#8;7#8]]. eexists. eexists. split.
  { constructor; [reflexivity|discriminate| | |].
    - cbn. intros l H. repeat (destruct H as [<-|H]; [lia|]). destruct H.
    - cbn. intros r H. repeat (destruct H as [<-|H]; [reflexivity|]). destruct H.
    - cbn. intros r x H Hx. repeat (destruct H as [<-|H]; [cbn in Hx; repeat (destruct Hx as [<-|Hx]; [lra|]); destruct Hx|]). destruct H. }
  split; [exists 0%nat, 1%nat; cbn; intuition congruence|].
  split; [vm_compute; reflexivity|]. split; [vm_compute; reflexivity|]. vm_compute. discriminate.
Qed.
Print Assumptions C116_pruning_refuted.

Example C116_example :
  let labels := [1;1;0;1;1;0]%nat in let pp := [[1#8;7#8];[7#8;1#8];[2#8;6#8];[3#8;5#8];[2#8;6#8];[1#8;7#8]] in
  exists m n, find_label_issues argsort_ins labels pp 2 ConfidentLearning plain = Ok m /\
    find_label_issues argsort_ins (copies 2 labels) (copies 2 pp) 2 ConfidentLearning plain = Ok (copies 2 m) /\
    num_label_issues argsort_ins labels pp 2 = Ok n /\ num_label_issues argsort_ins (copies 2 labels) (copies 2 pp) 2 = Ok (2 * n)%nat /\ (0 < n)%nat.
Proof. eexists. eexists. repeat (split; [vm_compute; reflexivity|]). lia. Qed.
