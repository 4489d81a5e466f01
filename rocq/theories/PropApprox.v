(** * Property C163: how the batched search relates to the standard one *)
From Coq Require Import QArith Qabs Qround List ZArith Bool Arith Lia Lqa.
From Verif Require Import Base BaseFacts ModelUtil ModelCount ModelRank ModelPool ModelFilter ModelBatched
     SpecCount SpecFilter SpecRank SpecBatched SpecApprox ProofFilter ProofApprox PropCount PropBatched.
Import ListNotations.
Open Scope Q_scope.

(** The standard count exceeds the batched one by exactly the number of overlooked examples. *)
Theorem C163_count_partial : forall srt K method labels pp bs sbs st,
  argsort_ok srt -> dataset K labels pp -> (2 <= K)%nat -> own_prob_floor labels pp ->
  (forall k, (k < K)%nat -> In k labels) -> clear_margins labels pp ->
  is_split labels pp bs -> is_split labels pp (map fst sbs) ->
  inspect K method false false bs sbs = Ok st ->
  exists n N d, get_num_issues K false st = Ok n /\ num_label_issues srt labels pp K = Ok N /\
    holds_for (length labels) (overlooked (get_confident_thresholds labels pp K) labels pp) d /\ N = (n + d)%nat.
Proof. exact count_full. Qed.
Print Assumptions C163_count_partial.

(** With two classes no example is overlooked: the two counts are equal. *)
Theorem C163_two_classes_count : forall srt method labels pp bs sbs st,
  argsort_ok srt -> dataset 2 labels pp -> own_prob_floor labels pp -> In 0%nat labels -> In 1%nat labels ->
  clear_margins labels pp -> is_split labels pp bs -> is_split labels pp (map fst sbs) ->
  inspect 2 method false false bs sbs = Ok st ->
  exists n, get_num_issues 2 false st = Ok n /\ num_label_issues srt labels pp 2 = Ok n.
Proof. exact binary_count. Qed.
Print Assumptions C163_two_classes_count.

(** While no example is overlooked the batched search flags those of the examples flagged by the low-score filters that
    have a more likely class than their label; with normalized margins these are all of them. *)
Theorem C163_same_issues_partial : forall srt K labels pp c method js m o,
  argsort_ok srt -> dataset K labels pp -> (2 <= K)%nat -> own_prob_floor labels pp ->
  (forall k, (k < K)%nat -> In k labels) -> clear_margins labels pp ->
  (forall e, (e < length labels)%nat -> ~ overlooked (get_confident_thresholds labels pp K) labels pp e) ->
  num_to_remove_per_class o = None -> (1 <= n_jobs o)%nat ->
  find_label_issues_batched srt labels pp K c method false false js = Ok m ->
  exists m', find_label_issues srt labels pp K (low_filter method) o = Ok m' /\ length m' = length m /\
    (forall e, flagged m e <-> flagged m' e /\ clearly_beaten labels pp e) /\
    (method = NormalizedMargin \/ (K = 2%nat /\ row_stochastic pp) -> m = m').
Proof. exact same_full. Qed.
Print Assumptions C163_same_issues_partial.

(** With two classes the two searches return the same mask, for any batch size and number of worker processes. *)
Theorem C163_two_classes : forall srt labels pp c method js m o,
  argsort_ok srt -> dataset 2 labels pp -> row_stochastic pp -> own_prob_floor labels pp -> In 0%nat labels -> In 1%nat labels ->
  clear_margins labels pp -> num_to_remove_per_class o = None -> (1 <= n_jobs o)%nat ->
  find_label_issues_batched srt labels pp 2 c method false false js = Ok m ->
  find_label_issues srt labels pp 2 (low_filter method) o = Ok m.
Proof. exact binary_full. Qed.
Print Assumptions C163_two_classes.

(** Two classes, five examples in batches of two, two issues. *)
Definition y163 : list nat := [0; 1; 0; 1; 1]%nat.
Definition pp163 : list (list Q) := [[9#10; 1#10]; [8#10; 2#10]; [2#10; 8#10]; [1#10; 9#10]; [3#10; 7#10]].
Example C163_example_hyps : dataset 2 y163 pp163 /\ row_stochastic pp163 /\ own_prob_floor y163 pp163 /\ clear_margins y163 pp163.
Proof.
  split; [apply dataset_b_ok; vm_compute; reflexivity|]. split; [|split].
  - intros r H. simpl in H.
    repeat (destruct H as [<-|H]; [split; [|vm_compute; reflexivity];
      intros x Hx; simpl in Hx; repeat (destruct Hx as [<-|Hx]; [vm_compute; discriminate|]); destruct Hx|]).
    destruct H.
  - intros e He. do 5 (destruct e as [|e]; [vm_compute; discriminate|]). simpl in He. lia.
  - intros e j He Hj Hne.
    do 5 (destruct e as [|e]; [do 2 (destruct j as [|j]; [try (exfalso; apply Hne; reflexivity); unfold prob_of, label_of; simpl; lra|]); simpl in Hj; lia|]).
    simpl in He. lia.
Qed.
Example C163_example :
  find_label_issues_batched argsort_ins y163 pp163 2 2 SelfConfidence false false (fun _ => Serial) = Ok [false; true; true; false; false] /\
  find_label_issues argsort_ins y163 pp163 2 LowSelfConfidence plain_options = Ok [false; true; true; false; false].
Proof. split; vm_compute; reflexivity. Qed.

(** Three classes, every class present, clear margins: the documentation says the two counts "may differ by 1 due to
    rounding differences"; here they are 0 and 3, and the batched search flags nothing. *)
Definition y163r : list nat := [0; 0; 0; 0; 1; 2; 2; 2; 2]%nat.
Definition pp163r : list (list Q) :=
  [[9#10; 5#100; 5#100]; [9#10; 5#100; 5#100]; [9#10; 5#100; 5#100]; [9#10; 5#100; 5#100];
   [4#10; 35#100; 25#100]; [5#10; 4#10; 1#10]; [5#10; 4#10; 1#10]; [5#10; 4#10; 1#10]; [1#10; 1#10; 8#10]].
Theorem C163_three_classes_refuted : exists labels pp st,
  dataset 3 labels pp /\ row_stochastic pp /\ (forall k, (k < 3)%nat -> In k labels) /\ own_prob_floor labels pp /\ clear_margins labels pp /\
  inspect 3 SelfConfidence false false [(labels, pp)] [((labels, pp), Serial)] = Ok st /\
  get_num_issues 3 false st = Ok 0%nat /\ num_label_issues argsort_ins labels pp 3 = Ok 3%nat /\
  find_label_issues_batched argsort_ins labels pp 3 100 SelfConfidence false false (fun _ => Serial) = Ok (repeat false 9) /\
  (do m <- find_label_issues argsort_ins labels pp 3 LowSelfConfidence plain_options ; Ok (count_true m)) = Ok 3%nat.
Proof. 
  exists y163r, pp163r.
  destruct (inspect 3 SelfConfidence false false [(y163r, pp163r)] [((y163r, pp163r), Serial)]) as [st|] eqn:E; [|vm_compute in E; discriminate].
  exists st. vm_compute in E. injection E as <-.
  split; [apply dataset_b_ok; vm_compute; reflexivity|]. split; [|split; [|split; [|split; [|split; [reflexivity|]]]]].
  - intros r H. simpl in H.
    repeat (destruct H as [<-|H]; [split; [|vm_compute; reflexivity];
      intros x Hx; simpl in Hx; repeat (destruct Hx as [<-|Hx]; [vm_compute; discriminate|]); destruct Hx|]).
    destruct H.
  - intros k Hk. do 3 (destruct k as [|k]; [simpl; tauto|]). lia.
  - intros e He. do 9 (destruct e as [|e]; [vm_compute; discriminate|]). simpl in He. lia.
  - intros e j He Hj Hne.
    do 9 (destruct e as [|e]; [do 3 (destruct j as [|j]; [try (exfalso; apply Hne; reflexivity); unfold prob_of, label_of; simpl; lra|]); simpl in Hj; lia|]).
    simpl in He. lia.
  - split; [vm_compute; reflexivity|]. split; [vm_compute; reflexivity|]. split; vm_compute; reflexivity.
Qed.
Print Assumptions C163_three_classes_refuted.

(** A class without a labelled example has the threshold 2e-6 in the batched search and 2 in the standard one: the batched
    count can also be the larger one. *)
Theorem C163_missing_class_refuted : exists labels pp st,
  dataset 3 labels pp /\ own_prob_floor labels pp /\ two_classes labels /\
  inspect 3 SelfConfidence false false [(labels, pp)] [((labels, pp), Serial)] = Ok st /\
  get_num_issues 3 false st = Ok 2%nat /\ num_label_issues argsort_ins labels pp 3 = Ok 0%nat.
Proof.
  pose (y := [0; 0; 1; 1]%nat). pose (pp := [[9#10; 1#10; 0]; [3#10; 1#10; 6#10]; [1#10; 9#10; 0]; [1#10; 3#10; 6#10]]).
  exists y, pp.
  destruct (inspect 3 SelfConfidence false false [(y, pp)] [((y, pp), Serial)]) as [st|] eqn:E; [|vm_compute in E; discriminate].
  exists st. vm_compute in E. injection E as <-.
  split; [apply dataset_b_ok; vm_compute; reflexivity|]. split; [|split; [|split; [reflexivity|]]].
  - intros e He. do 4 (destruct e as [|e]; [vm_compute; discriminate|]). simpl in He. lia.
  - exists 0%nat, 1%nat. simpl. repeat split; auto.
  - split; vm_compute; reflexivity.
Qed.
Print Assumptions C163_missing_class_refuted.

(** The calibrated counts differ by more than 1 as well. *)
Theorem C163_calibrated_refuted : exists labels pp st n N,
  dataset 3 labels pp /\ row_stochastic pp /\ (forall k, (k < 3)%nat -> In k labels) /\ own_prob_floor labels pp /\
  inspect 3 SelfConfidence false true [(labels, pp)] [((labels, pp), Serial)] = Ok st /\
  get_num_issues 3 true st = Ok n /\ num_label_issues_from_joint argsort_ins labels pp 3 None = Ok (Z.of_nat N) /\
  (n + 1 < N)%nat.
Proof.
  exists y163r, pp163r.
  destruct (inspect 3 SelfConfidence false true [(y163r, pp163r)] [((y163r, pp163r), Serial)]) as [st|] eqn:E; [|vm_compute in E; discriminate].
  exists st. vm_compute in E. injection E as <-.
  exists 0%nat, 3%nat.
  split; [apply dataset_b_ok; vm_compute; reflexivity|]. split; [|split; [|split; [|split; [reflexivity|]]]].
  - intros r H. simpl in H.
    repeat (destruct H as [<-|H]; [split; [|vm_compute; reflexivity];
      intros x Hx; simpl in Hx; repeat (destruct Hx as [<-|Hx]; [vm_compute; discriminate|]); destruct Hx|]).
    destruct H.
  - intros k Hk. do 3 (destruct k as [|k]; [simpl; tauto|]). lia.
  - intros e He. do 9 (destruct e as [|e]; [vm_compute; discriminate|]). simpl in He. lia.
  - split; [vm_compute; reflexivity|]. split; [vm_compute; reflexivity|]. lia.
Qed.
Print Assumptions C163_calibrated_refuted.
