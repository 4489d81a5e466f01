(** * Properties C06-C14, C55: finding label issues *)
From Coq Require Import QArith Qabs Qround List Sorted ZArith Bool Arith Lia.
From Verif Require Import Base BaseFacts ModelUtil ModelCount ModelRank ModelPool ModelFilter
     SpecCount SpecFilter ProofFilter PropCount.
Import ListNotations.
Open Scope Q_scope.

(** ** C06 *)
(** (numbers of classes seen by the validation: both calls reject data with a single class other than 0,
    hence [two_classes]) *)
Theorem C06_count_agrees_with_filter : forall srt K labels pp o,
  argsort_ok srt -> dataset K labels pp -> two_classes labels ->
  num_to_remove_per_class o = None -> (1 <= n_jobs o)%nat ->
  exists m, find_label_issues srt labels pp K ConfidentLearning o = Ok m /\ length m = length labels /\
    num_label_issues srt labels pp K = Ok (count_true m) /\
    (* and the flagged examples are: counted into another class, which is not a near-tie *)
    (forall e, flagged m e <->
       (e < length labels)%nat /\
       (exists j, counted_as (get_confident_thresholds labels pp K) (row_of pp e) j /\ j <> label_of labels e) /\
       clearly_beaten labels pp e).
Proof. exact C06_full. Qed.
Print Assumptions C06_count_agrees_with_filter.

Definition ex_options : options :=
  {| frac_noise := 1; num_to_remove_per_class := None; min_examples_per_class := 1;
     confident_joint := None; n_jobs := 1; sched_c := []; sched_n := [] |}.
Example ex_two_classes : two_classes ex_labels.
Proof. exists 0%nat, 1%nat. simpl. repeat split; auto 10. Qed.
Example C06_example :
  find_label_issues argsort_ins ex_labels ex_pp 3 ConfidentLearning ex_options
    = Ok [false; false; true; false; false; true] /\
  num_label_issues argsort_ins ex_labels ex_pp 3 = Ok 2%nat.
Proof. split; vm_compute; reflexivity. Qed.

(** ** C07 *)
Theorem C07_top_prediction_never_flagged : forall srt K labels pp flt o,
  argsort_ok srt -> dataset K labels pp ->
  flt <> LowNormalizedMargin -> flt <> LowSelfConfidence ->
  (forall m e, find_label_issues srt labels pp K flt o = Ok m -> flagged m e -> beaten labels pp e) /\
  (forall idx rank_by adjust e, two_classes labels ->
     find_label_issues_ranked srt labels pp K flt o rank_by adjust = Ok idx -> In e idx -> beaten labels pp e).
Proof. exact C07_full. Qed.
Print Assumptions C07_top_prediction_never_flagged.

Theorem C07_predicted_neq_given : forall srt K labels pp o,
  argsort_ok srt -> dataset K labels pp -> two_classes labels ->
  num_to_remove_per_class o = None -> (1 <= n_jobs o)%nat ->
  exists m, find_label_issues srt labels pp K PredictedNeqGiven o = Ok m /\ length m = length labels /\
    forall e, flagged m e <-> (e < length labels)%nat /\ clearly_beaten labels pp e.
Proof. exact C07_pneq_full. Qed.
Print Assumptions C07_predicted_neq_given.

(** a tie and a near-tie (not flagged), and an exact 1e-6 deficit against a smaller class (flagged) *)
Example C07_example :
  find_label_issues argsort_ins [1; 1; 1; 0]%nat
    [[1#2; 1#2]; [5000004#10000000; 4999996#10000000]; [5000005#10000000; 4999995#10000000];
     [4999995#10000000; 5000005#10000000]] 2 PredictedNeqGiven ex_options
  = Ok [false; false; true; false].
Proof. vm_compute. reflexivity. Qed.

(** ** C08 *)
Theorem C08_both_is_intersection : forall srt labels pp K o m, length labels = length pp ->
  find_label_issues srt labels pp K Both o = Ok m <->
  exists mc mn, find_label_issues srt labels pp K PruneByClass o = Ok mc /\
    find_label_issues srt labels pp K PruneByNoiseRate o = Ok mn /\
    length m = length labels /\ (forall e, flagged m e <-> flagged mc e /\ flagged mn e).
Proof. exact find_both_spec. Qed.
Print Assumptions C08_both_is_intersection.

Definition ex8_labels : list nat := [0; 0; 0; 0; 1; 1; 1; 2; 2; 2]%nat.
Definition ex8_pp : list (list Q) :=
  [[7#10; 2#10; 1#10]; [1#10; 8#10; 1#10]; [4#10; 1#10; 5#10]; [35#100; 25#100; 4#10];
   [1#10; 8#10; 1#10]; [2#10; 7#10; 1#10]; [7#10; 2#10; 1#10];
   [1#10; 1#10; 8#10]; [0; 4#10; 6#10]; [5#10; 0; 5#10]].
Definition ex8_options (f : Q) : options :=
  {| frac_noise := f; num_to_remove_per_class := None; min_examples_per_class := 1;
     confident_joint := Some [[2;1;1];[1;2;0];[1;0;2]];
     n_jobs := 2; sched_c := [0;1;1;0;1;1]%nat; sched_n := [1;1;0;1;0;1]%nat |}.
(** the two methods disagree on example 2 *)
Example C08_example :
  find_label_issues argsort_ins ex8_labels ex8_pp 3 PruneByClass (ex8_options 1)
    = Ok [false; true; false; true; false; false; true; false; false; false] /\
  find_label_issues argsort_ins ex8_labels ex8_pp 3 PruneByNoiseRate (ex8_options 1)
    = Ok [false; true; true; false; false; false; true; false; false; false] /\
  find_label_issues argsort_ins ex8_labels ex8_pp 3 Both (ex8_options 1)
    = Ok [false; true; false; false; false; false; true; false; false; false].
Proof. repeat split; vm_compute; reflexivity. Qed.

(** ** C09 *)
Theorem C09_ranked_output : forall srt K labels pp flt o rank_by adjust m,
  argsort_ok srt -> dataset K labels pp -> two_classes labels ->
  find_label_issues srt labels pp K flt o = Ok m ->
  exists idx scores, find_label_issues_ranked srt labels pp K flt o rank_by adjust = Ok idx /\
    get_label_quality_scores labels pp K rank_by adjust = Ok scores /\ length scores = length labels /\
    NoDup idx /\ (forall e, In e idx <-> flagged m e) /\
    StronglySorted (fun a b => nth a scores 0 <= nth b scores 0) idx.
Proof. exact find_ranked_spec. Qed.
Print Assumptions C09_ranked_output.

Example C09_example :
  find_label_issues_ranked argsort_ins ex_labels ex_pp 3 ConfidentLearning ex_options SelfConfidence false
    = Ok [2; 5]%nat /\
  find_label_issues_ranked argsort_ins ex8_labels ex8_pp 3 PruneByNoiseRate (ex8_options 1) NormalizedMargin true
    = Ok [6; 1; 2]%nat.
Proof. split; vm_compute; reflexivity. Qed.

(** ** C10 *)
(** Whatever the pool does ([sc], [sn]: any sequence of worker moves), if it finishes, the result is that of
    the sequential run (whose pool arguments are irrelevant); and the pool can finish. *)
Theorem C10_parallelism : forall srt labels pp K flt o n, (1 <= n)%nat ->
  (forall sc sn sc' sn',
     find_label_issues srt labels pp K flt (with_jobs o n sc sn) = Raise Diverges \/
     find_label_issues srt labels pp K flt (with_jobs o n sc sn) =
     find_label_issues srt labels pp K flt (with_jobs o 1 sc' sn')) /\
  (exists sc sn, forall sc' sn',
     find_label_issues srt labels pp K flt (with_jobs o n sc sn) =
     find_label_issues srt labels pp K flt (with_jobs o 1 sc' sn')).
Proof. exact C10_full. Qed.
Print Assumptions C10_parallelism.

(** two workers finishing out of order *)
Example C10_example :
  find_label_issues argsort_ins ex8_labels ex8_pp 3 Both (with_jobs (ex8_options 1) 2 [0;1;1;1;0;1]%nat [1;0;0;0;0;1]%nat) =
  find_label_issues argsort_ins ex8_labels ex8_pp 3 Both (with_jobs (ex8_options 1) 1 [] []) /\
  find_label_issues argsort_ins ex8_labels ex8_pp 3 Both (with_jobs (ex8_options 1) 2 [0;1;1;1;0]%nat []) = Raise Diverges.
Proof. split; vm_compute; reflexivity. Qed.

(** ** C11 *)
(** [marked] is what prune_by_class selects before examples whose label is (nearly) the top prediction are
    dropped; [zget pcm k k] is the planned number of correct examples of class [k]. *)
Theorem C11_prune_by_class : forall srt K labels pp o m, argsort_ok srt -> dataset K labels pp ->
  find_label_issues srt labels pp K PruneByClass o = Ok m ->
  exists cj pcm marked,
    (forall c, confident_joint o = Some c -> cj = c) /\
    (confident_joint o = None -> exists counts idx,
       compute_confident_joint srt labels pp K None true = Ok (counts, idx) /\ cj = zmat_to_q counts) /\
    prune_counts srt labels K cj o = Ok pcm /\
    length marked = length labels /\
    (forall k, (k < K)%nat -> (2 <= n_labelled k labels)%nat ->
      n_flagged k labels marked =
        (if Nat.leb (n_labelled k labels) (min_examples_per_class o) then 0%nat
         else Nat.min (Z.to_nat (Z.of_nat (n_labelled k labels) - zget pcm k k)) (n_labelled k labels))) /\
    (forall k, (k < K)%nat -> (n_labelled k labels < 2)%nat -> n_flagged k labels marked = 0%nat) /\
    (forall e e', (e < length labels)%nat -> (e' < length labels)%nat -> label_of labels e = label_of labels e' ->
       flagged marked e -> ~ flagged marked e' ->
       prob_of pp e (label_of labels e) <= prob_of pp e' (label_of labels e')) /\
    (forall e, (e < length labels)%nat -> (flagged m e <-> flagged marked e /\ clearly_beaten labels pp e)).
Proof. exact C11_full. Qed.
Print Assumptions C11_prune_by_class.

(** a class with a single example is never pruned, even though its only example is planned to be wrong *)
Example C11_example :
  prune_counts argsort_ins [0;0;1]%nat 2 [[1;1];[1;0]]
    {| frac_noise := 1; num_to_remove_per_class := None; min_examples_per_class := 0;
       confident_joint := Some [[1;1];[1;0]]; n_jobs := 1; sched_c := []; sched_n := [] |}
    = Ok [[1;1];[1;0]]%Z /\
  find_label_issues argsort_ins [0;0;1]%nat [[9#10;1#10];[2#10;8#10];[9#10;1#10]] 2 PruneByClass
    {| frac_noise := 1; num_to_remove_per_class := None; min_examples_per_class := 0;
       confident_joint := Some [[1;1];[1;0]]; n_jobs := 1; sched_c := []; sched_n := [] |}
    = Ok [false; true; false].
Proof. split; vm_compute; reflexivity. Qed.

(** ** C12 *)
Theorem C12_prune_by_noise_rate : forall srt K labels pp o m, argsort_ok srt -> dataset K labels pp ->
  find_label_issues srt labels pp K PruneByNoiseRate o = Ok m ->
  exists cj pcm marked,
    (forall c, confident_joint o = Some c -> cj = c) /\
    (confident_joint o = None -> exists counts idx,
       compute_confident_joint srt labels pp K None true = Ok (counts, idx) /\ cj = zmat_to_q counts) /\
    prune_counts srt labels K cj o = Ok pcm /\
    length marked = length labels /\
    (forall k, (k < K)%nat -> (n_labelled k labels <= Nat.max 1 (min_examples_per_class o))%nat ->
       n_flagged k labels marked = 0%nat) /\
    (forall k, (k < K)%nat -> (Nat.max 1 (min_examples_per_class o) < n_labelled k labels)%nat ->
      (exists T : nat -> list nat,
         (forall j, (j < K)%nat -> j <> k -> (0 < zget pcm j k)%Z ->
            top_of_class k labels (fun e => prob_of pp e j - prob_of pp e k) (Z.to_nat (zget pcm j k)) (T j)) /\
         (forall e, (e < length labels)%nat -> label_of labels e = k ->
            (flagged marked e <-> exists j, (j < K)%nat /\ j <> k /\ (0 < zget pcm j k)%Z /\ In e (T j)))) /\
      (n_flagged k labels marked <=
         nsum (tab K (fun j => if Nat.eqb j k then 0%nat else Z.to_nat (zget pcm j k))))%nat) /\
    (forall e, (e < length labels)%nat -> (flagged m e <-> flagged marked e /\ clearly_beaten labels pp e)).
Proof. exact C12_full. Qed.
Print Assumptions C12_prune_by_noise_rate.

Example C12_example :
  prune_counts argsort_ins ex8_labels 3 [[2;1;1];[1;2;0];[1;0;2]] (ex8_options 1) = Ok [[2;1;1];[1;2;0];[1;0;2]]%Z.
Proof. vm_compute. reflexivity. Qed.

(** ** C13 *)
(** prune_by_class and both keep enough examples ... *)
Theorem C13_min_examples_partial : forall srt labels pp K flt o m k, argsort_ok srt -> dataset K labels pp ->
  (flt = PruneByClass \/ flt = Both) ->
  num_to_remove_per_class o = None -> frac_noise o <= 1 ->
  find_label_issues srt labels pp K flt o = Ok m -> (k < K)%nat ->
  (min_examples_per_class o <= n_labelled k labels)%nat ->
  (n_flagged k labels m + min_examples_per_class o <= n_labelled k labels)%nat.
Proof. exact C13_full. Qed.
Print Assumptions C13_min_examples_partial.

Definition ex13_labels : list nat := [0;0;0;0;0;0;0;0;0;0;0;1;1;1;1;1;1;2;2;2;2;2;2]%nat.
Definition ex13_pp : list (list Q) :=
  repeat [1#10; 2#10; 7#10] 7 ++ repeat [8#10; 1#10; 1#10] 4 ++
  repeat [1#10; 8#10; 1#10] 6 ++ repeat [1#10; 1#10; 8#10] 6.
Definition ex13_options : options :=
  {| frac_noise := 1; num_to_remove_per_class := None; min_examples_per_class := 5;
     confident_joint := Some [[1;1;9];[0;6;0];[0;0;6]]; n_jobs := 1; sched_c := []; sched_n := [] |}.

(** ... but prune_by_noise_rate does not: clipping a negative count to zero loses part of the reduction.
    Here 7 of the 11 examples of class 0 are flagged although at least 5 were to be kept. *)
Theorem C13_min_examples_noise_rate_refuted :
  exists labels pp K o m k, dataset K labels pp /\ two_classes labels /\
    num_to_remove_per_class o = None /\ frac_noise o == 1 /\
    find_label_issues argsort_ins labels pp K PruneByNoiseRate o = Ok m /\ (k < K)%nat /\
    (min_examples_per_class o <= n_labelled k labels)%nat /\
    (n_labelled k labels < n_flagged k labels m + min_examples_per_class o)%nat.
Proof.
  exists ex13_labels, ex13_pp, 3%nat, ex13_options. eexists. exists 0%nat.
  split; [apply dataset_b_ok; vm_compute; reflexivity|].
  split; [exists 0%nat, 1%nat; simpl; repeat split; auto 20|].
  split; [reflexivity|]. split; [reflexivity|]. split; [vm_compute; reflexivity|].
  vm_compute. lia.
Qed.
Print Assumptions C13_min_examples_noise_rate_refuted.

Example C13_example :
  find_label_issues argsort_ins ex13_labels ex13_pp 3 PruneByClass ex13_options
  = Ok (mask_of 23 [0;1;2;3;4;5]%nat).
Proof. vm_compute. reflexivity. Qed.

(** ** C14 *)
Theorem C14_low_score_filters : forall srt labels pp K flt o,
  argsort_ok srt -> dataset K labels pp -> two_classes labels ->
  num_to_remove_per_class o = None -> (1 <= n_jobs o)%nat ->
  (flt = LowSelfConfidence \/ flt = LowNormalizedMargin) ->
  exists m scores N,
    find_label_issues srt labels pp K flt o = Ok m /\
    get_label_quality_scores labels pp K
      (match flt with LowSelfConfidence => SelfConfidence | _ => NormalizedMargin end) false = Ok scores /\
    num_label_issues srt labels pp K = Ok N /\
    length m = length labels /\ count_true m = N /\
    (forall e e', (e' < length labels)%nat -> flagged m e -> ~ flagged m e' -> nth e scores 0 <= nth e' scores 0).
Proof. exact C14_full. Qed.
Print Assumptions C14_low_score_filters.

Example C14_example :
  find_label_issues argsort_ins ex_labels ex_pp 3 LowNormalizedMargin ex_options
    = Ok [false; false; true; false; false; true].
Proof. vm_compute. reflexivity. Qed.

(** ** C55 *)
Theorem C55_num_to_remove_by_class_partial : forall srt K labels pp o ntr m, argsort_ok srt -> dataset K labels pp ->
  num_to_remove_per_class o = Some ntr ->
  find_label_issues srt labels pp K PruneByClass o = Ok m ->
  exists pruned, length pruned = length labels /\
    (forall e, (e < length labels)%nat -> (flagged m e <-> flagged pruned e /\ clearly_beaten labels pp e)) /\
    forall k t, (k < K)%nat -> nth k ntr 0 == Qnat t -> (t <= n_labelled k labels)%nat ->
      (2 <= n_labelled k labels)%nat -> (min_examples_per_class o < n_labelled k labels)%nat ->
      n_flagged k labels pruned = t.
Proof. exact C55_full. Qed.
Print Assumptions C55_num_to_remove_by_class_partial.

Definition ex55_labels : list nat := [0;0;0;1;1;1]%nat.
Definition ex55_pp : list (list Q) :=
  [[2#10;8#10]; [2#10;8#10]; [2#10;8#10]; [9#10;1#10]; [9#10;1#10]; [9#10;1#10]].
Definition ex55_options : options :=
  {| frac_noise := 1; num_to_remove_per_class := Some [2; 0]; min_examples_per_class := 1;
     confident_joint := Some [[10;5];[5;10]]; n_jobs := 1; sched_c := []; sched_n := [] |}.
Example C55_example :
  find_label_issues argsort_ins ex55_labels ex55_pp 2 PruneByClass ex55_options
    = Ok [true; true; false; false; false; false].
Proof. vm_compute. reflexivity. Qed.

(** With prune_by_noise_rate the request is applied to the other classes: asked to remove 2 examples of
    class 0 and none of class 1, it removes 2 examples of class 1 and none of class 0 (all six examples
    are clearly mislabelled, so the final agreement filter drops nothing). *)
Theorem C55_num_to_remove_noise_rate_refuted :
  exists labels pp K o m, dataset K labels pp /\ two_classes labels /\
    num_to_remove_per_class o = Some [2; 0] /\
    find_label_issues argsort_ins labels pp K PruneByNoiseRate o = Ok m /\
    (forall e, (e < length labels)%nat -> clearly_beaten labels pp e) /\
    n_labelled 0 labels = 3%nat /\ n_labelled 1 labels = 3%nat /\
    n_flagged 0 labels m = 0%nat /\ n_flagged 1 labels m = 2%nat.
Proof.
  exists ex55_labels, ex55_pp, 2%nat, ex55_options. eexists.
  split; [apply dataset_b_ok; vm_compute; reflexivity|].
  split; [exists 0%nat, 1%nat; simpl; repeat split; auto 20|].
  split; [reflexivity|]. split; [vm_compute; reflexivity|].
  split; [|vm_compute; auto].
  intros e He. exists (if Nat.ltb e 3 then 1%nat else 0%nat).
  do 6 (destruct e as [|e]; [split; [vm_compute; auto|left; vm_compute; reflexivity]|]).
  simpl in He. lia.
Qed.
Print Assumptions C55_num_to_remove_noise_rate_refuted.
