(** * C131: confident learning is exact when the predictions separate the true classes *)
From Coq Require Import QArith Qabs List Sorted ZArith Bool Arith Lia Lqa.
From Verif Require Import Base BaseFacts ModelUtil ModelCount ModelRank ModelFilter ModelLatent ModelEstimate SpecCount
  SpecFilter SpecEstimate SpecIdeal ProofUtil ProofCount ProofFilter ProofIdeal.
Import ListNotations.
Open Scope Q_scope.

(** The default filter (and the predicted-not-given and normalized-margin filters) flag exactly the examples whose
    given label is not their true class, and the number of issues is the number of wrong labels. *)
Theorem C131_exact_issues : forall srt K labels tl pp o, argsort_ok srt -> dataset K labels pp -> two_classes labels ->
  ideal K labels tl pp -> num_to_remove_per_class o = None -> (1 <= n_jobs o)%nat ->
  num_label_issues srt labels pp K = Ok (n_wrong labels tl) /\
  (forall flt, flt = ConfidentLearning \/ flt = PredictedNeqGiven ->
     exists m, find_label_issues srt labels pp K flt o = Ok m /\ length m = length labels /\
       forall e, flagged m e <-> wrong labels tl e).
Proof. exact C131_issues_full. Qed.
Print Assumptions C131_exact_issues.

Theorem C131_exact_margin : forall srt K labels tl pp o m, argsort_ok srt -> dataset K labels pp -> two_classes labels ->
  ideal K labels tl pp -> num_to_remove_per_class o = None ->
  find_label_issues srt labels pp K LowNormalizedMargin o = Ok m -> forall e, flagged m e <-> wrong labels tl e.
Proof. exact C131_margin_full. Qed.
Print Assumptions C131_exact_margin.

(** The normalized-margin scores tell wrong labels from correct ones with threshold one half. *)
Theorem C131_scores_separate : forall K labels tl pp, dataset K labels pp -> two_classes labels -> ideal K labels tl pp ->
  exists s, get_label_quality_scores labels pp K NormalizedMargin false = Ok s /\ length s = length labels /\
    forall e, (e < length labels)%nat -> (nth e s 0 < 1 # 2 <-> wrong labels tl e).
Proof. exact C131_scores_full. Qed.
Print Assumptions C131_scores_separate.

(** The confident joint counts the pairs of given label and true class (the diagonal is raised to 1 before
    calibration); calibrated, it is this table, and the estimated joint is the table of frequencies. *)
Theorem C131_exact_counts : forall srt K labels tl pp, argsort_ok srt -> dataset K labels pp -> two_classes labels ->
  ideal K labels tl pp ->
  (exists cj idx, compute_confident_joint srt labels pp K None false = Ok (cj, idx) /\
    StronglySorted lt idx /\ (forall e, In e idx <-> wrong labels tl e) /\
    forall i j, (i < K)%nat -> (j < K)%nat ->
      zget cj i j = if Nat.eqb i j then Z.max 1 (Z.of_nat (n_pair i j labels tl)) else Z.of_nat (n_pair i j labels tl)) /\
  (correct_at_least 1 labels tl ->
    (exists idx, compute_confident_joint srt labels pp K None true = Ok (tally K labels tl, idx) /\
       StronglySorted lt idx /\ (forall e, In e idx <-> wrong labels tl e)) /\
    exists J, estimate_joint srt labels pp K None = Ok J /\ length J = K /\ (forall r, In r J -> length r = K) /\
      forall i j, (i < K)%nat -> (j < K)%nat -> mget J i j == Qnat (n_pair i j labels tl) / Qnat (length labels)).
Proof. exact C131_counts_full. Qed.
Print Assumptions C131_exact_counts.

(** The estimated prior, noise matrix and inverse noise matrix are the frequencies of the true classes, of the given
    labels among them, and of the true classes among the given labels, by every estimation method. *)
Theorem C131_exact_noise : forall srt K labels tl pp, argsort_ok srt -> dataset K labels pp -> two_classes labels ->
  ideal K labels tl pp -> correct_at_least 1 labels tl -> moderate_noise K (length labels) (tally K labels tl) ->
  forall conv m, exists py N I,
    estimate_from_probabilities srt labels pp None conv m true = Ok (py, N, I, tally K labels tl) /\
    proportions K (length labels) (tally K labels tl) py N I.
Proof. exact C131_noise_full. Qed.
Print Assumptions C131_exact_noise.

(** Predictions that depend on the true class only, through a matrix whose diagonal dominates its rows and columns
    (for example the actual noise rates), separate the true classes. *)
Theorem C131_class_conditional : forall K labels tl pp N, dataset K labels pp -> length tl = length labels ->
  (forall x, In x tl -> In x labels) ->
  class_conditional K tl pp N -> diagonal_dominates K N -> ideal K labels tl pp.
Proof. exact C131_conditional_full. Qed.
Print Assumptions C131_class_conditional.

(** The pruning filters are exact if moreover wrong labels get less probability than correct ones of the same class,
    respectively the margins tell the true classes apart. *)
Theorem C131_exact_pruning : forall srt K labels tl pp o m, argsort_ok srt -> dataset K labels pp -> two_classes labels ->
  ideal K labels tl pp -> num_to_remove_per_class o = None -> frac_noise o == 1 -> confident_joint o = None ->
  correct_at_least (Nat.max 1 (min_examples_per_class o)) labels tl ->
  (wrong_less_sure_in_class labels tl pp ->
     find_label_issues srt labels pp K PruneByClass o = Ok m -> forall e, flagged m e <-> wrong labels tl e) /\
  (margins_separate labels tl pp ->
     find_label_issues srt labels pp K PruneByNoiseRate o = Ok m -> forall e, flagged m e <-> wrong labels tl e) /\
  (wrong_less_sure_in_class labels tl pp -> margins_separate labels tl pp ->
     find_label_issues srt labels pp K Both o = Ok m -> forall e, flagged m e <-> wrong labels tl e).
Proof. exact C131_prune_full. Qed.
Print Assumptions C131_exact_pruning.

(** If both hold (over all examples), every filter method flags exactly the wrong labels ... *)
Theorem C131_every_filter : forall srt K labels tl pp o flt m, argsort_ok srt -> dataset K labels pp -> two_classes labels ->
  ideal K labels tl pp -> wrong_less_sure labels tl pp -> margins_separate labels tl pp ->
  num_to_remove_per_class o = None -> frac_noise o == 1 -> confident_joint o = None ->
  correct_at_least (Nat.max 1 (min_examples_per_class o)) labels tl ->
  find_label_issues srt labels pp K flt o = Ok m -> forall e, flagged m e <-> wrong labels tl e.
Proof. exact C131_every_full. Qed.
Print Assumptions C131_every_filter.

(** ... in particular with a perfect classifier ([a = 1], [b = 0]) or one that spreads its doubt evenly. *)
Theorem C131_uniform : forall K labels tl pp a b, dataset K labels pp -> length tl = length labels ->
  (forall x, In x tl -> In x labels) -> uniform_predictions K tl pp a b -> b + (1 # 1000000) < a ->
  ideal K labels tl pp /\ wrong_less_sure labels tl pp /\ margins_separate labels tl pp.
Proof. exact C131_uniform_full. Qed.
Print Assumptions C131_uniform.

(** With the default plan (everything estimated as noise may go, enough correct examples in every class) the
    pruning filters plan to remove what the confident joint counts. *)
Theorem C131_plan : forall srt labels K counts o pcm, num_to_remove_per_class o = None -> frac_noise o == 1 ->
  length counts = K -> (forall r, In r counts -> length r = K) ->
  (forall i j, (i < K)%nat -> (j < K)%nat -> (0 <= zget counts i j)%Z) ->
  prune_counts srt labels K (zmat_to_q counts) o = Ok pcm ->
  forall k j, (k < K)%nat -> (j < K)%nat -> (Z.of_nat (min_examples_per_class o) <= zget counts k k)%Z ->
    zget pcm j k = zget counts k j.
Proof. exact plan_exact. Qed.
Print Assumptions C131_plan.

(** ** examples *)
Definition y131 : list nat := [0; 0; 0; 1; 1; 1; 2; 2; 2; 2]%nat.
Definition t131 : list nat := [0; 0; 1; 1; 1; 2; 2; 2; 2; 0]%nat.
Definition opts131 : options :=
  {| frac_noise := 1; num_to_remove_per_class := None; min_examples_per_class := 1; confident_joint := None;
     n_jobs := 1; sched_c := []; sched_n := [] |}.
(** one row per true class: the actual noise rates of [y131] given [t131] *)
Definition N131 (k y : nat) : Q :=
  nth k (nth y [[2 # 3; 0; 1 # 3]; [1 # 3; 2 # 3; 0]; [0; 1 # 4; 3 # 4]] []) 0.
Definition pp131 : list (list Q) := map (fun y => tab 3 (fun k => N131 k y)) t131.

Ltac each3 k tac := destruct k as [|k]; [tac|destruct k as [|k]; [tac|destruct k as [|k]; [tac|lia]]].
Ltac decided := vm_compute; first [reflexivity | discriminate].
Lemma t131_in x : In x t131 -> In x y131.
Proof. intro H. cbn in H. repeat (destruct H as [<-|H]; [cbn; tauto|]). destruct H. Qed.
Example C131_hypotheses : dataset 3 y131 pp131 /\ two_classes y131 /\ ideal 3 y131 t131 pp131 /\
  correct_at_least 1 y131 t131.
Proof.
  assert (D : dataset 3 y131 pp131) by (apply dataset_b_ok; vm_compute; reflexivity).
  split; [exact D|]. split; [exists 0%nat, 1%nat; cbn; intuition congruence|]. split.
  - apply (C131_class_conditional 3 y131 t131 pp131 N131 D eq_refl t131_in).
    + intros e k He Hk. unfold pp131, prob_of. rewrite (nth_map_gen _ t131 e [] 0%nat) by exact He.
      rewrite nth_tab by exact Hk. reflexivity.
    + intros j k Hj Hk Hne. each3 j ltac:(each3 k ltac:(first [congruence | split; decided])).
  - intros k Hk. cbn in Hk. repeat (destruct Hk as [<-|Hk]; [vm_compute; lia|]). destruct Hk.
Qed.
(** three of the ten labels are wrong; all of them are found *)
Example C131_example :
  find_label_issues argsort_ins y131 pp131 3 ConfidentLearning opts131 = Ok (mask_of 10 [2; 5; 9]%nat) /\
  num_label_issues argsort_ins y131 pp131 3 = Ok 3%nat /\
  tally 3 y131 t131 = [[2; 1; 0]; [0; 2; 1]; [1; 0; 3]]%Z.
Proof. repeat split; vm_compute; reflexivity. Qed.
Example C131_example_moderate : moderate_noise 3 10 (tally 3 y131 t131).
Proof.
  split.
  - intros k Hk. each3 k ltac:(split; [|split]; decided).
  - intros s y Hs Hy Hne. each3 s ltac:(each3 y ltac:(first [congruence | split; decided])).
Qed.
(** a perfect classifier: every filter *)
Example C131_example_perfect :
  let pp := map (fun y => tab 3 (fun k => if Nat.eqb k y then 1 else 0)) t131 in
  Forall (fun flt => find_label_issues argsort_ins y131 pp 3 flt opts131 = Ok (mask_of 10 [2; 5; 9]%nat))
    [LowNormalizedMargin; LowSelfConfidence; PruneByNoiseRate; PruneByClass; Both; ConfidentLearning; PredictedNeqGiven].
Proof. cbv zeta. repeat constructor; vm_compute; reflexivity. Qed.

(** ** limits *)
(** Predicting every true class correctly is not enough: if another class gets more of a class's probability than the
    class itself, its threshold is missed and the wrong label of example 0 is not found. *)
Definition y131r : list nat := [0; 0; 0; 1; 1; 2; 2]%nat.
Definition t131r : list nat := [2; 0; 0; 1; 1; 1; 2]%nat.
Definition N131r (k y : nat) : Q :=
  nth k (nth y [[9 # 10; 5 # 100; 5 # 100]; [0; 55 # 100; 45 # 100]; [3 # 10; 3 # 10; 4 # 10]] []) 0.
Definition pp131r : list (list Q) := map (fun y => tab 3 (fun k => N131r k y)) t131r.
Theorem C131_row_maximum_refuted :
  exists K labels tl pp N m, dataset K labels pp /\ two_classes labels /\ (forall x, In x tl -> In x labels) /\
    class_conditional K tl pp N /\
    (forall j k, (j < K)%nat -> (k < K)%nat -> k <> j -> N k j + (1 # 1000000) < N j j) /\
    find_label_issues argsort_ins labels pp K ConfidentLearning opts131 = Ok m /\
    wrong labels tl 0 /\ ~ flagged m 0.
Proof.
  exists 3%nat, y131r, t131r, pp131r, N131r. eexists.
  split; [apply dataset_b_ok; vm_compute; reflexivity|]. split; [exists 0%nat, 1%nat; cbn; intuition congruence|].
  split; [intros x H; cbn in H; repeat (destruct H as [<-|H]; [cbn; tauto|]); destruct H|].
  split.
  { intros e k He Hk. unfold pp131r, prob_of. rewrite (nth_map_gen _ t131r e [] 0%nat) by exact He.
    rewrite nth_tab by exact Hk. reflexivity. }
  split.
  { intros j k Hj Hk Hne. each3 j ltac:(each3 k ltac:(first [congruence | decided])). }
  split; [vm_compute; reflexivity|]. split; [split; [cbn; lia|vm_compute; discriminate]|vm_compute; discriminate].
Qed.
Print Assumptions C131_row_maximum_refuted.

(** Predictions that make the default filter exact need not make prune_by_class exact: here example 2 is missed,
    because example 1 (a correct label) got less probability for its label. *)
Definition y131p : list nat := [0; 0; 0; 0; 1; 1]%nat.
Definition t131p : list nat := [0; 0; 1; 1; 1; 1]%nat.
Definition pp131p : list (list Q) :=
  [[50 # 100; 30 # 100; 20 # 100]; [45 # 100; 30 # 100; 25 # 100]; [46 # 100; 54 # 100; 0]; [10 # 100; 90 # 100; 0];
   [30 # 100; 50 # 100; 20 # 100]; [30 # 100; 50 # 100; 20 # 100]].
Theorem C131_prune_by_class_refuted :
  exists K labels tl pp m m', dataset K labels pp /\ two_classes labels /\ ideal K labels tl pp /\
    correct_at_least 1 labels tl /\
    find_label_issues argsort_ins labels pp K ConfidentLearning opts131 = Ok m /\
    find_label_issues argsort_ins labels pp K PruneByClass opts131 = Ok m' /\
    wrong labels tl 2 /\ flagged m 2 /\ ~ flagged m' 2.
Proof.
  exists 3%nat, y131p, t131p, pp131p. do 2 eexists.
  split; [apply dataset_b_ok; vm_compute; reflexivity|]. split; [exists 0%nat, 1%nat; cbn; intuition congruence|].
  split.
  { split; [reflexivity| | |].
    - intros e He. cbn in He. do 6 (destruct e as [|e]; [cbn; tauto|]). lia.
    - intros e k He Hk Hne. cbn in He.
      do 6 (destruct e as [|e]; [cbn in Hne; each3 k ltac:(first [congruence | decided])|]). lia.
    - intros e a He [_ Ha]. cbn in He.
      do 6 (destruct e as [|e]; [cbn in Ha |- *; match type of Ha with _ * ?q == _ => change q with (inject_Z 4) in Ha || change q with (inject_Z 2) in Ha end; unfold inject_Z in Ha; lra|]). lia. }
  split; [intros k Hk; cbn in Hk; repeat (destruct Hk as [<-|Hk]; [vm_compute; lia|]); destruct Hk|].
  split; [vm_compute; reflexivity|]. split; [vm_compute; reflexivity|].
  split; [split; [cbn; lia|vm_compute; discriminate]|]. split; [reflexivity|vm_compute; discriminate].
Qed.
Print Assumptions C131_prune_by_class_refuted.
