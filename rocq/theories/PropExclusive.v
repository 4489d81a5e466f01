(** * C172: two exclusive classes treated as multi-label data *)
From Coq Require Import QArith List Bool Arith Lia Lqa.
From Verif Require Import Base ModelUtil ModelCount ModelRank ModelPool ModelFilter ModelMultilabel SpecCount SpecRank SpecFilter SpecTwice
  SpecMultilabel SpecExclusive ProofExclusive.
Import ListNotations.
Open Scope Q_scope.

(** Every example of a two-class dataset belongs to exactly one class.  Giving the same data to the multi-label filter,
    each example with the list of its one class, flags the same examples as the multi-class filter, whatever the other
    options of the two calls (n_jobs, frac_noise, min_examples_per_class, confident_joint) are. *)
Theorem C172_flags : forall srt labels pp flt o o', argsort_ok srt -> dataset 2 labels pp -> rows_sum_to_one pp -> two_classes labels ->
  no_exact_gap labels pp -> ml_num_to_remove o = None -> (1 <= ml_n_jobs o)%nat ->
  num_to_remove_per_class o' = None -> (1 <= n_jobs o')%nat -> flt = ConfidentLearning \/ flt = PredictedNeqGiven ->
  exists m, ml_find_label_issues srt (as_sets labels) pp 2 flt o None = Ok m /\ find_label_issues srt labels pp 2 flt o' = Ok m.
Proof. exact (fun srt labels pp flt o o' Hs Hd Hr H2 => exclusive_full labels pp Hd Hr H2 srt flt o o' Hs). Qed.
Print Assumptions C172_flags.
(** The scores agree as well, for both methods and every weight of the moving average: the score of an example is the
    probability of its label. *)
Theorem C172_scores : forall srt labels pp method alpha, argsort_ok srt -> dataset 2 labels pp -> rows_sum_to_one pp -> two_classes labels ->
  (forall a, alpha = Some a -> 0 <= a /\ a <= 1) ->
  exists s s', ml_label_quality_scores srt (as_sets labels) pp 2 method false alpha = Ok s /\
    get_label_quality_scores labels pp 2 method false = Ok s' /\ length s = length labels /\ length s' = length labels /\
    forall e, (e < length labels)%nat -> nth e s 0 == nth e s' 0 /\ nth e s 0 == prob_of pp e (label_of labels e).
Proof. exact (fun srt labels pp method alpha Hs Hd Hr H2 => exclusive_scores labels pp Hd Hr H2 srt method alpha Hs). Qed.
Print Assumptions C172_scores.

Definition o172 (n : nat) : options :=
  {| frac_noise := 1; num_to_remove_per_class := None; min_examples_per_class := 1; confident_joint := None; n_jobs := n; sched_c := []; sched_n := [] |}.
Definition mo172 : ml_options :=
  {| ml_frac_noise := 1; ml_num_to_remove := None; ml_min_examples := 1; ml_confident_joint := None; ml_n_jobs := 1; ml_sched := fun _ => ([], []) |}.

(** An exact gap of the tolerance is decided differently when the given label is 0. *)
Theorem C172_gap_refuted : exists labels pp, dataset 2 labels pp /\ rows_sum_to_one pp /\ two_classes labels /\
  (exists m, ml_find_label_issues argsort_ins (as_sets labels) pp 2 PredictedNeqGiven mo172 None = Ok m /\ flagged m 0) /\
  (exists m, find_label_issues argsort_ins labels pp 2 PredictedNeqGiven (o172 1) = Ok m /\ ~ flagged m 0).
Proof.
  exists [0; 0; 1; 1]%nat, [[999999 # 2000000; 1000001 # 2000000]; [9#10; 1#10]; [1#10; 9#10]; [2#10; 8#10]].
  split; [|split; [|split; [exists 0%nat, 1%nat; cbn; intuition lia|split; (eexists; split; [vm_compute; reflexivity|])]]].
  - split; try discriminate; try reflexivity; cbn.
    + intros l H. decompose [or] H; subst; lia.
    + intros r H. decompose [or] H; try contradiction; subst; reflexivity.
    + intros r x H Hx. decompose [or] H; try contradiction; subst r; cbn in Hx; decompose [or] Hx; try contradiction; subst x; split; discriminate.
  - intros r H. cbn in H. decompose [or] H; try contradiction; subst; reflexivity.
  - reflexivity.
  - discriminate.
Qed.
Print Assumptions C172_gap_refuted.
(** With three exclusive classes the two filters disagree: a label can be the most likely one without being likelier
    than not. *)
Theorem C172_three_refuted : exists labels pp, dataset 3 labels pp /\ rows_sum_to_one pp /\ two_classes labels /\
  (exists m, ml_find_label_issues argsort_ins (as_sets labels) pp 3 PredictedNeqGiven mo172 None = Ok m /\ flagged m 0) /\
  (exists m, find_label_issues argsort_ins labels pp 3 PredictedNeqGiven (o172 1) = Ok m /\ ~ flagged m 0).
Proof.
  exists [0; 0; 1; 1; 2; 2]%nat, [[4#10; 3#10; 3#10]; [8#10; 1#10; 1#10]; [1#10; 8#10; 1#10]; [2#10; 7#10; 1#10]; [1#10; 1#10; 8#10]; [0; 1#10; 9#10]].
  split; [|split; [|split; [exists 0%nat, 1%nat; cbn; intuition lia|split; (eexists; split; [vm_compute; reflexivity|])]]].
  - split; try discriminate; try reflexivity; cbn.
    + intros l H. decompose [or] H; subst; lia.
    + intros r H. decompose [or] H; try contradiction; subst; reflexivity.
    + intros r x H Hx. decompose [or] H; try contradiction; subst r; cbn in Hx; decompose [or] Hx; try contradiction; subst x; split; discriminate.
  - intros r H. cbn in H. decompose [or] H; try contradiction; subst; reflexivity.
  - reflexivity.
  - discriminate.
Qed.
Print Assumptions C172_three_refuted.

(** eight examples; two labels are clear issues, a third one disagrees with its prediction without confidence *)
Definition y172 : list nat := [0; 0; 0; 0; 1; 1; 1; 1]%nat.
Definition pp172 : list (list Q) :=
  [[9#10; 1#10]; [8#10; 2#10]; [1#10; 9#10]; [45#100; 55#100]; [1#10; 9#10]; [2#10; 8#10]; [95#100; 5#100]; [1#10; 9#10]].
Example C172_example :
  ml_find_label_issues argsort_ins (as_sets y172) pp172 2 ConfidentLearning mo172 None
    = Ok [false; false; true; false; false; false; true; false] /\
  find_label_issues argsort_ins y172 pp172 2 ConfidentLearning (o172 3) = Ok [false; false; true; false; false; false; true; false] /\
  ml_find_label_issues argsort_ins (as_sets y172) pp172 2 PredictedNeqGiven mo172 None
    = Ok [false; false; true; true; false; false; true; false] /\
  find_label_issues argsort_ins y172 pp172 2 PredictedNeqGiven (o172 3) = Ok [false; false; true; true; false; false; true; false].
Proof. repeat split; vm_compute; reflexivity. Qed.
Example C172_hypotheses : dataset 2 y172 pp172 /\ rows_sum_to_one pp172 /\ two_classes y172 /\ no_exact_gap y172 pp172.
Proof.
  split; [|split; [|split; [exists 0%nat, 1%nat; cbn; intuition lia|]]].
  - split; try discriminate; try reflexivity; cbn.
    + intros l H. decompose [or] H; subst; lia.
    + intros r H. decompose [or] H; try contradiction; subst; reflexivity.
    + intros r x H Hx. decompose [or] H; try contradiction; subst r; cbn in Hx; decompose [or] Hx; try contradiction; subst x; split; discriminate.
  - intros r H. cbn in H. decompose [or] H; try contradiction; subst; reflexivity.
  - intros e He L. cbn in He. do 8 (destruct e as [|e]; [vm_compute in L; try discriminate L; vm_compute; discriminate|]). lia.
Qed.
