(** * Positive-unlabelled learning (C124) *)
From Coq Require Import QArith List ZArith Bool Arith Lia.
From Verif Require Import Base BaseFacts ModelUtil ModelCount ModelRank ModelPool ModelFilter ModelLatent ModelBatched ModelLearn
     SpecCount SpecFilter SpecLearn ProofPU.
Import ListNotations.
Open Scope Q_scope.

(** In filter.find_label_issues a class that, by the confident joint passed in, contains no examples of other classes
    has no example flagged by prune_by_noise_rate and by both: whatever the probabilities, frac_noise and
    min_examples_per_class. *)
Theorem C124_noise_free_class : forall srt K labels pp flt o cj m a, argsort_ok srt -> SpecCount.dataset K labels pp ->
  (flt = PruneByNoiseRate \/ flt = Both) -> num_to_remove_per_class o = None -> confident_joint o = Some cj ->
  (forall j, (j < K)%nat -> j <> a -> mget cj a j <= 0) ->
  ModelFilter.find_label_issues srt labels pp K flt o = Ok m ->
  forall e, (e < length labels)%nat -> label_of labels e = a -> ~ flagged m e.
Proof. exact noise_free_class. Qed.
Print Assumptions C124_noise_free_class.

(** A CleanLearning object told that one of two classes has no label errors never flags an example given that class
    (default filter, prune_by_noise_rate and both), at any point of its history. *)
Theorem C124_never_flagged : forall srt minv js cfg ds th nm im sv s s' t p kw0 pp m,
  find_label_issues srt minv js cfg ds th nm im sv s = (s', Ok t) ->
  argsort_ok srt -> low_memory cfg = false -> pulearning cfg = Some p -> c_num_classes s' = Some 2%nat -> c_kwargs s = Some kw0 ->
  kw_ntr kw0 = None -> (kw_filter kw0 = None \/ kw_filter kw0 = Some PruneByNoiseRate \/ kw_filter kw0 = Some Both) ->
  get_pred_probs ds = Ok pp -> SpecCount.dataset 2 (ds_labels ds) pp -> d_issue t = Some (BoolCol m) ->
  forall e, (e < length (ds_labels ds))%nat -> nth e (ds_labels ds) 0%nat = (if p then 1%nat else 0%nat) -> nth e m false = false.
Proof. exact pu_never. Qed.
Print Assumptions C124_never_flagged.

(** The noise rates it reports then say so: no example of the other class [b] is labelled [a], and all examples of [b] are
    labelled [b]; every example labelled [a] is of class [a].  The confident joint has no example of [b] labelled [a]. *)
Theorem C124_matrices : forall srt minv js cfg ds th nm im sv s s' t p,
  find_label_issues srt minv js cfg ds th nm im sv s = (s', Ok t) ->
  low_memory cfg = false -> pulearning cfg = Some p -> c_num_classes s' = Some 2%nat ->
  forall a b : nat, a = (if p then 1 else 0)%nat -> b = (1 - a)%nat ->
  (forall nm', c_noise s' = Some nm' -> mget nm' a b = 0 /\ ((b < length nm')%nat -> (b < length (nth b nm' []))%nat -> mget nm' b b = 1)) /\
  (forall im', c_inverse s' = Some im' -> mget im' b a = 0 /\ ((a < length im')%nat -> (a < length (nth a im' []))%nat -> mget im' a a = 1)) /\
  exists cj, c_cj s' = Some cj /\ mget cj a b = 0 /\ ((b < length cj)%nat -> (b < length (nth b cj []))%nat -> mget cj b b = 1).
Proof. exact pu_entries. Qed.
Print Assumptions C124_matrices.

(** ** A concrete setting: seven examples, the last one labelled 1 but predicted 0 *)
Definition minv2 (m : matrix) : res matrix :=
  let a := mget m 0 0 in let b := mget m 0 1 in let c := mget m 1 0 in let d := mget m 1 1 in
  let det := a * d - b * c in
  if Qeq_bool det 0 then Raise OtherError else Ok [[d / det; - b / det]; [- c / det; a / det]].
Definition pr (x : Z) : list Q := [x # 10; (10 - x) # 10].
Definition pp7 := [pr 9; pr 8; pr 9; pr 1; pr 2; pr 1; pr 9].
Definition noisy_data := {| ds_labels := [0;0;0;1;1;1;1]%nat; ds_pred_probs := Some pp7; ds_cv := Raise OtherError |}.
Definition kw1 (f : option filter_method) := {| kw_filter := f; kw_cj := None; kw_min := Some 1%nat; kw_frac := 1;
  kw_ntr := None; kw_jobs := 1; kw_sched_c := []; kw_sched_n := []; kw_unsupported := false |}.
Definition cfg1 (lm : bool) p := {| low_memory := lm; cv_n_folds := 5; pulearning := p; converge_latent_estimates := false |}.
Definition find1 lm p := find_label_issues argsort_ins minv2 (fun _ => Serial) (cfg1 lm p) noisy_data None None None true.
Definition obj1 f := new_object (kw1 f) (SelfConfidence, false).
Definition flags_of (r : res issues_df) := match r with Ok t => d_issue t | Raise _ => None end.
Definition last_flagged := [false; false; false; false; false; false; true].
Definition none_flagged := [false; false; false; false; false; false; false].

(** the last example is flagged, unless the object knows that class 1 has no errors *)
Example C124_example :
  flags_of (snd (find1 false None (obj1 None))) = Some (BoolCol last_flagged) /\
  flags_of (snd (find1 false (Some false) (obj1 None))) = Some (BoolCol last_flagged) /\
  flags_of (snd (find1 false (Some true) (obj1 None))) = Some (BoolCol none_flagged) /\
  c_num_classes (fst (find1 false (Some true) (obj1 None))) = Some 2%nat.
Proof. repeat split; vm_compute; reflexivity. Qed.

(** With the other filters an example of the class without errors can be flagged: ... *)
Theorem C124_other_filters_refuted : forall f, (f = PruneByClass \/ f = ConfidentLearning \/ f = PredictedNeqGiven \/ f = LowSelfConfidence) ->
  flags_of (snd (find1 false (Some true) (obj1 (Some f)))) = Some (BoolCol last_flagged).
Proof. intros f [-> | [-> | [-> | ->]]]; vm_compute; reflexivity. Qed.
(** ... and with low_memory. *)
Theorem C124_low_memory_refuted :
  flags_of (snd (find1 true (Some true) (obj1 None))) = Some (BoolCol last_flagged).
Proof. vm_compute. reflexivity. Qed.

(** The confident joint is made of counts, but the count of class-[b] examples labelled [b] is overwritten with the
    probability 1: three examples here.  *)
Theorem C124_count_refuted :
  c_cj (fst (find1 false None (obj1 None))) = Some [[3; 0]; [1; 3]] /\
  c_cj (fst (find1 false (Some true) (obj1 None))) = Some [[1; 0]; [0; 3]].
Proof. split; vm_compute; reflexivity. Qed.
(** The object uses that joint in its next call, so searching the same data twice gives two estimates of the class frequencies. *)
Theorem C124_second_call_refuted : exists py1 py2,
  c_py (fst (find1 false (Some true) (obj1 None))) = Some py1 /\
  c_py (fst (find1 false (Some true) (fst (find1 false (Some true) (obj1 None))))) = Some py2 /\
  map Qred py1 <> map Qred py2.
Proof. do 2 eexists. split; [vm_compute; reflexivity|]. split; [vm_compute; reflexivity|]. vm_compute. discriminate. Qed.
