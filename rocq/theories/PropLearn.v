(** * CleanLearning: training data (C48) and history (C49) *)
From Coq Require Import QArith List ZArith Bool Arith Lia.
From Verif Require Import Base BaseFacts ModelUtil ModelCount ModelRank ModelPool ModelFilter ModelLatent ModelBatched ModelLearn SpecLearn ProofLearn.
Import ListNotations.
Open Scope Q_scope.

(** ** A concrete setting *)
Definition minv2 (m : matrix) : res matrix :=
  let a := mget m 0 0 in let b := mget m 0 1 in let c := mget m 1 0 in let d := mget m 1 1 in
  let det := a * d - b * c in
  if Qeq_bool det 0 then Raise OtherError else Ok [[d / det; - b / det]; [- c / det; a / det]].
Definition pr (x : Z) : list Q := [x # 10; (10 - x) # 10].
Definition labels7 := [0;0;0;1;1;1;1]%nat.
Definition clean_data := {| ds_labels := labels7; ds_pred_probs := Some [pr 9; pr 8; pr 9; pr 1; pr 2; pr 1; pr 1]; ds_cv := Raise OtherError |}.
Definition noisy_data := {| ds_labels := labels7; ds_pred_probs := Some [pr 9; pr 8; pr 9; pr 1; pr 2; pr 1; pr 9]; ds_cv := Raise OtherError |}.
Definition kw1 (f : option filter_method) := {| kw_filter := f; kw_cj := None; kw_min := Some 1%nat; kw_frac := 1;
  kw_ntr := None; kw_jobs := 1; kw_sched_c := []; kw_sched_n := []; kw_unsupported := false |}.
Definition cfg1 := {| low_memory := false; cv_n_folds := 5; pulearning := None; converge_latent_estimates := false |}.
Definition js1 : nat -> jobs := fun _ => Serial.
Definition find1 := find_label_issues argsort_ins minv2 js1 cfg1.
Definition fit1 := fit argsort_ins minv2 js1 cfg1 0%nat.
Definition obj1 := new_object (kw1 None) (SelfConfidence, false).
Definition no_weights := {| w_given := None; w_in_clf_kwargs := false; w_final := None; w_supported := true |}.
Definition X7 := [10;11;12;13;14;15;16]%nat.
Definition flags_of (r : res issues_df) := match r with Ok t => d_issue t | Raise _ => None end.

(** ** C48 *)
(** When [fit] completes with boolean flags, the classifier is trained on exactly the unflagged examples, in order,
    each with its own label and its own weight; the flags are the ones the caller passed, or those of the search. *)
Theorem C48_training {A} srt minv js cfg (d : A) X ds th nm im li w s s' tr df m :
  fit srt minv js cfg d X Arr ds th nm im li w s = (s', Ok (tr, df)) ->
  d_issue df = Some (BoolCol m) -> length X = length (ds_labels ds) ->
  length m = length (ds_labels ds) /\
  (match li with
   | Some a => flags_of_arg a (length (ds_labels ds)) m
   | None => exists s1 t, find_label_issues srt minv js cfg ds th nm im true s = (s1, Ok t) /\ d_issue t = Some (BoolCol m)
   end) /\
  tr_X tr = map (fun i => nth i X d) (unflagged m) /\
  tr_labels tr = map (fun i => nth i (ds_labels ds) 0%nat) (unflagged m) /\
  exists K, c_num_classes s' = Some K /\
  right_weights w (c_noise s') K (ds_labels ds) (unflagged m) (tr_weights tr) /\
  (w_final w = None -> w_given w = None -> w_supported w = true -> forall noise, c_noise s' = Some noise ->
     exists ws, d_weight df = Some ws /\ length ws = length (ds_labels ds) /\
       forall i, (i < length (ds_labels ds))%nat ->
         nth i ws 0 = if nth i m false then 0 else label_weight noise K (nth i (ds_labels ds) 0%nat)).
Proof. exact (training_full srt minv js cfg d X ds th nm im li w s s' tr df m). Qed.
Print Assumptions C48_training.

(** With the labels in a Python list the features and labels are still the right ones. *)
Theorem C48_training_list {A} srt minv js cfg (d : A) X ds th nm im li w s s' tr df m :
  fit srt minv js cfg d X Lst ds th nm im li w s = (s', Ok (tr, df)) ->
  d_issue df = Some (BoolCol m) -> length X = length (ds_labels ds) ->
  length m = length (ds_labels ds) /\
  tr_X tr = map (fun i => nth i X d) (unflagged m) /\
  tr_labels tr = map (fun i => nth i (ds_labels ds) 0%nat) (unflagged m) /\
  (forall sw, w_final w = None -> w_given w = Some sw -> tr_weights tr = Some (map (fun i => nth i sw 0) (unflagged m))).
Proof. exact (training_list srt minv js cfg d X ds th nm im li w s s' tr df m). Qed.
Print Assumptions C48_training_list.

(** Weights the classifier cannot take, and flags that cannot belong to the labels, are rejected. *)
Theorem C48_rejects {A} srt minv js cfg (d : A) X k ds th nm im li w s :
  w_in_clf_kwargs w = true \/ (w_given w <> None /\ w_supported w = false) \/
  (exists a, li = Some a /\ valid_inputs ds = Ok tt /\ bad_arg a (ds_labels ds)) ->
  snd (fit srt minv js cfg d X k ds th nm im li w s) = Raise ValueError.
Proof. exact (fit_rejects srt minv js cfg d X k ds th nm im li w s). Qed.
Print Assumptions C48_rejects.

Example C48_example : exists s' tr df,
  fit1 X7 Arr noisy_data None None None None no_weights obj1 = (s', Ok (tr, df)) /\
  d_issue df = Some (BoolCol [false; false; false; false; false; false; true]) /\
  tr_X tr = [10;11;12;13;14;15]%nat /\ tr_labels tr = [0;0;0;1;1;1]%nat /\
  (match tr_weights tr with Some w => map Qred w | None => [] end) = [4 # 3; 4 # 3; 4 # 3; 1; 1; 1] /\
  (match d_weight df with Some w => map Qred w | None => [] end) = [4 # 3; 4 # 3; 4 # 3; 1; 1; 1; 0].
Proof. do 3 eexists. split; [vm_compute; reflexivity|]. repeat split; vm_compute; reflexivity. Qed.
Example C48_example_indices : exists s' tr df,
  fit1 X7 Arr noisy_data None None None (Some (IntArg [0; -1]%Z))
    {| w_given := Some [1; 2; 3; 4; 5; 6; 7]; w_in_clf_kwargs := false; w_final := None; w_supported := true |} obj1 = (s', Ok (tr, df)) /\
  tr_X tr = [11;12;13;14;15]%nat /\ tr_weights tr = Some [2; 3; 4; 5; 6].
Proof. do 3 eexists. split; [vm_compute; reflexivity|]. split; reflexivity. Qed.
Example C48_rejects_example :
  bad_arg (IntArg [0; 0]%Z) labels7 /\ valid_inputs noisy_data = Ok tt /\
  snd (fit1 X7 Arr noisy_data None None None (Some (IntArg [0; 0]%Z)) no_weights obj1) = Raise ValueError.
Proof. split; [|split; vm_compute; reflexivity]. cbn. intro H. inversion_clear H. apply H0. now left. Qed.

(** Integer flags (0 or 1, as read back from a file) pass the checks, but the classifier is then trained on copies
    of the last two examples. *)
Theorem C48_integer_flags_refuted : exists s' tr df,
  let table := {| d_len := 7; d_issue := Some (IntCol [0; 0; 0; 0; 0; 0; 1]%Z); d_quality := None; d_given := None;
                  d_predicted := None; d_weight := None |} in
  fit1 X7 Arr noisy_data None None None (Some (DFArg table)) no_weights obj1 = (s', Ok (tr, df)) /\
  tr_X tr = [16;16;16;16;16;16;15]%nat.
Proof. do 3 eexists. split; [vm_compute; reflexivity|reflexivity]. Qed.
Print Assumptions C48_integer_flags_refuted.

(** With the labels in a Python list the estimated weights are all 1, though the noise rates are known. *)
Theorem C48_list_weights_refuted : exists s' tr df nm,
  fit1 X7 Lst noisy_data None None None None no_weights obj1 = (s', Ok (tr, df)) /\
  c_noise s' = Some nm /\ Qred (label_weight nm 2 0%nat) = 4 # 3 /\
  tr_labels tr = [0;0;0;1;1;1]%nat /\ tr_weights tr = Some [1; 1; 1; 1; 1; 1].
Proof. do 4 eexists. split; [vm_compute; reflexivity|]. repeat split; vm_compute; reflexivity. Qed.
Print Assumptions C48_list_weights_refuted.

(** When [label_issues] is passed, a noise matrix passed with it is not used: a new object gives no weights, a used
    object gives the weights of the dataset it saw earlier. *)
Theorem C48_passed_noise_refuted : forall nm,
  (exists s' tr df, fit1 X7 Arr clean_data None (Some nm) None (Some (BoolArg (repeat false 7))) no_weights obj1 = (s', Ok (tr, df)) /\
     tr_weights tr = None) /\
  (exists s' tr df, fit1 X7 Arr clean_data None (Some nm) None (Some (BoolArg (repeat false 7))) no_weights
       (fst (find1 noisy_data None None None true obj1)) = (s', Ok (tr, df)) /\
     (match tr_weights tr with Some w => map Qred w | None => [] end) = [4 # 3; 4 # 3; 4 # 3; 1; 1; 1; 1]).
Proof. intro nm. split; do 3 eexists; (split; [vm_compute; reflexivity|vm_compute; reflexivity]). Qed.
Print Assumptions C48_passed_noise_refuted.

(** ** C49 *)
(** In low-memory mode the result (also an exception) is the one of a new object, after every history of calls. *)
Theorem C49_low_memory_partial srt minv js cfg kw qk cs ds th nm im sv : low_memory cfg = true ->
  snd (find_label_issues srt minv js cfg ds th nm im sv (run_calls srt minv js cfg cs (new_object kw qk))) =
  snd (find_label_issues srt minv js cfg ds th nm im sv (new_object kw qk)).
Proof. exact (low_memory_independent srt minv js cfg kw qk cs ds th nm im sv). Qed.
Print Assumptions C49_low_memory_partial.

(** With a filter that does not prune by the joint, every table returned after any history is the one of a new
    object. *)
Theorem C49_filters_partial srt minv js cfg kw qk cs ds th nm im sv th' nm' im' sv' s' t s0 t0 :
  is_prune (filter_of kw) = false ->
  find_label_issues srt minv js cfg ds th nm im sv (run_calls srt minv js cfg cs (new_object kw qk)) = (s', Ok t) ->
  find_label_issues srt minv js cfg ds th' nm' im' sv' (new_object kw qk) = (s0, Ok t0) -> t = t0.
Proof. exact (filters_independent srt minv js cfg kw qk cs ds th nm im sv th' nm' im' sv' s' t s0 t0). Qed.
Print Assumptions C49_filters_partial.

(** With every filter, once a call on a dataset has completed, every later completed call on that dataset returns the
    same table, whatever happened before, in between, and whatever noise rates or thresholds are passed. *)
Theorem C49_repeat srt minv js cfg kw qk cs0 ds th nm im sv s1 t1 cs th' nm' im' sv' s2 t2 : pulearning cfg = None ->
  find_label_issues srt minv js cfg ds th nm im sv (run_calls srt minv js cfg cs0 (new_object kw qk)) = (s1, Ok t1) ->
  find_label_issues srt minv js cfg ds th' nm' im' sv' (run_calls srt minv js cfg cs s1) = (s2, Ok t2) -> t2 = t1.
Proof. exact (repeated srt minv js cfg kw qk cs0 ds th nm im sv s1 t1 cs th' nm' im' sv' s2 t2). Qed.
Print Assumptions C49_repeat.

(** The first call of an object without a joint of its own returns exactly what filter.find_label_issues returns for
    the data and the object's keyword arguments. *)
Theorem C49_first_call srt minv js cfg kw qk ds sv s1 t nm im : pulearning cfg = None -> low_memory cfg = false -> kw_cj kw = None ->
  find_label_issues srt minv js cfg ds None nm im sv (new_object kw qk) = (s1, Ok t) -> searched srt kw None qk ds t.
Proof. exact (searched_first srt minv js cfg kw qk ds sv s1 t nm im). Qed.
Print Assumptions C49_first_call.

(** Later calls on other data: the confident joint of the first dataset is used for them. *)
Theorem C49_later_calls srt minv js cfg kw qk ds th nm im sv s1 t cs ds' th' nm' im' sv' s2 t2 :
  pulearning cfg = None -> low_memory cfg = false -> kw_cj kw = None -> kw_filter kw <> Some ConfidentLearning ->
  find_label_issues srt minv js cfg ds th nm im sv (new_object kw qk) = (s1, Ok t) ->
  find_label_issues srt minv js cfg ds' th' nm' im' sv' (run_calls srt minv js cfg cs s1) = (s2, Ok t2) ->
  exists pp cj idx, match ds_pred_probs ds with Some given => Ok given | None => ds_cv ds end = Ok pp /\
    compute_confident_joint srt (ds_labels ds) pp (length (nth 0 pp [])) th true = Ok (cj, idx) /\
    searched srt kw (Some (map (map inject_Z) cj)) qk ds' t2.
Proof. exact (searched_later srt minv js cfg kw qk ds th nm im sv s1 t cs ds' th' nm' im' sv' s2 t2). Qed.
Print Assumptions C49_later_calls.

(** So with the default filter a second dataset is not searched as by a new object: its mislabelled example is
    missed, because the first dataset was clean. *)
Theorem C49_other_dataset_refuted :
  flags_of (snd (find1 noisy_data None None None true obj1)) = Some (BoolCol [false; false; false; false; false; false; true]) /\
  flags_of (snd (find1 noisy_data None None None true (fst (find1 clean_data None None None true obj1)))) = Some (BoolCol (repeat false 7)).
Proof. split; vm_compute; reflexivity. Qed.
Print Assumptions C49_other_dataset_refuted.

(** Noise rates passed to a later call are replaced by those of the old joint. *)
Theorem C49_passed_noise_refuted :
  let nm := [[9 # 10; 2 # 10]; [1 # 10; 8 # 10]] in
  c_noise (fst (find1 clean_data None (Some nm) None true obj1)) = Some nm /\
  exists nm', c_noise (fst (find1 clean_data None (Some nm) None true (fst (find1 clean_data None None None true obj1)))) = Some nm' /\
    mget nm' 0 0 == 1.
Proof. split; [vm_compute; reflexivity|]. eexists. split; [vm_compute; reflexivity|reflexivity]. Qed.
Print Assumptions C49_passed_noise_refuted.

(** After [save_space] no dataset can be searched any more. *)
Theorem C49_save_space_refuted srt minv js cfg ds th nm im sv s s' t :
  find_label_issues srt minv js cfg ds th nm im sv (fst (save_space s)) <> (s', Ok t).
Proof. exact (saved_space_raises srt minv js cfg ds th nm im sv s s' t). Qed.
Print Assumptions C49_save_space_refuted.

Example C49_history_example :
  let cs := [Find clean_data None None None true; Fit X7 Arr noisy_data None None None (Some (IntArg [6]%Z)) no_weights] in
  let obj f := new_object (kw1 f) (SelfConfidence, false) in
  (forall f, In f [Some LowSelfConfidence; Some ConfidentLearning; Some PredictedNeqGiven] ->
     snd (find1 noisy_data None None None true (run_calls argsort_ins minv2 js1 cfg1 cs (obj f))) = snd (find1 noisy_data None None None true (obj f)) /\
     exists s t, find1 noisy_data None None None true (obj f) = (s, Ok t)).
Proof. cbn zeta. intros f [<-|[<-|[<-|[]]]]; (split; [vm_compute; reflexivity|do 2 eexists; vm_compute; reflexivity]). Qed.

(** probabilities from cross-validation, default minimum per class *)
Definition cv_data := {| ds_labels := labels7 ++ labels7; ds_pred_probs := None;
  ds_cv := Ok ([pr 9; pr 8; pr 9; pr 1; pr 2; pr 1; pr 9] ++ [pr 9; pr 8; pr 9; pr 1; pr 2; pr 1; pr 9]) |}.
Definition kw0 := {| kw_filter := None; kw_cj := None; kw_min := None; kw_frac := 1;
  kw_ntr := None; kw_jobs := 1; kw_sched_c := []; kw_sched_n := []; kw_unsupported := false |}.
Example C49_first_call_example : exists s t, find1 cv_data None None None true (new_object kw0 (SelfConfidence, false)) = (s, Ok t) /\
  d_issue t = Some (BoolCol (repeat false 14)).
Proof. do 2 eexists. split; vm_compute; reflexivity. Qed.
