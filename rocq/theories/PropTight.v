(** * Theorems added after trying wrong programs: C28, C47, C48, C49, C59, C63, C105, C112, C117, C120 *)
From Coq Require Import String QArith Reals List ZArith Bool Arith Lia.
From Verif Require Import Base BaseFacts ModelUtil ModelCount ModelRank ModelPool ModelFilter ModelBatched ModelMultilabel
     SpecCount SpecFilter SpecBatched SpecBatchFlags SpecMultilabel ProofTight1 ProofTight2.
From Verif Require ModelToken SpecToken ModelOutlier ModelLearn ModelRegLearn ModelReport ModelSpan ModelCV ModelData
     PropLearn PropMultilabel PropRegLearn PropData PropSpan.
Import ListNotations.
Open Scope Q_scope.

(** ** C63: issues with low_memory.  Per class, as many of the lowest-scored examples as there are examples confidently
    predicted to be annotated the other way; those whose annotation disagrees with the model are flagged. *)
Theorem C63_low_memory : forall srt labels pp K flt o js m, argsort_ok srt -> ml_dataset K labels pp ->
  (forall e c, (e < length labels)%nat -> (c < K)%nat ->
     (has_class labels e c -> 2 # 1000000 <= prob_of pp e c) /\ (~ has_class labels e c -> prob_of pp e c <= 1 - (2 # 1000000))) ->
  ml_find_label_issues srt labels pp K flt o (Some js) = Ok m ->
  length m = length labels /\
  exists lowest : nat -> list nat,
    (forall c, (c < K)%nat -> exists bl bp scores n, one_vs_rest labels pp c bl bp /\
       get_label_quality_scores bl bp 2 SelfConfidence false = Ok scores /\
       holds_for (length labels) (confidently_other bl bp) n /\ n_lowest scores n (lowest c)) /\
    forall e, flagged m e <-> exists c, (c < K)%nat /\ In e (lowest c) /\ clearly_disagrees labels pp e c.
Proof. exact C63_low_memory_full. Qed.
Print Assumptions C63_low_memory.
Example C63_low_memory_example :
  ml_find_label_issues argsort_ins PropMultilabel.ex63_labels PropMultilabel.ex63_pp 2 ConfidentLearning
    (PropMultilabel.ex63_options None None) (Some (fun _ _ => Serial)) = Ok [false; true; false; true; false; false].
Proof. vm_compute. reflexivity. Qed.

(** ** C59: a label or prediction that is not one of the classes of the first token makes common_label_issues fail *)
Theorem C59_out_of_range : forall srt issues tokens labels pps exclude n,
  (exists row rest sents, pps = (row :: rest) :: sents /\ length row = n) ->
  (exists ij, In ij issues /\ SpecToken.in_text (map (@length string) tokens) ij /\ SpecToken.in_text (map (@length nat) labels) ij /\
     SpecToken.in_text (map (@length (list Q)) pps) ij /\
     ~ In (SpecToken.entry 0%nat labels ij, argmax (SpecToken.entry [] pps ij)) exclude /\
     ((n <= SpecToken.entry 0%nat labels ij)%nat \/ (n <= argmax (SpecToken.entry [] pps ij))%nat)) ->
  forall r, ModelToken.common_swaps srt issues tokens labels pps exclude <> Ok r.
Proof. exact C59_out_full. Qed.
Print Assumptions C59_out_of_range.
Example C59_out_of_range_example :
  ModelToken.common_swaps argsort_ins [(0, 0)]%nat [["An"%string]] [[2]]%nat [[[9#10; 1#10]]] [] = Raise IndexError.
Proof. reflexivity. Qed.

(** ** C28: the tolerances of the metrics agree where the metrics do; GEN over no classes fails *)
Theorem C28_minkowski_two : forall scores ds,
  ModelOutlier.correct_precision_errors scores ds (ModelOutlier.Minkowski (Some 2%R)) = ModelOutlier.correct_precision_errors scores ds ModelOutlier.Euclidean.
Proof. exact minkowski_two. Qed.
Print Assumptions C28_minkowski_two.
Theorem C28_gen_no_classes : forall F (B : ModelOutlier.backend F) o pp K labels,
  ModelOutlier.p_method o = ModelOutlier.Gen -> ModelOutlier.p_M o = 0%nat -> pp <> [] -> ModelOutlier.p_adjust o = false ->
  ModelOutlier.pred_probs_scores B o pp K labels = Raise ZeroDivision.
Proof. exact @gen_zero. Qed.
Print Assumptions C28_gen_no_classes.

(** ** C117 and C48: flags that are the integers 0 and 1 always train on copies of the last two examples *)
Theorem C117_integer_flags_general : forall A (d : A) srt sq ex model folds accepts_weights trains cv_n_folds n_boot include_aleatoric k_left
    X y f z o mk mf s s',
  ModelRegLearn.fit d srt sq ex model folds accepts_weights trains cv_n_folds n_boot include_aleatoric k_left
    X y (Some (ModelRegLearn.Frame f)) None o mk mf s = (s', Ok tt) ->
  ModelRegLearn.f_issue f = Some (ModelLearn.IntCol z) -> Forall (fun z => z = 0%Z \/ z = 1%Z) z ->
  exists tr, ModelRegLearn.g_trained s' = ModelRegLearn.g_trained s ++ [tr] /\
    ModelRegLearn.tr_X tr = map (fun z => nth (length (ModelRegLearn.x_rows X) - 1 - Z.to_nat z) (ModelRegLearn.x_rows X) d) z /\
    (ModelRegLearn.y_in y = ModelRegLearn.Vector ->
       ModelRegLearn.tr_y tr = map (fun z => nth (length (ModelRegLearn.y_numbers y) - 1 - Z.to_nat z) (ModelRegLearn.y_numbers y) 0) z) /\
    (ModelRegLearn.y_in y = ModelRegLearn.PyList -> length z = length (ModelRegLearn.y_values y) ->
       ModelRegLearn.tr_y tr = ModelRegLearn.y_numbers y).
Proof. exact @integer_flags. Qed.
Print Assumptions C117_integer_flags_general.
(** with the targets in a list the rows are those copies, but the targets are all of the targets: [PropRegLearn.C117_integer_flags_refuted]
    shows such a training for an array *)
Example C117_integer_flags_list_example : exists s' tr,
  let table := {| ModelRegLearn.f_len := 6; ModelRegLearn.f_issue := Some (ModelLearn.IntCol [0; 0; 1; 0; 0; 0]%Z); ModelRegLearn.f_quality := None;
                  ModelRegLearn.f_given := None; ModelRegLearn.f_predicted := None |} in
  PropRegLearn.fit6 PropRegLearn.X6 (PropRegLearn.y6 ModelRegLearn.PyList) (Some (ModelRegLearn.Frame table)) None PropRegLearn.options6 [] []
    ModelRegLearn.new_object = (s', Ok tt) /\
  ModelRegLearn.g_trained s' = [tr] /\ ModelRegLearn.tr_X tr = [5; 5; 4; 5; 5; 5] /\ ModelRegLearn.tr_y tr = [1; 2; 30; 4; 5; 6].
Proof. do 2 eexists. split; [vm_compute; reflexivity|]. split; [reflexivity|]. split; reflexivity. Qed.

Theorem C48_integer_flags_general : forall A srt minv js cfg (d : A) X ds th nm im df0 w s s' tr df z,
  ModelLearn.fit srt minv js cfg d X ModelLearn.Arr ds th nm im (Some (ModelLearn.DFArg df0)) w s = (s', Ok (tr, df)) ->
  ModelLearn.d_issue df0 = Some (ModelLearn.IntCol z) -> Forall (fun z => z = 0%Z \/ z = 1%Z) z ->
  (2 <= length X)%nat -> (2 <= length (ModelLearn.ds_labels ds))%nat ->
  ModelLearn.tr_X tr = map (fun z => nth (length X - 1 - Z.to_nat z) X d) z /\
  ModelLearn.tr_labels tr = map (fun z => nth (length (ModelLearn.ds_labels ds) - 1 - Z.to_nat z) (ModelLearn.ds_labels ds) 0%nat) z.
Proof. exact @integer_flags_cls. Qed.
Print Assumptions C48_integer_flags_general.
(** the weights of those copies end up on the last two rows of the table *)
Theorem C48_integer_weights_refuted : exists s' tr df,
  let table := {| ModelLearn.d_len := 7; ModelLearn.d_issue := Some (ModelLearn.IntCol [0; 0; 0; 0; 0; 0; 1]%Z); ModelLearn.d_quality := None;
                  ModelLearn.d_given := None; ModelLearn.d_predicted := None; ModelLearn.d_weight := None |} in
  PropLearn.fit1 PropLearn.X7 ModelLearn.Arr PropLearn.noisy_data None None None (Some (ModelLearn.DFArg table)) PropLearn.no_weights
    (fst (PropLearn.find1 PropLearn.noisy_data None None None true PropLearn.obj1)) = (s', Ok (tr, df)) /\
  (match ModelLearn.d_weight df with Some w => map Qred w | None => [] end) = [0; 0; 0; 0; 0; 1; 1].
Proof. do 3 eexists. split; vm_compute; reflexivity. Qed.
Print Assumptions C48_integer_weights_refuted.

(** a nan among the given labels of the table makes fit reject it *)
Theorem C117_nan_given : forall A (d : A) srt sq ex model folds accepts_weights trains cv_n_folds n_boot include_aleatoric k_left
    X y f g o mk mf sw s i,
  ModelRegLearn.f_given f = Some g -> ModelRegLearn.f_issue f <> None -> (i < length g)%nat -> (i < length (ModelRegLearn.y_values y))%nat ->
  nth i g None = None ->
  snd (ModelRegLearn.fit d srt sq ex model folds accepts_weights trains cv_n_folds n_boot include_aleatoric k_left
    X y (Some (ModelRegLearn.Frame f)) sw o mk mf s) = Raise ValueError.
Proof. exact @nan_given. Qed.
Print Assumptions C117_nan_given.

(** ** C49: without predicted probabilities exactly the labels with two different values are accepted *)
Theorem C49_two_labels : forall ds, ModelLearn.ds_pred_probs ds = None ->
  (ModelLearn.valid_inputs ds = Ok tt <->
   exists x y, In x (ModelLearn.ds_labels ds) /\ In y (ModelLearn.ds_labels ds) /\ x <> y).
Proof. exact two_labels. Qed.
Print Assumptions C49_two_labels.

(** ** C47: features and labels of different lengths are refused *)
Theorem C47_mismatch : forall A (d : A) fit_predict so torch X labels folds, length X <> length labels ->
  ModelCV.cv_pred_probs d fit_predict so torch X labels folds = Raise ValueError.
Proof. exact @cv_mismatch. Qed.
Print Assumptions C47_mismatch.

(** ** C112: of a table the first five rows are printed, followed by dots exactly when there are more *)
Theorem C112_tables : forall A W fuel k n, k <> "statistics"%string ->
  exists dots, ModelReport.show_entry fuel k (@ModelReport.PFrame A W n) = Ok (Some (ModelReport.ShownRows (Nat.min n 5) dots)) /\
    (dots = true <-> (5 < n)%nat).
Proof. exact @frame_shown. Qed.
Print Assumptions C112_tables.

(** ** C105: the issues are those of the token finder with its default settings on the two-class probabilities *)
Theorem C105_defaults : forall srt labels probs,
  ModelSpan.span_find_label_issues srt labels probs =
  ModelToken.token_find_label_issues srt labels (map (map (fun p => [1 - p; p])) probs) 2 SelfConfidence None PruneByNoiseRate
    {| frac_noise := 1; num_to_remove_per_class := None; min_examples_per_class := 1;
       confident_joint := None; n_jobs := 1; sched_c := []; sched_n := [] |}.
Proof. exact span_is_token. Qed.
Print Assumptions C105_defaults.
Example C105_example_exact :
  ModelSpan.span_find_label_issues argsort_ins PropSpan.ex105_labels PropSpan.ex105_probs = Ok [(0, 0); (0, 1); (0, 3); (1, 0); (1, 1)]%nat.
Proof. vm_compute. reflexivity. Qed.

(** ** C120: two label columns are equal exactly when they have the same name, the same classes and the same values, where
    lists of lists must all have one length; columns without any value are equal whatever their kind *)
Theorem C120_equal_labels : forall A (same : A -> A -> bool), (forall x y, same x y = true <-> x = y) ->
  forall a b, ModelData.label_equal same a b = true <->
    ModelData.lname a = ModelData.lname b /\ ModelData.lmap a = ModelData.lmap b /\
    ((ModelData.values a = ModelData.values b /\ forall l, ModelData.values a = ModelData.SLists l -> forall x y, In x l -> In y l -> length x = length y) \/
     (ModelData.stored_length (ModelData.values a) = 0%nat /\ ModelData.stored_length (ModelData.values b) = 0%nat)).
Proof. exact @labels_equal_iff. Qed.
Print Assumptions C120_equal_labels.
Example C120_equal_labels_example :
  ModelData.label_equal Nat.eqb (ModelData.Label (ModelData.SInts [0; 1]%Z) [(0, 5%nat); (1, 7%nat)]%Z None)
    (ModelData.Label (ModelData.SInts [0; 1]%Z) [(0, 5%nat); (1, 7%nat)]%Z None) = true /\
  ModelData.label_equal Nat.eqb (ModelData.Label (ModelData.SInts []) [] None) (ModelData.Label (ModelData.SRaw []) [] None) = true.
Proof. split; reflexivity. Qed.
