(** * Model of what Datalab's label check for classification stores besides its flags: the score of its summary row
      and its info (datalab/internal/issue_manager/label.py:57-273) *)
From Coq Require Import String QArith List Bool Arith ZArith.
From Verif Require Import Base ModelUtil ModelCount ModelRank ModelFilter ModelBatched ModelLearn ModelDataset
     ModelLabelCheck.
Import ListNotations.
Open Scope Q_scope.

(** the entries of [health_summary_parameters] that are read ([None]: absent or Python's None) *)
Record parameters := {
  hp_confident_joint : option matrix;
  hp_joint : option matrix;
  hp_num_examples : option Q;
  hp_class_names : option (list string);
  hp_asymmetric : option bool }.
(** what [datalab.get_info("statistics")] and the label map provide *)
Record statistics := {
  st_confident_joint : option matrix;
  st_joint : option matrix;
  st_num_examples : option Q;
  st_asymmetric : option bool;
  st_class_names : list string }.

(** label.py:66-68, 92-113 [_reset]; [user = None]: nothing, or an empty dictionary, was passed *)
Definition reset (user : option parameters) (st : statistics) : parameters :=
  match user with
  | Some hp => hp
  | None => {| hp_confident_joint := st_confident_joint st; hp_joint := st_joint st;
               hp_num_examples := st_num_examples st; hp_class_names := Some (st_class_names st);
               hp_asymmetric := st_asymmetric st |}
  end.

(** label.py:198-238 [_get_summary_parameters]: the arguments of dataset.health_summary *)
Definition summary_parameters (hp : parameters) (labels : list nat) (pp : matrix) : res (inputs * bool) :=
  let a :=
    match hp_confident_joint hp, hp_joint hp, hp_num_examples hp with
    | Some cj, _, _ => {| in_labels := None; in_pred_probs := None; in_K := 0; in_num_examples := None;
                          in_joint := None; in_confident_joint := Some cj |}
    | None, Some j, Some n => {| in_labels := None; in_pred_probs := None; in_K := 0; in_num_examples := Some n;
                                 in_joint := Some j; in_confident_joint := None |}
    | _, _, _ => {| in_labels := Some labels; in_pred_probs := Some pp; in_K := width pp; in_num_examples := None;
                    in_joint := None; in_confident_joint := None |}
    end in
  match hp_class_names hp with
  | None => Raise KeyError
  | Some _ => Ok (a, match hp_asymmetric hp with Some b => b | None => false end)
  end.

(** label.py:240-270 [collect_info].  The joint of the health summary is stored under "confident_joint" and then
    overwritten by the attribute of the same name of the CleanLearning object. *)
Record label_info := {
  li_num_label_issues : nat;
  li_average_label_quality : Q;
  li_given_label : list nat;
  li_predicted_label : list nat;
  li_classes : list class_row;
  li_overlapping : list overlap_row;
  li_confident_joint : option matrix;
  li_py : option (list Q);
  li_noise_matrix : option matrix;
  li_inverse_noise_matrix : option matrix;
  li_confident_thresholds : list Q;
  li_used_features : bool;
  li_used_pred_probs : bool }.

Section LabelInfo.
  Variable srt : list Q -> list nat.
  Variable minv : matrix -> res matrix.
  Variable js : nat -> jobs.
  Variable cfg : settings.

  (** label.py:115-185 [find_issues] of a new manager: flags and scores (the two columns of the issues table), the
      score of the summary row, and the info. *)
  Definition label_check (kw : kwargs) (qk : score_method * bool) (user : option parameters) (st : statistics)
             (k : nat) (labels : list nat) (K : nat) (pred_probs : option matrix) (features : option (list (list nat)))
             (thresholds : option (list Q)) (noise inverse : option matrix) (save : bool)
    : res (list bool * list Q * Q * label_info) :=
    do pp <- (match pred_probs, features with
              | Some pp, _ => Ok pp
              | None, None => Raise ValueError
              | None, Some nb => features_pred_probs k labels K nb
              end) ;
    let '(cl, r) := label_find_issues srt minv js cfg k labels K pred_probs features thresholds noise inverse save
                                      (new_object kw qk) in
    do df <- r ;
    do _ <- assert_valid_inputs labels pp (width pp) false ;
    do args <- summary_parameters (reset user st) labels pp ;
    do summary <- health_summary srt (snd args) (fst args) ;
    let '(score, joint, classes, overlapping) := summary in
    match d_issue df, d_quality df, d_given df, d_predicted df with
    | Some (BoolCol flags), Some scores, Some given, Some predicted =>
        Ok (flags, scores, score,
            {| li_num_label_issues := count_true flags;
               li_average_label_quality := qmean scores;
               li_given_label := given;
               li_predicted_label := predicted;
               li_classes := classes;
               li_overlapping := overlapping;
               li_confident_joint := c_cj cl;
               li_py := c_py cl;
               li_noise_matrix := c_noise cl;
               li_inverse_noise_matrix := c_inverse cl;
               li_confident_thresholds := get_confident_thresholds labels pp (width pp);
               li_used_features := match pred_probs with None => true | Some _ => false end;
               li_used_pred_probs := match pred_probs with None => false | Some _ => true end |})
    | _, _, _, _ => Raise KeyError
    end.
End LabelInfo.
