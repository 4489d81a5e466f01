(** * Model of cleanlab/dataset.py (single-label class-level summaries) *)
From Coq Require Import QArith Qabs Qround List ZArith Bool Arith.
From Verif Require Import Base ModelUtil ModelCount ModelFilter.
Import ListNotations.
Open Scope Q_scope.

(** cleanlab/dataset.py:95-105: one row of the table built by [rank_classes_by_label_quality].  The
    optional [Class Name] column is a copy of the caller's list and is not modelled. *)
Record class_row := {
  class_index : nat;
  class_label_issues : Z;
  class_inverse_label_issues : Z;
  class_label_noise : Q;
  class_inverse_label_noise : Q;
  class_quality : Q }.

(** cleanlab/dataset.py:87-105. *)
Definition class_rows (joint : list (list Q)) (num_examples : Q) : list class_row :=
  tab (length joint) (fun k =>
    let given := qsum (nth k joint []) in
    let true_ := qsum (col k joint) in
    let given_noise := given - mget joint k k in
    let true_noise := true_ - mget joint k k in
    let given_conditional := given_noise / clip_lo EPSILON given in
    let true_conditional := true_noise / clip_lo EPSILON true_ in
    {| class_index := k;
       class_label_issues := round_half_even (given_noise * num_examples);
       class_inverse_label_issues := round_half_even (true_noise * num_examples);
       class_label_noise := given_conditional;
       class_inverse_label_noise := true_conditional;
       class_quality := 1 - given_conditional |}).

Definition class_row_0 : class_row :=
  {| class_index := 0; class_label_issues := 0; class_inverse_label_issues := 0; class_label_noise := 0;
     class_inverse_label_noise := 0; class_quality := 0 |}.

(** [df.sort_values(by=...)]: the rows in the order in which [srt] lists the keys. *)
Definition sort_by {A} (srt : list Q -> list nat) (key : A -> Q) (d : A) (rows : list A) : list A :=
  map (fun i => nth i rows d) (srt (map key rows)).

(** cleanlab/dataset.py:491-514 [_get_num_examples]. *)
Definition get_num_examples (labels : option (list nat)) (confident_joint : option (list (list Q))) : res Q :=
  match labels, confident_joint with
  | Some l, _ => Ok (Qnat (length l))
  | None, Some cj => Ok (qsum (map qsum cj))
  | None, None => Raise ValueError
  end.

(** cleanlab/count.py:329-399 [estimate_joint] with its optional arguments: without labels a supplied
    confident joint is only normalised; without a confident joint both other arguments are needed
    ([compute_confident_joint] fails on [None]). *)
Definition estimate_joint_opt (srt : list Q -> list nat) (labels : option (list nat))
           (pred_probs : option (list (list Q))) (K : nat) (confident_joint : option (list (list Q)))
  : res (list (list Q)) :=
  match confident_joint, labels, pred_probs with
  | Some cj, Some l, _ => estimate_joint srt l [] K (Some cj)
  | Some cj, None, _ => let total := qsum (map qsum cj) in
                        Ok (map (map (fun x => x / clip_lo TINY_VALUE total)) cj)
  | None, Some l, Some pp => estimate_joint srt l pp K None
  | None, _, _ => Raise OtherError
  end.

(** The optional inputs shared by the functions of this file ([K]: number of columns of [pred_probs]). *)
Record inputs := {
  in_labels : option (list nat);
  in_pred_probs : option (list (list Q));
  in_K : nat;
  in_num_examples : option Q;
  in_joint : option (list (list Q));
  in_confident_joint : option (list (list Q)) }.

Definition the_joint (srt : list Q -> list nat) (a : inputs) : res (list (list Q)) :=
  match in_joint a with
  | Some j => Ok j
  | None => estimate_joint_opt srt (in_labels a) (in_pred_probs a) (in_K a) (in_confident_joint a)
  end.

(** cleanlab/dataset.py:16-108 [rank_classes_by_label_quality] (the confident joint is not used to
    count the examples). *)
Definition rank_classes_by_label_quality (srt : list Q -> list nat) (a : inputs) : res (list class_row) :=
  do joint <- the_joint srt a ;
  do n <- (match in_num_examples a with Some n => Ok n | None => get_num_examples (in_labels a) None end) ;
  Ok (sort_by srt class_quality class_row_0 (class_rows joint n)).

(** cleanlab/dataset.py:111-283 [find_overlapping_classes]: rows are (class A, class B, number of
    overlapping examples, joint probability). *)
Record overlap_row := {
  overlap_a : nat; overlap_b : nat; overlap_num : Z; overlap_prob : Q }.
Definition overlap_row_0 : overlap_row :=
  {| overlap_a := 0; overlap_b := 0; overlap_num := 0; overlap_prob := 0 |}.

(** cleanlab/dataset.py:234-248 [_2d_matrix_to_row_column_value_list]. *)
Definition rcv_list (m : list (list Q)) : list (nat * nat * Q) :=
  flat_map (fun ir => map (fun jv => (fst ir, fst jv, snd jv)) (combine (seq 0 (length (snd ir))) (snd ir)))
           (combine (seq 0 (length m)) m).

(** cleanlab/dataset.py:269 [np.triu(joint) + np.tril(joint).T]. *)
Definition symmetric_joint (joint : list (list Q)) : list (list Q) :=
  let K := length joint in
  tab K (fun i => tab K (fun j =>
    (if Nat.leb i j then mget joint i j else 0) + (if Nat.leb i j then mget joint j i else 0))).

Definition overlap_rows (asymmetric : bool) (joint : list (list Q)) (n : Q) : list overlap_row :=
  let rcv := if asymmetric
             then filter (fun t => negb (Nat.eqb (fst (fst t)) (snd (fst t)))) (rcv_list joint)
             else filter (fun t => Nat.ltb (fst (fst t)) (snd (fst t))) (rcv_list (symmetric_joint joint)) in
  map (fun t => {| overlap_a := fst (fst t); overlap_b := snd (fst t);
                   overlap_num := round_half_even (snd t * n); overlap_prob := snd t |}) rcv.

(** [sort_values(ascending=False)] on a float column: descending order, realised by sorting the
    opposite numbers (the order among ties is unspecified). *)
Definition find_overlapping_classes (srt : list Q -> list nat) (asymmetric : bool) (a : inputs)
  : res (list overlap_row) :=
  do joint <- the_joint srt a ;
  do n <- (match in_num_examples a with
           | Some n => Ok n
           | None => get_num_examples (in_labels a) (in_confident_joint a)
           end) ;
  Ok (sort_by srt (fun r => - overlap_prob r) overlap_row_0 (overlap_rows asymmetric joint n)).

(** cleanlab/dataset.py:286-358 [overall_label_health_score] (the message printed when [verbose] is not
    modelled; a division by zero examples gives nan, here [ZeroDivision]). *)
Definition overall_label_health_score (srt : list Q -> list nat) (a : inputs) : res Q :=
  do n <- (match in_num_examples a with
           | Some n => Ok n
           | None => get_num_examples (in_labels a) (in_confident_joint a)
           end) ;
  match in_pred_probs a, in_labels a with
  | Some pp, Some l =>
      do issues <- num_label_issues srt l pp (in_K a) ;
      if Qeq_bool n 0 then Raise ZeroDivision else Ok (1 - Qnat issues / n)
  | _, _ =>
      do joint <- the_joint srt a ;
      Ok (trace joint)
  end.

(** cleanlab/dataset.py:361-488 [health_summary]: (score, joint, class table, overlap table).  The joint
    is passed to the two tables but not to [overall_label_health_score]. *)
Definition health_summary (srt : list Q -> list nat) (asymmetric : bool) (a : inputs)
  : res (Q * list (list Q) * list class_row * list overlap_row) :=
  do joint <- the_joint srt a ;
  do n <- (match in_num_examples a with Some n => Ok n | None => get_num_examples (in_labels a) None end) ;
  let a' := {| in_labels := in_labels a; in_pred_probs := in_pred_probs a; in_K := in_K a;
               in_num_examples := Some n; in_joint := Some joint;
               in_confident_joint := in_confident_joint a |} in
  do classes <- rank_classes_by_label_quality srt a' ;
  do overlap <- find_overlapping_classes srt asymmetric a' ;
  do score <- overall_label_health_score srt
                {| in_labels := in_labels a; in_pred_probs := in_pred_probs a; in_K := in_K a;
                   in_num_examples := Some n; in_joint := None;
                   in_confident_joint := in_confident_joint a |} ;
  Ok (score, joint, classes, overlap).
