(** * Health summary of a multi-label dataset (multilabel_classification/dataset.py) *)
From Coq Require Import QArith List ZArith Bool Arith.
From Verif Require Import Base ModelUtil ModelCount ModelRank ModelFilter ModelBatched ModelMultilabel.
Import ListNotations.
Open Scope Q_scope.

(** multilabel_classification/dataset.py:189-215 [_get_num_examples_multilabel].  Only its outcome with labels or
    without anything is reachable from the summary; a confident joint of shape (K, 2, 2) without labels gives the sum
    of its first 2x2 matrix. *)
Definition num_examples_multilabel (labels : option (list (list nat))) (cj : option (list (list (list Q)))) : res Q :=
  match labels, cj with
  | Some l, _ => Ok (Qnat (length l))
  | None, None => Raise ValueError
  | None, Some [] => Raise IndexError
  | None, Some (m :: _) => Ok (qsum (map qsum m))
  end.

(** the dictionary returned by the summary (dataset.py:322-326). *)
Record ml_summary := { s_score : Q; s_classes : list quality_row; s_common : list issue_row }.

(** multilabel_classification/dataset.py:100-186: the class table passes [joint], not [confident_joint], to
    [common_multilabel_issues] (lines 140-142); [confident_joint] only serves to count the examples, which the labels
    do as well. *)
Definition rank_classes_call (srt : list Q -> list nat) (labels : option (list (list nat))) (pp : list (list Q)) (K : nat)
           (joint cj : option (list (list (list Q)))) (n : nat) (sched : nat -> list nat * list nat)
  : res (list quality_row) :=
  do _ <- num_examples_multilabel labels joint ;
  match labels with
  | None => Raise TypeError                          (* get_onehot_num_classes(None, ...) *)
  | Some l => rank_classes_by_multilabel_quality srt l pp K (default_options joint sched n)
  end.
Definition common_call (srt : list Q -> list nat) (labels : option (list (list nat))) (pp : list (list Q)) (K : nat)
           (cj : option (list (list (list Q)))) (n : nat) (sched : nat -> list nat * list nat) : res (list issue_row) :=
  do _ <- num_examples_multilabel labels cj ;
  match labels with
  | None => Raise TypeError
  | Some l => common_multilabel_issues srt l pp K (default_options cj sched n)
  end.
Definition health_call (srt : list Q -> list nat) (labels : option (list (list nat))) (pp : list (list Q)) (K : nat)
           (cj : option (list (list (list Q)))) (n : nat) (sched : nat -> list nat * list nat) : res Q :=
  do _ <- num_examples_multilabel labels None ;
  match labels with
  | None => Raise TypeError
  | Some l => overall_multilabel_health_score srt l pp K (default_options cj sched n)
  end.

(** multilabel_classification/dataset.py:246-326 [multilabel_health_summary].  [num_examples] is only printed.  [n] is
    the number of worker processes the library picks, [s1 s2 s3] how the pools of the three calls behave. *)
Definition multilabel_health_summary (srt : list Q -> list nat) (labels : option (list (list nat))) (pp : list (list Q))
           (K : nat) (num_examples : option nat) (cj : option (list (list (list Q)))) (n : nat)
           (s1 s2 s3 : nat -> list nat * list nat) : res ml_summary :=
  do _ <- match num_examples with Some k => Ok (Qnat k) | None => num_examples_multilabel labels None end ;
  do classes <- rank_classes_call srt labels pp K None cj n s1 ;
  do common <- common_call srt labels pp K cj n s2 ;
  do score <- health_call srt labels pp K cj n s3 ;
  Ok {| s_score := score; s_classes := classes; s_common := common |}.
