(** * Model of the confusion-matrix baseline (cleanlab/filter.py:702-759, cleanlab/internal/util.py:274-311) *)
From Coq Require Import QArith List ZArith Bool Arith.
From Verif Require Import Base ModelUtil ModelCount ModelFilter.
Import ListNotations.
Open Scope Q_scope.

(** cleanlab/internal/util.py:274-311 [confusion_matrix]: one row for each class that occurs in [true_], one column for
    each class that occurs in [pred]. *)
Definition confusion_matrix (true_ pred : list nat) : res (list (list Z)) :=
  if negb (Nat.eqb (length true_) (length pred)) then Raise AssertionError
  else Ok (map (fun t => map (fun p =>
         Z.of_nat (length (filter (fun tp => (Nat.eqb (fst tp) t && Nat.eqb (snd tp) p)%bool) (combine true_ pred))))
         (unique pred)) (unique true_)).

(** The keyword arguments of [find_label_issues] that the call at filter.py:754-759 leaves at their defaults; [jobs] is
    the number of CPU cores, [sc] and [sn] the behaviour of the process pools. *)
Definition baseline_options (cj : option (list (list Q))) (jobs : nat) (sc sn : list nat) : options :=
  {| frac_noise := 1; num_to_remove_per_class := None; min_examples_per_class := 1; confident_joint := cj;
     n_jobs := jobs; sched_c := sc; sched_n := sn |}.

(** cleanlab/filter.py:702-759 [find_label_issues_using_argmax_confusion_matrix].  The confident joint that is handed to
    [find_label_issues] has [length cj] rows and [length (unique predicted)] columns.  The three pruning filters index
    it as a [K] x [K] matrix; when it is not one, line 590 (arrays of different lengths) or lines 369/373
    ([prune_count_matrix[:, k]]) raise.  Not modelled ([OtherError]): a single predicted class, where the lengths
    are compatible by broadcasting. *)
Definition find_label_issues_using_argmax_confusion_matrix (srt : list Q -> list nat) (labels : list nat)
           (pred_probs : list (list Q)) (K : nat) (calibrate : bool) (flt : filter_method) (jobs : nat)
           (sc sn : list nat) : res (list bool) :=
  do _ <- assert_valid_inputs labels pred_probs K false ;
  let predicted := map argmax pred_probs in
  do cm <- confusion_matrix predicted labels ;
  let cj0 := tab (length (unique labels)) (fun j => zcol j cm) in
  do cj <- (if calibrate then calibrate_confident_joint srt (zmat_to_q cj0) labels else Ok cj0) ;
  let rows := length cj in
  let cols := length (unique predicted) in
  if (is_prune flt && negb (Nat.eqb rows K && Nat.eqb cols K))%bool then
    if Nat.eqb cols 1 then Raise OtherError
    else if Nat.ltb cols rows then Raise ValueError else Raise IndexError
  else find_label_issues srt labels pred_probs K flt (baseline_options (Some (zmat_to_q cj)) jobs sc sn).
