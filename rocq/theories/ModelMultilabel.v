(** * Model of cleanlab/internal/multilabel_utils.py, internal/multilabel_scorer.py,
      multilabel_classification/{filter,rank,dataset}.py and the multi-label part of cleanlab/filter.py and count.py

    [labels] is the list of the lists of classes of each example; [K = pred_probs.shape[1]].  Of the base scorers
    the two rational ones are modelled; of the aggregators the exponential moving average (softmin is
    [softmin_sentence] of ModelToken). *)
From Coq Require Import QArith List ZArith Bool Arith.
From Verif Require Import Base ModelUtil ModelCount ModelRank ModelPool ModelFilter ModelBatched.
Import ListNotations.
Open Scope Q_scope.

(** multilabel_utils.py:57-72 [int2onehot]: sklearn's MultiLabelBinarizer with classes 0..K-1 (unknown classes
    are ignored with a warning). *)
Definition int2onehot (labels : list (list nat)) (K : nat) : list (list nat) :=
  map (fun row => tab K (fun k => if mem k row then 1%nat else 0%nat)) labels.
(** [y_one.T[c]]. *)
Definition ncol (c : nat) (m : list (list nat)) : list nat := map (fun r => nth c r 0%nat) m.
(** multilabel_utils.py:22-40 [stack_complement]. *)
Definition stack_complement (p : list Q) : list (list Q) := map (fun x => [1 - x; x]) p.
(** the one-vs-rest problem of class [c]. *)
Definition binary_labels (labels : list (list nat)) (K c : nat) : list nat := ncol c (int2onehot labels K).
Definition binary_probs (pp : list (list Q)) (c : nat) : list (list Q) := stack_complement (col c pp).

(** multilabel_scorer.py:134-203 [exponential_moving_average] of one row; an empty row raises IndexError. *)
Definition sort_descending (srt : list Q -> list nat) (row : list Q) : list Q := rev (take_idx 0 row (srt row)).
Definition exponential_moving_average (srt : list Q -> list nat) (alpha : option Q) (row : list Q) : res Q :=
  let alpha := match alpha with Some a => a | None => 2 / (Qnat (length row) + 1) end in
  if negb (Qleb 0 alpha && Qleb alpha 1)%bool then Raise ValueError
  else match sort_descending srt row with
       | [] => Raise IndexError
       | x :: t => Ok (fold_left (fun ema s => alpha * s + (1 - alpha) * ema) t x)
       end.

(** multilabel_scorer.py:444-488 [get_class_label_quality_scores]; rows of the result are examples. *)
Definition class_scores (y : list (list nat)) (pp : list (list Q)) (K : nat) (method : score_method) (adjust : bool)
  : res (list (list Q)) :=
  do cols <- rmap (fun c => compute_label_quality_scores (ncol c y) (stack_complement (col c pp)) 2 method adjust)
                  (seq 0 K) ;
  Ok (tab (length y) (fun e => map (fun s => nth e s 0) cols)).

(** multilabel_scorer.py:490-502 and multilabel_utils.py:12-19: dense 0/1 labels in which both values occur, at
    least two classes, same shape as the probabilities. *)
Definition check_onehot (y : list (list nat)) (pp : list (list Q)) (K : nat) : res unit :=
  if (Nat.leb K 1 || negb (mem 0 (concat y) && mem 1 (concat y)))%bool then Raise ValueError
  else if negb (Nat.eqb (length y) (length pp)) then Raise ValueError
  else Ok tt.

(** multilabel_scorer.py:342-398, 505-553: scores of a one-hot matrix, aggregated by EMA. *)
Definition onehot_scores (srt : list Q -> list nat) (y : list (list nat)) (pp : list (list Q)) (K : nat)
           (method : score_method) (adjust : bool) (alpha : option Q) : res (list Q) :=
  do _ <- check_onehot y pp K ;
  do s <- class_scores y pp K method adjust ;
  rmap (exponential_moving_average srt alpha) s.

(** validation.py:60-86 with [multi_label=True] (as called by rank.py:29-31). *)
Definition assert_valid_multilabel (labels : list (list nat)) (pp : list (list Q)) (K : nat) : res unit :=
  if negb (Nat.eqb (length pp) (length labels)) then Raise ValueError
  else match concat labels with
  | [] => Raise ValueError                                       (* max of an empty list *)
  | _ =>
    if Nat.ltb K (nmax (concat labels) + 1) then Raise ValueError
    else if (Qltb (qminimum (concat pp)) (0 - FLOATING_POINT_COMPARISON) ||
             Qltb (1 + FLOATING_POINT_COMPARISON) (qmaximum (concat pp)))%bool then Raise ValueError
    else Ok tt
  end.

(** multilabel_classification/rank.py:53-121 [get_label_quality_scores] and 124-179
    [get_label_quality_scores_per_class]. *)
Definition ml_label_quality_scores (srt : list Q -> list nat) (labels : list (list nat)) (pp : list (list Q)) (K : nat)
           (method : score_method) (adjust : bool) (alpha : option Q) : res (list Q) :=
  do _ <- assert_valid_multilabel labels pp K ;
  onehot_scores srt (int2onehot labels K) pp K method adjust alpha.
Definition ml_label_quality_scores_per_class (labels : list (list nat)) (pp : list (list Q)) (K : nat)
           (method : score_method) (adjust : bool) : res (list (list Q)) :=
  do _ <- assert_valid_multilabel labels pp K ;
  class_scores (int2onehot labels K) pp K method adjust.

(** multilabel_classification/filter.py:272-292: the arguments of the one-vs-rest call for class [c].  [sched]:
    what the process pools of that call do.  A [confident_joint] of shape K x 2 x 2 is a list of matrices. *)
Record ml_options := {
  ml_frac_noise : Q;
  ml_num_to_remove : option (list Q);
  ml_min_examples : nat;
  ml_confident_joint : option (list (list (list Q)));
  ml_n_jobs : nat;
  ml_sched : nat -> list nat * list nat }.
Definition class_options (o : ml_options) (c : nat) : options :=
  {| frac_noise := ml_frac_noise o;
     num_to_remove_per_class := match ml_num_to_remove o with Some n => Some [nth c n 0; 0] | None => None end;
     min_examples_per_class := ml_min_examples o;
     confident_joint := match ml_confident_joint o with Some cj => Some (nth c cj []) | None => None end;
     n_jobs := ml_n_jobs o;
     sched_c := fst (ml_sched o c); sched_n := snd (ml_sched o c) |}.

(** multilabel_classification/filter.py:156-303 [find_multilabel_issues_per_class]: one mask (or one ranked list)
    per class.  [low_memory] carries the executions of the batches of each class. *)
Definition issues_per_class (srt : list Q -> list nat) (labels : list (list nat)) (pp : list (list Q)) (K : nat)
           (flt : filter_method) (o : ml_options) (low_memory : option (nat -> nat -> jobs)) : res (list (list bool)) :=
  rmap (fun c =>
    match low_memory with
    | Some js => find_label_issues_batched srt (binary_labels labels K c) (binary_probs pp c) 2 (2 * 5000)%nat
                   SelfConfidence false false (js c)
    | None => find_label_issues srt (binary_labels labels K c) (binary_probs pp c) 2 flt (class_options o c)
    end) (seq 0 K).
Definition ranked_issues_per_class (srt : list Q -> list nat) (labels : list (list nat)) (pp : list (list Q)) (K : nat)
           (flt : filter_method) (o : ml_options) (rank_by : score_method) (adjust : bool) : res (list (list nat)) :=
  rmap (fun c => find_label_issues_ranked srt (binary_labels labels K c) (binary_probs pp c) 2 flt (class_options o c)
                   rank_by adjust) (seq 0 K).

(** [per_class_issues.sum(axis=1) >= 1] (cleanlab/filter.py:519). *)
Definition any_class (n : nat) (cols : list (list bool)) : list bool :=
  tab n (fun e => existsb (fun m => nth e m false) cols).

(** the options of the inner call at cleanlab/filter.py:474-482. *)
Definition default_options (cj : option (list (list (list Q)))) (sched : nat -> list nat * list nat) (n : nat) : ml_options :=
  {| ml_frac_noise := 1; ml_num_to_remove := None; ml_min_examples := 1; ml_confident_joint := cj;
     ml_n_jobs := n; ml_sched := sched |}.

(** cleanlab/filter.py:473-493: the [low_*] filters. *)
Definition ml_low_indices (srt : list Q -> list nat) (labels : list (list nat)) (pp : list (list Q)) (K : nat)
           (o : ml_options) : res (list nat) :=
  do _ <- assert_valid_multilabel labels pp K ;
  do cols <- issues_per_class srt labels pp K ConfidentLearning (default_options (ml_confident_joint o) (ml_sched o) (ml_n_jobs o)) None ;
  do scores <- onehot_scores srt (int2onehot labels K) pp K SelfConfidence false (Some (4 # 5)) ;
  Ok (firstn (count_true (any_class (length labels) cols)) (srt scores)).

(** cleanlab/filter.py:453-536 [_find_label_issues_multilabel], mask and ranked output. *)
Definition ml_find_label_issues (srt : list Q -> list nat) (labels : list (list nat)) (pp : list (list Q)) (K : nat)
           (flt : filter_method) (o : ml_options) (low_memory : option (nat -> nat -> jobs)) : res (list bool) :=
  if (is_low flt && match low_memory with None => true | Some _ => false end)%bool
  then do idx <- ml_low_indices srt labels pp K o ; Ok (mask_of (length labels) idx)
  else do cols <- issues_per_class srt labels pp K flt o low_memory ; Ok (any_class (length labels) cols).
Definition ml_find_label_issues_ranked (srt : list Q -> list nat) (labels : list (list nat)) (pp : list (list Q)) (K : nat)
           (flt : filter_method) (o : ml_options) (rank_by : score_method) (adjust : bool) : res (list nat) :=
  let y := int2onehot labels K in
  if is_low flt
  then
    do idx <- ml_low_indices srt labels pp K o ;
    let mask := mask_of (length labels) idx in
    do s <- onehot_scores srt (select mask y) (select mask pp) K rank_by adjust (Some (4 # 5)) ;
    Ok (take_idx 0%nat idx (srt s))
  else
    do lists <- ranked_issues_per_class srt labels pp K flt o rank_by adjust ;
    match lists with
    | [] => Raise TypeError                                      (* reduce of an empty sequence *)
    | _ =>
      let idx := unique (concat lists) in
      do s <- onehot_scores srt y pp K rank_by adjust (Some (4 # 5)) ;
      Ok (match concat lists with [] => [] | _ => take_idx 0%nat idx (srt (take_idx 0 s idx)) end)
    end.

(** cleanlab/count.py:625-712 [_compute_confident_joint_multi_label] with calibration and default thresholds. *)
Definition ml_confident_joint_counts (srt : list Q -> list nat) (labels : list (list nat)) (pp : list (list Q)) (K : nat)
  : res (list (list (list Z))) :=
  rmap (fun c => rbind (compute_confident_joint srt (binary_labels labels K c) (binary_probs pp c) 2 None true)
                       (fun r => Ok (fst r))) (seq 0 K).

(** multilabel_classification/dataset.py:18-97 [common_multilabel_issues]: rows (class, in given label, number of
    examples, issue probability) in decreasing order of probability. *)
Definition issue_row := (nat * bool * nat * Q)%type.
Definition common_multilabel_issues (srt : list Q -> list nat) (labels : list (list nat)) (pp : list (list Q)) (K : nat)
           (o : ml_options) : res (list issue_row) :=
  do lists <- ranked_issues_per_class srt labels pp K PruneByNoiseRate o SelfConfidence false ;
  let n := length labels in
  let rows := concat (map (fun ci =>
      let '(c, idx) := ci in
      let mask := mask_of n idx in
      let cnt := fun v => count_true (map (fun lb => (Nat.eqb (fst lb) v && snd lb)%bool)
                                          (combine (binary_labels labels K c) mask)) in
      [(c, true, cnt 1%nat, Qnat (cnt 1%nat) / Qnat n); (c, false, cnt 0%nat, Qnat (cnt 0%nat) / Qnat n)])
    (combine (seq 0 K) lists)) in
  Ok (take_idx (0%nat, true, 0%nat, 0) rows (srt (map (fun r => - snd r) rows))).

(** multilabel_classification/dataset.py:218-243 [overall_multilabel_health_score]. *)
Definition overall_multilabel_health_score (srt : list Q -> list nat) (labels : list (list nat)) (pp : list (list Q))
           (K : nat) (o : ml_options) : res Q :=
  do m <- ml_find_label_issues srt labels pp K PruneByNoiseRate o None ;
  Ok (1 - Qnat (count_true m) / Qnat (length labels)).

(** multilabel_classification/dataset.py:100-186 [rank_classes_by_multilabel_quality]: rows (class, label issues,
    inverse label issues, label noise, inverse label noise, label quality score) by increasing quality.
    [int(probability * num_examples)] is exact here. *)
Record quality_row := { q_class : nat; q_issues : Z; q_inverse : Z; q_noise : Q; q_inv_noise : Q; q_score : Q }.
Definition find_row (c : nat) (b : bool) (rows : list issue_row) : option issue_row :=
  find (fun r => let '(c', b', _, _) := r in (Nat.eqb c' c && Bool.eqb b' b)%bool) rows.
Definition rank_classes_by_multilabel_quality (srt : list Q -> list nat) (labels : list (list nat)) (pp : list (list Q))
           (K : nat) (o : ml_options) : res (list quality_row) :=
  do rows <- common_multilabel_issues srt labels pp K o ;
  let n := Qnat (length labels) in
  let prob := fun c b => match find_row c b rows with Some r => snd r | None => 0 end in
  let table := map (fun c =>
      {| q_class := c; q_issues := truncate (prob c true * n); q_inverse := truncate (prob c false * n);
         q_noise := prob c true; q_inv_noise := prob c false; q_score := 1 - prob c true |})
    (nodup Nat.eq_dec (map (fun r : issue_row => fst (fst (fst r))) rows)) in
  Ok (take_idx {| q_class := 0; q_issues := 0; q_inverse := 0; q_noise := 0; q_inv_noise := 0; q_score := 0 |}
        table (srt (map q_score table))).
