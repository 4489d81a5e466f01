(** * Model of cleanlab/count.py (single-label part) *)
From Coq Require Import QArith Qabs Qround List ZArith Bool Arith.
From Verif Require Import Base ModelUtil.
Import ListNotations.
Open Scope Q_scope.

(** cleanlab/count.py:1407-1458 [get_confident_thresholds] (single-label).  [K] is
    [pred_probs.shape[1]]; [labels == k] selects the rows given label [k]; BIG_VALUE = 2. *)
Definition get_confident_thresholds (labels : list nat) (pred_probs : list (list Q)) (K : nat)
  : list Q :=
  let unique_classes := unique labels in
  let t := tab K (fun k =>
             if mem k unique_classes
             then qmean (select (map (Nat.eqb k) labels) (col k pred_probs))
             else 2) in
  map (clip_lo CONFIDENT_THRESHOLDS_LOWER_BOUND) t.

(** cleanlab/count.py:211-218 [_reduce_issues]: True where the given label, bumped by 1e-6, is the
    argmax of the row. *)
Definition reduce_issues (pred_probs : list (list Q)) (labels : list nat) : list bool :=
  map (fun pl => let '(row, l) := pl in
                 Nat.eqb (argmax (upd row l (nth l row 0 + FLOATING_POINT_COMPARISON))) l)
      (combine pred_probs labels).

(** cleanlab/count.py:221-291 [calibrate_confident_joint] (multi_label=False). *)
Definition calibrate_confident_joint (srt : list Q -> list nat) (cj : list (list Q))
           (labels : list nat) : res (list (list Z)) :=
  do label_counts <- value_counts labels (length cj) ;
  let calibrated :=
    map (fun rc => let '(row, c) := rc in
           map (fun x => x / clip_lo TINY_VALUE (qsum row) * Qnat c) row)
        (combine cj label_counts) in
  let total := qsum (map qsum calibrated) in
  let calibrated2 :=
    map (map (fun x => x / clip_lo TINY_VALUE total * Qnat (nsum label_counts))) calibrated in
  round_preserving_row_totals srt calibrated2.

(** sklearn.metrics.confusion_matrix(y_true, y_pred, labels=range(K)).T as used at
    cleanlab/count.py:606-610: entry (i, j) counts pairs with y_pred = i and y_true = j. *)
Definition confusion_matrix_T (y_true y_pred : list nat) (K : nat) : list (list Z) :=
  tab K (fun i => tab K (fun j =>
    Z.of_nat (length (filter (fun tp => (Nat.eqb (snd tp) i && Nat.eqb (fst tp) j)%bool)
                             (combine y_true y_pred))))).

(** cleanlab/count.py:575-598: vectorised intermediate arrays of [compute_confident_joint]. *)
Definition pred_probs_bool (pred_probs : list (list Q)) (thresholds : list Q) : list (list bool) :=
  map (fun row => map (fun pt => Qleb (snd pt - (1 # 1000000)) (fst pt)) (combine row thresholds))
      pred_probs.
Definition true_label_guess (pred_probs : list (list Q)) (thresholds : list Q) : list nat :=
  let bools := pred_probs_bool pred_probs thresholds in
  let num_confident_bins := map count_true bools in
  let more_than_one_confident := map (fun n => Nat.ltb 1 n) num_confident_bins in
  let pred_probs_argmax := map argmax pred_probs in
  let confident_argmax := map argmax_bool bools in
  map (fun x => if (fst x : bool) then fst (snd x) else snd (snd x))
      (combine more_than_one_confident (combine pred_probs_argmax confident_argmax)).
Definition at_least_one_confident (pred_probs : list (list Q)) (thresholds : list Q) : list bool :=
  map (fun b => Nat.ltb 0 (count_true b)) (pred_probs_bool pred_probs thresholds).

(** cleanlab/count.py:445-622 [compute_confident_joint] up to line 612 (before calibration).
    The special case for no confident example (lines 603-604) gives the same zero matrix. *)
Definition confident_joint_uncalibrated (labels : list nat) (pred_probs : list (list Q)) (K : nat)
           (thresholds : list Q) : list (list Z) :=
  let alo := at_least_one_confident pred_probs thresholds in
  let guess := true_label_guess pred_probs thresholds in
  let true_labels_confident := select alo guess in
  let labels_confident := select alo labels in
  let cj := confusion_matrix_T true_labels_confident labels_confident K in
  tab K (fun i => tab K (fun j =>
    if Nat.eqb i j then Z.max 1 (zget cj i j) else zget cj i j)).

(** cleanlab/count.py:616-620: indices of examples counted off the diagonal. *)
Definition confident_off_diagonal_indices (labels : list nat) (pred_probs : list (list Q))
           (thresholds : list Q) : list nat :=
  let alo := at_least_one_confident pred_probs thresholds in
  let guess := true_label_guess pred_probs thresholds in
  let true_labels_confident := select alo guess in
  let labels_confident := select alo labels in
  let neq := map (fun tl => negb (Nat.eqb (fst tl) (snd tl)))
                 (combine true_labels_confident labels_confident) in
  select neq (select alo (seq 0 (length labels))).

(** cleanlab/count.py:445-622 [compute_confident_joint] (single-label) with
    [return_indices_of_off_diagonals=True] (both results are always returned here);
    [thresholds=None] computes the default thresholds (lines 568-571). *)
Definition compute_confident_joint (srt : list Q -> list nat) (labels : list nat)
           (pred_probs : list (list Q)) (K : nat) (thresholds : option (list Q)) (calibrate : bool)
  : res (list (list Z) * list nat) :=
  let thresholds := match thresholds with
                    | None => get_confident_thresholds labels pred_probs K
                    | Some t => t
                    end in
  let cj := confident_joint_uncalibrated labels pred_probs K thresholds in
  let idx := confident_off_diagonal_indices labels pred_probs thresholds in
  if calibrate
  then do cj' <- calibrate_confident_joint srt (zmat_to_q cj) labels ; Ok (cj', idx)
  else Ok (cj, idx).

(** cleanlab/count.py:329-399 [estimate_joint] (single-label): [confident_joint=None] or supplied. *)
Definition estimate_joint (srt : list Q -> list nat) (labels : list nat)
           (pred_probs : list (list Q)) (K : nat) (confident_joint : option (list (list Q)))
  : res (list (list Q)) :=
  do calibrated_cj <-
     (match confident_joint with
      | None => do r <- compute_confident_joint srt labels pred_probs K None true ; Ok (fst r)
      | Some cj => calibrate_confident_joint srt cj labels
      end) ;
  let m := zmat_to_q calibrated_cj in
  let total := qsum (map qsum m) in
  Ok (map (map (fun x => x / clip_lo TINY_VALUE total)) m).

(** [joint.trace()]. *)
Definition trace (m : list (list Q)) : Q := qsum (tab (length m) (fun i => mget m i i)).

(** cleanlab/count.py:50-173 [num_label_issues], estimation_method="off_diagonal". *)
Definition num_label_issues_off_diagonal (srt : list Q -> list nat) (labels : list nat)
           (pred_probs : list (list Q)) (K : nat) : res nat :=
  do r <- compute_confident_joint srt labels pred_probs K None false ;
  let label_issues_mask := mask_of (length labels) (snd r) in
  let mask := reduce_issues pred_probs labels in
  let label_issues_mask := map (fun x => if (snd x : bool) then false else fst x)
                               (combine label_issues_mask mask) in
  Ok (count_true label_issues_mask).

(** cleanlab/count.py:141-151 and 152-164: "off_diagonal_calibrated" (cj = None, recomputed) and
    "off_diagonal_custom" (cj supplied). *)
Definition num_label_issues_from_joint (srt : list Q -> list nat) (labels : list nat)
           (pred_probs : list (list Q)) (K : nat) (cj : option (list (list Q))) : res Z :=
  do cj' <- (match cj with
             | Some c => Ok c
             | None => do r <- compute_confident_joint srt labels pred_probs K None true ;
                       Ok (zmat_to_q (fst r))
             end) ;
  do joint <- estimate_joint srt labels pred_probs K (Some cj') ;
  Ok (round_half_even ((1 - trace joint) * Qnat (length labels))).
