(** * Model of cleanlab/object_detection/{rank,filter,summary}.py

    Boxes and probabilities are rationals.  [dist a b] is [_euc_dis] (rank.py:388-395,
    [exp(-norm(center a - center b) * EUC_FACTOR)]), an argument of every function using it; the theorems hold
    for every [dist] with values between 0 and 1.  The pooled image scores (softmin, exp, log) are reals. *)
From Coq Require Import QArith Qabs Qreals Reals List ZArith Bool Arith.
From Verif Require Import Base ModelUtil ModelOutlier ModelToken.
Import ListNotations.
Open Scope Q_scope.

(** [x1, y1, x2, y2] (rank.py:300-304) *)
Record box := mk_box { bx1 : Q; by1 : Q; bx2 : Q; by2 : Q }.
(** a predicted box [x1, y1, x2, y2, pred_prob]; the predictions of an image, one array per class *)
Notation detection := (box * Q)%type.
Notation image_pred := (list (list detection)).
(** [zip(label["labels"], label["bboxes"])] *)
Notation image_label := (list (nat * box)).

(** internal/constants.py *)
Definition ALPHA : Q := 9 # 10.
Definition LOW_PROBABILITY_THRESHOLD : Q := 1 # 2.
Definition HIGH_PROBABILITY_THRESHOLD : Q := 95 # 100.
Definition LABEL_OVERLAP_THRESHOLD : Q := 95 # 100.
Definition THRESHOLD_FACTOR : Q := 8 # 10.   (* OVERLOOKED_, BADLOC_ and SWAP_THRESHOLD_FACTOR *)
Definition AP_SCALE_FACTOR : Q := 1 # 4.
Definition TEMPERATURE : Q := 1 # 10.

(** rank.py:323-368 [_get_iou] *)
Definition iou (a b : box) : Q :=
  let x_left := qmax (bx1 a) (bx1 b) in
  let y_top := qmax (by1 a) (by1 b) in
  let x_right := qmin (bx2 a) (bx2 b) in
  let y_bottom := qmin (by2 a) (by2 b) in
  if Qltb x_right x_left || Qltb y_bottom y_top then 0
  else
    let inter := (x_right - x_left) * (y_bottom - y_top) in
    let area1 := (bx2 a - bx1 a) * (by2 a - by1 a) in
    let area2 := (bx2 b - bx1 b) * (by2 b - by1 b) in
    inter / clip_lo EPSILON (area1 + area2 - inter).

(** rank.py:313-320 [_get_overlap_matrix] *)
Definition overlap_matrix (l1 l2 : list box) : list (list Q) := map (fun a => map (iou a) l2) l1.

(** rank.py:263-274 [_separate_prediction_single_box]: (class, detection) pairs, class after class *)
Definition separate_prediction (p : image_pred) : list (nat * detection) :=
  flat_map (fun kd => map (fun d => (fst kd, d)) (snd kd)) (combine (seq 0 (length p)) p).

Section Similarity.
Variable dist : box -> box -> Q.

(** rank.py:417-419 and 458-460: the similarity of a given and a predicted box *)
Definition similarity (alpha : Q) (a b : box) : Q := iou a b * alpha + (1 - alpha) * (1 - (1 - dist a b)).
Definition similarity_matrix (alpha : Q) (labs : image_label) (preds : list (nat * detection)) : list (list Q) :=
  map (fun l => map (fun p => similarity alpha (snd l) (fst (snd p))) preds) labs.

(** rank.py:407-425 [_get_min_possible_similarity] *)
Definition min_image_similarity (alpha : Q) (labs : image_label) (preds : list (nat * detection)) : Q :=
  match filter (fun x => negb (Qeq_bool x 0)) (concat (similarity_matrix alpha labs preds)) with
  | [] => 1
  | l => qminimum l
  end.
Definition min_possible_similarity (alpha : Q) (labels : list image_label) (predictions : list image_pred) : Q :=
  fold_left qmin (map (fun lp => min_image_similarity alpha (fst lp) (separate_prediction (snd lp)))
                      (combine labels predictions)) 1.

(** rank.py:428-509: the auxiliary inputs of one image *)
Record aux := mk_aux {
  a_labs : image_label; a_preds : list (nat * detection);
  a_sim : list (list Q); a_iou : list (list Q); a_min : Q
}.
Definition aux_inputs (alpha : Q) (labels : list image_label) (predictions : list image_pred) : list aux :=
  let m := min_possible_similarity alpha labels predictions in
  map (fun lp => let preds := separate_prediction (snd lp) in
                 mk_aux (fst lp) preds (similarity_matrix alpha (fst lp) preds)
                        (overlap_matrix (map snd (fst lp)) (map (fun p => fst (snd p)) preds)) m)
      (combine labels predictions).
End Similarity.

Definition det_prob (p : nat * detection) : Q := snd (snd p).

(** rank.py:555-608 [_compute_overlooked_box_scores_for_image]; [None] is NaN *)
Definition overlooked_scores (hp : Q) (a : aux) : list (option Q) :=
  map (fun jp : nat * (nat * detection) =>
         let '(j, p) := jp in
         if Qltb (det_prob p) hp || existsb (fun x => Qltb 0 x) (col j (a_iou a)) then None
         else
           let k_similarity := select (map (fun l => Nat.eqb (fst l) (fst p)) (a_labs a)) (col j (a_sim a)) in
           match k_similarity with
           | [] => Some (a_min a * (1 - det_prob p))
           | _ => Some (nth (argmax k_similarity) k_similarity 0)
           end)
      (combine (seq 0 (length (a_preds a))) (a_preds a)).

(** rank.py:690-746 [_compute_badloc_box_scores_for_image] *)
Definition badloc_score (lp : Q) (a : aux) (i k : nat) : Q :=
  let same := map (fun p => Nat.eqb (fst p) k) (a_preds a) in
  let k_similarity := select same (nth i (a_sim a) []) in
  let k_pred := select same (map det_prob (a_preds a)) in
  let k_iou := select same (nth i (a_iou a) []) in
  match k_pred with
  | [] => 1
  | _ =>
    if Qleb (qmaximum k_pred) lp then 1
    else
      let combined := filter (fun j => Qltb lp (nth j k_pred 0) && Qltb 0 (nth j k_iou 0)) (seq 0 (length k_pred)) in
      match combined with
      | [] => 1
      | _ => qmaximum (take_idx 0 k_similarity combined)
      end
  end.
Definition badloc_scores (lp : Q) (a : aux) : list Q :=
  map (fun il => badloc_score lp a (fst il) (fst (snd il))) (combine (seq 0 (length (a_labs a))) (a_labs a)).

(** rank.py:371-385 [_has_overlap] for the box [i] *)
Definition has_overlap (labs : image_label) (i : nat) : bool :=
  let m := overlap_matrix (map snd labs) (map snd labs) in
  existsb (fun j => negb (Nat.eqb i j) && Qleb LABEL_OVERLAP_THRESHOLD (mget m i j)
                    && negb (Nat.eqb (nth i (map fst labs) 0%nat) (nth j (map fst labs) 0%nat)))
          (seq 0 (length labs)).

(** rank.py:825-889 [_compute_swap_box_scores_for_image] *)
Definition swap_score (hp : Q) (check : bool) (a : aux) (i k : nat) : Q :=
  let probs := map det_prob (a_preds a) in
  let not_k := filter (fun j => negb (Nat.eqb (nth j (map fst (a_preds a)) 0%nat) k)) (seq 0 (length (a_preds a))) in
  if check && has_overlap (a_labs a) i then a_min a
  else if forallb (fun j => Qleb (nth j probs 0) hp) not_k then 1
  else
    let sims := take_idx 0 (nth i (a_sim a) []) (filter (fun j => Qltb hp (nth j probs 0)) not_k) in
    qmax (a_min a) (1 - nth (argmax sims) sims 0).
Definition swap_scores (hp : Q) (check : bool) (a : aux) : list Q :=
  map (fun il => swap_score hp check a (fst il) (fst (snd il))) (combine (seq 0 (length (a_labs a))) (a_labs a)).

(** rank.py:611-687, 749-822, 892-973: the public functions, one array of box scores per image *)
Definition compute_overlooked_box_scores (dist : box -> box -> Q) (alpha hp : Q) (labels : list image_label)
           (predictions : list image_pred) : list (list (option Q)) :=
  map (overlooked_scores hp) (aux_inputs dist alpha labels predictions).
Definition compute_badloc_box_scores (dist : box -> box -> Q) (alpha lp : Q) (labels : list image_label)
           (predictions : list image_pred) : list (list Q) :=
  map (badloc_scores lp) (aux_inputs dist alpha labels predictions).
Definition compute_swap_box_scores (dist : box -> box -> Q) (alpha hp : Q) (check : bool) (labels : list image_label)
           (predictions : list image_pred) : list (list Q) :=
  map (swap_scores hp check) (aux_inputs dist alpha labels predictions).

(** ** Average precision, filter.py:245-405 *)

(** filter.py:342-351, one iteration of the loop: state = (is_covered, true_positives, false_positives) *)
Definition match_step (ious : list (list Q)) (thr : Q) (st : list bool * list bool * list bool) (i : nat)
  : list bool * list bool * list bool :=
  let '(covered, tp, fp) := st in
  let row := nth i ious [] in
  if Qleb thr (qmaximum row) then
    let m := argmax row in
    if nth m covered false then (covered, tp, upd fp i true)
    else (upd covered m true, upd tp i true, fp)
  else (covered, tp, upd fp i true).

(** filter.py:315-358 [_calculate_true_positives_false_positives]: (tp, fp, fn) *)
Definition tp_fp_fn (srt : list Q -> list nat) (preds : list detection) (labs : list box) (thr : Q)
  : list bool * list bool * list bool :=
  match labs with
  | [] => (map (fun _ => false) preds, map (fun _ => true) preds, [])
  | _ =>
    let ious := overlap_matrix (map fst preds) labs in
    let none {A} (l : list A) := map (fun _ => false) l in
    let '(covered, tp, fp) :=
      fold_left (match_step ious thr) (srt (map (fun d => - snd d) preds)) (none labs, none preds, none preds) in
    (tp, fp, map negb covered)
  end.

(** filter.py:301-312 [_filter_by_class] for one image *)
Definition class_labels (k : nat) (l : image_label) : list box :=
  map snd (filter (fun kb => Nat.eqb (fst kb) k) l).
Definition class_preds (k : nat) (p : image_pred) : list detection := nth k p [].

(** [np.cumsum] of an array of 0/1 *)
Fixpoint cumsum (acc : nat) (l : list bool) : list nat :=
  match l with
  | [] => []
  | b :: t => let acc' := if b then S acc else acc in acc' :: cumsum acc' t
  end.

(** filter.py:361-386 [_calculate_average_precision] (float32 rounding not modelled) *)
Fixpoint envelope (l : list Q) : list Q :=
  match l with
  | [] => []
  | x :: t => match envelope t with [] => [x] | y :: t' => qmax x y :: y :: t' end
  end.
Fixpoint area (recall precision : list Q) : Q :=
  match recall, precision with
  | r0 :: ((r1 :: _) as rs), _ :: ((p1 :: _) as ps) =>
      (if Qeq_bool r1 r0 then 0 else (r1 - r0) * p1) + area rs ps
  | _, _ => 0
  end.
Definition average_precision (recalls precisions : list Q) : Q :=
  area (0 :: recalls ++ [1]) (envelope (0 :: precisions ++ [0])).

(** np.finfo(np.float32).eps *)
Definition EPS32 : Q := 1 # 8388608.
(** filter.py:265-295: the average precision of one class at one threshold *)
Definition ap_class (srt : list Q -> list nat) (thr : Q) (labels : list image_label)
           (predictions : list image_pred) (k : nat) : Q :=
  let preds := map (class_preds k) predictions in
  let labs := map (class_labels k) labels in
  let res := map (fun pl => tp_fp_fn srt (fst pl) (snd pl) thr) (combine preds labs) in
  let num_gts := nsum (map (@length box) labs) in
  let order := srt (map (fun d => - snd d) (concat preds)) in
  let tps := cumsum 0 (take_idx false (concat (map (fun r => fst (fst r)) res)) order) in
  let fps := cumsum 0 (take_idx false (concat (map (fun r => snd (fst r)) res)) order) in
  let recalls := map (fun t => Qnat t / qmax (Qnat num_gts) EPS32) tps in
  let precisions := map (fun tf => Qnat (fst tf) / qmax (Qnat (fst tf + snd tf)) EPS32) (combine tps fps) in
  average_precision recalls precisions.

(** filter.py:396: np.linspace(0.5, 0.95, 10) *)
Definition iou_thresholds : list Q := map (fun i => (1 # 2) + Qnat i * (1 # 20)) (seq 0 10).
(** filter.py:389-405 [_get_per_class_ap], as a list indexed by the class *)
Definition per_class_ap (srt : list Q -> list nat) (labels : list image_label) (predictions : list image_pred)
  : res (list Q) :=
  match predictions with
  | [] => Raise IndexError
  | p0 :: _ =>
    if existsb (fun p : image_pred => Nat.ltb (length p) (length p0)) predictions then Raise IndexError
    else Ok (tab (length p0) (fun k =>
               qmean (map (fun thr => ap_class srt thr labels predictions k) iou_thresholds) * AP_SCALE_FACTOR))
  end.

(** ** Label issues, filter.py:111-242 *)

(** filter.py:226-242 [_process_class_list] for one image *)
Definition class_thresholds (ap : list Q) (classes : list nat) : res (list Q) :=
  rmap (fun k => match nth_error ap k with Some x => Ok x | None => Raise KeyError end) classes.
(** filter.py:183-223 [_find_label_issues_per_box] and [_pool_box_scores_per_image] for one image *)
Definition issues_per_box (scores : list (option Q)) (thresholds : list Q) : list bool :=
  match scores with
  | [] => [false]
  | _ => map (fun st => Qleb (match fst st with None => 1 | Some s => s end) (snd st * THRESHOLD_FACTOR))
             (combine scores thresholds)
  end.
Definition any_issue (l : list bool) : bool := Nat.ltb 0 (count_true l).

(** internal/object_detection_utils.py:48-89 [assert_valid_inputs] (type and shape checks omitted) *)
Definition assert_valid_detection (labels : list image_label) (predictions : list image_pred) : res unit :=
  if negb (Nat.eqb (length labels) (length predictions)) then Raise ValueError
  else match predictions with
       | [] => Raise IndexError
       | [] :: _ => Raise IndexError
       | _ => Ok tt
       end.

(** filter.py:100-163: the boolean mask *)
Definition find_label_issues_mask (dist : box -> box -> Q) (srt : list Q -> list nat)
           (labels : list image_label) (predictions : list image_pred) (check : bool) : res (list bool) :=
  do _ <- assert_valid_detection labels predictions ;
  do ap <- per_class_ap srt labels predictions ;
  rmap (fun a =>
          do pt <- class_thresholds ap (map fst (a_preds a)) ;
          do lt <- class_thresholds ap (map fst (a_labs a)) ;
          Ok (any_issue (issues_per_box (overlooked_scores HIGH_PROBABILITY_THRESHOLD a) pt)
              || any_issue (issues_per_box (map Some (badloc_scores LOW_PROBABILITY_THRESHOLD a)) lt)
              || any_issue (issues_per_box (map Some (swap_scores HIGH_PROBABILITY_THRESHOLD check a)) lt))%bool)
       (aux_inputs dist ALPHA labels predictions).

(** ** Counts over the thresholds, summary.py:465-650 *)

(** summary.py:465-498 for one class *)
Definition class_counts (srt : list Q -> list nat) (thr : Q) (labels : list image_label)
           (predictions : list image_pred) (k : nat) : nat * nat * nat :=
  let res := map (fun pl => tp_fp_fn srt (class_preds k (fst pl)) (class_labels k (snd pl)) thr)
                 (combine predictions labels) in
  (nsum (map (fun r => count_true (fst (fst r))) res), nsum (map (fun r => count_true (snd (fst r))) res),
   nsum (map (fun r => count_true (snd r)) res)).
(** summary.py:522-592 [get_average_per_class_confusion_matrix]: (TP, FP, FN) of every class, default names.
    Line 587 divides by the number of thresholds times the number of classes. *)
Definition average_confusion (srt : list Q -> list nat) (labels : list image_label) (predictions : list image_pred)
  : res (list (Q * Q * Q)) :=
  match predictions with
  | [] => Raise IndexError
  | p0 :: _ =>
    if existsb (fun p : image_pred => Nat.ltb (length p) (length p0)) predictions then Raise IndexError
    else
      let K := length p0 in
      let avg f := fun k => Qnat (nsum (map (fun thr => f (class_counts srt thr labels predictions k)) iou_thresholds))
                            / Qnat (length iou_thresholds * K) in
      Ok (tab K (fun k => (avg (fun c => fst (fst c)) k, avg (fun c => snd (fst c)) k, avg snd k)))
  end.
(** summary.py:595-650 [calculate_per_class_metrics]: (precision, recall, f1) *)
Definition class_metrics (c : Q * Q * Q) : Q * Q * Q :=
  let '(tp, fp, fn) := c in
  let precision := tp / (tp + fp + TINY_VALUE) in
  let recall := tp / (tp + fn + TINY_VALUE) in
  (precision, recall, 2 * (precision * recall) / (precision + recall + TINY_VALUE)).
Definition per_class_metrics (srt : list Q -> list nat) (labels : list image_label) (predictions : list image_pred)
  : res (list (Q * Q * Q)) :=
  do c <- average_confusion srt labels predictions ; Ok (map class_metrics c).

(** ** Image scores (reals) *)
Open Scope R_scope.

(** internal/object_detection_utils.py:25-29 [softmin1d] *)
Definition softmin1d (temperature : R) (scores : list R) : R :=
  rdot (softmax_t (Q2R EPSILON) temperature (map (fun s => -1 * s) scores)) scores.
(** rank.py:512-519 [_get_valid_score] (and 976-1014 [pool_box_scores_per_image]) *)
Definition valid_score (temperature : R) (scores : list (option Q)) : R :=
  match flat_map (fun o => match o with Some s => [Q2R s] | None => [] end) scores with
  | [] => 1
  | l => softmin1d temperature l
  end.

(** aggregation_weights: overlooked, badloc, swap *)
Record agg_weights := mk_weights { w_overlooked : Q; w_badloc : Q; w_swap : Q }.
Definition default_weights : agg_weights := mk_weights (1 # 3) (1 # 3) (1 # 3).
(** internal/object_detection_utils.py:39-46; np.isclose has rtol 1e-5 and atol 1e-8 *)
Definition valid_weights (w : agg_weights) : bool :=
  (Qle_bool (Qabs (w_overlooked w + w_badloc w + w_swap w - 1)) ((1 # 100000000) + (1 # 100000)) &&
   Qle_bool 0 (w_overlooked w) && Qle_bool 0 (w_badloc w) && Qle_bool 0 (w_swap w))%bool.

(** rank.py:1076-1110 for one image *)
Definition image_score (w : agg_weights) (check : bool) (a : aux) : R :=
  let s f := ln (Q2R TINY_VALUE + valid_score (Q2R TEMPERATURE) f) in
  exp (Q2R (w_overlooked w) * s (overlooked_scores HIGH_PROBABILITY_THRESHOLD a)
       + Q2R (w_badloc w) * s (map Some (badloc_scores LOW_PROBABILITY_THRESHOLD a))
       + Q2R (w_swap w) * s (map Some (swap_scores HIGH_PROBABILITY_THRESHOLD check a))).

(** rank.py:217-245 [_prune_by_threshold] with the threshold 0.0 *)
Definition prune_by_threshold (thr : Q) (predictions : list image_pred) : list image_pred :=
  map (map (filter (fun d => Qleb thr (snd d)))) predictions.

(** rank.py:50-201 [get_label_quality_scores] *)
Definition detection_scores (dist : box -> box -> Q) (labels : list image_label) (predictions : list image_pred)
           (w : agg_weights) (check : bool) : res (list R) :=
  do _ <- assert_valid_detection labels predictions ;
  if negb (valid_weights w) then Raise ValueError
  else Ok (map (image_score w check) (aux_inputs dist ALPHA labels (prune_by_threshold 0 predictions))).

(** rank.py:126-156 [issues_from_scores]; [srt] is argsort *)
Definition detection_issues_from_scores (srt : list R -> list nat) (scores : list R) (threshold : R)
  : res (list nat) :=
  if Rlt_dec 1 threshold then Raise ValueError
  else
    let idx := filter (fun i => if Rle_dec (nth i scores 0) threshold then true else false) (seq 0 (length scores)) in
    Ok (take_idx 0%nat idx (srt (take_idx 0 scores idx))).

(** filter.py:172-178: return_indices_ranked_by_score=True; the scores are computed with the default
    overlapping_label_check *)
Definition find_label_issues_ranked (dist : box -> box -> Q) (srt : list Q -> list nat) (srtR : list R -> list nat)
           (labels : list image_label) (predictions : list image_pred) (check : bool) : res (list nat) :=
  do mask <- find_label_issues_mask dist srt labels predictions check ;
  do scores <- detection_scores dist labels predictions default_weights true ;
  do sorted <- detection_issues_from_scores srtR scores 1 ;
  Ok (filter (fun i => mem i (where_ mask)) sorted).
