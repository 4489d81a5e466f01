(** * Model of cleanlab/rank.py and cleanlab/internal/label_quality_utils.py (rational part) *)
From Coq Require Import QArith Qabs Qround List ZArith Bool Arith.
From Verif Require Import Base ModelUtil ModelCount.
Import ListNotations.
Open Scope Q_scope.

(** cleanlab/rank.py:464-496 [get_self_confidence_for_each_label]. *)
Definition get_self_confidence (labels : list nat) (pred_probs : list (list Q)) : list Q :=
  map (fun lr => nth (fst lr) (snd lr) 0) (combine labels pred_probs).

(** one row of [np.delete(pred_probs, del_indices).reshape(N, K - 1)]: exactly one element, the one of
    the given label, is deleted from every row, so the rows of the result are the rows without it. *)
Definition delete_at {A} (i : nat) (l : list A) : list A := firstn i l ++ skipn (S i) l.

(** cleanlab/rank.py:499-542 [get_normalized_margin_for_each_label].  With [K = 1] numpy raises (max
    over an empty axis); see [get_label_quality_scores]. *)
Definition get_normalized_margin (labels : list nat) (pred_probs : list (list Q)) : list Q :=
  let self_confidence := get_self_confidence labels pred_probs in
  let max_prob_not_label :=
    map (fun lr => qmaximum (delete_at (fst lr) (snd lr))) (combine labels pred_probs) in
  map (fun sm => (fst sm - snd sm + 1) / 2) (combine self_confidence max_prob_not_label).

(** cleanlab/internal/label_quality_utils.py:11-65 [_subtract_confident_thresholds] with the
    thresholds computed from the labels (None) or supplied. *)
Definition subtract_confident_thresholds (labels : list nat) (pred_probs : list (list Q)) (K : nat)
           (thresholds : option (list Q)) : list (list Q) :=
  let thr := match thresholds with
             | None => get_confident_thresholds labels pred_probs K
             | Some t => t
             end in
  map (fun row =>
         let adj := map (fun xt => fst xt - snd xt + qmaximum thr) (combine row thr) in
         map (fun x => x / qsum adj) adj) pred_probs.

Inductive score_method := SelfConfidence | NormalizedMargin.

(** cleanlab/rank.py:33-155 [get_label_quality_scores] for the two rational-valued methods
    (confidence_weighted_entropy is in ModelEntropy). *)
Definition compute_label_quality_scores (labels : list nat) (pred_probs : list (list Q)) (K : nat)
           (method : score_method) (adjust : bool) : res (list Q) :=
  let pp := if adjust then subtract_confident_thresholds labels pred_probs K None else pred_probs in
  match method with
  | SelfConfidence => Ok (get_self_confidence labels pp)
  | NormalizedMargin => if Nat.leb K 1 then Raise ValueError else Ok (get_normalized_margin labels pp)
  end.
Definition get_label_quality_scores (labels : list nat) (pred_probs : list (list Q)) (K : nat)
           (method : score_method) (adjust : bool) : res (list Q) :=
  do _ <- assert_valid_inputs labels pred_probs K true ;
  compute_label_quality_scores labels pred_probs K method adjust.

(** cleanlab/rank.py:398-461 [order_label_issues]. *)
Definition set_is_zero (labels : list nat) : bool :=
  match unique labels with [0%nat] => true | _ => false end.
Definition order_label_issues (srt : list Q -> list nat) (mask : list bool) (labels : list nat)
           (pred_probs : list (list Q)) (K : nat) (method : score_method) (adjust : bool)
  : res (list nat) :=
  do _ <- assert_valid_inputs labels pred_probs K (set_is_zero labels) ;
  let label_issues_idx := select mask (seq 0 (length labels)) in
  do scores <- get_label_quality_scores labels pred_probs K method adjust ;
  let issue_scores := select mask scores in
  Ok (take_idx 0%nat label_issues_idx (srt issue_scores)).

(** cleanlab/rank.py:369-395 [find_top_issues]; [top = None] means all. *)
Definition find_top_issues (srt : list Q -> list nat) (scores : list Q) (top : option nat) : list nat :=
  let t := match top with
           | None => length scores
           | Some t => if Nat.ltb (length scores) t then length scores else t
           end in
  firstn t (srt scores).

(** cleanlab/rank.py:158-366 [get_label_quality_ensemble_scores] for the weighting schemes
    "uniform", "accuracy" and "custom" ("log_loss_search" needs exp/log and is in ModelLogLoss.v).
    Ensembles are lists of n x K matrices.  A zero total accuracy gives nan in numpy: [ZeroDivision]. *)
Inductive ensemble_weighting := Uniform | Accuracy | Custom (w : list Q).
Definition model_accuracy (labels : list nat) (pp : list (list Q)) : Q :=
  qmean (map (fun rl => if Nat.eqb (argmax (fst rl)) (snd rl) then 1 else 0) (combine pp labels)).
Definition get_label_quality_ensemble_scores (labels : list nat) (pps : list (list (list Q))) (K : nat)
           (method : score_method) (adjust : bool) (weighting : ensemble_weighting) : res (list Q) :=
  match pps with
  | [] => Raise AssertionError
  | _ =>
    do _ <- rmap (fun pp => assert_valid_inputs labels pp K false) pps ;
    do scores_list <- rmap (fun pp => get_label_quality_scores labels pp K method adjust) pps ;
    let scores_ensemble := tab (length labels) (fun e => map (fun s => nth e s 0) scores_list) in
    match weighting with
    | Uniform => Ok (map qmean scores_ensemble)
    | Accuracy =>
        let accs := map (model_accuracy labels) pps in
        if Qeq_bool (qsum accs) 0 then Raise ZeroDivision
        else let weights := map (fun a => a / qsum accs) accs in
             Ok (map (fun row => qsum (map (fun sw => fst sw * snd sw) (combine row weights)))
                     scores_ensemble)
    | Custom w =>
        if negb (Nat.eqb (length w) (length pps)) then Raise AssertionError
        else Ok (map (fun row => qsum (map (fun sw => fst sw * snd sw) (combine row w)))
                     scores_ensemble)
    end
  end.
