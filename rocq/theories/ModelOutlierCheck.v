(** * Model of cleanlab/datalab/internal/issue_manager/outlier.py *)
From Coq Require Import QArith Qround Qreals Reals List Bool Arith.
From Verif Require Import Base ModelKnn ModelOutlier.
Import ListNotations.
Open Scope Q_scope.

(** np.percentile (linear interpolation) of a non-empty array, [p] between 0 and 1 *)
Definition percentile (srt : list Q -> list nat) (l : list Q) (p : Q) : Q :=
  let s := take_idx 0 l (srt l) in
  let pos := p * Qnat (length l - 1) in
  let lo := Z.to_nat (Qfloor pos) in
  nth lo s 0 + (pos - Qnat lo) * (nth (Nat.min (lo + 1) (length l - 1)) s 0 - nth lo s 0).
(** scipy.stats.iqr *)
Definition iqr (srt : list Q -> list nat) (l : list Q) : Q := percentile srt l (3 # 4) - percentile srt l (1 # 4).

(** float arithmetic reaches inf and nan only for threshold 0 *)
Inductive xfloat := Fin (q : Q) | PosInf | NaN.
Definition above (x : Q) (t : xfloat) : bool := match t with Fin q => Qltb q x | _ => false end.

(** outlier.py:38-41 *)
Definition default_features : Q := 37037 # 100000.
Definition default_pred_probs : Q := 13 # 100.

(** outlier.py:202-206 [compute_issue_threshold]; inf * 0 is nan *)
Definition compute_issue_threshold (srt : list Q -> list nat) (avg : list Q) (threshold : Q) : xfloat :=
  let q3 := percentile srt avg (3 # 4) in
  if Qeq_bool threshold 0 then (if Qeq_bool (iqr srt avg) 0 then NaN else PosInf)
  else Fin (q3 + (1 / threshold - 1) * iqr srt avg).
(** outlier.py:190-209: threshold, issue threshold and issue column.  Percentiles of an empty array raise. *)
Definition threshold_and_issue_column (srt : list Q -> list nat) (distances : list (list Q)) (threshold : option Q)
  : res (Q * xfloat * list bool) :=
  let avg := map qmean distances in
  do _ <- (match threshold with
           | Some t => if Qeq_bool t 0 then Ok tt else if Qleb 0 t && Qleb t 1 then Ok tt else Raise ValueError
           | None => Ok tt
           end) ;
  match distances with
  | [] => Raise IndexError
  | _ => let t := match threshold with None => default_features | Some t => t end in
         let it := compute_issue_threshold srt avg t in
         Ok (t, it, map (fun x => above x it) avg)
  end.

(** outlier.py:119-146: the kNN branch on the distances of the (given or built) graph: issue column and scores.
    [metric]: the metric of the graph, if known; "minkowski" is never accompanied by its parameter. *)
Definition knn_issues (srt : list Q -> list nat) (t : R) (mt : option metric) (scaling : option R)
  (threshold : option Q) (distances : list (list Q)) : res (list bool * list R) :=
  do c <- threshold_and_issue_column srt distances threshold ;
  let avg := map qmean distances in
  let ravg := map Q2R avg in
  let sc := match scaling with Some s => s | None => Rmax (Q2R (ModelKnn.median srt avg)) (100 * float_eps)%R end in
  let scores := transform_distances_to_scores ravg t sc in
  do scores <- (match mt with None => Ok scores | Some m => correct_precision_errors scores ravg m end) ;
  Ok (snd c, scores).

(** np.median of a real array *)
Definition rmedian (sort : list R -> list R) (l : list R) : R :=
  let s := sort l in
  let n := length l in
  if Nat.even n then ((nth (n / 2 - 1) s 0 + nth (n / 2) s 0) / 2)%R else nth (n / 2) s 0%R.
Definition below_R (t x : R) : bool := if Rlt_dec x t then true else false.
(** outlier.py:152-160: the branch for predicted probabilities, from the out-of-distribution scores *)
Definition pred_probs_issues (sort : list R -> list R) (threshold : option Q) (scores : list R) : res (list bool * list R) :=
  let t := match threshold with None => default_pred_probs | Some t => t end in
  if Qleb 0 t then Ok (map (below_R (Q2R t * rmedian sort scores)%R) scores, scores) else Raise ValueError.

(** outlier.py:97-171 [find_issues].  [graph]: the distances, if features or a sufficient graph are available;
    [ood]: the outcome of [_score_with_pred_probs] (290-301, OutOfDistribution.fit_score modelled in ModelOutlier),
    if predicted probabilities are given.  Summary score (181): the mean of the scores. *)
Definition find_issues srt sort t mt scaling threshold (graph : option (list (list Q))) (ood : option (res (list R)))
  : res (list bool * list R) :=
  match graph, ood with
  | Some d, _ => knn_issues srt t mt scaling threshold d
  | None, Some r => do s <- r ; pred_probs_issues sort threshold s
  | None, None => Raise ValueError
  end.
