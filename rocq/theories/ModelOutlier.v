(** * Model of cleanlab/outlier.py and cleanlab/internal/outlier.py *)
From Coq Require Import QArith Qreals Reals List Bool Arith.
From Verif Require Import Base ModelUtil ModelCount ModelRank ModelEntropy.
Import ListNotations.
Open Scope R_scope.

(** ** Distances to scores (internal/outlier.py) *)
Definition eps_const : R := / 1000000.
(** internal/outlier.py:11-57 [transform_distances_to_scores] *)
Definition transform_distances_to_scores (avg_distances : list R) (t scaling_factor : R) : list R :=
  map (fun d => exp (- t * d / Rmax scaling_factor eps_const)) avg_distances.

(** internal/outlier.py:60-112 [correct_precision_errors] with C = 100: the tolerance of each metric
    (double precision: eps = 2^-52, epsneg = 2^-53; minkowski: (100 eps)^(1/p)) *)
Inductive metric := Cosine | Euclidean | Minkowski (p : option R) | OtherMetric.
Definition float_eps : R := / 2 ^ 52.
Definition tolerance (m : metric) : res (option R) :=
  match m with
  | Cosine => Ok (Some (100 * / 2 ^ 53))
  | Euclidean => Ok (Some (sqrt (100 * float_eps)))
  | Minkowski None => Raise ValueError
  | Minkowski (Some p) => Ok (Some (Rpower (100 * float_eps) (1 / p)))
  | OtherMetric => Ok None
  end.
Definition correct_precision_errors (scores avg_distances : list R) (m : metric) : res (list R) :=
  do tol <- tolerance m ;
  Ok (match tol with
      | None => scores
      | Some tl => map (fun sd => if Rlt_dec (snd sd) tl then 1 else fst sd) (combine scores avg_distances)
      end).

(** ** Scores from predicted probabilities (outlier.py:555-577, one row) *)
Inductive ood_method := Entropy | LeastConfidence | Gen | InvalidMethod.
(** numpy x ** gamma for x >= 0, gamma > 0 *)
Definition rpow (x gamma : R) : R := if Req_EM_T x 0 then 0 else Rpower x gamma.
(** internal/numerics.py:7-39 [softmax] of one row with temperature 1 *)
Definition softmax (row : list R) : list R := map (fun x => exp x / rsum (map exp row)) row.
(** the last M entries of the sorted row; [sort] is np.sort *)
Definition last_n (M : nat) (l : list R) : list R := skipn (length l - M) l.
Definition rmaximum (row : list R) : R := match row with [] => 0 | x :: t => fold_left Rmax t x end.
Definition out_of_unit (x : R) : bool := if Rlt_dec x 0 then true else if Rlt_dec 1 x then true else false.
(** the entropy raises on entries outside [0, 1] (label_quality_utils.py:106-107) *)
Definition ood_row_score (sort : list R -> list R) (method : ood_method) (M : nat) (gamma : R) (row : list R) : res R :=
  match method with
  | Entropy => if existsb out_of_unit row then Raise ValueError else Ok (1 - normalized_entropy row)
  | LeastConfidence => Ok (rmaximum row)
  | Gen => if Nat.eqb M 0 then Raise ZeroDivision
           else Ok (1 - rsum (map (fun p => rpow p gamma * rpow (1 - p) gamma) (last_n M (sort (softmax row)))) / INR M)
  | InvalidMethod => Raise ValueError
  end.

(** ** The estimator *)
(** everything that is not cleanlab code: nearest-neighbour search and sorting of reals.
    [features_to_knn f k] builds and fits the default index (its number of neighbours and metric);
    [kneighbors train query n] are the distances from each query point (each training point, excluding itself,
    if no query is given) to its [n] nearest training points; [same_dim] says whether query and training data
    have the same number of columns; [correct] is the exact-duplicate correction of the distances
    (modelled in ModelKnn). *)
Record backend (F : Type) := {
  two_dim : F -> bool;
  same_dim : F -> F -> bool;
  features_to_knn : F -> option nat -> res (nat * metric);
  kneighbors : F -> option F -> nat -> list (list R);
  correct : F -> list (list R) -> list (list R);
  median : list R -> R;
  rsort : list R -> list R }.
Arguments two_dim {F}. Arguments same_dim {F}. Arguments features_to_knn {F}. Arguments kneighbors {F}.
Arguments correct {F}. Arguments median {F}. Arguments rsort {F}.

Section Estimator.
Context {F : Type} (B : backend F).

(** a NearestNeighbors object *)
Record knn_object := { fitted_on : option F; n_neighbors : nat; knn_metric : metric }.
(** self.params *)
Record ood := {
  p_knn : option knn_object; p_k : option nat; p_t : R;
  p_method : ood_method; p_adjust : bool; p_thresholds : option (list Q); p_M : nat; p_gamma : R;
  p_scaling : option R }.
Definition set_knn (o : ood) (k : option knn_object) (s : option R) : ood :=
  {| p_knn := k; p_k := p_k o; p_t := p_t o; p_method := p_method o; p_adjust := p_adjust o;
     p_thresholds := p_thresholds o; p_M := p_M o; p_gamma := p_gamma o; p_scaling := s |}.
Definition set_thresholds (o : ood) (t : option (list Q)) : ood :=
  {| p_knn := p_knn o; p_k := p_k o; p_t := p_t o; p_method := p_method o; p_adjust := p_adjust o;
     p_thresholds := t; p_M := p_M o; p_gamma := p_gamma o; p_scaling := p_scaling o |}.

Definition rmean (l : list R) : R := rsum l / INR (length l).
Definition avg_distances (k : nat) (d : list (list R)) : list R := map (fun row => rmean (firstn k row)) d.

(** outlier.py:455-479: from distances to scores; the scaling factor is computed on first use *)
Definition finish (o : ood) (m : metric) (k : nat) (d : list (list R)) : res (R * list R) :=
  let avg := avg_distances k d in
  let s := match p_scaling o with Some s => s | None => Rmax (median B avg) (100 * float_eps) end in
  do sc <- correct_precision_errors (transform_distances_to_scores avg (p_t o) s) avg m ;
  Ok (s, sc).

(** outlier.py:371-479 [_get_ood_features_scores]: new state and scores.  An index given by the user that is
    not fitted is fitted (in place) on the given features. *)
Definition features_scores (o : ood) (f : F) : res (ood * list R) :=
  match p_knn o with
  | None =>
      do nm <- features_to_knn B f (p_k o) ;
      let kn := {| fitted_on := Some f; n_neighbors := fst nm; knn_metric := snd nm |} in
      do r <- finish o (snd nm) (fst nm) (correct B f (kneighbors B f None (fst nm))) ;
      Ok (set_knn o (Some kn) (Some (fst r)), snd r)
  | Some kn =>
      let k := match p_k o with None => n_neighbors kn | Some k => Nat.min k (n_neighbors kn) end in
      let train := match fitted_on kn with None => f | Some t => t end in
      if negb (same_dim B train f) then Raise ValueError
      else
      let kn' := {| fitted_on := Some train; n_neighbors := n_neighbors kn; knn_metric := knn_metric kn |} in
      do r <- finish o (knn_metric kn) k (kneighbors B train (Some f) (n_neighbors kn)) ;
      Ok (set_knn o (Some kn') (Some (fst r)), snd r)
  end.

(** outlier.py:482-582 [_get_ood_predictions_scores]: thresholds used (if any) and scores.  [K] is the number
    of columns of [pp]. *)
Definition pred_probs_scores (o : ood) (pp : list (list Q)) (K : nat) (labels : option (list nat))
  : res (option (list Q) * list R) :=
  do thr <- (if p_adjust o then
               match p_thresholds o with
               | Some t => Ok (Some t)
               | None => match labels with
                         | None => Raise ValueError
                         | Some ls => do _ <- assert_valid_inputs ls pp K false ;
                                      Ok (Some (get_confident_thresholds ls pp K))
                         end
               end
             else Ok (p_thresholds o)) ;
  do rows <- (if p_adjust o then
                match thr with
                | Some t => if Nat.eqb (length t) K then Ok (subtract_confident_thresholds [] pp K (Some t)) else Raise ValueError
                | None => Raise OtherError
                end
              else Ok pp) ;
  do sc <- rmap (fun row => ood_row_score (rsort B) (p_method o) (p_M o) (p_gamma o) (map Q2R row)) rows ;
  Ok (thr, sc).

(** the data of a call: outlier.py:293-310 [_assert_valid_inputs] *)
Record input := { in_features : option F; in_pred_probs : option (list (list Q) * nat); in_labels : option (list nat) }.
Inductive data := Features (f : F) | PredProbs (pp : list (list Q)) (K : nat).
Definition valid_input (i : input) : res data :=
  match in_features i, in_pred_probs i with
  | None, None => Raise ValueError
  | Some _, Some _ => Raise ValueError
  | Some f, None => if two_dim B f then Ok (Features f) else Raise ValueError
  | None, Some (pp, K) => Ok (PredProbs pp K)
  end.

(** A call returns the new state and its outcome (a failing call may leave a changed state). *)
Definition lift (o : ood) (r : res (ood * option (list R))) : ood * res (option (list R)) :=
  match r with Ok (o', s) => (o', Ok s) | Raise e => (o, Raise e) end.

(** outlier.py:312-369 [_shared_fit]; None: fitting was skipped *)
Definition shared_fit (o : ood) (i : input) : ood * res (option (list R)) :=
  match valid_input i with
  | Raise e => (o, Raise e)
  | Ok (Features f) =>
      match p_knn o with
      | Some _ => (o, Ok None)
      | None => lift o (do r <- features_scores o f ; Ok (fst r, Some (snd r)))
      end
  | Ok (PredProbs pp K) =>
      match p_thresholds o with
      | Some _ => (o, Ok None)
      | None => lift o (do r <- pred_probs_scores o pp K (in_labels i) ;
                        Ok (match fst r with None => o | Some t => set_thresholds o (Some t) end, Some (snd r)))
      end
  end.
(** outlier.py:224-277 [score] (takes no labels) *)
Definition score (o : ood) (i : input) : ood * res (option (list R)) :=
  match valid_input i with
  | Raise e => (o, Raise e)
  | Ok (Features f) =>
      match p_knn o with
      | None => (o, Raise ValueError)
      | Some _ => lift o (do r <- features_scores o f ; Ok (fst r, Some (snd r)))
      end
  | Ok (PredProbs pp K) =>
      match p_thresholds o, p_adjust o with
      | None, true => (o, Raise ValueError)
      | _, _ => lift o (do r <- pred_probs_scores o pp K None ; Ok (o, Some (snd r)))
      end
  end.
(** outlier.py:174-222 [fit] and 119-172 [fit_score] *)
Definition fit (o : ood) (i : input) : ood * res (option (list R)) :=
  let r := shared_fit o i in
  (fst r, match snd r with Ok _ => Ok None | Raise e => Raise e end).
Definition fit_score (o : ood) (i : input) : ood * res (option (list R)) :=
  let r := shared_fit o i in
  match snd r with
  | Ok None => score (fst r) i
  | _ => r
  end.

Inductive call := Fit (i : input) | Score (i : input) | FitScore (i : input).
Definition run_call (o : ood) (c : call) : ood * res (option (list R)) :=
  match c with Fit i => fit o i | Score i => score o i | FitScore i => fit_score o i end.
(** state after a history of calls (exceptions are caught by the caller) *)
Definition run (h : list call) (o : ood) : ood := fold_left (fun st c => fst (run_call st c)) h o.
End Estimator.
Arguments ood : clear implicits.
Arguments knn_object : clear implicits.
Arguments input : clear implicits.
Arguments call : clear implicits.
