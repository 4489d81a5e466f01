(** * Model of weight_ensemble_members_by="log_loss_search" (cleanlab/rank.py:245-291, 337-348) *)
From Coq Require Import QArith Reals Qreals List Bool Arith.
From Verif Require Import Base ModelUtil ModelCount ModelRank ModelEntropy ModelOutlier ModelBatched.
Import ListNotations.
Open Scope R_scope.

(** sklearn.metrics.log_loss: the classes are those of [labels]; a different number of columns, or a single class, raises.
    The probabilities are clipped to [eps, 1 - eps] ([eps] is machine precision). *)
Definition sk_log_loss (eps : R) (labels : list nat) (rows : list (list R)) (K : nat) : res R :=
  if (negb (Nat.eqb (length (unique labels)) K) || Nat.leb (length (unique labels)) 1)%bool then Raise ValueError
  else Ok (rmean (map (fun lr => - ln (Rmax eps (Rmin (1 - eps) (nth (fst lr) (snd lr) 0)))) (combine labels rows))).

(** rank.py:257-260 *)
Definition clip_rows (pp : list (list Q)) : list (list R) :=
  map (fun row => let c := map (fun p => Rmax (Q2R p) (/ 1000000)) row in map (fun p => p / rsum c) c) pp.
(** rank.py:253-268: the weights for one [t] *)
Definition weights_for (eps : R) (labels : list nat) (pps : list (list (list Q))) (K : nat) (t : R) : res (list R) :=
  do losses <- rmap (fun pp => sk_log_loss eps labels (clip_rows pp) K) pps ;
  let e := map (fun l => exp (- t * l)) losses in
  Ok (map (fun x => x / rsum e) e).
(** rank.py:271-273: weighted average of the predicted probabilities (one row per label, [K] columns) *)
Definition average_probs (w : list R) (pps : list (list (list Q))) (n K : nat) : list (list R) :=
  map (fun e => map (fun k => rsum (map (fun wp => fst wp * Q2R (nth k (nth e (snd wp) []) 0%Q)) (combine w pps))) (seq 0 K)) (seq 0 n).

(** rank.py:246-283: search; the state is the best loss so far with its weights ([None]: inf) *)
Definition search_step (eps : R) (labels : list nat) (pps : list (list (list Q))) (K : nat) (best : option (R * list R)) (t : R)
  : res (option (R * list R)) :=
  do w <- weights_for eps labels pps K t ;
  do l <- sk_log_loss eps labels (average_probs w pps (length labels) K) K ;
  Ok (match best with
      | Some (b, w0) => if Rlt_dec l b then Some (l, w) else best
      | None => Some (l, w)
      end).
Definition log_loss_search (eps : R) (labels : list nat) (pps : list (list (list Q))) (K : nat) (ts : list R) : res (option (R * list R)) :=
  rfold (search_step eps labels pps K) ts None.

(** rank.py:158-366 [get_label_quality_ensemble_scores] with this weighting *)
Definition ensemble_scores_log_loss (eps : R) (labels : list nat) (pps : list (list (list Q))) (K : nat)
           (method : score_method) (adjust : bool) (ts : list R) : res (list R) :=
  match pps with
  | [] => Raise AssertionError
  | _ =>
    do _ <- rmap (fun pp => assert_valid_inputs labels pp K false) pps ;
    do best <- log_loss_search eps labels pps K ts ;
    do scores_list <- rmap (fun pp => get_label_quality_scores labels pp K method adjust) pps ;
    match best with
    | None => Raise AssertionError
    | Some (_, weights) =>
        Ok (map (fun e => rsum (map (fun sw => Q2R (fst sw) * snd sw) (combine (map (fun s => nth e s 0%Q) scores_list) weights)))
                (seq 0 (length labels)))
    end
  end.
