(** * Model of temperature scaling (cleanlab/internal/multiannotator_utils.py:255-352, internal/numerics.py)

    Real numbers; the label counts of [ModelAgreement].  Rows of predicted probabilities are lists of reals. *)
From Coq Require Import Reals List Bool Arith.
From Verif Require Import Base ModelUtil ModelCount ModelRank ModelEntropy ModelOutlier ModelNoniid ModelMultiannotator ModelAgreement.
Import ListNotations.
Open Scope R_scope.

Definition small_const : R := / 10 ^ 30.

(** numerics.py:7-39 [softmax] of one row with a temperature; an entry [None] is -inf ([EPSILON] is [eps_const]) *)
Definition exp_entry (temp : R) (x : option R) : R :=
  match x with None => 0 | Some v => exp (v / Rmax temp eps_const) end.
Definition softmax_temp (temp : R) (row : list (option R)) : list R :=
  map (fun x => exp_entry temp x / rsum (map (exp_entry temp) row)) row.

(** lines 286-288: np.log where positive, -inf elsewhere *)
Definition log_entry (p : R) : option R := if Rlt_dec 0 p then Some (ln p) else None.

(** lines 337-352 [temp_scale_pred_probs], one row *)
Definition clip_normalise (row : list R) : list R :=
  let c := map (fun p => Rmax p small_const) row in map (fun p => p / rsum c) c.
Definition temp_scale_row (temp : R) (row : list R) : list R :=
  let s := softmax_temp temp (map (fun p => Some (ln p)) (clip_normalise row)) in
  map (fun p => p / rsum s) s.
Definition temp_scale_pred_probs (pred_probs : list (list R)) (temp : R) : list (list R) :=
  map (temp_scale_row temp) pred_probs.

(** lines 262-267: the label distribution of every example *)
Definition label_distributions (ty : label_type) (t : table) (K : nat) : res (list (list R)) :=
  rmap (fun r =>
    do c <- value_counts_as ty (given r) K ;
    Ok (map (fun n => INR n / INR (length (given r))) c)) t.
(** lines 269-274 [compute_soft_cross_entropy], one example *)
Definition soft_cross_entropy (K : nat) (dist row : list R) : R :=
  - rsum (map (fun dp => fst dp * ln (Rmax (snd dp) small_const)) (combine dist row)) / ln (INR K).
(** lines 290-293: the average at one temperature *)
Definition temp_cost (K : nat) (dists : list (list R)) (pred_probs : list (list R)) (temp : R) : R :=
  rmean (map (fun dr => soft_cross_entropy K (fst dr) (softmax_temp temp (map log_entry (snd dr)))) (combine dists pred_probs)).

(** lines 310-334 [_set_fine_search_range]; np.linspace with and without the end point *)
Definition linspace_open (a b : R) (n : nat) : list R := map (fun i => a + INR i * ((b - a) / INR n)) (seq 0 n).
Definition linspace_closed (a b : R) (n : nat) : list R := map (fun i => a + INR i * ((b - a) / INR n)) (seq 0 (S n)).
Definition fine_search_range (coarse : list R) (n i : nat) : list R :=
  (if Nat.eqb i 0 then [] else linspace_open (nth (i - 1) coarse 0) (nth i coarse 0) n) ++
  (if Nat.eqb i (length coarse - 1) then [] else linspace_closed (nth i coarse 0) (nth (i + 1) coarse 0) n).

(** lines 277-307 [find_best_temp_scaler]; argmin of an empty array raises *)
Definition find_best_temp_scaler (ty : label_type) (t : table) (K : nat) (pred_probs : list (list R)) (coarse : list R)
           (fine_search_size : nat) : res R :=
  do dists <- label_distributions ty t K ;
  match coarse with
  | [] => Raise ValueError
  | _ =>
    let cost := temp_cost K dists pred_probs in
    let i := rargmin (map cost coarse) in
    match fine_search_range coarse fine_search_size i with
    | [] => Raise ValueError
    | fine => Ok (nth (rargmin (map cost fine)) fine 0)
    end
  end.

(** the default argument of line 280 *)
Definition default_search : list R := [/ 10; / 5; / 2; 4 / 5; 1; 2; 3; 5; 8].
