(** * Model of cleanlab/regression/learn.py [CleanLearning]: search of the fraction of issues and flags *)
From Coq Require Import QArith Qabs Qround List ZArith Bool Arith.
From Verif Require Import Base ModelUtil ModelChecks ModelKnn ModelCV.
Import ListNotations.
Open Scope Q_scope.

(** sklearn.metrics.r2_score for one output (constant targets: 1 if all predictions are exact, else 0). *)
Definition r2_score (y p : list Q) : Q :=
  let num := qsum (map (fun ab => (fst ab - snd ab) * (fst ab - snd ab)) (combine y p)) in
  let m := qmean y in
  let den := qsum (map (fun a => (a - m) * (a - m)) y) in
  if Qeq_bool den 0 then (if Qeq_bool num 0 then 1 else 0) else 1 - num / den.

(** learn.py:770,817: the score given to a fraction that leaves too few examples. *)
Definition NEG : Q := - inject_Z (10 ^ 30).
(** learn.py:747-748, 767-769, 814-816. *)
Definition too_few (n cv_n_folds : nat) (k : Q) : bool :=
  Z.ltb (Qfloor (Qnat n * (1 - k))) (Z.of_nat cv_n_folds).

(** learn.py:764-778 and 811-825: the scores of a list of fractions; [eval c k] is the [c]-th
    cross-validation, r2 of the predictions with fraction [k]. *)
Definition grid_scores (eval : nat -> Q -> res Q) (n cv_n_folds base : nat) (ks : list Q) : res (list Q) :=
  rmap (fun ik => if too_few n cv_n_folds (snd ik) then Ok NEG else eval (base + fst ik)%nat (snd ik))
       (combine (seq 0 (length ks)) ks).

(** [np.linspace(a, b, m + 1, endpoint=False)[1:]]. *)
Definition linspace_inner (a b : Q) (m : nat) : list Q :=
  tab m (fun i => a + Qnat (S i) * ((b - a) / Qnat (S m))).

(** learn.py:728-835 [_find_best_k]: the best fraction and its score. *)
Definition find_best_k (srt : list Q -> list nat) (eval : nat -> Q -> res Q) (n cv_n_folds : nat)
           (coarse : list Q) (fine_search_size : Z) : res (Q * Q) :=
  match coarse with
  | [] => Raise ValueError
  | [k] => if too_few n cv_n_folds k then Raise ValueError
           else do r <- eval 0%nat k ; Ok (k, r)
  | _ =>
      let coarse := take_idx 0 coarse (srt coarse) in
      let len := length coarse in
      do r2_coarse <- grid_scores eval n cv_n_folds 0 coarse ;
      let b := argmax r2_coarse in
      if Z.ltb fine_search_size 0 then Raise ValueError
      else if Z.eqb fine_search_size 0 then Ok (nth b coarse 0, qmaximum r2_coarse)
      else
        let m := Z.to_nat fine_search_size in
        let fine := (if Nat.eqb b 0 then [] else linspace_inner (nth (b - 1) coarse 0) (nth b coarse 0) m)
                    ++ (if Nat.eqb b (len - 1) then [] else linspace_inner (nth b coarse 0) (nth (S b) coarse 0) m) in
        do r2_fine <- grid_scores eval n cv_n_folds len fine ;
        if Qltb (qmaximum r2_fine) (qmaximum r2_coarse)
        then Ok (nth b coarse 0, qmaximum r2_coarse)
        else Ok (nth (argmax r2_fine) fine 0, qmaximum r2_fine)
  end.

(** [np.var]. *)
Definition variance (l : list Q) : Q := let m := qmean l in qmean (map (fun x => (x - m) * (x - m)) l).

Inductive uncertainty := UScalar (u : Q) | UArray (u : list Q).
Definition uncertainty_at (u : uncertainty) (i : nat) : Q :=
  match u with UScalar u => u | UArray l => nth i l 0 end.

Record issues_table := {
  t_is_issue : list bool;
  t_quality : list Q;
  t_given : list Q;
  t_predicted : list Q }.

Section FindLabelIssues.
  Context {A : Type}.
  Variable d : A.
  Variable srt : list Q -> list nat.
  Variable sq ex : Q -> Q.                     (** [np.sqrt], [np.exp] *)
  (** the model fitted with the caller's [model_kwargs] and without them: the search and the uncertainties do
      not pass them on *)
  Variable fit fit_default : list A -> list Q -> list A -> list Q.
  (** the KFold split of the [c]-th call into [s] folds of [m] positions *)
  Variable folds : nat -> nat -> nat -> list (list nat).
  Variable cv_n_folds n_boot : nat.
  Variable include_aleatoric : bool.

  (** learn.py:537-579 [get_epistemic_uncertainty]; the calls are numbered from [c]. *)
  Definition epistemic (c : nat) (X : list A) (y predictions : list Q) : res (list Q) :=
    if Nat.eqb n_boot 0 then Ok (repeat 0 (length y))
    else
      do boots <- rmap (fun b => get_cv_predictions d fit_default X y None 0 2 (folds (c + b)%nat 2)) (seq 0 n_boot) ;
      Ok (tab (length y) (fun i => sq (variance (map (fun p => nth i p 0) boots ++ [nth i predictions 0])))).

  (** learn.py:581-606 [get_aleatoric_uncertainty]. *)
  Definition aleatoric (c : nat) (X : list A) (residual : list Q) : res Q :=
    do p <- get_cv_predictions d fit_default X residual None 0 cv_n_folds (folds c cv_n_folds) ;
    Ok (sq (variance p)).

  (** learn.py:477-483: label quality from residuals and uncertainties. *)
  Definition adjusted (residual : list Q) (u : uncertainty) : list Q :=
    tab (length residual) (fun i => Qabs (nth i residual 0 / (uncertainty_at u i + TINY_VALUE))).
  Definition quality_scores (residual_adjusted : list Q) : list Q :=
    let med := qmax TINY_VALUE (median srt residual_adjusted) in
    map (fun r => ex (- r / med)) residual_adjusted.

  (** learn.py:485-488. *)
  Definition flags (k : Q) (quality : list Q) : list bool :=
    mask_of (length quality) (firstn (ceil_nat (Qnat (length quality) * k)) (srt quality)).

  (** learn.py:362-517 [find_label_issues]: (k, table).  [y_int]: the targets have an integer type.  A single
      target is squeezed to zero dimensions and rejected (regression_utils.py:91-98). *)
  Definition find_label_issues (X : list A) (y : list Q) (y_int : bool) (u : option uncertainty)
             (coarse : list Q) (fine_search_size : Z) : res (Q * issues_table) :=
    if (Nat.leb (length y) 1 || negb (Nat.eqb (length X) (length y)))%bool then Raise ValueError
    else
      do initial <- get_cv_predictions d fit X y None 0 cv_n_folds (folds 0%nat cv_n_folds) ;
      let sorted_index := srt (map (fun ab => Qabs (fst ab - snd ab)) (combine initial y)) in
      let initial_r2 := r2_score y initial in
      let eval c k := (do p <- get_cv_predictions d fit_default X y (Some sorted_index) k cv_n_folds
                                 (folds (1 + c)%nat cv_n_folds) ; Ok (r2_score y p)) in
      do best <- find_best_k srt eval (length y) cv_n_folds coarse fine_search_size ;
      let k := if Qle_bool (snd best) initial_r2 then 0 else fst best in
      let c := (1 + length coarse + 2 * Z.to_nat fine_search_size)%nat in
      do predictions <- get_cv_predictions d fit X y (Some sorted_index) k cv_n_folds (folds c cv_n_folds) ;
      let residual := map (fun ab => fst ab - snd ab) (combine predictions y) in
      do u <- (match u with
               | None =>
                   do e <- epistemic (c + 1)%nat X y predictions ;
                   do a <- (if include_aleatoric then aleatoric (c + 1 + n_boot)%nat X residual else Ok 0) ;
                   Ok (UArray (map (fun x => x + a) e))
               | Some (UArray l) => if Nat.eqb (length l) (length y) then Ok (UArray l) else Raise ValueError
               | Some (UScalar x) => Ok (UScalar x)
               end) ;
      let quality := quality_scores (adjusted residual u) in
      Ok (k, {| t_is_issue := flags k quality; t_quality := quality; t_given := y;
                t_predicted := if y_int then map (fun p => inject_Z (truncate p)) predictions else predictions |}).
End FindLabelIssues.
