(** * Vocabulary for the regression label issues *)
From Coq Require Import QArith Qabs Qround List ZArith Bool Arith Permutation Sorted.
From Verif Require Import Base SpecCV ModelRegression.
Import ListNotations.
Open Scope Q_scope.

(** the number of examples kept when the fraction [k] of [n] examples is dropped *)
Definition num_kept (n : nat) (k : Q) : Z := Qfloor (Qnat n - Qnat n * k).

(** [r] is the score of the candidate [k] ([score k r]), or minus 10^30 when too few examples remain *)
Definition scored (score : Q -> Q -> Prop) (n folds : nat) (kr : Q * Q) : Prop :=
  ((num_kept n (fst kr) < Z.of_nat folds)%Z /\ snd kr = - inject_Z (10 ^ 30)) \/
  ((Z.of_nat folds <= num_kept n (fst kr))%Z /\ score (fst kr) (snd kr)).

(** no element of [l] lies strictly between [a] and [b] *)
Definition adjacent (l : list Q) (a b : Q) : Prop :=
  In a l /\ In b l /\ forall x, In x l -> ~ (a < x /\ x < b) /\ ~ (b < x /\ x < a).

(** The search: all the coarse candidates were scored, and (with a fine search of size [m]) the points dividing
    the intervals between the best coarse candidate [kb] and its neighbours into [m + 1] equal parts; the result
    is a scored candidate with the highest score of all. *)
Definition best_of_search (score : Q -> Q -> Prop) (n folds m : nat) (coarse : list Q) (k r : Q) : Prop :=
  exists tried_coarse tried_fine kb rb,
    Permutation (map fst tried_coarse) coarse /\
    (forall t, In t (tried_coarse ++ tried_fine) -> scored score n folds t) /\
    In (kb, rb) tried_coarse /\ (forall t, In t tried_coarse -> snd t <= rb) /\
    (forall t, In t tried_fine -> exists nb i, adjacent coarse nb kb /\ (1 <= i <= m)%nat /\
       fst t == nb + (Qnat i / Qnat (S m)) * (kb - nb)) /\
    ((exists lo hi, In lo coarse /\ In hi coarse /\ lo < kb /\ kb < hi) -> length tried_fine = (2 * m)%nat) /\
    (length tried_fine = (if Nat.eqb (length coarse) 1 then 0 else m)%nat \/ length tried_fine = (2 * m)%nat) /\
    (exists r', r' == r /\ In (k, r') (tried_coarse ++ tried_fine)) /\
    (forall t, In t (tried_coarse ++ tried_fine) -> snd t <= r).

(** [r2] is the coefficient of determination of the predictions [p] of the targets [y] *)
Definition mean_of (l : list Q) : Q := qsum l / Qnat (length l).
Definition squares_about (y p : list Q) : Q := qsum (tab (length y) (fun i => (nth i y 0 - nth i p 0) * (nth i y 0 - nth i p 0))).
Definition is_r2 (y p : list Q) (r2 : Q) : Prop :=
  let spread := squares_about y (repeat (mean_of y) (length y)) in
  (~ spread == 0 -> r2 == 1 - squares_about y p / spread) /\
  (spread == 0 -> squares_about y p == 0 -> r2 == 1) /\
  (spread == 0 -> ~ squares_about y p == 0 -> r2 == 0).

(** [p] are cross-validated predictions in [s] folds when the last [ceil(n k)] examples of the ranking are left
    out of all training sets *)
Definition cv_of {A} (d : A) (fit : list A -> list Q -> list A -> list Q) (X : list A) (y : list Q)
    (ranking : list nat) (k : Q) (s : nat) (p : list Q) : Prop :=
  exists ins outs holdouts, ranking = ins ++ outs /\
    (Z.of_nat (length outs) = Qceiling (Qnat (length y) * k)) /\ length holdouts = s /\
    cv_predictions fit (fun i => nth i X d) (fun i => nth i y 0) (length y) ins outs holdouts p.

(** the ranking lists all examples by non-decreasing value of [f] *)
Definition ranks (n : nat) (f : nat -> Q) (ranking : list nat) : Prop :=
  Permutation ranking (seq 0 n) /\ StronglySorted (fun i j => f i <= f j) ranking.

(** a (randomly shuffled) KFold split: [folds call s m] splits [m] positions into [s] holdout sets *)
Definition kfold (folds : nat -> nat -> nat -> list (list nat)) : Prop :=
  forall c s m, (2 <= s <= m)%nat -> cv_partition m (folds c s m) /\ length (folds c s m) = s.

Definition var_of (l : list Q) : Q := mean_of (map (fun x => (x - mean_of l) * (x - mean_of l)) l).

(** the uncertainties: those given by the caller, or [sq] ([np.sqrt]) of the variance of each example's
    predictions in [n_boot] two-fold cross-validations and in the final one, plus (optionally) the standard
    deviation of cross-validated predictions of the residuals *)
Definition uncertainties {A} (d : A) (sq : Q -> Q) (fit0 : list A -> list Q -> list A -> list Q) (cvn n_boot : nat)
    (alea : bool) (X : list A) (y : list Q) (u : option uncertainty) (preds : list Q) (unc : nat -> Q) : Prop :=
  let n := length y in
  match u with
  | Some (UScalar x) => forall i, unc i = x
  | Some (UArray l) => length l = n /\ forall i, (i < n)%nat -> unc i = nth i l 0
  | None =>
      exists boots a, length boots = n_boot /\
        (forall b, In b boots -> cv_of d fit0 X y (seq 0 n) 0 2 b) /\
        (if alea then exists p, cv_of d fit0 X (map (fun ab => fst ab - snd ab) (combine preds y)) (seq 0 n) 0 cvn p /\ a = sq (var_of p)
         else a = 0) /\
        forall i, (i < n)%nat -> unc i = (if Nat.eqb n_boot 0 then 0 else sq (var_of (map (fun b => nth i b 0) boots ++ [nth i preds 0]))) + a
  end.
