(** * Specification vocabulary for out-of-distribution scores *)
From Coq Require Import QArith Reals List Bool Arith Permutation.
From Verif Require Import Base ModelOutlier.
Import ListNotations.

(** a row of a probability matrix *)
Definition distribution (row : list Q) : Prop := (forall x, In x row -> 0 <= x)%Q /\ (qsum row == 1)%Q.
Definition probability_row (row : list R) : Prop :=
  (2 <= length row)%nat /\ (forall x, In x row -> 0 <= x)%R /\ fold_right Rplus 0%R row = 1%R.
Definition sorts (sort : list R -> list R) : Prop := forall l, Permutation (sort l) l.

Section Histories.
Context {F : Type} (B : backend F).
(** an estimator created without precomputed index or thresholds *)
Definition fresh (o : ood F) : Prop := p_knn o = None /\ p_thresholds o = None /\ p_scaling o = None.
(** the default index uses a metric cleanlab knows the tolerance of *)
Definition default_metric : Prop :=
  forall f k nm, features_to_knn B f k = Ok nm -> exists t, tolerance (snd nm) = Ok t.

Definition features_only (i : input F) (f : F) : Prop :=
  in_features i = Some f /\ in_pred_probs i = None /\ two_dim B f = true.
Definition pred_probs_only (i : input F) : Prop := in_features i = None /\ in_pred_probs i <> None.
Definition is_fit (c : call F) (i : input F) : Prop := c = Fit i \/ c = FitScore i.
Definition succeeds {A} (r : res A) : Prop := exists a, r = Ok a.
(** [c] fits features [f] successfully in state [o] *)
Definition fits_features (o : ood F) (c : call F) (f : F) : Prop :=
  exists i, is_fit c i /\ features_only i f /\ succeeds (snd (run_call B o c)).
Definition fits_pred_probs (o : ood F) (c : call F) : Prop :=
  exists i, is_fit c i /\ pred_probs_only i /\ succeeds (snd (run_call B o c)).
(** [c] is the first call of the history [h], run on [o], that satisfies [P] in the state it is run in *)
Definition first_call (P : ood F -> call F -> Prop) (o : ood F) (h : list (call F)) (c : call F) : Prop :=
  exists h1 h2, h = h1 ++ c :: h2 /\ P (run B h1 o) c /\
    forall g1 c' g2, h1 = g1 ++ c' :: g2 -> ~ P (run B g1 o) c'.
Definition no_call (P : ood F -> call F -> Prop) (o : ood F) (h : list (call F)) : Prop :=
  forall g1 c' g2, h = g1 ++ c' :: g2 -> ~ P (run B g1 o) c'.
End Histories.
(** distances are non-negative *)
Definition distances_ok {F} (B : backend F) : Prop :=
  (forall f q n row d, In row (kneighbors B f q n) -> In d row -> (0 <= d)%R) /\
  (forall f q n row d, In row (correct B f (kneighbors B f q n)) -> In d row -> (0 <= d)%R).

Open Scope R_scope.
(** ** an example: one-dimensional data, one neighbour, distance to the first training point *)
Definition ex_backend : backend (list R) := {|
  two_dim := fun _ => true; same_dim := fun _ _ => true;
  features_to_knn := fun _ _ => Ok (1%nat, OtherMetric);
  kneighbors := fun train q _ => map (fun x => [Rabs (x - hd 0 train)]) (match q with None => train | Some f => f end);
  correct := fun _ d => d;
  median := fun l => hd 0 l;
  rsort := fun l => l |}.
Definition ex_ood (kn : option (knn_object (list R))) : ood (list R) := {|
  p_knn := kn; p_k := None; p_t := 1; p_method := Entropy; p_adjust := true; p_thresholds := None;
  p_M := 100; p_gamma := / 10; p_scaling := None |}.
Definition ex_in (f : list R) : input (list R) := {| in_features := Some f; in_pred_probs := None; in_labels := None |}.
