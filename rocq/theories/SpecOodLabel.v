(** * Specification vocabulary: out-of-distribution scores next to label quality scores *)
From Coq Require Import QArith Reals List Bool Arith.
From Verif Require Import Base ModelOutlier SpecOutlier SpecCount.
Import ListNotations.

(** [fit_score(pred_probs=pp, labels=labels)] *)
Definition pp_input {F} (pp : list (list Q)) (K : nat) (labels : list nat) : input F :=
  {| in_features := None; in_pred_probs := Some (pp, K); in_labels := Some labels |}.
(** [score(pred_probs=pp)] *)
Definition score_input {F} (pp : list (list Q)) (K : nat) : input F :=
  {| in_features := None; in_pred_probs := Some (pp, K); in_labels := None |}.
(** [OutOfDistribution(params={"method": "least_confidence", "adjust_pred_probs": ...})], not fitted *)
Definition least_confidence {F} (o : ood F) : Prop := fresh o /\ p_method o = LeastConfidence.
(** every example is given a class of largest predicted probability *)
Definition most_likely (labels : list nat) (pp : list (list Q)) : Prop :=
  Forall2 (fun l row => forall x, In x row -> (x <= nth l row 0)%Q) labels pp.

(** ** an example *)
Definition ex177_labels : list nat := [0; 1; 1; 2]%nat.
Definition ex177_pp : list (list Q) :=
  [[(7 # 10)%Q; (2 # 10)%Q; (1 # 10)%Q]; [(1 # 10)%Q; (8 # 10)%Q; (1 # 10)%Q]; [(6 # 10)%Q; (3 # 10)%Q; (1 # 10)%Q]; [(1 # 10)%Q; (1 # 10)%Q; (8 # 10)%Q]].
Definition ex177_ood (adjust : bool) : ood (list R) := {|
  p_knn := None; p_k := None; p_t := 1%R; p_method := LeastConfidence; p_adjust := adjust; p_thresholds := None;
  p_M := 100; p_gamma := (/ 10)%R; p_scaling := None |}.
(** the third example is labelled with the class the model predicts, but class 0 has the higher threshold *)
Definition ex177r_labels : list nat := [0; 0; 0; 1]%nat.
Definition ex177r_pp : list (list Q) :=
  [[(19 # 20)%Q; (1 # 20)%Q]; [(19 # 20)%Q; (1 # 20)%Q]; [(11 # 20)%Q; (9 # 20)%Q]; [(1 # 2)%Q; (1 # 2)%Q]].
