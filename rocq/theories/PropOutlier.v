(** * Properties C28, C29, C58: out-of-distribution scores *)
From Coq Require Import QArith Qreals Reals List Bool Arith Lia Lra Permutation.
From Verif Require Import Base BaseFacts ModelUtil ModelCount ModelRank ModelEntropy ModelOutlier SpecOutlier ProofEntropy ProofOutlier.
Import ListNotations.
Open Scope R_scope.

(** ** C28 *)
Theorem C28_distances_to_scores : forall ds t s, 0 < t -> (forall d, In d ds -> 0 <= d) ->
  length (transform_distances_to_scores ds t s) = length ds /\
  (forall i, (i < length ds)%nat ->
     0 < nth i (transform_distances_to_scores ds t s) 0 <= 1 /\
     (nth i (transform_distances_to_scores ds t s) 0 = 1 <-> nth i ds 0 = 0)) /\
  (forall i j, (i < length ds)%nat -> (j < length ds)%nat ->
     (nth i ds 0 < nth j ds 0 <->
      nth j (transform_distances_to_scores ds t s) 0 < nth i (transform_distances_to_scores ds t s) 0)) /\
  (forall t' i, (i < length ds)%nat -> t < t' -> 0 < nth i ds 0 ->
     nth i (transform_distances_to_scores ds t' s) 0 < nth i (transform_distances_to_scores ds t s) 0).
Proof. exact C28_transform_full. Qed.
Print Assumptions C28_distances_to_scores.

Theorem C28_corrected_scores : forall ds t s m scores, 0 < t -> (forall d, In d ds -> 0 <= d) ->
  correct_precision_errors (transform_distances_to_scores ds t s) ds m = Ok scores ->
  length scores = length ds /\
  (forall i, (i < length ds)%nat -> 0 < nth i scores 0 <= 1 /\ (nth i ds 0 = 0 -> nth i scores 0 = 1)) /\
  (forall i j, (i < length ds)%nat -> (j < length ds)%nat -> nth i ds 0 <= nth j ds 0 -> nth j scores 0 <= nth i scores 0).
Proof. exact C28_corrected_full. Qed.
Print Assumptions C28_corrected_scores.

Theorem C28_estimator_features : forall {F} (B : backend F) o f o' s,
  distances_ok B -> 0 < p_t o -> features_scores B o f = Ok (o', s) -> forall x, In x s -> 0 < x <= 1.
Proof. exact @C28_estimator_features_full. Qed.
Print Assumptions C28_estimator_features.

Theorem C28_estimator_pred_probs : forall {F} (B : backend F) o pp K labels thr s,
  sorts (rsort B) -> (2 <= K)%nat -> (1 <= p_M o)%nat -> 0 < p_gamma o ->
  (forall row, In row pp -> length row = K /\ distribution row) ->
  pred_probs_scores B o pp K labels = Ok (thr, s) ->
  length s = length pp /\ forall x, In x s -> 0 <= x <= 1.
Proof. exact @C28_estimator_pred_probs_full. Qed.
Print Assumptions C28_estimator_pred_probs.

(** ** C29 *)
Theorem C29_never_replaced : forall {F} (B : backend F) o h1 h2, fresh o ->
  (forall kn, p_knn (run B h1 o) = Some kn -> p_knn (run B (h1 ++ h2) o) = Some kn /\
                                              p_scaling (run B (h1 ++ h2) o) = p_scaling (run B h1 o)) /\
  (forall t, p_thresholds (run B h1 o) = Some t -> p_thresholds (run B (h1 ++ h2) o) = Some t) /\
  (forall i, fst (score B (run B h1 o) i) = run B h1 o).
Proof. exact @C29_never_replaced_full. Qed.
Print Assumptions C29_never_replaced.

(** scoring features after any history: an error if nothing was fitted, otherwise the result that an object
    with only the first successful fit would give *)
Theorem C29_score_features : forall {F} (B : backend F) o h i f, fresh o -> features_only B i f ->
  (no_call B (fun o c => exists f', fits_features B o c f') o h /\ snd (score B (run B h o) i) = Raise ValueError) \/
  (exists c f0, first_call B (fun o c => exists f', fits_features B o c f') o h c /\ fits_features B o c f0 /\
     snd (score B (run B h o) i) = snd (score B (run B [c] o) i) /\
     (succeeds (snd (score B (run B h o) i)) <-> same_dim B f0 f = true)).
Proof. exact @C29_features_full. Qed.
Print Assumptions C29_score_features.

Theorem C29_score_pred_probs : forall {F} (B : backend F) o h i, fresh o -> pred_probs_only i ->
  if p_adjust o then
    (no_call B (fits_pred_probs B) o h /\ snd (score B (run B h o) i) = Raise ValueError) \/
    (exists c, first_call B (fits_pred_probs B) o h c /\ snd (score B (run B h o) i) = snd (score B (run B [c] o) i))
  else (forall t, p_thresholds (run B h o) <> Some t) /\ snd (score B (run B h o) i) = snd (score B o i).
Proof. exact @C29_pred_probs_full. Qed.
Print Assumptions C29_score_pred_probs.

Theorem C29_fit_score_when_fitted : forall {F} (B : backend F) o i,
  (forall f, features_only B i f -> p_knn o <> None -> fit_score B o i = score B o i) /\
  (pred_probs_only i -> p_thresholds o <> None -> fit_score B o i = score B o i).
Proof. exact @C29_fit_score_full. Qed.
Print Assumptions C29_fit_score_when_fitted.

Example C29_example_fresh : fresh (ex_ood None) /\ features_only ex_backend (ex_in [5; 6]) [5; 6].
Proof. repeat split. Qed.
Example C28_example_backend : distances_ok ex_backend /\ sorts (rsort ex_backend).
Proof.
  split; [|intros l; apply Permutation_refl].
  assert (G : forall f q n row d, In row (kneighbors ex_backend f q n) -> In d row -> 0 <= d).
  { intros f q n row d H1 H2. cbn in H1. apply in_map_iff in H1 as (x & <- & _). destruct H2 as [<-|[]]. apply Rabs_pos. }
  split; auto.
Qed.
Example C29_example_unfitted : snd (score ex_backend (ex_ood None) (ex_in [5])) = Raise ValueError.
Proof. reflexivity. Qed.
Example C29_example_fitted : succeeds (snd (score ex_backend
  (run ex_backend [Score (ex_in [5]); Fit (ex_in [0; 2]); Fit (ex_in [9])] (ex_ood None)) (ex_in [5]))).
Proof. eexists. reflexivity. Qed.

(** ** C58: with a precomputed (fitted) index the scaling factor is taken from the first batch that is scored,
    so the scores of a batch depend on what was scored before; afterwards nothing changes any more *)
Theorem C58_later_scores_partial : forall {F} (B : backend F) o h1 h2 i f kn,
  features_only B i f -> p_knn o = Some kn -> fitted_on kn <> None -> p_scaling (run B h1 o) <> None ->
  snd (score B (run B (h1 ++ h2) o) i) = snd (score B (run B h1 o) i).
Proof. exact @C58_later_full. Qed.
Print Assumptions C58_later_scores_partial.

Theorem C58_score_independent_of_history_refuted :
  exists (B : backend (list R)) (o : ood (list R)) kn i i' f f',
    p_knn o = Some kn /\ fitted_on kn <> None /\ features_only B i f /\ features_only B i' f' /\
    succeeds (snd (score B o i)) /\ succeeds (snd (score B (run B [Score i'] o) i)) /\
    snd (score B (run B [Score i'] o) i) <> snd (score B o i).
Proof. exact C58_refuted_full. Qed.
Print Assumptions C58_score_independent_of_history_refuted.
