(** * C130: noise estimated with the library's own cross-validation *)
From Coq Require Import QArith Qabs List ZArith Bool Arith Lia Permutation.
From Verif Require Import Base BaseFacts ModelUtil ModelCount ModelLatent ModelCV ModelEstimate SpecCount SpecLatent
  SpecCV SpecEstimate ProofUtil ProofEstimate.
Import ListNotations.
Open Scope Q_scope.

(** One call returns out-of-sample predictions, a table counting every example in the row of its given label, a
    prior with positive entries, a stochastic inverse noise matrix, and a noise matrix whose columns sum to one
    for every class that some example was counted into (and are zero for the other classes). *)
Theorem C130_estimates : forall A (d : A) fit_predict so srt X labels K folds,
  argsort_ok srt -> any_order so -> classes_are K labels -> proper_classifier K fit_predict ->
  (2 <= K)%nat -> length X = length labels -> cv_partition (length labels) folds ->
  forall thr m, exists py N I cj pp,
    estimate_with_cv d fit_predict so srt false X labels folds thr false m = Ok (py, N, I, cj, pp) /\
    (forall i, (i < length labels)%nat -> length (nth i pp []) = K /\
      exists hold p, In hold folds /\ nth_error hold p = Some i /\
        out_of_fold_row fit_predict (fun j => nth j X d) (fun j => nth j labels 0%nat) (length labels) K pp hold p i) /\
    counts_all K labels cj /\
    positive_distribution K py /\ column_stochastic K I /\ nonneg_square K N /\
    forall y, (y < K)%nat ->
      (0 < true_total K cj y -> qsum (tab K (fun s => mget N s y)) == 1) /\
      (true_total K cj y == 0 -> forall s, (s < K)%nat -> mget N s y == 0).
Proof. exact C130_estimates_full. Qed.
Print Assumptions C130_estimates.

(** Unless the noise is extreme, the estimates are exactly the proportions in the table of counts, whichever
    method computes the prior and whether or not the estimates are made to converge. *)
Theorem C130_exact : forall A (d : A) fit_predict so srt X labels K folds,
  argsort_ok srt -> any_order so -> classes_are K labels -> proper_classifier K fit_predict ->
  (2 <= K)%nat -> length X = length labels -> cv_partition (length labels) folds ->
  forall thr, exists cj pp,
    estimate_confident_joint_and_cv_pred_proba d fit_predict so srt false X labels folds thr true = Ok (cj, pp) /\
    counts_all K labels cj /\
    (moderate_noise K (length labels) cj -> forall conv m, exists py N I,
       estimate_with_cv d fit_predict so srt false X labels folds thr conv m = Ok (py, N, I, cj, pp) /\
       proportions K (length labels) cj py N I).
Proof. exact C130_exact_full. Qed.
Print Assumptions C130_exact.

(** Cross-validating oneself and passing the predictions gives the same estimates. *)
Theorem C130_own_cross_validation : forall A (d : A) fit_predict so srt X labels K folds,
  any_order so -> classes_are K labels -> proper_classifier K fit_predict ->
  (2 <= K)%nat -> length X = length labels -> cv_partition (length labels) folds ->
  forall thr conv m py N I cj pp,
  estimate_with_cv d fit_predict so srt false X labels folds thr conv m = Ok (py, N, I, cj, pp) <->
  cv_pred_probs d fit_predict so false X labels folds = Ok pp /\
  estimate_from_probabilities srt labels pp thr conv m true = Ok (py, N, I, cj).
Proof. exact C130_own_full. Qed.
Print Assumptions C130_own_cross_validation.

(** The functions that return only some of the estimates return those of the full call; the predictions do not
    depend on thresholds, calibration or convergence. *)
Theorem C130_parts : forall A (d : A) fit_predict so srt X labels K folds,
  argsort_ok srt -> any_order so -> classes_are K labels -> proper_classifier K fit_predict ->
  (2 <= K)%nat -> length X = length labels -> cv_partition (length labels) folds ->
  exists pp, estimate_cv_predicted_probabilities d fit_predict so srt false X labels folds = Ok pp /\
    (forall thr cal r, estimate_confident_joint_and_cv_pred_proba d fit_predict so srt false X labels folds thr cal = Ok r ->
       snd r = pp) /\
    forall thr conv py N I cj pp',
      estimate_with_cv d fit_predict so srt false X labels folds thr conv LCnt = Ok (py, N, I, cj, pp') ->
      pp' = pp /\
      estimate_noise_matrices d fit_predict so srt false X labels folds thr conv = Ok (N, I).
Proof. exact C130_parts_full. Qed.
Print Assumptions C130_parts.

(** ** examples: a classifier that answers the number it is given *)
Definition clf3 (_ : list nat) (_ : list nat) (Xh : list nat) : list (list Q) := map (one_hot 3) Xh.
Definition y130 : list nat := [0; 0; 1; 1; 2; 2]%nat.
Definition folds130 : list (list nat) := [[0; 2; 4]; [1; 3; 5]]%nat.

Example C130_hypotheses : argsort_ok argsort_ins /\ any_order (fun l => l) /\ classes_are 3 y130 /\
  proper_classifier 3 clf3 /\ cv_partition 6 folds130.
Proof.
  split; [exact argsort_ins_ok|]. split; [intro; apply Permutation_refl|]. split; [|split].
  - intro c. split; [cbn; lia|]. intro H. destruct c as [|[|[|c]]]; cbn; auto; lia.
  - intros Xt yt Xh _. unfold clf3. split; [apply map_length|]. intros r Hr. apply in_map_iff in Hr.
    destruct Hr as [x [<- _]]. apply tab_length.
  - unfold cv_partition. apply NoDup_Permutation; [|apply seq_NoDup|].
    + cbn. repeat constructor; cbn; lia.
    + intro x. cbn. lia.
Qed.

(** one of the two examples labelled 1 is predicted to be of class 0: half of the labels 1 are wrong *)
Example C130_example :
  match estimate_with_cv 0%nat clf3 (fun l => l) argsort_ins false [0; 0; 0; 1; 2; 2]%nat y130 folds130 None false LCnt with
  | Ok (py, N, V, cj, pp) =>
      cj = [[2; 0; 0]; [1; 1; 0]; [0; 0; 2]]%Z /\ map Qred py = [1 # 2; 1 # 6; 1 # 3] /\
      map (map Qred) N = [[2 # 3; 0; 0]; [1 # 3; 1; 0]; [0; 0; 1]] /\
      map (map Qred) V = [[1; 1 # 2; 0]; [0; 1 # 2; 0]; [0; 0; 1]]
  | Raise _ => False
  end.
Proof. vm_compute. auto. Qed.
Example C130_example_moderate : moderate_noise 3 6 [[2; 0; 0]; [1; 1; 0]; [0; 0; 2]]%Z.
Proof.
  split.
  - intros [|[|[|k]]] Hk; try lia; repeat split; vm_compute; discriminate.
  - intros [|[|[|s]]] [|[|[|y]]] Hs Hy Hne; try lia; split; vm_compute; discriminate.
Qed.

(** The noise matrix is not always a matrix of conditional probabilities: both examples labelled 0 are predicted
    to be of another class, nothing is counted into class 0 and its column is zero. *)
Theorem C130_noise_matrix_refuted : exists X, length X = length y130 /\
  match estimate_with_cv 0%nat clf3 (fun l => l) argsort_ins false X y130 folds130 None false LCnt with
  | Ok (py, N, V, cj, pp) => ~ column_stochastic 3 N /\ qsum (tab 3 (fun s => mget N s 0)) == 0
  | Raise _ => False
  end.
Proof.
  exists [1; 2; 1; 1; 2; 2]%nat. split; [reflexivity|].
  destruct (estimate_with_cv _ _ _ _ _ _ _ _ _ _ _) as [[[[[py N] V] cj] pp]|] eqn:E; vm_compute in E; [|discriminate].
  injection E as _ <- _ _ _. split; [|vm_compute; reflexivity].
  intros (_ & H). specialize (H 0%nat). assert (0 < 3)%nat by lia. specialize (H H0). vm_compute in H. discriminate.
Qed.
Print Assumptions C130_noise_matrix_refuted.

(** The methods for the prior do not agree in general: with no correctly labelled example of class 0 counted, the
    default method puts its share near zero although a sixth of the examples is counted into it. *)
Theorem C130_methods_refuted : exists X, length X = length y130 /\
  match estimate_with_cv 0%nat clf3 (fun l => l) argsort_ins false X y130 folds130 None false LCnt,
        estimate_with_cv 0%nat clf3 (fun l => l) argsort_ins false X y130 folds130 None false LMarginal with
  | Ok (py, _, _, cj, _), Ok (py', _, _, cj', _) =>
      cj = cj' /\ true_total 3 cj 0 == 1 /\ nth 0 py 0 < 1 # 100000 /\ nth 0 py' 0 == 1 # 6
  | _, _ => False
  end.
Proof.
  exists [1; 2; 0; 1; 2; 2]%nat. split; [reflexivity|]. vm_compute. repeat split.
Qed.
Print Assumptions C130_methods_refuted.
