(** * C47: cross-validated predictions *)
From Coq Require Import QArith Qabs Qround List ZArith Bool Arith Lia Lqa Permutation.
From Verif Require Import Base BaseFacts ModelUtil ModelCV SpecCV ProofCV.
Import ListNotations.
Open Scope Q_scope.

(** Classification: for every split into folds, every classifier and every order in which sets are iterated,
    each example receives exactly one row, from a model that has not seen the example (or certainty of its
    given label when the example had to be lent to the training data because its class is otherwise absent). *)
Theorem C47_classification : forall A (d : A) fit_predict so X labels K,
  any_order so -> classes_are K labels -> proper_classifier K fit_predict ->
  forall folds, (2 <= K)%nat -> length X = length labels -> cv_partition (length labels) folds ->
  exists pp, cv_pred_probs d fit_predict so false X labels folds = Ok pp /\ length pp = length labels /\
    forall i, (i < length labels)%nat -> length (nth i pp []) = K /\
      exists hold p, In hold folds /\ nth_error hold p = Some i /\
        out_of_fold_row fit_predict (fun j => nth j X d) (fun j => nth j labels 0%nat) (length labels) K pp hold p i.
Proof. exact @cv_pred_probs_spec. Qed.
Print Assumptions C47_classification.

(** Without such rare classes it is plain cross-validation. *)
Theorem C47_classification_plain : forall A (d : A) fit_predict so X labels K,
  any_order so -> classes_are K labels -> proper_classifier K fit_predict ->
  forall folds pp, (2 <= K)%nat -> length X = length labels -> cv_partition (length labels) folds ->
  (forall hold c, In hold folds -> (c < K)%nat ->
     exists j, (j < length labels)%nat /\ ~ In j hold /\ nth j labels 0%nat = c) ->
  cv_pred_probs d fit_predict so false X labels folds = Ok pp ->
  forall i, (i < length labels)%nat -> exists hold p, In hold folds /\ nth_error hold p = Some i /\
    nth i pp [] = nth p (fit_predict (map (fun j => nth j X d) (others (length labels) hold))
                                     (map (fun j => nth j labels 0%nat) (others (length labels) hold))
                                     (map (fun j => nth j X d) hold)) [].
Proof. exact @cv_pred_probs_plain. Qed.
Print Assumptions C47_classification_plain.

(** a toy classifier: the class frequencies of the training labels, whatever the features *)
Definition freq_clf (K : nat) (Xt : list nat) (yt : list nat) (Xh : list nat) : list (list Q) :=
  map (fun _ => tab K (fun c => Qred (Qnat (count c yt) / Qnat (length yt)))) Xh.
Definition folds_ex : list (list nat) := [[0; 3]; [1; 4]; [2]]%nat.
Definition y_ex : list nat := [0; 1; 0; 2; 1]%nat.
Example C47_classification_example :
  classes_are 3 y_ex /\ proper_classifier 3 (freq_clf 3) /\ cv_partition 5 folds_ex /\
  cv_pred_probs 0%nat (freq_clf 3) (fun l => l) false [10; 11; 12; 13; 14]%nat y_ex folds_ex =
  Ok [[1#4; 1#2; 1#4]; [0; 1; 0]; [1#4; 1#2; 1#4]; [0; 0; 1]; [1#2; 1#4; 1#4]].
Proof.
  refine (conj _ (conj _ (conj _ _))).
  - intro c. split; [cbn; lia|]. intro H. destruct c as [|[|[|c]]]; cbn; auto; lia.
  - intros Xt yt Xh _. unfold freq_clf. split; [apply map_length|]. intros r Hr. apply in_map_iff in Hr.
    destruct Hr as [x [<- _]]. apply tab_length.
  - unfold cv_partition. apply NoDup_Permutation; [|apply seq_NoDup|].
    + cbn. repeat constructor; cbn; lia.
    + intro x. cbn. lia.
  - vm_compute. reflexivity.
Qed.

(** Regression: the [ceil(n k)] examples listed last are left out of every training set and predicted by the
    average of the fold models; every other example is predicted by the model of its fold. *)
Theorem C47_regression : forall A (d : A) fit X y, proper_regressor fit ->
  forall s k cv_n_folds folds, Permutation s (seq 0 (length y)) -> 0 <= k <= 1 ->
  (cv_n_folds <= length y - ceil_nat (Qnat (length y) * k))%nat -> (forall m, cv_partition m (folds m)) ->
  exists ins outs preds, get_cv_predictions d fit X y (Some s) k cv_n_folds folds = Ok preds /\
    s = ins ++ outs /\ length outs = ceil_nat (Qnat (length y) * k) /\
    cv_predictions fit (fun i => nth i X d) (fun i => nth i y 0) (length y) ins outs
      (map (map (fun j => nth j ins 0%nat)) (folds (length ins))) preds.
Proof. exact @get_cv_predictions_ok. Qed.
Print Assumptions C47_regression.

Theorem C47_regression_rejects : forall A (d : A) fit X y s k cv_n_folds folds, length s = length y ->
  ~ (0 <= k <= 1 /\ (cv_n_folds <= length y - ceil_nat (Qnat (length y) * k))%nat) ->
  get_cv_predictions d fit X y (Some s) k cv_n_folds folds = Raise ValueError.
Proof. exact @get_cv_predictions_rejects. Qed.
Print Assumptions C47_regression_rejects.

(** a toy model: the mean of the training targets *)
Definition mean_model (Xt : list nat) (yt : list Q) (Xh : list nat) : list Q := map (fun _ => Qred (qmean yt)) Xh.
(** two folds: even and odd positions *)
Definition parity_folds (m : nat) : list (list nat) := [filter Nat.even (seq 0 m); filter Nat.odd (seq 0 m)].
Lemma parity_partition m : cv_partition m (parity_folds m).
Proof.
  unfold cv_partition, parity_folds. cbn [concat]. rewrite app_nil_r. apply NoDup_Permutation.
  - apply ProofToken.NoDup_app_intro; try (apply NoDup_filter, seq_NoDup). intros x H1 H2.
    apply filter_In in H1, H2. destruct H1 as [_ H1], H2 as [_ H2]. rewrite <- Nat.negb_even, H1 in H2. discriminate.
  - apply seq_NoDup.
  - intro x. rewrite in_app_iff, !filter_In, <- Nat.negb_even. destruct (Nat.even x); cbn; tauto.
Qed.
Example C47_regression_example :
  proper_regressor mean_model /\ (forall m, cv_partition m (parity_folds m)) /\
  get_cv_predictions 0%nat mean_model [0; 1; 2; 3; 4]%nat [1; 2; 3; 4; 100] (Some [3; 0; 1; 2; 4]%nat) (1#5) 2 parity_folds =
  Ok [3; 2; 3; 2; 5#2].
Proof.
  refine (conj _ (conj parity_partition _)).
  - intros Xt yt Xh. apply map_length.
  - vm_compute. reflexivity.
Qed.
