(** * The models of counting and filtering meet the expectations of the test suite
    Inputs and expected results are copied from /repo/tests/test_filter_count.py and test_latent_algebra.py. *)
From Coq Require Import QArith Qabs List ZArith Bool Arith.
From Verif Require Import Base ModelUtil ModelCount ModelRank ModelFilter ModelConfusion ModelLatent ModelLatentPs ModelMultilabel ModelMultiCount ModelSpan
     PropDocExamples PropSuiteExamples.
Import ListNotations.
Open Scope Q_scope.

(** [test_predicted_neq_given_filter] *)
Definition core_probs : list (list Q) :=
  [[9#10; 1#10; 0]; [6#10; 2#10; 2#10]; [1#10; 0; 9#10]; [1#10; 8#10; 1#10]; [1#10; 8#10; 1#10]; [1#10; 8#10; 1#10]; [1#10; 8#10; 1#10];
   [1#10; 8#10; 1#10]; [1#10; 8#10; 1#10]; [1#10; 1#10; 8#10]].
Definition core_labels : list nat := [0; 0; 1; 1; 1; 1; 1; 1; 1; 2]%nat.
Definition core_third : list bool := [false; false; true; false; false; false; false; false; false; false].
Example core_predicted_neq_given :
  find_predicted_neq_given [0; 0; 1; 1; 2]%nat
    [[9#10; 1#10; 0]; [6#10; 2#10; 2#10]; [3#10; 3#10; 4#10]; [1#10; 1#10; 8#10]; [4#10; 5#10; 1#10]] 3 =
    Ok [false; false; true; true; true] /\
  find_predicted_neq_given core_labels core_probs 3 = Ok core_third.
Proof. split; vm_compute; reflexivity. Qed.

(** [test_missing_classes]: every method, and probability mass on the missing classes *)
Definition core_missing_probs : list (list Q) :=
  [[9#10; 0; 1#10; 0]; [8#10; 0; 2#10; 0]; [1#10; 0; 9#10; 0]; [95#100; 0; 5#100; 0]].
Definition core_last : list bool := [false; false; false; true].
Example core_missing_classes :
  (forall flt, In flt [PruneByClass; PruneByNoiseRate; Both; ConfidentLearning; PredictedNeqGiven] ->
     find_label_issues argsort_ins [0; 0; 2; 2]%nat core_missing_probs 4 flt span_options = Ok core_last) /\
  find_label_issues argsort_ins [0; 0; 1; 1]%nat [[9#10; 1#10]; [8#10; 2#10]; [1#10; 9#10]; [95#100; 5#100]] 2 PruneByNoiseRate
    span_options = Ok core_last /\
  find_label_issues argsort_ins [0; 0; 2; 2]%nat
    [[9#10; 1#10; 0; 0]; [8#10; 1#10; 1#10; 0]; [1#10; 0; 9#10; 0]; [9#10; 25#1000; 25#1000; 5#100]] 4 PruneByNoiseRate span_options =
    Ok core_last.
Proof.
  split; [|split; vm_compute; reflexivity].
  intros flt H. repeat (destruct H as [<- | H]; [vm_compute; reflexivity|]). destruct H.
Qed.

(** [test_removing_class_consistent_results] *)
Definition core_eight : list (list Q) :=
  [[9#10; 1#10; 0]; [8#10; 1#10; 1#10]; [1#10; 0; 9#10]; [9#10; 0; 1#10]; [1#10; 3#10; 6#10]; [1#10; 0; 9#10]; [1#10; 0; 9#10];
   [1#10; 0; 9#10]].
Example core_removing_class :
  (do r <- compute_confident_joint argsort_ins [0; 0; 0; 0; 1; 2; 2; 2]%nat core_eight 3 None true ; Ok (fst r)) =
    Ok [[3; 0; 1]; [0; 1; 0]; [0; 0; 3]]%Z /\
  (do r <- compute_confident_joint argsort_ins [0; 0; 0; 0; 2; 2; 2; 2]%nat core_eight 3 None true ; Ok (fst r)) =
    Ok [[3; 0; 1]; [0; 0; 0]; [0; 0; 4]]%Z /\
  find_label_issues argsort_ins [0; 0; 0; 0; 1; 2; 2; 2]%nat core_eight 3 PruneByNoiseRate span_options =
  find_label_issues argsort_ins [0; 0; 0; 0; 2; 2; 2; 2]%nat core_eight 3 PruneByNoiseRate span_options.
Proof. split; [|split]; vm_compute; reflexivity. Qed.

(** [test_find_label_issues_using_argmax_confusion_matrix] *)
Example core_argmax_confusion_matrix : forall calibrate flt, In flt [PruneByNoiseRate; PruneByClass; Both] ->
  find_label_issues_using_argmax_confusion_matrix argsort_ins core_labels core_probs 3 calibrate flt 1 [] [] = Ok core_third.
Proof.
  intros calibrate flt H.
  repeat (destruct H as [<- | H]; [destruct calibrate; vm_compute; reflexivity|]). destruct H.
Qed.

(** [test_predicted_neq_given_filter_multilabel], [test_missing_classes_multilabel] *)
Example core_predicted_neq_given_multilabel :
  ml_predicted_neq_given [[0]; [0; 1]; [0; 1]; [2]; [0; 2; 3]]%nat
    [[9#10; 1#10; 0; 4#10]; [7#10; 8#10; 2#10; 3#10]; [9#10; 8#10; 4#10; 2#10]; [1#10; 1#10; 8#10; 3#10]; [4#10; 5#10; 1#10; 1#10]] 4 =
  Ok [false; false; false; false; true].
Proof. vm_compute. reflexivity. Qed.
Definition core_ml_expected : list bool := [false; false; false; false; true; false; true].
Example core_missing_classes_multilabel :
  ml_find_label_issues argsort_ins suite_ml_labels suite_ml_probs 5 PruneByNoiseRate suite_ml_options None = Ok core_ml_expected /\
  (forall rank_by, In rank_by [SelfConfidence; NormalizedMargin] ->
     (do idx <- ml_find_label_issues_ranked argsort_ins suite_ml_labels suite_ml_probs 5 PruneByNoiseRate suite_ml_options rank_by false ;
      Ok (mask_of 7 idx)) = Ok core_ml_expected) /\
  (do cj <- ml_confident_joint_counts argsort_ins suite_ml_labels suite_ml_probs 5 ;
   ml_find_label_issues argsort_ins suite_ml_labels suite_ml_probs 5 PruneByNoiseRate
     (default_options (Some (map zmat_to_q cj)) (fun _ => ([], [])) 1) None) = Ok core_ml_expected.
Proof.
  split; [vm_compute; reflexivity|]. split; [|vm_compute; reflexivity].
  intros rank_by H. repeat (destruct H as [<- | H]; [vm_compute; reflexivity|]). destruct H.
Qed.

(** tests/test_latent_algebra.py; [core_nm_inverse] is what [np.linalg.inv] computes *)
Definition core_nm : list (list Q) := [[1; 0; 2#10]; [0; 7#10; 2#10]; [0; 3#10; 6#10]].
Definition core_nm_inverse : list (list Q) := [[1; 1#6; -7#18]; [0; 5#3; -5#9]; [0; -5#6; 35#18]].
Definition core_s : list nat := repeat 0%nat 10 ++ repeat 1%nat 5 ++ repeat 2%nat 15.
Definition close (eps : Q) (a b : list Q) : bool :=
  (Nat.eqb (length a) (length b) && forallb (fun xy => Qltb (Qabs (fst xy - snd xy)) eps) (combine a b))%bool.
Definition core_latent := compute_ps_py_inv_noise_matrix core_nm_inverse core_s core_nm.
Example core_inverse :
  map (map Qred) (map (fun row => tab 3 (fun j => dot row (col j core_nm))) core_nm_inverse) = [[1; 0; 0]; [0; 1; 0]; [0; 0; 1]].
Proof. vm_compute. reflexivity. Qed.
Example core_latent_py_ps_inv :
  let '(ps, py, inv) := core_latent in
  close (1#1000) (map (fun row => dot row ps) inv) py = true /\
  close (1#1000) (map (fun row => dot row py) core_nm) ps = true /\
  close (1#1000) (concat (compute_inv_noise_matrix py core_nm None)) (concat inv) = true /\
  close (1#1000) (concat (compute_noise_matrix_from_inverse ps inv (Some py))) (concat core_nm) = true /\
  close (1#1000) (compute_py ps core_nm inv Cnt) py = true.
Proof. vm_compute. repeat split. Qed.
Example core_pyx :
  let '(ps, py, inv) := core_latent in
  forallb (fun row => Qltb (qsum row - 1) (1#10000))
    (compute_pyx [[1#10; 3#10; 6#10]; [1#10; 0; 9#10]; [1#10; 0; 9#10]; [1; 0; 0]; [1#10; 8#10; 1#10]] core_nm inv) = true.
Proof. vm_compute. reflexivity. Qed.

