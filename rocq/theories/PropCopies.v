(** * C159: repeating the examples of multi-annotator, multi-label and object-detection data, and in quality scores *)
From Coq Require Import QArith List Bool Arith Lia Lqa Permutation Reals.
From Verif Require Import Base BaseFacts ModelUtil ModelCount ModelRank ModelFilter ModelMultiannotator ModelMultilabel SpecCount SpecFilter SpecMultiannotator
  SpecMultilabel SpecSymmetry SpecReorder SpecRows ProofFilter ProofMultiannotator ProofCopies ProofCopies2 PropMultiannotator.
From Verif Require ModelChecks ModelDetection SpecDetection PropReorder PropMultilabel.
Import ListNotations.
Open Scope Q_scope.

(** In what follows [order] lists every example [c] times, in any order: [c] copies of the data set, or each example
    [c] times in a row, or shuffled. *)

(** The labels of the majority vote, if a random choice is made alike for the copies of an example. *)
Theorem C159_majority_vote : forall t order c M, (1 <= c)%nat -> Permutation order (copies c (seq 0 (length t))) -> forall rnd pp Kpp verbose mv,
  get_majority_vote_label rnd t M pp Kpp verbose = Ok mv ->
  get_majority_vote_label (fun i => rnd (nth i order 0%nat)) (pick [] order t) M (option_map (pick [] order) pp) Kpp verbose = Ok (pick 0%nat order mv).
Proof. exact vote_full. Qed.
Print Assumptions C159_majority_vote.

(** CROWDLAB: the consensus, its quality and the posterior of a copy are those of the example; the weights do not
    change; of the statistics of an annotator only the number of labelled examples changes. *)
Theorem C159_quality : forall t order c, (1 <= c)%nat -> Permutation order (copies c (seq 0 (length t))) -> forall fsqrt rnd M K prior method info,
  (forall r, In r t -> length r = M) -> (2 <= K)%nat -> distributions (length t) K prior ->
  (forall x, 0 < x -> 0 < fsqrt x) -> (forall x y, x == y -> fsqrt x == fsqrt y) ->
  get_label_quality_multiannotator fsqrt rnd t M K prior method = Ok info ->
  exists info', get_label_quality_multiannotator fsqrt (fun i => rnd (nth i order 0%nat)) (pick [] order t) M K (pick [] order prior) method = Ok info' /\
    c_label info' = pick 0%nat order (c_label info) /\ Forall2 Qeq (c_quality info') (pick 0 order (c_quality info)) /\
    c_agreement info' = pick 0 order (c_agreement info) /\ same_rows (post (c_post info')) (pick [] order (post (c_post info))) /\
    Forall2 Qeq (model_weights (c_post info')) (model_weights (c_post info)) /\ Forall2 Qeq (annot_weights (c_post info')) (annot_weights (c_post info)) /\
    forall j, let st' := annotator_stats (pick [] order t) info' j in let st := annotator_stats t info j in
      same_value (st_quality st') (st_quality st) /\ same_value (st_agreement st') (st_agreement st) /\ st_worst st' = st_worst st /\
      st_num st' = (c * st_num st)%nat.
Proof. exact quality_full. Qed.
Print Assumptions C159_quality.

Theorem C159_quality_ensemble : forall t order c, (1 <= c)%nat -> Permutation order (copies c (seq 0 (length t))) -> forall fsqrt rnd M K priors info,
  (forall r, In r t -> length r = M) -> (2 <= K)%nat -> priors <> [] -> (forall p, In p priors -> distributions (length t) K p) ->
  (forall x, 0 < x -> 0 < fsqrt x) -> (forall x y, x == y -> fsqrt x == fsqrt y) ->
  get_label_quality_multiannotator_ensemble fsqrt rnd t M K priors = Ok info ->
  exists info', get_label_quality_multiannotator_ensemble fsqrt (fun i => rnd (nth i order 0%nat)) (pick [] order t) M K (map (pick [] order) priors) = Ok info' /\
    c_label info' = pick 0%nat order (c_label info) /\ Forall2 Qeq (c_quality info') (pick 0 order (c_quality info)) /\
    c_agreement info' = pick 0 order (c_agreement info) /\ same_rows (post (c_post info')) (pick [] order (post (c_post info))) /\
    Forall2 Qeq (model_weights (c_post info')) (model_weights (c_post info)) /\ Forall2 Qeq (annot_weights (c_post info')) (annot_weights (c_post info)) /\
    forall j, let st' := annotator_stats (pick [] order t) info' j in let st := annotator_stats t info j in
      same_value (st_quality st') (st_quality st) /\ same_value (st_agreement st') (st_agreement st) /\ st_worst st' = st_worst st /\
      st_num st' = (c * st_num st)%nat.
Proof. exact quality_ensemble_full. Qed.
Print Assumptions C159_quality_ensemble.

(** Active learning: the scores of the copies, and of the unlabelled examples. *)
Theorem C159_active : forall t order c M, (1 <= c)%nat -> Permutation order (copies c (seq 0 (length t))) -> forall fsqrt rnd K prior unlabeled s u,
  (forall r, In r t -> length r = M) -> (2 <= K)%nat -> distributions (length t) K prior ->
  (forall x, 0 < x -> 0 < fsqrt x) -> (forall x y, x == y -> fsqrt x == fsqrt y) ->
  get_active_learning_scores fsqrt rnd t M K prior unlabeled = Ok (s, u) ->
  exists s' u', get_active_learning_scores fsqrt (fun i => rnd (nth i order 0%nat)) (pick [] order t) M K (pick [] order prior) unlabeled = Ok (s', u') /\
    Forall2 Qeq s' (pick 0 order s) /\ Forall2 Qeq u' u.
Proof. exact active_full. Qed.
Print Assumptions C159_active.

(** Label quality scores, adjusted or not. *)
Theorem C159_scores : forall K labels pp c order method adjust s, (1 <= c)%nat -> dataset K labels pp -> Permutation order (copies c (seq 0 (length labels))) ->
  get_label_quality_scores labels pp K method adjust = Ok s ->
  exists s', get_label_quality_scores (pick 0%nat order labels) (pick [] order pp) K method adjust = Ok s' /\ Forall2 Qeq s' (pick 0 order s).
Proof. exact scores_cop. Qed.
Print Assumptions C159_scores.

(** Datalab's class-imbalance check. *)
Theorem C159_imbalance : forall threshold K labels c order, (1 <= c)%nat -> labels <> [] -> (0 < K)%nat -> Permutation order (copies c (seq 0 (length labels))) ->
  exists rep rep', ModelChecks.class_imbalance threshold K labels = Ok rep /\ ModelChecks.class_imbalance threshold K (pick 0%nat order labels) = Ok rep' /\
    ModelChecks.flags rep' = pick false order (ModelChecks.flags rep) /\ Forall2 Qeq (ModelChecks.scores rep') (pick 0 order (ModelChecks.scores rep)) /\
    ModelChecks.summary rep' == ModelChecks.summary rep.
Proof. exact imbalance_cop. Qed.
Print Assumptions C159_imbalance.

(** Multi-label issues (for single-label data see C116). *)
Theorem C159_multilabel : forall srt K labels pp c order o flt, (1 <= c)%nat -> argsort_ok srt -> ml_dataset K labels pp ->
  Permutation order (copies c (seq 0 (length labels))) -> (forall k, (k < K)%nat -> mixed labels k) ->
  flt = ConfidentLearning \/ flt = PredictedNeqGiven -> ml_num_to_remove o = None -> (1 <= ml_n_jobs o)%nat ->
  exists m, ml_find_label_issues srt labels pp K flt o None = Ok m /\ length m = length labels /\
    ml_find_label_issues srt (pick [] order labels) (pick [] order pp) K flt o None = Ok (pick false order m).
Proof. exact multilabel_cop. Qed.
Print Assumptions C159_multilabel.

(** The scores of the images of object-detection data; [PropDetection.C53_example] meets the hypotheses. *)
Theorem C159_images : forall dist K l p w check s c, (1 <= c)%nat -> (forall a b, SpecDetection.unit_interval (dist a b)) -> SpecDetection.detection_inputs K l p ->
  ModelDetection.detection_scores dist l p w check = Ok s -> ModelDetection.detection_scores dist (copies c l) (copies c p) w check = Ok (copies c s).
Proof. exact images_cop. Qed.
Print Assumptions C159_images.

(** If a tied vote is left to chance, two copies of an example can get different labels. *)
Theorem C159_draw_refuted : exists rnd t M mv mv', (forall r, In r t -> length r = M) /\
  get_majority_vote_label rnd t M None 0 true = Ok mv /\ get_majority_vote_label rnd (copies 2 t) M None 0 true = Ok mv' /\ mv' <> copies 2 mv.
Proof.
  exists (fun i => i), [[a0; a1; None]; [a0; a1; None]; [a2; a2; a2]], 3%nat. eexists. eexists.
  split; [intros r [<-|[<-|[<-|[]]]]; reflexivity|]. split; [vm_compute; reflexivity|]. split; [vm_compute; reflexivity|]. vm_compute. discriminate.
Qed.
Print Assumptions C159_draw_refuted.

(** the table of C35/C36, every example twice *)
Definition twice4 : list nat := [2; 0; 3; 1; 1; 0; 2; 3]%nat.
Example C159_hypotheses : Permutation twice4 (copies 2 (seq 0 (length tbl))) /\ (forall r, In r tbl -> length r = 3%nat) /\ distributions (length tbl) 3 pri.
Proof.
  split; [apply (proj2 (Permutation_count_occ Nat.eq_dec _ _)); intros [|[|[|[|x]]]]; reflexivity|].
  split; [intros r [<-|[<-|[<-|[<-|[]]]]]; reflexivity|exact pri_ok].
Qed.
Example C159_example :
  get_majority_vote_label (fun _ => 0%nat) tbl 3 (Some pri) 3 true = Ok [0; 1; 2; 0]%nat /\
  get_majority_vote_label (fun _ => 0%nat) (pick [] twice4 tbl) 3 (Some (pick [] twice4 pri)) 3 true = Ok [2; 0; 0; 1; 1; 0; 2; 0]%nat /\
  (exists info, get_label_quality_multiannotator (fun x => x) (fun _ => 0%nat) tbl 3 3 pri BestQuality = Ok info) /\
  (exists info, get_label_quality_multiannotator_ensemble (fun x => x) (fun _ => 0%nat) tbl 3 3 [pri; pri] = Ok info) /\
  (exists su, get_active_learning_scores (fun x => x) (fun _ => 0%nat) tbl 3 3 pri [[1#2; 1#2; 0]] = Ok su).
Proof.
  split; [vm_compute; reflexivity|]. split; [vm_compute; reflexivity|]. split; [eexists; vm_compute; reflexivity|]. split; eexists; vm_compute; reflexivity.
Qed.
Example C159_scores_example :
  let labels := [0; 1; 1]%nat in let pp := [[9#10; 1#10]; [4#10; 6#10]; [3#10; 7#10]] in let order := [0; 0; 1; 2; 1; 2]%nat in
  dataset 2 labels pp /\ Permutation order (copies 2 (seq 0 3)) /\
  (exists s, get_label_quality_scores labels pp 2 NormalizedMargin true = Ok s /\ map Qred s = [18#25; 17#25; 19#25]).
Proof.
  cbv zeta. split; [apply dataset_b_ok; vm_compute; reflexivity|].
  split; [apply (proj2 (Permutation_count_occ Nat.eq_dec _ _)); intros [|[|[|x]]]; reflexivity|]. eexists. split; vm_compute; reflexivity.
Qed.
(** the data of C138, every example twice: the hypotheses are those of [C138_example] *)
Example C159_multilabel_example :
  let order := [5; 3; 4; 0; 2; 1; 0; 1; 2; 3; 4; 5]%nat in
  Permutation order (copies 2 (seq 0 (length PropReorder.ex138_labels))) /\
  ml_find_label_issues argsort_ins (pick [] order PropReorder.ex138_labels) (pick [] order PropReorder.ex138_pp) 2 PredictedNeqGiven (PropMultilabel.ex63_options None None) None =
  Ok [true; true; false; false; false; true; false; true; false; true; false; true].
Proof.
  cbv zeta. split; [apply (proj2 (Permutation_count_occ Nat.eq_dec _ _)); intros [|[|[|[|[|[|x]]]]]]; reflexivity|]. vm_compute. reflexivity.
Qed.
Example C159_imbalance_example : exists rep, ModelChecks.class_imbalance 1 2 [0; 0; 1; 0; 0; 1]%nat = Ok rep /\
  ModelChecks.flags rep = [false; false; true; false; false; true].
Proof. eexists. split; vm_compute; reflexivity. Qed.
