(** * Properties of the numbers CROWDLAB computes (C153) *)
From Coq Require Import QArith List Bool Arith Lia Lqa.
From Verif Require Import Base BaseFacts ModelMultiannotator SpecCount SpecMultiannotator SpecCrowdlab ProofMultiannotator ProofCrowdlab PropMultiannotator.
Import ListNotations.
Open Scope Q_scope.

(** The weight of an annotator, the weight of the model and the posterior probabilities are what the paper on CROWDLAB says, and the quality of a consensus
    label is its posterior probability. *)
Theorem C153_crowdlab fsqrt rnd t M K prior method info :
  (forall r, In r t -> length r = M) -> (2 <= K)%nat -> distributions (length t) K prior -> (forall x, 0 < x -> 0 < fsqrt x) ->
  get_label_quality_multiannotator fsqrt rnd t M K prior method = Ok info -> crowdlab_facts fsqrt t M K [prior] info.
Proof.
  intros W HK HD Hf. refine (pipeline_facts fsqrt rnd t M K [prior] prior method info W HK _ _ Hf); [discriminate|]. intros p [<-|[]]. exact HD.
Qed.
Print Assumptions C153_crowdlab.

(** The same for several models, each with a weight of its own. *)
Theorem C153_ensemble fsqrt rnd t M K priors info :
  (forall r, In r t -> length r = M) -> (2 <= K)%nat -> priors <> [] -> (forall p, In p priors -> distributions (length t) K p) ->
  (forall x, 0 < x -> 0 < fsqrt x) ->
  get_label_quality_multiannotator_ensemble fsqrt rnd t M K priors = Ok info -> crowdlab_facts fsqrt t M K priors info.
Proof. exact (pipeline_facts fsqrt rnd t M K priors (average_priors (length t) K priors) BestQuality info). Qed.
Print Assumptions C153_ensemble.

(** The quality of an annotator. *)
Theorem C153_annotator fsqrt rnd t M K prior method info j :
  (forall r, In r t -> length r = M) -> (2 <= K)%nat -> distributions (length t) K prior -> (forall x, 0 < x -> 0 < fsqrt x) ->
  get_label_quality_multiannotator fsqrt rnd t M K prior method = Ok info -> annotator_facts t info j.
Proof.
  intros W HK HD Hf. refine (pipeline_annotator fsqrt rnd t M K [prior] prior method info j W HK _ _ Hf); [discriminate|]. intros p [<-|[]]. exact HD.
Qed.
Print Assumptions C153_annotator.
Theorem C153_annotator_ensemble fsqrt rnd t M K priors info j :
  (forall r, In r t -> length r = M) -> (2 <= K)%nat -> priors <> [] -> (forall p, In p priors -> distributions (length t) K p) ->
  (forall x, 0 < x -> 0 < fsqrt x) ->
  get_label_quality_multiannotator_ensemble fsqrt rnd t M K priors = Ok info -> annotator_facts t info j.
Proof. exact (pipeline_annotator fsqrt rnd t M K priors (average_priors (length t) K priors) BestQuality info j). Qed.
Print Assumptions C153_annotator_ensemble.

(** The scores of active learning: from the consensus and its weights, or, when every example has one label, from the probability of that label. *)
Theorem C153_active fsqrt rnd t M K prior unl s u :
  (forall r, In r t -> length r = M) -> (2 <= K)%nat -> distributions (length t) K prior -> (forall x, 0 < x -> 0 < fsqrt x) ->
  get_active_learning_scores fsqrt rnd t M K prior unl = Ok (s, u) ->
  (exists info, get_label_quality_multiannotator fsqrt rnd t M K prior BestQuality = Ok info /\
     active_facts t K unl (c_quality info) (qsum (model_weights (c_post info))) (annot_weights (c_post info)) s u) \/
  ((forall r, In r t -> length (labels_of r) = 1%nat) /\ exists q, length q = length t /\
     (forall i k, (i < length t)%nat -> In (Some k) (nth i t []) -> nth i q 0 = nth k (nth i prior []) 0) /\ active_facts t K unl q 1 (repeat 1 M) s u).
Proof. exact (active_all fsqrt rnd t M K prior unl s u). Qed.
Print Assumptions C153_active.

(** Four examples, three annotators, [pri] of PropMultiannotator: the first annotator agreed with five of seven other labels. *)
Definition good : list row := [[a0; a0; a0]; [a1; a1; None]; [a2; a2; a1]; [a0; a0; a1]].
Example C153_example :
  distributions (length good) 3 pri /\ (forall r, In r good -> length r = 3%nat) /\
  meetings good 0 = [1; 1; 1; 1; 0; 1; 0] /\ meetings good 2 = [1; 1; 0; 0; 0; 0] /\ overlap good = [0; 1; 2; 3]%nat /\
  exists info, get_label_quality_multiannotator (fun x => x) (fun _ => 0%nat) good 3 3 pri BestQuality = Ok info /\
    map Qred (annot_weights (c_post info)) = [3 # 7; 3 # 7; 1 # 1000000] /\
    map Qred (model_weights (c_post info)) = [11 # 4] /\
    own_agreements good (c_label info) 2 = [1; 0; 0].
Proof.
  split; [exact pri_ok|]. split; [intros r [<-|[<-|[<-|[<-|[]]]]]; reflexivity|]. split; [reflexivity|]. split; [reflexivity|]. split; [reflexivity|].
  eexists. split; [vm_compute; reflexivity|]. vm_compute. split; [reflexivity|]. split; reflexivity.
Qed.
(** With one label per example the model counts as much as the annotator. *)
Example C153_active_example : exists s u,
  get_active_learning_scores (fun x => x) (fun _ => 0%nat) [[a0; None]; [None; a1]] 2 2 [[1#2; 1#2]; [1#4; 3#4]] [[1; 0]] = Ok (s, u) /\
  map Qred s = [1 # 2; 2 # 3] /\ map Qred u = [3 # 4].
Proof. eexists. eexists. split; [vm_compute; reflexivity|]. split; vm_compute; reflexivity. Qed.
