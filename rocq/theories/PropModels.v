(** * Several models in multi-annotator data: C143 *)
From Coq Require Import QArith List Bool Arith Permutation Lia Lqa.
From Verif Require Import Base SpecCount ModelMultiannotator SpecMultiannotator SpecSymmetry SpecRows SpecModels ProofModels PropMultiannotator.
Import ListNotations.
Open Scope Q_scope.

(** ** C143 *)
(** An ensemble of one model is that model. *)
Theorem C143_one_model : forall fsqrt rnd t M K prior, length prior = length t ->
  get_label_quality_multiannotator_ensemble fsqrt rnd t M K [prior] = get_label_quality_multiannotator fsqrt rnd t M K prior BestQuality.
Proof. exact C143_single_full. Qed.
Print Assumptions C143_one_model.

(** The order of the models does not matter. *)
Theorem C143_model_order : forall t M K priors order fsqrt rnd info, Permutation order (seq 0 (length priors)) ->
  (forall r, In r t -> length r = M) -> (2 <= K)%nat -> priors <> [] ->
  (forall q, In q priors -> distributions (length t) K q) -> (forall x, 0 < x -> 0 < fsqrt x) ->
  get_label_quality_multiannotator_ensemble fsqrt rnd t M K priors = Ok info ->
  exists info', get_label_quality_multiannotator_ensemble fsqrt rnd t M K (pick [] order priors) = Ok info' /\
    c_label info' = c_label info /\ Forall2 Qeq (c_quality info') (c_quality info) /\ c_agreement info' = c_agreement info /\
    same_rows (post (c_post info')) (post (c_post info)) /\ annot_weights (c_post info') = annot_weights (c_post info) /\
    model_weights (c_post info') = pick 0 order (model_weights (c_post info)) /\
    forall j, same_annotator (annotator_stats t info' j) (annotator_stats t info j).
Proof. exact C143_order_full. Qed.
Print Assumptions C143_model_order.

(** A model that contradicts the consensus less often weighs at least as much. *)
Theorem C143_better_model : forall t M K priors fsqrt rnd info a b na nb,
  (forall r, In r t -> length r = M) -> (2 <= K)%nat -> priors <> [] ->
  (forall q, In q priors -> distributions (length t) K q) -> (forall x, 0 < x -> 0 < fsqrt x) ->
  get_label_quality_multiannotator_ensemble fsqrt rnd t M K priors = Ok info ->
  (a < length priors)%nat -> (b < length priors)%nat ->
  holds_for (length t) (contradicts t (nth a priors []) (c_label info)) na ->
  holds_for (length t) (contradicts t (nth b priors []) (c_label info)) nb ->
  (na <= nb)%nat -> nth b (model_weights (c_post info)) 0 <= nth a (model_weights (c_post info)) 0.
Proof. exact C143_weight_full. Qed.
Print Assumptions C143_better_model.

(** a second model, wrong about the second and third example *)
Definition pri_b : list (list Q) := [[1#2; 1#4; 1#4]; [3#4; 1#8; 1#8]; [1#8; 3#4; 1#8]; [0; 1; 0]].
Example C143_example :
  distributions 4 3 pri_b /\
  exists i i', get_label_quality_multiannotator_ensemble (fun x => x) (fun _ => 0%nat) tbl 3 3 [pri; pri_b] = Ok i /\
  get_label_quality_multiannotator_ensemble (fun x => x) (fun _ => 0%nat) tbl 3 3 [pri_b; pri] = Ok i' /\
  c_label i = [0; 1; 2; 1]%nat /\ c_label i' = [0; 1; 2; 1]%nat /\
  nth 1 (model_weights (c_post i)) 0 < nth 0 (model_weights (c_post i)) 0 /\
  contradicts tbl pri_b (c_label i) 1 /\ ~ contradicts tbl pri (c_label i) 1.
Proof.
  split.
  { split; [reflexivity|]. intros rw [<-|[<-|[<-|[<-|[]]]]]; (split; [reflexivity|]; split; [|reflexivity]);
    intros x [<-|[<-|[<-|[]]]]; discriminate. }
  eexists. eexists. split; [vm_compute; reflexivity|]. split; [vm_compute; reflexivity|].
  split; [reflexivity|]. split; [reflexivity|]. split; [vm_compute; reflexivity|].
  split; [split; [vm_compute; lia|vm_compute; lia]|]. intros (_ & H). apply H. reflexivity.
Qed.
