(** * C141: the order of the examples of multi-annotator data *)
From Coq Require Import QArith List Bool Arith Lia Lqa Permutation.
From Verif Require Import Base BaseFacts ModelUtil ModelCount ModelRank ModelMultiannotator SpecCount SpecMultiannotator SpecSymmetry SpecRows
  ProofMultiannotator ProofRows PropMultiannotator.
Import ListNotations.
Open Scope Q_scope.

(** reordering the examples reorders the majority vote labels, if a random choice is made alike for the same example *)
Theorem C141_majority_vote : forall t order, Permutation order (seq 0 (length t)) -> forall rnd M pp Kpp verbose mv,
  get_majority_vote_label rnd t M pp Kpp verbose = Ok mv ->
  get_majority_vote_label (fun i => rnd (nth i order 0%nat)) (pick [] order t) M (option_map (pick [] order) pp) Kpp verbose = Ok (pick 0%nat order mv).
Proof. intros t order Ho rnd M. exact (vote_full t order M Ho rnd). Qed.
Print Assumptions C141_majority_vote.

(** when no choice is left to chance, the random generator may be in any state *)
Theorem C141_no_draw : forall t order M pp Kpp verbose mv rnd', Permutation order (seq 0 (length t)) ->
  (forall rnd, get_majority_vote_label rnd t M pp Kpp verbose = Ok mv) ->
  get_majority_vote_label rnd' (pick [] order t) M (option_map (pick [] order) pp) Kpp verbose = Ok (pick 0%nat order mv).
Proof. exact vote_any_draw. Qed.
Print Assumptions C141_no_draw.

(** with draws left to chance, the labels do depend on the order in which the examples come *)
Theorem C141_draw_order_refuted : exists rnd t M order mv mv', Permutation order (seq 0 (length t)) /\ (forall r, In r t -> length r = M) /\
  get_majority_vote_label rnd t M None 0 true = Ok mv /\ get_majority_vote_label rnd (pick [] order t) M None 0 true = Ok mv' /\ mv' <> pick 0%nat order mv.
Proof.
  exists (fun i => i), [[a0; a1; None]; [a0; a1; None]; [a2; a2; a2]], 3%nat, [1; 0; 2]%nat. eexists. eexists.
  split; [apply perm_swap|]. split; [intros r [<-|[<-|[<-|[]]]]; reflexivity|]. split; [vm_compute; reflexivity|]. split; [vm_compute; reflexivity|]. vm_compute. discriminate.
Qed.
Print Assumptions C141_draw_order_refuted.

(** labels, qualities, agreements and posterior move along with the examples; the weights and the statistics of the
    annotators do not change.  [np.sqrt] is only required to be positive and to respect equality of numbers. *)
Theorem C141_quality : forall t order, Permutation order (seq 0 (length t)) -> forall fsqrt rnd M K prior method info,
  (forall r, In r t -> length r = M) -> (2 <= K)%nat -> distributions (length t) K prior ->
  (forall x, 0 < x -> 0 < fsqrt x) -> (forall x y, x == y -> fsqrt x == fsqrt y) ->
  get_label_quality_multiannotator fsqrt rnd t M K prior method = Ok info ->
  exists info', get_label_quality_multiannotator fsqrt (fun i => rnd (nth i order 0%nat)) (pick [] order t) M K (pick [] order prior) method = Ok info' /\
    c_label info' = pick 0%nat order (c_label info) /\ Forall2 Qeq (c_quality info') (pick 0 order (c_quality info)) /\
    c_agreement info' = pick 0 order (c_agreement info) /\ same_rows (post (c_post info')) (pick [] order (post (c_post info))) /\
    Forall2 Qeq (model_weights (c_post info')) (model_weights (c_post info)) /\ Forall2 Qeq (annot_weights (c_post info')) (annot_weights (c_post info)) /\
    forall j, let st' := annotator_stats (pick [] order t) info' j in let st := annotator_stats t info j in
      same_value (st_quality st') (st_quality st) /\ same_value (st_agreement st') (st_agreement st) /\ st_worst st' = st_worst st /\ st_num st' = st_num st.
Proof. exact quality_full. Qed.
Print Assumptions C141_quality.

Theorem C141_quality_ensemble : forall t order, Permutation order (seq 0 (length t)) -> forall fsqrt rnd M K priors info,
  (forall r, In r t -> length r = M) -> (2 <= K)%nat -> priors <> [] -> (forall p, In p priors -> distributions (length t) K p) ->
  (forall x, 0 < x -> 0 < fsqrt x) -> (forall x y, x == y -> fsqrt x == fsqrt y) ->
  get_label_quality_multiannotator_ensemble fsqrt rnd t M K priors = Ok info ->
  exists info', get_label_quality_multiannotator_ensemble fsqrt (fun i => rnd (nth i order 0%nat)) (pick [] order t) M K (map (pick [] order) priors) = Ok info' /\
    c_label info' = pick 0%nat order (c_label info) /\ Forall2 Qeq (c_quality info') (pick 0 order (c_quality info)) /\
    c_agreement info' = pick 0 order (c_agreement info) /\ same_rows (post (c_post info')) (pick [] order (post (c_post info))) /\
    Forall2 Qeq (model_weights (c_post info')) (model_weights (c_post info)) /\ Forall2 Qeq (annot_weights (c_post info')) (annot_weights (c_post info)) /\
    forall j, let st' := annotator_stats (pick [] order t) info' j in let st := annotator_stats t info j in
      same_value (st_quality st') (st_quality st) /\ same_value (st_agreement st') (st_agreement st) /\ st_worst st' = st_worst st /\ st_num st' = st_num st.
Proof. exact quality_ensemble_full. Qed.
Print Assumptions C141_quality_ensemble.

(** active learning: the scores of the labelled examples move along, those of the unlabelled ones stay *)
Theorem C141_active : forall t order, Permutation order (seq 0 (length t)) -> forall fsqrt rnd M K prior unlabeled s u,
  (forall r, In r t -> length r = M) -> (2 <= K)%nat -> distributions (length t) K prior ->
  (forall x, 0 < x -> 0 < fsqrt x) -> (forall x y, x == y -> fsqrt x == fsqrt y) ->
  get_active_learning_scores fsqrt rnd t M K prior unlabeled = Ok (s, u) ->
  exists s' u', get_active_learning_scores fsqrt (fun i => rnd (nth i order 0%nat)) (pick [] order t) M K (pick [] order prior) unlabeled = Ok (s', u') /\
    Forall2 Qeq s' (pick 0 order s) /\ Forall2 Qeq u' u.
Proof. intros t order Ho fsqrt rnd M. exact (active_full t order M Ho fsqrt rnd). Qed.
Print Assumptions C141_active.

(** the table of C35/C36 with its examples shuffled *)
Definition shuffle : list nat := [2; 0; 3; 1]%nat.
Example C141_hypotheses : Permutation shuffle (seq 0 (length tbl)) /\ (forall r, In r tbl -> length r = 3%nat) /\ distributions (length tbl) 3 pri /\
  pick [] shuffle tbl <> tbl.
Proof.
  split; [apply NoDup_Permutation; [repeat constructor; cbn; intuition discriminate|apply seq_NoDup|cbn; tauto]|].
  split; [intros r [<-|[<-|[<-|[<-|[]]]]]; reflexivity|]. split; [exact pri_ok|discriminate].
Qed.
Example C141_example :
  get_majority_vote_label (fun _ => 0%nat) tbl 3 (Some pri) 3 true = Ok [0; 1; 2; 0]%nat /\
  get_majority_vote_label (fun _ => 0%nat) (pick [] shuffle tbl) 3 (Some (pick [] shuffle pri)) 3 true = Ok [2; 0; 0; 1]%nat /\
  (exists info, get_label_quality_multiannotator (fun x => x) (fun _ => 0%nat) tbl 3 3 pri BestQuality = Ok info) /\
  (exists info, get_label_quality_multiannotator_ensemble (fun x => x) (fun _ => 0%nat) tbl 3 3 [pri; pri] = Ok info) /\
  (exists su, get_active_learning_scores (fun x => x) (fun _ => 0%nat) tbl 3 3 pri [[1#2; 1#2; 0]] = Ok su).
Proof.
  split; [vm_compute; reflexivity|]. split; [vm_compute; reflexivity|]. split; [eexists; vm_compute; reflexivity|]. split; eexists; vm_compute; reflexivity.
Qed.
