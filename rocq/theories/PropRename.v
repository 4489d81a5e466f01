(** * C151: the numbering of the classes of multi-annotator data *)
From Coq Require Import QArith List Bool Arith Lia Lqa Permutation.
From Verif Require Import Base BaseFacts ModelUtil ModelCount ModelRank ModelMultiannotator SpecCount SpecMultiannotator SpecSymmetry SpecRows SpecRename
  ProofMultiannotator ProofRename3 PropMultiannotator.
Import ListNotations.
Open Scope Q_scope.

(** renaming the classes renames the majority votes, when none of them is drawn at random *)
Theorem C151_votes : forall K M names t Kpp verbose mv rnd', Permutation names (seq 0 K) -> annotations M K t ->
  (forall rnd, get_majority_vote_label rnd t M None Kpp verbose = Ok mv) ->
  get_majority_vote_label rnd' (renamed_table names t) M None Kpp verbose = Ok (renamed_labels names mv).
Proof. exact votes_none_full. Qed.
Print Assumptions C151_votes.
Theorem C151_votes_with_probabilities : forall K M names t p p' verbose mv rnd', Permutation names (seq 0 K) -> annotations M K t ->
  length p = length t -> (forall row, In row p -> length row = K) -> renamed_matrix names p p' ->
  (forall rnd, get_majority_vote_label rnd t M (Some p) K verbose = Ok mv) ->
  get_majority_vote_label rnd' (renamed_table names t) M (Some p') K verbose = Ok (renamed_labels names mv).
Proof. exact votes_some_full. Qed.
Print Assumptions C151_votes_with_probabilities.

(** consensus labels are renamed, the columns of the posterior move along, and no quality, agreement, weight or statistic changes *)
Theorem C151_quality : forall fsqrt rnd rnd' M K names t prior prior' method info, Permutation names (seq 0 K) -> (forall r, In r t -> length r = M) -> (2 <= K)%nat ->
  distributions (length t) K prior -> clear_prediction prior -> renamed_matrix names prior prior' -> (forall x, 0 < x -> 0 < fsqrt x) ->
  (forall r1 r2, get_majority_vote_label r1 t M (Some prior) K false = get_majority_vote_label r2 t M (Some prior) K false) ->
  get_label_quality_multiannotator fsqrt rnd t M K prior method = Ok info ->
  exists info', get_label_quality_multiannotator fsqrt rnd' (renamed_table names t) M K prior' method = Ok info' /\ renamed_consensus names info' info /\ renamed_stats names M t info' info.
Proof. exact quality_full. Qed.
Print Assumptions C151_quality.
Theorem C151_ensemble : forall fsqrt rnd rnd' M K names t priors priors' info, Permutation names (seq 0 K) -> (forall r, In r t -> length r = M) -> (2 <= K)%nat -> priors <> [] ->
  (forall q, In q priors -> distributions (length t) K q /\ clear_prediction q) -> Forall2 (renamed_matrix names) priors priors' -> (forall x, 0 < x -> 0 < fsqrt x) ->
  (forall r1 r2, get_majority_vote_label r1 t M (Some (average_priors (length t) K priors)) K false = get_majority_vote_label r2 t M (Some (average_priors (length t) K priors)) K false) ->
  get_label_quality_multiannotator_ensemble fsqrt rnd t M K priors = Ok info ->
  exists info', get_label_quality_multiannotator_ensemble fsqrt rnd' (renamed_table names t) M K priors' = Ok info' /\ renamed_consensus names info' info /\ renamed_stats names M t info' info.
Proof. exact ensemble_full. Qed.
Print Assumptions C151_ensemble.

(** the active learning scores of labelled and unlabelled examples do not change *)
Theorem C151_active : forall fsqrt rnd rnd' M K names t prior prior' unl unl' sc u, Permutation names (seq 0 K) -> annotations M K t -> (2 <= K)%nat ->
  distributions (length t) K prior -> clear_prediction prior -> renamed_matrix names prior prior' ->
  (forall row, In row unl -> length row = K) -> renamed_matrix names unl unl' -> (forall x, 0 < x -> 0 < fsqrt x) ->
  (forall r1 r2, get_majority_vote_label r1 t M (Some prior) K false = get_majority_vote_label r2 t M (Some prior) K false) ->
  get_active_learning_scores fsqrt rnd t M K prior unl = Ok (sc, u) ->
  exists sc' u', get_active_learning_scores fsqrt rnd' (renamed_table names t) M K prior' unl' = Ok (sc', u') /\ Forall2 Qeq sc' sc /\ Forall2 Qeq u' u.
Proof. exact active_full. Qed.
Print Assumptions C151_active.

(** a label drawn at random depends on the numbering even with the generator in the same state *)
Theorem C151_draw_refuted : exists rnd t mv mv', annotations 3 3 t /\ get_majority_vote_label rnd t 3 None 0 true = Ok mv /\
  get_majority_vote_label rnd (renamed_table [1; 0; 2]%nat t) 3 None 0 true = Ok mv' /\ mv' <> renamed_labels [1; 0; 2]%nat mv.
Proof.
  exists (fun _ => 0%nat), [[a0; a1; None]; [a0; a1; None]; [a2; a2; a2]]. eexists. eexists. split.
  - constructor.
    + intros r [<-|[<-|[<-|[]]]]; reflexivity.
    + intros r [<-|[<-|[<-|[]]]]; eexists; left; reflexivity.
    + intros r k [<-|[<-|[<-|[]]]] H; cbn in H; intuition (try discriminate); match goal with E : Some _ = Some k |- _ => injection E as <- end; lia.
  - split; [vm_compute; reflexivity|]. split; [vm_compute; reflexivity|]. vm_compute. discriminate.
Qed.
Print Assumptions C151_draw_refuted.
(** a row of probabilities with two largest entries counts as predicting the class with the smaller number: the weight of the model depends on the numbering *)
Definition swap : list nat := [1; 0; 2]%nat.
Definition pri_swap : list (list Q) := [[1#4; 1#2; 1#4]; [1#2; 1#4; 1#4]; [1#4; 1#4; 1#2]; [1#3; 1#3; 1#3]].
Theorem C151_tied_prediction_refuted : exists info info',
  get_label_quality_multiannotator (fun x => x) (fun _ => 0%nat) tbl 3 3 pri MajorityVote = Ok info /\
  get_label_quality_multiannotator (fun x => x) (fun _ => 0%nat) (renamed_table swap tbl) 3 3 pri_swap MajorityVote = Ok info' /\
  renamed_matrix swap pri pri_swap /\ ~ Forall2 Qeq (model_weights (c_post info')) (model_weights (c_post info)).
Proof.
  eexists. eexists. split; [vm_compute; reflexivity|]. split; [vm_compute; reflexivity|]. split.
  - repeat constructor; cbn [length]; intros [|[|[|k]]] Hk; try lia; reflexivity.
  - intros H. inversion H as [|x y ? ? E]; subst. vm_compute in E. discriminate.
Qed.
Print Assumptions C151_tied_prediction_refuted.
(** among labels of one annotator tied in everything the one with the smaller number is reported as the worst *)
Theorem C151_worst_class_refuted : exists t prior prior' info info',
  distributions (length t) 2 prior /\ clear_prediction prior /\ renamed_matrix [1; 0]%nat prior prior' /\
  get_label_quality_multiannotator (fun x => x) (fun _ => 0%nat) t 2 2 prior BestQuality = Ok info /\
  get_label_quality_multiannotator (fun x => x) (fun _ => 0%nat) (renamed_table [1; 0]%nat t) 2 2 prior' BestQuality = Ok info' /\
  st_worst (annotator_stats t info 0) = 0%nat /\ st_worst (annotator_stats (renamed_table [1; 0]%nat t) info' 0) = 0%nat.
Proof.
  exists [[a0; a0]; [a1; a1]], [[3#4; 1#4]; [1#4; 3#4]], [[1#4; 3#4]; [3#4; 1#4]]. eexists. eexists.
  split; [split; [reflexivity|]; intros row [<-|[<-|[]]]; (split; [reflexivity|]; split; [intros x [<-|[<-|[]]]; lra|reflexivity])|].
  split; [intros row i j [<-|[<-|[]]] Hi Hj Hn E; cbn [length] in *; destruct i as [|[|i]], j as [|[|j]]; try lia; vm_compute in E; discriminate|].
  split; [repeat constructor; cbn [length]; intros [|[|k]] Hk; try lia; reflexivity|].
  split; [vm_compute; reflexivity|]. split; [vm_compute; reflexivity|]. split; vm_compute; reflexivity.
Qed.
Print Assumptions C151_worst_class_refuted.

(** the table of C35/C36 with class 0 renamed to 2, 1 to 0 and 2 to 1 *)
Definition turn : list nat := [2; 0; 1]%nat.
Definition clear : list (list Q) := [[1#2; 1#4; 1#4]; [1#4; 1#2; 1#4]; [1#4; 1#4; 1#2]; [1#2; 1#3; 1#6]].
Definition clear_turned : list (list Q) := [[1#4; 1#4; 1#2]; [1#2; 1#4; 1#4]; [1#4; 1#2; 1#4]; [1#3; 1#6; 1#2]].
Example C151_hypotheses : Permutation turn (seq 0 3) /\ annotations 3 3 tbl /\ distributions (length tbl) 3 clear /\ clear_prediction clear /\ renamed_matrix turn clear clear_turned /\
  (forall r1 r2, get_majority_vote_label r1 tbl 3 (Some clear) 3 false = get_majority_vote_label r2 tbl 3 (Some clear) 3 false) /\
  renamed_table turn tbl = [[a2; a2; a0]; [a0; None; a0]; [a1; a0; a1]; [a2; a0; None]].
Proof.
  split; [apply NoDup_Permutation; [repeat constructor; cbn; intuition discriminate|apply seq_NoDup|cbn; tauto]|].
  split; [apply tbl_ok|].
  split; [split; [reflexivity|]; intros row [<-|[<-|[<-|[<-|[]]]]]; (split; [reflexivity|]; split; [intros x [<-|[<-|[<-|[]]]]; lra|reflexivity])|].
  split.
  { intros row i j Hr Hi Hj Hn E. assert (HX : exists h, (h < 3)%nat /\ forall k, (k < 3)%nat -> k <> h -> nth k row 0 < nth h row 0).
    { destruct Hr as [<-|[<-|[<-|[<-|[]]]]]; [exists 0%nat|exists 1%nat|exists 2%nat|exists 0%nat]; (split; [lia|]); intros [|[|[|k]]] Hk Hk'; try lia; reflexivity. }
    assert (L : length row = 3%nat) by (destruct Hr as [<-|[<-|[<-|[<-|[]]]]]; reflexivity). rewrite L in *. destruct HX as (h & Hh & HX). exists h. split; [auto|].
    destruct (Nat.eq_dec i h) as [->|]; [|auto]. exfalso. specialize (HX j Hj ltac:(auto)). lra. }
  split; [repeat constructor; cbn [length]; intros [|[|[|k]]] Hk; try lia; reflexivity|]. split; [|reflexivity].
  intros r1 r2. vm_compute. reflexivity.
Qed.
Example C151_example :
  get_majority_vote_label (fun _ => 0%nat) tbl 3 (Some clear) 3 true = Ok [0; 1; 2; 0]%nat /\
  get_majority_vote_label (fun _ => 0%nat) (renamed_table turn tbl) 3 (Some clear_turned) 3 true = Ok [2; 0; 1; 2]%nat /\
  (exists info, get_label_quality_multiannotator (fun x => x) (fun _ => 0%nat) tbl 3 3 clear BestQuality = Ok info /\ distinct_classes tbl (c_label info) (c_quality info) 0) /\
  (exists info, get_label_quality_multiannotator_ensemble (fun x => x) (fun _ => 0%nat) tbl 3 3 [clear; clear] = Ok info) /\
  (forall r1 r2, get_majority_vote_label r1 tbl 3 (Some (average_priors 4 3 [clear; clear])) 3 false = get_majority_vote_label r2 tbl 3 (Some (average_priors 4 3 [clear; clear])) 3 false) /\
  (exists su, get_active_learning_scores (fun x => x) (fun _ => 0%nat) tbl 3 3 clear [[1#2; 1#2; 0]] = Ok su).
Proof.
  split; [vm_compute; reflexivity|]. split; [vm_compute; reflexivity|]. split.
  - eexists. split; [vm_compute; reflexivity|]. intros k1 k2 H1 H2 H3 H4. cbn [c_label c_quality] in *.
    destruct k1 as [|[|[|k1]]]; [| | |vm_compute in H1; lia]; (destruct k2 as [|[|[|k2]]]; [| | |vm_compute in H2; discriminate]); try reflexivity; try (vm_compute in H2; discriminate); vm_compute in H4; discriminate.
  - split; [eexists; vm_compute; reflexivity|]. split; [intros r1 r2; vm_compute; reflexivity|]. eexists; vm_compute; reflexivity.
Qed.
