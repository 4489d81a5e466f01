(** * Property C96: consensus by agreement (quality_method="agreement") *)
From Coq Require Import QArith List Bool Arith Lia Lqa.
From Verif Require Import Base SpecCount ModelMultiannotator ModelAgreement SpecMultiannotator SpecAgreement ProofAgreement.
Import ListNotations.
Open Scope Q_scope.

(** the quality of a consensus label is the share of the labels given to the example that equal it; the class
    probabilities are distributions *)
Theorem C96_quality rnd ty t M K prior method info : (forall r, In r t -> length r = M) ->
  label_quality_agreement rnd ty t M K prior method = Ok info ->
  length (a_label info) = length t /\ length (a_quality info) = length t /\
  forall i, (i < length t)%nat -> nth i (a_quality info) 0 == share (nth i t []) (nth i (a_label info) 0%nat).
Proof. exact (quality_full rnd ty t M K prior method info). Qed.
Print Assumptions C96_quality.
Theorem C96_distributions rnd ty t M K prior method info : (forall r, In r t -> length r = M) ->
  label_quality_agreement rnd ty t M K prior method = Ok info -> distributions (length t) K (a_post info).
Proof. exact (post_full rnd ty t M K prior method info). Qed.
Print Assumptions C96_distributions.

(** consensus_method="majority_vote" *)
Theorem C96_majority_vote rnd ty t M K prior info : (forall r, In r t -> length r = M) ->
  label_quality_agreement rnd ty t M K prior MajorityVote = Ok info ->
  forall i, (i < length t)%nat -> plurality (nth i t []) (nth i (a_label info) 0%nat).
Proof. exact (majority_full rnd ty t M K prior info). Qed.
Print Assumptions C96_majority_vote.

(** consensus_method="best_quality" (the default) on an array of integers *)
Theorem C96_best_quality_integers rnd t M K prior info : (forall r, In r t -> length r = M) ->
  label_quality_agreement rnd Integers t M K prior BestQuality = Ok info ->
  forall i, (i < length t)%nat -> plurality (nth i t []) (nth i (a_label info) 0%nat) /\
    forall k, (k < K)%nat -> mget (a_post info) i k == share (nth i t []) k.
Proof. exact (integers_full rnd t M K prior info). Qed.
Print Assumptions C96_best_quality_integers.

(** ... and on a DataFrame or an array with missing entries: the clear winner [k] is reported as the number of
    different smaller labels the example received.  Missing from the full property: examples with gaps. *)
Theorem C96_best_quality_floats_partial rnd t M K prior info : (forall r, In r t -> length r = M) ->
  label_quality_agreement rnd Floats t M K prior BestQuality = Ok info ->
  forall i, (i < length t)%nat ->
    (forall k, clear_winner (nth i t []) k -> nth i (a_label info) 0%nat = rank_among (nth i t []) k) /\
    ((forall k, ~ clear_winner (nth i t []) k) -> plurality (nth i t []) (nth i (a_label info) 0%nat)) /\
    (no_gaps (nth i t []) -> plurality (nth i t []) (nth i (a_label info) 0%nat)).
Proof. exact (floats_full rnd t M K prior info). Qed.
Print Assumptions C96_best_quality_floats_partial.

Notation a0 := (Some 0%nat). Notation a1 := (Some 1%nat). Notation a2 := (Some 2%nat).
Definition ex96 : list row := [[a0; a0; a1]; [a2; a2; a2]; [a2; a1; a2]; [a0; a1; a2]].
Definition ex96_prior : list (list Q) := [[1#2; 1#4; 1#4]; [1#4; 1#4; 1#2]; [1#4; 1#4; 1#2]; [1#4; 1#2; 1#4]].
Definition show96 (r : res agreement_info) := match r with Ok i => Some (a_label i, map Qred (a_quality i)) | Raise _ => None end.
Example C96_example :
  show96 (label_quality_agreement (fun _ => 0%nat) Integers ex96 3 3 ex96_prior BestQuality) = Some ([0; 2; 2; 1]%nat, [2#3; 1; 2#3; 1#3]) /\
  show96 (label_quality_agreement (fun _ => 0%nat) Floats ex96 3 3 ex96_prior MajorityVote) = Some ([0; 2; 2; 1]%nat, [2#3; 1; 2#3; 1#3]).
Proof. split; vm_compute; reflexivity. Qed.
Example C96_example_no_gaps : no_gaps [a0; a0; a1] /\ clear_winner [a0; a0; a1] 0%nat /\
  no_gaps [a0; a1; a2] /\ (forall k, ~ clear_winner [a0; a1; a2] k).
Proof.
  split. { intros k l H Hl. simpl in *. destruct H as [H|[H|[H|[]]]]; injection H as <-; try lia. assert (l = 0%nat) by lia. subst. auto. }
  split. { split; [vm_compute; lia|]. intros [|[|k']] N; vm_compute; try lia. }
  split. { intros k l H Hl. simpl in *. destruct H as [H|[H|[H|[]]]]; injection H as <-; destruct l as [|[|l]]; try lia; auto. }
  intros [|[|[|k]]] (_ & C); [specialize (C 1%nat)|specialize (C 0%nat)|specialize (C 0%nat)|specialize (C 0%nat)]; vm_compute in C; lia.
Qed.

(** the same annotations in a DataFrame: the example all annotators call class 2 is reported as class 0 with
    quality 0, and the one with votes 2, 1, 2 as class 1 *)
Theorem C96_best_quality_refuted : exists info,
  label_quality_agreement (fun _ => 0%nat) Floats ex96 3 3 ex96_prior BestQuality = Ok info /\
  clear_winner (nth 1 ex96 []) 2 /\ nth 1 (a_label info) 0%nat = 0%nat /\ nth 1 (a_quality info) 0 == 0 /\
  clear_winner (nth 2 ex96 []) 2 /\ nth 2 (a_label info) 0%nat = 1%nat.
Proof.
  eexists. split; [vm_compute; reflexivity|].
  split. { split; [vm_compute; lia|]. intros [|[|[|k]]] N; vm_compute; try lia. }
  split; [reflexivity|]. split; [reflexivity|].
  split. { split; [vm_compute; lia|]. intros [|[|[|k]]] N; vm_compute; try lia. }
  reflexivity.
Qed.
Print Assumptions C96_best_quality_refuted.
