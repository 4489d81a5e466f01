(** * Shuffling the examples shuffles the results of Datalab's checks (C144) *)
From Coq Require Import QArith Reals List ZArith Bool Arith Lia Lqa Permutation.
From Verif Require Import Base BaseFacts ModelChecks ModelKnn ModelOutlierCheck SpecKnn SpecOutlierCheck SpecSymmetry SpecShuffle SpecChecks
  ProofKnnDup ProofShuffle.
Import ListNotations.
Open Scope Q_scope.

(** ** C144 *)
Theorem C144_imbalance : forall threshold K labels order rep, Permutation order (seq 0 (length labels)) ->
  class_imbalance threshold K labels = Ok rep ->
  exists rep', class_imbalance threshold K (pick 0%nat order labels) = Ok rep' /\ shuffled order rep rep'.
Proof. exact imbalance_shuffled. Qed.
Print Assumptions C144_imbalance.

Theorem C144_null : forall V cols (features : list (list (option V))) order rep, Permutation order (seq 0 (length features)) ->
  null_check cols features = Ok rep ->
  exists rep', null_check cols (pick [] order features) = Ok rep' /\ shuffled order rep rep'.
Proof. exact @null_shuffled. Qed.
Print Assumptions C144_null.

(** the scores follow the examples however the sets of cluster ids are visited; the flags and the summary
    do so when the ids are visited in the same order *)
Theorem C144_underperforming : forall m ids labels pp order, Permutation order (seq 0 (length ids)) -> probabilities (length ids) labels pp ->
  forall so so' thr, visits_all so -> visits_all so' -> (forall c, In c ids -> (-1 <= c)%Z) -> thr <= 1 -> (exists c, kept m ids c) ->
  exists rep w rep' w', underperforming_check so thr m ids labels pp = Ok (rep, w) /\
    underperforming_check so' thr m (pick 0%Z order ids) (pick 0%nat order labels) (pick [] order pp) = Ok (rep', w') /\
    Forall2 Qeq (scores rep') (pick 0 order (scores rep)) /\
    (so' (pick 0%Z order ids) = so ids -> w' = w /\ shuffled order rep rep').
Proof. exact under_shuffled. Qed.
Print Assumptions C144_underperforming.

Theorem C144_valuation : forall threshold labels k w nb nb' order rep, (1 <= k)%nat -> neighbor_lists (length labels) k nb ->
  Permutation order (seq 0 (length labels)) -> renumbered order nb nb' -> data_valuation_check threshold k w nb labels = Ok rep ->
  exists rep', data_valuation_check threshold k w nb' (pick 0%nat order labels) = Ok rep' /\ shuffled order rep rep'.
Proof. exact valuation_shuffled. Qed.
Print Assumptions C144_valuation.

Theorem C144_near_duplicates : forall srt N k g g' order t r, argsort_ok srt -> graph_shape N k g -> valid_indices N g ->
  Permutation order (seq 0 N) -> fst g' = pick [] order (fst g) -> renumbered order (snd g) (snd g') ->
  find_near_duplicates srt t g = Ok r ->
  exists r', find_near_duplicates srt t g' = Ok r' /\
    nd_flags r' = pick false order (nd_flags r) /\ nd_scores r' = pick 0%R order (nd_scores r) /\
    length (nd_sets r') = N /\
    forall i j, (i < N)%nat -> (j < N)%nat ->
      (In j (nth i (nd_sets r') []) <-> In (nth j order 0%nat) (nth (nth i order 0%nat) (nd_sets r) [])).
Proof. exact near_shuffled. Qed.
Print Assumptions C144_near_duplicates.

Theorem C144_outliers_pred_probs : forall sort threshold s order fl s', sorts_R sort -> Permutation order (seq 0 (length s)) ->
  pred_probs_issues sort threshold s = Ok (fl, s') ->
  pred_probs_issues sort threshold (pick 0%R order s) = Ok (pick false order fl, pick 0%R order s').
Proof. exact ood_shuffled. Qed.
Print Assumptions C144_outliers_pred_probs.

(** three clusters; the cluster with the lowest ratio is flagged in one order of the same 15 examples, and
    none in the other.  The ids 0 and 8 share a slot of Python's hash table, so that the set of ids is
    visited in the order in which these two are inserted. *)
Definition sh_ids : list Z := repeat 0%Z 5 ++ repeat 8%Z 5 ++ repeat 3%Z 5.
Definition sh_given : list nat := repeat 0%nat 15.
Definition sh_pp : list (list Q) := repeat [3 # 100; 97 # 100] 5 ++ repeat [9 # 100; 91 # 100] 5 ++ repeat [81 # 100; 19 # 100] 5.
Definition sh_order : list nat := seq 5 5 ++ seq 0 5 ++ seq 10 5.
Theorem C144_flagged_group_refuted : exists so, visits_all so /\ Permutation sh_order (seq 0 (length sh_ids)) /\
  probabilities (length sh_ids) sh_given sh_pp /\ (forall c, In c sh_ids -> kept 5 sh_ids c) /\
  exists rep rep', underperforming_check so (1 # 10) 5 sh_ids sh_given sh_pp = Ok (rep, (-2)%Z) /\
    underperforming_check so (1 # 10) 5 (pick 0%Z sh_order sh_ids) (pick 0%nat sh_order sh_given) (pick [] sh_order sh_pp) = Ok (rep', 0%Z) /\
    ~ In true (flags rep) /\ In true (flags rep').
Proof.
  exists nodup_order. split; [intros l; split; [apply NoDup_nodup|intros c; unfold nodup_order; rewrite nodup_In; tauto]|].
  split; [unfold sh_order; cbn [length app repeat sh_ids]; change (seq 0 15) with (seq 0 5 ++ seq 5 5 ++ seq 10 5); rewrite !app_assoc; apply Permutation_app_tail, Permutation_app_comm|].
  split; [split; [reflexivity|split; [reflexivity|]]; intros i Hi; do 15 (destruct i as [|i]; [split; vm_compute; discriminate|]); cbn in Hi; lia|].
  split; [intros c Hc; split; [intros ->; vm_compute in Hc; intuition discriminate|split; [exact Hc|]]|].
  - assert (E : c = 0%Z \/ c = 8%Z \/ c = 3%Z) by (vm_compute in Hc; intuition).
    destruct E as [-> |[-> | ->]]; vm_compute; lia.
  - eexists. eexists. split; [vm_compute; reflexivity|]. split; [vm_compute; reflexivity|]. cbn [flags]. split; [intros H; cbn in H; intuition discriminate|].
    cbn. tauto.
Qed.
Print Assumptions C144_flagged_group_refuted.

(** ** Examples *)
Definition rot : list nat := [2; 0; 1]%nat.
Lemma rot_perm : Permutation rot (seq 0 3).
Proof. apply NoDup_Permutation; [repeat constructor; cbn; intuition discriminate|apply seq_NoDup|cbn; intros; lia]. Qed.
Example C144_imbalance_example : exists rep rep',
  class_imbalance 1 2 [0; 0; 1]%nat = Ok rep /\ class_imbalance 1 2 (pick 0%nat rot [0; 0; 1]%nat) = Ok rep' /\
  flags rep = [false; false; true] /\ flags rep' = [true; false; false].
Proof. eexists. eexists. split; [vm_compute; reflexivity|]. split; [vm_compute; reflexivity|]. split; reflexivity. Qed.
Example C144_null_example : exists rep rep',
  null_check 2 [[Some 1%nat; None]; [None; None]; [Some 2%nat; Some 3%nat]] = Ok rep /\
  null_check 2 (pick [] rot [[Some 1%nat; None]; [None; None]; [Some 2%nat; Some 3%nat]]) = Ok rep' /\
  flags rep = [false; true; false] /\ flags rep' = [false; false; true].
Proof. eexists. eexists. split; [vm_compute; reflexivity|]. split; [vm_compute; reflexivity|]. split; reflexivity. Qed.
Definition sh_nb : list (list nat) := [[1; 2]; [0; 2]; [1; 0]]%nat.
Definition sh_nb' : list (list nat) := [[2; 1]; [2; 0]; [1; 0]]%nat.
Example C144_graph_hypotheses : renumbered rot sh_nb sh_nb' /\ neighbor_lists 3 2 sh_nb /\
  graph_shape 3 2 ([[1 # 10; 5]; [1 # 10; 4]; [4; 5]], sh_nb) /\ valid_indices 3 ([[1 # 10; 5]; [1 # 10; 4]; [4; 5]], sh_nb).
Proof.
  split; [split; [reflexivity|]; intros i Hi; cbn in Hi; do 3 (destruct i as [|i]; [split; [cbn; intros j J; intuition lia|reflexivity]|]); lia|].
  split; [split; [reflexivity|]; intros i Hi; do 3 (destruct i as [|i]; [split; [cbn; lia|split; [repeat constructor; cbn; intuition discriminate|cbn; intros j J; intuition lia]]|]); lia|].
  split; [split; [reflexivity|split; [reflexivity|]]; intros i Hi; do 3 (destruct i as [|i]; [split; reflexivity|]); lia|].
  intros i j Hi. do 3 (destruct i as [|i]; [cbn; intuition lia|]). lia.
Qed.
Example C144_valuation_example : exists rep rep',
  data_valuation_check None 2 2 sh_nb [0; 1; 0]%nat = Ok rep /\ data_valuation_check None 2 2 sh_nb' (pick 0%nat rot [0; 1; 0]%nat) = Ok rep' /\
  flags rep = [false; true; false] /\ flags rep' = [false; false; true].
Proof. eexists. eexists. split; [vm_compute; reflexivity|]. split; [vm_compute; reflexivity|]. split; reflexivity. Qed.
Example C144_near_example : exists r r', 
  find_near_duplicates argsort_ins (13 # 10) ([[1 # 10; 5]; [1 # 10; 4]; [4; 5]], sh_nb) = Ok r /\
  find_near_duplicates argsort_ins (13 # 10) ([[4; 5]; [1 # 10; 5]; [1 # 10; 4]], sh_nb') = Ok r' /\
  nd_flags r = [true; true; false] /\ nd_flags r' = [false; true; true].
Proof. eexists. eexists. split; [cbv -[exp_score]; reflexivity|]. split; [cbv -[exp_score]; reflexivity|]. split; reflexivity. Qed.
