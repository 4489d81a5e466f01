(** * Property C146: the unit in which features are measured does not matter *)
From Coq Require Import QArith Qreals Reals List Bool Arith Permutation Sorted.
From Coq Require Lra.
From Verif Require Import Base BaseFacts ModelKnn SpecKnn ModelEntropy ModelOutlier ModelOutlierCheck SpecUnits ProofUnits.
Import ListNotations.
Open Scope Q_scope.

(** Multiplying all distances by the same number (changing the unit of the features) leaves the near-duplicate sets
    and flags alone, as long as the median distance to the nearest neighbour is not below the floor of 1e-6 in either unit;
    and the scores too if no distance to a nearest neighbour is tiny in one unit without being 0 *)
Theorem C146_near_duplicates srt t c g r : argsort_ok srt -> 0 < c ->
  measurable_median c (map (fun row => nth 0 row 0) (fst g)) -> find_near_duplicates srt t g = Ok r ->
  exists r', find_near_duplicates srt t (scaled_graph c g) = Ok r' /\ nd_sets r' = nd_sets r /\ nd_flags r' = nd_flags r /\
    ((forall row, In row (fst g) -> nth 0 row 0 == 0 \/ ((1 # 100000000) < nth 0 row 0 /\ (1 # 100000000) < c * nth 0 row 0)) ->
     nd_scores r' = nd_scores r).
Proof. exact (near_units srt t c g r). Qed.
Print Assumptions C146_near_duplicates.

(** The same for the flags and scores of the outlier check *)
Theorem C146_outliers srt t mt threshold c dist flags scores : argsort_ok srt -> 0 < c ->
  measurable_median c (map qmean dist) -> (forall row, In row dist -> measurable (1 # 1000000) c (qmean row)) ->
  match mt with None => True | Some m => plain_metric m end ->
  knn_issues srt t mt None threshold dist = Ok (flags, scores) ->
  knn_issues srt t mt None threshold (map (map (Qmult c)) dist) = Ok (flags, scores).
Proof. exact (knn_units srt t mt threshold c dist flags scores). Qed.
Print Assumptions C146_outliers.

(** ... and for the out-of-distribution estimator: fitted on the data in another unit it gives the training data the same
    scores, and later gives new data (in that unit) the same scores *)
Theorem C146_estimator {F : Type} (B : backend F) o f f' c nm : (0 < c)%R -> p_knn o = None -> p_scaling o = None -> plain_metric (snd nm) ->
  features_to_knn B f (p_k o) = Ok nm -> features_to_knn B f' (p_k o) = Ok nm -> scaled_search B c f f' None None ->
  (forall d, correct B f' (map (map (Rmult c)) d) = map (map (Rmult c)) (correct B f d)) ->
  (forall l, median B (map (Rmult c) l) = c * median B l)%R -> two_dim B f' = two_dim B f ->
  let avg := mean_of (fst nm) (correct B f (kneighbors B f None (fst nm))) in
  (/ 1000000 <= median B avg)%R -> (/ 1000000 <= c * median B avg)%R -> Forall (measurable_R c) avg ->
  let i := Build_input (Some f) None None in let i' := Build_input (Some f') None None in
  snd (fit_score B o i') = snd (fit_score B o i) /\
  (forall q q', same_dim B f' q' = same_dim B f q -> two_dim B q' = two_dim B q -> scaled_search B c f f' (Some q) (Some q') ->
     Forall (measurable_R c) (mean_of (match p_k o with None => fst nm | Some k => Nat.min k (fst nm) end) (kneighbors B f (Some q) (fst nm))) ->
     snd (score B (fst (fit_score B o i')) (Build_input (Some q') None None)) = snd (score B (fst (fit_score B o i)) (Build_input (Some q) None None))).
Proof. exact (estimator_units B o f f' c nm). Qed.
Print Assumptions C146_estimator.

(** Three points at distance 1 from each other are no near duplicates.  In a unit ten million times larger all three are:
    their median distance is below the floor *)
Definition C146_graph : graph := ([[1; 1]; [1; 1]; [1; 1]], [[1; 2]; [0; 2]; [0; 1]]%nat).
Theorem C146_tiny_units_refuted :
  (exists r, find_near_duplicates argsort_ins (13 # 100) C146_graph = Ok r /\ nd_flags r = [false; false; false]) /\
  (exists r, find_near_duplicates argsort_ins (13 # 100) (scaled_graph (1 # 10000000) C146_graph) = Ok r /\ nd_flags r = [true; true; true]).
Proof. split; (eexists; split; [reflexivity|vm_compute; reflexivity]). Qed.
Print Assumptions C146_tiny_units_refuted.

(** ** A concrete case: in centimetres and in metres *)
Definition C146_pairs : graph :=
  ([[1 # 10; 50]; [1 # 10; 51]; [40; 50]; [45; 60]; [50; 70]], [[1; 2]; [0; 2]; [0; 1]; [2; 0]; [3; 2]]%nat).
Example C146_example_near : measurable_median (1 # 100) (map (fun row => nth 0 row 0) (fst C146_pairs)) /\
  (exists r, find_near_duplicates argsort_ins (13 # 100) C146_pairs = Ok r /\ nd_sets r = [[1]; [0]; []; []; []]%nat /\ nd_flags r = [true; true; false; false; false]) /\
  (exists r, find_near_duplicates argsort_ins (13 # 100) (scaled_graph (1 # 100) C146_pairs) = Ok r /\ nd_sets r = [[1]; [0]; []; []; []]%nat /\ nd_flags r = [true; true; false; false; false]) /\
  (forall row, In row (fst C146_pairs) -> nth 0 row 0 == 0 \/ ((1 # 100000000) < nth 0 row 0 /\ (1 # 100000000) < (1 # 100) * nth 0 row 0)).
Proof.
  split; [|split; [|split]].
  - exists 40. split; [|split; vm_compute; discriminate]. cbn.
    exists [1 # 10; 1 # 10; 40; 45; 50]. split; [reflexivity|]. split.
    + repeat (apply SSorted_cons; [|repeat (apply Forall_cons; [vm_compute; discriminate|]); apply Forall_nil]). apply SSorted_nil.
    + left. exists 2%nat. split; reflexivity.
  - eexists. split; [reflexivity|split; vm_compute; reflexivity].
  - eexists. split; [reflexivity|split; vm_compute; reflexivity].
  - cbn. intros row H. right. repeat (destruct H as [<-|H]; [split; vm_compute; reflexivity|]). destruct H.
Qed.
Definition C146_dist : list (list Q) := [[1; 2]; [1; 3]; [2; 2]; [40; 60]].
Example C146_example_outliers : measurable_median (1 # 100) (map qmean C146_dist) /\
  (forall row, In row C146_dist -> measurable (1 # 1000000) (1 # 100) (qmean row)) /\
  exists flags scores, knn_issues argsort_ins 1 None None None C146_dist = Ok (flags, scores) /\ flags = [false; false; false; true].
Proof.
  split; [|split].
  - exists 2. split; [|split; vm_compute; discriminate]. cbn.
    exists (map qmean C146_dist). split; [reflexivity|]. split.
    + cbn. repeat (apply SSorted_cons; [|repeat (apply Forall_cons; [vm_compute; discriminate|]); apply Forall_nil]). apply SSorted_nil.
    + right. exists 1%nat. split; reflexivity.
  - cbn. intros row H. right. repeat (destruct H as [<-|H]; [split; vm_compute; discriminate|]). destruct H.
  - eexists _, _. split; [reflexivity|vm_compute; reflexivity].
Qed.
(** a backend in which points are numbers and the search returns the distances to the points 0 and 1 times the data's unit *)
Open Scope R_scope.
Definition C146_backend : backend R :=
  {| two_dim := fun _ => true; same_dim := fun _ _ => true; features_to_knn := fun _ _ => Ok (1%nat, Euclidean);
     kneighbors := fun f q n => match q with None => [[f]; [f]] | Some x => [[Rabs (x - f)]] end;
     correct := fun _ d => d; median := fun l => nth 0 l 0; rsort := fun l => l |}.
Example C146_example_estimator : scaled_search C146_backend 2 1 2 None None /\ scaled_search C146_backend 2 1 2 (Some 4) (Some 8) /\
  (forall l, median C146_backend (map (Rmult 2) l) = 2 * median C146_backend l) /\
  / 1000000 <= median C146_backend (mean_of 1 (kneighbors C146_backend 1 None 1)) /\
  Forall (measurable_R 2) (mean_of 1 (kneighbors C146_backend 1 None 1)) /\
  Forall (measurable_R 2) (mean_of 1 (kneighbors C146_backend 1 (Some 4) 1)).
Proof.
  assert (A : Rabs (4 - 1) = 3) by (rewrite Rabs_right; Lra.lra). assert (A2 : Rabs (8 - 2) = 6) by (rewrite Rabs_right; Lra.lra).
  split; [|split; [|split; [|split; [|split]]]].
  - intros n. cbn. repeat f_equal; Lra.lra.
  - intros n. cbn [kneighbors C146_backend map]. rewrite A, A2. repeat f_equal; Lra.lra.
  - intros [|x l]; cbn; Lra.lra.
  - cbn. Lra.lra.
  - cbn. repeat (apply Forall_cons; [right; Lra.lra|]). apply Forall_nil.
  - cbn [kneighbors C146_backend mean_of map firstn fold_right length INR]. rewrite A. apply Forall_cons; [right; Lra.lra|apply Forall_nil].
Qed.
