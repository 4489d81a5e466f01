(** * C152: the numbering of the classes does not matter outside confident learning either *)
From Coq Require Import QArith Reals List ZArith Bool Arith Lia Lqa Permutation.
From Verif Require Import Base ModelUtil ModelCount ModelRank ModelPool ModelFilter ModelBatched ModelToken ModelOutlier ModelChecks ModelSegmentation
  SpecCount SpecFilter SpecRank SpecBatched SpecToken SpecSegmentation SpecOutlierCheck SpecSymmetry SpecNumbering
  ProofNumbering2 ProofNumbering3 ProofNumbering4 ProofNumbering5.
Import ListNotations.
Open Scope Q_scope.

(** an out-of-distribution estimator after any history of fits and scores *)
Theorem C152_estimator : forall {F} (B : backend F) K names (o o' : ood F) h h' c c',
  Permutation names (seq 0 K) -> sorts_R (rsort B) ->
  renamed_state names o o' -> Forall2 (renamed_call K names) h h' -> renamed_call K names c c' ->
  renamed_state names (run B h o) (run B h' o') /\ snd (run_call B (run B h' o') c') = snd (run_call B (run B h o) c).
Proof. intros F B K names o o' h h' c c' H1 H2. exact (history_renamed B K names H1 H2 o o' h h' c c'). Qed.

(** Datalab's class imbalance check, when every class has examples and one class is the rarest *)
Theorem C152_imbalance : forall K names threshold labels, Permutation names (seq 0 K) -> labels <> [] ->
  (forall l, In l labels -> (l < K)%nat) -> (forall c, (c < K)%nat -> In c labels) -> one_rarest K labels ->
  class_imbalance threshold K (renamed_labels names labels) = class_imbalance threshold K labels.
Proof. intros K names t labels H. exact (imbalance_renamed K names H t labels). Qed.
(** without the second condition, the check names whichever of the rarest classes has the lowest number *)
Theorem C152_imbalance_tied_refuted : exists K names threshold labels, Permutation names (seq 0 K) /\ (forall c, (c < K)%nat <-> In c labels) /\
  class_imbalance threshold K (renamed_labels names labels) <> class_imbalance threshold K labels.
Proof.
  exists 3%nat, [1; 0; 2]%nat, 1, [0; 1; 2; 2; 2]%nat. split; [apply perm_swap|]. split; [|vm_compute; discriminate].
  intros c. split; [intros H; assert (c = 0 \/ c = 1 \/ c = 2)%nat as [->|[->| ->]] by lia; cbn; tauto|]. intros [<-|[<-|[<-|[<-|[<-|[]]]]]]; lia.
Qed.
(** without the first, a class nobody has is seen only while its number lies below the largest label given *)
Theorem C152_imbalance_absent_refuted : exists K names threshold labels, Permutation names (seq 0 K) /\ (forall l, In l labels -> (l < K)%nat) /\ one_rarest K labels /\
  class_imbalance threshold K (renamed_labels names labels) <> class_imbalance threshold K labels.
Proof.
  exists 3%nat, [0; 2; 1]%nat, 1, [0; 1; 1; 1; 1; 1]%nat. split; [apply perm_skip, perm_swap|]. split; [intros l [<-|[<-|[<-|[<-|[<-|[<-|[]]]]]]]; lia|].
  split; [|vm_compute; discriminate].
  exists 2%nat. split; [lia|]. intros c H N. assert (c = 0 \/ c = 1)%nat as [->| ->] by lia; cbn; lia.
Qed.

(** Datalab's data valuation check *)
Theorem C152_valuation : forall K names threshold k w nb labels, Permutation names (seq 0 K) ->
  (forall l, In l labels -> (l < K)%nat) -> (forall idx j, In idx nb -> In j idx -> (j < length labels)%nat) ->
  data_valuation_check threshold k w nb (renamed_labels names labels) = data_valuation_check threshold k w nb labels.
Proof. intros K names t k w nb labels H. exact (valuation_renamed K names H t k w nb labels). Qed.
(** Datalab's underperforming group check *)
Theorem C152_underperforming : forall K names so threshold m ids labels pp pp',
  (forall l, In l labels -> (l < K)%nat) -> (forall r, In r pp -> length r = K) -> Forall2 (renamed_row names) pp pp' ->
  underperforming_check so threshold m ids (renamed_labels names labels) pp' = underperforming_check so threshold m ids labels pp.
Proof. intros K names so t m ids labels pp pp'. exact (underperforming_renamed K names so t m ids labels pp pp'). Qed.
(** the probabilities Datalab's label check computes from features are the renamed ones *)
Theorem C152_features : forall K names k nb labels, Permutation names (seq 0 K) -> labels <> [] ->
  (forall l, In l labels -> (l < K)%nat) -> (forall c, (c < K)%nat -> In c labels) ->
  (forall idx j, In idx nb -> In j idx -> (j < length labels)%nat) ->
  Forall2 (renamed_row names) (out_of_sample_pred_probs k nb labels) (out_of_sample_pred_probs k nb (renamed_labels names labels)).
Proof. intros K names k nb labels H. exact (features_probs_renamed K names H k nb labels). Qed.

(** label quality scores, also when adjusted by the class thresholds *)
Theorem C152_scores : forall K names labels pp pp' method adjust sc, Permutation names (seq 0 K) -> (2 <= K)%nat -> dataset K labels pp ->
  Forall2 (renamed_row names) pp pp' -> get_label_quality_scores labels pp K method adjust = Ok sc ->
  exists sc', get_label_quality_scores (renamed_labels names labels) pp' K method adjust = Ok sc' /\ Forall2 Qeq sc' sc.
Proof. intros K names labels pp pp' method adjust sc H. exact (scores_any_renamed K names H labels pp pp' method adjust sc). Qed.
(** the batched search for label issues, whatever the batch sizes and the processes *)
Theorem C152_batched : forall K names labels pp pp' srt srt' batch_size batch_size' method js js' m m',
  Permutation names (seq 0 K) -> dataset K labels pp -> Forall2 (renamed_row names) pp pp' -> decided labels pp ->
  argsort_ok srt -> argsort_ok srt' -> (2 <= K)%nat -> own_prob_floor labels pp -> distinct_scores K labels pp method ->
  find_label_issues_batched srt labels pp K batch_size method false false js = Ok m ->
  find_label_issues_batched srt' (renamed_labels names labels) pp' K batch_size' method false false js' = Ok m' -> m' = m.
Proof. intros K names labels pp pp' srt srt' b b' method js js' m m' H1 H2 H3 H4. exact (batched_renamed K names H1 labels pp pp' H2 H3 H4 srt srt' b b' method js js' m m'). Qed.

(** tokens: the same tokens are reported, in the same order when no two scores are equal *)
Theorem C152_tokens : forall K names labels pps pps' srt rank_by flt o, Permutation names (seq 0 K) ->
  Forall2 (Forall2 (renamed_row names)) pps pps' -> dataset K (concat labels) (concat pps) ->
  argsort_ok srt -> (2 <= K)%nat -> decided (concat labels) (concat pps) -> two_classes (concat labels) ->
  num_to_remove_per_class o = None -> (1 <= n_jobs o)%nat -> flt = ConfidentLearning \/ flt = PredictedNeqGiven ->
  exists issues issues', token_find_label_issues srt labels pps K rank_by None flt o = Ok issues /\
    token_find_label_issues srt (map (renamed_labels names) labels) pps' K rank_by None flt o = Ok issues' /\
    Permutation issues' issues /\ (distinct_scores K (concat labels) (concat pps) rank_by -> issues' = issues).
Proof. intros K names labels pps pps' srt rank_by flt o H1 H2 H3. exact (token_issues_renamed K names H1 labels pps pps' H2 H3 srt rank_by flt o). Qed.
Theorem C152_tokens_low_memory : forall K names labels pps pps' srt srt' rank_by js js' flt flt' o o' issues issues', Permutation names (seq 0 K) ->
  Forall2 (Forall2 (renamed_row names)) pps pps' -> dataset K (concat labels) (concat pps) ->
  argsort_ok srt -> argsort_ok srt' -> (2 <= K)%nat -> decided (concat labels) (concat pps) ->
  own_prob_floor (concat labels) (concat pps) -> distinct_scores K (concat labels) (concat pps) rank_by ->
  token_find_label_issues srt labels pps K rank_by (Some js) flt o = Ok issues ->
  token_find_label_issues srt' (map (renamed_labels names) labels) pps' K rank_by (Some js') flt' o' = Ok issues' -> issues' = issues.
Proof.
  intros K names labels pps pps' srt srt' rank_by js js' flt flt' o o' i i' H1 H2 H3.
  exact (token_low_memory_renamed K names H1 labels pps pps' H2 H3 srt srt' rank_by js js' flt flt' o o' i i').
Qed.
Theorem C152_token_scores : forall K names labels pps pps' method ss ts, Permutation names (seq 0 K) ->
  Forall2 (Forall2 (renamed_row names)) pps pps' -> dataset K (concat labels) (concat pps) -> (2 <= K)%nat ->
  token_get_label_quality_scores labels pps K method = Ok (ss, ts) ->
  exists ss' ts', token_get_label_quality_scores (map (renamed_labels names) labels) pps' K method = Ok (ss', ts') /\
    Forall2 Qeq ss' ss /\ Forall2 (Forall2 Qeq) ts' ts.
Proof. intros K names labels pps pps' method ss ts H1 H2 H3. exact (token_scores_renamed K names H1 labels pps pps' H2 H3 method ss ts). Qed.

(** segmentation without downsampling: the same pixels are flagged, with the same scores *)
Theorem C152_segmentation : forall names labels labels' pp pp' srt srt' b b' js js' issues issues', Permutation names (seq 0 (tK pp)) ->
  renamed_images names labels labels' -> renamed_pixels names pp pp' ->
  sN labels = tN pp -> sH labels = tH pp -> sW labels = tW pp -> dataset (tK pp) (all_labels labels) (all_rows pp) -> clear_pixels pp -> (2 <= tK pp)%nat ->
  argsort_ok srt -> argsort_ok srt' -> (0 < sH labels)%nat -> (0 < sW labels)%nat ->
  own_prob_floor (all_labels labels) (all_rows pp) -> distinct_pixels labels pp ->
  seg_find_label_issues srt labels pp b js 1 = Ok issues -> seg_find_label_issues srt' labels' pp' b' js' 1 = Ok issues' ->
  same_array issues' issues.
Proof.
  intros names labels labels' pp pp' srt srt' b b' js js' i i' H1 H2 H3 H4 H5 H6 H7 H8 H9.
  exact (segmentation_renamed labels labels' pp pp' names H1 H2 H3 H4 H5 H6 H7 H8 H9 srt srt' b b' js js' i i').
Qed.
Theorem C152_pixel_scores : forall names labels labels' pp pp' sc,
  renamed_images names labels labels' -> renamed_pixels names pp pp' ->
  sN labels = tN pp -> sH labels = tH pp -> sW labels = tW pp -> dataset (tK pp) (all_labels labels) (all_rows pp) -> (2 <= tK pp)%nat ->
  seg_pixel_scores labels pp = Ok sc -> exists sc', seg_pixel_scores labels' pp' = Ok sc' /\ same_array sc' sc.
Proof. intros names labels labels' pp pp' sc H2 H3 H4 H5 H6 H7 H8. exact (pixel_scores_renamed labels labels' pp pp' names H2 H3 H4 H5 H6 H7 H8 sc). Qed.

(** with downsampling the labels of a block are averaged as numbers, so the numbering does matter: the label of a
    block with a pixel of class 0 and a pixel of class 2 is class 1 *)
Definition ex_labels : arr3 nat := {| sN := 1; sH := 2; sW := 2; at3 := fun _ i j => if Nat.eqb j 0 then 0%nat else 2%nat |}.
Definition ex_pp : arr4 := {| tN := 1; tK := 3; tH := 2; tW := 2;
  at4 := fun _ k i j => nth k (if Nat.eqb j 0 then [8#10; 1#10; 1#10] else [1#10; 1#10; 8#10]) 0 |}.
Definition ex_names : list nat := [0; 2; 1]%nat.
Definition ex_labels' : arr3 nat := {| sN := 1; sH := 2; sW := 2; at3 := fun n i j => nth (at3 ex_labels n i j) ex_names 0%nat |}.
Definition ex_pp' : arr4 := {| tN := 1; tK := 3; tH := 2; tW := 2; at4 := fun n k i j => at4 ex_pp n (nth k ex_names 0%nat) i j |}.
Theorem C152_downsampled_refuted : exists names labels labels' pp pp' small small', Permutation names (seq 0 (tK pp)) /\
  renamed_images names labels labels' /\ renamed_pixels names pp pp' /\
  downsample_arrays labels pp 2 = Ok small /\ downsample_arrays labels' pp' 2 = Ok small' /\
  at3 (fst small) 0 0 0 = 1%nat /\ at3 (fst small') 0 0 0 <> nth (at3 (fst small) 0 0 0) names 0%nat.
Proof.
  exists ex_names, ex_labels, ex_labels', ex_pp, ex_pp'. eexists. eexists. split; [apply perm_skip, perm_swap|].
  split; [repeat split|]. split.
  { repeat split. intros n k i j _ Hk _ _. cbn [tK ex_pp] in Hk. assert (k = 0 \/ k = 1 \/ k = 2)%nat as [->|[->| ->]] by lia; reflexivity. }
  split; [reflexivity|]. split; [reflexivity|]. split; [vm_compute; reflexivity|vm_compute; discriminate].
Qed.

(** ** A concrete case: three classes, 0 becoming 2, 1 becoming 0 and 2 becoming 1 *)
Definition cls : list nat := [2; 0; 1]%nat.
Definition lab : list nat := [0; 1; 2; 0; 1; 0]%nat.
Definition probs : list (list Q) := [[7#10; 2#10; 1#10]; [1#10; 8#10; 1#10]; [10#100; 25#100; 65#100]; [6#100; 90#100; 4#100]; [20#100; 75#100; 5#100]; [90#100; 6#100; 4#100]].
Definition probs' : list (list Q) := map (fun r => [nth 1 r 0; nth 2 r 0; nth 0 r 0]) probs.
Example C152_example_names : Permutation cls (seq 0 3).
Proof. apply Permutation_sym. change (Permutation (0 :: [1; 2])%nat [2; 0; 1]%nat). apply (Permutation_cons_app [2]%nat [1]%nat). apply perm_swap. Qed.
Example C152_example_data : dataset 3 lab probs /\ Forall2 (renamed_row cls) probs probs' /\ own_prob_floor lab probs.
Proof.
  split; [constructor; [reflexivity|discriminate| | |]|split].
  - intros l H. repeat (destruct H as [<-|H]; [lia|]). destruct H.
  - intros r H. repeat (destruct H as [<-|H]; [reflexivity|]). destruct H.
  - intros r x H. repeat (destruct H as [<-|H]; [intros H'; repeat (destruct H' as [<-|H']; [split; vm_compute; discriminate|]); destruct H'|]). destruct H.
  - unfold probs', probs. cbn [map]. repeat constructor; intros k Hk; cbn in Hk; assert (k = 0 \/ k = 1 \/ k = 2)%nat as [->|[->| ->]] by lia; reflexivity.
  - intros e He. cbn in He. assert (e = 0 \/ e = 1 \/ e = 2 \/ e = 3 \/ e = 4 \/ e = 5)%nat as [->|[->|[->|[->|[->| ->]]]]] by lia; vm_compute; discriminate.
Qed.
Example C152_example_decided : decided lab probs /\ one_rarest 3 lab /\ distinct_scores 3 lab probs SelfConfidence.
Proof.
  split; [|split].
  - intros e He. cbn in He. split.
    + assert (e = 0 \/ e = 1 \/ e = 2 \/ e = 3 \/ e = 4 \/ e = 5)%nat as [->|[->|[->|[->|[->| ->]]]]] by lia;
        intros i j Hi Hj N; cbn in Hi, Hj; assert (i = 0 \/ i = 1 \/ i = 2)%nat as [->|[->| ->]] by lia; assert (j = 0 \/ j = 1 \/ j = 2)%nat as [->|[->| ->]] by lia;
        try congruence; intros E; vm_compute in E; try discriminate;
        first [exists 0%nat; split; [cbn; lia|vm_compute; reflexivity]|exists 1%nat; split; [cbn; lia|vm_compute; reflexivity]].
    + assert (e = 0 \/ e = 1 \/ e = 2 \/ e = 3 \/ e = 4 \/ e = 5)%nat as [->|[->|[->|[->|[->| ->]]]]] by lia;
        intros j Hj; cbn in Hj; assert (j = 0 \/ j = 1 \/ j = 2)%nat as [->|[->| ->]] by lia; vm_compute; discriminate.
  - exists 2%nat. split; [lia|]. intros c H N. assert (c = 0 \/ c = 1)%nat as [->| ->] by lia; cbn; lia.
  - intros sc e e' E He He'. vm_compute in E. injection E as <-. cbn in He, He'.
    assert (e = 0 \/ e = 1 \/ e = 2 \/ e = 3 \/ e = 4 \/ e = 5)%nat as [->|[->|[->|[->|[->| ->]]]]] by lia;
    assert (e' = 0 \/ e' = 1 \/ e' = 2 \/ e' = 3 \/ e' = 4 \/ e' = 5)%nat as [->|[->|[->|[->|[->| ->]]]]] by lia; intros Z; try reflexivity; vm_compute in Z; discriminate.
Qed.
Example C152_example_batched : find_label_issues_batched argsort_ins lab probs 3 4 SelfConfidence false false (fun _ => Serial) = Ok [false; false; false; true; false; false] /\
  find_label_issues_batched argsort_ins (renamed_labels cls lab) probs' 3 2 SelfConfidence false false (fun _ => Serial) = Ok [false; false; false; true; false; false].
Proof. split; vm_compute; reflexivity. Qed.
Example C152_example_imbalance : exists r, class_imbalance 1 3 lab = Ok r /\ flags r = [false; false; true; false; false; false] /\
  class_imbalance 1 3 (renamed_labels cls lab) = Ok r.
Proof. eexists. split; [vm_compute; reflexivity|]. split; vm_compute; reflexivity. Qed.

Definition pic : arr3 nat := {| sN := 1; sH := 1; sW := 2; at3 := fun _ _ j => j |}.
Definition pic' : arr3 nat := {| sN := 1; sH := 1; sW := 2; at3 := fun _ _ j => (1 - j)%nat |}.
Definition pix : arr4 := {| tN := 1; tK := 2; tH := 1; tW := 2; at4 := fun _ k _ j => nth k (nth j [[1#10; 9#10]; [2#10; 8#10]] []) 0 |}.
Definition pix' : arr4 := {| tN := 1; tK := 2; tH := 1; tW := 2; at4 := fun _ k _ j => nth (1 - k) (nth j [[1#10; 9#10]; [2#10; 8#10]] []) 0 |}.
Example C152_example_pictures : renamed_images [1; 0]%nat pic pic' /\ renamed_pixels [1; 0]%nat pix pix' /\ clear_pixels pix /\ distinct_pixels pic pix /\
  dataset 2 (all_labels pic) (all_rows pix) /\ own_prob_floor (all_labels pic) (all_rows pix).
Proof.
  assert (T : forall a, (a < 2)%nat -> a = 0%nat \/ a = 1%nat) by (intros; lia).
  split; [|split; [|split; [|split; [|split]]]].
  - repeat split. intros n i j (_ & _ & Hj). cbn in Hj. destruct (T j Hj) as [->| ->]; reflexivity.
  - repeat split. intros n k i j _ Hk _ Hj. cbn in Hk, Hj. destruct (T k Hk) as [->| ->], (T j Hj) as [->| ->]; reflexivity.
  - intros n i j k1 k2 _ _ Hj H1 H2 N E. cbn in Hj, H1, H2. exfalso. destruct (T j Hj) as [->| ->], (T k1 H1) as [->| ->], (T k2 H2) as [->| ->]; try congruence; vm_compute in E; discriminate.
  - intros n i j n' i' j' (Hn & Hi & Hj) (Hn' & Hi' & Hj') E. cbn in Hn, Hi, Hj, Hn', Hi', Hj'. assert (n = 0 /\ n' = 0 /\ i = 0 /\ i' = 0)%nat as (-> & -> & -> & ->) by lia.
    destruct (T j Hj) as [->| ->], (T j' Hj') as [->| ->]; try reflexivity; vm_compute in E; discriminate.
  - change (all_labels pic) with [0; 1]%nat. change (all_rows pix) with [[1#10; 9#10]; [2#10; 8#10]]. constructor; [reflexivity|discriminate| | |].
    + intros l H. repeat (destruct H as [<-|H]; [lia|]). destruct H.
    + intros r H. repeat (destruct H as [<-|H]; [reflexivity|]). destruct H.
    + intros r x H. repeat (destruct H as [<-|H]; [intros H'; repeat (destruct H' as [<-|H']; [split; vm_compute; discriminate|]); destruct H'|]). destruct H.
  - intros e He. cbn in He. destruct (T e He) as [->| ->]; vm_compute; discriminate.
Qed.
Example C152_example_segmentation : exists i i', seg_find_label_issues argsort_ins pic pix None (fun _ => Serial) 1 = Ok i /\
  seg_find_label_issues argsort_ins pic' pix' None (fun _ => Serial) 1 = Ok i' /\ at3 i 0 0 0 = true /\ at3 i 0 0 1 = false /\ at3 i' 0 0 0 = true.
Proof. eexists. eexists. split; [vm_compute; reflexivity|]. split; [vm_compute; reflexivity|]. repeat split. Qed.
Example C152_example_calls : let i := {| in_features := None; in_pred_probs := Some (probs, 3%nat); in_labels := Some lab |} : input R in
  let i' := {| in_features := None; in_pred_probs := Some (probs', 3%nat); in_labels := Some (renamed_labels cls lab) |} in
  renamed_call 3 cls (Fit i) (Fit i').
Proof.
  destruct C152_example_data as (D & F & _). split; [reflexivity|]. split; [reflexivity|]. split; [intros ls l E; injection E as <-; apply D|].
  split; [reflexivity|]. split; [reflexivity|]. split; [apply D|exact F].
Qed.

Print Assumptions C152_estimator.
Print Assumptions C152_imbalance.
Print Assumptions C152_imbalance_tied_refuted.
Print Assumptions C152_imbalance_absent_refuted.
Print Assumptions C152_valuation.
Print Assumptions C152_underperforming.
Print Assumptions C152_features.
Print Assumptions C152_scores.
Print Assumptions C152_batched.
Print Assumptions C152_tokens.
Print Assumptions C152_tokens_low_memory.
Print Assumptions C152_token_scores.
Print Assumptions C152_segmentation.
Print Assumptions C152_pixel_scores.
Print Assumptions C152_downsampled_refuted.
