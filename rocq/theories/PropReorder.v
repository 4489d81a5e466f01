(** * C138: the order of multi-label examples, of classes, of sentences and of batches *)
From Coq Require Import QArith List Bool Arith Lia Lqa Permutation.
From Verif Require Import Base BaseFacts ModelUtil ModelCount ModelRank ModelPool ModelFilter ModelMultilabel ModelToken ModelBatched
     SpecCount SpecFilter SpecMultilabel SpecToken SpecBatched SpecSymmetry SpecReorder ProofFilter ProofReorder PropMultilabel PropToken PropCount PropBatched.
Import ListNotations.
Open Scope Q_scope.

(** reordering the examples of a multi-label data set reorders the mask, when no two examples are tied in a
    one-vs-rest problem *)
Theorem C138_examples : forall srt K labels pp order o flt, argsort_ok srt -> ml_dataset K labels pp ->
  Permutation order (seq 0 (length labels)) -> (forall c, (c < K)%nat -> mixed labels c) ->
  flt <> LowNormalizedMargin -> flt <> LowSelfConfidence -> ml_no_ties flt labels pp K ->
  ml_num_to_remove o = None -> ml_n_jobs o = 1%nat ->
  exists m, ml_find_label_issues srt labels pp K flt o None = Ok m /\ length m = length labels /\
    ml_find_label_issues srt (pick [] order labels) (pick [] order pp) K flt o None = Ok (pick false order m).
Proof. exact C138_examples_full. Qed.
Print Assumptions C138_examples.

(** a new numbering of the classes of a multi-label data set does not change the mask, for any of these filters
    and with the same order of ties (for data with one label per example this fails: C115) *)
Theorem C138_classes : forall srt K names labels labels' pp pp' o o' flt m m', ml_dataset K labels pp -> ml_dataset K labels' pp' ->
  Permutation names (seq 0 K) -> length labels' = length labels -> (forall e c, (c < K)%nat -> has_class labels' e (nth c names 0%nat) <-> has_class labels e c) ->
  Forall2 (renamed_row names) pp pp' -> flt <> LowNormalizedMargin -> flt <> LowSelfConfidence ->
  (forall c, (c < K)%nat -> class_options o' (nth c names 0%nat) = class_options o c) ->
  ml_find_label_issues srt labels pp K flt o None = Ok m -> ml_find_label_issues srt labels' pp' K flt o' None = Ok m' -> m' = m.
Proof. exact C138_classes_full. Qed.
Print Assumptions C138_classes.

(** reordering the sentences: the same tokens are reported, under the new numbers of their sentences *)
Theorem C138_sentences : forall srt K labels pps order rank_by flt o, argsort_ok srt -> dataset K (concat labels) (concat pps) ->
  map (@length (list Q)) pps = map (@length nat) labels -> Permutation order (seq 0 (length labels)) -> two_classes (concat labels) ->
  no_ties flt (concat labels) (concat pps) K -> num_to_remove_per_class o = None -> n_jobs o = 1%nat ->
  exists issues issues', token_find_label_issues srt labels pps K rank_by None flt o = Ok issues /\
    token_find_label_issues srt (pick [] order labels) (pick [] order pps) K rank_by None flt o = Ok issues' /\
    forall i j, In (i, j) issues' <-> (i < length labels)%nat /\ In (nth i order 0%nat, j) issues.
Proof. exact C138_sentences_full. Qed.
Print Assumptions C138_sentences.

(** the batched search with pairwise different scores: shuffling the data (and so moving examples to other batches,
    of another size, with other worker processes) moves the flags along *)
Theorem C138_batched : forall srt K labels pp order batch_size batch_size' method js js' m m' sc, argsort_ok srt -> dataset K labels pp -> (2 <= K)%nat ->
  own_prob_floor labels pp -> Permutation order (seq 0 (length labels)) -> get_label_quality_scores labels pp K method false = Ok sc ->
  (forall e e', (e < length labels)%nat -> (e' < length labels)%nat -> nth e sc 0 == nth e' sc 0 -> e = e') ->
  find_label_issues_batched srt labels pp K batch_size method false false js = Ok m ->
  find_label_issues_batched srt (pick 0%nat order labels) (pick [] order pp) K batch_size' method false false js' = Ok m' ->
  m' = pick false order m.
Proof. exact C138_batched_full. Qed.
Print Assumptions C138_batched.

(** with tied scores it depends on the order which of the tied examples is flagged *)
Theorem C138_batched_tied_refuted : exists K labels pp order m m', dataset K labels pp /\ own_prob_floor labels pp /\ (2 <= K)%nat /\
  Permutation order (seq 0 (length labels)) /\
  find_label_issues_batched argsort_ins labels pp K 2 SelfConfidence false false (fun _ => Serial) = Ok m /\
  find_label_issues_batched argsort_ins (pick 0%nat order labels) (pick [] order pp) K 2 SelfConfidence false false (fun _ => Serial) = Ok m' /\
  m' <> pick false order m.
Proof.
  exists 3%nat, [0;1;0;0]%nat, [[8#10;1#10;1#10]; [0#10;9#10;1#10]; [1#10;0#10;9#10]; [1#10;5#10;4#10]], [3;1;0;2]%nat. eexists. eexists.
  split; [apply dataset_b_ok; vm_compute; reflexivity|].
  split; [intros e He; cbn in He; do 4 (destruct e as [|e]; [cbn; lra|]); lia|]. split; [lia|].
  split; [apply NoDup_Permutation; [repeat constructor; cbn; intuition discriminate|apply seq_NoDup|cbn; tauto]|].
  split; [vm_compute; reflexivity|]. split; [vm_compute; reflexivity|]. discriminate.
Qed.
Print Assumptions C138_batched_tied_refuted.

Definition ex138_labels : list (list nat) := [[0]; [0;1]; [1]; []; [0;1]; [1]]%nat.
Definition ex138_pp : list (list Q) := [[9#10;1#10]; [2#10;8#10]; [3#10;9#10]; [85#100;2#10]; [95#100;95#100]; [1#10;2#10]].
Example C138_example_ties : ml_no_ties PruneByClass ex138_labels ex138_pp 2.
Proof.
  intros c bl bp Hc (L & _ & B & P) e e' He He' S E. rewrite L in He, He'. cbn [ex138_labels length] in *.
  unfold label_of, prob_of in *. rewrite !P in E by (cbn; auto).
  destruct (B e He) as [(X & Y)|(X & Y)], (B e' He') as [(X' & Y')|(X' & Y')]; rewrite X, X' in E; rewrite X, X' in S; try discriminate S; clear B P X X' S;
    destruct c as [|[|c]]; try lia;
    do 6 (destruct e as [|e]; [do 6 (destruct e' as [|e']; [first [reflexivity | exfalso; cbn in E; discriminate E
        | exfalso; apply Y; cbn; tauto | exfalso; apply Y'; cbn; tauto | exfalso; cbn in Y; intuition discriminate | exfalso; cbn in Y'; intuition discriminate]|]); lia|]); lia.
Qed.
Example C138_example : ml_dataset 2 ex138_labels ex138_pp /\ (forall c, (c < 2)%nat -> mixed ex138_labels c) /\
  ml_find_label_issues argsort_ins ex138_labels ex138_pp 2 PruneByClass (ex63_options None None) None = Ok [false; true; false; true; false; false] /\
  ml_find_label_issues argsort_ins (pick [] [5;3;4;0;2;1]%nat ex138_labels) (pick [] [5;3;4;0;2;1]%nat ex138_pp) 2 PruneByClass (ex63_options None None) None
    = Ok [false; true; false; false; false; true] /\
  ml_find_label_issues argsort_ins [[1]; [1;0]; [0]; []; [0;1]; [0]]%nat (map (@rev Q) ex138_pp) 2 PruneByClass (ex63_options None None) None
    = Ok [false; true; false; true; false; false].
Proof.
  split.
  { split; [reflexivity|discriminate| | |].
    - cbn. intros l k H Hk. repeat (destruct H as [<-|H]; [cbn in Hk; intuition lia|]). destruct H.
    - cbn. intros r H. repeat (destruct H as [<-|H]; [reflexivity|]). destruct H.
    - cbn. intros r x H Hx. repeat (destruct H as [<-|H]; [cbn in Hx; repeat (destruct Hx as [<-|Hx]; [lra|]); destruct Hx|]). destruct H. }
  split.
  { intros [|[|c]] Hc; [| |lia]; split; [exists 0%nat|exists 2%nat|exists 1%nat|exists 0%nat]; unfold has_class; cbn; split; try lia; intuition discriminate. }
  split; [vm_compute; reflexivity|]. split; vm_compute; reflexivity.
Qed.
Example C138_example_sentences :
  no_ties PredictedNeqGiven (concat ex30_labels) (concat ex30_pps) 2 /\
  token_find_label_issues argsort_ins ex30_labels ex30_pps 2 SelfConfidence None PredictedNeqGiven ex30_options = Ok [(2, 1); (0, 1)]%nat /\
  token_find_label_issues argsort_ins (pick [] [1;2;0]%nat ex30_labels) (pick [] [1;2;0]%nat ex30_pps) 2 SelfConfidence None PredictedNeqGiven ex30_options
    = Ok [(1, 1); (2, 1)]%nat.
Proof. split; [exact Logic.I|]. split; vm_compute; reflexivity. Qed.
Definition ex138_flat : list (list Q) := [[8#10;1#10;1#10]; [0#10;9#10;1#10]; [2#10;0#10;8#10]; [1#10;5#10;4#10]].
Example C138_example_batched :
  find_label_issues_batched argsort_ins [0;1;0;0]%nat ex138_flat 3 2 SelfConfidence false false (fun _ => Serial) = Ok [false; false; false; true] /\
  find_label_issues_batched argsort_ins [0;1;0;0]%nat (pick [] [3;1;0;2]%nat ex138_flat) 3 3 SelfConfidence false false (fun _ => Serial) = Ok [true; false; false; false].
Proof. split; vm_compute; reflexivity. Qed.
