(** * Property C168: class imbalance does not matter to confident learning *)
From Coq Require Import QArith List ZArith Bool Arith Lia Lqa.
From Verif Require Import Base BaseFacts ModelUtil ModelCount ModelRank ModelFilter SpecCount SpecFilter
     SpecResample ProofFilter ProofApprox ProofResample PropCount.
Import ListNotations.
Open Scope Q_scope.

(** The confident thresholds do not change. *)
Theorem C168_thresholds : forall K labels pp labels' pp' c f k,
  dataset K labels pp -> resampled c f labels pp labels' pp' -> (k < K)%nat ->
  nth k (get_confident_thresholds labels' pp' K) 0 == nth k (get_confident_thresholds labels pp K) 0.
Proof. exact C168_thresholds_full. Qed.
Print Assumptions C168_thresholds.

(** In the confident joint, row [i] is multiplied by the number of copies [c i].  (A diagonal cell that no
    example is counted in is raised to 1 before and after.) *)
Theorem C168_joint : forall srt K labels pp labels' pp' c f,
  dataset K labels pp -> resampled c f labels pp labels' pp' ->
  exists cj idx cj' idx', compute_confident_joint srt labels pp K None false = Ok (cj, idx) /\
    compute_confident_joint srt labels' pp' K None false = Ok (cj', idx') /\
    (forall e', (e' < length labels')%nat -> In e' idx' <-> In (f e') idx) /\
    (forall i j, (i < K)%nat -> (j < K)%nat -> In i labels ->
       i <> j \/ (exists e, (e < length labels)%nat /\ label_of labels e = i /\
                            counted_as (get_confident_thresholds labels pp K) (row_of pp e) i) ->
       zget cj' i j = (Z.of_nat (c i) * zget cj i j)%Z) /\
    (forall i, (i < K)%nat -> ~ (exists e, (e < length labels)%nat /\ label_of labels e = i /\
                            counted_as (get_confident_thresholds labels pp K) (row_of pp e) i) ->
       zget cj i i = 1%Z /\ zget cj' i i = 1%Z).
Proof. exact C168_joint_full. Qed.
Print Assumptions C168_joint.

(** The confident_learning filter flags the copies of the examples it flags, and no others. *)
Theorem C168_flags : forall srt K labels pp labels' pp' c f o,
  argsort_ok srt -> dataset K labels pp -> two_classes labels -> resampled c f labels pp labels' pp' ->
  num_to_remove_per_class o = None -> (1 <= n_jobs o)%nat ->
  exists m m', find_label_issues srt labels pp K ConfidentLearning o = Ok m /\
    find_label_issues srt labels' pp' K ConfidentLearning o = Ok m' /\ length m' = length labels' /\
    (forall e', (e' < length labels')%nat -> flagged m' e' <-> flagged m (f e')) /\
    (forall k n, holds_for (length labels) (fun e => flagged m e /\ label_of labels e = k) n ->
       holds_for (length labels') (fun e' => flagged m' e' /\ label_of labels' e' = k) (c k * n)).
Proof. exact C168_flags_full. Qed.
Print Assumptions C168_flags.

(** The label quality scores of copies are those of the examples, also with adjust_pred_probs. *)
Theorem C168_scores : forall K labels pp labels' pp' c f method adjust s,
  dataset K labels pp -> resampled c f labels pp labels' pp' ->
  get_label_quality_scores labels pp K method adjust = Ok s ->
  exists s', get_label_quality_scores labels' pp' K method adjust = Ok s' /\ length s' = length labels' /\
    forall e', (e' < length labels')%nat -> nth e' s' 0 == nth (f e') s 0.
Proof. exact C168_scores_full. Qed.
Print Assumptions C168_scores.

(** Five examples; in the second data set, in another order, the three of class 1 occur twice. *)
Definition y168 : list nat := [0; 0; 1; 1; 1]%nat.
Definition pp168 : list (list Q) := [[9#10; 1#10]; [7#10; 3#10]; [2#10; 8#10]; [1#10; 9#10]; [85#100; 15#100]].
Definition c168 (k : nat) : nat := match k with O => 1 | _ => 2 end.
Definition f168 (e : nat) : nat := nth e [4; 0; 2; 3; 1; 2; 4; 3]%nat 0%nat.
Definition y168' : list nat := map (fun e => nth (f168 e) y168 0%nat) (seq 0 8).
Definition pp168' : list (list Q) := map (fun e => nth (f168 e) pp168 []) (seq 0 8).
Example C168_example_hyps : dataset 2 y168 pp168 /\ two_classes y168 /\ resampled c168 f168 y168 pp168 y168' pp168'.
Proof.
  split; [apply dataset_b_ok; vm_compute; reflexivity|]. split; [exists 0%nat, 1%nat; simpl; intuition congruence|].
  split; [reflexivity|]. split.
  - intros e He. do 8 (destruct e as [|e]; [split; [vm_compute; lia|split; reflexivity]|]). simpl in He. lia.
  - intros e He.
    assert (G : forall l n, NoDup l -> length l = n -> (forall x, In x l <-> In x (filter (fun x => Nat.eqb (f168 x) e) (seq 0 8))) ->
      holds_for (length y168') (fun e' => f168 e' = e) n).
    { intros l n A B C. exists l. split; [auto|]. split; [auto|]. intros x. rewrite C, filter_In, in_seq, Nat.eqb_eq.
      change (length y168') with 8%nat. split; intros (U & V); split; auto; lia. }
    do 5 (destruct e as [|e]; [split; [vm_compute; lia|];
      match goal with |- holds_for _ (fun e' => f168 e' = ?k) _ => apply (G (filter (fun x => Nat.eqb (f168 x) k) (seq 0 8))) end;
      [apply NoDup_filter, seq_NoDup|reflexivity|intros x; reflexivity]|]). simpl in He. lia.
Qed.
Example C168_example :
  compute_confident_joint argsort_ins y168 pp168 2 None false = Ok ([[1; 0]; [1; 2]]%Z, [4]%nat) /\
  compute_confident_joint argsort_ins y168' pp168' 2 None false = Ok ([[1; 0]; [2; 4]]%Z, [0; 6]%nat) /\
  find_label_issues argsort_ins y168' pp168' 2 ConfidentLearning plain_options =
    Ok [true; false; false; false; false; false; true; false].
Proof. split; [|split]; vm_compute; reflexivity. Qed.
Example C168_example_scores :
  let scores y pp := match get_label_quality_scores y pp 2 SelfConfidence true with Ok s => map Qred s | _ => [] end in
  scores y168 pp168 = [54#71; 42#71; 59#71; 65#71; 20#71] /\
  scores y168' pp168' = [20#71; 54#71; 59#71; 65#71; 42#71; 59#71; 20#71; 65#71].
Proof. split; vm_compute; reflexivity. Qed.

(** Not so for the filters that prune a number of examples: they leave at least one example in a class, so they flag
    nothing in a class of one mislabelled example, and three of its four copies. *)
Theorem C168_prune_refuted : exists K labels pp labels' pp' c f,
  dataset K labels pp /\ resampled c f labels pp labels' pp' /\
  (forall e, (2 <= e < 6)%nat -> f e = 2%nat) /\
  forall fb, In fb [PruneByClass; PruneByNoiseRate] ->
  find_label_issues argsort_ins labels pp K fb plain_options = Ok [false; false; false] /\
  find_label_issues argsort_ins labels' pp' K fb plain_options = Ok [false; false; true; true; true; false].
Proof.
  exists 2%nat, [0; 0; 1]%nat, [[9#10; 1#10]; [7#10; 3#10]; [85#100; 15#100]], [0; 0; 1; 1; 1; 1]%nat,
    [[9#10; 1#10]; [7#10; 3#10]; [85#100; 15#100]; [85#100; 15#100]; [85#100; 15#100]; [85#100; 15#100]],
    (fun k => match k with O => 1 | _ => 4 end)%nat, (fun e => Nat.min e 2).
  split; [apply dataset_b_ok; vm_compute; reflexivity|]. split.
  - split; [reflexivity|]. split.
    + intros e He. do 6 (destruct e as [|e]; [split; [vm_compute; lia|split; reflexivity]|]). simpl in He. lia.
    + intros e He. destruct e as [|[|[|e]]]; [| | |simpl in He; lia]; (split; [vm_compute; lia|]);
        [exists [0%nat]|exists [1%nat]|exists [2; 3; 4; 5]%nat]; (split; [repeat constructor; simpl; intuition congruence|]);
        (split; [reflexivity|]); intros x; simpl; lia.
  - split; [intros e He; lia|]. intros fb [<-|[<-|[]]]; split; vm_compute; reflexivity.
Qed.
Print Assumptions C168_prune_refuted.
