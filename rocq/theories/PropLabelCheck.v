(** * Property C90: Datalab's label check from features alone *)
From Coq Require Import QArith List Bool Arith ZArith Lia.
From Verif Require Import Base BaseFacts ModelUtil ModelCount ModelRank ModelFilter ModelBatched ModelLearn.
From Verif Require Import ModelLabelCheck SpecLabelCheck ProofLabelCheck.
Import ListNotations.
Open Scope Q_scope.

Theorem C90_votes : forall dist labels K k nbs pp, (1 <= k)%nat -> (forall i j, 0 <= dist i j) -> (forall i, dist i i == 0) ->
  search_result dist (length labels) (k + 1) nbs -> features_pred_probs k labels K nbs = Ok pp ->
  forall i c, (i < length labels)%nat -> (c < K)%nat -> (copies dist (length labels) i <= k + 1)%nat ->
    nth c (nth i pp []) 0 == Qnat (other_votes labels (nth i nbs []) i c) / Qnat k.
Proof. exact C90_votes_full. Qed.
Print Assumptions C90_votes.

Theorem C90_distribution : forall dist labels K k nbs pp, (1 <= k)%nat -> (forall i j, 0 <= dist i j) -> (forall i, dist i i == 0) ->
  search_result dist (length labels) (k + 1) nbs -> features_pred_probs k labels K nbs = Ok pp ->
  forall i, numbered_classes labels K -> (i < length labels)%nat -> (copies dist (length labels) i <= k + 1)%nat ->
    length (nth i pp []) = K /\ (forall x, In x (nth i pp []) -> 0 <= x <= 1) /\ fold_right Qplus 0 (nth i pp []) == 1.
Proof. exact C90_distribution_full. Qed.
Print Assumptions C90_distribution.

Theorem C90_own_label : forall dist labels labels' K k nbs pp pp' i c, (1 <= k)%nat -> (forall i j, 0 <= dist i j) -> (forall i, dist i i == 0) ->
  search_result dist (length labels) (k + 1) nbs -> length labels' = length labels ->
  features_pred_probs k labels K nbs = Ok pp -> features_pred_probs k labels' K nbs = Ok pp' ->
  (forall j, j <> i -> nth j labels 0%nat = nth j labels' 0%nat) -> (i < length labels)%nat -> (c < K)%nat ->
  (copies dist (length labels) i <= k + 1)%nat ->
  nth c (nth i pp []) 0 == nth c (nth i pp' []) 0.
Proof. exact C90_own_label_full. Qed.
Print Assumptions C90_own_label.

(** whatever the search returned: the probabilities are refused exactly if some example has nobody of its own class
    (itself included) among its neighbours *)
Theorem C90_outcome : forall labels K k nbs pp, (1 <= k)%nat -> (Z.of_nat k < 1000000)%Z -> numbered_classes labels K ->
  (forall i, (i < length labels)%nat -> length (nth i nbs []) = (k + 1)%nat /\ forall j, In j (nth i nbs []) -> (j < length labels)%nat) ->
  features_pred_probs k labels K nbs = Ok pp ->
  let alone i := (i < length labels)%nat /\ forall j, In j (nth i nbs []) -> nth j labels 0%nat <> nth i labels 0%nat in
  ((exists i, alone i) <-> assert_valid_inputs labels pp K false = Raise ValueError) /\
  ((forall i, ~ alone i) <-> assert_valid_inputs labels pp K false = Ok tt).
Proof. exact C90_outcome_full. Qed.
Print Assumptions C90_outcome.

Theorem C90_run : forall srt minv js cfg k labels K nbs pp thresholds noise inverse save s,
  features_pred_probs k labels K nbs = Ok pp -> (1 <= length labels)%nat ->
  assert_valid_inputs labels pp K false = Raise ValueError ->
  label_find_issues srt minv js cfg k labels K None (Some nbs) thresholds noise inverse save s = (s, Raise ValueError).
Proof. exact C90_run_full. Qed.
Print Assumptions C90_run.

(** more than k+1 copies of one example, all of different classes: the check always fails *)
Theorem C90_copies_fail : forall srt minv js cfg k labels K nbs thresholds noise inverse save s dup nb, (1 <= k)%nat -> (Z.of_nat k < 1000000)%Z ->
  numbered_classes labels K -> (k + 1 <= length labels)%nat ->
  (forall i, (i < length labels)%nat -> length (nth i nbs []) = (k + 1)%nat /\ forall j, In j (nth i nbs []) -> (j < length labels)%nat) ->
  (forall i, In i dup -> (i < length labels)%nat /\ nth i nbs [] = nb) ->
  NoDup (map (fun i => nth i labels 0%nat) dup) -> (k + 1 < length dup)%nat ->
  label_find_issues srt minv js cfg k labels K None (Some nbs) thresholds noise inverse save s = (s, Raise ValueError).
Proof. exact C90_copies_fail_full. Qed.
Print Assumptions C90_copies_fail.

Theorem C90_given : forall srt minv js cfg k labels K pp f thresholds noise inverse save s,
  label_find_issues srt minv js cfg k labels K (Some pp) f thresholds noise inverse save s =
  label_find_issues srt minv js cfg k labels K (Some pp) None thresholds noise inverse save s /\
  label_find_issues srt minv js cfg k labels K None None thresholds noise inverse save s = (s, Raise ValueError) /\
  (forall nbs, (length labels < k + 1)%nat ->
     label_find_issues srt minv js cfg k labels K None (Some nbs) thresholds noise inverse save s = (s, Raise ValueError)).
Proof. exact C90_given_full. Qed.
Print Assumptions C90_given.

(** four examples on a line, two neighbours each *)
Definition line (i j : nat) : Q := Qabs.Qabs (inject_Z (Z.of_nat i) - inject_Z (Z.of_nat j)).
Definition c90_labels : list nat := [0; 0; 1; 1]%nat.
Definition c90_nbs : list (list nat) := [[0; 1; 2]; [1; 0; 2]; [2; 1; 3]; [3; 2; 1]]%nat.
Example C90_example : exists pp, features_pred_probs 2 c90_labels 2 c90_nbs = Ok pp /\
  map (map Qred) pp = [[1 # 2; 1 # 2]; [1 # 2; 1 # 2]; [1 # 2; 1 # 2]; [1 # 2; 1 # 2]].
Proof. eexists. split; [reflexivity|]. vm_compute. reflexivity. Qed.
Example C90_example_search : search_result line 4 3 c90_nbs /\ numbered_classes c90_labels 2 /\ forall i, (i < 4)%nat -> (copies line 4 i <= 3)%nat.
Proof.
  split; [split; [reflexivity|]|split].
  - intros i Hi. assert (C : i = 0%nat \/ i = 1%nat \/ i = 2%nat \/ i = 3%nat) by lia.
    destruct C as [->|[->|[->| ->]]]; (split; [repeat constructor; cbn; intuition lia|]; split; [reflexivity|]; split; [cbn; intuition lia|]);
      intros a b Ha Hb N; cbn in Ha, N; assert (B : b = 0%nat \/ b = 1%nat \/ b = 2%nat \/ b = 3%nat) by lia;
      destruct B as [->|[->|[->| ->]]]; try tauto; destruct Ha as [<-|[<-|[<-|[]]]]; unfold line; vm_compute; discriminate.
  - split; [lia|]. intros c. cbn. lia.
  - intros i Hi. assert (C : i = 0%nat \/ i = 1%nat \/ i = 2%nat \/ i = 3%nat) by lia. destruct C as [->|[->|[->| ->]]]; vm_compute; lia.
Qed.
(** two classes, three copies of one example, one neighbour besides itself: the copy with the other label is left
    out of the common neighbour list and the check fails *)
Example C90_example_copies : forall srt minv js cfg s,
  search_result (fun _ _ => 0) 3 2 [[0; 1]; [0; 1]; [0; 1]]%nat /\
  label_find_issues srt minv js cfg 1 [0; 0; 1]%nat 2 None (Some [[0; 1]; [0; 1]; [0; 1]]%nat) None None None true s = (s, Raise ValueError).
Proof.
  intros. split.
  - split; auto. intros i Hi. assert (C : i = 0%nat \/ i = 1%nat \/ i = 2%nat) by lia.
    destruct C as [->|[->| ->]]; (split; [repeat constructor; cbn; intuition lia|]; split; [reflexivity|]; split; [cbn; intuition lia|]); intros; discriminate.
  - reflexivity.
Qed.
