(** * Property C95: what the batched search flags *)
From Coq Require Import QArith Qabs Qround List ZArith Bool Arith Lia Lqa.
From Verif Require Import Base BaseFacts ModelUtil ModelCount ModelRank ModelPool ModelFilter ModelBatched
     SpecCount SpecFilter SpecBatched SpecBatchFlags ProofBatchFlags PropCount PropBatched.
Import ListNotations.
Open Scope Q_scope.

(** default settings: as many lowest-scored examples as there are examples confidently predicted to belong to
    another class, except those whose label is (nearly) the predicted class; for any batch size, any number of
    worker processes and any schedule *)
Theorem C95_flags : forall srt labels pp K batch_size method js m,
  argsort_ok srt -> dataset K labels pp -> (2 <= K)%nat -> own_prob_floor labels pp ->
  find_label_issues_batched srt labels pp K batch_size method false false js = Ok m ->
  exists scores n idx,
    get_label_quality_scores labels pp K method false = Ok scores /\
    holds_for (length labels) (confidently_other labels pp) n /\
    n_lowest scores n idx /\
    length m = length labels /\
    forall e, flagged m e <-> In e idx /\ clearly_beaten labels pp e.
Proof. exact flags_full. Qed.
Print Assumptions C95_flags.

(** all settings: an example whose label is the predicted class is never flagged *)
Theorem C95_never_flags_agreement : forall srt labels pp K batch_size method adjust calibrated js m e,
  dataset K labels pp ->
  find_label_issues_batched srt labels pp K batch_size method adjust calibrated js = Ok m ->
  flagged m e -> clearly_beaten labels pp e.
Proof. exact beaten_full. Qed.
Print Assumptions C95_never_flags_agreement.

Theorem C95_rejects_mismatch : forall K st labels pp, length labels <> length pp ->
  update_confident_thresholds K st (labels, pp) = Raise ValueError /\
  (forall method adjust calibrated j, score_label_quality K method adjust calibrated j st (labels, pp) = Raise ValueError) /\
  (forall srt batch_size method adjust calibrated js,
     find_label_issues_batched srt labels pp K batch_size method adjust calibrated js = Raise ValueError).
Proof. exact rejects_full. Qed.
Print Assumptions C95_rejects_mismatch.

Example C95_example : dataset 3 ex_labels ex_pp /\ own_prob_floor ex_labels ex_pp /\ argsort_ok argsort_ins /\
  find_label_issues_batched argsort_ins ex_labels ex_pp 3 4 SelfConfidence false false (fun _ => Serial)
  = Ok [false; false; true; false; false; true].
Proof.
  split; [exact ex_dataset|]. split; [exact C21_example_floor|]. split; [exact argsort_ins_ok|]. exact (proj2 C21_example).
Qed.

(** two confident predictions of another class, but the two lowest-scored examples include one whose label is
    the predicted class: it is dropped, so fewer examples are flagged than were counted *)
Definition ex95_labels : list nat := [0; 0; 1; 1; 0]%nat.
Definition ex95_pp : list (list Q) :=
  [[9#10; 0; 1#10]; [2#10; 7#10; 1#10]; [1#10; 6#10; 3#10]; [6#10; 4#10; 0]; [34#100; 33#100; 33#100]].
Example C95_example_dropped :
  holds_for 5 (confidently_other ex95_labels ex95_pp) 2 /\
  find_label_issues_batched argsort_ins ex95_labels ex95_pp 3 2 SelfConfidence false false (fun _ => Serial)
  = Ok [false; true; false; false; false].
Proof.
  split; [|vm_compute; reflexivity].
  exists [1; 3]%nat. split; [repeat constructor; simpl; intuition discriminate|]. split; [reflexivity|].
  assert (A0 : is_average (own_probs 0 ex95_labels ex95_pp) (48 # 100)) by (split; [discriminate|vm_compute; reflexivity]).
  assert (A1 : is_average (own_probs 1 ex95_labels ex95_pp) (1 # 2)) by (split; [discriminate|vm_compute; reflexivity]).
  intros i. split.
  - intros [<-|[<-|[]]]; (split; [lia|]).
    + exists 1%nat, (1 # 2). split; [|split; [discriminate|split]].
      * split; [simpl; lia|]. split; intros [|[|[|i]]] Hi; simpl in *; try lia; lra.
      * split; [auto|]. intros C. exfalso. apply C. simpl. auto.
      * vm_compute. discriminate.
    + exists 0%nat, (48 # 100). split; [|split; [discriminate|split]].
      * split; [simpl; lia|]. split; intros [|[|[|i]]] Hi; simpl in *; try lia; lra.
      * split; [auto|]. intros C. exfalso. apply C. simpl. auto.
      * vm_compute. discriminate.
  - intros (Hi & j & t & M & Hj & _ & _).
    destruct i as [|[|[|[|[|i]]]]]; simpl; auto; try lia; exfalso; apply Hj;
      destruct M as (M1 & M2 & M3); cbn in M1; destruct j as [|[|[|j]]]; try reflexivity; try lia; exfalso;
      [ specialize (M2 0%nat) | specialize (M2 0%nat)
      | specialize (M2 1%nat) | specialize (M2 1%nat)
      | specialize (M2 0%nat) | specialize (M2 0%nat) ]; cbn in M2; specialize (M2 ltac:(lia)); lra.
Qed.
