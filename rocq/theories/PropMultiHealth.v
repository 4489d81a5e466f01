(** * The health summary of a multi-label dataset: C142 *)
From Coq Require Import QArith List ZArith Bool Arith Lia Lqa.
From Verif Require Import Base BaseFacts ModelUtil ModelCount ModelRank ModelFilter ModelMultilabel ModelMultiHealth
     SpecCount SpecFilter SpecMultilabel SpecMultiHealth ProofMultiHealth PropMultilabel.
Import ListNotations.
Open Scope Q_scope.

(** ** C142 *)
Theorem C142_consistent : forall srt labels pp K, argsort_ok srt -> ml_dataset K labels pp -> (forall c, (c < K)%nat -> mixed labels c) ->
  exists cols, issues_per_class srt labels pp K PruneByNoiseRate (default_options None (fun _ => ([], [])) 1) None = Ok cols /\
    (forall ne n s1 s2 s3, (1 <= n)%nat ->
       multilabel_health_summary srt (Some labels) pp K ne None n s1 s2 s3 = Raise Diverges \/
       exists t, multilabel_health_summary srt (Some labels) pp K ne None n s1 s2 s3 = Ok t /\ consistent labels K cols t) /\
    (forall ne s1 s2 s3, exists t,
       multilabel_health_summary srt (Some labels) pp K ne None 1 s1 s2 s3 = Ok t /\ consistent labels K cols t).
Proof. exact C142_full. Qed.
Print Assumptions C142_consistent.

Theorem C142_no_labels : forall srt pp K ne cj n s1 s2 s3,
  multilabel_health_summary srt None pp K ne cj n s1 s2 s3 = Raise ValueError.
Proof. exact C142_no_labels_full. Qed.
Print Assumptions C142_no_labels.

Definition no_sched : nat -> list nat * list nat := fun _ => ([], []).
Example C142_example : exists t,
  multilabel_health_summary argsort_ins (Some ex63_labels) ex63_pp 2 None None 1 no_sched no_sched no_sched = Ok t /\
  s_score t == 4 # 6 /\ map (fun r => (q_class r, q_issues r, q_inverse r)) (s_classes t) = [(0%nat, 1, 1); (1%nat, 0, 0)]%Z /\
  s_common t = [(0%nat, true, 1%nat, 1 # 6); (0%nat, false, 1%nat, 1 # 6); (1%nat, true, 0%nat, 0 # 6); (1%nat, false, 0%nat, 0 # 6)].
Proof. eexists. split; [vm_compute; reflexivity|]. repeat split; vm_compute; reflexivity. Qed.

(** With a confident joint given, the class table still estimates its own: the same summary reports no issue in its
    table of common issues and a perfect score, but two issues of class 0 in its class table. *)
Theorem C142_confident_joint_refuted :
  exists labels pp K cj t r, ml_dataset K labels pp /\ (forall c, (c < K)%nat -> mixed labels c) /\
    multilabel_health_summary argsort_ins (Some labels) pp K None (Some cj) 1 no_sched no_sched no_sched = Ok t /\
    s_score t == 1 /\ common_counts t 0 0 0 /\ class_row t 0 r /\ q_issues r = 1%Z /\ q_inverse r = 1%Z.
Proof.
  exists ex63_labels, ex63_pp, 2%nat, [[[3;0];[0;3]];[[2;0];[0;4]]]. eexists. eexists.
  split; [apply ex63_dataset|]. split; [apply ex63_mixed|]. split; [vm_compute; reflexivity|].
  split; [vm_compute; reflexivity|].
  split; [split; eexists; cbn; auto 6|].
  split; [split; [left; reflexivity|reflexivity]|]. split; reflexivity.
Qed.
Print Assumptions C142_confident_joint_refuted.

(** "Label Noise" is documented as the issues divided by the number of examples labelled as the class; it is divided by
    the number of all examples, so the "Label Quality Score" is not the share of correct labels of the class either. *)
Theorem C142_label_noise_refuted :
  exists labels pp K t r n, ml_dataset K labels pp /\ (forall c, (c < K)%nat -> mixed labels c) /\
    multilabel_health_summary argsort_ins (Some labels) pp K None None 1 no_sched no_sched no_sched = Ok t /\
    class_row t 0 r /\ n_having labels 0 n /\ ~ q_noise r * Qnat n == inject_Z (q_issues r) /\
    ~ q_score r * Qnat n == Qnat n - inject_Z (q_issues r).
Proof.
  exists ex63_labels, ex63_pp, 2%nat. eexists. eexists. exists 3%nat.
  split; [apply ex63_dataset|]. split; [apply ex63_mixed|]. split; [vm_compute; reflexivity|].
  split; [split; [left; reflexivity|reflexivity]|].
  split; [|split; intro H; vm_compute in H; discriminate].
  exists [0; 1; 4]%nat. split; [repeat constructor; cbn; intuition discriminate|]. split; [reflexivity|].
  intro i. unfold has_class. cbn. split.
  - intros [<-|[<-|[<-|[]]]]; cbn; split; try lia; auto.
  - intros (Hi & H). do 6 (destruct i as [|i]; [cbn in H; intuition discriminate|]). lia.
Qed.
Print Assumptions C142_label_noise_refuted.
