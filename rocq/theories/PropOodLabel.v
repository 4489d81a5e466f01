(** * C177: out-of-distribution scores and label quality scores of the same data *)
From Coq Require Import QArith Qreals Reals List Bool Arith Lia Lra.
From Verif Require Import Base ModelUtil ModelCount ModelRank ModelOutlier SpecCount SpecFilter SpecRank SpecOutlier SpecOodLabel
     ProofFilter ProofOodLabel.
Import ListNotations.
Open Scope R_scope.

(** the score of an example as a member of the distribution is at least the quality of its label *)
Theorem C177_bound : forall {F} (B : backend F) o K labels pp so,
  least_confidence o -> dataset K labels pp ->
  snd (fit_score B o (pp_input pp K labels)) = Ok (Some so) ->
  forall s, get_label_quality_scores labels pp K SelfConfidence (p_adjust o) = Ok s ->
  length so = length labels /\ forall e, (e < length labels)%nat -> Q2R (nth e s 0%Q) <= nth e so 0.
Proof. exact @bound_full. Qed.
Print Assumptions C177_bound.

(** the two are equal exactly for the examples whose normalized margin is at least 1/2 *)
Theorem C177_margin : forall {F} (B : backend F) o K labels pp so,
  least_confidence o -> dataset K labels pp -> (2 <= K)%nat ->
  snd (fit_score B o (pp_input pp K labels)) = Ok (Some so) ->
  forall s m, get_label_quality_scores labels pp K SelfConfidence (p_adjust o) = Ok s ->
  get_label_quality_scores labels pp K NormalizedMargin (p_adjust o) = Ok m ->
  forall e, (e < length labels)%nat -> ((1 # 2) <= nth e m 0)%Q <-> Q2R (nth e s 0%Q) = nth e so 0.
Proof. exact @margin_full. Qed.
Print Assumptions C177_margin.

(** without adjustment the scores do not depend on the given labels: they are the label quality scores the
    data set gets when every example is relabelled with a class the model considers most likely *)
Theorem C177_predicted : forall {F} (B : backend F) o K labels labels' pp so s,
  least_confidence o -> p_adjust o = false -> dataset K labels pp -> dataset K labels' pp -> most_likely labels' pp ->
  snd (fit_score B o (pp_input pp K labels)) = Ok (Some so) ->
  get_label_quality_scores labels' pp K SelfConfidence false = Ok s -> so = map Q2R s.
Proof. exact @predicted_full. Qed.
Print Assumptions C177_predicted.

(** on valid data with two classes fit_score returns, and scoring the same predictions again (which takes no
    labels) gives the same scores *)
Theorem C177_total : forall {F} (B : backend F) o K labels pp,
  least_confidence o -> dataset K labels pp -> two_classes labels ->
  exists so, snd (fit_score B o (pp_input pp K labels)) = Ok (Some so) /\
    snd (score B (fst (fit_score B o (pp_input pp K labels))) (score_input pp K)) = Ok (Some so).
Proof. exact @total_full. Qed.
Print Assumptions C177_total.

(** labels of a single class: label quality is scored, adjusted out-of-distribution scores are refused *)
Theorem C177_one_class : forall {F} (B : backend F) o K labels pp c,
  least_confidence o -> dataset K labels pp -> (forall l, In l labels -> l = c) ->
  (exists s, get_label_quality_scores labels pp K SelfConfidence (p_adjust o) = Ok s) /\
  (p_adjust o = true -> snd (fit_score B o (pp_input pp K labels)) = Raise ValueError) /\
  (p_adjust o = false -> exists so, snd (fit_score B o (pp_input pp K labels)) = Ok (Some so)).
Proof. exact @one_class_full. Qed.
Print Assumptions C177_one_class.

(** with adjustment (the default) an example may carry the label the model predicts and still have a label
    quality below its out-of-distribution score *)
Theorem C177_adjusted_argmax_refuted : exists (B : backend (list R)) o K labels pp so s,
  least_confidence o /\ p_adjust o = true /\ dataset K labels pp /\ most_likely labels pp /\
  snd (fit_score B o (pp_input pp K labels)) = Ok (Some so) /\
  get_label_quality_scores labels pp K SelfConfidence true = Ok s /\
  exists e, (e < length labels)%nat /\ Q2R (nth e s 0%Q) < nth e so 0.
Proof.
  assert (Hl : least_confidence (ex177_ood true)) by (repeat split).
  assert (Hd : dataset 2 ex177r_labels ex177r_pp) by (apply dataset_b_ok; vm_compute; reflexivity).
  assert (H2 : two_classes ex177r_labels) by (exists 0%nat, 1%nat; repeat split; [left|right; right; right; left|discriminate]; reflexivity).
  destruct (total_full ex_backend (ex177_ood true) 2 ex177r_labels ex177r_pp Hl Hd H2) as (so & Hso & _).
  destruct (get_label_quality_scores ex177r_labels ex177r_pp 2 SelfConfidence true) as [s|] eqn:Es; [|vm_compute in Es; discriminate Es].
  destruct (get_label_quality_scores ex177r_labels ex177r_pp 2 NormalizedMargin true) as [m|] eqn:Em; [|vm_compute in Em; discriminate Em].
  exists ex_backend, (ex177_ood true), 2%nat, ex177r_labels, ex177r_pp, so, s.
  split; [exact Hl|]. split; [reflexivity|]. split; [exact Hd|]. split.
  { unfold most_likely, ex177r_labels, ex177r_pp. repeat apply Forall2_cons; try apply Forall2_nil; intros x Hx; repeat destruct Hx as [<-|Hx]; try destruct Hx; cbn; unfold Qle; cbn; lia. }
  split; [exact Hso|]. split; [exact Es|].
  exists 2%nat. split; [cbn; lia|].
  destruct (bound_full ex_backend (ex177_ood true) 2 ex177r_labels ex177r_pp so Hl Hd Hso s Es) as (_ & Hb).
  pose proof (margin_full ex_backend (ex177_ood true) 2 ex177r_labels ex177r_pp so Hl Hd ltac:(lia) Hso s m Es Em 2%nat ltac:(cbn; lia)) as (_ & M).
  specialize (Hb 2%nat ltac:(cbn; lia)). destruct Hb as [Hb|Hb]; [exact Hb|]. exfalso. specialize (M Hb).
  assert (E : get_label_quality_scores ex177r_labels ex177r_pp 2 NormalizedMargin true = Ok m) by exact Em.
  vm_compute in E. injection E as <-. vm_compute in M. apply M. reflexivity.
Qed.
Print Assumptions C177_adjusted_argmax_refuted.

(** ** the hypotheses are met, with and without adjustment, by data on which scores differ *)
Example C177_example : forall a, least_confidence (ex177_ood a) /\ dataset 3 ex177_labels ex177_pp /\ two_classes ex177_labels /\
  most_likely [0; 1; 0; 2]%nat ex177_pp /\
  get_label_quality_scores ex177_labels ex177_pp 3 SelfConfidence false = Ok [(7 # 10)%Q; (8 # 10)%Q; (3 # 10)%Q; (8 # 10)%Q].
Proof.
  intros a. split; [repeat split|]. split; [apply dataset_b_ok; vm_compute; reflexivity|].
  split; [exists 0%nat, 1%nat; repeat split; [left|right; left|discriminate]; reflexivity|].
  split; [|vm_compute; reflexivity].
  unfold most_likely, ex177_pp. repeat apply Forall2_cons; try apply Forall2_nil; intros x Hx; repeat destruct Hx as [<-|Hx]; try destruct Hx; cbn; unfold Qle; cbn; lia.
Qed.
