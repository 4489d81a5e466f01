From Coq Require Import QArith List Bool Arith Lia Permutation.
From Verif Require Import Base BaseFacts ModelUtil ModelCount ModelMultiannotator ModelLost SpecCount SpecMultiannotator SpecLost
     ProofUtil ProofCount ProofMultiannotator PropMultiannotator.
From Verif Require ProofDatalab.
Import ListNotations.

Lemma named_spec t cons c : In c (named (check_consensus_label_classes t cons)) <-> annotated t c /\ ~ In c cons.
Proof.
  unfold check_consensus_label_classes, annotated. rewrite <- in_all_given, <- (in_unique c (all_given t)).
  transitivity (In c (filter (fun c => negb (existsb (Nat.eqb c) cons)) (unique (all_given t)))).
  { cbv zeta. destruct (filter _ _); reflexivity. }
  rewrite filter_In. assert (E : negb (existsb (Nat.eqb c) cons) = true <-> ~ In c cons); [|rewrite E; tauto].
  rewrite negb_true_iff, <- not_true_iff_false, existsb_exists. split.
  - intros H I. apply H. exists c. split; [auto|apply Nat.eqb_refl].
  - intros H (x & Hx & E). apply Nat.eqb_eq in E. subst. auto.
Qed.
Lemma named_nodup t cons : NoDup (named (check_consensus_label_classes t cons)).
Proof.
  unfold check_consensus_label_classes. cbv zeta.
  assert (N : NoDup (filter (fun c => negb (existsb (Nat.eqb c) cons)) (unique (all_given t)))) by (apply NoDup_filter, unique_NoDup).
  destruct (filter _ _); cbn [named]; auto.
Qed.
Lemma some_nonempty t cons : check_consensus_label_classes t cons <> Some [].
Proof. unfold check_consensus_label_classes. cbv zeta. destruct (filter _ _); discriminate. Qed.
Lemma check_full t cons : check_consensus_label_classes t cons <> Some [] /\
  lists (fun c => annotated t c /\ ~ In c cons) (named (check_consensus_label_classes t cons)).
Proof. split; [apply some_nonempty|]. split; [apply named_nodup|apply named_spec]. Qed.

Lemma majority_caution_full rnd t M pp Kpp verbose mv w : majority_vote_output rnd t M pp Kpp verbose = Ok (mv, w) ->
  get_majority_vote_label rnd t M pp Kpp verbose = Ok mv /\ w <> Some [] /\
  (verbose = false -> w = None) /\ (verbose = true -> lists (fun c => annotated t c /\ ~ In c mv) (named w)).
Proof.
  unfold majority_vote_output. destruct (get_majority_vote_label rnd t M pp Kpp verbose) as [m|]; cbn [rbind]; [|discriminate].
  intros H. injection H as <- <-. split; [auto|]. destruct verbose; (split; [try apply some_nonempty; discriminate|]); (split; [discriminate || reflexivity|]);
    [intros _; apply check_full|discriminate].
Qed.
Lemma quality_caution_full fsqrt rnd t M K prior method verbose info w : label_quality_output fsqrt rnd t M K prior method verbose = Ok (info, w) ->
  get_label_quality_multiannotator fsqrt rnd t M K prior method = Ok info /\ w <> Some [] /\
  (verbose = false -> w = None) /\ (verbose = true -> lists (fun c => annotated t c /\ ~ In c (c_label info)) (named w)).
Proof.
  unfold label_quality_output. destruct (get_label_quality_multiannotator fsqrt rnd t M K prior method) as [m|]; cbn [rbind]; [|discriminate].
  intros H. injection H as <- <-. split; [auto|]. destruct verbose; (split; [try apply some_nonempty; discriminate|]); (split; [discriminate || reflexivity|]);
    [intros _; apply check_full|discriminate].
Qed.

(** validation guarantees one label per example *)
Lemma valid_some t M pp b u : assert_valid_multiannotator t M pp b = Ok u -> forall r, In r t -> exists k, In (Some k) r.
Proof.
  unfold assert_valid_multiannotator. destruct (existsb (fun r => negb (existsb present r)) t) eqn:E; [discriminate|]. intros _ r Hr.
  assert (P : existsb present r = true).
  { destruct (existsb present r) eqn:P; auto. assert (existsb (fun r => negb (existsb present r)) t = true); [|congruence].
    apply existsb_exists. exists r. rewrite P. auto. }
  apply existsb_exists in P as ([k|] & Hk & C); [eauto|discriminate].
Qed.
Lemma mv_pluralities rnd t M pp Kpp verbose mv : (forall r, In r t -> length r = M) -> (forall r, In r t -> exists k, In (Some k) r) ->
  get_majority_vote_label rnd t M pp Kpp verbose = Ok mv -> Forall2 plurality t mv.
Proof.
  intros Hw Hs E. destruct (C35_majority_vote rnd t M pp Kpp verbose mv Hw Hs E) as (L & H).
  apply (Forall2_nth_intro plurality t mv [] 0%nat); [auto|]. intros i Hi. apply (H i Hi).
Qed.
Lemma plurality_in r k : plurality r k -> In (Some k) r.
Proof. intros (H & _). apply (count_occ_In entry_dec). unfold votes in H. lia. Qed.
Lemma lost_never_wins t mv c : Forall2 plurality t mv -> ~ In c mv -> forall r, In r t -> exists k, k <> c /\ plurality r k.
Proof.
  induction 1 as [|r k t mv H F IH]; intros N r' Hr; [destruct Hr|]. destruct Hr as [<-|Hr].
  - exists k. split; [|auto]. intros ->. apply N. left. auto.
  - apply IH; auto. intros I. apply N. right. auto.
Qed.
Lemma chosen_annotated t mv c : Forall2 plurality t mv -> In c mv -> annotated t c.
Proof.
  induction 1 as [|r k t mv H F IH]; intros I; [destruct I|]. destruct I as [<-|I].
  - exists r. split; [left; auto|apply plurality_in, H].
  - destruct (IH I) as (r' & H1 & H2). exists r'. split; [right; auto|auto].
Qed.
Lemma reduced t mv cs lA lB : Forall2 plurality t mv -> lists (fun c => annotated t c /\ ~ In c mv) cs ->
  lists (annotated t) lA -> lists (fun c => In c mv) lB -> length lA = (length lB + length cs)%nat.
Proof.
  intros F (N1 & S1) (N2 & S2) (N3 & S3). rewrite <- app_length. apply Permutation_length, NoDup_Permutation; auto.
  - apply ProofDatalab.NoDup_app_intro; auto. intros x Hx Hc. apply S3 in Hx. apply S1 in Hc. tauto.
  - intros x. rewrite in_app_iff, S1, S2, S3. split.
    + intros Ha. destruct (in_dec Nat.eq_dec x mv); auto.
    + intros [H|[H _]]; auto. apply (chosen_annotated t mv); auto.
Qed.
Lemma majority_lost_full rnd t M pp Kpp mv w : (forall r, In r t -> length r = M) ->
  majority_vote_output rnd t M pp Kpp true = Ok (mv, w) ->
  (forall c, In c (named w) -> forall r, In r t -> exists k, k <> c /\ plurality r k) /\
  (forall lA lB, lists (annotated t) lA -> lists (fun c => In c mv) lB -> length lA = (length lB + length (named w))%nat).
Proof.
  intros Hw H. apply majority_caution_full in H as (E & _ & _ & Hl). specialize (Hl eq_refl).
  assert (Hs : forall r, In r t -> exists k, In (Some k) r).
  { unfold get_majority_vote_label in E. match type of E with rbind ?e _ = _ => destruct e eqn:V; cbn [rbind] in E; [|discriminate E] end. eapply valid_some; eauto. }
  pose proof (mv_pluralities _ _ _ _ _ _ _ Hw Hs E) as F. split.
  - intros c Hc. apply (proj2 Hl) in Hc. apply (lost_never_wins t mv); tauto.
  - intros lA lB. apply reduced; auto.
Qed.
Lemma quality_lost_full fsqrt rnd t M K prior info w : (forall r, In r t -> length r = M) ->
  label_quality_output fsqrt rnd t M K prior MajorityVote true = Ok (info, w) ->
  (forall c, In c (named w) -> forall r, In r t -> exists k, k <> c /\ plurality r k) /\
  (forall lA lB, lists (annotated t) lA -> lists (fun c => In c (c_label info)) lB -> length lA = (length lB + length (named w))%nat).
Proof.
  intros Hw H. apply quality_caution_full in H as (E & _ & _ & Hl). specialize (Hl eq_refl).
  unfold get_label_quality_multiannotator, label_quality_core in E.
  match type of E with rbind ?e _ = _ => destruct e eqn:V; cbn [rbind] in E; [|discriminate E] end.
  match type of E with rbind ?e _ = _ => destruct e as [mv|] eqn:G; cbn [rbind] in E; [|discriminate E] end.
  match type of E with rbind ?e _ = _ => destruct e as [inf|] eqn:I; cbn [rbind] in E; [|discriminate E] end.
  injection E as <-.
  assert (El : c_label inf = mv).
  { unfold consensus_stats in I. match type of I with rbind ?e _ = _ => destruct e; cbn [rbind] in I; [|discriminate I] end.
    match type of I with rbind ?e _ = _ => destruct e; cbn [rbind] in I; [|discriminate I] end. injection I as <-. reflexivity. }
  rewrite El in *. pose proof (mv_pluralities _ _ _ _ _ _ _ Hw (valid_some _ _ _ _ _ V) G) as F. split.
  - intros c Hc. apply (proj2 Hl) in Hc. apply (lost_never_wins t mv); tauto.
  - intros lA lB. apply reduced; auto.
Qed.
