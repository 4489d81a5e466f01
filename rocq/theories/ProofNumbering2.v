(** * The numbering of the classes: the out-of-distribution estimator, and Datalab's checks *)
From Coq Require Import QArith Qreals Reals List ZArith Bool Arith Lia Lqa Sorted Permutation.
From Verif Require Import Base BaseFacts ModelUtil ModelCount ModelRank ModelEntropy ModelOutlier SpecCount SpecOutlierCheck SpecSymmetry SpecRename SpecNumbering
  ProofUtil ProofCount ProofSymmetry ProofRows ProofNumbering.
Import ListNotations.
Open Scope Q_scope.

Definition thr_rel (names : list nat) (t t' : option (list Q)) : Prop :=
  match t, t' with Some t, Some t' => renamed_values names t t' | None, None => True | _, _ => False end.
Definition scores_rel (names : list nat) (r r' : res (option (list Q) * list R)) : Prop :=
  match r, r' with
  | Ok (t, sc), Ok (t', sc') => sc' = sc /\ thr_rel names t t'
  | Raise e, Raise e' => e' = e
  | _, _ => False
  end.
Lemma rmap_F2 {A B C} (R : A -> B -> Prop) (f : A -> res C) (g : B -> res C) a b : Forall2 R a b -> (forall x y, R x y -> g y = f x) -> rmap g b = rmap f a.
Proof. intros F H. induction F as [|x y a b E F IH]; [reflexivity|]. cbn [rmap]. now rewrite (H x y E), IH. Qed.

Section Estimator.
Context {F : Type} (B : backend F).
Variables (K : nat) (names : list nat).
Hypothesis Pn : Permutation names (seq 0 K).
Hypothesis Hs : sorts_R (rsort B).

Lemma scores_renamed (o o' : ood F) pp pp' labels : renamed_state names o o' -> (forall ls l, labels = Some ls -> In l ls -> (l < K)%nat) ->
  (forall row, In row pp -> length row = K) -> Forall2 (renamed_row names) pp pp' ->
  scores_rel names (pred_probs_scores B o pp K labels) (pred_probs_scores B o' pp' K (option_map (renamed_labels names) labels)).
Proof.
  intros (_ & _ & _ & Em & Ea & EM & Eg & _ & Et) Hlab Hrow HF. unfold pred_probs_scores. rewrite Em, Ea, EM, Eg.
  set (f := fun row => ood_row_score (rsort B) (p_method o) (p_M o) (p_gamma o) (map Q2R row)).
  assert (Score : forall rows rows', Forall2 (fun r r' => length r = K /\ renamed_values names r r') rows rows' -> rmap f rows' = rmap f rows).
  { intros rows rows' G. eapply rmap_F2; [exact G|]. intros r r' (L & V). unfold f. symmetry. apply row_score_perm; auto. eapply renamed_perm_R; eauto. }
  assert (Adj : forall t t', length t = K -> renamed_values names t t' ->
    rmap f (subtract_confident_thresholds [] pp' K (Some t')) = rmap f (subtract_confident_thresholds [] pp K (Some t))).
  { intros t t' Lt V. apply Score. unfold subtract_confident_thresholds. clear - Pn Lt V Hrow HF.
    induction HF as [|r r' p p' H G IH]; [constructor|]. cbn [map]. constructor.
    - assert (Lr : length r = K) by (apply Hrow; now left). split.
      + rewrite !map_length, combine_length. lia.
      + apply (adjust_renamed K names Pn t t' r r' Lt Lr V). now apply renamed_row_values.
    - apply IH. intros x Hx. apply Hrow. now right. }
  destruct (p_adjust o).
  - assert (Fin : forall t t', renamed_values names t t' ->
      scores_rel names
        (do rows <- (if Nat.eqb (length t) K then Ok (subtract_confident_thresholds [] pp K (Some t)) else Raise ValueError) ; do sc <- rmap f rows ; Ok (Some t, sc))
        (do rows <- (if Nat.eqb (length t') K then Ok (subtract_confident_thresholds [] pp' K (Some t')) else Raise ValueError) ; do sc <- rmap f rows ; Ok (Some t', sc))).
    { intros t t' V. rewrite (proj1 V). destruct (Nat.eqb_spec (length t) K) as [Lt|]; [|reflexivity]. cbn [rbind]. rewrite (Adj t t' Lt V).
      destruct (rmap f (subtract_confident_thresholds [] pp K (Some t))) as [sc|e]; cbn [rbind scores_rel]; auto. }
    destruct (p_thresholds o) as [t|], (p_thresholds o') as [t'|]; try contradiction.
    + cbn [rbind]. apply Fin, Et.
    + destruct labels as [ls|]; [|reflexivity]. cbn [option_map]. rewrite (valid_renamed K names Pn ls pp pp' false) by eauto.
      destruct (assert_valid_inputs ls pp K false) as [u|e] eqn:EV; [|reflexivity]. cbn [rbind].
      apply Fin, (thresholds_renamed K names Pn); eauto. unfold assert_valid_inputs in EV. destruct ls; [discriminate|].
      destruct (negb false && _)%bool; [discriminate|]. destruct (Nat.eqb_spec (length pp) (length (n :: ls))) as [E|]; [now symmetry|discriminate].
  - cbn [rbind]. rewrite (Score pp pp').
    + destruct (rmap f pp) as [sc|e]; cbn [rbind scores_rel]; auto.
    + clear - Hrow HF. induction HF as [|r r' p p' H G IH]; [constructor|]. constructor.
      * split; [apply Hrow; now left|now apply renamed_row_values].
      * apply IH. intros x Hx. apply Hrow. now right.
Qed.

Definition out_rel (r r' : ood F * res (option (list R))) : Prop := renamed_state names (fst r) (fst r') /\ snd r' = snd r.
Lemma features_renamed (o o' : ood F) f : renamed_state names o o' ->
  match features_scores B o f, features_scores B o' f with
  | Ok (q, sc), Ok (q', sc') => renamed_state names q q' /\ sc' = sc
  | Raise e, Raise e' => e' = e
  | _, _ => False
  end.
Proof.
  intros (E1 & E2 & E3 & E4 & E5 & E6 & E7 & E8 & E9). unfold features_scores, finish. rewrite E1, E2, E3, E8.
  destruct (p_knn o) as [kn|].
  - destruct (negb _); [reflexivity|]. destruct (correct_precision_errors _ _ _) as [sc|e]; cbn [rbind fst snd]; [|reflexivity].
    split; [|reflexivity]. repeat split; cbn [set_knn p_knn p_k p_t p_method p_adjust p_thresholds p_M p_gamma p_scaling]; auto.
  - destruct (features_to_knn B f (p_k o)) as [nm|e]; cbn [rbind]; [|reflexivity].
    destruct (correct_precision_errors _ _ _) as [sc|e]; cbn [rbind fst snd]; [|reflexivity].
    split; [|reflexivity]. repeat split; cbn [set_knn p_knn p_k p_t p_method p_adjust p_thresholds p_M p_gamma p_scaling]; auto.
Qed.
Lemma input_renamed (i i' : input F) : renamed_input K names i i' ->
  match valid_input B i, valid_input B i' with
  | Ok (Features f), Ok (Features f') => f' = f
  | Ok (PredProbs pp k), Ok (PredProbs pp' k') => k = K /\ k' = K /\ (forall row, In row pp -> length row = K) /\ Forall2 (renamed_row names) pp pp'
  | Raise e, Raise e' => e' = e
  | _, _ => False
  end.
Proof.
  intros (E1 & _ & _ & E2). unfold valid_input. rewrite E1. destruct (in_features i) as [f|], (in_pred_probs i) as [[pp k]|], (in_pred_probs i') as [[pp' k']|]; try contradiction; auto.
  destruct (two_dim B f); reflexivity.
Qed.
Lemma fit_renamed (o o' : ood F) i i' : renamed_state names o o' -> renamed_input K names i i' -> out_rel (shared_fit B o i) (shared_fit B o' i').
Proof.
  intros HO HI. pose proof (input_renamed i i' HI) as V. unfold shared_fit, out_rel. destruct HI as (_ & EL & HL & _).
  destruct (valid_input B i) as [[f|pp k]|e], (valid_input B i') as [[f'|pp' k']|e']; try contradiction.
  - subst f'. rewrite (proj1 HO). destruct (p_knn o); [auto|]. pose proof (features_renamed o o' f HO) as G.
    destruct (features_scores B o f) as [(q & sc)|e], (features_scores B o' f) as [(q' & sc')|e']; try contradiction; cbn [rbind lift fst snd].
    + destruct G as (G & ->). auto.
    + subst. auto.
  - destruct V as (-> & -> & Hrow & HF). pose proof (scores_renamed o o' pp pp' (in_labels i) HO HL Hrow HF) as G. rewrite EL.
    assert (T := HO). destruct T as (_ & _ & _ & _ & _ & _ & _ & _ & T).
    destruct (p_thresholds o) as [t|] eqn:Et, (p_thresholds o') as [t'|] eqn:Et'; try contradiction; [auto|].
    destruct (pred_probs_scores B o pp K (in_labels i)) as [(t & sc)|e], (pred_probs_scores B o' pp' K _) as [(t' & sc')|e']; try contradiction; cbn [rbind lift fst snd].
    + destruct G as (-> & G). split; [|reflexivity]. destruct t as [t|], t' as [t'|]; try contradiction; [|exact HO].
      destruct HO as (E1 & E2 & E3 & E4 & E5 & E6 & E7 & E8 & _). repeat split; cbn [set_thresholds p_knn p_k p_t p_method p_adjust p_thresholds p_M p_gamma p_scaling]; auto; apply G.
    + cbn in G. subst. auto.
  - subst. auto.
Qed.
Lemma score_renamed (o o' : ood F) i i' : renamed_state names o o' -> renamed_input K names i i' -> out_rel (score B o i) (score B o' i').
Proof.
  intros HO HI. pose proof (input_renamed i i' HI) as V. unfold score, out_rel.
  destruct (valid_input B i) as [[f|pp k]|e], (valid_input B i') as [[f'|pp' k']|e']; try contradiction.
  - subst f'. rewrite (proj1 HO). destruct (p_knn o); [|auto]. pose proof (features_renamed o o' f HO) as G.
    destruct (features_scores B o f) as [(q & sc)|e], (features_scores B o' f) as [(q' & sc')|e']; try contradiction; cbn [rbind lift fst snd].
    + destruct G as (G & ->). auto.
    + subst. auto.
  - destruct V as (-> & -> & Hrow & HF). pose proof (scores_renamed o o' pp pp' None HO ltac:(discriminate) Hrow HF) as G. cbn [option_map] in G.
    assert (T := HO). destruct T as (_ & _ & _ & _ & Ta & _ & _ & _ & T). rewrite Ta.
    assert (R : out_rel (lift o (do r <- pred_probs_scores B o pp K None ; Ok (o, Some (snd r)))) (lift o' (do r <- pred_probs_scores B o' pp' K None ; Ok (o', Some (snd r))))).
    { unfold out_rel. destruct (pred_probs_scores B o pp K None) as [(t & sc)|e], (pred_probs_scores B o' pp' K None) as [(t' & sc')|e']; try contradiction; cbn [rbind lift fst snd].
      - destruct G as (-> & _). auto.
      - cbn in G. subst. auto. }
    destruct (p_thresholds o) as [t|] eqn:Et, (p_thresholds o') as [t'|] eqn:Et'; try contradiction; [exact R|].
    destruct (p_adjust o); [auto|exact R].
  - subst. auto.
Qed.
Lemma call_renamed (o o' : ood F) c c' : renamed_state names o o' -> renamed_call K names c c' -> out_rel (run_call B o c) (run_call B o' c').
Proof.
  intros HO HC. destruct c as [i|i|i], c' as [i'|i'|i']; cbn in HC; try contradiction; cbn [run_call].
  - destruct (fit_renamed o o' i i' HO HC) as (A & E). unfold fit, out_rel. cbn [fst snd]. rewrite E. auto.
  - now apply score_renamed.
  - pose proof (fit_renamed o o' i i' HO HC) as (A & E). unfold fit_score. cbv zeta. rewrite E.
    destruct (snd (shared_fit B o i)) as [[sc|]|e] eqn:E0; [split; [exact A|congruence]|now apply score_renamed|split; [exact A|congruence]].
Qed.
Lemma history_renamed (o o' : ood F) h h' c c' : renamed_state names o o' -> Forall2 (renamed_call K names) h h' -> renamed_call K names c c' ->
  renamed_state names (run B h o) (run B h' o') /\ snd (run_call B (run B h' o') c') = snd (run_call B (run B h o) c).
Proof.
  intros HO HF HC. assert (R : renamed_state names (run B h o) (run B h' o')).
  { unfold run. clear HC. revert o o' HO. induction HF as [|x y h h' E HF IH]; intros o o' HO; [exact HO|]. cbn [fold_left]. apply IH. now apply call_renamed. }
  split; [exact R|]. now apply call_renamed.
Qed.
End Estimator.
