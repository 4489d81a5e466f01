From Coq Require Import QArith Qreals Reals List Bool Arith Lia Lra Permutation.
From Coq Require Lqa.
From Verif Require Import Base BaseFacts ModelUtil ModelCount ModelRank ModelEntropy ModelOutlier SpecOutlier ProofEntropy.
Import ListNotations.
Open Scope R_scope.

(** ** C28 *)
Lemma denom_pos s : 0 < Rmax s eps_const.
Proof. unfold eps_const. apply Rlt_le_trans with (/ 1000000); [lra|apply Rmax_r]. Qed.
Lemma exp_score_lt t s d d' : 0 < t -> d < d' -> exp (- t * d' / Rmax s eps_const) < exp (- t * d / Rmax s eps_const).
Proof.
  intros Ht Hd. apply exp_increasing. apply Rmult_lt_compat_r; [apply Rinv_0_lt_compat, denom_pos|].
  apply Ropp_lt_cancel. rewrite !Ropp_mult_distr_l, !Ropp_involutive. apply Rmult_lt_compat_l; auto.
Qed.
Lemma exp_score_0 t s : exp (- t * 0 / Rmax s eps_const) = 1.
Proof. replace (- t * 0 / Rmax s eps_const) with 0 by (field; apply Rgt_not_eq, denom_pos). apply exp_0. Qed.
Lemma nth_transform ds t s i : (i < length ds)%nat ->
  nth i (transform_distances_to_scores ds t s) 0 = exp (- t * nth i ds 0 / Rmax s eps_const).
Proof. intros H. unfold transform_distances_to_scores. rewrite (nth_map_gen _ _ _ _ 0) by auto. reflexivity. Qed.

Lemma C28_transform_full : forall ds t s, 0 < t -> (forall d, In d ds -> 0 <= d) ->
  length (transform_distances_to_scores ds t s) = length ds /\
  (forall i, (i < length ds)%nat ->
     0 < nth i (transform_distances_to_scores ds t s) 0 <= 1 /\
     (nth i (transform_distances_to_scores ds t s) 0 = 1 <-> nth i ds 0 = 0)) /\
  (forall i j, (i < length ds)%nat -> (j < length ds)%nat ->
     (nth i ds 0 < nth j ds 0 <->
      nth j (transform_distances_to_scores ds t s) 0 < nth i (transform_distances_to_scores ds t s) 0)) /\
  (forall t' i, (i < length ds)%nat -> t < t' -> 0 < nth i ds 0 ->
     nth i (transform_distances_to_scores ds t' s) 0 < nth i (transform_distances_to_scores ds t s) 0).
Proof.
  intros ds t s Ht Hd.
  assert (Hn : forall i, (i < length ds)%nat -> 0 <= nth i ds 0) by (intros; apply Hd, nth_In; auto).
  split; [apply map_length|]. split; [|split].
  - intros i Hi. rewrite nth_transform by auto. specialize (Hn i Hi).
    destruct (Req_dec (nth i ds 0) 0) as [E|E].
    + rewrite E, exp_score_0. split; [lra|tauto].
    + assert (0 < nth i ds 0) as P by lra. pose proof (exp_score_lt t s _ _ Ht P) as L. rewrite exp_score_0 in L.
      split; [split; [apply exp_pos|lra]|]. split; intros; lra.
  - intros i j Hi Hj. rewrite !nth_transform by auto. split; intros H; [apply exp_score_lt; auto|].
    destruct (Rtotal_order (nth i ds 0) (nth j ds 0)) as [C|[C|C]]; auto.
    + rewrite C in H. lra.
    + pose proof (exp_score_lt t s _ _ Ht C). lra.
  - intros t' i Hi Htt P. rewrite !nth_transform by auto. apply exp_increasing.
    apply Rmult_lt_compat_r; [apply Rinv_0_lt_compat, denom_pos|].
    apply Ropp_lt_cancel. rewrite !Ropp_mult_distr_l, !Ropp_involutive. apply Rmult_lt_compat_r; auto.
Qed.

(** after the precision correction *)
Lemma C28_corrected_full : forall ds t s m scores, 0 < t -> (forall d, In d ds -> 0 <= d) ->
  correct_precision_errors (transform_distances_to_scores ds t s) ds m = Ok scores ->
  length scores = length ds /\
  (forall i, (i < length ds)%nat -> 0 < nth i scores 0 <= 1 /\ (nth i ds 0 = 0 -> nth i scores 0 = 1)) /\
  (forall i j, (i < length ds)%nat -> (j < length ds)%nat -> nth i ds 0 <= nth j ds 0 -> nth j scores 0 <= nth i scores 0).
Proof.
  intros ds t s m scores Ht Hd HR. destruct (C28_transform_full ds t s Ht Hd) as (L & R1 & R2 & _).
  unfold correct_precision_errors in HR. destruct (tolerance m) as [tol|e]; cbn [rbind] in HR; [|discriminate].
  injection HR as <-. set (tr := transform_distances_to_scores ds t s) in *.
  assert (Mono : forall i j, (i < length ds)%nat -> (j < length ds)%nat -> nth i ds 0 <= nth j ds 0 -> nth j tr 0 <= nth i tr 0).
  { intros i j Hi Hj H. destruct (Rle_lt_dec (nth j tr 0) (nth i tr 0)); auto. apply R2 in r; auto. lra. }
  destruct tol as [tl|].
  - assert (N : forall i, (i < length ds)%nat -> nth i (map (fun sd => if Rlt_dec (snd sd) tl then 1 else fst sd) (combine tr ds)) 0
              = if Rlt_dec (nth i ds 0) tl then 1 else nth i tr 0).
    { intros i Hi. rewrite (nth_map_gen _ _ _ _ (0, 0)) by (rewrite combine_length; lia). rewrite combine_nth by auto. reflexivity. }
    split; [rewrite map_length, combine_length; lia|]. split.
    + intros i Hi. rewrite N by auto. specialize (R1 i Hi). destruct (Rlt_dec (nth i ds 0) tl); [split; [lra|auto]|].
      split; [apply R1|]. intros. apply R1; auto.
    + intros i j Hi Hj H. rewrite !N by auto. specialize (Mono i j Hi Hj H). pose proof (R1 j Hj).
      destruct (Rlt_dec (nth i ds 0) tl), (Rlt_dec (nth j ds 0) tl); lra.
  - split; auto. split; auto. intros i Hi. specialize (R1 i Hi). split; [apply R1|]. intros. apply R1; auto.
Qed.

(** scores from predicted probabilities *)
Lemma rsum_pos l : l <> [] -> (forall x, In x l -> 0 < x) -> 0 < rsum l.
Proof.
  destruct l as [|a l]; [congruence|]. intros _ H. cbn [rsum fold_right]. fold (rsum l).
  assert (0 < a) by (apply H; simpl; auto). assert (0 <= rsum l); [|lra].
  assert (forall x, In x l -> 0 < x) as H' by (intros; apply H; simpl; auto). clear H a H0.
  induction l as [|b l IH]; simpl; [lra|]. assert (0 < b) by (apply H'; simpl; auto).
  assert (0 <= rsum l) by (apply IH; intros; apply H'; simpl; auto). unfold rsum in *. lra.
Qed.
Lemma rsum_bounds lo hi l : (forall x, In x l -> lo <= x <= hi) -> INR (length l) * lo <= rsum l <= INR (length l) * hi.
Proof.
  induction l as [|a l IH]; intros H; [simpl; lra|]. cbn [length]. rewrite S_INR. cbn [rsum fold_right]. fold (rsum l).
  specialize (IH ltac:(intros; apply H; simpl; auto)). specialize (H a (or_introl eq_refl)). lra.
Qed.
Lemma softmax_range row x : In x (softmax row) -> 0 < x <= 1.
Proof.
  intros H. unfold softmax in H. apply in_map_iff in H as (v & <- & Hv).
  assert (P : 0 < rsum (map exp row)).
  { apply rsum_pos; [destruct row; [destruct Hv|discriminate]|]. intros y Hy. apply in_map_iff in Hy as (z & <- & _). apply exp_pos. }
  assert (exp v <= rsum (map exp row)).
  { apply rsum_ge_elem; [intros y Hy; apply in_map_iff in Hy as (z & <- & _); apply Rlt_le, exp_pos|apply in_map; auto]. }
  pose proof (exp_pos v). split; [apply Rdiv_lt_0_compat; auto|].
  apply Rmult_le_reg_r with (rsum (map exp row)); auto. unfold Rdiv. rewrite Rmult_assoc, Rinv_l by lra. lra.
Qed.
Lemma rpow_range x g : 0 <= x <= 1 -> 0 < g -> 0 <= rpow x g <= 1.
Proof.
  intros Hx Hg. unfold rpow. destruct (Req_EM_T x 0); [lra|]. unfold Rpower.
  split; [apply Rlt_le, exp_pos|]. rewrite <- exp_0. assert (ln x <= 0).
  { pose proof (ln_le_sub1 x ltac:(lra)). lra. }
  assert (g * ln x <= 0).
  { rewrite <- (Rmult_0_r g). apply Rmult_le_compat_l; lra. }
  destruct (Rle_lt_or_eq_dec _ _ H0) as [C|C]; [left; apply exp_increasing; auto|rewrite C; lra].
Qed.
Lemma rmaximum_spec row : row <> [] -> In (rmaximum row) row.
Proof.
  destruct row as [|x t]; [congruence|]. intros _. cbn [rmaximum].
  assert (G : forall t x, In (fold_left Rmax t x) (x :: t)).
  { clear. induction t as [|y t IH]; intros x; simpl; auto.
    destruct (IH (Rmax x y)) as [E|E]; auto. rewrite <- E. unfold Rmax. destruct (Rle_dec x y); auto. }
  apply G.
Qed.
Lemma C28_pred_probs_full : forall sort method M gamma row, sorts sort -> probability_row row ->
  (1 <= M)%nat -> 0 < gamma -> method <> InvalidMethod ->
  exists s, ood_row_score sort method M gamma row = Ok s /\ 0 <= s <= 1.
Proof.
  intros sort method M gamma row HS (H2 & H0 & H1) HM Hg Hm. fold (rsum row) in H1.
  assert (B1 : forall x, In x row -> 0 <= x <= 1).
  { intros x Hx. split; auto. rewrite <- H1. apply rsum_ge_elem; auto. }
  destruct method; [| | |congruence]; cbn [ood_row_score].
  - assert (E : existsb out_of_unit row = false).
    { destruct (existsb out_of_unit row) eqn:E; auto. apply existsb_exists in E as (x & Hx & E). specialize (B1 x Hx).
      unfold out_of_unit in E. destruct (Rlt_dec x 0); [lra|]. destruct (Rlt_dec 1 x); [lra|discriminate]. }
    rewrite E. eexists. split; [reflexivity|]. pose proof (normalized_entropy_range row H2 H0 H1). lra.
  - eexists. split; [reflexivity|]. apply B1, rmaximum_spec. destruct row; [simpl in H2; lia|discriminate].
  - destruct (Nat.eqb_spec M 0); [lia|]. eexists. split; [reflexivity|].
    set (l := map _ _). assert (HM' : 0 < INR M) by (apply lt_0_INR; lia).
    assert (Bl : forall x, In x l -> 0 <= x <= 1).
    { intros x Hx. apply in_map_iff in Hx as (p & <- & Hp). apply skipn_In in Hp.
      apply (Permutation_in _ (HS _)) in Hp. apply softmax_range in Hp.
      pose proof (rpow_range p gamma ltac:(lra) Hg) as P1. pose proof (rpow_range (1 - p) gamma ltac:(lra) Hg) as P2.
      split; [apply Rmult_le_pos; lra|]. destruct P1, P2. pose proof (Rmult_le_compat _ 1 _ 1 H H4 H3 H5). lra. }
    assert (Ll : (length l <= M)%nat).
    { unfold l, last_n. rewrite map_length, skipn_length. lia. }
    pose proof (rsum_bounds 0 1 l Bl) as (S0 & S1). apply le_INR in Ll.
    assert (0 <= rsum l / INR M).
    { unfold Rdiv. apply Rmult_le_pos; [lra|]. apply Rlt_le, Rinv_0_lt_compat; auto. }
    assert (rsum l / INR M <= 1).
    { apply Rmult_le_reg_r with (INR M); auto. unfold Rdiv. rewrite Rmult_assoc, Rinv_l by lra. lra. }
    lra.
Qed.

(** ** C29 *)
Section Histories.
Context {F : Type} (B : backend F).
Notation ood := (ood F).
Notation input := (input F).
Notation call := (call F).

(** the settings that no call changes *)
Definition same_settings (o o' : ood) : Prop :=
  p_k o' = p_k o /\ p_t o' = p_t o /\ p_method o' = p_method o /\ p_adjust o' = p_adjust o /\ p_M o' = p_M o /\ p_gamma o' = p_gamma o.
Definition same_features (o o' : ood) : Prop := p_knn o' = p_knn o /\ p_scaling o' = p_scaling o.
Definition same_thresholds (o o' : ood) : Prop := p_thresholds o' = p_thresholds o.

Lemma settings_refl o : same_settings o o. Proof. repeat split. Qed.
Lemma settings_trans o1 o2 o3 : same_settings o1 o2 -> same_settings o2 o3 -> same_settings o1 o3.
Proof. unfold same_settings. intuition congruence. Qed.

Lemma features_scores_keep o f o' s : features_scores B o f = Ok (o', s) -> same_settings o o' /\ same_thresholds o o'.
Proof.
  unfold features_scores. destruct (p_knn o) as [kn|].
  - destruct (negb _); [discriminate|]. destruct (finish _ _ _ _ _) as [r|]; cbn [rbind]; [|discriminate].
    intros E. injection E as <- <-. split; [repeat split|reflexivity].
  - destruct (features_to_knn B f (p_k o)) as [nm|]; cbn [rbind]; [|discriminate].
    destruct (finish _ _ _ _ _) as [r|]; cbn [rbind]; [|discriminate].
    intros E. injection E as <- <-. split; [repeat split|reflexivity].
Qed.

(** states reachable from a fresh one *)
Definition coherent (o : ood) : Prop :=
  match p_knn o with
  | None => p_scaling o = None
  | Some kn => fitted_on kn <> None /\ p_scaling o <> None
  end.
(** scoring features leaves a coherent fitted state unchanged *)
Lemma features_scores_fitted o f kn : coherent o -> p_knn o = Some kn ->
  forall o' s, features_scores B o f = Ok (o', s) -> o' = o.
Proof.
  unfold coherent, features_scores. intros C E o' s. rewrite E in *. destruct C as (C1 & C2).
  destruct (fitted_on kn) as [tr|] eqn:Ef; [|congruence]. destruct (p_scaling o) as [sc|] eqn:Es; [|congruence].
  destruct (negb _); [discriminate|]. unfold finish. rewrite Es.
  destruct (correct_precision_errors _ _ _) as [r|]; cbn [rbind]; [|discriminate].
  intros H. injection H as <- <-. cbn [fst]. destruct o; cbn in *. subst. destruct kn; cbn in *. subst. reflexivity.
Qed.
Lemma score_keeps o i : coherent o -> fst (score B o i) = o.
Proof.
  intros C. unfold score. destruct (valid_input B i) as [[f|pp K]|e]; auto.
  - destruct (p_knn o) as [kn|] eqn:E; auto. destruct (features_scores B o f) as [[o' s]|e] eqn:R; auto.
    cbn. eapply features_scores_fitted; eauto.
  - destruct (p_thresholds o), (p_adjust o); auto;
      (destruct (pred_probs_scores B o pp K None); auto).
Qed.

Lemma shared_fit_fst_score o i : snd (shared_fit B o i) = Ok None -> fst (shared_fit B o i) = o.
Proof.
  unfold shared_fit. destruct (valid_input B i) as [[f|pp K]|e]; auto.
  - destruct (p_knn o); auto. destruct (features_scores B o f) as [[o' s]|e]; cbn; [discriminate|auto].
  - destruct (p_thresholds o); auto. destruct (pred_probs_scores B o pp K (in_labels i)) as [[t s]|e]; cbn; [discriminate|auto].
Qed.
(** fit_score and fit change the state in the same way *)
Lemma fit_score_state o i : coherent o -> fst (fit_score B o i) = fst (shared_fit B o i).
Proof.
  intros C. unfold fit_score. destruct (snd (shared_fit B o i)) as [[s|]|e] eqn:E; auto.
  pose proof (shared_fit_fst_score o i E) as E'. rewrite E'. apply score_keeps; auto.
Qed.
Lemma fit_score_ok o i : coherent o -> p_knn o = None -> in_pred_probs i = None ->
  succeeds (snd (fit_score B o i)) <-> succeeds (snd (shared_fit B o i)).
Proof.
  intros C Hk Hi. unfold fit_score. destruct (snd (shared_fit B o i)) as [[s|]|e] eqn:E; rewrite ?E; try tauto.
  exfalso. unfold shared_fit in E. unfold valid_input in E. rewrite Hi in E. destruct (in_features i); [|discriminate].
  destruct (two_dim B f); [|discriminate]. rewrite Hk in E.
  destruct (features_scores B o f) as [[o' s]|]; cbn in E; discriminate.
Qed.

(** what a call does to the state *)
Inductive effect (o : ood) (c : call) : ood -> Prop :=
  | Keeps : effect o c o
  | NewIndex i f kn s sc : is_fit c i -> features_only B i f -> p_knn o = None -> succeeds (snd (run_call B o c)) ->
      features_scores B o f = Ok (set_knn o (Some kn) (Some s), sc) -> fitted_on kn = Some f ->
      effect o c (set_knn o (Some kn) (Some s))
  | NewThresholds i pp K t sc : is_fit c i -> in_features i = None -> in_pred_probs i = Some (pp, K) -> p_thresholds o = None ->
      succeeds (snd (run_call B o c)) -> pred_probs_scores B o pp K (in_labels i) = Ok (Some t, sc) ->
      effect o c (set_thresholds o (Some t)).
Lemma shared_fit_effect o c i : coherent o -> is_fit c i -> effect o c (fst (shared_fit B o i)).
Proof.
  intros C Hc.
  assert (Ho : forall s, snd (shared_fit B o i) = Ok (Some s) -> succeeds (snd (run_call B o c))).
  { intros s E. destruct Hc as [->| ->]; cbn [run_call].
    - unfold fit. cbn [snd]. rewrite E. eexists; reflexivity.
    - unfold fit_score. rewrite E. rewrite E. eexists; reflexivity. }
  unfold shared_fit in *. destruct (valid_input B i) as [[f|pp K]|e] eqn:V; [| |apply Keeps].
  - destruct (p_knn o) as [kn|] eqn:Ek; [apply Keeps|].
    destruct (features_scores B o f) as [[o' s]|e] eqn:R; cbn in *; [|apply Keeps].
    specialize (Ho s eq_refl).
    assert (Hf : features_only B i f).
    { unfold valid_input in V. destruct (in_features i) as [f'|] eqn:E1, (in_pred_probs i) as [[? ?]|] eqn:E2; try discriminate.
      destruct (two_dim B f') eqn:E3; [|discriminate]. injection V as ->. repeat split; auto. }
    pose proof R as R'. unfold features_scores in R. rewrite Ek in R.
    destruct (features_to_knn B f (p_k o)) as [nm|]; cbn [rbind] in R; [|discriminate].
    destruct (finish _ _ _ _ _) as [r|]; cbn [rbind] in R; [|discriminate]. injection R as <- <-.
    eapply NewIndex; eauto.
  - destruct (p_thresholds o) as [t|] eqn:Et; [apply Keeps|].
    destruct (pred_probs_scores B o pp K (in_labels i)) as [[t s]|e] eqn:R; cbn in *; [|apply Keeps].
    specialize (Ho s eq_refl). destruct t as [t|]; [|apply Keeps].
    unfold valid_input in V. destruct (in_features i) as [f'|] eqn:E1, (in_pred_probs i) as [[? ?]|] eqn:E2; try discriminate;
      [destruct (two_dim B f'); discriminate|]. injection V as -> ->. eapply NewThresholds; eauto.
Qed.
Lemma call_effect o c : coherent o -> effect o c (fst (run_call B o c)).
Proof.
  intros C. destruct c as [i|i|i]; cbn [run_call].
  - apply (shared_fit_effect o (Fit i) i C). left; auto.
  - rewrite score_keeps by auto. apply Keeps.
  - rewrite fit_score_state by auto. apply (shared_fit_effect o (FitScore i) i C). right; auto.
Qed.
Lemma effect_coherent o c o' : coherent o -> effect o c o' -> coherent o'.
Proof.
  intros C E. destruct E; auto; unfold coherent in *; cbn in *.
  - rewrite H4. split; discriminate.
Qed.
Lemma run_coherent h : forall o, coherent o -> coherent (run B h o).
Proof.
  induction h as [|c h IH]; intros o C; auto. cbn [run fold_left]. apply IH. eapply effect_coherent; eauto. apply call_effect; auto.
Qed.
Lemma effect_settings o c o' : effect o c o' -> same_settings o o'.
Proof. intros E. destruct E; repeat split. Qed.
Lemma run_settings h : forall o, coherent o -> same_settings o (run B h o).
Proof.
  induction h as [|c h IH]; intros o C; [apply settings_refl|]. cbn [run fold_left].
  eapply settings_trans; [eapply effect_settings, call_effect; auto|]. apply IH.
  eapply effect_coherent; eauto. apply call_effect; auto.
Qed.
Lemma run_app h1 h2 o : run B (h1 ++ h2) o = run B h2 (run B h1 o).
Proof. unfold run. apply fold_left_app. Qed.

(** fitted estimators are never replaced *)
Lemma effect_features_kept o c o' kn : p_knn o = Some kn -> effect o c o' -> same_features o o'.
Proof. intros H E. destruct E; [split; auto|congruence|split; auto]. Qed.
Lemma effect_thresholds_kept o c o' t : p_thresholds o = Some t -> effect o c o' -> same_thresholds o o'.
Proof. intros H E. destruct E; [reflexivity|reflexivity|congruence]. Qed.
Lemma run_features_kept h : forall o kn, coherent o -> p_knn o = Some kn -> same_features o (run B h o).
Proof.
  induction h as [|c h IH]; intros o kn C H; [split; auto|]. cbn [run fold_left].
  pose proof (call_effect o c C) as E. destruct (effect_features_kept _ _ _ _ H E) as (A1 & A2).
  destruct (IH (fst (run_call B o c)) kn) as (A3 & A4); [eapply effect_coherent; eauto|congruence|]. unfold same_features, run in *. split; congruence.
Qed.
Lemma run_thresholds_kept h : forall o t, coherent o -> p_thresholds o = Some t -> p_thresholds (run B h o) = Some t.
Proof.
  induction h as [|c h IH]; intros o t C H; auto. cbn [run fold_left].
  pose proof (call_effect o c C) as E. pose proof (effect_thresholds_kept _ _ _ _ H E) as A.
  apply IH; [eapply effect_coherent; eauto|]. unfold same_thresholds in A. congruence.
Qed.
Lemma fresh_coherent o : fresh o -> coherent o.
Proof. intros (H1 & H2 & H3). unfold coherent. rewrite H1. auto. Qed.

Lemma C29_never_replaced_full : forall o h1 h2, fresh o ->
  (forall kn, p_knn (run B h1 o) = Some kn -> p_knn (run B (h1 ++ h2) o) = Some kn /\
                                              p_scaling (run B (h1 ++ h2) o) = p_scaling (run B h1 o)) /\
  (forall t, p_thresholds (run B h1 o) = Some t -> p_thresholds (run B (h1 ++ h2) o) = Some t) /\
  (forall i, fst (score B (run B h1 o) i) = run B h1 o).
Proof.
  intros o h1 h2 HF. pose proof (run_coherent h1 o (fresh_coherent o HF)) as C. rewrite run_app. split; [|split].
  - intros kn H. destruct (run_features_kept h2 _ kn C H) as (A & A'). split; congruence.
  - intros t H. apply run_thresholds_kept; auto.
  - intros i. apply score_keeps; auto.
Qed.

(** the outcome of scoring depends on the fitted part only *)
Lemma features_scores_ext o o' f : same_settings o o' -> same_features o o' ->
  match features_scores B o f, features_scores B o' f with
  | Ok (_, s), Ok (_, s') => s = s'
  | Raise e, Raise e' => e = e'
  | _, _ => False
  end.
Proof.
  intros (S1 & S2 & _) (S7 & S8). unfold features_scores, finish. rewrite S1, S2, S7, S8.
  destruct (p_knn o) as [kn|].
  - destruct (negb _); auto. destruct (correct_precision_errors _ _ _); cbn; auto.
  - destruct (features_to_knn B f (p_k o)); cbn [rbind]; auto. destruct (correct_precision_errors _ _ _); cbn; auto.
Qed.
Lemma score_features_ext o o' i f : features_only B i f -> same_settings o o' -> same_features o o' ->
  snd (score B o i) = snd (score B o' i).
Proof.
  intros (V1 & V2 & V3) HS HFe. unfold score, valid_input. rewrite V1, V2, V3.
  pose proof (features_scores_ext o o' f HS HFe) as E. destruct HFe as (E1 & _). rewrite E1. destruct (p_knn o); auto.
  destruct (features_scores B o f) as [[? ?]|], (features_scores B o' f) as [[? ?]|]; cbn; try tauto; congruence.
Qed.
Lemma pred_probs_ext o o' pp K l : same_settings o o' -> same_thresholds o o' -> pred_probs_scores B o pp K l = pred_probs_scores B o' pp K l.
Proof. intros (S1 & S2 & S3 & S4 & S5 & S6) H. unfold pred_probs_scores. rewrite S3, S4, S5, S6, H. reflexivity. Qed.
Lemma score_pred_probs_ext o o' i : pred_probs_only i -> same_settings o o' -> same_thresholds o o' ->
  snd (score B o i) = snd (score B o' i).
Proof.
  intros (V1 & V2) HS HT. unfold score, valid_input. rewrite V1. destruct (in_pred_probs i) as [[pp K]|]; [|congruence].
  pose proof (pred_probs_ext o o' pp K None HS HT) as E. destruct HS as (_ & _ & _ & S4 & _). rewrite HT, S4, <- E.
  destruct (p_thresholds o), (p_adjust o); auto; destruct (pred_probs_scores B o pp K None) as [[? ?]|]; reflexivity.
Qed.

Definition any_features_fit (o : ood) (c : call) : Prop := exists f, fits_features B o c f.

(** what a successful first fit stores *)
Definition index_ok (o : ood) (kn : knn_object F) (f : F) : Prop :=
  fitted_on kn = Some f /\ exists t, tolerance (knn_metric kn) = Ok t.
Lemma fit_gives_index o c f : coherent o -> p_knn o = None -> fits_features B o c f ->
  exists kn, p_knn (fst (run_call B o c)) = Some kn /\ index_ok o kn f.
Proof.
  intros C Hk (i & Hc & (V1 & V2 & V3) & HS).
  assert (Hst : fst (run_call B o c) = fst (shared_fit B o i)).
  { destruct Hc as [->| ->]; cbn [run_call]; [reflexivity|apply fit_score_state; auto]. }
  assert (HS' : succeeds (snd (shared_fit B o i))).
  { destruct Hc as [->| ->]; cbn [run_call] in HS; [|apply fit_score_ok in HS; auto].
    unfold fit in HS. cbn [snd] in HS. destruct (snd (shared_fit B o i)); [eexists; reflexivity|destruct HS; discriminate]. }
  rewrite Hst. clear Hst HS Hc. unfold shared_fit, valid_input in *. rewrite V1, V2, V3, Hk in *.
  unfold features_scores in *. rewrite Hk in *.
  destruct (features_to_knn B f (p_k o)) as [nm|]; cbn in *; [|destruct HS'; discriminate].
  destruct (finish B o (snd nm) (fst nm) _) as [r|] eqn:R; cbn in *; [|destruct HS'; discriminate].
  eexists. split; [reflexivity|]. split; [reflexivity|]. cbn. unfold finish, correct_precision_errors in R.
  destruct (tolerance (snd nm)); [eexists; reflexivity|discriminate].
Qed.
Lemma no_fit_no_index o c : coherent o -> p_knn o = None -> ~ any_features_fit o c -> p_knn (fst (run_call B o c)) = None.
Proof.
  intros C Hk HN. pose proof (call_effect o c C) as E. destruct E; cbn; auto. exfalso. apply HN. exists f, i. auto.
Qed.
Lemma run_cons c h o : run B (c :: h) o = run B h (fst (run_call B o c)).
Proof. reflexivity. Qed.
Lemma no_call_cons P o c h : ~ P o c -> no_call B P (fst (run_call B o c)) h -> no_call B P o (c :: h).
Proof.
  intros H1 H2 g1 c' g2 E. destruct g1 as [|d g1]; cbn in E; injection E as -> ->; auto. apply (H2 g1 c' g2); auto.
Qed.
Lemma no_call_nil P o : no_call B P o [].
Proof. intros g1 c' g2 E. destruct g1; discriminate. Qed.
Lemma first_features_fit h : forall o, coherent o -> p_knn o = None ->
  (no_call B any_features_fit o h /\ p_knn (run B h o) = None) \/
  exists h1 c h2 f, h = h1 ++ c :: h2 /\ no_call B any_features_fit o h1 /\ fits_features B (run B h1 o) c f /\ p_knn (run B h1 o) = None.
Proof.
  induction h as [|c h IH]; intros o C Hk; [left; split; auto; apply no_call_nil|].
  destruct (p_knn (fst (run_call B o c))) as [kn|] eqn:E.
  - right. pose proof (call_effect o c C) as Ef. inversion Ef; subst.
    + rewrite <- H in E. congruence.
    + exists [], c, h, f. split; auto. split; [apply no_call_nil|]. split; auto. exists i. auto.
    + rewrite <- H in E. cbn in E. congruence.
  - assert (HN : ~ any_features_fit o c).
    { intros (f & HF). destruct (fit_gives_index o c f C Hk HF) as (kn & E' & _). congruence. }
    assert (C' : coherent (fst (run_call B o c))) by (eapply effect_coherent; eauto; apply call_effect; auto).
    destruct (IH _ C' E) as [(A & A')|(h1 & c' & h2 & f & A1 & A2 & A3 & A4)].
    + left. split; auto. apply no_call_cons; auto.
    + right. exists (c :: h1), c', h2, f. split; [rewrite A1; reflexivity|]. split; [apply no_call_cons; auto|]. auto.
Qed.
(** a first fit stores the same index whatever happened before *)
Lemma first_fit_ext o o' c f : coherent o -> coherent o' -> same_settings o o' -> p_knn o = None -> p_knn o' = None ->
  fits_features B o' c f -> same_features (fst (run_call B o' c)) (fst (run_call B o c)) /\ p_knn (fst (run_call B o c)) <> None.
Proof.
  intros C C' HSe Hk Hk' HF. destruct (fit_gives_index o' c f C' Hk' HF) as (kn & E & _).
  pose proof (call_effect o' c C') as Ef.
  assert (Es : p_scaling o = None) by (unfold coherent in C; rewrite Hk in C; auto).
  assert (Es' : p_scaling o' = None) by (unfold coherent in C'; rewrite Hk' in C'; auto).
  destruct HF as (i & Hc & (V1 & V2 & V3) & _).
  assert (G : forall o1, coherent o1 -> fst (run_call B o1 c) = fst (shared_fit B o1 i)).
  { intros o1 C1. destruct Hc as [->| ->]; cbn [run_call]; [reflexivity|apply fit_score_state; auto]. }
  rewrite (G o C). rewrite (G o' C') in *. unfold shared_fit, valid_input in *. rewrite V1, V2, V3, Hk, Hk' in *.
  destruct HSe as (S1 & S2 & _). unfold features_scores, finish in *. rewrite Hk, Hk', Es, Es', S1, S2 in *.
  destruct (features_to_knn B f (p_k o)) as [nm|]; cbn in *; [|congruence].
  destruct (correct_precision_errors _ _ _) as [r|]; cbn in *; [|congruence].
  split; [split; reflexivity|discriminate].
Qed.

Lemma C29_features_full : forall o h i f, fresh o -> features_only B i f ->
  (no_call B any_features_fit o h /\ snd (score B (run B h o) i) = Raise ValueError) \/
  (exists c f0, first_call B any_features_fit o h c /\ fits_features B o c f0 /\
     snd (score B (run B h o) i) = snd (score B (run B [c] o) i) /\
     (succeeds (snd (score B (run B h o) i)) <-> same_dim B f0 f = true)).
Proof.
  intros o h i f HF V. pose proof (fresh_coherent o HF) as C. destruct HF as (Hk & Ht & Hs).
  destruct (first_features_fit h o C Hk) as [(A & A')|(h1 & c & h2 & f0 & A1 & A2 & A3 & A4)].
  - left. split; auto. unfold score, valid_input. destruct V as (-> & -> & ->). rewrite A'. reflexivity.
  - right. exists c, f0. pose proof (run_coherent h1 o C) as C1. pose proof (run_settings h1 o C) as S1.
    destruct (first_fit_ext o (run B h1 o) c f0 C C1 S1 Hk A4 A3) as (X1 & X2).
    destruct (fit_gives_index _ _ _ C1 A4 A3) as (kn & K1 & K2 & (tl & K3)).
    assert (Eh : run B h o = run B h2 (fst (run_call B (run B h1 o) c))) by (rewrite A1, run_app; reflexivity).
    set (o2 := fst (run_call B (run B h1 o) c)) in *.
    assert (C2 : coherent o2) by (eapply effect_coherent; [exact C1|]; apply call_effect; auto).
    assert (S2 : same_settings o o2) by (eapply settings_trans; [exact S1|]; eapply effect_settings, call_effect; auto).
    pose proof (run_features_kept h2 o2 kn C2 K1) as X3. pose proof (run_settings h2 o2 C2) as S3. rewrite <- Eh in *.
    assert (S4 : same_settings (run B [c] o) (run B h o)).
    { eapply settings_trans; [|exact S3]. pose proof (effect_settings _ _ _ (call_effect o c C)) as S5.
      unfold same_settings in *. change (run B [c] o) with (fst (run_call B o c)). intuition congruence. }
    split; [exists h1, h2; split; auto; split; [exists f0; auto|]; exact A2|]. split; [|split].
    + destruct A3 as (i3 & B1 & B2 & B3). exists i3. split; auto. split; auto.
      pose proof (call_effect o c C) as Ef. inversion Ef; subst; auto; exfalso; apply X2; rewrite <- H; cbn; auto.
    + symmetry. apply (score_features_ext _ _ i f); auto. change (run B [c] o) with (fst (run_call B o c)).
      destruct X1, X3. split; congruence.
    + assert (K4 : p_knn (run B h o) = Some kn) by (destruct X3; congruence).
      pose proof (run_coherent h o C) as C3.
      unfold score, valid_input. destruct V as (-> & -> & ->). rewrite K4.
      unfold coherent in C3. rewrite K4 in C3. destruct C3 as (C4 & C5).
      unfold features_scores. rewrite K4, K2. destruct (same_dim B f0 f); cbn [negb].
      * unfold finish, correct_precision_errors. rewrite K3. cbn. split; auto. intros _. eexists. reflexivity.
      * cbn. split; [intros (s & D); discriminate|discriminate].
Qed.

(** the same for predicted probabilities *)
Lemma pp_thr o pp K l t s : pred_probs_scores B o pp K l = Ok (t, s) -> p_adjust o = true -> t <> None.
Proof.
  unfold pred_probs_scores. intros H E. rewrite E in H. destruct (p_thresholds o) as [t'|].
  - cbn [rbind] in H. destruct (if Nat.eqb _ _ then _ else _); cbn [rbind] in H; [|discriminate]. destruct (rmap _ _); cbn in H; [|discriminate]. injection H as <- <-. discriminate.
  - destruct l as [ls|]; cbn [rbind] in H; [|discriminate]. destruct (assert_valid_inputs ls pp K false); cbn [rbind] in H; [|discriminate].
    destruct (if Nat.eqb _ _ then _ else _); cbn [rbind] in H; [|discriminate]. destruct (rmap _ _); cbn in H; [|discriminate]. injection H as <- <-. discriminate.
Qed.
Lemma fit_gives_thresholds o c : coherent o -> p_adjust o = true -> p_thresholds o = None -> fits_pred_probs B o c ->
  p_thresholds (fst (run_call B o c)) <> None.
Proof.
  intros C Ha Ht (i & Hc & (V1 & V2) & HS).
  assert (Hst : fst (run_call B o c) = fst (shared_fit B o i)).
  { destruct Hc as [->| ->]; cbn [run_call]; [reflexivity|apply fit_score_state; auto]. }
  rewrite Hst. destruct (in_pred_probs i) as [[pp K]|] eqn:V3; [|congruence].
  assert (HS' : succeeds (snd (shared_fit B o i))).
  { destruct Hc as [->| ->]; cbn [run_call] in HS.
    - unfold fit in HS. cbn [snd] in HS. destruct (snd (shared_fit B o i)); [eexists; reflexivity|destruct HS; discriminate].
    - unfold fit_score in HS. destruct (snd (shared_fit B o i)) as [[s|]|e] eqn:E; try (eexists; reflexivity). rewrite E in HS. auto. }
  unfold shared_fit, valid_input in *. rewrite V1, V3, Ht in *.
  destruct (pred_probs_scores B o pp K (in_labels i)) as [[t s]|e] eqn:R; cbn in *; [|destruct HS'; discriminate].
  pose proof (pp_thr _ _ _ _ _ _ R Ha). destruct t; [discriminate|congruence].
Qed.
Lemma first_pred_probs_fit h : forall o, coherent o -> p_adjust o = true -> p_thresholds o = None ->
  (no_call B (fits_pred_probs B) o h /\ p_thresholds (run B h o) = None) \/
  exists h1 c h2, h = h1 ++ c :: h2 /\ no_call B (fits_pred_probs B) o h1 /\ fits_pred_probs B (run B h1 o) c /\ p_thresholds (run B h1 o) = None.
Proof.
  induction h as [|c h IH]; intros o C Ha Ht; [left; split; auto; apply no_call_nil|].
  pose proof (call_effect o c C) as Ef.
  destruct (p_thresholds (fst (run_call B o c))) as [t|] eqn:E.
  - right. inversion Ef; subst.
    + rewrite <- H in E. congruence.
    + rewrite <- H in E. cbn in E. congruence.
    + exists [], c, h. split; auto. split; [apply no_call_nil|]. split; auto. exists i. split; auto. split; auto. split; auto. congruence.
  - assert (HN : ~ fits_pred_probs B o c).
    { intros HF. apply (fit_gives_thresholds o c C Ha Ht HF). auto. }
    assert (C' : coherent (fst (run_call B o c))) by (eapply effect_coherent; eauto).
    pose proof (effect_settings _ _ _ Ef) as (_ & _ & _ & Sa & _).
    destruct (IH _ C' ltac:(congruence) E) as [(A & A')|(h1 & c' & h2 & A1 & A2 & A3 & A4)].
    + left. split; auto. apply no_call_cons; auto.
    + right. exists (c :: h1), c', h2. split; [rewrite A1; reflexivity|]. split; [apply no_call_cons; auto|]. auto.
Qed.
Lemma first_thr_ext o o' c : coherent o -> coherent o' -> same_settings o o' -> p_adjust o = true -> p_thresholds o = None -> p_thresholds o' = None ->
  fits_pred_probs B o' c -> p_thresholds (fst (run_call B o' c)) = p_thresholds (fst (run_call B o c)).
Proof.
  intros C C' HSe Ha Ht Ht' (i & Hc & (V1 & V2) & _).
  assert (G : forall o1, coherent o1 -> fst (run_call B o1 c) = fst (shared_fit B o1 i)).
  { intros o1 C1. destruct Hc as [->| ->]; cbn [run_call]; [reflexivity|apply fit_score_state; auto]. }
  rewrite (G o C), (G o' C'). unfold shared_fit, valid_input. rewrite V1, Ht, Ht'. destruct (in_pred_probs i) as [[pp K]|]; [|congruence].
  rewrite <- (pred_probs_ext o o') by (auto; unfold same_thresholds; congruence).
  destruct (pred_probs_scores B o pp K (in_labels i)) as [[[t|] s]|e]; cbn; auto; congruence.
Qed.
Lemma C29_pred_probs_full : forall o h i, fresh o -> pred_probs_only i ->
  if p_adjust o then
    (no_call B (fits_pred_probs B) o h /\ snd (score B (run B h o) i) = Raise ValueError) \/
    (exists c, first_call B (fits_pred_probs B) o h c /\ snd (score B (run B h o) i) = snd (score B (run B [c] o) i))
  else (forall t, p_thresholds (run B h o) <> Some t) /\ snd (score B (run B h o) i) = snd (score B o i).
Proof.
  intros o h i HF V. pose proof (fresh_coherent o HF) as C. destruct HF as (Hk & Ht & Hs).
  destruct (p_adjust o) eqn:Ha.
  - destruct (first_pred_probs_fit h o C Ha Ht) as [(A & A')|(h1 & c & h2 & A1 & A2 & A3 & A4)].
    + left. split; auto. unfold score, valid_input. destruct V as (-> & V2). destruct (in_pred_probs i) as [[pp K]|]; [|congruence].
      rewrite A'. pose proof (run_settings h o C) as (_ & _ & _ & -> & _). rewrite Ha. reflexivity.
    + right. exists c. pose proof (run_coherent h1 o C) as C1. pose proof (run_settings h1 o C) as S1.
      pose proof (first_thr_ext o (run B h1 o) c C C1 S1 Ha Ht A4 A3) as X1.
      assert (Ha1 : p_adjust (run B h1 o) = true) by (destruct S1 as (_ & _ & _ & -> & _); auto).
      pose proof (fit_gives_thresholds _ _ C1 Ha1 A4 A3) as X2.
      assert (Eh : run B h o = run B h2 (fst (run_call B (run B h1 o) c))) by (rewrite A1, run_app; reflexivity).
      set (o2 := fst (run_call B (run B h1 o) c)) in *.
      assert (C2 : coherent o2) by (eapply effect_coherent; [exact C1|]; apply call_effect; auto).
      assert (S2 : same_settings o o2) by (eapply settings_trans; [exact S1|]; eapply effect_settings, call_effect; auto).
      destruct (p_thresholds o2) as [t|] eqn:Et; [|congruence].
      pose proof (run_thresholds_kept h2 o2 t C2 Et) as X3. pose proof (run_settings h2 o2 C2) as S3. rewrite <- Eh in *.
      split; [exists h1, h2; split; auto; split; auto|].
      symmetry. apply score_pred_probs_ext; auto.
      * eapply settings_trans; [|exact S3]. pose proof (effect_settings _ _ _ (call_effect o c C)) as S5.
        unfold same_settings in *. change (run B [c] o) with (fst (run_call B o c)). intuition congruence.
      * unfold same_thresholds. change (run B [c] o) with (fst (run_call B o c)). congruence.
  - assert (G : forall h o, coherent o -> p_adjust o = false -> p_thresholds o = None -> p_thresholds (run B h o) = None).
    { clear. induction h as [|c h IH]; intros o C Ha Ht; auto. rewrite run_cons. pose proof (call_effect o c C) as Ef.
      apply IH; [eapply effect_coherent; eauto|destruct (effect_settings _ _ _ Ef) as (_ & _ & _ & -> & _); auto|].
      destruct Ef as [|? ? ? ? ? ? ? ? ? ? ?|i pp K t sc ? ? ? ? ? R]; [auto|auto|]. exfalso.
      unfold pred_probs_scores in R. rewrite Ha, Ht in R. cbn [rbind] in R. destruct (rmap _ _); cbn in R; discriminate. }
    pose proof (G h o C Ha Ht) as E. split; [congruence|]. symmetry.
    apply score_pred_probs_ext; auto; [apply run_settings; auto|]. unfold same_thresholds. congruence.
Qed.

Lemma C29_fit_score_full : forall o i,
  (forall f, features_only B i f -> p_knn o <> None -> fit_score B o i = score B o i) /\
  (pred_probs_only i -> p_thresholds o <> None -> fit_score B o i = score B o i).
Proof.
  intros o i. split.
  - intros f (V1 & V2 & V3) H. unfold fit_score, shared_fit. unfold valid_input. rewrite V1, V2, V3.
    destruct (p_knn o) as [kn|]; [reflexivity|congruence].
  - intros (V1 & V2) H. unfold fit_score, shared_fit. unfold valid_input. rewrite V1. destruct (in_pred_probs i) as [[pp K]|]; [|congruence].
    destruct (p_thresholds o); [reflexivity|congruence].
Qed.
End Histories.

(** ** scores of the whole estimator *)
Lemma Q2R_sum l : rsum (map Q2R l) = Q2R (qsum l).
Proof.
  induction l as [|x l IH]; cbn [map]; [unfold Q2R; simpl; lra|].
  change (rsum (Q2R x :: map Q2R l)) with (Q2R x + rsum (map Q2R l)). change (qsum (x :: l)) with (x + qsum l)%Q.
  rewrite IH, <- Q2R_plus. reflexivity.
Qed.
Lemma Q2R_row row : (2 <= length row)%nat -> distribution row -> probability_row (map Q2R row).
Proof.
  intros H2 (H0 & H1). split; [rewrite map_length; auto|]. split.
  - intros x Hx. apply in_map_iff in Hx as (q & <- & Hq). replace 0 with (Q2R 0) by (unfold Q2R; simpl; lra). apply Qle_Rle; auto.
  - change (rsum (map Q2R row) = 1). rewrite Q2R_sum. rewrite (Qeq_eqR _ _ H1). unfold Q2R; simpl; lra.
Qed.
Open Scope Q_scope.
Lemma subtract_sum thr : forall row top, length thr = length row -> (forall t, In t thr -> t <= top) -> (forall x, In x row -> 0 <= x) ->
  qsum row <= qsum (map (fun xt => fst xt - snd xt + top) (combine row thr)) /\
  (forall v, In v (map (fun xt => fst xt - snd xt + top) (combine row thr)) -> 0 <= v).
Proof.
  induction thr as [|t thr IH]; intros [|x row] top HL Ht Hx; cbn [length] in HL; try discriminate.
  - split; [apply Qle_refl|intros v []].
  - destruct (IH row top ltac:(lia) ltac:(intros; apply Ht; simpl; auto) ltac:(intros; apply Hx; simpl; auto)) as (A & A').
    specialize (Ht t (or_introl eq_refl)). specialize (Hx x (or_introl eq_refl)).
    cbn [combine map fst snd]. rewrite !qsum_cons. split; [Lqa.lra|]. intros v [<-|Hv]; auto. Lqa.lra.
Qed.
Lemma adjusted_row row thr : length thr = length row -> distribution row ->
  let adj := map (fun xt => fst xt - snd xt + qmaximum thr) (combine row thr) in
  distribution (map (fun x => x / qsum adj) adj).
Proof.
  intros HL (H0 & H1) adj. destruct (subtract_sum thr row (qmaximum thr) HL (fun t => qmaximum_ge thr t) H0) as (A & A').
  fold adj in A, A'. split.
  - intros x Hx. apply in_map_iff in Hx as (v & <- & Hv). apply Qle_shift_div_l; [Lqa.lra|]. specialize (A' v Hv). Lqa.lra.
  - rewrite (qsum_map_div (fun x => x) (qsum adj)), map_id. field. Lqa.lra.
Qed.
Open Scope R_scope.
Lemma rmap_forall2 {X Y} (f : X -> res Y) : forall l r, rmap f l = Ok r -> Forall2 (fun x y => f x = Ok y) l r.
Proof.
  induction l as [|x l IH]; intros r H; cbn [rmap] in H; [injection H as <-; constructor|].
  destruct (f x) eqn:E; cbn [rbind] in H; [|discriminate]. destruct (rmap f l) eqn:E'; cbn [rbind] in H; [|discriminate].
  injection H as <-. constructor; auto.
Qed.
Lemma C28_estimator_pred_probs_full : forall {F} (B : backend F) o pp K labels thr s,
  sorts (rsort B) -> (2 <= K)%nat -> (1 <= p_M o)%nat -> 0 < p_gamma o ->
  (forall row, In row pp -> length row = K /\ distribution row) ->
  pred_probs_scores B o pp K labels = Ok (thr, s) ->
  length s = length pp /\ forall x, In x s -> 0 <= x <= 1.
Proof.
  intros F B o pp K labels thr s HS HK HM Hg Hpp HR. unfold pred_probs_scores in HR.
  match type of HR with rbind ?e _ = _ => destruct e as [thr'|]; cbn [rbind] in HR; [|discriminate] end.
  match type of HR with rbind ?e _ = _ => destruct e as [rows|] eqn:ER; cbn [rbind] in HR; [|discriminate] end.
  destruct (rmap _ rows) as [sc|] eqn:EM; cbn [rbind] in HR; [|discriminate]. injection HR as <- <-.
  assert (HR : length rows = length pp /\ forall row, In row rows -> length row = K /\ distribution row).
  { destruct (p_adjust o); [|injection ER as <-; auto]. destruct thr' as [t|]; [|discriminate].
    destruct (Nat.eqb_spec (length t) K) as [Et|]; [|discriminate]. injection ER as <-. unfold subtract_confident_thresholds.
    split; [apply map_length|]. intros row Hr. apply in_map_iff in Hr as (row0 & <- & Hr0). destruct (Hpp row0 Hr0) as (L0 & D0).
    split; [rewrite !map_length, combine_length; lia|]. apply adjusted_row; auto. lia. }
  apply rmap_forall2 in EM. split; [rewrite <- (proj1 HR); symmetry; apply (Forall2_len _ _ _ EM)|].
  intros x Hx. destruct (Forall2_in_r _ _ _ _ EM Hx) as (row & Hrow & E). destruct HR as (_ & HR). destruct (HR row Hrow) as (L & D).
  destruct (p_method o) eqn:Em; [| | |discriminate];
    (destruct (C28_pred_probs_full (rsort B) (p_method o) (p_M o) (p_gamma o) (map Q2R row) HS (Q2R_row row ltac:(lia) D) HM Hg ltac:(congruence)) as (x' & E' & R');
     rewrite Em in E'; congruence).
Qed.
Lemma rmean_nonneg l : (forall x, In x l -> 0 <= x) -> 0 <= rmean l.
Proof.
  intros H. unfold rmean. destruct l as [|a l]; [unfold rsum; simpl; lra|].
  pose proof (proj1 (rsum_bounds 0 (rsum (a :: l)) (a :: l) ltac:(intros x Hx; split; [auto|apply rsum_ge_elem; auto]))).
  unfold Rdiv. apply Rmult_le_pos; [lra|]. apply Rlt_le, Rinv_0_lt_compat, lt_0_INR. simpl; lia.
Qed.
Lemma C28_estimator_features_full : forall {F} (B : backend F) o f o' s,
  distances_ok B -> 0 < p_t o -> features_scores B o f = Ok (o', s) -> forall x, In x s -> 0 < x <= 1.
Proof.
  intros F B o f o' s (D1 & D2) Ht HR.
  assert (G : forall m k d r, (forall row x, In row d -> In x row -> 0 <= x) -> finish B o m k d = Ok r -> forall x, In x (snd r) -> 0 < x <= 1).
  { intros m k d r Hd E x Hx. unfold finish in E. set (avg := avg_distances k d) in *.
    destruct (correct_precision_errors _ avg m) as [sc|] eqn:EC; cbn [rbind] in E; [|discriminate]. injection E as <-. cbn [snd] in Hx.
    assert (Hnn : forall y, In y avg -> 0 <= y).
    { intros y Hy. unfold avg, avg_distances in Hy. apply in_map_iff in Hy as (row & <- & Hrow). apply rmean_nonneg.
      intros z Hz. apply firstn_In in Hz. eauto. }
    destruct (C28_corrected_full _ _ _ _ _ Ht Hnn EC) as (L & R1 & _). destruct (In_nth _ _ 0 Hx) as (i & Hi & <-). apply R1. lia. }
  unfold features_scores in HR. destruct (p_knn o) as [kn|].
  - destruct (negb _); [discriminate|]. destruct (finish _ _ _ _ _) as [r|] eqn:E; cbn [rbind] in HR; [|discriminate].
    injection HR as <- <-. eapply G; [|exact E]. intros; eauto.
  - destruct (features_to_knn B f (p_k o)) as [nm|]; cbn [rbind] in HR; [|discriminate].
    destruct (finish _ _ _ _ _) as [r|] eqn:E; cbn [rbind] in HR; [|discriminate].
    injection HR as <- <-. eapply G; [|exact E]. intros; eauto.
Qed.

(** ** C58 *)
Section Supplied.
Context {F : Type} (B : backend F) (kn : knn_object F) (Hfit : fitted_on kn <> None).
Definition supplied (o : ood F) : Prop := p_knn o = Some kn.
Lemma supplied_features o f o' s : supplied o -> features_scores B o f = Ok (o', s) -> supplied o'.
Proof.
  unfold supplied, features_scores. intros H. rewrite H. destruct (fitted_on kn) as [tr|] eqn:E; [|congruence].
  destruct (negb _); [discriminate|]. destruct (finish _ _ _ _ _); cbn [rbind]; [|discriminate].
  intros R. injection R as <- <-. cbn. f_equal. destruct kn; cbn in *. congruence.
Qed.
Lemma supplied_score o i : supplied o -> supplied (fst (score B o i)) /\ same_settings o (fst (score B o i)).
Proof.
  intros H. unfold score. destruct (valid_input B i) as [[f|pp K]|e]; [| |split; [auto|apply settings_refl]].
  - destruct (p_knn o); [|split; [auto|apply settings_refl]].
    destruct (features_scores B o f) as [[o' s]|] eqn:R; cbn; [|split; [auto|apply settings_refl]].
    split; [eapply supplied_features; eauto|apply (features_scores_keep B o f o' s R)].
  - destruct (p_thresholds o), (p_adjust o); cbn; try (split; [auto|apply settings_refl]);
      destruct (pred_probs_scores B o pp K None); cbn; (split; [auto|apply settings_refl]).
Qed.
Lemma supplied_shared o i : supplied o -> supplied (fst (shared_fit B o i)) /\ same_settings o (fst (shared_fit B o i)).
Proof.
  intros H. unfold shared_fit. destruct (valid_input B i) as [[f|pp K]|e]; [| |split; [auto|apply settings_refl]].
  - rewrite H. split; [auto|apply settings_refl].
  - destruct (p_thresholds o); [split; [auto|apply settings_refl]|].
    destruct (pred_probs_scores B o pp K (in_labels i)) as [[[t|] s]|]; cbn; (split; [auto|]); try apply settings_refl. repeat split.
Qed.
Lemma supplied_call o c : supplied o -> supplied (fst (run_call B o c)) /\ same_settings o (fst (run_call B o c)).
Proof.
  intros H. destruct c as [i|i|i]; cbn [run_call].
  - apply supplied_shared; auto.
  - apply supplied_score; auto.
  - unfold fit_score. pose proof (supplied_shared o i H) as (A & A').
    destruct (snd (shared_fit B o i)) as [[s|]|e]; auto.
    destruct (supplied_score _ i A) as (A2 & A3). split; auto. eapply settings_trans; eauto.
Qed.
Lemma supplied_run h : forall o, supplied o -> supplied (run B h o) /\ same_settings o (run B h o).
Proof.
  induction h as [|c h IH]; intros o H; [split; auto; apply settings_refl|]. rewrite run_cons.
  destruct (supplied_call o c H) as (A & A'). destruct (IH _ A) as (A2 & A3). split; auto. eapply settings_trans; eauto.
Qed.
End Supplied.
Lemma C58_later_full : forall {F} (B : backend F) o h1 h2 i f kn,
  features_only B i f -> p_knn o = Some kn -> fitted_on kn <> None -> p_scaling (run B h1 o) <> None ->
  snd (score B (run B (h1 ++ h2) o) i) = snd (score B (run B h1 o) i).
Proof.
  intros F B o h1 h2 i f kn V Hk Hf Hs. rewrite run_app. destruct (supplied_run B kn Hf h1 o Hk) as (A & _). set (o1 := run B h1 o) in *.
  assert (C : coherent o1) by (unfold coherent; rewrite A; split; auto).
  symmetry. apply (score_features_ext B o1 (run B h2 o1) i f V); [apply run_settings; auto|].
  apply (run_features_kept B h2 o1 kn C A).
Qed.
Lemma C58_refuted_full :
  exists (B : backend (list R)) (o : ood (list R)) kn i i' f f',
    p_knn o = Some kn /\ fitted_on kn <> None /\ features_only B i f /\ features_only B i' f' /\
    succeeds (snd (score B o i)) /\ succeeds (snd (score B (run B [Score i'] o) i)) /\
    snd (score B (run B [Score i'] o) i) <> snd (score B o i).
Proof.
  set (kn := {| fitted_on := Some [0]; n_neighbors := 1%nat; knn_metric := OtherMetric |}).
  exists ex_backend, (ex_ood (Some kn)), kn, (ex_in [2]), (ex_in [1]), [2], [1].
  split; [reflexivity|]. split; [discriminate|]. split; [repeat split|]. split; [repeat split|].
  split; [eexists; reflexivity|]. split; [eexists; reflexivity|].
  cbn. unfold transform_distances_to_scores. cbn. unfold rmean. cbn. intros H. injection H as H.
  assert (E1 : (Rabs (1 - 0) + 0) / 1 = 1) by (rewrite Rabs_right by lra; field).
  assert (E2 : (Rabs (2 - 0) + 0) / 1 = 2) by (rewrite Rabs_right by lra; field).
  rewrite !E1, !E2 in H. apply exp_inv in H.
  assert (S : 0 < 100 * float_eps < 1 / 1000).
  { unfold float_eps. simpl pow. lra. }
  unfold eps_const in H.
  rewrite ?(Rmax_left 1) in H by lra. rewrite ?(Rmax_left 2) in H by lra. lra.
Qed.
