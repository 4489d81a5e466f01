From Coq Require Import QArith Qreals Reals List Bool Arith Lia Lra.
From Coq Require Lqa.
From Verif Require Import Base BaseFacts ModelUtil ModelCount ModelRank ModelEntropy ModelOutlier SpecCount SpecFilter SpecRank SpecOutlier SpecOodLabel
     ProofUtil ProofCount ProofFilter ProofRank ProofOutlier ProofPictures ProofTotal.
Import ListNotations.
Open Scope R_scope.

Definition adj (a : bool) (labels : list nat) (pp : list (list Q)) (K : nat) : list (list Q) :=
  if a then subtract_confident_thresholds labels pp K None else pp.
Lemma rmap_map {X Y} (g : X -> Y) l : rmap (fun x => Ok (g x)) l = Ok (map g l).
Proof. induction l as [|x l IH]; [reflexivity|]. cbn [rmap map]. rewrite IH. reflexivity. Qed.
Lemma rmap_ext {X Y} (f g : X -> res Y) l : (forall x, f x = g x) -> rmap f l = rmap g l.
Proof. intros E. induction l as [|x l IH]; [reflexivity|]. cbn [rmap]. rewrite E, IH. reflexivity. Qed.
Lemma pps_eq {F} (B : backend F) o pp K labels : least_confidence o ->
  pred_probs_scores B o pp K (Some labels) =
  do _ <- (if p_adjust o then assert_valid_inputs labels pp K false else Ok tt) ;
  Ok (if p_adjust o then Some (get_confident_thresholds labels pp K) else None,
      map (fun row => rmaximum (map Q2R row)) (adj (p_adjust o) labels pp K)).
Proof.
  intros ((_ & Ht & _) & Hm). unfold pred_probs_scores, adj. rewrite Ht, Hm.
  assert (R : forall l, rmap (fun row => ood_row_score (rsort B) LeastConfidence (p_M o) (p_gamma o) (map Q2R row)) l = Ok (map (fun row => rmaximum (map Q2R row)) l)).
  { intros l. apply (rmap_map (fun row => rmaximum (map Q2R row))). }
  destruct (p_adjust o); cbn [rbind].
  - destruct (assert_valid_inputs labels pp K false); cbn [rbind]; [|reflexivity]. rewrite thresholds_length, Nat.eqb_refl. cbn [rbind].
    rewrite R. reflexivity.
  - rewrite R. reflexivity.
Qed.
Lemma fs_eq {F} (B : backend F) o pp K labels : least_confidence o ->
  snd (fit_score B o (pp_input pp K labels)) =
  do _ <- (if p_adjust o then assert_valid_inputs labels pp K false else Ok tt) ;
  Ok (Some (map (fun row => rmaximum (map Q2R row)) (adj (p_adjust o) labels pp K))).
Proof.
  intros Hl. unfold fit_score, shared_fit. cbn [valid_input pp_input in_features in_pred_probs in_labels].
  pose proof Hl as ((_ & Ht & _) & _). rewrite Ht. rewrite pps_eq by auto.
  destruct (if p_adjust o then assert_valid_inputs labels pp K false else Ok tt); cbn [rbind lift snd]; reflexivity.
Qed.
Lemma fs_ok {F} (B : backend F) o pp K labels so : least_confidence o -> snd (fit_score B o (pp_input pp K labels)) = Ok (Some so) ->
  so = map (fun row => rmaximum (map Q2R row)) (adj (p_adjust o) labels pp K).
Proof.
  intros Hl. rewrite fs_eq by auto. destruct (if p_adjust o then _ else _); cbn [rbind]; [|discriminate]. intros H. injection H as <-. reflexivity.
Qed.
Lemma adj_len a labels pp K : length (adj a labels pp K) = length pp.
Proof. destruct a; [apply map_length|reflexivity]. Qed.
Lemma adj_row a labels pp K r : (forall r, In r pp -> length r = K) -> In r (adj a labels pp K) -> length r = K.
Proof.
  intros H. destruct a; [|apply H]. cbn [adj]. unfold subtract_confident_thresholds. intros Hr. apply in_map_iff in Hr as (r0 & <- & H0).
  rewrite !map_length, combine_length, thresholds_length, (H r0 H0). lia.
Qed.
Lemma Q2R_le x y : (x <= y)%Q <-> Q2R x <= Q2R y.
Proof. split; [apply Qle_Rle|apply Rle_Qle]. Qed.

Section One.
Context {F : Type} (B : backend F).
Variables (o : ood F) (K : nat) (labels : list nat) (pp : list (list Q)) (so : list R).
Hypothesis Hl : least_confidence o.
Hypothesis Hd : dataset K labels pp.
Hypothesis HK : (2 <= K)%nat.
Hypothesis Hso : snd (fit_score B o (pp_input pp K labels)) = Ok (Some so).
Let rows := adj (p_adjust o) labels pp K.
Lemma rows_len : length labels = length rows.
Proof. unfold rows. rewrite adj_len. apply (ds_len _ _ _ Hd). Qed.
Lemma so_len : length so = length labels.
Proof. rewrite (fs_ok B o pp K labels so Hl Hso), map_length, rows_len. reflexivity. Qed.
Lemma so_nth e : (e < length labels)%nat -> nth e so 0 = rmaximum (map Q2R (row_of rows e)).
Proof.
  intros He. rewrite (fs_ok B o pp K labels so Hl Hso). fold rows. unfold row_of.
  rewrite (nth_map_gen _ rows _ _ []) by (rewrite <- rows_len; auto). reflexivity.
Qed.
Lemma row_in e : (e < length labels)%nat -> In (row_of rows e) rows.
Proof. intros He. apply nth_In. rewrite <- rows_len. auto. Qed.
Lemma row_len e : (e < length labels)%nat -> length (row_of rows e) = K.
Proof. intros He. apply (adj_row (p_adjust o) labels pp K); [apply (ds_row _ _ _ Hd)|]. apply row_in. auto. Qed.
Lemma lab_lt e : (e < length labels)%nat -> (label_of labels e < length (row_of rows e))%nat.
Proof. intros He. rewrite row_len by auto. apply (ds_lab _ _ _ Hd), nth_In. auto. Qed.
Lemma self_nth s e : get_label_quality_scores labels pp K SelfConfidence (p_adjust o) = Ok s -> (e < length labels)%nat ->
  nth e s 0%Q = nth (label_of labels e) (row_of rows e) 0%Q.
Proof.
  intros Hs He. apply scores_unfold in Hs. unfold compute_label_quality_scores in Hs. fold (adj (p_adjust o) labels pp K) in Hs. fold rows in Hs.
  injection Hs as <-. rewrite self_conf_nth by (auto using rows_len). reflexivity.
Qed.
Lemma bound_full s : get_label_quality_scores labels pp K SelfConfidence (p_adjust o) = Ok s ->
  length so = length labels /\ forall e, (e < length labels)%nat -> Q2R (nth e s 0%Q) <= nth e so 0.
Proof.
  intros Hs. split; [apply so_len|]. intros e He. rewrite (self_nth s e) by auto. rewrite so_nth by auto.
  apply rmaximum_ge, in_map, nth_In, lab_lt. auto.
Qed.
Lemma attained e : (e < length labels)%nat ->
  Q2R (nth (label_of labels e) (row_of rows e) 0%Q) = rmaximum (map Q2R (row_of rows e)) <->
  forall x, In x (row_of rows e) -> (x <= nth (label_of labels e) (row_of rows e) 0)%Q.
Proof.
  intros He. set (l := label_of labels e). assert (Il : In (nth l (row_of rows e) 0%Q) (row_of rows e)) by (apply nth_In, lab_lt; auto).
  split.
  - intros E x Hx. apply Q2R_le. rewrite E. apply rmaximum_ge, in_map, Hx.
  - intros H. apply Rle_antisym; [apply rmaximum_ge, in_map, Il|].
    assert (N : map Q2R (row_of rows e) <> []). { intros C. apply map_eq_nil in C. rewrite C in Il. destruct Il. }
    pose proof (rmaximum_spec _ N) as I. apply in_map_iff in I as (x & <- & Hx). apply Qle_Rle, H, Hx.
Qed.
Lemma margin_full s m : get_label_quality_scores labels pp K SelfConfidence (p_adjust o) = Ok s ->
  get_label_quality_scores labels pp K NormalizedMargin (p_adjust o) = Ok m ->
  forall e, (e < length labels)%nat -> ((1 # 2) <= nth e m 0)%Q <-> Q2R (nth e s 0%Q) = nth e so 0.
Proof.
  intros Hs Hm e He. rewrite (self_nth s e) by auto. rewrite so_nth by auto. rewrite attained by auto.
  apply scores_unfold in Hm. unfold compute_label_quality_scores in Hm. fold (adj (p_adjust o) labels pp K) in Hm. fold rows in Hm.
  destruct (Nat.leb_spec K 1); [lia|]. injection Hm as <-.
  rewrite margin_nth by (auto using rows_len). unfold prob_of. fold (row_of rows e). set (l := label_of labels e). set (r := row_of rows e).
  assert (Hlt : (l < length r)%nat) by (apply lab_lt; auto). assert (H2 : (2 <= length r)%nat) by (unfold r; rewrite row_len; auto).
  destruct (best_other_ok r l Hlt H2) as ((j & Hj & Hjl & Ej) & Hb). unfold Qdiv. change (/ 2)%Q with (1 # 2)%Q.
  split.
  - intros G x Hx. destruct (In_nth _ _ 0%Q Hx) as (k & Hk & <-). destruct (Nat.eq_dec k l) as [->|N]; [Lqa.lra|].
    specialize (Hb k Hk N). Lqa.lra.
  - intros G. assert (X : (nth j r 0 <= nth l r 0)%Q) by (apply G, nth_In; auto). rewrite Ej in X. Lqa.lra.
Qed.
End One.

Lemma predicted_full {F} (B : backend F) o K labels labels' pp so s :
  least_confidence o -> p_adjust o = false -> dataset K labels pp -> dataset K labels' pp -> most_likely labels' pp ->
  snd (fit_score B o (pp_input pp K labels)) = Ok (Some so) ->
  get_label_quality_scores labels' pp K SelfConfidence false = Ok s -> so = map Q2R s.
Proof.
  intros Hl Ha Hd Hd' Hm Hso Hs. apply fs_ok in Hso; auto. rewrite Ha in Hso. cbn [adj] in Hso. subst so.
  apply scores_unfold in Hs. unfold compute_label_quality_scores in Hs. injection Hs as <-. unfold get_self_confidence.
  destruct Hd' as [_ _ Hlab Hrow _]. clear Hd. revert Hlab Hrow. induction Hm as [|l row ls rs H Hm IH]; intros Hlab Hrow; [reflexivity|].
  cbn [map combine fst snd]. f_equal; [|apply IH; intros; [apply Hlab|apply Hrow]; right; auto].
  assert (Il : In (nth l row 0%Q) row) by (apply nth_In; rewrite (Hrow row (or_introl eq_refl)); apply Hlab; left; auto).
  apply Rle_antisym; [|apply rmaximum_ge, in_map, Il].
  assert (N : map Q2R row <> []). { intros C. apply map_eq_nil in C. rewrite C in Il. destruct Il. }
  pose proof (rmaximum_spec _ N) as I. apply in_map_iff in I as (x & <- & Hx). apply Qle_Rle, H, Hx.
Qed.
Lemma total_full {F} (B : backend F) o K labels pp : least_confidence o -> dataset K labels pp -> two_classes labels ->
  exists so, snd (fit_score B o (pp_input pp K labels)) = Ok (Some so) /\
    snd (score B (fst (fit_score B o (pp_input pp K labels))) (score_input pp K)) = Ok (Some so).
Proof.
  intros Hl Hd H2. pose proof Hl as ((Hk & Ht & Hs) & Hm). exists (map (fun row => rmaximum (map Q2R row)) (adj (p_adjust o) labels pp K)). split.
  { rewrite fs_eq by auto. rewrite (valid_ok K) by auto. destruct (p_adjust o); cbn [rbind]; reflexivity. }
  unfold fit_score, shared_fit. cbn [valid_input pp_input in_features in_pred_probs in_labels]. rewrite Ht, pps_eq by auto.
  rewrite (valid_ok K) by auto.
  destruct (p_adjust o) eqn:Ea; cbn [rbind lift fst snd].
  - unfold score. cbn [valid_input score_input in_features in_pred_probs in_labels set_thresholds p_thresholds p_adjust]. 
    unfold pred_probs_scores. cbn [set_thresholds p_thresholds p_adjust p_method p_M p_gamma]. rewrite Ea, Hm. cbn [rbind].
    rewrite thresholds_length, Nat.eqb_refl. cbn [rbind].
    rewrite (rmap_ext _ (fun row => Ok (rmaximum (map Q2R row)))) by reflexivity. rewrite rmap_map. reflexivity.
  - unfold score. cbn [valid_input score_input in_features in_pred_probs in_labels]. rewrite Ht, Ea. unfold pred_probs_scores. rewrite Ht, Ea, Hm. cbn [rbind].
    rewrite (rmap_ext _ (fun row => Ok (rmaximum (map Q2R row)))) by reflexivity. rewrite rmap_map. reflexivity.
Qed.
Lemma one_class_full {F} (B : backend F) o K labels pp c : least_confidence o -> dataset K labels pp -> (forall l, In l labels -> l = c) ->
  (exists s, get_label_quality_scores labels pp K SelfConfidence (p_adjust o) = Ok s) /\
  (p_adjust o = true -> snd (fit_score B o (pp_input pp K labels)) = Raise ValueError) /\
  (p_adjust o = false -> exists so, snd (fit_score B o (pp_input pp K labels)) = Ok (Some so)).
Proof.
  intros Hl Hd H1. split; [|split].
  - unfold get_label_quality_scores. rewrite (valid_ok K) by auto. cbn [rbind]. unfold compute_label_quality_scores. eauto.
  - intros Ha. rewrite fs_eq by auto. rewrite Ha, (one_rejected labels pp K c); auto. apply (ds_ne _ _ _ Hd).
  - intros Ha. rewrite fs_eq by auto. rewrite Ha. cbn [rbind]. eauto.
Qed.
