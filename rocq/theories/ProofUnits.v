(** * Proofs about changing the unit of the features (C146) *)
From Coq Require Import QArith Qreals Reals List Bool Arith Permutation Sorted Lia Lqa Setoid.
From Coq Require Lra.
From Verif Require Import Base BaseFacts ModelKnn SpecKnn ProofKnnDup ModelEntropy ModelOutlier ProofOutlier ModelOutlierCheck SpecOutlierCheck ProofOutlierCheck SpecUnits.
Import ListNotations.
Open Scope Q_scope.

Lemma median_scaled srt c l l' : argsort_ok srt -> 0 < c -> length l' = length l -> (forall k, nth k l' 0 == c * nth k l 0) ->
  ModelKnn.median srt l' == c * ModelKnn.median srt l.
Proof.
  intros Hs Hc L E. destruct (Hs l) as (A1 & A2). destruct (Hs l') as (B1 & B2).
  assert (S : StronglySorted Qle (take_idx 0 l' (srt l))).
  { apply SS_take. clear - A2 E Hc. induction A2 as [|i p S IH F]; constructor; auto. apply Forall_forall. intros j Hj.
    pose proof (proj1 (Forall_forall _ _) F j Hj) as H. cbn beta in H. rewrite !E. nra. }
  assert (P : Permutation (take_idx 0 l' (srt l)) l') by (apply take_perm; rewrite L; auto).
  assert (U : forall k, nth k (take_idx 0 l' (srt l')) 0 == c * nth k (take_idx 0 l (srt l)) 0).
  { intros k. rewrite (sorted_unique _ (take_idx 0 l' (srt l)) k); [|apply SS_take; auto|exact S|rewrite P; apply take_perm; auto].
    unfold take_idx. destruct (le_lt_dec (length (srt l)) k) as [G|G].
    - rewrite !nth_overflow by (rewrite map_length; auto). ring.
    - rewrite !(nth_map_gen _ _ _ _ 0%nat) by auto. apply E. }
  unfold ModelKnn.median. rewrite L. destruct (Nat.even (length l)); rewrite !U; [field|reflexivity].
Qed.
Lemma median_unique l m m' : is_median l m -> is_median l m' -> m == m'.
Proof.
  intros (s & P & S & H) (s' & P' & S' & H').
  assert (U : forall k, nth k s 0 == nth k s' 0) by (intros k; apply sorted_unique; auto; rewrite P, P'; reflexivity).
  destruct H as [(h & L & E)|(h & L & E)], H' as [(h' & L' & E')|(h' & L' & E')]; try lia; replace h' with h in * by lia.
  - rewrite E, E'. apply U.
  - rewrite <- !U in E'. rewrite <- E in E'. lra.
Qed.
Lemma qmax_l a b : b <= a -> qmax a b == a.
Proof. intros H. destruct (qmax_spec a b) as [[? ->]|[? ->]]; lra. Qed.

Lemma within_same g c r r' : 0 < c -> r' == c * r -> within_radius (scaled_graph c g) r' = within_radius g r.
Proof.
  intros Hc E. unfold within_radius, scaled_graph. destruct g as [d ix]. cbn [fst snd]. rewrite map_length, !map_map.
  assert (EM : map (fun x => map (fun d0 => Qltb d0 r') (map (Qmult c) x)) d = map (map (fun d0 => Qltb d0 r)) d).
  { apply map_ext. intros row. rewrite map_map. apply map_ext. intros x. apply eq_true_iff_eq. rewrite !Qltb_iff, E. split; intros; nra. }
  rewrite EM. rewrite <- (map_map (fun x => map (fun d0 => Qltb d0 r') (map (Qmult c) x)) count_true), EM, map_map. reflexivity.
Qed.
Lemma near_units srt t c g r : argsort_ok srt -> 0 < c -> measurable_median c (map (fun row => nth 0 row 0) (fst g)) ->
  find_near_duplicates srt t g = Ok r ->
  exists r', find_near_duplicates srt t (scaled_graph c g) = Ok r' /\ nd_sets r' = nd_sets r /\ nd_flags r' = nd_flags r /\
    ((forall row, In row (fst g) -> nth 0 row 0 == 0 \/ ((1 # 100000000) < nth 0 row 0 /\ (1 # 100000000) < c * nth 0 row 0)) -> nd_scores r' = nd_scores r).
Proof.
  intros Hs Hc (m & Hm & M1 & M2) H. unfold find_near_duplicates in *. change (fst (scaled_graph c g)) with (map (map (Qmult c)) (fst g)). rewrite map_length.
  destruct (Nat.eqb (length (fst g)) 0) eqn:E0; [discriminate|]. apply Nat.eqb_neq in E0.
  set (nn := map (fun row => nth 0 row 0) (fst g)) in *. set (nn' := map (fun row : list Q => nth 0 row 0) (map (map (Qmult c)) (fst g))).
  assert (EN : forall row : list Q, nth 0 (map (Qmult c) row) 0 == c * nth 0 row 0) by (intros [|x row]; cbn; [ring|reflexivity]).
  assert (L : length nn' = length nn) by (unfold nn, nn'; rewrite !map_length; auto).
  assert (N : nn <> []) by (unfold nn; intros F; apply map_eq_nil in F; rewrite F in E0; cbn in E0; lia).
  assert (E1 : forall k, nth k nn' 0 == c * nth k nn 0).
  { intros k. unfold nn, nn'. rewrite map_map. destruct (le_lt_dec (length (fst g)) k) as [G|G].
    - rewrite !nth_overflow by (rewrite map_length; auto). ring.
    - rewrite !(nth_map_gen _ _ _ _ []) by auto. apply EN. }
  assert (EM : ModelKnn.median srt nn == m) by (apply (median_unique nn); auto; apply median_ok; auto).
  pose proof (median_scaled srt c nn nn' Hs Hc L E1) as EM'.
  assert (D : median_nn_distance srt nn == m) by (unfold median_nn_distance, ModelKnn.EPSILON; rewrite qmax_l; rewrite EM; [reflexivity|auto]).
  assert (D' : median_nn_distance srt nn' == c * m) by (unfold median_nn_distance, ModelKnn.EPSILON; rewrite qmax_l; rewrite EM', EM; [reflexivity|auto]).
  assert (SE : neighbors_within_radius (scaled_graph c g) (set_threshold t) (median_nn_distance srt nn') =
               neighbors_within_radius g (set_threshold t) (median_nn_distance srt nn)).
  { unfold neighbors_within_radius. f_equal. apply within_same; auto. rewrite D', D. ring. }
  assert (T : Qleb (1 / median_nn_distance srt nn) 0 = false).
  { destruct (Qleb (1 / median_nn_distance srt nn) 0) eqn:F; auto. apply Qleb_iff in F. rewrite D in F.
    assert (0 < 1 / m) by (apply Qlt_shift_div_l; lra). lra. }
  assert (T' : Qleb (1 / median_nn_distance srt nn') 0 = false).
  { destruct (Qleb (1 / median_nn_distance srt nn') 0) eqn:F; auto. apply Qleb_iff in F. rewrite D' in F.
    assert (0 < 1 / (c * m)) by (apply Qlt_shift_div_l; lra). lra. }
  unfold compute_scores in *. rewrite T in H. rewrite T'. cbn [rbind] in *. injection H as <-. eexists. split; [reflexivity|]. cbn [nd_sets nd_flags nd_scores].
  rewrite SE. split; [reflexivity|]. split; [reflexivity|]. intros HM.
  unfold nn, nn'. rewrite !map_map. apply map_ext_in. intros row Hrow. specialize (HM row Hrow).
  fold nn. fold nn'. assert (NE : nn' = map (fun row : list Q => nth 0 (map (Qmult c) row) 0) (fst g)) by (unfold nn'; rewrite map_map; reflexivity).
  rewrite <- ?NE. unfold exp_score.
  assert (I : isclose0 (nth 0 (map (Qmult c) row) 0) = isclose0 (nth 0 row 0)).
  { apply eq_true_iff_eq. unfold isclose0. rewrite !andb_true_iff, !Qleb_iff, !EN.
    destruct HM as [Z|(Z1 & Z2)]; [rewrite Z; split; intros; split; lra|split; intros; lra]. }
  rewrite I. destruct (isclose0 (nth 0 row 0)); [reflexivity|]. f_equal. f_equal.
  rewrite <- Ropp_mult_distr_l, <- Ropp_mult_distr_l, <- !Q2R_mult. f_equal. apply Qeq_eqR. rewrite EN, D, D'. field. lra.
Qed.

(** ** Outlier scores *)
Lemma plain_tol m : plain_metric m -> exists o, tolerance m = Ok o /\ match o with None => True | Some tl => (0 < tl <= / 1000000)%R end.
Proof.
  intros [->|[->| ->]]; cbn [tolerance].
  - eexists. split; [reflexivity|]. cbn beta iota. Lra.lra.
  - eexists. split; [reflexivity|]. cbn beta iota. split; [apply sqrt_lt_R0; unfold float_eps; Lra.lra|]. rewrite <- (sqrt_square (/ 1000000)%R) by Lra.lra. apply sqrt_le_1_alt. unfold float_eps. Lra.lra.
  - eexists. split; [reflexivity|]. exact I.
Qed.
Lemma knn_units srt t mt threshold c dist flags scores : argsort_ok srt -> 0 < c ->
  measurable_median c (map qmean dist) -> (forall row, In row dist -> measurable (1 # 1000000) c (qmean row)) ->
  match mt with None => True | Some m => plain_metric m end ->
  knn_issues srt t mt None threshold dist = Ok (flags, scores) ->
  knn_issues srt t mt None threshold (map (map (Qmult c)) dist) = Ok (flags, scores).
Proof.
  intros Hs Hc (m & Hm & M1 & M2) HX HP H. destruct (C85_unit_full srt t mt None threshold dist flags scores c Hs Hc H) as (scores' & H').
  rewrite H'. f_equal. f_equal. unfold knn_issues in H, H'.
  destruct (threshold_and_issue_column srt dist threshold) as [cc|] eqn:EC; [|discriminate]. cbn [rbind] in H.
  destruct (threshold_and_issue_column srt (map (map (Qmult c)) dist) threshold) as [cc'|] eqn:EC'; [|discriminate]. cbn [rbind] in H'.
  assert (ND : dist <> []).
  { intros ->. unfold threshold_and_issue_column in EC. destruct (match threshold with Some t => _ | None => _ end); discriminate. }
  set (avg := map qmean dist) in *. set (avg' := map qmean (map (map (Qmult c)) dist)) in *.
  assert (EN : forall row, qmean (map (Qmult c) row) == c * qmean row).
  { intros row. unfold qmean. rewrite map_length. assert (Q : qsum (map (Qmult c) row) == c * qsum row) by (unfold qsum; apply qsum_scale). rewrite Q. unfold Qdiv. ring. }
  assert (L : length avg' = length avg) by (unfold avg, avg'; rewrite !map_length; auto).
  assert (N : avg <> []) by (intros F; apply map_eq_nil in F; auto).
  assert (E1 : forall k, nth k avg' 0 == c * nth k avg 0).
  { intros k. unfold avg, avg'. rewrite map_map. destruct (le_lt_dec (length dist) k) as [G|G].
    - rewrite !nth_overflow by (rewrite map_length; auto). ring.
    - rewrite !(nth_map_gen _ _ _ _ []) by auto. apply EN. }
  assert (EM : ModelKnn.median srt avg == m) by (apply (median_unique avg); auto; apply median_ok; auto).
  pose proof (median_scaled srt c avg avg' Hs Hc L E1) as EM'. rewrite EM in EM'.
  assert (e1 : (100 * float_eps <= / 1000000)%R) by (unfold float_eps; Lra.lra).
  assert (e2 : Q2R (1 # 1000000) = (/ 1000000)%R) by (unfold Q2R; cbn; Lra.lra).
  assert (S1 : Rmax (Rmax (Q2R (ModelKnn.median srt avg)) (100 * float_eps)) eps_const = Q2R m).
  { rewrite (Qeq_eqR _ _ EM). apply Qle_Rle in M1. rewrite e2 in M1. unfold eps_const. rewrite Rmax_left; rewrite Rmax_left; Lra.lra. }
  assert (S2 : Rmax (Rmax (Q2R (ModelKnn.median srt avg')) (100 * float_eps)) eps_const = (Q2R c * Q2R m)%R).
  { rewrite (Qeq_eqR _ _ EM'). apply Qle_Rle in M2. rewrite e2 in M2. rewrite <- Q2R_mult. unfold eps_const. rewrite Rmax_left; rewrite Rmax_left; Lra.lra. }
  assert (P : (0 < Q2R c)%R) by (apply Qlt_Rlt in Hc; unfold Q2R at 1 in Hc; cbn in Hc; Lra.lra).
  assert (Pm : (0 < Q2R m)%R) by (apply Qle_Rle in M1; rewrite e2 in M1; Lra.lra).
  cbv zeta in H, H'. unfold transform_distances_to_scores in H, H'. rewrite S1 in H. rewrite S2 in H'.
  assert (EV : forall row, Q2R (qmean (map (Qmult c) row)) = (Q2R c * Q2R (qmean row))%R) by (intros; rewrite (Qeq_eqR _ _ (EN row)), Q2R_mult; auto).
  assert (ES : forall x, (exp (- t * (Q2R c * x) / (Q2R c * Q2R m)) = exp (- t * x / Q2R m))%R) by (intros x; f_equal; field; split; Lra.lra).
  assert (B0 : map (fun d => exp (- t * d / (Q2R c * Q2R m)))%R (map Q2R avg') = map (fun d => exp (- t * d / Q2R m))%R (map Q2R avg)).
  { unfold avg, avg'. rewrite !map_map. apply map_ext. intros row. rewrite EV. apply ES. }
  rewrite B0 in H'. destruct mt as [mm|]; cbn [rbind] in H, H'; [|congruence].
  unfold correct_precision_errors in H, H'.
  pose proof (plain_tol mm HP) as TL.
  destruct TL as (o & TO & HT). rewrite TO in H, H'. cbn [rbind] in H, H'. destruct o as [tl|]; [|congruence].
  assert (HS : scores = map (fun sd => if Rlt_dec (snd sd) tl then 1%R else fst sd) (combine (map (fun d => exp (- t * d / Q2R m))%R (map Q2R avg)) (map Q2R avg))) by congruence.
  assert (HS' : scores' = map (fun sd => if Rlt_dec (snd sd) tl then 1%R else fst sd) (combine (map (fun d => exp (- t * d / Q2R m))%R (map Q2R avg)) (map Q2R avg'))) by congruence.
  rewrite HS, HS'. unfold avg, avg'. clear - HX HT EV e2 P. revert HX.
  induction dist as [|row dist IH]; intros HX; [reflexivity|]. cbn [map combine]. f_equal; [|apply IH; intros; apply HX; right; auto].
  cbn [fst snd]. rewrite EV. destruct (HX row (or_introl eq_refl)) as [Z|(Z1 & Z2)].
  - apply Qeq_eqR in Z. rewrite Z. replace (Q2R 0) with 0%R by (unfold Q2R; cbn; Lra.lra). rewrite Rmult_0_r.
    destruct (Rlt_dec 0 tl); [reflexivity|exfalso; Lra.lra].
  - apply Qle_Rle in Z1. apply Qle_Rle in Z2. rewrite Q2R_mult, e2 in Z2. rewrite e2 in Z1.
    destruct (Rlt_dec (Q2R c * Q2R (qmean row)) tl); [exfalso; Lra.lra|]. destruct (Rlt_dec (Q2R (qmean row)) tl); [exfalso; Lra.lra|reflexivity].
Qed.

(** ** The estimator *)
Open Scope R_scope.
Lemma rsum_units c l : rsum (map (Rmult c) l) = c * rsum l.
Proof. unfold rsum. induction l as [|x l IH]; cbn [map fold_right]; [ring|rewrite IH; ring]. Qed.
Lemma avg_units c k d : avg_distances k (map (map (Rmult c)) d) = map (Rmult c) (avg_distances k d).
Proof.
  unfold avg_distances. rewrite !map_map. apply map_ext. intros row. rewrite firstn_map. unfold rmean. rewrite map_length, rsum_units. unfold Rdiv. ring.
Qed.
Lemma scores_units m c t s avg : plain_metric m -> 0 < c -> / 1000000 <= s -> / 1000000 <= c * s -> Forall (measurable_R c) avg ->
  correct_precision_errors (transform_distances_to_scores (map (Rmult c) avg) t (c * s)) (map (Rmult c) avg) m =
  correct_precision_errors (transform_distances_to_scores avg t s) avg m.
Proof.
  intros HP Hc S1 S2 HX. destruct (plain_tol m HP) as (o & TO & HT). unfold correct_precision_errors, transform_distances_to_scores. rewrite TO. cbn [rbind]. f_equal.
  unfold eps_const. rewrite !Rmax_left by Lra.lra.
  assert (E : map (fun d => exp (- t * d / (c * s))) (map (Rmult c) avg) = map (fun d => exp (- t * d / s)) avg).
  { rewrite map_map. apply map_ext. intros d. f_equal. field. split; Lra.lra. }
  rewrite E. destruct o as [tl|]; [|reflexivity]. clear E TO. induction HX as [|x avg [->|(X1 & X2)] HX IH]; [reflexivity| |]; cbn [map combine fst snd]; f_equal; auto.
  - rewrite Rmult_0_r. destruct (Rlt_dec 0 tl); [reflexivity|exfalso; Lra.lra].
  - destruct (Rlt_dec (c * x) tl); [exfalso; Lra.lra|]. destruct (Rlt_dec x tl); [exfalso; Lra.lra|reflexivity].
Qed.
Section E.
Context {F : Type} (B : backend F).
Lemma mean_of_avg k d : mean_of k d = avg_distances k d.
Proof. reflexivity. Qed.
Lemma estimator_units o f f' c nm : 0 < c -> p_knn o = None -> p_scaling o = None -> plain_metric (snd nm) ->
  features_to_knn B f (p_k o) = Ok nm -> features_to_knn B f' (p_k o) = Ok nm -> scaled_search B c f f' None None ->
  (forall d, correct B f' (map (map (Rmult c)) d) = map (map (Rmult c)) (correct B f d)) ->
  (forall l, median B (map (Rmult c) l) = c * median B l) -> two_dim B f' = two_dim B f ->
  let avg := mean_of (fst nm) (correct B f (kneighbors B f None (fst nm))) in
  / 1000000 <= median B avg -> / 1000000 <= c * median B avg -> Forall (measurable_R c) avg ->
  let i := Build_input (Some f) None None in let i' := Build_input (Some f') None None in
  snd (fit_score B o i') = snd (fit_score B o i) /\
  (forall q q', same_dim B f' q' = same_dim B f q -> two_dim B q' = two_dim B q -> scaled_search B c f f' (Some q) (Some q') ->
     Forall (measurable_R c) (mean_of (match p_k o with None => fst nm | Some k => Nat.min k (fst nm) end) (kneighbors B f (Some q) (fst nm))) ->
     snd (score B (fst (fit_score B o i')) (Build_input (Some q') None None)) = snd (score B (fst (fit_score B o i)) (Build_input (Some q) None None))).
Proof.
  intros Hc HK HS HP HN HN' SS HC HM HD avg M1 M2 HX i i'. unfold i, i'. unfold fit_score, shared_fit, valid_input. cbn [in_features in_pred_probs]. rewrite HD.
  destruct (two_dim B f) eqn:D2.
  2:{ cbn [fst snd]. split; [reflexivity|]. intros q q' SD TD SQ XQ. unfold score, valid_input. cbn [in_features in_pred_probs]. rewrite TD. destruct (two_dim B q); [rewrite HK|]; reflexivity. }
  rewrite HK. unfold features_scores. rewrite HK, HN, HN'. cbn [rbind]. unfold finish. rewrite HS. rewrite SS, HC.
  rewrite !avg_units. rewrite <- !mean_of_avg. fold avg. rewrite HM.
  assert (e1 : 100 * float_eps <= / 1000000) by (unfold float_eps; Lra.lra).
  rewrite !(Rmax_left _ (100 * float_eps)) by Lra.lra.
  destruct (plain_tol (snd nm) HP) as (tl & TO & HT).
  pose proof (scores_units (snd nm) c (p_t o) (median B avg) avg HP Hc M1 M2 HX) as SU. rewrite SU.
  destruct (correct_precision_errors (transform_distances_to_scores avg (p_t o) (median B avg)) avg (snd nm)) as [v|e] eqn:CP.
  2:{ unfold correct_precision_errors in CP. rewrite TO in CP. discriminate. }
  cbn [rbind lift fst snd].
  split; [reflexivity|]. intros q q' SD TD SQ XQ. unfold score, valid_input. cbn [in_features in_pred_probs]. rewrite TD.
  destruct (two_dim B q) eqn:Dq; [|reflexivity]. cbn [set_knn p_knn]. unfold features_scores. cbn [set_knn p_knn p_k p_scaling fitted_on n_neighbors knn_metric p_t]. rewrite SD.
  destruct (same_dim B f q) eqn:Ds; cbn [negb]; [|reflexivity]. unfold finish. cbn [set_knn p_knn p_k p_scaling fitted_on n_neighbors knn_metric p_t].
  rewrite SQ, avg_units. rewrite scores_units; auto.
  match goal with |- context [correct_precision_errors ?a ?b ?d] => destruct (correct_precision_errors a b d) end; reflexivity.
Qed.
End E.
