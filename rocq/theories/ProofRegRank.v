(** * Proofs about regression label scores *)
From Coq Require Import QArith Qreals Reals List Bool Arith Permutation Sorted Lia.
From Coq Require Import Lra.
From Verif Require Import Base BaseFacts ModelUtil ModelEntropy ModelOutlier ProofOutlier ModelOutlierCheck SpecOutlierCheck ProofOutlierCheck.
From Verif Require Import ModelRegRank SpecRegRank.
Import ListNotations.
Open Scope R_scope.

(** ** Validation *)
Lemma squeeze_app a b : squeeze (a ++ b) = squeeze a ++ squeeze b.
Proof. unfold squeeze. apply filter_app. Qed.
Lemma squeeze_nil l : squeeze l = [] <-> forall d, In d l -> d = 1%nat.
Proof.
  induction l as [|x l IH]; cbn; [firstorder|]. destruct (Nat.eqb x 1) eqn:E; cbn.
  - apply Nat.eqb_eq in E. rewrite IH. split; intros H; auto. intros d [<-|Hd]; auto.
  - apply Nat.eqb_neq in E. split; [discriminate|]. intros H. exfalso. apply E. apply H. auto.
Qed.
Lemma squeeze_one sh n : squeeze sh = [n] <-> n <> 1%nat /\ along_one_axis sh n.
Proof.
  split.
  - intros H. assert (Hn : n <> 1%nat).
    { assert (In n (squeeze sh)) by (rewrite H; left; auto). unfold squeeze in H0. apply filter_In in H0. destruct H0 as [_ H0].
      apply negb_true_iff, Nat.eqb_neq in H0. auto. }
    split; auto. revert H. induction sh as [|x sh IH]; cbn; [discriminate|]. destruct (Nat.eqb x 1) eqn:E; cbn.
    + intros H. destruct (IH H) as [b [a [-> Hall]]]. exists (x :: b), a. split; auto. intros d Hd. cbn in Hd. destruct Hd as [<-|Hd]; auto. apply Nat.eqb_eq; auto.
    + intros H. injection H as -> H. exists [], sh. split; auto. cbn. apply squeeze_nil; auto.
  - intros [Hn [b [a [-> Hall]]]]. rewrite squeeze_app. cbn [squeeze filter]. fold (squeeze a).
    assert (Hb : squeeze b = []) by (apply squeeze_nil; intros; apply Hall, in_app_iff; auto).
    assert (Ha : squeeze a = []) by (apply squeeze_nil; intros; apply Hall, in_app_iff; auto).
    rewrite Hb. cbn. destruct (Nat.eqb n 1) eqn:E; [apply Nat.eqb_eq in E; lia|]. cbn. rewrite Ha. auto.
Qed.
Lemma size_squeeze sh : size (squeeze sh) = size sh.
Proof.
  unfold size, squeeze. induction sh as [|x sh IH]; cbn; auto. destruct (Nat.eqb x 1) eqn:E; cbn; rewrite IH; auto.
  apply Nat.eqb_eq in E. subst. lia.
Qed.
Lemma check_ok a : (exists n, column a n) \/ check_dimension_and_datatype a = Raise ValueError.
Proof.
  unfold check_dimension_and_datatype. destruct (Nat.eqb (size (shape a)) 0) eqn:E0; auto.
  destruct (Nat.eqb (length (squeeze (shape a))) 1) eqn:E1; cbn; auto. destruct (numeric a) eqn:E2; cbn; auto. left.
  apply Nat.eqb_eq in E1. apply Nat.eqb_neq in E0. destruct (squeeze (shape a)) as [|n [|? ?]] eqn:Es; try discriminate.
  exists n. rewrite <- size_squeeze, Es in E0. cbn in E0. apply squeeze_one in Es. destruct Es. split; [lia|]. auto.
Qed.
Lemma check_col a n : column a n -> check_dimension_and_datatype a = Ok {| shape := [n]; entries := entries a; numeric := true |}.
Proof.
  intros [Hn [Hax Hnum]]. assert (Es : squeeze (shape a) = [n]) by (apply squeeze_one; split; auto; lia).
  unfold check_dimension_and_datatype. rewrite <- size_squeeze, Es, Hnum. cbn. destruct (Nat.eqb (n * 1) 0) eqn:E; auto. apply Nat.eqb_eq in E. lia.
Qed.
Lemma col_unique a n m : column a n -> column a m -> n = m.
Proof. intros H1 H2. apply check_col in H1, H2. congruence. Qed.
Lemma missing_ok a : no_missing a -> check_missing_values a = Ok tt.
Proof.
  intros H. unfold check_missing_values. destruct (existsb is_nan (entries a)) eqn:E; auto. apply existsb_exists in E. destruct E as [x [Hx E]].
  destruct x; [discriminate|]. exfalso. eapply H; eauto.
Qed.
Lemma missing_bad a : check_missing_values a = Ok tt -> no_missing a.
Proof.
  unfold check_missing_values. destruct (existsb is_nan (entries a)) eqn:E; [discriminate|]. intros _ x Hx ->.
  assert (existsb is_nan (entries a) = true) by (apply existsb_exists; exists None; auto). congruence.
Qed.
Lemma missing_res a : check_missing_values a = Ok tt \/ check_missing_values a = Raise ValueError.
Proof. unfold check_missing_values. destruct existsb; auto. Qed.
Lemma column_len a n : well_formed a -> column a n -> length (entries a) = n.
Proof.
  intros Hw [Hn [Hax _]]. unfold well_formed in Hw. change (fold_right Nat.mul 1%nat (shape a)) with (size (shape a)) in Hw.
  rewrite <- size_squeeze in Hw. assert (Es : squeeze (shape a) = [n]) by (apply squeeze_one; split; auto; lia). rewrite Es in Hw. cbn in Hw. lia.
Qed.

(** ** The outre score as a formula *)
Definition avg_to (sort : list R -> list R) (k : nat) (train : list (R * R)) (x : R * R) : R := rmean (firstn k (sort (map (euclid x) train))).
Definition factor (sort : list R -> list R) (k : nat) (train : list (R * R)) : R := Rmax (rmedian sort (map (avg_to sort k train) train)) (100 * float_eps).
Definition point_score (sort : list R -> list R) (k : nat) (train : list (R * R)) (x : R * R) : R :=
  if Rlt_dec (avg_to sort k train x) (sqrt (100 * float_eps)) then 1
  else exp (- (1) * avg_to sort k train x / Rmax (factor sort k train) eps_const).
Lemma residuals_len l p : length p = length l -> length (residuals l p) = length l.
Proof. intros H. unfold residuals. rewrite map_length, combine_length. lia. Qed.
Lemma standardize_len l : length (standardize l) = length l.
Proof. apply map_length. Qed.
Lemma features_len l p : length p = length l -> length (outre_features l p) = length l.
Proof. intros H. unfold outre_features. rewrite combine_length, map_length, !standardize_len, residuals_len; auto. lia. Qed.
Lemma half_up_lt n : (2 <= n)%nat -> (half_up n < n)%nat.
Proof. intros H. unfold half_up. apply Nat.div_lt_upper_bound; lia. Qed.
Lemma half_up_pos n : (1 <= n)%nat -> (1 <= half_up n)%nat.
Proof. intros H. unfold half_up. apply Nat.div_le_lower_bound; lia. Qed.
Lemma firstn_firstn_same {A} k (l : list A) : firstn k (firstn k l) = firstn k l.
Proof. rewrite firstn_firstn. f_equal. lia. Qed.
Lemma combine_map {A B C} (f : A -> B) (g : A -> C) l : combine (map f l) (map g l) = map (fun x => (f x, g x)) l.
Proof. induction l; cbn; congruence. Qed.
Lemma outre_eq sort l p : length p = length l -> (2 <= length l)%nat ->
  outre_scores sort l p = Ok (map (point_score sort (half_up (length l)) (outre_features l p)) (outre_features l p)).
Proof.
  intros H Hn. unfold outre_scores. cbn [features_to_knn plane]. rewrite features_len by auto.
  destruct (Nat.leb (length l) (half_up (length l))) eqn:E. { apply Nat.leb_le in E. pose proof (half_up_lt _ Hn). lia. }
  cbn [rbind fst snd]. set (f := outre_features l p). generalize (half_up (length l)). intros k. clearbody f.
  assert (A : avg_distances k (map (fun x => firstn k (sort (map (euclid x) f))) f) = map (avg_to sort k f) f).
  { unfold avg_distances, avg_to. rewrite map_map. apply map_ext. intros. rewrite firstn_firstn_same. auto. }
  unfold score. cbn -[avg_distances]. rewrite A. unfold transform_distances_to_scores. rewrite map_map, combine_map, map_map. auto.
Qed.

(** ** Outcome *)
Lemma same_shape_one n m : same_shape [n] [m] = true <-> n = m.
Proof. cbn. rewrite andb_true_r. apply Nat.eqb_eq. Qed.
Definition outcome sort (l p : array) m := get_label_quality_scores sort l p m.
Lemma get_columns sort l p m n k : column l n -> column p k -> well_formed l -> well_formed p ->
  get_label_quality_scores sort l p m =
    if Nat.eqb n k then
      do _ <- check_missing_values l ; do _ <- check_missing_values p ;
      match m with
      | Residual => Ok (residual_scores (map number (entries l)) (map number (entries p)))
      | Outre => outre_scores sort (map number (entries l)) (map number (entries p))
      | UnknownMethod => Raise ValueError
      end
    else Raise AssertionError.
Proof.
  intros Hl Hp Wl Wp. unfold get_label_quality_scores, assert_valid_prediction_inputs.
  rewrite (check_col _ _ Hl), (check_col _ _ Hp). cbn [rbind shape]. destruct (Nat.eqb n k) eqn:E; cbn; rewrite E; cbn; auto.
  unfold check_missing_values. cbn [entries]. destruct (existsb is_nan (entries l)); cbn; auto. destruct (existsb is_nan (entries p)); cbn; auto.
  destruct m; auto.
Qed.
Lemma C87_outcome_full sort l p m : well_formed l -> well_formed p ->
  let valid := exists n, column l n /\ column p n /\ no_missing l /\ no_missing p /\ m <> UnknownMethod in
  let unequal := exists n k, column l n /\ column p k /\ n <> k in
  (valid <-> exists s, get_label_quality_scores sort l p m = Ok s) /\
  (unequal <-> get_label_quality_scores sort l p m = Raise AssertionError) /\
  (~ valid -> ~ unequal -> get_label_quality_scores sort l p m = Raise ValueError).
Proof.
  intros Wl Wp valid unequal.
  destruct (check_ok l) as [[n Hl]|El].
  2:{ assert (E : get_label_quality_scores sort l p m = Raise ValueError) by (unfold get_label_quality_scores, assert_valid_prediction_inputs; rewrite El; auto).
      rewrite E. assert (V : ~ valid). { intros [n [H _]]. apply check_col in H. congruence. }
      assert (U : ~ unequal). { intros [n [k [H _]]]. apply check_col in H. congruence. }
      split; [|split; auto]; split; try tauto; try discriminate. intros [s Hs]; discriminate. }
  destruct (check_ok p) as [[k Hp]|Ep].
  2:{ assert (E : get_label_quality_scores sort l p m = Raise ValueError)
        by (unfold get_label_quality_scores, assert_valid_prediction_inputs; rewrite (check_col _ _ Hl); cbn [rbind]; rewrite Ep; auto).
      rewrite E. assert (V : ~ valid). { intros [n' [_ [H _]]]. apply check_col in H. congruence. }
      assert (U : ~ unequal). { intros [n' [k [_ [H _]]]]. apply check_col in H. congruence. }
      split; [|split; auto]; split; try tauto; try discriminate. intros [s Hs]; discriminate. }
  rewrite (get_columns sort l p m n k) by auto.
  destruct (Nat.eqb n k) eqn:E.
  - apply Nat.eqb_eq in E. subst k.
    assert (U : ~ unequal). { intros [n' [k' [H1 [H2 H3]]]]. apply H3. transitivity n; [eapply col_unique; eauto|]. eapply col_unique; eauto. }
    destruct (missing_res l) as [Ml|Ml]; rewrite Ml; cbn [rbind].
    2:{ assert (V : ~ valid). { intros [n' [_ [_ [H _]]]]. rewrite missing_ok in Ml by auto. discriminate. }
        split; [|split; auto]; split; try tauto; try discriminate. intros [s Hs]; discriminate. }
    destruct (missing_res p) as [Mp|Mp]; rewrite Mp; cbn [rbind].
    2:{ assert (V : ~ valid). { intros [n' [_ [_ [_ [H _]]]]]. rewrite missing_ok in Mp by auto. discriminate. }
        split; [|split; auto]; split; try tauto; try discriminate. intros [s Hs]; discriminate. }
    apply missing_bad in Ml, Mp. pose proof (column_len _ _ Wl Hl). pose proof (column_len _ _ Wp Hp).
    destruct Hl as [Hn Hl]. destruct m.
    + assert (V : valid). { exists n. repeat split; try tauto; try discriminate; apply Hp. }
      split; [|split]; [split; eauto| split; [tauto|discriminate] | tauto].
    + assert (V : valid). { exists n. repeat split; try tauto; try discriminate; apply Hp. }
      rewrite outre_eq; rewrite ?map_length; try lia.
      split; [|split]; [split; eauto| split; [tauto|discriminate] | tauto].
    + assert (V : ~ valid). { intros [n' [_ [_ [_ [_ H']]]]]. auto. }
      split; [|split; auto]; split; try tauto; try discriminate. intros [s Hs]; discriminate.
  - apply Nat.eqb_neq in E. assert (U : unequal) by (exists n, k; auto).
    assert (V : ~ valid). { intros [n' [H1 [H2 _]]]. apply E. transitivity n'; eapply col_unique; eauto. }
    split; [|split]; [split; [tauto|intros [s Hs]; discriminate] | split; auto | tauto].
Qed.

Lemma get_ok sort l p m s : well_formed l -> well_formed p -> get_label_quality_scores sort l p m = Ok s ->
  exists n, (2 <= n)%nat /\ length (entries l) = n /\ length (entries p) = n /\ no_missing l /\ no_missing p /\
    match m with
    | Residual => s = residual_scores (map number (entries l)) (map number (entries p))
    | Outre => s = map (point_score sort (half_up n) (outre_features (map number (entries l)) (map number (entries p)))) (outre_features (map number (entries l)) (map number (entries p)))
    | UnknownMethod => False
    end.
Proof.
  intros Wl Wp H. pose proof (proj1 (C87_outcome_full sort l p m Wl Wp)) as V. cbn zeta in V.
  destruct (proj2 V (ex_intro _ s H)) as [n [Hl [Hp [Ml [Mp Hm]]]]]. exists n.
  pose proof (column_len _ _ Wl Hl). pose proof (column_len _ _ Wp Hp). destruct Hl as [Hn Hl].
  rewrite (get_columns sort l p m n n) in H; auto; [|split; auto]. rewrite Nat.eqb_refl, !missing_ok in H by auto. cbn [rbind] in H.
  repeat split; auto. destruct m; [congruence| |congruence].
  rewrite outre_eq in H; rewrite ?map_length in *; try lia. rewrite H0 in H. congruence.
Qed.

Lemma holds_nth a i x : holds_at a i x -> (i < length (entries a))%nat /\ nth i (map number (entries a)) 0 = x.
Proof.
  unfold holds_at. intros H. assert (i < length (entries a))%nat by (apply nth_error_Some; congruence). split; auto.
  change 0 with (number None). rewrite map_nth. rewrite (nth_error_nth _ _ None H). auto.
Qed.
Lemma residual_nth l p i : length p = length l -> (i < length l)%nat -> nth i (residual_scores l p) 0 = exp (- Rabs (nth i p 0 - nth i l 0)).
Proof.
  intros H Hi. unfold residual_scores, residuals. rewrite map_map.
  rewrite nth_map_gen with (d' := (0, 0)) by (rewrite combine_length; lia). rewrite combine_nth by auto. auto.
Qed.
Lemma C87_residual_full sort l p s : well_formed l -> well_formed p -> get_label_quality_scores sort l p Residual = Ok s ->
  length s = length (entries l) /\
  (forall i x y, holds_at l i x -> holds_at p i y -> 0 < nth i s 0 <= 1 /\ (nth i s 0 = 1 <-> x = y)) /\
  (forall i j x y x' y', holds_at l i x -> holds_at p i y -> holds_at l j x' -> holds_at p j y' ->
     (nth i s 0 < nth j s 0 <-> Rabs (x' - y') < Rabs (x - y))).
Proof.
  intros Wl Wp H. destruct (get_ok _ _ _ _ _ Wl Wp H) as [n [Hn [Ll [Lp [Ml [Mp ->]]]]]].
  assert (N : forall i x y, holds_at l i x -> holds_at p i y -> nth i (residual_scores (map number (entries l)) (map number (entries p))) 0 = exp (- Rabs (x - y))).
  { intros i x y Hx Hy. apply holds_nth in Hx, Hy. destruct Hx as [Hi Hx], Hy as [_ Hy]. rewrite residual_nth; rewrite ?map_length; try lia.
    rewrite Hx, Hy, Rabs_minus_sym. auto. }
  split; [|split].
  - unfold residual_scores. rewrite map_length, residuals_len; rewrite !map_length; lia.
  - intros i x y Hx Hy. rewrite (N _ _ _ Hx Hy). split.
    + split; [apply exp_pos|]. rewrite <- exp_0. pose proof (Rabs_pos (x - y)). destruct (Req_dec (Rabs (x - y)) 0) as [->|]; [right; f_equal; lra|]. left. apply exp_increasing. lra.
    + split; intros E.
      * rewrite <- exp_0 in E. apply exp_inv in E. destruct (Req_dec (x - y) 0); [lra|]. apply Rabs_pos_lt in H0. lra.
      * subst. replace (y - y) with 0 by lra. rewrite Rabs_R0. replace (- 0) with 0 by lra. apply exp_0.
  - intros i j x y x' y' H1 H2 H3 H4. rewrite (N _ _ _ H1 H2), (N _ _ _ H3 H4). split; intros E.
    + apply exp_lt_inv in E. lra.
    + apply exp_increasing. lra.
Qed.
Lemma C87_own_full sort l p s l' p' s' i j x y : well_formed l -> well_formed p -> well_formed l' -> well_formed p' ->
  get_label_quality_scores sort l p Residual = Ok s -> get_label_quality_scores sort l' p' Residual = Ok s' ->
  holds_at l i x -> holds_at p i y -> holds_at l' j x -> holds_at p' j y -> nth i s 0 = nth j s' 0.
Proof.
  intros Wl Wp Wl' Wp' H H' H1 H2 H3 H4.
  destruct (get_ok _ _ _ _ _ Wl Wp H) as [n [Hn [Ll [Lp [_ [_ ->]]]]]]. destruct (get_ok _ _ _ _ _ Wl' Wp' H') as [n' [Hn' [Ll' [Lp' [_ [_ ->]]]]]].
  apply holds_nth in H1, H2, H3, H4. rewrite !residual_nth; rewrite ?map_length; try lia.
  destruct H1 as [_ ->], H2 as [_ ->], H3 as [_ ->], H4 as [_ ->]. auto.
Qed.

(** ** outre *)
Lemma sorted_unique_R s : forall s', StronglySorted Rle s -> StronglySorted Rle s' -> Permutation s s' -> s = s'.
Proof.
  induction s as [|x s IH]; intros s' S1 S2 P. { apply Permutation_nil in P. auto. }
  destruct s' as [|y s']. { apply Permutation_sym, Permutation_nil in P. discriminate. }
  inversion_clear S1. inversion_clear S2. rewrite Forall_forall in *.
  assert (x = y).
  { assert (In y (x :: s)) by (apply (Permutation_in _ (Permutation_sym P)); left; auto).
    assert (In x (y :: s')) by (apply (Permutation_in _ P); left; auto).
    destruct H3 as [|H3]; auto. destruct H4 as [|H4]; auto. apply Rle_antisym; auto. }
  subst y. f_equal. apply IH; auto. eapply Permutation_cons_inv; eauto.
Qed.
Lemma sort_perm sort l l' : sorts_R sort -> Permutation l l' -> sort l = sort l'.
Proof.
  intros Hs P. destruct (Hs l) as [P1 S1], (Hs l') as [P2 S2]. apply sorted_unique_R; auto. rewrite P1, P2. auto.
Qed.
Lemma rmedian_perm sort l l' : sorts_R sort -> Permutation l l' -> rmedian sort l = rmedian sort l'.
Proof. intros Hs P. unfold rmedian. rewrite (sort_perm sort l l'), (Permutation_length P); auto. Qed.
Lemma avg_to_perm sort k t t' x : sorts_R sort -> Permutation t t' -> avg_to sort k t x = avg_to sort k t' x.
Proof. intros Hs P. unfold avg_to. rewrite (sort_perm sort _ (map (euclid x) t')); auto. apply Permutation_map; auto. Qed.
Lemma point_score_perm sort k t t' x : sorts_R sort -> Permutation t t' -> point_score sort k t x = point_score sort k t' x.
Proof.
  intros Hs P. unfold point_score. rewrite (avg_to_perm _ _ _ _ _ Hs P).
  assert (E : factor sort k t = factor sort k t'); [|rewrite E; auto].
  unfold factor. f_equal. apply rmedian_perm; auto. transitivity (map (avg_to sort k t) t'). { apply Permutation_map; auto. }
  erewrite map_ext; [reflexivity|]. intros. apply avg_to_perm; auto.
Qed.
Lemma rsum_perm l l' : Permutation l l' -> rsum l = rsum l'.
Proof. unfold rsum. induction 1; cbn; lra. Qed.
Lemma rmean_perm l l' : Permutation l l' -> rmean l = rmean l'.
Proof. intros P. unfold rmean. rewrite (rsum_perm _ _ P), (Permutation_length P). auto. Qed.
Lemma rstd_perm l l' : Permutation l l' -> rstd l = rstd l'.
Proof. intros P. unfold rstd. rewrite (rmean_perm _ _ P). f_equal. apply rmean_perm. apply Permutation_map; auto. Qed.
Lemma rsum_map_add (c : R) l : rsum (map (fun x => x + c) l) = rsum l + INR (length l) * c.
Proof. induction l as [|a l IH]; cbn [map rsum fold_right length]. { cbn. lra. } fold (rsum l). fold (rsum (map (fun x => x + c) l)). rewrite IH, S_INR. lra. Qed.
Lemma rsum_map_opp l : rsum (map Ropp l) = - rsum l.
Proof. unfold rsum. induction l; cbn; lra. Qed.
Lemma rmean_add (c : R) l : l <> [] -> rmean (map (fun x => x + c) l) = rmean l + c.
Proof.
  intros H. unfold rmean. rewrite rsum_map_add, map_length. assert (INR (length l) <> 0). { destruct l; [congruence|]. apply not_0_INR. cbn. lia. }
  field. auto.
Qed.
Lemma rmean_opp l : rmean (map Ropp l) = - rmean l.
Proof. unfold rmean. rewrite rsum_map_opp, map_length. unfold Rdiv. lra. Qed.
Lemma standardize_add (c : R) l : standardize (map (fun x => x + c) l) = standardize l.
Proof.
  destruct l as [|a l]. { auto. } set (L := a :: l). assert (HL : L <> []) by discriminate. clearbody L.
  assert (E : rstd (map (fun x => x + c) L) = rstd L).
  { unfold rstd. f_equal. f_equal. rewrite map_map. apply map_ext. intros x. rewrite rmean_add by auto. ring. }
  unfold standardize. rewrite E, map_map. apply map_ext. intros x. rewrite rmean_add by auto. f_equal. ring.
Qed.
Lemma standardize_opp l : standardize (map Ropp l) = map Ropp (standardize l).
Proof.
  assert (E : rstd (map Ropp l) = rstd l).
  { unfold rstd. f_equal. f_equal. rewrite map_map. apply map_ext. intros x. rewrite rmean_opp by auto. ring. }
  unfold standardize. rewrite E, !map_map. apply map_ext. intros x. rewrite rmean_opp. unfold Rdiv. ring.
Qed.
Lemma residuals_pred_add c l p : residuals l (map (fun x => x + c) p) = map (fun x => x + c) (residuals l p).
Proof. unfold residuals. revert l. induction p as [|a p IH]; intros [|b l]; cbn; auto. rewrite IH. f_equal. lra. Qed.
Lemma residuals_both_add c l p : residuals (map (fun x => x + c) l) (map (fun x => x + c) p) = residuals l p.
Proof. unfold residuals. revert l. induction p as [|a p IH]; intros [|b l]; cbn; auto. rewrite IH. f_equal. lra. Qed.
Lemma residuals_opp l p : residuals (map Ropp l) (map Ropp p) = map Ropp (residuals l p).
Proof. unfold residuals. revert l. induction p as [|a p IH]; intros [|b l]; cbn; auto. rewrite IH. f_equal. lra. Qed.

Lemma vec_wf l : well_formed (vec l). Proof. unfold well_formed, vec. cbn. rewrite map_length. lia. Qed.
Lemma vec_num l : map number (entries (vec l)) = l.
Proof. cbn. rewrite map_map. cbn. apply map_id. Qed.
Lemma vec_no_missing l : no_missing (vec l).
Proof. intros x Hx. cbn in Hx. apply in_map_iff in Hx. destruct Hx as [y [<- _]]. discriminate. Qed.
Lemma vec_col l : (2 <= length l)%nat -> column (vec l) (length l).
Proof. intros H. split; auto. split; auto. exists [], []. cbn. split; auto. tauto. Qed.
Lemma vec_outcome sort l p m : get_label_quality_scores sort (vec l) (vec p) m =
  if (Nat.ltb (length l) 2 || Nat.ltb (length p) 2)%bool then Raise ValueError
  else if negb (Nat.eqb (length l) (length p)) then Raise AssertionError
  else match m with
       | Residual => Ok (residual_scores l p)
       | Outre => Ok (map (point_score sort (half_up (length l)) (outre_features l p)) (outre_features l p))
       | UnknownMethod => Raise ValueError
       end.
Proof.
  assert (S : forall l : list R, (length l < 2)%nat -> check_dimension_and_datatype (vec l) = Raise ValueError).
  { intros q Hq. unfold check_dimension_and_datatype, vec. cbn. destruct (length q) as [|[|]]; cbn; auto. lia. }
  destruct (Nat.ltb (length l) 2) eqn:E1; cbn [orb].
  { apply Nat.ltb_lt in E1. unfold get_label_quality_scores, assert_valid_prediction_inputs. rewrite S; auto. }
  apply Nat.ltb_ge in E1. destruct (Nat.ltb (length p) 2) eqn:E2.
  { apply Nat.ltb_lt in E2. unfold get_label_quality_scores, assert_valid_prediction_inputs. rewrite (check_col _ _ (vec_col _ E1)). cbn [rbind]. rewrite (S p) by auto. reflexivity. }
  apply Nat.ltb_ge in E2. rewrite (get_columns sort _ _ m _ _ (vec_col _ E1) (vec_col _ E2) (vec_wf _) (vec_wf _)).
  destruct (Nat.eqb (length l) (length p)) eqn:E; cbn [negb]; auto. apply Nat.eqb_eq in E.
  rewrite !missing_ok by apply vec_no_missing. cbn [rbind]. rewrite !vec_num. destruct m; auto. apply outre_eq; auto.
Qed.
Lemma euclid_nonneg a b : 0 <= euclid a b. Proof. apply sqrt_pos. Qed.
Lemma in_firstn_R (x : R) : forall k l, In x (firstn k l) -> In x l.
Proof. induction k; intros [|a l]; cbn; try tauto. intros [|]; auto. Qed.
Lemma avg_to_nonneg sort k t x : sorts_R sort -> 0 <= avg_to sort k t x.
Proof.
  intros Hs. apply rmean_nonneg. intros y Hy. apply in_firstn_R in Hy. destruct (Hs (map (euclid x) t)) as [P _].
  apply (Permutation_in _ P) in Hy. apply in_map_iff in Hy. destruct Hy as [z [<- _]]. apply euclid_nonneg.
Qed.
Lemma point_score_range sort k t x : sorts_R sort -> 0 < point_score sort k t x <= 1.
Proof.
  intros Hs. unfold point_score. destruct (Rlt_dec _ _). { lra. } split; [apply exp_pos|].
  pose proof (avg_to_nonneg sort k t x Hs) as H. pose proof (exp_score_0 1 (factor sort k t)) as E0. destruct H as [H|<-].
  - pose proof (exp_score_lt 1 (factor sort k t) _ _ Rlt_0_1 H). lra.
  - lra.
Qed.
Lemma C88_range_full sort l p s : sorts_R sort -> well_formed l -> well_formed p -> get_label_quality_scores sort l p Outre = Ok s ->
  length s = length (entries l) /\ (forall x, In x s -> 0 < x <= 1).
Proof.
  intros Hs Wl Wp H. destruct (get_ok _ _ _ _ _ Wl Wp H) as [n [Hn [Ll [Lp [_ [_ ->]]]]]]. split.
  - rewrite map_length, features_len; rewrite !map_length; lia.
  - intros x Hx. apply in_map_iff in Hx. destruct Hx as [y [<- _]]. apply point_score_range; auto.
Qed.
Lemma C88_bias_full sort c l p : get_label_quality_scores sort (vec l) (vec (map (fun x => x + c) p)) Outre = get_label_quality_scores sort (vec l) (vec p) Outre.
Proof. rewrite !vec_outcome, map_length. unfold outre_features. rewrite residuals_pred_add, standardize_add. auto. Qed.
Lemma C88_shift_full sort c l p m : get_label_quality_scores sort (vec (map (fun x => x + c) l)) (vec (map (fun x => x + c) p)) m = get_label_quality_scores sort (vec l) (vec p) m.
Proof. rewrite !vec_outcome, !map_length. unfold outre_features, residual_scores. rewrite residuals_both_add, standardize_add. auto. Qed.
Definition opp2 (x : R * R) : R * R := (- fst x, - snd x).
Lemma euclid_opp a b : euclid (opp2 a) (opp2 b) = euclid a b.
Proof. unfold euclid, opp2. cbn. f_equal. ring. Qed.
Lemma avg_to_opp sort k t x : avg_to sort k (map opp2 t) (opp2 x) = avg_to sort k t x.
Proof. unfold avg_to. rewrite map_map. f_equal. f_equal. f_equal. apply map_ext. intros. apply euclid_opp. Qed.
Lemma point_score_opp sort k t x : point_score sort k (map opp2 t) (opp2 x) = point_score sort k t x.
Proof.
  unfold point_score. rewrite avg_to_opp. assert (E : factor sort k (map opp2 t) = factor sort k t); [|rewrite E; auto].
  unfold factor. f_equal. rewrite map_map. f_equal. apply map_ext. intros. apply avg_to_opp.
Qed.
Lemma features_opp l p : outre_features (map Ropp l) (map Ropp p) = map opp2 (outre_features l p).
Proof.
  unfold outre_features. rewrite residuals_opp, !standardize_opp, map_map.
  generalize (standardize (residuals l p)). induction (standardize l) as [|a u IH]; intros [|b v]; cbn; auto. rewrite IH. f_equal. unfold opp2. cbn. f_equal. ring.
Qed.
Lemma C88_mirror_full sort l p m : get_label_quality_scores sort (vec (map Ropp l)) (vec (map Ropp p)) m = get_label_quality_scores sort (vec l) (vec p) m.
Proof.
  rewrite !vec_outcome, !map_length. destruct (_ || _)%bool; auto. destruct (negb _); auto. destruct m; auto.
  - unfold residual_scores. rewrite residuals_opp, map_map. f_equal. apply map_ext. intros. rewrite Rabs_Ropp. auto.
  - rewrite features_opp, map_map. f_equal. apply map_ext. intros. apply point_score_opp.
Qed.
Lemma residuals_perm l p perm : length p = length l -> (forall i, In i perm -> (i < length l)%nat) ->
  residuals (map (fun i => nth i l 0) perm) (map (fun i => nth i p 0) perm) = map (fun i => nth i (residuals l p) 0) perm.
Proof.
  intros H Hp. unfold residuals at 1. rewrite combine_map, map_map. apply map_ext_in. intros i Hi. cbn. unfold residuals.
  rewrite nth_map_gen with (d' := (0, 0)) by (rewrite combine_length; specialize (Hp i Hi); lia). rewrite combine_nth by auto. auto.
Qed.
Lemma perm_list {A} (d : A) l perm : Permutation perm (seq 0 (length l)) -> Permutation (map (fun i => nth i l d) perm) l.
Proof.
  intros P. transitivity (map (fun i => nth i l d) (seq 0 (length l))). { apply Permutation_map; auto. }
  assert (E : map (fun i => nth i l d) (seq 0 (length l)) = l); [|rewrite E; auto]. clear. induction l as [|a l IH]; cbn; auto. f_equal. rewrite <- seq_shift, map_map. auto.
Qed.
Lemma standardize_perm l perm : Permutation perm (seq 0 (length l)) ->
  standardize (map (fun i => nth i l 0) perm) = map (fun i => nth i (standardize l) 0) perm.
Proof.
  intros P. unfold standardize at 1. rewrite (rmean_perm _ _ (perm_list 0 l perm P)), (rstd_perm _ _ (perm_list 0 l perm P)), map_map.
  apply map_ext_in. intros i Hi. apply (Permutation_in _ P), in_seq in Hi. unfold standardize. rewrite nth_map_gen with (d' := 0) by lia. auto.
Qed.
Lemma C88_order_full sort l p m perm s : sorts_R sort -> Permutation perm (seq 0 (length l)) ->
  get_label_quality_scores sort (vec l) (vec p) m = Ok s ->
  get_label_quality_scores sort (vec (map (fun i => nth i l 0) perm)) (vec (map (fun i => nth i p 0) perm)) m = Ok (map (fun i => nth i s 0) perm).
Proof.
  intros Hs P H. rewrite !vec_outcome, !map_length in *. rewrite (Permutation_length P), seq_length. rewrite Nat.eqb_refl. cbn [negb].
  destruct (Nat.ltb (length l) 2) eqn:E1; cbn [orb] in *; [discriminate|]. destruct (Nat.ltb (length p) 2) eqn:E2; [discriminate|].
  destruct (Nat.eqb (length l) (length p)) eqn:E; cbn [negb] in *; [|discriminate]. apply Nat.eqb_eq in E.
  assert (Hi : forall i, In i perm -> (i < length l)%nat). { intros i Hi. apply (Permutation_in _ P), in_seq in Hi. lia. }
  destruct m; try discriminate; injection H as <-; f_equal.
  - unfold residual_scores at 1. rewrite residuals_perm, map_map by auto. apply map_ext_in. intros i Hin.
    unfold residual_scores. rewrite nth_map_gen with (d' := 0) by (rewrite residuals_len; auto). auto.
  - assert (F : outre_features (map (fun i => nth i l 0) perm) (map (fun i => nth i p 0) perm) = map (fun i => nth i (outre_features l p) (0, 0)) perm).
    { unfold outre_features. rewrite residuals_perm, !standardize_perm by (rewrite ?residuals_len; auto). rewrite map_map, combine_map. apply map_ext_in.
      intros i Hin. rewrite combine_nth by (rewrite map_length, !standardize_len, residuals_len; auto). f_equal.
      rewrite nth_map_gen with (d' := 0) by (rewrite standardize_len, residuals_len; auto). auto. }
    assert (PF : Permutation (map (fun i => nth i (outre_features l p) (0, 0)) perm) (outre_features l p)).
    { apply perm_list. rewrite features_len; auto. }
    rewrite F, map_map. apply map_ext_in. intros i Hin. rewrite nth_map_gen with (d' := (0, 0)) by (rewrite features_len; auto).
    apply point_score_perm; auto.
Qed.

(** the refutation *)
Lemma euclid_col a b : euclid (0, a) (0, b) = Rabs (a - b).
Proof. unfold euclid. cbn. replace ((0 - 0) * (0 - 0) + (a - b) * (a - b)) with (Rsqr (a - b)) by (unfold Rsqr; ring). apply sqrt_Rsqr_abs. Qed.
Lemma tol_small : sqrt (100 * float_eps) < 1.
Proof. apply Rlt_le_trans with (sqrt 1); [|rewrite sqrt_1; lra]. apply sqrt_lt_1_alt. unfold float_eps. cbn. lra. Qed.
Lemma TINY_range : 0 < TINY < 1 / 2.
Proof.
  unfold TINY. assert (2 < 10 ^ 100).
  { apply Rlt_le_trans with (10 ^ 1). { lra. } apply Rle_pow; lia || lra. }
  split. { apply Rinv_0_lt_compat. lra. } replace (1 / 2) with (/ 2) by lra. apply Rinv_lt_contravar; lra.
Qed.
Lemma C88_exact_refuted_full sort : sorts_R sort ->
  exists s, get_label_quality_scores sort (vec [0; 0; 0; 0]) (vec [1; 1; 1; 0]) Outre = Ok s /\
    nth 3 s 0 < 1 /\ nth 0 s 0 = 1 /\ nth 1 s 0 = 1 /\ nth 2 s 0 = 1.
Proof.
  intros Hs. rewrite vec_outcome. eexists. split; [reflexivity|].
  set (sd := rstd (residuals [0; 0; 0; 0] [1; 1; 1; 0]) + TINY).
  set (a := 5 * (1 / 4) / sd).
  assert (Hsd : 0 < sd <= 1).
  { unfold sd. assert (E : rstd (residuals [0; 0; 0; 0] [1; 1; 1; 0]) <= 1 / 2).
    { unfold rstd. rewrite <- (sqrt_square (1 / 2)) by lra. apply sqrt_le_1_alt. cbn. unfold rmean. cbn. lra. }
    assert (E2 : 0 <= rstd (residuals [0; 0; 0; 0] [1; 1; 1; 0])) by apply sqrt_pos. pose proof TINY_range. lra. }
  assert (Ha : 1 <= a). { unfold a. apply Rmult_le_reg_r with sd; [lra|]. unfold Rdiv. rewrite Rmult_assoc, Rinv_l by lra. lra. }
  assert (EF : outre_features [0; 0; 0; 0] [1; 1; 1; 0] = [(0, a); (0, a); (0, a); (0, -3 * a)]).
  { assert (Z : standardize [0; 0; 0; 0] = [0; 0; 0; 0]).
    { unfold standardize. assert (M : rmean [0; 0; 0; 0] = 0) by (unfold rmean; cbn; lra). rewrite M. cbn.
      unfold Rdiv. replace (0 - 0) with 0 by lra. rewrite Rmult_0_l. auto. }
    assert (D : standardize (residuals [0; 0; 0; 0] [1; 1; 1; 0]) = [(1 / 4) / sd; (1 / 4) / sd; (1 / 4) / sd; (- (3 / 4)) / sd]).
    { unfold standardize. fold sd. assert (M : rmean (residuals [0; 0; 0; 0] [1; 1; 1; 0]) = 3 / 4) by (unfold rmean, residuals; cbn; lra).
      rewrite M. unfold residuals. cbn. repeat (f_equal; try lra). }
    unfold outre_features. rewrite Z, D. cbn. unfold a.
    assert (5 * (1 / 4 / sd) = 5 * (1 / 4) / sd) by (unfold Rdiv; ring).
    assert (5 * (- (3 / 4) / sd) = -3 * (5 * (1 / 4) / sd)) by (unfold Rdiv; lra). rewrite H, H0. auto. }
  rewrite EF. clearbody a. clear EF.
  change (half_up (length [0; 0; 0; 0])) with 2%nat.
  set (T := [(0, a); (0, a); (0, a); (0, -3 * a)]).
  assert (D1 : sort (map (euclid (0, a)) T) = [0; 0; 0; 4 * a]).
  { destruct (Hs (map (euclid (0, a)) T)) as [P S]. apply sorted_unique_R; auto.
    - repeat constructor; lra.
    - rewrite P. unfold T. cbn [map]. rewrite !euclid_col. replace (a - a) with 0 by lra. rewrite Rabs_R0, (Rabs_right (a - -3 * a)) by lra.
      replace (a - -3 * a) with (4 * a) by lra. auto. }
  assert (D2 : sort (map (euclid (0, -3 * a)) T) = [0; 4 * a; 4 * a; 4 * a]).
  { destruct (Hs (map (euclid (0, -3 * a)) T)) as [P S]. apply sorted_unique_R; auto.
    - repeat constructor; lra.
    - rewrite P. unfold T. cbn [map]. rewrite !euclid_col. replace (-3 * a - -3 * a) with 0 by lra. rewrite Rabs_R0, (Rabs_left (-3 * a - a)) by lra.
      replace (- (-3 * a - a)) with (4 * a) by lra. change [0; 4 * a; 4 * a; 4 * a] with ([0] ++ [4 * a; 4 * a; 4 * a]). rewrite Permutation_app_comm. auto. }
  assert (A1 : avg_to sort 2 T (0, a) = 0) by (unfold avg_to; rewrite D1; unfold rmean; cbn; lra).
  assert (A2 : avg_to sort 2 T (0, -3 * a) = 2 * a) by (unfold avg_to; rewrite D2; unfold rmean; cbn; lra).
  assert (S1 : point_score sort 2 T (0, a) = 1).
  { unfold point_score. rewrite A1. destruct (Rlt_dec _ _); auto. apply exp_score_0. }
  assert (S2 : point_score sort 2 T (0, -3 * a) < 1).
  { unfold point_score. rewrite A2. destruct (Rlt_dec _ _) as [C|C]. { pose proof tol_small. lra. }
    pose proof (exp_score_0 1 (factor sort 2 T)). assert (0 < 2 * a) by lra.
    pose proof (exp_score_lt 1 (factor sort 2 T) _ _ Rlt_0_1 H0). lra. }
  unfold T at 2. cbn [map nth]. unfold T. cbn [map nth]. fold T. auto.
Qed.

(** ** Datalab's regression label check *)
Lemma find_pred_ok sort p y thr m flags s : find_issues_with_predictions sort p y thr m = Ok (flags, s) ->
  get_label_quality_scores sort y p (match m with Some m => m | None => Outre end) = Ok s /\ flags = map (below_R (rmedian sort s * thr)) s.
Proof. unfold find_issues_with_predictions. destruct (get_label_quality_scores _ _ _ _); cbn; [|discriminate]. intros H; injection H as <- <-. auto. Qed.
Lemma scores_range sort l p m s : sorts_R sort -> well_formed l -> well_formed p -> get_label_quality_scores sort l p m = Ok s -> s <> [] /\ forall x, In x s -> 0 < x <= 1.
Proof.
  intros Hs Wl Wp H. destruct (get_ok _ _ _ _ _ Wl Wp H) as [n [Hn [Ll [Lp [_ [_ E]]]]]]. destruct m; [| |tauto].
  - split.
    + intros E'. assert (L : length s = 0%nat) by (rewrite E'; auto). rewrite E in L. unfold residual_scores in L. rewrite map_length, residuals_len in L; rewrite !map_length in *; lia.
    + intros x Hx. rewrite E in Hx. apply in_map_iff in Hx. destruct Hx as [r [<- _]]. split; [apply exp_pos|].
      rewrite <- exp_0. pose proof (Rabs_pos r) as [Hr|<-]; [left; apply exp_increasing; lra|right; f_equal; lra].
  - pose proof (C88_range_full _ _ _ _ Hs Wl Wp H) as [L R]. split; auto. intros ->. cbn in L. lia.
Qed.
Lemma flags_nth thr (s : list R) i : flagged (map (below_R thr) s) i <-> (i < length s)%nat /\ nth i s 0 < thr.
Proof.
  unfold flagged. destruct (Nat.lt_ge_cases i (length s)) as [Hi|Hi].
  - rewrite nth_map_gen with (d' := 0) by auto. unfold below_R. destruct (Rlt_dec (nth i s 0) thr); split; try tauto; discriminate.
  - rewrite nth_overflow by (rewrite map_length; auto). split; [discriminate|lia].
Qed.
Lemma C89_flags_full sort p y thr m flags s : sorts_R sort -> well_formed p -> well_formed y ->
  find_issues_with_predictions sort p y thr m = Ok (flags, s) ->
  get_label_quality_scores sort y p (match m with Some m => m | None => Outre end) = Ok s /\
  length flags = length s /\
  exists med, is_median_R s med /\ (forall i, (i < length s)%nat -> (flagged flags i <-> nth i s 0 < thr * med)) /\
    (thr <= 1 -> (2 * flagged_count flags <= length s)%nat) /\
    (thr <= 0 -> flagged_count flags = 0%nat).
Proof.
  intros Hs Wp Wy H. apply find_pred_ok in H. destruct H as [H ->]. split; auto. rewrite map_length. split; auto.
  destruct (scores_range _ _ _ _ _ Hs Wy Wp H) as [Hne Hr].
  set (med := rmedian sort s). pose proof (rmedian_ok sort s Hs Hne) as Hm. fold med in Hm. exists med. split; auto. split; [|split].
  - intros i Hi. rewrite flags_nth. rewrite (Rmult_comm med). tauto.
  - intros Ht. assert (Hq : (0 <= 1)%Q) by discriminate.
    (* the flags are among those for the threshold 1 *)
    assert (H1 : pred_probs_issues sort (Some 1%Q) s = Ok (map (below_R (Q2R 1 * rmedian sort s)) s, s)) by reflexivity.
    destruct (C86_flags_full _ _ _ _ _ Hs Hne H1) as [_ [_ [m' [_ [_ [F _]]]]]].
    specialize (F ltac:(intros x Hx; apply Hr in Hx; lra) ltac:(cbn; apply Qle_refl)).
    assert (Hmed : 0 <= med) by (eapply median_nonneg; [|exact Hm]; intros x Hx; apply Hr in Hx; lra).
    assert (L : (flagged_count (map (below_R (med * thr)) s) <= flagged_count (map (below_R (Q2R 1 * rmedian sort s)) s))%nat).
    { fold med. replace (Q2R 1) with 1 by (unfold Q2R; cbn; lra). assert (Hle : med * thr <= 1 * med) by nra. revert Hle. generalize (med * thr), (1 * med). clear.
      intros u v Huv. unfold flagged_count. induction s as [|x s IH]; cbn [map filter]; auto.
      assert (X : below_R u x = true -> below_R v x = true).
      { unfold below_R. destruct (Rlt_dec x u), (Rlt_dec x v); auto. intros _. exfalso. lra. }
      destruct (below_R u x) eqn:E1, (below_R v x) eqn:E2; cbn [length]; try lia. }
    lia.
  - intros Ht. unfold flagged_count. assert (Hmed : 0 <= med) by (eapply median_nonneg; [|exact Hm]; intros x Hx; apply Hr in Hx; lra).
    assert (G : forall x, In x s -> below_R (med * thr) x = false). { intros x Hx. apply Hr in Hx. unfold below_R. destruct (Rlt_dec x (med * thr)); auto. assert (0 <= med * - thr) by (apply Rmult_le_pos; lra). lra. }
    revert G. generalize (med * thr). clear. intros u G. induction s as [|x s IH]; cbn; auto. rewrite G by (left; auto). apply IH. intros; apply G; right; auto.
Qed.
Lemma C89_input_full sort custom thr f p y m :
  find_regression_issues sort custom thr None None y m = Raise ValueError /\
  find_regression_issues sort true thr None p y m = Raise ValueError /\
  find_regression_issues sort true thr (Some f) p y m = find_regression_issues sort true thr (Some f) None y m /\
  (forall q, p = Some q -> find_regression_issues sort false thr (Some f) p y m = find_regression_issues sort false thr None p y m) /\
  (forall r, find_regression_issues sort custom thr (Some f) p y m = Ok r -> y <> None) /\
  (forall q flags s g, p = Some q -> find_regression_issues sort false thr None p (Some g) m = Ok (flags, s, rmean s) <-> p = Some q /\ find_issues_with_predictions sort q g thr m = Ok (flags, s)).
Proof.
  split; [auto|]. split; [destruct p; auto|]. split. { destruct p, y; auto. } split. { intros q ->. destruct y; auto. } split.
  { intros r H ->. destruct p; discriminate. }
  intros q flags s g Hp. subst p. cbn. destruct (find_issues_with_predictions sort q g thr m) as [[fl sc]|e]; cbn.
  - split. { intros H. injection H as -> -> _. auto. } intros [_ H]. injection H as -> ->. auto.
  - split; [discriminate|]. intros [_ H]. discriminate.
Qed.

Lemma median_odd_exp (r : list R) h : length r = (2 * h + 1)%nat -> forall m m', is_median_R r m -> is_median_R (map (fun x => exp (- x)) r) m' -> m' = exp (- m).
Proof.
  intros L m m' [s [P [S M]]] [s' [P' [S' M']]].
  assert (E : s' = rev (map (fun x => exp (- x)) s)).
  { apply sorted_unique_R; auto.
    - clear - S. induction S as [|x s S IH F]; cbn; [constructor|]. 
      assert (A : forall (u : list R) z, StronglySorted Rle u -> (forall y, In y u -> y <= z) -> StronglySorted Rle (u ++ [z])).
      { clear. intros u z. induction 1 as [|y u Su IHu Fu]; cbn; intros H; [repeat constructor|]. constructor; [apply IHu; auto|].
        apply Forall_app. split; auto. }
      apply A; auto. intros y Hy. apply in_rev, in_map_iff in Hy. destruct Hy as [z [<- Hz]]. rewrite Forall_forall in F. specialize (F z Hz).
      destruct F as [F| ->]; [left; apply exp_increasing; lra|lra].
    - rewrite P'. rewrite <- Permutation_rev. apply Permutation_map. symmetry. auto. }
  assert (Ls : length s = (2 * h + 1)%nat) by (rewrite (Permutation_length P); auto).
  destruct M as [ [k [Lk ->]] | [k [Lk _]] ]; [|lia]. rewrite map_length in M'. destruct M' as [ [k' [Lk' ->]] | [k' [Lk' _]] ]; [|lia].
  assert (k = h) by lia. assert (k' = h) by lia. subst k k' s'.
  rewrite rev_nth by (rewrite map_length; lia). rewrite map_length, Ls. replace (2 * h + 1 - Datatypes.S h)%nat with h by lia.
  rewrite nth_map_gen with (d' := 0) by lia. auto.
Qed.
Lemma C89_residual_full sort l p thr flags s h : sorts_R sort -> length p = length l -> length l = (2 * h + 1)%nat -> 0 < thr ->
  find_issues_with_predictions sort (vec p) (vec l) thr (Some Residual) = Ok (flags, s) ->
  exists med, is_median_R (map (fun i => Rabs (nth i l 0 - nth i p 0)) (seq 0 (length l))) med /\
    forall i, (i < length l)%nat -> (flagged flags i <-> med - ln thr < Rabs (nth i l 0 - nth i p 0)).
Proof.
  intros Hs L Lh Ht H. destruct (C89_flags_full _ _ _ _ _ _ _ Hs (vec_wf _) (vec_wf _) H) as [G [Lf [m' [Hm' [F _]]]]].
  rewrite vec_outcome in G. destruct (_ || _)%bool; [discriminate|]. rewrite L, Nat.eqb_refl in G. cbn in G. injection G as <-.
  set (r := map (fun i => Rabs (nth i l 0 - nth i p 0)) (seq 0 (length l))).
  assert (E : residual_scores l p = map (fun x => exp (- x)) r).
  { unfold r. rewrite map_map. apply (nth_ext _ _ 0 0).
    - rewrite map_length, seq_length. unfold residual_scores. rewrite map_length, residuals_len; auto.
    - intros i Hi. unfold residual_scores in Hi. rewrite map_length, residuals_len in Hi by auto. rewrite residual_nth by auto.
      rewrite nth_map_gen with (d' := 0%nat) by (rewrite seq_length; auto). rewrite seq_nth by auto. cbn. rewrite Rabs_minus_sym. auto. }
  assert (Lr : length r = (2 * h + 1)%nat) by (unfold r; rewrite map_length, seq_length; auto).
  assert (Rne : r <> []) by (intros E'; rewrite E' in Lr; cbn in Lr; lia).
  exists (rmedian sort r). pose proof (rmedian_ok sort r Hs Rne) as Hm. split; auto. intros i Hi.
  rewrite E in Hm'. pose proof (median_odd_exp r h Lr _ _ Hm Hm') as ->.
  rewrite F by (unfold residual_scores; rewrite map_length, residuals_len; auto). rewrite residual_nth by auto.
  rewrite Rabs_minus_sym. rewrite <- (exp_ln thr Ht) at 1. rewrite <- exp_plus. split; intros X.
  - apply exp_lt_inv in X. lra.
  - apply exp_increasing. lra.
Qed.
