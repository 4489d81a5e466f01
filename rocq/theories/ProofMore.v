(** * Further lemmas for C16, C47, C50 and C81 *)
From Coq Require Import String QArith Qabs Qround List Permutation Sorted ZArith Bool Arith Lia Lqa Setoid Morphisms.
From Verif Require Import Base BaseFacts ModelUtil ModelCount ModelRank ModelFilter ModelCV ModelDataset ModelDatalab
     SpecCount SpecFilter SpecRank SpecCV SpecDataset SpecDatalab ProofUtil ProofCount ProofFilter ProofRank ProofCV
     ProofDataset ProofDatalab ProofDatalab2 ProofDatalab3.
Import ListNotations.
Open Scope Q_scope.
Opaque TINY_VALUE.

(** ** C16: custom weights *)
Lemma ens_prepare K labels pps method adjust : pps <> [] ->
  (forall pp, In pp pps -> dataset K labels pp) -> two_classes labels ->
  (exists u, rmap (fun pp => assert_valid_inputs labels pp K false) pps = Ok u) /\
  (exists sl, rmap (fun pp => get_label_quality_scores labels pp K method adjust) pps = Ok sl).
Proof.
  intros Hne Hd H2.
  assert (HK : (2 <= K)%nat).
  { destruct H2 as (a & b & Ha & Hb & Hab). destruct pps as [|p0 pps]; [congruence|].
    pose proof (Hd p0 (or_introl eq_refl)) as Hd0.
    pose proof (ds_lab _ _ _ Hd0 a Ha). pose proof (ds_lab _ _ _ Hd0 b Hb). lia. }
  clear Hne. split.
  - induction pps as [|p pps IH]; simpl; eauto.
    rewrite (valid_ok K) by (auto; apply Hd; simpl; auto). cbn [rbind].
    destruct IH as (u & ->); [intros; apply Hd; simpl; auto|]. cbn [rbind]. eauto.
  - induction pps as [|p pps IH]; simpl; eauto.
    destruct (scores_ok K labels p method adjust) as (s & -> & _); auto. { apply Hd; simpl; auto. } cbn [rbind].
    destruct IH as (u & ->); [intros; apply Hd; simpl; auto|]. cbn [rbind]. eauto.
Qed.

Lemma C16_custom_full : forall K labels pps method adjust w,
  (forall pp, In pp pps -> dataset K labels pp) -> two_classes labels ->
  (length w = length pps -> pps <> [] ->
   exists ens scores, get_label_quality_ensemble_scores labels pps K method adjust (Custom w) = Ok ens /\
     Forall2 (fun pp s => get_label_quality_scores labels pp K method adjust = Ok s) pps scores /\
     length ens = length labels /\
     forall e, (e < length labels)%nat ->
       nth e ens 0 == qsum (tab (length pps) (fun i => nth e (nth i scores []) 0 * nth i w 0))) /\
  (pps <> [] -> length w <> length pps ->
   get_label_quality_ensemble_scores labels pps K method adjust (Custom w) = Raise AssertionError) /\
  (forall weighting, get_label_quality_ensemble_scores labels [] K method adjust weighting = Raise AssertionError).
Proof.
  intros K labels pps method adjust w Hd H2. refine (conj _ (conj _ _)).
  - intros Hw Hne. destruct (ens_prepare K labels pps method adjust Hne Hd H2) as ((u & E1) & (sl & E2)).
    unfold get_label_quality_ensemble_scores.
    destruct pps as [|p0 pps0] eqn:Epps; [congruence|]. rewrite <- Epps in *.
    rewrite E1. cbn [rbind]. rewrite E2. cbn [rbind]. rewrite Hw, Nat.eqb_refl. cbn [negb].
    apply rmap_ok in E2. pose proof (Forall2_len _ _ _ E2) as Hlen.
    eexists. exists sl. split; [reflexivity|]. split; auto. rewrite map_length, tab_length. split; auto.
    intros e He. rewrite (nth_map_gen _ _ _ _ []) by (rewrite tab_length; auto). rewrite nth_tab by auto.
    rewrite qsum_as_tab, map_length, combine_length, map_length.
    replace (Nat.min (length sl) (length w)) with (length pps) by lia.
    apply qsum_tab_ext. intros i Hi. rewrite (nth_map_gen _ _ _ _ (0, 0)) by (rewrite combine_length, map_length; lia).
    rewrite combine_nth by (rewrite map_length; lia). cbn [fst snd].
    rewrite (nth_map_gen (fun s => nth e s 0) sl i 0 []) by lia. reflexivity.
  - intros Hne Hw. destruct (ens_prepare K labels pps method adjust Hne Hd H2) as ((u & E1) & (sl & E2)).
    unfold get_label_quality_ensemble_scores.
    destruct pps as [|p0 pps0] eqn:Epps; [congruence|]. rewrite <- Epps in *.
    rewrite E1. cbn [rbind]. rewrite E2. cbn [rbind]. destruct (Nat.eqb_spec (length w) (length pps)); [congruence|]. reflexivity.
  - intros weighting. reflexivity.
Qed.

(** ** C47: the confident joint of the cross-validated probabilities *)
Lemma C47_joint_full : forall A (d : A) fit_predict so srt torch X labels folds thr cj pp,
  let K := length (unique labels) in
  estimate_confident_joint_and_cv_pred_proba d fit_predict so srt torch X labels folds thr false = Ok (cj, pp) ->
  cv_pred_probs d fit_predict so torch X labels folds = Ok pp /\
  (dataset K labels pp -> (forall t, thr = Some t -> length t = K) ->
   forall i j, (i < K)%nat -> (j < K)%nat ->
     exists n, holds_for (length labels)
         (fun e => nth e labels 0%nat = i /\
            counted_as (match thr with Some t => t | None => get_confident_thresholds labels pp K end) (nth e pp []) j) n /\
       zget cj i j = if Nat.eqb i j then Z.max 1 (Z.of_nat n) else Z.of_nat n).
Proof.
  intros A d fit_predict so srt torch X labels folds thr cj pp K E.
  unfold estimate_confident_joint_and_cv_pred_proba in E.
  destruct (cv_pred_probs d fit_predict so torch X labels folds) as [p|]; cbn [rbind] in E; [|discriminate].
  fold K in E. destruct (compute_confident_joint srt labels p K thr false) as [r|] eqn:Ec; cbn [rbind] in E; [|discriminate].
  injection E as E1 E2. subst p. split; auto. intros Hd Ht i j Hi Hj.
  destruct (compute_confident_joint_full srt K labels pp thr Hd Ht) as (cj' & idx & Ec' & H & _).
  rewrite Ec in Ec'. injection Ec' as ->. cbn [fst] in E1. subst cj'. apply H; auto.
Qed.

(** ** C50: the overlap table from a confident joint alone *)
Lemma C50_counts_full : forall srt K asym a cj rows, argsort_ok srt ->
  length cj = K -> (forall r, In r cj -> length r = K) -> TINY_VALUE <= qsum (map qsum cj) ->
  in_labels a = None -> in_joint a = None -> in_num_examples a = None -> in_confident_joint a = Some cj ->
  find_overlapping_classes srt asym a = Ok rows ->
  forall r, In r rows ->
    rounds_to (if asym then mget cj (overlap_a r) (overlap_b r)
               else mget cj (overlap_a r) (overlap_b r) + mget cj (overlap_b r) (overlap_a r)) (overlap_num r).
Proof.
  intros srt K asym a cj rows Hs HK Hrow Ht H1 H2 H3 H4 E r Hr.
  set (tot := qsum (map qsum cj)) in *.
  set (m := map (map (fun x => x / clip_lo TINY_VALUE tot)) cj).
  set (a' := {| in_labels := None; in_pred_probs := in_pred_probs a; in_K := in_K a; in_num_examples := Some tot;
                in_joint := Some m; in_confident_joint := None |}).
  assert (E' : find_overlapping_classes srt asym a' = Ok rows).
  { rewrite <- E. unfold find_overlapping_classes, the_joint. rewrite H1, H2, H3, H4. reflexivity. }
  assert (Lm : length m = K) by (unfold m; rewrite map_length; auto).
  assert (Rm : forall x, In x m -> length x = K).
  { intros x Hx. unfold m in Hx. apply in_map_iff in Hx as (y & <- & Hy). rewrite map_length. auto. }
  destruct (find_overlapping_spec srt K asym a' m tot rows Hs Lm Rm eq_refl eq_refl E') as (_ & A & _ & B & _).
  destruct (B r Hr) as (P & N).
  assert (Hin : In (overlap_a r, overlap_b r) (map (fun r => (overlap_a r, overlap_b r)) rows)).
  { apply (in_map (fun r => (overlap_a r, overlap_b r)) rows r Hr). }
  apply A in Hin as (Ha & Hb & _). set (x := overlap_a r) in *. set (y := overlap_b r) in *.
  pose proof TINY_pos as TP.
  assert (G : forall i j, (i < K)%nat -> (j < K)%nat -> mget m i j * tot == mget cj i j).
  { intros i j Hi Hj. unfold m, mget. rewrite (nth_map_gen _ cj i [] []) by lia.
    rewrite (nth_map_gen _ (nth i cj []) j 0 0) by (rewrite (Hrow (nth i cj [])) by (apply nth_In; lia); lia).
    rewrite clip_lo_id by auto. field. lra. }
  assert (V : overlap_prob r * tot == if asym then mget cj x y else mget cj x y + mget cj y x).
  { rewrite P. destruct asym; [apply G; auto|]. unfold pr_confused. rewrite Qmult_plus_distr_l, !G by auto. reflexivity. }
  destruct N as (N1 & N2). split.
  - rewrite <- V. exact N1.
  - intros Q. apply N2. rewrite V. exact Q.
Qed.

(** ** C81: the columns *)
Lemma C81_columns_full V (lab : imagelab V) types st st' : collect_imagelab lab types st = Ok st' ->
  let replaced c := exists t, In t types /\ In t (map r_type (issue_summary st)) /\ (c = flag_column t \/ c = score_column t) in
  (forall c, replaced c -> lookup c (issues st') = lookup c (i_frame lab)) /\
  (forall c, ~ replaced c -> In c (keys (issues st)) -> lookup c (issues st') = lookup c (issues st)) /\
  (forall c, ~ In c (keys (issues st)) -> lookup c (issues st') = lookup c (i_frame lab)).
Proof.
  intros H replaced. unfold collect_imagelab in H. destruct (negb (forallb _ _)) eqn:Ef; [discriminate|].
  destruct (rmap _ types) as [infos|]; [|discriminate]. cbn [rbind] in H. injection H as <-. cbn [issues].
  set (ov := filter (fun t => smem t types) (map (@r_type) (issue_summary st))) in *.
  set (ow := (map flag_column ov ++ map score_column ov)%list) in *.
  set (kept := filter (fun c => negb (smem (fst c) ow)) (issues st)).
  assert (Hov : forall t, In t ov <-> In t types /\ In t (map (@r_type) (issue_summary st))).
  { intros t. unfold ov. rewrite filter_In, smem_iff. tauto. }
  assert (Hrep : forall c, replaced c <-> smem c ow = true).
  { intros c. rewrite smem_iff. unfold ow. rewrite in_app_iff, !in_map_iff. split.
    - intros (t & A & B & [->| ->]); [left|right]; exists t; rewrite Hov; auto.
    - intros [(t & <- & A)|(t & <- & A)]; exists t; apply Hov in A as (A & B); auto. }
  assert (Lk : forall c, lookup c kept = if smem c ow then None else lookup c (issues st)).
  { intros c. unfold kept. rewrite (lookup_filter_key (fun k => negb (smem k ow))). destruct (smem c ow); reflexivity. }
  assert (Ln : forall c, lookup c (filter (fun x => negb (smem (fst x) (keys kept))) (i_frame lab)) =
                         if smem c (keys kept) then None else lookup c (i_frame lab)).
  { intros c. rewrite (lookup_filter_key (fun k => negb (smem k (keys kept)))). destruct (smem c (keys kept)); reflexivity. }
  assert (Hk : forall c, lookup c kept = None -> smem c (keys kept) = false).
  { intros c E. apply lookup_none in E. destruct (smem c (keys kept)) eqn:E2; auto. apply smem_iff in E2. contradiction. }
  refine (conj _ (conj _ _)).
  - intros c Hc. apply Hrep in Hc. rewrite lookup_app, Lk, Hc, Ln, Hk; [reflexivity|]. now rewrite Lk, Hc.
  - intros c Hc Hi. rewrite lookup_app, Lk. destruct (smem c ow) eqn:E; [exfalso; apply Hc, Hrep; auto|].
    destruct (lookup c (issues st)) eqn:El; auto. apply lookup_none in El. contradiction.
  - intros c Hi. apply lookup_none in Hi. assert (N : lookup c kept = None).
    { rewrite Lk, Hi. destruct (smem c ow); reflexivity. }
    rewrite lookup_app, N, Ln, Hk by auto. reflexivity.
Qed.
