(** * C16: the exact weights of the ensemble scores *)
From Coq Require Import QArith List Bool Arith Lia Lqa.
From Verif Require Import Base BaseFacts ModelUtil ModelCount ModelRank SpecCount SpecFilter ProofCount ProofRank.
Import ListNotations.
Open Scope Q_scope.

Lemma accuracy_spec labels pp : length labels = length pp -> labels <> [] -> (forall r, In r pp -> r <> []) ->
  exists n, holds_for (length labels) (fun e => most_likely (row_of pp e) (label_of labels e)) n /\
    model_accuracy labels pp * Qnat (length labels) == Qnat n.
Proof.
  intros HL Hne Hr.
  exists (length (filter (fun e => Nat.eqb (argmax (row_of pp e)) (label_of labels e)) (seq 0 (length labels)))). split.
  - exists (filter (fun e => Nat.eqb (argmax (row_of pp e)) (label_of labels e)) (seq 0 (length labels))). split; [|split].
    + apply NoDup_filter, seq_NoDup.
    + reflexivity.
    + intros e. rewrite filter_In, in_seq, Nat.eqb_eq. split.
      * intros [H1 H2]. split; [lia|]. rewrite <- H2. apply argmax_spec. apply Hr. apply nth_In. lia.
      * intros [H1 H2]. split; [lia|]. now apply argmax_unique.
  - unfold model_accuracy, qmean. rewrite map_length, combine_length, <- HL, Nat.min_id.
    assert (P : 0 < Qnat (length labels)) by (apply Qnat_pos; destruct labels; [congruence|cbn; lia]).
    rewrite Qmult_comm, Qmult_div_r by lra. clear Hne P Hr.
    revert pp HL. induction labels as [|l labels IH]; intros [|r pp] HL; try discriminate; [reflexivity|].
    cbn [combine map fst snd length seq filter]. rewrite qsum_cons. rewrite IH by (cbn in HL; lia).
    assert (E : length (filter (fun e => Nat.eqb (argmax (row_of (r :: pp) e)) (label_of (l :: labels) e)) (seq 1 (length labels))) =
                length (filter (fun e => Nat.eqb (argmax (row_of pp e)) (label_of labels e)) (seq 0 (length labels)))).
    { rewrite <- seq_shift. clear. induction (seq 0 (length labels)) as [|e t IH]; [reflexivity|]. cbn [map filter].
      change (row_of (r :: pp) (S e)) with (row_of pp e). change (label_of (l :: labels) (S e)) with (label_of labels e).
      destruct (Nat.eqb _ _); cbn [length]; now rewrite IH. }
    change (row_of (r :: pp) 0) with r. change (label_of (l :: labels) 0) with l.
    destruct (Nat.eqb (argmax r) l); cbn [length]; rewrite E; rewrite ?Qnat_S; lra.
Qed.

Lemma weighted_rows w sl e : length w = length sl ->
  qsum (map (fun sw => fst sw * snd sw) (combine (map (fun s => nth e s 0) sl) w)) ==
  qsum (tab (length sl) (fun i => nth i w 0 * nth e (nth i sl []) 0)).
Proof.
  revert w. induction sl as [|s sl IH]; intros [|x w] H; try discriminate; [reflexivity|].
  cbn [map combine fst snd length]. unfold tab. cbn [seq map]. rewrite !qsum_cons. cbn [nth].
  rewrite IH by (cbn in H; lia). unfold tab. rewrite <- seq_shift, map_map. cbn [nth]. lra.
Qed.

Lemma formula_full : forall K labels pps method adjust ens,
  (get_label_quality_ensemble_scores labels pps K method adjust Uniform = Ok ens ->
   exists scores, Forall2 (fun pp s => get_label_quality_scores labels pp K method adjust = Ok s) pps scores /\
     length ens = length labels /\
     forall e, (e < length labels)%nat -> nth e ens 0 * Qnat (length pps) == qsum (map (fun s => nth e s 0) scores)) /\
  ((forall pp, In pp pps -> dataset K labels pp) -> get_label_quality_ensemble_scores labels pps K method adjust Accuracy = Ok ens ->
   exists scores accs, Forall2 (fun pp s => get_label_quality_scores labels pp K method adjust = Ok s) pps scores /\
     Forall2 (fun pp a => exists n, holds_for (length labels) (fun e => most_likely (row_of pp e) (label_of labels e)) n /\
                                    a * Qnat (length labels) == Qnat n) pps accs /\
     0 < qsum accs /\ length ens = length labels /\
     forall e, (e < length labels)%nat ->
       nth e ens 0 * qsum accs == qsum (tab (length pps) (fun i => nth i accs 0 * nth e (nth i scores []) 0))).
Proof.
  intros K labels pps method adjust ens. unfold get_label_quality_ensemble_scores.
  destruct pps as [|p0 pps0]; [split; intros; discriminate|]. set (pps := p0 :: pps0).
  destruct (rmap (fun pp => assert_valid_inputs labels pp K false) pps); cbn [rbind]; [|split; intros; discriminate].
  destruct (rmap (fun pp => get_label_quality_scores labels pp K method adjust) pps) as [sl|] eqn:E1; cbn [rbind]; [|split; intros; discriminate].
  apply rmap_ok in E1. pose proof (Forall2_len _ _ _ E1) as Hlen.
  assert (Hp : 0 < Qnat (length pps)) by (apply Qnat_pos; unfold pps; cbn; lia).
  split.
  - intros H. injection H as <-. exists sl. split; [auto|]. rewrite map_length, tab_length. split; [auto|].
    intros e He. rewrite (nth_map_gen _ _ _ _ []) by (rewrite tab_length; auto). rewrite nth_tab by auto.
    unfold qmean. rewrite map_length, <- Hlen. rewrite Qmult_comm, Qmult_div_r by lra. reflexivity.
  - intros HD H. set (accs := map (model_accuracy labels) pps) in *.
    destruct (Qeq_bool (qsum accs) 0) eqn:Eq; [discriminate|]. apply Qeq_bool_neq in Eq.
    match type of H with Ok ?x = Ok _ => assert (Hens : ens = x) by congruence end. clear H. subst ens.
    assert (Hpos : 0 < qsum accs).
    { assert (0 <= qsum accs) by (apply qsum_map_nonneg; intros; apply accuracy_nonneg).
      apply Qle_lteq in H as [|H]; auto. symmetry in H. contradiction. }
    exists sl, accs. split; [auto|]. split; [|split; [auto|split]].
    + unfold accs. clear - HD. induction pps as [|p t IH]; constructor; [|apply IH; intros; apply HD; right; auto].
      pose proof (HD p (or_introl eq_refl)) as D. apply accuracy_spec; [apply D|apply D|].
      intros r Hr Hnil. subst r. apply (ds_row _ _ _ D) in Hr. cbn in Hr.
      destruct labels as [|l labels]; [apply (ds_ne _ _ _ D); auto|]. pose proof (ds_lab _ _ _ D l (or_introl eq_refl)). lia.
    + rewrite map_length, tab_length. reflexivity.
    + intros e He. rewrite (nth_map_gen _ _ _ _ []) by (rewrite tab_length; auto). rewrite nth_tab by auto.
      set (w := map (fun a => a / qsum accs) accs).
      assert (Lw : length w = length sl) by (unfold w, accs; rewrite !map_length; auto).
      cbv beta. fold w. rewrite (weighted_rows w sl e Lw). rewrite <- Hlen.
      transitivity (qsum (map (fun i => nth i w 0 * nth e (nth i sl []) 0 * qsum accs) (seq 0 (length pps)))).
      { rewrite qsum_map_scale_r. reflexivity. }
      unfold tab. apply qsum_map_ext. intros i Hi. apply in_seq in Hi. unfold w.
      rewrite (nth_map_gen (fun a => a / qsum accs) _ _ _ 0) by (unfold accs; rewrite map_length; lia).
      field. lra.
Qed.
