(** * The numbering of the classes: Datalab's checks and adjusted label quality scores *)
From Coq Require Import QArith List ZArith Bool Arith Lia Lqa Permutation.
From Verif Require Import Base BaseFacts ModelUtil ModelCount ModelRank ModelChecks SpecCount SpecRank SpecChecks SpecSymmetry SpecRename SpecNumbering
  ProofUtil ProofCount ProofRank ProofChecks ProofSymmetry ProofShuffle ProofRows ProofRename ProofRename2 ProofImage ProofNumbering.
Import ListNotations.
Open Scope Q_scope.

Section Names.
Variables (K : nat) (names : list nat).
Hypothesis Pn : Permutation names (seq 0 K).
Let s k := nth k names 0%nat.

Lemma count_renamed labels k : (forall l, In l labels -> (l < K)%nat) -> (k < K)%nat -> count (s k) (renamed_labels names labels) = count k labels.
Proof.
  intros Hlab Hk. unfold count, renamed_labels. induction labels as [|l ls IH]; [reflexivity|]. cbn [map count_occ].
  rewrite IH by (intros; apply Hlab; now right). assert (Hl : (l < K)%nat) by (apply Hlab; now left). fold (s l).
  destruct (Nat.eq_dec (s l) (s k)) as [E|N], (Nat.eq_dec l k) as [E'|N']; try reflexivity.
  - elim N'. now apply (name_inj K names Pn).
  - subst. congruence.
Qed.
Lemma nmax_all labels : (forall l, In l labels -> (l < K)%nat) -> (forall c, (c < K)%nat -> In c labels) -> labels <> [] -> (nmax labels + 1 = K)%nat.
Proof.
  intros H1 H2 N. assert (A : (nmax labels < K)%nat) by (apply H1; now apply nmax_in). assert (B := nmax_ge labels (K - 1)). specialize (B (H2 (K - 1)%nat ltac:(lia))). lia.
Qed.
Lemma rarest_of labels : labels <> [] -> (forall l, In l labels -> (l < K)%nat) -> (forall c, (c < K)%nat -> In c labels) ->
  forall r, (r < K)%nat -> (forall c, (c < K)%nat -> c <> r -> (count r labels < count c labels)%nat) -> argmin (imb_probs labels) = r.
Proof.
  intros Hl H1 H2 r Hr Hu. apply (rarest_unique labels (nmax labels + 1)); [now apply imb_rarest|].
  rewrite (nmax_all labels) by auto. assert (P : 0 < Qnat (length labels)) by (apply Qnat_pos; destruct labels; [congruence|cbn; lia]).
  assert (L : forall c, (c < K)%nat -> c <> r -> fraction r labels < fraction c labels).
  { intros c Hc N. rewrite !fraction_count. apply Qlt_shift_div_l; [exact P|]. unfold Qdiv. rewrite <- Qmult_assoc, (Qmult_comm (/ _)), Qmult_inv_r by lra.
    rewrite Qmult_1_r. specialize (Hu c Hc N). unfold Qnat, Qlt. cbn. lia. }
  split; [exact Hr|]. split.
  - intros c Hc. destruct (Nat.eq_dec c r) as [->|N]; [apply Qle_refl|]. apply Qlt_le_weak, L; auto.
  - intros c Hc. apply L; lia.
Qed.
Lemma imbalance_renamed threshold labels : labels <> [] -> (forall l, In l labels -> (l < K)%nat) -> (forall c, (c < K)%nat -> In c labels) -> one_rarest K labels ->
  class_imbalance threshold K (renamed_labels names labels) = class_imbalance threshold K labels.
Proof.
  intros Hl H1 H2 (r & Hr & Hu). set (L' := renamed_labels names labels). assert (Hl' : L' <> []) by (unfold L', renamed_labels; destruct labels; [congruence|discriminate]).
  assert (H1' : forall l, In l L' -> (l < K)%nat) by (intros l I; apply in_map_iff in I as (k & <- & Hk); apply (name_lt K names Pn); auto).
  assert (H2' : forall c, (c < K)%nat -> In c L').
  { intros c Hc. destruct (name_onto K names Pn c Hc) as (k & Hk & <-). apply in_map_iff. exists k. auto. }
  pose proof (rarest_of labels Hl H1 H2 r Hr Hu) as E.
  assert (E' : argmin (imb_probs L') = s r).
  { apply rarest_of; auto; [apply (name_lt K names Pn); auto|]. intros c Hc N. destruct (name_onto K names Pn c Hc) as (k & Hk & <-).
    unfold L'. fold (s k). rewrite (count_renamed labels r) by auto. rewrite (count_renamed labels k) by auto. apply Hu; [auto|]. intros ->. now apply N. }
  assert (G : forall l, l <> [] -> class_imbalance threshold K l = match K with O => Raise ZeroDivision | _ =>
      let p := nth (argmin (imb_probs l)) (imb_probs l) 0 in
      do x <- make_summary p ; Ok (Report (map (fun y => Qltb p (threshold * (1 / Qnat K)) && Nat.eqb y (argmin (imb_probs l))) l)
        (map (fun y => if Nat.eqb y (argmin (imb_probs l)) then p else 1) l) x) end).
  { intros [|a t] N; [congruence|]. reflexivity. }
  rewrite !G by auto. rewrite E, E'. rewrite !nth_imb_probs; auto.
  2:{ rewrite nmax_all; auto. } 2:{ rewrite nmax_all; auto. apply (name_lt K names Pn); auto. }
  assert (fraction (s r) L' = fraction r labels) as ->.
  { rewrite !fraction_count. unfold L'. rewrite (count_renamed labels r) by auto. unfold renamed_labels. now rewrite map_length. }
  destruct K as [|K0]; [reflexivity|]. cbv zeta. destruct (make_summary _) as [x|e]; [|reflexivity]. cbn [rbind]. f_equal. unfold L', renamed_labels. rewrite !map_map.
  assert (Q : forall y, In y labels -> Nat.eqb (nth y names 0%nat) (s r) = Nat.eqb y r).
  { intros y Hy. apply eq_true_iff_eq. rewrite !Nat.eqb_eq. split; [|intros ->; reflexivity]. intros EE. apply (name_inj _ names Pn y r); auto. }
  f_equal; apply map_ext_in; intros y Hy; now rewrite Q.
Qed.

Lemma shapley_renamed labels k y idx : (forall l, In l labels -> (l < K)%nat) -> (y < K)%nat -> (forall j, In j idx -> (j < length labels)%nat) ->
  shapley_row (renamed_labels names labels) k (s y) idx = shapley_row labels k y idx.
Proof.
  intros Hlab Hy Hidx. unfold shapley_row. unfold renamed_labels at 2. rewrite map_length. f_equal. apply map_ext_in. intros j Hj.
  unfold renamed_labels. rewrite (nth_map_gen _ _ _ _ 0%nat) by auto. fold (s (nth j labels 0%nat)).
  assert (Nat.eqb (s (nth j labels 0%nat)) (s y) = Nat.eqb (nth j labels 0%nat) y) as ->; [|reflexivity].
  apply eq_true_iff_eq. rewrite !Nat.eqb_eq. split; [|intros ->; reflexivity]. intros E. apply (name_inj K names Pn); auto. apply Hlab, nth_In. auto.
Qed.
Lemma valuation_renamed threshold k w nb labels : (forall l, In l labels -> (l < K)%nat) -> (forall idx j, In idx nb -> In j idx -> (j < length labels)%nat) ->
  data_valuation_check threshold k w nb (renamed_labels names labels) = data_valuation_check threshold k w nb labels.
Proof.
  intros Hlab Hnb. unfold data_valuation_check, data_shapley_knn, knn_shapley_score.
  assert (map (fun p => shapley_row (renamed_labels names labels) k (fst p) (snd p)) (combine (renamed_labels names labels) nb) =
          map (fun p => shapley_row labels k (fst p) (snd p)) (combine labels nb)) as ->; [|unfold renamed_labels; now rewrite map_length].
  unfold renamed_labels at 2. replace nb with (map (fun x : list nat => x) nb) at 1 by apply map_id. rewrite ProofRename2.combine_map2, map_map. apply map_ext_in. intros (y & idx) I. cbn [fst snd].
  apply in_combine_l in I as I1. apply in_combine_r in I as I2. apply shapley_renamed; eauto.
Qed.

Lemma select_confidence mask : forall labels pp pp', (forall l, In l labels -> (l < K)%nat) -> (forall r, In r pp -> length r = K) -> Forall2 (renamed_row names) pp pp' ->
  get_self_confidence (select mask (renamed_labels names labels)) (select mask pp') = get_self_confidence (select mask labels) (select mask pp).
Proof.
  unfold get_self_confidence, renamed_labels. induction mask as [|b m IH]; intros labels pp pp' Hlab Hrow HF; [reflexivity|].
  destruct labels as [|l ls]; [reflexivity|]. destruct HF as [|r r' p p' H HF]; [destruct b; cbn; now rewrite ?combine_nil|].
  assert (E := IH ls p p' ltac:(intros; apply Hlab; now right) ltac:(intros; apply Hrow; now right) HF).
  destruct b; [|exact E]. change (nth (nth l names 0%nat) r' 0 :: map (fun lr => nth (fst lr) (snd lr) 0) (combine (select m (map (fun l0 => nth l0 names 0%nat) ls)) (select m p')) =
    nth l r 0 :: map (fun lr => nth (fst lr) (snd lr) 0) (combine (select m ls) (select m p))). f_equal; [|exact E]. apply H. rewrite Hrow by now left. apply Hlab. now left.
Qed.
Lemma underperforming_renamed so threshold m ids labels pp pp' : (forall l, In l labels -> (l < K)%nat) -> (forall r, In r pp -> length r = K) -> Forall2 (renamed_row names) pp pp' ->
  underperforming_check so threshold m ids (renamed_labels names labels) pp' = underperforming_check so threshold m ids labels pp.
Proof.
  intros Hlab Hrow HF. unfold underperforming_check. destruct (filter_cluster_ids so m ids) as [u|e]; [|reflexivity]. cbn [rbind]. destruct u as [|z u]; [reflexivity|].
  assert (P : forall mask, performance mask (renamed_labels names labels) pp' = performance mask labels pp) by (intros mk; unfold performance; now rewrite (select_confidence mk labels pp pp')).
  unfold get_underperforming_clusters. rewrite P.
  assert (F : forall l st mean, fold_left (visit mean (fun c => performance (map (Z.eqb c) ids) (renamed_labels names labels) pp')) l st =
    fold_left (visit mean (fun c => performance (map (Z.eqb c) ids) labels pp)) l st).
  { induction l as [|c l IH]; intros st mean; [reflexivity|]. cbn [fold_left]. rewrite IH. f_equal. unfold visit. destruct st as ((a & b) & d). now rewrite P. }
  rewrite F. reflexivity.
Qed.

Lemma unique_all labels : (forall l, In l labels -> (l < K)%nat) -> (forall c, (c < K)%nat -> In c labels) -> labels <> [] -> unique labels = seq 0 K.
Proof.
  intros H1 H2 N. unfold unique. replace (S (nmax labels)) with K by (pose proof (nmax_all labels H1 H2 N); lia).
  rewrite <- (ProofImage.filter_all_true (fun v => mem v labels) (seq 0 K)) at 2; [reflexivity|]. intros x Hx. apply in_seq in Hx. apply mem_iff, H2. lia.
Qed.
Lemma features_probs_renamed k nb labels : labels <> [] -> (forall l, In l labels -> (l < K)%nat) -> (forall c, (c < K)%nat -> In c labels) ->
  (forall idx j, In idx nb -> In j idx -> (j < length labels)%nat) ->
  Forall2 (renamed_row names) (out_of_sample_pred_probs k nb labels) (out_of_sample_pred_probs k nb (renamed_labels names labels)).
Proof.
  intros Hl H1 H2 Hnb. set (L' := renamed_labels names labels). assert (Hl' : L' <> []) by (unfold L', renamed_labels; destruct labels; [congruence|discriminate]).
  assert (H1' : forall l, In l L' -> (l < K)%nat) by (intros l I; apply in_map_iff in I as (j & <- & Hj); apply (name_lt K names Pn); auto).
  assert (H2' : forall c, (c < K)%nat -> In c L').
  { intros c Hc. destruct (name_onto K names Pn c Hc) as (j & Hj & <-). apply in_map_iff. exists j. auto. }
  unfold out_of_sample_pred_probs, knn_predict_proba, one_hot. rewrite (unique_all labels), (unique_all L') by auto.
  set (f := fun p : list Q * list Q => map (fun q => (fst q - 1 / Qnat (k + 1) * snd q) * Qnat (k + 1) / Qnat k) (combine (fst p) (snd p))).
  set (A := fun l n => map (fun c => Qnat (count c (map (fun j => nth j l 0%nat) n)) / Qnat (k + 1)) (seq 0 K)).
  set (B := fun y => map (fun c => if Nat.eqb c y then 1 else 0) (seq 0 K)).
  assert (Main : forall n y, In y labels -> (forall j, In j n -> (j < length labels)%nat) -> renamed_row names (f (A labels n, B y)) (f (A L' n, B (s y)))).
  { intros n y Hy Hn. assert (Lf : forall l z, length (f (A l n, B z)) = K) by (intros; unfold f, A, B; cbn [fst snd]; rewrite map_length, combine_length, !map_length, seq_length; lia).
    split; [now rewrite !Lf|]. rewrite Lf. intros c Hc. pose proof (name_lt K names Pn c Hc) as Hsc.
    assert (N : forall l z i, (i < K)%nat -> nth i (f (A l n, B z)) 0 = (Qnat (count i (map (fun j => nth j l 0%nat) n)) / Qnat (k + 1) - 1 / Qnat (k + 1) * (if Nat.eqb i z then 1 else 0)) * Qnat (k + 1) / Qnat k).
    { intros l z i Hi. unfold f. cbn [fst snd]. rewrite (nth_map_gen _ _ _ _ (0, 0)) by (unfold A, B; rewrite combine_length, !map_length, seq_length; lia).
      rewrite combine_nth by (unfold A, B; now rewrite !map_length). cbn [fst snd]. unfold A, B. rewrite !(nth_map_gen _ _ _ _ 0%nat) by (now rewrite seq_length). rewrite seq_nth by auto. reflexivity. }
    rewrite !N by auto. fold (s c).
    assert (map (fun j => nth j L' 0%nat) n = renamed_labels names (map (fun j => nth j labels 0%nat) n)) as ->.
    { unfold renamed_labels, L'. rewrite map_map. apply map_ext_in. intros j Hj. unfold renamed_labels. rewrite (nth_map_gen _ _ _ _ 0%nat) by auto. reflexivity. }
    rewrite count_renamed; auto. 2:{ intros l I. apply in_map_iff in I as (j & <- & Hj). apply H1, nth_In. auto. }
    assert (Nat.eqb (s c) (s y) = Nat.eqb c y) as ->; [|reflexivity]. apply eq_true_iff_eq. rewrite !Nat.eqb_eq. split; [|intros ->; reflexivity].
    intros E. apply (name_inj K names Pn); auto. }
  change (Forall2 (renamed_row names) (map f (combine (map (A labels) nb) (map B labels))) (map f (combine (map (A L') nb) (map B L')))).
  unfold L' at 2. unfold renamed_labels. rewrite map_map. rewrite !ProofRename2.combine_map2. rewrite !map_map.
  assert (G : forall ps : list (list nat * nat), (forall n y, In (n, y) ps -> In y labels /\ forall j, In j n -> (j < length labels)%nat) ->
    Forall2 (renamed_row names) (map (fun p => f (A labels (fst p), B (snd p))) ps) (map (fun p => f (A L' (fst p), B (nth (snd p) names 0%nat))) ps)).
  { induction ps as [|(n & y) ps IH]; intros Hp; [constructor|]. cbn [map fst snd]. constructor.
    - destruct (Hp n y (or_introl eq_refl)) as (Hy & Hn). exact (Main n y Hy Hn).
    - apply IH. intros n' y' I. apply Hp. now right. }
  apply G. intros n y I. apply in_combine_l in I as I1. apply in_combine_r in I as I2. split; eauto.
Qed.
End Names.
