(** * Proofs about ensembles weighted by log loss *)
From Coq Require Import QArith Reals Qreals List Bool Arith Lia Lra.
From Verif Require Import Base BaseFacts ModelUtil ModelCount ModelRank ModelEntropy ModelOutlier ModelBatched ModelLogLoss
     SpecCount SpecFilter SpecRank SpecTemperature SpecLogLoss ProofCount ProofRank ProofMore ProofEntropy ProofOutlier ProofTemperature.
Import ListNotations.
Open Scope R_scope.

Lemma unique_all K labels : (forall l, In l labels -> (l < K)%nat) -> all_classes K labels -> length (unique labels) = K.
Proof.
  intros HK Ha. apply Nat.le_antisymm.
  - rewrite <- (seq_length K 0). apply NoDup_incl_length; [apply unique_NoDup|]. intros x Hx. apply in_unique, HK in Hx. apply in_seq. lia.
  - rewrite <- (seq_length K 0). apply NoDup_incl_length; [apply seq_NoDup|]. intros x Hx. apply in_seq in Hx. apply in_unique, Ha. lia.
Qed.
Lemma unique_missing K labels : (forall l, In l labels -> (l < K)%nat) -> (exists k, (k < K)%nat /\ ~ In k labels) -> (length (unique labels) < K)%nat.
Proof.
  intros HK (k & Hk & Hn). assert (H : (length (k :: unique labels) <= K)%nat).
  { rewrite <- (seq_length K 0). apply NoDup_incl_length.
    - constructor; [rewrite in_unique; auto|apply unique_NoDup].
    - intros x [<-|Hx]; [apply in_seq; lia|]. apply in_unique, HK in Hx. apply in_seq. lia. }
  simpl in H. lia.
Qed.

Lemma sk_spec eps labels rows K (p : nat -> R) : length (unique labels) = K -> (2 <= K)%nat -> length rows = length labels ->
  (forall e, (e < length labels)%nat -> nth (nth e labels 0%nat) (nth e rows []) 0 = p e) ->
  sk_log_loss eps labels rows K = Ok (log_loss_of eps (length labels) p).
Proof.
  intros HU HK HL Hp. unfold sk_log_loss. rewrite HU, Nat.eqb_refl. destruct (Nat.leb_spec K 1); [lia|]. cbn [negb orb]. f_equal.
  unfold rmean, log_loss_of. rewrite map_length, combine_length, HL, Nat.min_id. f_equal. unfold rsum, total. f_equal.
  rewrite (combine_seq labels rows 0%nat []) by auto. rewrite map_map. apply map_ext_in. intros e He. apply in_seq in He. cbn [fst snd].
  rewrite Hp by lia. reflexivity.
Qed.
Lemma clip_rows_spec pp e k : (e < length pp)%nat -> (k < length (nth e pp []))%nat ->
  nth k (nth e (clip_rows pp) []) 0 = floored (nth e pp []) k.
Proof.
  intros He Hk. unfold clip_rows.
  set (f := fun row => let c := map (fun p => Rmax (Q2R p) (/ 1000000)) row in map (fun p => p / rsum c) c).
  rewrite (nth_indep _ [] (f [])) by (rewrite map_length; auto). rewrite (map_nth f). unfold f. cbv zeta. rewrite map_map.
  rewrite (nth_map0 (fun x => Rmax (Q2R x) (/ 1000000) / rsum (map (fun p => Rmax (Q2R p) (/ 1000000)) (nth e pp []))) (nth e pp []) k 0%Q) by auto.
  reflexivity.
Qed.

Section Search.
  Variables (eps : R) (labels : list nat) (pps : list (list (list Q))) (K : nat).
  Hypotheses (Hd : forall pp, In pp pps -> dataset K labels pp) (Ha : all_classes K labels) (HK : (2 <= K)%nat) (Hne : pps <> []).
  Let m := length pps.
  Let loss i := model_loss eps labels (nth i pps []).
  Lemma HU : length (unique labels) = K.
  Proof.
    apply unique_all; auto. destruct pps as [|p l]; [congruence|]. intros x Hx. apply (ds_lab _ _ _ (Hd p (or_introl eq_refl))). auto.
  Qed.
  Lemma losses_ok : rmap (fun pp => sk_log_loss eps labels (clip_rows pp) K) pps = Ok (map (model_loss eps labels) pps).
  Proof.
    assert (G : forall l, (forall pp, In pp l -> In pp pps) -> rmap (fun pp => sk_log_loss eps labels (clip_rows pp) K) l = Ok (map (model_loss eps labels) l)).
    { induction l as [|pp l IH]; intros Hl; [reflexivity|]. cbn [rmap map]. pose proof (Hd pp (Hl pp (or_introl eq_refl))) as [D1 D2 D3 D4 D5].
      rewrite (sk_spec eps labels (clip_rows pp) K (fun e => floored (nth e pp []) (nth e labels 0%nat))).
      - cbn [rbind]. rewrite IH by (intros; apply Hl; right; auto). reflexivity.
      - apply HU.
      - auto.
      - unfold clip_rows. rewrite map_length. auto.
      - intros e He. apply clip_rows_spec; [lia|]. rewrite D4 by (apply nth_In; lia). apply D3, nth_In. auto. }
    apply G. auto.
  Qed.
  Lemma weights_ok t : weights_for eps labels pps K t = Ok (map (loss_weight t loss m) (seq 0 m)).
  Proof.
    unfold weights_for. rewrite losses_ok. cbn [rbind]. f_equal. rewrite (list_seq (model_loss eps labels) pps []). rewrite !map_map. fold m.
    apply map_ext. intros i. reflexivity.
  Qed.
  Lemma average_ok (w : nat -> R) : sk_log_loss eps labels (average_probs (map w (seq 0 m)) pps (length labels) K) K = Ok (average_loss eps labels pps w).
  Proof.
    unfold average_loss. apply sk_spec; auto; [apply HU|unfold average_probs; rewrite map_length, seq_length; auto|].
    intros e He. unfold average_probs.
    rewrite (nth_indep _ [] ((fun e0 => map (fun k => rsum (map (fun wp => fst wp * Q2R (nth k (nth e0 (snd wp) []) 0%Q)) (combine (map w (seq 0 m)) pps))) (seq 0 K)) 0%nat))
      by (rewrite map_length, seq_length; auto).
    rewrite (map_nth (fun e0 => map (fun k => rsum (map (fun wp => fst wp * Q2R (nth k (nth e0 (snd wp) []) 0%Q)) (combine (map w (seq 0 m)) pps))) (seq 0 K))).
    rewrite seq_nth by auto. cbn [Nat.add].
    assert (Hl : (nth e labels 0 < K)%nat). { destruct pps as [|p l]; [congruence|]. apply (ds_lab _ _ _ (Hd p (or_introl eq_refl))), nth_In; auto. }
    rewrite (nth_map0 (fun k => rsum (map (fun wp => fst wp * Q2R (nth k (nth e (snd wp) []) 0%Q)) (combine (map w (seq 0 m)) pps))) (seq 0 K) _ 0%nat) by (rewrite seq_length; auto).
    rewrite seq_nth by auto. cbn [Nat.add]. unfold rsum, total. f_equal.
    rewrite (combine_seq _ pps 0 []) by (rewrite map_length, seq_length; auto). rewrite map_map, map_length, seq_length. fold m. apply map_ext_in. intros i Hi. apply in_seq in Hi. cbn [fst snd].
    rewrite (nth_map0 w (seq 0 m) i 0%nat) by (rewrite seq_length; lia). rewrite seq_nth by lia. reflexivity.
  Qed.
  Let cost t := average_loss eps labels pps (loss_weight t loss m).
  Let wts t := map (loss_weight t loss m) (seq 0 m).
  Lemma step_ok best t : search_step eps labels pps K best t =
    Ok (match best with Some (b, w0) => if Rlt_dec (cost t) b then Some (cost t, wts t) else best | None => Some (cost t, wts t) end).
  Proof. unfold search_step. rewrite weights_ok. cbn [rbind]. rewrite average_ok. cbn [rbind]. reflexivity. Qed.
  Lemma search_from ts : forall t0, exists t, rfold (search_step eps labels pps K) ts (Some (cost t0, wts t0)) = Ok (Some (cost t, wts t)) /\
    In t (t0 :: ts) /\ forall t', In t' (t0 :: ts) -> cost t <= cost t'.
  Proof.
    induction ts as [|t1 ts IH]; intros t0; cbn [rfold].
    - exists t0. split; [reflexivity|]. split; [left; auto|]. intros t' [<-|[]]. lra.
    - rewrite step_ok. cbn [rbind]. destruct (Rlt_dec (cost t1) (cost t0)) as [H|H].
      + destruct (IH t1) as (t & E & I & M). exists t. split; [exact E|]. split; [right; auto|]. intros t' [<-|Ht']; [|auto]. specialize (M t1 (or_introl eq_refl)). lra.
      + destruct (IH t0) as (t & E & I & M). exists t. split; [exact E|]. split; [destruct I as [<-|I]; [left; auto|right; right; auto]|].
        intros t' [<-|[<-|Ht']]; [apply M; left; auto| |apply M; right; auto]. specialize (M t0 (or_introl eq_refl)). lra.
  Qed.
  Lemma search_ok ts : ts <> [] -> exists t, log_loss_search eps labels pps K ts = Ok (Some (cost t, wts t)) /\ In t ts /\ forall t', In t' ts -> cost t <= cost t'.
  Proof.
    intros Ht. destruct ts as [|t0 ts]; [congruence|]. unfold log_loss_search. cbn [rfold]. rewrite step_ok. cbn [rbind]. apply search_from.
  Qed.

  Lemma m_pos : (0 < m)%nat. Proof. unfold m. destruct pps; [congruence|simpl; lia]. Qed.
  Lemma weight_sum_pos t : 0 < total (map (fun j => exp (- t * loss j)) (seq 0 m)).
  Proof. apply (rsum_pos0 (fun j => exp (- t * loss j))); [pose proof m_pos; destruct m; [lia|discriminate]|]. intros; apply exp_pos. Qed.
  Lemma weight_pos t i : 0 < loss_weight t loss m i.
  Proof. unfold loss_weight. apply Rdiv_lt_0_compat; [apply exp_pos|apply weight_sum_pos]. Qed.
  Lemma weight_one t : total (map (loss_weight t loss m) (seq 0 m)) = 1.
  Proof.
    unfold loss_weight. change (rsum (map (fun i => exp (- t * loss i) / total (map (fun j => exp (- t * loss j)) (seq 0 m))) (seq 0 m)) = 1).
    rewrite (rsum_div (fun i => exp (- t * loss i))). pose proof (weight_sum_pos t). change (rsum (map (fun i => exp (- t * loss i)) (seq 0 m))) with (total (map (fun j => exp (- t * loss j)) (seq 0 m))). field. lra.
  Qed.
  Lemma weight_order t i j : 0 < t -> loss i < loss j -> loss_weight t loss m j < loss_weight t loss m i.
  Proof.
    intros Ht H. unfold loss_weight. apply Rmult_lt_compat_r; [apply Rinv_0_lt_compat, weight_sum_pos|]. apply exp_increasing. nra.
  Qed.
End Search.

Lemma weighted_bounds (w f : nat -> R) n lo hi : (forall i, (i < n)%nat -> 0 <= w i) -> total (map w (seq 0 n)) = 1 -> (forall i, (i < n)%nat -> lo <= f i <= hi) ->
  lo <= total (map (fun i => w i * f i) (seq 0 n)) <= hi.
Proof.
  intros Hw H1 Hf.
  assert (G : forall l, (forall i, In i l -> (i < n)%nat) -> total (map w l) * lo <= total (map (fun i => w i * f i) l) <= total (map w l) * hi).
  { induction l as [|i l IH]; intros Hl; cbn [map]; unfold total; cbn [fold_right]; [lra|]. fold (total (map w l)). fold (total (map (fun i0 => w i0 * f i0) l)).
    specialize (IH ltac:(intros; apply Hl; right; auto)). pose proof (Hl i (or_introl eq_refl)) as Hi. specialize (Hw i Hi). specialize (Hf i Hi). split; nra. }
  specialize (G (seq 0 n) ltac:(intros i Hi; apply in_seq in Hi; lia)). rewrite H1 in G. lra.
Qed.

Lemma two_of_all K labels : (2 <= K)%nat -> all_classes K labels -> two_classes labels.
Proof. intros HK Ha. exists 0%nat, 1%nat. split; [apply Ha; lia|]. split; [apply Ha; lia|]. discriminate. Qed.

Lemma ens_unfold eps labels pps K method adjust ts : pps <> [] -> ensemble_scores_log_loss eps labels pps K method adjust ts =
    (do _ <- rmap (fun pp => assert_valid_inputs labels pp K false) pps ;
    do best <- log_loss_search eps labels pps K ts ;
    do scores_list <- rmap (fun pp => get_label_quality_scores labels pp K method adjust) pps ;
    match best with
    | None => Raise AssertionError
    | Some (_, weights) =>
        Ok (map (fun e => rsum (map (fun sw => Q2R (fst sw) * snd sw) (combine (map (fun s => nth e s 0%Q) scores_list) weights)))
                (seq 0 (length labels)))
    end).
Proof. intros H. unfold ensemble_scores_log_loss. destruct pps; [congruence|reflexivity]. Qed.

Lemma ensemble_full eps labels pps K method adjust ts : pps <> [] -> (forall pp, In pp pps -> dataset K labels pp) -> all_classes K labels -> (2 <= K)%nat -> ts <> [] ->
  let loss i := model_loss eps labels (nth i pps []) in
  let w t := loss_weight t loss (length pps) in
  exists ens scores t, ensemble_scores_log_loss eps labels pps K method adjust ts = Ok ens /\
    Forall2 (fun pp s => get_label_quality_scores labels pp K method adjust = Ok s) pps scores /\
    In t ts /\ (forall t', In t' ts -> average_loss eps labels pps (w t) <= average_loss eps labels pps (w t')) /\
    (forall i, 0 < w t i) /\ total (map (w t) (seq 0 (length pps))) = 1 /\
    (0 < t -> forall i j, loss i < loss j -> w t j < w t i) /\
    length ens = length labels /\
    forall e, (e < length labels)%nat ->
      nth e ens 0 = total (map (fun i => w t i * Q2R (nth e (nth i scores []) 0%Q)) (seq 0 (length pps))) /\
      forall lo hi, (forall s, In s scores -> lo <= Q2R (nth e s 0%Q) <= hi) -> lo <= nth e ens 0 <= hi.
Proof.
  intros Hne Hd Ha HK Hts loss w. destruct (ens_prepare K labels pps method adjust Hne Hd (two_of_all K labels HK Ha)) as ((u & E1) & (sl & E2)).
  destruct (search_ok eps labels pps K Hd Ha HK Hne ts Hts) as (t & ES & It & Mt).
  rewrite ens_unfold by auto. rewrite E1. cbn [rbind]. rewrite ES. cbn [rbind]. rewrite E2. cbn [rbind]. apply rmap_ok in E2. pose proof (Forall2_len _ _ _ E2) as Hlen.
  eexists. exists sl, t. split; [reflexivity|]. split; [auto|]. split; [auto|]. split; [exact Mt|].
  split; [intros i; eapply weight_pos; eauto|]. split; [eapply weight_one; eauto|]. split; [intros Ht i j; eapply weight_order; eauto|].
  rewrite map_length, seq_length. split; auto. intros e He.
  rewrite (nth_map0 (fun e0 => rsum (map (fun sw => Q2R (fst sw) * snd sw) (combine (map (fun s => nth e0 s 0%Q) sl) (map (loss_weight t (fun i => model_loss eps labels (nth i pps [])) (length pps)) (seq 0 (length pps))))))
             (seq 0 (length labels)) e 0%nat) by (rewrite seq_length; auto).
  rewrite seq_nth by auto. cbn [Nat.add].
  assert (EQ : rsum (map (fun sw => Q2R (fst sw) * snd sw) (combine (map (fun s => nth e s 0%Q) sl) (map (loss_weight t (fun i => model_loss eps labels (nth i pps [])) (length pps)) (seq 0 (length pps))))) =
     total (map (fun i => w t i * Q2R (nth e (nth i sl []) 0%Q)) (seq 0 (length pps)))).
  { rewrite (combine_seq _ _ 0%Q 0) by (rewrite !map_length, seq_length; lia). rewrite map_map, map_length. rewrite <- Hlen. unfold rsum, total. f_equal. apply map_ext_in. intros i Hi. apply in_seq in Hi. cbn [fst snd].
    rewrite (nth_map0 (loss_weight t (fun i => model_loss eps labels (nth i pps [])) (length pps)) (seq 0 (length pps)) i 0%nat) by (rewrite seq_length; lia). rewrite seq_nth by lia. cbn [Nat.add].
    rewrite (nth_map_gen (fun s => nth e s 0%Q) sl i 0%Q []) by lia. unfold w, loss. ring. }
  split; [exact EQ|]. intros lo hi Hb. rewrite EQ. apply weighted_bounds.
  - intros i Hi. left. eapply weight_pos; eauto.
  - eapply weight_one; eauto.
  - intros i Hi. apply Hb, nth_In. lia.
Qed.

Lemma missing_full eps labels pps K method adjust ts : pps <> [] -> (forall pp, In pp pps -> dataset K labels pp) -> two_classes labels ->
  (exists k, (k < K)%nat /\ ~ In k labels) -> ts <> [] ->
  ensemble_scores_log_loss eps labels pps K method adjust ts = Raise ValueError.
Proof.
  intros Hne Hd H2 Hm Hts. destruct (ens_prepare K labels pps method adjust Hne Hd H2) as ((u & E1) & _).
  unfold ensemble_scores_log_loss. destruct pps as [|p0 pps0] eqn:Epps; [congruence|]. rewrite <- Epps in *. rewrite E1. cbn [rbind].
  destruct ts as [|t0 ts]; [congruence|]. unfold log_loss_search. cbn [rfold]. unfold search_step at 1, weights_for. rewrite Epps. cbn [rmap]. unfold sk_log_loss at 1.
  assert (HL : (length (unique labels) < K)%nat) by (apply unique_missing; auto; apply (ds_lab _ _ _ (Hd p0 ltac:(rewrite Epps; left; auto)))).
  destruct (Nat.eqb_spec (length (unique labels)) K); [lia|]. reflexivity.
Qed.
Lemma empty_full eps labels pps K method adjust : pps <> [] -> (forall pp, In pp pps -> dataset K labels pp) -> two_classes labels ->
  ensemble_scores_log_loss eps labels pps K method adjust [] = Raise AssertionError.
Proof.
  intros Hne Hd H2. destruct (ens_prepare K labels pps method adjust Hne Hd H2) as ((u & E1) & (sl & E2)).
  unfold ensemble_scores_log_loss. destruct pps as [|p0 pps0] eqn:Epps; [congruence|]. rewrite <- Epps in *. rewrite E1. cbn [rbind]. unfold log_loss_search. cbn [rfold rbind]. rewrite E2. reflexivity.
Qed.
