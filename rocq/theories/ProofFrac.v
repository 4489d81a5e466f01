(** * Proofs for C92: frac_noise *)
From Coq Require Import QArith Qabs Qround List Permutation Sorted ZArith Bool Arith Lia Lqa Setoid Morphisms.
From Verif Require Import Base BaseFacts ModelUtil ModelCount ModelRank ModelPool ModelFilter SpecCount SpecFilter SpecFrac
     ProofUtil ProofCount ProofFilter ProofIssueCount.
Import ListNotations.
Open Scope Q_scope.
Opaque TINY_VALUE.

Definition mle (a b : list bool) : Prop := Forall2 (fun x y => x = true -> y = true) a b.
Lemma mle_refl a : mle a a.
Proof. unfold mle. induction a; constructor; auto. Qed.
Lemma mle_intro a b : length a = length b -> (forall i, nth i a false = true -> nth i b false = true) -> mle a b.
Proof.
  unfold mle. revert b. induction a as [|x a IH]; intros [|y b] Hl H; try discriminate; constructor.
  - apply (H 0%nat).
  - apply IH; [simpl in Hl; lia|]. intros i. apply (H (S i)).
Qed.
Lemma mle_nth a b : mle a b -> forall i, nth i a false = true -> nth i b false = true.
Proof. unfold mle. induction 1; intros [|i]; simpl; auto. Qed.
Lemma mle_length a b : mle a b -> length a = length b.
Proof. unfold mle. induction 1; simpl; auto. Qed.

Lemma scatter_mle m : forall dst dst' sub sub', mle dst dst' -> mle sub sub' ->
  mle (scatter m dst sub) (scatter m dst' sub').
Proof.
  unfold mle. induction m as [|b m IH]; intros dst dst' sub sub' H1 H2; cbn [scatter]; auto.
  destruct H1 as [|x y l l' Hxy H1]; [constructor|]. destruct b.
  - destruct H2 as [|u v s s' Huv H2]; constructor; auto.
  - constructor; auto.
Qed.
Lemma assemble_mle labels : forall masks masks' k acc acc', Forall2 mle masks masks' -> mle acc acc' ->
  mle (assemble_masks_from k labels masks acc) (assemble_masks_from k labels masks' acc').
Proof.
  induction masks as [|m ms IH]; intros masks' k acc acc' H Ha; inversion H; subst; cbn [assemble_masks_from]; auto.
  apply IH; auto. rewrite <- (mle_length _ _ H2). destruct (Nat.ltb 1 (length m)); auto. apply scatter_mle; auto.
Qed.

Lemma firstn_more {A} n n' (l : list A) x : (n <= n')%nat -> In x (firstn n l) -> In x (firstn n' l).
Proof.
  revert n' l. induction n as [|n IH]; intros n' l Hn; [simpl; tauto|].
  destruct l; [simpl; tauto|]. destruct n'; [lia|]. simpl. intros [->|H]; auto. right. apply IH with (n' := n'); auto. lia.
Qed.
Lemma mask_mle n idx idx' : (forall i, In i idx -> In i idx') -> mle (mask_of n idx) (mask_of n idx').
Proof.
  intros H. apply mle_intro; [rewrite !mask_of_length; auto|].
  intros i. rewrite !mask_of_flag. intuition.
Qed.

Lemma prune_by_class_mle srt mn k pp c c' : (nth k c' 0 <= nth k c 0)%Z ->
  mle (prune_by_class srt mn (k, (pp, c))) (prune_by_class srt mn (k, (pp, c'))).
Proof.
  intros H. unfold prune_by_class. destruct (Nat.ltb mn (length pp)); [|apply mle_refl].
  destruct (Z.leb_spec 1 (Z.of_nat (length pp) - nth k c 0)%Z), (Z.leb_spec 1 (Z.of_nat (length pp) - nth k c' 0)%Z); try lia.
  - apply mask_mle. intros i. apply firstn_more. lia.
  - apply mask_mle. intros i [].
  - apply mle_refl.
Qed.
Lemma prune_by_count_mle srt mn K k pp c c' : (forall j, (j < K)%nat -> j <> k -> (nth j c 0 <= nth j c' 0)%Z) ->
  mle (prune_by_count srt mn K (k, (pp, c))) (prune_by_count srt mn K (k, (pp, c'))).
Proof.
  intros H. rewrite !prune_by_count_unfold. destruct (Nat.leb (length pp) mn); [apply mle_refl|].
  destruct (fold_count_spec srt k pp c (seq 0 K) (mask_of (length pp) [])) as (L & F); [apply mask_of_length|].
  destruct (fold_count_spec srt k pp c' (seq 0 K) (mask_of (length pp) [])) as (L' & F'); [apply mask_of_length|].
  apply mle_intro; [congruence|]. intros i Hi.
  assert (Hp : (i < length pp)%nat).
  { destruct (Nat.lt_ge_cases i (length pp)); auto. rewrite nth_overflow in Hi by lia. discriminate. }
  apply F in Hi; auto. apply F'; auto. destruct Hi as [G|(j & Hj & Hjk & Hz & Hin)]; [auto|].
  right. exists j. pose proof Hj as Hj'. apply in_seq in Hj'. specialize (H j ltac:(lia)).
  assert (j <> k) by congruence. specialize (H H0).
  split; auto. split; auto. split; [lia|]. unfold margin_top in *. eapply firstn_more; [|exact Hin]. lia.
Qed.

Lemma run_mle (f : nat * (list (list Q) * list Z) -> list bool) nj sched K sched' labels pp pcm pcm' r r' nj' :
  (forall k, (k < K)%nat -> mle (f (k, (select (map (fun l => Nat.eqb l k) labels) pp, zcol k pcm)))
                     (f (k, (select (map (fun l => Nat.eqb l k) labels) pp, zcol k pcm')))) ->
  run_per_class nj K sched f (class_args labels pp K pcm) = Ok r ->
  run_per_class nj' K sched' f (class_args labels pp K pcm') = Ok r' ->
  mle (assemble_masks labels r) (assemble_masks labels r').
Proof.
  intros H E E'. apply run_per_class_ok in E, E'. subst. unfold assemble_masks. apply assemble_mle; [|apply mle_refl].
  unfold class_args, tab. rewrite !map_map.
  assert (G : forall l, (forall k, In k l -> (k < K)%nat) ->
    Forall2 mle (map (fun k => f (k, (select (map (fun l0 => Nat.eqb l0 k) labels) pp, zcol k pcm))) l)
                (map (fun k => f (k, (select (map (fun l0 => Nat.eqb l0 k) labels) pp, zcol k pcm'))) l)).
  { induction l; intros Hl; cbn [map]; constructor; [apply H, Hl; left; auto|].
    apply IHl. intros; apply Hl; right; auto. }
  apply G. intros k Hk. apply in_seq in Hk. lia.
Qed.

Lemma truncate_mono x y : x <= y -> (truncate x <= truncate y)%Z.
Proof.
  intros H. unfold truncate. destruct (Qle_bool 0 x) eqn:E1, (Qle_bool 0 y) eqn:E2.
  - apply Qfloor_resp_le; auto.
  - apply Qle_bool_iff in E1. assert (0 <= y) by lra. apply Qle_bool_iff in H0. congruence.
  - assert (x <= 0). { destruct (Qlt_le_dec 0 x); [|auto]. assert (0 <= x) by lra. apply Qle_bool_iff in H0. congruence. }
    apply Qle_bool_iff in E2. apply Z.le_trans with 0%Z.
    + change 0%Z with (Qceiling (inject_Z 0)). apply Qceiling_resp_le. exact H0.
    + change 0%Z with (Qfloor (inject_Z 0)). apply Qfloor_resp_le. exact E2.
  - apply Qceiling_resp_le; auto.
Qed.
#[export] Instance truncate_Proper : Proper (Qeq ==> eq) truncate.
Proof.
  intros x y H. apply Z.le_antisymm; apply truncate_mono; rewrite H; lra.
Qed.

(** the matrix before frac_noise is applied *)
Definition kept_mat (m : list (list Q)) (n : nat) : list (list Q) :=
  let K := length m in
  let new_diagonal := tab K (fun k => qmax (mget m k k) (Qnat n)) in
  let diff_per_col := tab K (fun k => nth k new_diagonal 0 - mget m k k) in
  let count_nonzero := fun k => length (filter (fun x => negb (Qeq_bool x 0)) (col k m)) in
  let num_noise_rates_per_col := tab K (fun k => qmax (Qnat (count_nonzero k) - 1) 1) in
  tab K (fun i => tab K (fun j =>
       let v := mget m i j - nth j diff_per_col 0 / nth j num_noise_rates_per_col 0 in
       let v := if Qltb v 0 then 0 else v in
       if Nat.eqb i j then nth j new_diagonal 0 else v)).
Lemma kept_length m n : length (kept_mat m n) = length m.
Proof. unfold kept_mat. apply tab_length. Qed.
Lemma kept_off m n i j : (i < length m)%nat -> (j < length m)%nat -> i <> j -> 0 <= mget (kept_mat m n) i j.
Proof.
  intros Hi Hj Hne. unfold kept_mat. cbv zeta. rewrite mget_tab by auto. destruct (Nat.eqb_spec i j); [congruence|].
  match goal with |- context [Qltb ?v 0] => destruct (Qltb v 0) eqn:E end; [lra|].
  apply Qltb_false in E. exact E.
Qed.

Lemma keep_get srt m n frac pcm : keep_at_least_n_per_class srt m n frac = Ok pcm ->
  forall i j, (i < length m)%nat -> (j < length m)%nat ->
  zget pcm i j = truncate (if Nat.eqb i j
     then mget (kept_mat m n) i i + qsum (tab (length m) (fun r => if Nat.eqb i r then 0 else mget (kept_mat m n) r i * (1 - frac)))
     else mget (kept_mat m n) i j * frac).
Proof.
  unfold keep_at_least_n_per_class. fold (kept_mat m n). rewrite round_preserving_row_totals_Z.
  intros E i j Hi Hj. injection E as <-. unfold reduce_prune_counts. rewrite kept_length.
  rewrite zmap_get by (rewrite ?nth_tab, ?tab_length by auto; rewrite ?tab_length; auto).
  rewrite mget_tab by auto. destruct (Nat.eqb_spec i j) as [<-|Hne].
  - apply truncate_Proper. apply Qplus_comp; [reflexivity|]. apply qsum_tab_ext. intros r Hr.
    rewrite mget_tab by auto. destruct (Nat.eqb_spec r i) as [Er|Nr].
    + subst r. rewrite Nat.eqb_refl. ring.
    + destruct (Nat.eqb_spec i r); [congruence|ring].
  - rewrite mget_tab by auto. destruct (Nat.eqb_spec i j); [congruence|]. reflexivity.
Qed.

Lemma keep_mono srt m n f f' pcm pcm' : f <= f' ->
  keep_at_least_n_per_class srt m n f = Ok pcm -> keep_at_least_n_per_class srt m n f' = Ok pcm' ->
  forall i j, (i < length m)%nat -> (j < length m)%nat ->
    if Nat.eqb i j then (zget pcm' i j <= zget pcm i j)%Z else (zget pcm i j <= zget pcm' i j)%Z.
Proof.
  intros Hf E E' i j Hi Hj. rewrite (keep_get srt m n f pcm E) by auto. rewrite (keep_get srt m n f' pcm' E') by auto.
  destruct (Nat.eqb_spec i j) as [->|Hne].
  - apply truncate_mono. apply Qplus_le_r.
    unfold tab. assert (G : forall l, (forall r, In r l -> (r < length m)%nat) ->
      qsum (map (fun r => if Nat.eqb j r then 0 else mget (kept_mat m n) r j * (1 - f')) l) <=
      qsum (map (fun r => if Nat.eqb j r then 0 else mget (kept_mat m n) r j * (1 - f)) l)).
    { induction l as [|r l IH]; intros Hl; cbn [map]; [lra|]. unfold qsum in *. cbn [fold_right].
      specialize (IH (fun r Hr => Hl r (or_intror Hr))). specialize (Hl r (or_introl eq_refl)).
      destruct (Nat.eqb_spec j r); [lra|]. pose proof (kept_off m n r j Hl Hj ltac:(auto)).
      assert (mget (kept_mat m n) r j * (1 - f') <= mget (kept_mat m n) r j * (1 - f)) by nra. lra. }
    apply G. intros r Hr. apply in_seq in Hr. lia.
  - apply truncate_mono. pose proof (kept_off m n i j Hi Hj Hne). nra.
Qed.

Lemma prune_counts_mono srt labels K cj o o' pcm pcm' : same_but_frac o o' -> num_to_remove_per_class o = None ->
  frac_noise o <= frac_noise o' ->
  prune_counts srt labels K cj o = Ok pcm -> prune_counts srt labels K cj o' = Ok pcm' ->
  forall i j, (i < K)%nat -> (j < K)%nat ->
    if Nat.eqb i j then (zget pcm' i j <= zget pcm i j)%Z else (zget pcm i j <= zget pcm' i j)%Z.
Proof.
  intros (S1 & S2 & _) Hn Hf. unfold prune_counts. rewrite <- S1, Hn, <- S2.
  destruct (value_counts labels K); cbn [rbind]; [|discriminate].
  destruct (keep_at_least_n_per_class srt _ _ (frac_noise o)) eqn:E; cbn [rbind]; [|discriminate].
  destruct (keep_at_least_n_per_class srt _ _ (frac_noise o')) eqn:E'; cbn [rbind]; [|discriminate].
  intros H H'. injection H as <-. injection H' as <-. intros i j Hi Hj.
  assert (length (transpose K cj) = K) by (unfold transpose; apply tab_length).
  apply (keep_mono srt _ _ _ _ _ _ Hf E E'); lia.
Qed.

Lemma masks_nested srt labels pp K cj o o' pcm pcm' : same_but_frac o o' -> num_to_remove_per_class o = None ->
  frac_noise o <= frac_noise o' ->
  prune_counts srt labels K cj o = Ok pcm -> prune_counts srt labels K cj o' = Ok pcm' ->
  (forall M M', by_class_mask srt labels pp K pcm o = Ok M -> by_class_mask srt labels pp K pcm' o' = Ok M' -> mle M M') /\
  (forall M M', by_noise_rate_mask srt labels pp K pcm o = Ok M -> by_noise_rate_mask srt labels pp K pcm' o' = Ok M' -> mle M M').
Proof.
  intros Hs Hn Hf E E'. pose proof (prune_counts_mono srt labels K cj o o' pcm pcm' Hs Hn Hf E E') as Hm.
  destruct Hs as (S1 & S2 & S3 & S4 & S5 & S6). split; intros M M'.
  - unfold by_class_mask. rewrite <- S2.
    destruct (run_per_class (n_jobs o) _ _ _ _) eqn:R; cbn [rbind]; [|discriminate].
    destruct (run_per_class (n_jobs o') _ _ _ _) eqn:R'; cbn [rbind]; [|discriminate].
    intros H H'. injection H as <-. injection H' as <-. eapply run_mle; [|exact R|exact R'].
    intros k Hk. apply prune_by_class_mle. rewrite !nth_zcol. specialize (Hm k k Hk Hk). rewrite Nat.eqb_refl in Hm. exact Hm.
  - unfold by_noise_rate_mask. rewrite <- S2.
    destruct (run_per_class (n_jobs o) _ _ _ _) eqn:R; cbn [rbind]; [|discriminate].
    destruct (run_per_class (n_jobs o') _ _ _ _) eqn:R'; cbn [rbind]; [|discriminate].
    intros H H'. injection H as <-. injection H' as <-. eapply run_mle; [|exact R|exact R'].
    intros k Hk. apply prune_by_count_mle. intros j Hj Hjk. rewrite !nth_zcol. specialize (Hm j k Hj Hk).
    destruct (Nat.eqb_spec j k); [congruence|]. exact Hm.
Qed.

Lemma same_cj srt labels pp K flt o o' : same_but_frac o o' ->
  match confident_joint o, flt with
     | Some _, ConfidentLearning | None, _ =>
         do r <- compute_confident_joint srt labels pp K None true ;
         Ok (zmat_to_q (fst r), snd r)
     | Some cj, _ => Ok (cj, [])
     end = match confident_joint o', flt with
     | Some _, ConfidentLearning | None, _ =>
         do r <- compute_confident_joint srt labels pp K None true ;
         Ok (zmat_to_q (fst r), snd r)
     | Some cj, _ => Ok (cj, [])
     end.
Proof. intros (_ & _ & -> & _). reflexivity. Qed.

Lemma mle_and a b a' b' : mle a a' -> mle b b' ->
  mle (map (fun ab => (fst ab && snd ab)%bool) (combine a b)) (map (fun ab => (fst ab && snd ab)%bool) (combine a' b')).
Proof.
  unfold mle. intros H. revert b b'. induction H as [|x y l l' Hxy H IH]; intros b b' Hb; cbn [combine map]; [constructor|].
  destruct Hb as [|u v s s' Huv Hb]; cbn [combine map]; constructor; auto. cbn [fst snd].
  intros E. apply andb_prop in E as (A & B). rewrite (Hxy A), (Huv B). reflexivity.
Qed.
Lemma mle_clear a a' m : mle a a' -> mle (clear_where a m) (clear_where a' m).
Proof.
  unfold mle, clear_where. intros H. revert m. induction H as [|x y l l' Hxy H IH]; intros [|b m]; cbn [combine map]; try constructor; auto.
  cbn [fst snd]. destruct b; auto.
Qed.

Lemma C92_nested_full : forall srt K labels pp flt o o' m m',
  flt = PruneByClass \/ flt = PruneByNoiseRate \/ flt = Both -> same_but_frac o o' ->
  num_to_remove_per_class o = None -> frac_noise o <= frac_noise o' ->
  find_label_issues srt labels pp K flt o = Ok m -> find_label_issues srt labels pp K flt o' = Ok m' ->
  forall e, flagged m e -> flagged m' e.
Proof.
  intros srt K labels pp flt o o' m m' Hflt Hs Hn Hf E E'.
  apply find_inv in E as (r & R & ->). apply find_inv in E' as (r' & R' & ->).
  assert (is_low flt = false) as -> by (destruct Hflt as [->|[->| ->]]; reflexivity).
  intros e. apply (mle_nth _ _). apply mle_clear.
  unfold raw_mask in R, R'. rewrite <- (same_cj srt labels pp K flt o o' Hs) in R'.
  match type of R with rbind ?x _ = _ => destruct x as [cji|]; cbn [rbind] in R, R'; [|discriminate] end.
  destruct Hflt as [->|[->| ->]];
    (destruct (prune_counts srt labels K (fst cji) o) as [pcm|] eqn:P; cbn [rbind] in R; [|discriminate]);
    (destruct (prune_counts srt labels K (fst cji) o') as [pcm'|] eqn:P'; cbn [rbind] in R'; [|discriminate]);
    destruct (masks_nested srt labels pp K (fst cji) o o' pcm pcm' Hs Hn Hf P P') as (A & B).
  - apply A; auto.
  - apply B; auto.
  - destruct (by_class_mask srt labels pp K pcm o) as [mc|]; cbn [rbind] in R; [|discriminate].
    destruct (by_noise_rate_mask srt labels pp K pcm o) as [mn|]; cbn [rbind] in R; [|discriminate].
    destruct (by_class_mask srt labels pp K pcm' o') as [mc'|]; cbn [rbind] in R'; [|discriminate].
    destruct (by_noise_rate_mask srt labels pp K pcm' o') as [mn'|]; cbn [rbind] in R'; [|discriminate].
    injection R as <-. injection R' as <-. apply mle_and; auto.
Qed.

(** the other filters do not look at frac_noise *)
Lemma C92_ignored_full : forall srt K labels pp flt o o', same_but_frac o o' ->
  flt <> PruneByClass -> flt <> PruneByNoiseRate -> flt <> Both ->
  find_label_issues srt labels pp K flt o = find_label_issues srt labels pp K flt o'.
Proof.
  intros srt K labels pp flt o o' Hs H1 H2 H3. unfold find_label_issues, raw_mask.
  rewrite (same_cj srt labels pp K flt o o' Hs). destruct Hs as (<- & _ & _ & <- & _).
  destruct flt; congruence.
Qed.

(** frac_noise 0 leaves prune_by_noise_rate nothing to flag *)
Lemma by_noise_none srt labels pp K pcm o M : argsort_ok srt -> dataset K labels pp ->
  by_noise_rate_mask srt labels pp K pcm o = Ok M ->
  (forall i j, (i < K)%nat -> (j < K)%nat -> i <> j -> zget pcm i j = 0%Z) -> forall e, ~ flagged M e.
Proof.
  intros Hs Hd E Hz e Hf. destruct (by_noise_rate_spec srt labels pp K pcm o M Hs Hd E) as (L & A & B).
  pose proof (flagged_lt _ _ Hf) as He. rewrite L in He.
  assert (Hk : (label_of labels e < K)%nat) by (apply (ds_lab _ _ _ Hd), nth_In; auto).
  set (k := label_of labels e) in *.
  destruct (Nat.le_gt_cases (n_labelled k labels) (Nat.max 1 (min_examples_per_class o))) as [Hle|Hgt].
  - specialize (A k Hk Hle).
    assert (G : forall ls m e0, nth e0 ls 0%nat = k -> (e0 < length ls)%nat -> nth e0 m false = true -> (0 < n_flagged k ls m)%nat).
    { clear. induction ls as [|l ls IH]; intros [|b m] [|e0] Hl He Hm; simpl in *; try lia; try discriminate.
      - subst. rewrite Nat.eqb_refl. lia.
      - specialize (IH m e0 Hl ltac:(lia) Hm). lia. }
    specialize (G labels M e eq_refl He Hf). lia.
  - destruct (B k Hk Hgt) as ((T & _ & F) & _). apply F in Hf as (j & Hj & Hjk & Hp & _); auto.
    rewrite Hz in Hp by auto. lia.
Qed.
Lemma C92_zero_full : forall srt K labels pp flt o m, argsort_ok srt -> dataset K labels pp ->
  flt = PruneByNoiseRate \/ flt = Both -> num_to_remove_per_class o = None -> frac_noise o == 0 ->
  find_label_issues srt labels pp K flt o = Ok m -> forall e, ~ flagged m e.
Proof.
  intros srt K labels pp flt o m Hs Hd Hflt Hn Hf E.
  assert (G : forall m, find_label_issues srt labels pp K PruneByNoiseRate o = Ok m -> forall e, ~ flagged m e).
  { clear m E. intros m E e He.
    apply find_inv in E as (r & R & ->). cbn [is_low] in He.
    pose proof (raw_mask_length _ _ _ _ _ _ _ (ds_len _ _ _ Hd) R) as Hlr.
    assert (Hlen2 : length r = length (reduce_issues pp labels)) by (rewrite reduce_length; [lia|apply Hd]).
    apply clear_where_sub in He; auto. revert e He.
    apply raw_by_noise in R as (cj & pcm & P & B & _). eapply by_noise_none; eauto.
    intros i j Hi Hj Hne. unfold prune_counts in P. destruct (value_counts labels K); cbn [rbind] in P; [|discriminate].
    rewrite Hn in P. destruct (keep_at_least_n_per_class _ _ _ _) eqn:Ek; cbn [rbind] in P; [|discriminate].
    injection P as <-. assert (length (transpose K cj) = K) by (unfold transpose; apply tab_length).
    rewrite (keep_get srt _ _ _ _ Ek) by lia. destruct (Nat.eqb_spec i j); [congruence|].
    rewrite Hf, Qmult_0_r. reflexivity. }
  destruct Hflt as [->| ->]; [apply G; auto|].
  apply find_both_spec in E as (mc & mn & _ & E & _ & Hfl); [|apply Hd].
  intros e He. apply Hfl in He as (_ & He). eapply G; eauto.
Qed.

Lemma mget_transpose K m i j : (i < K)%nat -> (j < length m)%nat -> mget (transpose K m) i j = mget m j i.
Proof.
  intros Hi Hj. unfold mget, transpose. rewrite nth_tab by auto. unfold col.
  rewrite (nth_map_gen (fun r => nth i r 0) m j 0 []) by auto. reflexivity.
Qed.

(** the number of examples prune_by_class marks in a class whose calibrated diagonal is large enough *)
Lemma C92_count_full : forall srt K labels pp o z idx m, argsort_ok srt -> dataset K labels pp ->
  num_to_remove_per_class o = None -> confident_joint o = None -> 0 <= frac_noise o -> frac_noise o <= 1 ->
  compute_confident_joint srt labels pp K None true = Ok (z, idx) ->
  find_label_issues srt labels pp K PruneByClass o = Ok m ->
  exists pruned, length pruned = length labels /\
    (forall e, (e < length labels)%nat -> (flagged m e <-> flagged pruned e /\ clearly_beaten labels pp e)) /\
    forall k, (k < K)%nat -> (2 <= n_labelled k labels)%nat -> (min_examples_per_class o < n_labelled k labels)%nat ->
      (Z.of_nat (min_examples_per_class o) <= zget z k k)%Z ->
      Qnat (n_flagged k labels pruned) - 1 < frac_noise o * (Qnat (n_labelled k labels) - inject_Z (zget z k k)) /\
      frac_noise o * (Qnat (n_labelled k labels) - inject_Z (zget z k k)) <= Qnat (n_flagged k labels pruned).
Proof.
  intros srt K labels pp o z idx m Hs Hd Hn Hcj Hf0 Hf1 Ec Hf. pose proof Hd as [Hlen Hne Hlab _ _].
  destruct (find_marked _ _ _ _ _ _ _ Hd (eq_refl : is_low PruneByClass = false) Hf) as (r & Hr & Hlr & Hlm & Hfl).
  exists r. split; auto. split; auto. intros k Hk H2 Hm Hd'.
  assert (Hz : counts_ok K labels z).
  { unfold compute_confident_joint in Ec. destruct (calibrate_confident_joint srt _ labels) as [z'|] eqn:E; cbn [rbind] in Ec; [|discriminate].
    injection Ec as <- _. eapply calibrated_counts_ok; eauto. apply uncalibrated_cj_ok. }
  unfold raw_mask in Hr. rewrite Hcj, Ec in Hr. cbn [rbind fst] in Hr.
  destruct (prune_counts srt labels K (zmat_to_q z) o) as [pcm|] eqn:P; cbn [rbind] in Hr; [|discriminate].
  destruct (by_class_spec _ _ _ _ _ _ _ Hs Hd Hr) as (HL & Hc & _).
  rewrite (Hc k Hk H2). destruct (Nat.leb_spec (n_labelled k labels) (min_examples_per_class o)); [lia|].
  unfold prune_counts in P. rewrite value_counts_ok in P by auto. cbn [rbind] in P. rewrite Hn in P.
  destruct (keep_at_least_n_per_class _ _ _ _) as [p|] eqn:Ek; cbn [rbind] in P; [|discriminate]. injection P as ->.
  assert (Ht : length (transpose K (zmat_to_q z)) = K) by (unfold transpose; apply tab_length).
  destruct Hz as (HK & Hz). destruct (Hz k Hk) as (Lz & Sz & Nz).
  assert (Hzl : length (zmat_to_q z) = K) by (unfold zmat_to_q; rewrite map_length; auto).
  set (f := frac_noise o) in *. set (nk := n_labelled k labels) in *. set (d := zget z k k) in *.
  assert (Kept : forall i, (i < K)%nat -> mget (kept_mat (transpose K (zmat_to_q z)) (min_examples_per_class o)) i k == inject_Z (zget z k i)).
  { intros i Hi. unfold kept_mat. cbv zeta. rewrite Ht, mget_tab by auto. rewrite !nth_tab by auto.
    rewrite !mget_transpose by (rewrite ?Hzl; auto). rewrite !zmat_get. fold d.
    assert (Em : qmax (inject_Z d) (Qnat (min_examples_per_class o)) == inject_Z d).
    { unfold Qnat. destruct (qmax_spec (inject_Z d) (inject_Z (Z.of_nat (min_examples_per_class o)))) as [(A & ->)|(A & ->)]; [|reflexivity].
      rewrite <- Zle_Qle in A. assert (d = Z.of_nat (min_examples_per_class o)) as -> by lia. reflexivity. }
    destruct (Nat.eqb_spec i k) as [->|]; [exact Em|].
    assert (V : forall w, inject_Z (zget z k i) - (qmax (inject_Z d) (Qnat (min_examples_per_class o)) - inject_Z d) / w == inject_Z (zget z k i)).
    { intros w. rewrite Em. unfold Qdiv. ring. }
    match goal with |- context [Qltb ?v 0] => destruct (Qltb v 0) eqn:E end; [|apply V].
    apply Qltb_iff in E. rewrite V in E. assert (0 <= inject_Z (zget z k i)); [|lra].
    change 0 with (inject_Z 0). rewrite <- Zle_Qle. apply Nz; auto. }
  assert (Diag : zget pcm k k = truncate (Qnat nk - f * (Qnat nk - inject_Z d))).
  { rewrite (keep_get srt _ _ _ _ Ek) by lia. rewrite Nat.eqb_refl, Ht. apply truncate_Proper.
    rewrite (Kept k Hk). fold d.
    rewrite (qsum_tab_ext K _ (fun r0 => (if Nat.eqb k r0 then 0 else inject_Z (zget z k r0)) * (1 - f))).
    2:{ intros i Hi. destruct (Nat.eqb k i); [ring|]. rewrite (Kept i Hi). reflexivity. }
    assert (qsum (tab K (fun r0 => (if Nat.eqb k r0 then 0 else inject_Z (zget z k r0)) * (1 - f)))
            == qsum (tab K (fun r0 => if Nat.eqb k r0 then 0 else inject_Z (zget z k r0))) * (1 - f)) as ->.
    { unfold tab. apply (qsum_map_scale_r (fun r0 => if Nat.eqb k r0 then 0 else inject_Z (zget z k r0))). }
    assert (qsum (tab K (fun r0 => if Nat.eqb k r0 then 0 else inject_Z (zget z k r0))) == Qnat nk - inject_Z d) as ->.
    { pose proof (qsum_tab_split K k (fun j => inject_Z (zget z k j)) Hk) as Q.
      assert (qsum (tab K (fun j => inject_Z (zget z k j))) == Qnat nk) as W.
      { unfold Qnat. rewrite <- Sz, <- qsum_inject. rewrite (qsum_as_tab (map inject_Z (nth k z []))), map_length, Lz.
        apply qsum_tab_ext. intros j Hj. rewrite (nth_map_gen inject_Z (nth k z []) j 0 0%Z) by lia. reflexivity. }
      cbv beta in Q. fold d in Q. rewrite W in Q. rewrite Q. ring. }
    ring. }
  rewrite Diag.
  assert (Dn : (0 <= d)%Z) by (unfold d; apply Nz; auto).
  assert (Dle : (d <= Z.of_nat nk)%Z).
  { rewrite <- Sz. pose proof (zsum_as_tab (nth k z [])) as T. rewrite Lz in T. rewrite T.
    rewrite (zsum_tab_split K k (fun j => nth j (nth k z []) 0%Z)) by auto. fold (zget z k k). fold d.
    assert (0 <= zsum (tab K (fun j => if Nat.eqb k j then 0 else nth j (nth k z []) 0)))%Z; [|lia].
    apply zsum_nonneg. intros x Hx. apply in_tab in Hx as (j & Hj & ->). destruct (Nat.eqb k j); [lia|]. apply (Nz j Hj). }
  assert (Q1 : 0 <= inject_Z d) by (change 0 with (inject_Z 0); rewrite <- Zle_Qle; auto).
  assert (Q2 : inject_Z d <= Qnat nk) by (unfold Qnat; rewrite <- Zle_Qle; auto).
  set (x := f * (Qnat nk - inject_Z d)) in *.
  assert (X0 : 0 <= x) by (unfold x; nra). assert (X1 : x <= Qnat nk) by (unfold x; nra).
  unfold truncate. assert (Qle_bool 0 (Qnat nk - x) = true) as -> by (apply Qle_bool_iff; lra).
  pose proof (Qfloor_le (Qnat nk - x)) as F1. pose proof (Qlt_floor (Qnat nk - x)) as F2.
  set (fl := Qfloor (Qnat nk - x)) in *.
  assert (F0 : (0 <= fl)%Z) by (unfold fl; change 0%Z with (Qfloor (inject_Z 0)); apply Qfloor_resp_le; change (inject_Z 0) with 0; lra).
  assert (F3 : (fl <= Z.of_nat nk)%Z).
  { rewrite Zle_Qle. change (inject_Z (Z.of_nat nk)) with (Qnat nk). lra. }
  assert (Qnat (Nat.min (Z.to_nat (Z.of_nat nk - fl)) nk) == Qnat nk - inject_Z fl) as ->.
  { unfold Qnat. replace (Z.of_nat (Nat.min (Z.to_nat (Z.of_nat nk - fl)) nk)) with (Z.of_nat nk + - fl)%Z by lia.
    rewrite inject_Z_plus, inject_Z_opp. reflexivity. }
  rewrite inject_Z_plus in F2. change (inject_Z 1) with 1 in F2. lra.
Qed.
