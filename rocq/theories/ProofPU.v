(** * Proofs for C124: positive-unlabelled learning *)
From Coq Require Import QArith Qabs Qround List ZArith Bool Arith Lia Lqa Permutation.
From Verif Require Import Base BaseFacts ModelUtil ModelCount ModelRank ModelPool ModelFilter ModelLatent ModelBatched ModelLearn
     SpecCount SpecFilter SpecLearn ProofUtil ProofCount ProofFilter ProofFrac ProofLearn.
Import ListNotations.
Open Scope Q_scope.

Lemma n_flagged_zero k labels : forall mask e, n_flagged k labels mask = 0%nat -> (e < length labels)%nat -> label_of labels e = k ->
  flagged mask e -> False.
Proof.
  induction labels as [|l ls IH]; intros [|b bs] [|e] H He El F; cbn in *; try lia; try discriminate.
  - unfold label_of in El. cbn in El. subst l. rewrite Nat.eqb_refl in H. unfold flagged in F. cbn in F. rewrite F in H. discriminate.
  - unfold flagged in F. cbn in F. apply (IH bs e); [lia|lia|exact El|exact F].
Qed.

Lemma mget_transpose K cj i j : (i < K)%nat -> mget (transpose K cj) i j = mget cj j i.
Proof.
  intro H. unfold mget, transpose. rewrite nth_tab by assumption. unfold col.
  destruct (Nat.lt_ge_cases j (length cj)).
  - rewrite (nth_map_gen _ _ _ _ []) by assumption. reflexivity.
  - rewrite nth_overflow by (rewrite map_length; lia). rewrite (nth_overflow cj) by lia. now destruct i.
Qed.

(** a class whose row of the confident joint has no off-diagonal entry has nothing to prune *)
Lemma prune_counts_row_zero srt labels K cj o pcm a j : num_to_remove_per_class o = None ->
  prune_counts srt labels K cj o = Ok pcm -> (a < K)%nat -> (j < K)%nat -> j <> a -> mget cj a j <= 0 ->
  zget pcm j a = 0%Z.
Proof.
  intros Hn H Ha Hj Hne Z. unfold prune_counts in H. rewrite Hn in H. destruct (value_counts labels K); cbn [rbind] in H; [|discriminate].
  destruct (keep_at_least_n_per_class _ _ _ _) as [p|] eqn:E; cbn [rbind] in H; [|discriminate]. injection H as <-.
  assert (L : length (transpose K cj) = K) by (unfold transpose; apply tab_length).
  rewrite (keep_get _ _ _ _ _ E) by lia. destruct (Nat.eqb_spec j a); [congruence|].
  assert (V : mget (kept_mat (transpose K cj) (min_examples_per_class o)) j a == 0).
  { unfold kept_mat. cbv zeta. rewrite L, mget_tab by assumption. destruct (Nat.eqb_spec j a); [congruence|].
    rewrite !nth_tab by assumption. rewrite (mget_transpose K cj j a) by assumption.
    set (d := qmax _ _ - _). set (r := qmax (_ - 1) 1).
    assert (D : 0 <= d). { unfold d. set (x := mget _ a a). destruct (qmax_spec x (Qnat (min_examples_per_class o))) as [[? ->]|[? ->]]; lra. }
    assert (R : 0 < r). { unfold r. set (x := Qnat _ - 1). destruct (qmax_spec x 1) as [[? ->]|[? ->]]; lra. }
    assert (0 <= d / r). { apply Qle_shift_div_l; lra. }
    destruct (Qltb (mget cj a j - d / r) 0) eqn:B; [reflexivity|]. apply Qltb_false in B. lra. }
  rewrite (truncate_Proper _ 0); [reflexivity|]. rewrite V. ring.
Qed.

Lemma noise_free_class srt K labels pp flt o cj m a : argsort_ok srt -> dataset K labels pp ->
  (flt = PruneByNoiseRate \/ flt = Both) -> num_to_remove_per_class o = None -> confident_joint o = Some cj ->
  (forall j, (j < K)%nat -> j <> a -> mget cj a j <= 0) ->
  ModelFilter.find_label_issues srt labels pp K flt o = Ok m ->
  forall e, (e < length labels)%nat -> label_of labels e = a -> ~ flagged m e.
Proof.
  intros Hs Hd Hf Hn Hc Hz Hm e He El F.
  assert (G : exists m', ModelFilter.find_label_issues srt labels pp K PruneByNoiseRate o = Ok m' /\ flagged m' e).
  { destruct Hf as [-> | ->]; [eauto|]. apply find_both_spec in Hm; [|apply (ds_len _ _ _ Hd)].
    destruct Hm as (mc & mn & _ & Hm & _ & Q). exists mn. split; [exact Hm|]. now apply Q. }
  clear F Hm. destruct G as (m' & Hm & F). destruct (C12_full _ _ _ _ _ _ Hs Hd Hm) as (cj' & pcm & mk & Ecj & _ & P & Lm & S & T & Q).
  specialize (Ecj _ Hc). subst cj'. apply Q in F; [|exact He]. destruct F as [F _].
  assert (Ha : (a < K)%nat). { rewrite <- El. unfold label_of. destruct Hd as [_ _ Hl _ _]. apply Hl, nth_In, He. }
  destruct (Nat.le_gt_cases (n_labelled a labels) (Nat.max 1 (min_examples_per_class o))) as [N|N].
  - exact (n_flagged_zero _ _ _ _ (S a Ha N) He El F).
  - destruct (T a Ha N) as [(Tj & _ & W) _]. apply W in F; [|assumption|assumption]. destruct F as (j & Hj & Hne & Z & _).
    rewrite (prune_counts_row_zero _ _ _ _ _ _ a j Hn P Ha Hj Hne (Hz j Hj Hne)) in Z. lia.
Qed.

(** ** Entries *)
Lemma upd_len {A} (l : list A) i v : length (upd l i v) = length l.
Proof. revert i. induction l; intros [|i]; cbn; auto. Qed.
Lemma upd_get {A} (l : list A) i v d k : nth k (upd l i v) d = if (Nat.eqb k i && Nat.ltb i (length l))%bool then v else nth k l d.
Proof.
  revert i k. induction l as [|x l IH]; intros i k; cbn [upd].
  - rewrite andb_false_r. reflexivity.
  - destruct i, k; cbn [nth]; try reflexivity. rewrite IH. reflexivity.
Qed.
Lemma entry_get m i j v k l : mget (set_entry m i j v) k l =
  if (Nat.eqb k i && Nat.ltb i (length m) && Nat.eqb l j && Nat.ltb j (length (nth i m [])))%bool then v else mget m k l.
Proof.
  unfold mget, set_entry. rewrite upd_get. destruct (Nat.eqb_spec k i) as [->|]; cbn [andb]; [|reflexivity].
  destruct (Nat.ltb i (length m)); cbn [andb]; [|reflexivity]. now rewrite upd_get.
Qed.
Lemma entry_zero m i j k l v : (k, l) <> (i, j) -> mget (set_entry (set_entry m k l 0) i j v) k l = 0.
Proof.
  intro H. rewrite entry_get. destruct (Nat.eqb_spec k i) as [->|].
  - destruct (Nat.eqb_spec l j) as [->|]; [congruence|]. rewrite !andb_false_r. cbn [andb].
    rewrite entry_get. rewrite !Nat.eqb_refl. cbn [andb]. destruct (Nat.ltb_spec i (length m)) as [|O]; cbn [andb].
    + destruct (Nat.ltb_spec l (length (nth i m []))) as [|O]; [reflexivity|]. unfold mget. now rewrite nth_overflow.
    + unfold mget. rewrite (nth_overflow m) by exact O. now destruct l.
  - cbn [andb]. rewrite entry_get. rewrite !Nat.eqb_refl. cbn [andb]. destruct (Nat.ltb_spec k (length m)) as [|O]; cbn [andb].
    + destruct (Nat.ltb_spec l (length (nth k m []))) as [|O]; [reflexivity|]. unfold mget. now rewrite nth_overflow.
    + unfold mget. rewrite (nth_overflow m) by exact O. now destruct l.
Qed.
Lemma entry_shape m i j v : length (set_entry m i j v) = length m /\ forall k, length (nth k (set_entry m i j v) []) = length (nth k m []).
Proof.
  unfold set_entry. split; [apply upd_len|]. intro k. rewrite upd_get. destruct (Nat.eqb_spec k i) as [->|]; cbn [andb]; [|reflexivity].
  destruct (Nat.ltb i (length m)); [apply upd_len|reflexivity].
Qed.
Lemma entry_here m i j v : (i < length (set_entry m i j v))%nat -> (j < length (nth i (set_entry m i j v) []))%nat -> mget (set_entry m i j v) i j = v.
Proof.
  destruct (entry_shape m i j v) as [L R]. rewrite L, R. intros Hi Hj. rewrite entry_get, !Nat.eqb_refl.
  apply Nat.ltb_lt in Hi, Hj. now rewrite Hi, Hj.
Qed.

(** ** One call with [pulearning] *)
Definition pu_class (p : bool) : nat := if p then 1%nat else 0%nat.
Definition other (a : nat) : nat := (1 - a)%nat.

Section PU.
  Variable srt : list Q -> list nat.
  Variable minv : matrix -> res matrix.
  Variable js : nat -> jobs.
  Variable cfg : settings.

  Lemma estimate_num ds th nm im n : keeps (fun s => c_num_classes s = n) (estimate_noise srt minv cfg ds th nm im).
  Proof. unfold estimate_noise. keep; try (apply keeps_modify; intros s H; exact H). Qed.

  Lemma pu_find ds th nm im sv s s' t p kw0 : find_label_issues srt minv js cfg ds th nm im sv s = (s', Ok t) ->
    low_memory cfg = false -> pulearning cfg = Some p -> c_num_classes s' = Some 2%nat -> c_kwargs s = Some kw0 ->
    exists kw qk cj, c_kwargs s' = Some kw /\ table_with srt kw qk ds t /\ c_cj s' = Some cj /\
      kw_filter kw = kw_filter kw0 /\ kw_ntr kw = kw_ntr kw0 /\
      (kw_filter kw0 <> Some ConfidentLearning -> kw_cj kw = Some cj) /\
      (exists m, cj = set_entry (set_entry m (pu_class p) (other (pu_class p)) 0) (other (pu_class p)) (other (pu_class p)) 1) /\
      (forall nm', c_noise s' = Some nm' ->
         exists m, nm' = set_entry (set_entry m (pu_class p) (other (pu_class p)) 0) (other (pu_class p)) (other (pu_class p)) 1) /\
      (forall im', c_inverse s' = Some im' ->
         exists m, im' = set_entry (set_entry m (other (pu_class p)) (pu_class p) 0) (pu_class p) (pu_class p) 1).
  Proof.
    intros H LM PU NC K0. unfold find_label_issues in H. rewrite LM, PU in H.
    apply mbind_ok in H. destruct H as (s1 & [] & E1 & H). injection E1 as <- E1.
    destruct (low_trace nm || low_trace im)%bool; [discriminate|].
    apply mbind_ok in H. destruct H as (s2 & K & E2 & H). injection E2 as <- E2.
    apply mbind_ok in H. destruct H as (s3 & [] & E3 & H). injection E3 as <-.
    destruct (_ && _)%bool; [discriminate|].
    apply mbind_ok in H. destruct H as (s4 & [pp m] & E4 & H). cbn [fst snd] in H.
    apply mbind_ok in H. destruct H as (s5 & qk & E5 & H). injection E5 as <- <-.
    destruct (c_quality_kwargs s4) as [[me ad]|] eqn:Q; [|discriminate].
    apply mbind_ok in H. destruct H as (s6 & q & E6 & H). injection E6 as <- E6.
    apply mbind_ok in H. destruct H as (s7 & [] & E7 & H). injection H as <- <-.
    assert (KQ : c_kwargs s7 = c_kwargs s4 /\ c_cj s7 = c_cj s4 /\ c_noise s7 = c_noise s4 /\ c_inverse s7 = c_inverse s4 /\ c_num_classes s7 = c_num_classes s4).
    { destruct sv; injection E7 as <-; repeat split; reflexivity. }
    destruct KQ as (KQ1 & KQ2 & KQ3 & KQ4 & KQ5). rewrite KQ1, KQ2, KQ3, KQ4. rewrite KQ5 in NC. clear KQ1 KQ2 KQ3 KQ4 KQ5 E7.
    set (s3 := set_num_classes s K) in *.
    apply mbind_ok in E4. destruct E4 as (s8 & [] & E8 & E4). apply mbind_ok in E4. destruct E4 as (s9 & pp' & E9 & E4).
    apply mbind_ok in E4. destruct E4 as (s10 & [] & E10 & E4). apply mbind_ok in E4. destruct E4 as (s11 & [] & E11 & E4).
    apply mbind_ok in E4. destruct E4 as (s12 & kw & E12 & E4). injection E12 as <- <-.
    destruct (c_kwargs s11) as [kw|] eqn:KW; [|discriminate].
    apply mbind_ok in E4. destruct E4 as (s13 & m' & E13 & E4). injection E13 as <- E13. injection E4 as <- <- <-.
    assert (P8 : c_kwargs s8 = Some (with_min kw0) /\ c_num_classes s8 = Some K).
    { unfold process_label_issues_kwargs in E8. apply mbind_ok in E8. destruct E8 as (s14 & k & E14 & E8). injection E14 as <- <-.
      change (c_kwargs s3) with (c_kwargs s) in E8. rewrite K0 in E8. destruct (kw_unsupported kw0) eqn:U; [discriminate|].
      apply mbind_ok in E8. destruct E8 as (s15 & [] & E15 & E8). injection E8 as <-.
      destruct (kw_cj kw0); injection E15 as <-; split; reflexivity. }
    destruct P8 as [K8 N8]. pose proof (estimate_num ds th nm im (Some K) s8 N8) as N9. rewrite E9 in N9. cbn [fst] in N9.
    apply estimate_sets in E9. destruct E9 as (P9 & C9 & K9 & Q9). rewrite K8 in K9.
    destruct (c_cj s9) as [cj|] eqn:J9; [|congruence].
    assert (EK : K = 2%nat).
    { apply (f_equal fst) in E11. cbn [fst remember_joint modify] in E11.
      assert (N11 : c_num_classes s11 = c_num_classes s10).
      { rewrite <- E11. destruct (c_kwargs s10) as [k|]; [|reflexivity]. destruct (c_cj s10); [|reflexivity].
        destruct (kw_cj k); [reflexivity|]. destruct (kw_filter k) as [[]|]; reflexivity. }
      assert (N10 : c_num_classes s10 = c_num_classes s9).
      { destruct (Nat.eqb K 2); [|now injection E10 as <-].
        apply (f_equal fst) in E10. cbn [fst pu_adjust modify] in E10. rewrite <- E10.
        destruct (c_noise s9) eqn:X1; cbn; destruct (c_inverse s9) eqn:X2; cbn; rewrite ?J9; cbn; rewrite ?K9; cbn;
        destruct (kw_cj kw0); reflexivity. }
      congruence. }
    subst K. cbn [Nat.eqb] in E10.
    set (a := pu_class p) in *. set (b := other a) in *. set (cj' := set_entry (set_entry cj a b 0) b b 1).
    assert (S10 : c_cj s10 = Some cj' /\
      c_kwargs s10 = Some (match kw_cj kw0 with Some _ => with_cj (with_min kw0) cj' | None => with_min kw0 end) /\
      c_noise s10 = (match c_noise s9 with Some m => Some (set_entry (set_entry m a b 0) b b 1) | None => None end) /\
      c_inverse s10 = (match c_inverse s9 with Some m => Some (set_entry (set_entry m b a 0) a a 1) | None => None end)).
    { apply (f_equal fst) in E10. cbn [fst pu_adjust modify] in E10. rewrite <- E10. fold (pu_class p). fold a. fold (other a). fold b.
      destruct (c_noise s9) eqn:X1; cbn; destruct (c_inverse s9) eqn:X2; cbn; rewrite ?J9; cbn; rewrite ?K9; cbn;
      destruct (kw_cj kw0); cbn; auto. }
    destruct S10 as (J10 & K10 & N10 & I10).
    apply (f_equal fst) in E11. cbn [fst remember_joint modify] in E11. rewrite K10, J10 in E11.
    assert (S11 : c_cj s11 = Some cj' /\ c_noise s11 = c_noise s10 /\ c_inverse s11 = c_inverse s10 /\
      kw_filter kw = kw_filter kw0 /\ kw_ntr kw = kw_ntr kw0 /\ (kw_filter kw0 <> Some ConfidentLearning -> kw_cj kw = Some cj')).
    { subst s11. destruct (kw_cj kw0) as [c0|] eqn:CJ; cbn in KW |- *.
      - rewrite K10 in KW. injection KW as <-. cbn. auto 10.
      - rewrite CJ in KW |- *. destruct (kw_filter kw0) as [f|] eqn:F; [destruct f|]; cbn in KW |- *;
        first [injection KW as <- | rewrite K10 in KW; injection KW as <-]; cbn; rewrite ?F; repeat split; auto; congruence. }
    destruct S11 as (J11 & N11 & I11 & F1 & F2 & F3).
    exists kw, (me, ad), cj'. refine (conj KW (conj _ (conj J11 (conj F1 (conj F2 (conj F3 (conj _ (conj _ _)))))))).
    - exists pp', m', q. refine (conj P9 (conj E13 (conj E6 eq_refl))).
    - exists cj. reflexivity.
    - intros nm'. rewrite N11, N10. destruct (c_noise s9) as [m0|]; [|discriminate]. intro X; injection X as <-. eauto.
    - intros im'. rewrite I11, I10. destruct (c_inverse s9) as [m0|]; [|discriminate]. intro X; injection X as <-. eauto.
  Qed.

  Lemma pu_never ds th nm im sv s s' t p kw0 pp m : find_label_issues srt minv js cfg ds th nm im sv s = (s', Ok t) ->
    argsort_ok srt -> low_memory cfg = false -> pulearning cfg = Some p -> c_num_classes s' = Some 2%nat -> c_kwargs s = Some kw0 ->
    kw_ntr kw0 = None -> (kw_filter kw0 = None \/ kw_filter kw0 = Some PruneByNoiseRate \/ kw_filter kw0 = Some Both) ->
    get_pred_probs ds = Ok pp -> SpecCount.dataset 2 (ds_labels ds) pp -> d_issue t = Some (BoolCol m) ->
    forall e, (e < length (ds_labels ds))%nat -> nth e (ds_labels ds) 0%nat = (if p then 1%nat else 0%nat) -> nth e m false = false.
  Proof.
    intros H Hs LM PU NC K0 NT FL GP DS DI e He El.
    destruct (pu_find _ _ _ _ _ _ _ _ _ _ H LM PU NC K0) as (kw & qk & cj & KW & (pp' & m' & q & GP' & FI & _ & ->) & CJ & F1 & F2 & F3 & (m0 & Ecj) & _).
    rewrite GP in GP'. injection GP' as <-. cbn in DI. injection DI as <-.
    destruct (nth e m' false) eqn:F; [|reflexivity]. exfalso.
    assert (W : width pp = 2%nat).
    { destruct DS as [L1 L2 _ R _]. unfold width. destruct pp as [|r pp]; [cbn in L1; lia|]. cbn. apply R. now left. }
    rewrite W in FI. revert F. fold (flagged m' e).
    eapply (noise_free_class srt 2 (ds_labels ds) pp (filter_of kw) (options_of kw) cj m' (pu_class p)); eauto.
    - unfold filter_of. rewrite F1. destruct FL as [-> | [-> | ->]]; auto.
    - cbn. congruence.
    - cbn. apply F3. destruct FL as [-> | [-> | ->]]; discriminate.
    - intros j Hj Hne. assert (j = other (pu_class p)) as -> by (unfold other; destruct p; cbn in *; lia).
      rewrite Ecj, entry_zero; [lra|]. destruct p; cbn; congruence.
  Qed.

  Lemma pu_entries ds th nm im sv s s' t p : find_label_issues srt minv js cfg ds th nm im sv s = (s', Ok t) ->
    low_memory cfg = false -> pulearning cfg = Some p -> c_num_classes s' = Some 2%nat ->
    forall a b : nat, a = (if p then 1 else 0)%nat -> b = (1 - a)%nat ->
    (forall nm', c_noise s' = Some nm' -> mget nm' a b = 0 /\ ((b < length nm')%nat -> (b < length (nth b nm' []))%nat -> mget nm' b b = 1)) /\
    (forall im', c_inverse s' = Some im' -> mget im' b a = 0 /\ ((a < length im')%nat -> (a < length (nth a im' []))%nat -> mget im' a a = 1)) /\
    exists cj, c_cj s' = Some cj /\ mget cj a b = 0 /\ ((b < length cj)%nat -> (b < length (nth b cj []))%nat -> mget cj b b = 1).
  Proof.
    intros H LM PU NC a b Ea Eb.
    assert (exists kw0, c_kwargs s = Some kw0) as (kw0 & K0).
    { unfold find_label_issues in H. rewrite LM in H.
      apply mbind_ok in H. destruct H as (s1 & [] & E1 & H). injection E1 as <- E1.
      destruct (low_trace nm || low_trace im)%bool; [discriminate|].
      apply mbind_ok in H. destruct H as (s2 & K & E2 & H). injection E2 as <- E2.
      apply mbind_ok in H. destruct H as (s3 & [] & E3 & H). injection E3 as <-.
      destruct (_ && _)%bool; [discriminate|].
      apply mbind_ok in H. destruct H as (s4 & [pp m] & E4 & H). clear H.
      apply mbind_ok in E4. destruct E4 as (s8 & [] & E8 & _). unfold process_label_issues_kwargs in E8. apply mbind_ok in E8.
      destruct E8 as (s9 & k & E9 & E8). injection E9 as <- <-. change (c_kwargs (set_num_classes s K)) with (c_kwargs s) in E8.
      destruct (c_kwargs s); [eauto|discriminate]. }
    destruct (pu_find _ _ _ _ _ _ _ _ _ _ H LM PU NC K0) as (kw & qk & cj & _ & _ & CJ & _ & _ & _ & (m0 & Ecj) & N & I).
    assert (AB : pu_class p = a /\ other (pu_class p) = b) by (subst a b; destruct p; auto). destruct AB as [A B]. rewrite A in *. rewrite B in *.
    assert (D : a <> b) by (subst a b; destruct p; cbn; lia).
    refine (conj _ (conj _ _)).
    - intros nm' E. destruct (N _ E) as (m1 & ->). split; [apply entry_zero; congruence|apply entry_here].
    - intros im' E. destruct (I _ E) as (m1 & ->). split; [apply entry_zero; congruence|apply entry_here].
    - exists cj. split; [exact CJ|]. subst cj. split; [apply entry_zero; congruence|apply entry_here].
  Qed.
End PU.
