(** * find_label_issues always returns; data sets of a single class *)
From Coq Require Import QArith Qabs Qround List ZArith Bool Arith Lia Lqa Sorted.
From Verif Require Import Base BaseFacts ModelUtil ModelCount ModelRank ModelPool ModelFilter SpecCount SpecFilter ProofCount ProofFilter ProofFrac.
Import ListNotations.
Open Scope Q_scope.

Lemma prune_counts_total srt labels K cj o : labels <> [] -> (forall l, In l labels -> (l < K)%nat) -> num_to_remove_per_class o = None ->
  exists pcm, prune_counts srt labels K cj o = Ok pcm.
Proof.
  intros Hne Hl Hn. unfold prune_counts. rewrite value_counts_ok by auto. cbn [rbind].
  unfold keep_at_least_n_per_class. rewrite round_preserving_row_totals_Z. cbn [rbind]. rewrite Hn. eauto.
Qed.
Lemma class_mask_total srt labels pp K pcm o : n_jobs o = 1%nat -> exists m, by_class_mask srt labels pp K pcm o = Ok m.
Proof. intros Hj. unfold by_class_mask. rewrite Hj, run_seq. cbn [rbind]. eauto. Qed.
Lemma noise_mask_total srt labels pp K pcm o : n_jobs o = 1%nat -> exists m, by_noise_rate_mask srt labels pp K pcm o = Ok m.
Proof. intros Hj. unfold by_noise_rate_mask. rewrite Hj, run_seq. cbn [rbind]. eauto. Qed.

Lemma prune_total srt K labels pp flt o : argsort_ok srt -> dataset K labels pp -> num_to_remove_per_class o = None -> n_jobs o = 1%nat ->
  is_prune flt = true \/ flt = ConfidentLearning -> exists r, raw_mask srt labels pp K flt o = Ok r.
Proof.
  intros Hs Hd Hn Hj Hf. unfold raw_mask. destruct (compute_cj_calibrated_ok srt K labels pp Hs Hd) as (zm & E).
  assert (Hx : exists ci, match confident_joint o, flt with
     | Some _, ConfidentLearning | None, _ => do r <- compute_confident_joint srt labels pp K None true ; Ok (zmat_to_q (fst r), snd r)
     | Some cj, _ => Ok (cj, []) end = Ok ci).
  { rewrite E. cbn [rbind]. destruct (confident_joint o); destruct flt; eauto. }
  destruct Hx as (ci & ->). cbn [rbind].
  destruct (prune_counts_total srt labels K (fst ci) o) as (pcm & Hp); [apply Hd|apply Hd|auto|].
  destruct (class_mask_total srt labels pp K pcm o Hj) as (mc & Hc). destruct (noise_mask_total srt labels pp K pcm o Hj) as (mn & Hm).
  destruct flt; destruct Hf as [Hf|Hf]; try discriminate; rewrite ?Hp; cbn [rbind]; rewrite ?Hc, ?Hm; cbn [rbind]; eauto.
Qed.

Lemma find_total srt K labels pp flt o : argsort_ok srt -> dataset K labels pp -> two_classes labels -> num_to_remove_per_class o = None -> n_jobs o = 1%nat ->
  exists m, find_label_issues srt labels pp K flt o = Ok m /\ length m = length labels.
Proof.
  intros Hs Hd H2 Hn Hj.
  assert (G : exists m, find_label_issues srt labels pp K flt o = Ok m).
  2: { destruct G as (m & Hm). exists m. split; auto. eapply find_length; eauto. apply Hd. }
  assert (G : exists r, raw_mask srt labels pp K flt o = Ok r).
  { destruct (is_prune flt) eqn:Ep; [apply prune_total; auto|]. destruct flt; try discriminate.
    - unfold raw_mask. destruct (compute_cj_calibrated_ok srt K labels pp Hs Hd) as (zm & E). rewrite E.
      assert (HK : (2 <= K)%nat) by (destruct H2 as (a & b & Ha & Hb & Hab); pose proof (ds_lab _ _ _ Hd a Ha); pose proof (ds_lab _ _ _ Hd b Hb); lia).
      destruct (scores_ok K labels pp NormalizedMargin false Hd (or_intror HK)) as (sc & Hsc & _).
      rewrite Hsc, (num_label_issues_eq srt K) by auto. destruct (confident_joint o); cbn [rbind]; eauto.
    - unfold raw_mask. destruct (compute_cj_calibrated_ok srt K labels pp Hs Hd) as (zm & E). rewrite E.
      destruct (scores_ok K labels pp SelfConfidence false Hd (or_introl eq_refl)) as (sc & Hsc & _).
      rewrite Hsc, (num_label_issues_eq srt K) by auto. destruct (confident_joint o); cbn [rbind]; eauto.
    - apply prune_total; auto.
    - unfold raw_mask. destruct (compute_cj_calibrated_ok srt K labels pp Hs Hd) as (zm & E). rewrite E. unfold find_predicted_neq_given. rewrite (valid_ok K) by auto.
      destruct (confident_joint o); cbn [rbind]; eauto. }
  destruct G as (r & Hr). unfold find_label_issues. rewrite (valid_ok K) by auto. cbn [rbind]. rewrite Hn, andb_false_r, Hj, Hr. cbn [Nat.ltb Nat.leb rbind]. eauto.
Qed.
Lemma total_full srt K labels pp flt o rank_by adjust : argsort_ok srt -> dataset K labels pp -> two_classes labels -> num_to_remove_per_class o = None -> n_jobs o = 1%nat ->
  exists m idx, find_label_issues srt labels pp K flt o = Ok m /\ length m = length labels /\
    find_label_issues_ranked srt labels pp K flt o rank_by adjust = Ok idx /\ NoDup idx /\ (forall e, In e idx <-> flagged m e).
Proof.
  intros Hs Hd H2 Hn Hj. destruct (find_total srt K labels pp flt o Hs Hd H2 Hn Hj) as (m & Hm & Hl).
  destruct (find_ranked_spec srt K labels pp flt o rank_by adjust m Hs Hd H2 Hm) as (idx & sc & Hi & _ & _ & N & I & _).
  exists m, idx. auto.
Qed.

(** ** A single class *)
Lemma one_unique labels c : labels <> [] -> (forall l, In l labels -> l = c) -> unique labels = [c].
Proof.
  intros Hne H. assert (A : forall x, In x (unique labels) -> x = c) by (intros x Hx; apply H; apply (proj1 (in_unique _ _)) in Hx; auto).
  assert (B : In c (unique labels)). { apply in_unique. destruct labels as [|x t]; [congruence|]. rewrite <- (H x (or_introl eq_refl)). left. auto. }
  pose proof (unique_NoDup labels) as N. destruct (unique labels) as [|a [|b t]]; [contradiction| |].
  - rewrite (A a (or_introl eq_refl)). reflexivity.
  - exfalso. apply NoDup_cons_iff in N as (N & _). apply N. rewrite (A a (or_introl eq_refl)), (A b (or_intror (or_introl eq_refl))). left. auto.
Qed.
Lemma one_set_zero labels c : labels <> [] -> (forall l, In l labels -> l = c) -> set_is_zero labels = Nat.eqb c 0.
Proof. intros Hne H. unfold set_is_zero. rewrite (one_unique labels c) by auto. destruct c; reflexivity. Qed.
Lemma one_rejected labels pp K c : labels <> [] -> (forall l, In l labels -> l = c) -> assert_valid_inputs labels pp K false = Raise ValueError.
Proof. intros Hne H. unfold assert_valid_inputs. rewrite (one_unique labels c) by auto. destruct labels; reflexivity. Qed.
Lemma one_nonzero_raises srt labels pp K flt o c : labels <> [] -> (forall l, In l labels -> l = c) -> c <> 0%nat -> find_label_issues srt labels pp K flt o = Raise ValueError.
Proof.
  intros Hne H Hc. unfold find_label_issues. rewrite (one_set_zero labels c) by auto. destruct (Nat.eqb_spec c 0); [contradiction|]. rewrite (one_rejected labels pp K c) by auto. reflexivity.
Qed.

Section One.
  Variables (srt : list Q -> list nat) (K : nat) (labels : list nat) (pp : list (list Q)).
  Hypothesis Hs : argsort_ok srt.
  Hypothesis Hd : dataset K labels pp.
  Hypothesis H0 : forall l, In l labels -> l = 0%nat.

  Lemma one_K : (0 < K)%nat.
  Proof. destruct Hd as [_ Hne Hl _ _]. destruct labels as [|l t]; [congruence|]. specialize (Hl l (or_introl eq_refl)). lia. Qed.
  Lemma one_counts k : n_labelled k labels = if Nat.eqb k 0 then length labels else 0%nat.
  Proof.
    clear Hd Hs. induction labels as [|l t IH]; [destruct (Nat.eqb k 0); reflexivity|]. cbn [n_labelled length].
    rewrite IH by (intros; apply H0; right; auto). rewrite (H0 l (or_introl eq_refl)). destruct k; reflexivity.
  Qed.
  Lemma one_counted e j : (e < length labels)%nat -> counted_as (get_confident_thresholds labels pp K) (nth e pp []) j -> j = 0%nat.
  Proof.
    intros He Hc. destruct Hd as [Hlen Hne Hl Hr Hp]. assert (Hin : In (nth e pp []) pp) by (apply nth_In; lia). pose proof (Hr _ Hin) as HL.
    assert (R : forall i, reaches (get_confident_thresholds labels pp K) (nth e pp []) i -> i = 0%nat).
    { intros i (Hi & Hge). destruct (Nat.eq_dec i 0); auto. exfalso. rewrite HL in Hi.
      destruct (thresholds_spec labels pp K i Hlen Hi) as (_ & T). assert (N : ~ In i labels) by (intros C; apply H0 in C; contradiction). specialize (T N).
      assert (In (nth i (nth e pp []) 0) (nth e pp [])) by (apply nth_In; lia). destruct (Hp _ _ Hin H). lra. }
    destruct Hc as [(Hc & _)|((a & b & Hab & Ha & Hb) & _)]; [auto|]. exfalso. apply Hab. rewrite (R a Ha), (R b Hb). reflexivity.
  Qed.
  Lemma one_off_diagonal : confident_off_diagonal_indices labels pp (get_confident_thresholds labels pp K) = [].
  Proof.
    destruct Hd as [Hlen Hne Hl Hr Hp].
    destruct (off_diag_spec labels pp (get_confident_thresholds labels pp K) K Hr (thresholds_length _ _ _) Hlen) as (_ & S).
    destruct (confident_off_diagonal_indices labels pp _) as [|e t]; auto. exfalso. destruct (proj1 (S e) (or_introl eq_refl)) as (He & j & Hc & Hj).
    apply one_counted in Hc; auto. subst j. apply Hj. symmetry. apply H0. apply nth_In. auto.
  Qed.
  Lemma one_cell j : (j < K)%nat -> j <> 0%nat -> zget (confident_joint_uncalibrated labels pp K (get_confident_thresholds labels pp K)) 0 j = 0%Z.
  Proof.
    intros Hj Hn. destruct Hd as [Hlen Hne Hl Hr Hp].
    destruct (confident_joint_cell labels pp (get_confident_thresholds labels pp K) K 0 j Hr (thresholds_length _ _ _) Hlen one_K Hj) as (n & (idx & _ & L & I) & ->).
    destruct (Nat.eqb_spec 0 j); [congruence|]. destruct idx as [|e t]; [simpl in L; subst n; reflexivity|]. exfalso.
    destruct (proj1 (I e) (or_introl eq_refl)) as (He & _ & Hc). apply one_counted in Hc; auto.
  Qed.
  Lemma one_calibrated : exists zm, compute_confident_joint srt labels pp K None true = Ok (zm, []) /\ length zm = K /\
    forall i j, (i < K)%nat -> (j < K)%nat -> zget zm i j = if (Nat.eqb i 0 && Nat.eqb j 0)%bool then Z.of_nat (length labels) else 0%Z.
  Proof.
    pose proof one_off_diagonal as OD. pose proof one_cell as OC. pose proof one_K as OK. destruct Hd as [Hlen Hne Hl Hr Hp]. unfold compute_confident_joint. rewrite OD.
    destruct (calibrate_spec srt K _ labels Hs (uncalibrated_cj_ok labels pp (get_confident_thresholds labels pp K) K) Hne Hl) as (zm & -> & Lz & S).
    cbn [rbind]. exists zm. split; [reflexivity|]. split; [auto|].
    assert (Off : forall i j, (i < K)%nat -> (j < K)%nat -> (i <> 0 \/ j <> 0)%nat -> zget zm i j = 0%Z).
    { intros i j Hi Hj Hij. destruct (S i Hi) as (Li & Su & Ce). destruct (Nat.eq_dec i 0) as [->|Ni].
      - destruct (Ce j Hj) as (Nn & Ab). rewrite zmat_get, OC in Ab by lia. 
        assert (E : inject_Z 0 * Qnat (n_labelled 0 labels) / qsum (nth 0 (zmat_to_q (confident_joint_uncalibrated labels pp K (get_confident_thresholds labels pp K))) []) == 0) by (change (inject_Z 0) with 0; unfold Qdiv; ring).
        rewrite E in Ab. assert (E2 : inject_Z (zget zm 0 j) - 0 == inject_Z (zget zm 0 j)) by ring. rewrite E2 in Ab.
        rewrite Qabs_pos in Ab by (change 0 with (inject_Z 0); rewrite <- Zle_Qle; auto). change 1 with (inject_Z 1) in Ab. rewrite <- Zlt_Qlt in Ab. lia.
      - rewrite one_counts in Su. destruct (Nat.eqb_spec i 0); [contradiction|]. 
        assert (Z0 : forall l, zsum l = 0%Z -> (forall x, In x l -> (0 <= x)%Z) -> forall x, In x l -> x = 0%Z).
        { induction l as [|a l IH]; intros Hsum Hnn x Hx; [contradiction|]. change (zsum (a :: l)) with (a + zsum l)%Z in Hsum.
          assert (0 <= zsum l)%Z. { clear -Hnn. induction l as [|b l IH]; [reflexivity|]. change (zsum (b :: l)) with (b + zsum l)%Z. pose proof (Hnn b (or_intror (or_introl eq_refl))). assert (0 <= zsum l)%Z by (apply IH; intros x [<-|Hx]; apply Hnn; simpl; auto). lia. }
          pose proof (Hnn a (or_introl eq_refl)). destruct Hx as [<-|Hx]; [lia|]. apply IH; auto; [lia|]. intros y Hy. apply Hnn. right. auto. }
        unfold zget. apply (Z0 (nth i zm [])); auto.
        + intros x Hx. apply (In_nth _ _ 0%Z) in Hx as (j' & Hj' & <-). apply Ce. lia.
        + apply nth_In. lia. }
    intros i j Hi Hj. destruct (Nat.eqb_spec i 0) as [->|Ni]; [|rewrite Off by auto; reflexivity]. destruct (Nat.eqb_spec j 0) as [->|Nj]; [|rewrite Off by auto; reflexivity].
    cbn [andb]. destruct (S 0%nat Hi) as (Li & Su & _). rewrite one_counts in Su. cbn [Nat.eqb] in Su. rewrite <- Su.
    destruct (nth 0 zm []) as [|a t] eqn:E; [simpl in Li; lia|].
    assert (Ht : zsum t = 0%Z).
    { assert (forall x, In x t -> x = 0%Z). { intros x Hx. apply (In_nth _ _ 0%Z) in Hx as (j & Hj' & <-). specialize (Off 0%nat (Datatypes.S j) Hi). unfold zget in Off. rewrite E in Off. apply Off; [simpl in Li; lia|auto]. }
      clear -H. induction t as [|x t IH]; [reflexivity|]. change (x + zsum t = 0)%Z. rewrite IH by (intros; apply H; right; auto). rewrite (H x (or_introl eq_refl)). reflexivity. }
    unfold zget. rewrite E. cbn [nth]. change (zsum (a :: t)) with (a + zsum t)%Z. lia.
  Qed.
  Lemma one_prune_counts zm o pcm : length zm = K ->
    (forall i j, (i < K)%nat -> (j < K)%nat -> zget zm i j = if (Nat.eqb i 0 && Nat.eqb j 0)%bool then Z.of_nat (length labels) else 0%Z) ->
    num_to_remove_per_class o = None -> prune_counts srt labels K (zmat_to_q zm) o = Ok pcm ->
    (forall j, (j < K)%nat -> j <> 0%nat -> zget pcm j 0 = 0%Z) /\ (Z.of_nat (length labels) <= zget pcm 0 0)%Z.
  Proof.
    intros Lz Hz Hn. pose proof one_K as HK0. unfold prune_counts. rewrite value_counts_ok by apply Hd. cbn [rbind].
    unfold keep_at_least_n_per_class. rewrite round_preserving_row_totals_Z, Hn. cbn [rbind]. intros H; inversion H; subst pcm; clear H.
    set (m := transpose K (zmat_to_q zm)). assert (Lm : length m = K) by (unfold m, transpose; apply tab_length). rewrite Lm.
    assert (Hm : forall i j, (i < K)%nat -> (j < K)%nat -> mget m i j == if (Nat.eqb i 0 && Nat.eqb j 0)%bool then Qnat (length labels) else 0).
    { intros i j Hi Hj. unfold m. rewrite mget_transpose, zmat_get, Hz by (auto; unfold zmat_to_q; rewrite map_length; lia). rewrite (andb_comm (Nat.eqb j 0)). destruct (Nat.eqb i 0 && Nat.eqb j 0)%bool; reflexivity. }
    set (n := min_examples_per_class o). set (nd := tab K (fun k => qmax (mget m k k) (Qnat n))).
    set (nm := tab K _). assert (Ln : length nm = K) by (unfold nm; apply tab_length). unfold reduce_prune_counts. rewrite Ln.
    assert (Hnm : forall i j, (i < K)%nat -> (j < K)%nat -> if Nat.eqb i j then mget nm i j == qmax (mget m i i) (Qnat n) else (j = 0%nat -> mget nm i j == 0)).
    { intros i j Hi Hj. unfold nm. rewrite mget_tab by auto. destruct (Nat.eqb_spec i j) as [->|N].
      - unfold nd. rewrite nth_tab by auto. reflexivity.
      - intros ->. match goal with |- context [Qltb ?v 0] => destruct (Qltb v 0) eqn:E end; [reflexivity|]. apply Qltb_false in E.
        assert (Hi0 : mget m i 0 == 0) by (rewrite Hm by auto; destruct (Nat.eqb_spec i 0); [contradiction|reflexivity]).
        rewrite nth_tab in * by auto. unfold nd in *. rewrite nth_tab in * by auto. rewrite Hi0 in *. 
        set (d := qmax (mget m 0 0) (Qnat n) - mget m 0 0) in *. rewrite nth_tab in * by auto. set (q := qmax (_ - 1) 1) in *.
        assert (0 <= d) by (unfold d; destruct (qmax_spec (mget m 0 0) (Qnat n)) as [(? & ->)|(? & ->)]; lra).
        assert (1 <= q) by (unfold q; match goal with |- 1 <= qmax ?a 1 => destruct (qmax_spec a 1) as [(? & ->)|(? & ->)]; lra end).
        assert (0 <= d / q) by (apply Qle_shift_div_l; lra). lra. }
    split.
    - intros j Hj Nj. rewrite zmap_get by (rewrite ?nth_tab, ?tab_length by auto; rewrite ?tab_length; auto). rewrite mget_tab by auto. destruct (Nat.eqb_spec j 0); [contradiction|].
      rewrite mget_tab by auto. destruct (Nat.eqb_spec j 0); [contradiction|]. specialize (Hnm j 0%nat Hj HK0). destruct (Nat.eqb_spec j 0); [contradiction|].
      specialize (Hnm eq_refl). assert (E : mget nm j 0 * frac_noise o == 0) by (rewrite Hnm; ring).
      unfold truncate. destruct (Qle_bool 0 (mget nm j 0 * frac_noise o)); [rewrite (Qfloor_comp _ _ E)|rewrite (Qceiling_comp _ _ E)]; reflexivity.
    - rewrite zmap_get by (rewrite ?nth_tab, ?tab_length by auto; rewrite ?tab_length; auto). rewrite mget_tab by auto. cbn [Nat.eqb]. apply truncate_ge.
      assert (0 <= qsum (tab K (fun r => mget nm r 0 - mget (tab K (fun i => tab K (fun j => if Nat.eqb i j then mget nm i j else mget nm i j * frac_noise o))) r 0))).
      { apply qsum_nonneg. intros x Hx. apply in_tab in Hx as (r & Hr & ->). rewrite mget_tab by auto. specialize (Hnm r 0%nat Hr HK0). destruct (Nat.eqb r 0); [lra|]. specialize (Hnm eq_refl). rewrite Hnm. lra. }
      pose proof (Hnm 0%nat 0%nat HK0 HK0) as D. cbn [Nat.eqb] in D. pose proof (Hm 0%nat 0%nat HK0 HK0) as D2. cbn [Nat.eqb andb] in D2.
      assert (Qnat (length labels) <= qmax (mget m 0 0) (Qnat n)) by (destruct (qmax_spec (mget m 0 0) (Qnat n)) as [(? & ->)|(? & ->)]; lra). lra.
  Qed.
  Lemma flagged_counts M e : length M = length labels -> flagged M e -> (1 <= n_flagged 0 labels M)%nat.
  Proof.
    clear Hd Hs. revert M e. induction labels as [|l t IH]; intros [|b M] e L F; try discriminate; [unfold flagged in F; destruct e; discriminate|].
    cbn [n_flagged]. rewrite (H0 l (or_introl eq_refl)). cbn [Nat.eqb]. destruct e as [|e]; [unfold flagged in F; cbn [nth] in F; subst b; lia|].
    assert (1 <= n_flagged 0 t M)%nat by (apply (IH (fun l Hl => H0 l (or_intror Hl)) M e); [simpl in L; lia|exact F]). lia.
  Qed.
  Lemma one_by_class pcm o M : (Z.of_nat (length labels) <= zget pcm 0 0)%Z -> by_class_mask srt labels pp K pcm o = Ok M -> forall e, ~ flagged M e.
  Proof.
    intros Hp HM e He. destruct (by_class_spec srt labels pp K pcm o M Hs Hd HM) as (L & A & B & _). pose proof (flagged_counts M e L He) as C.
    pose proof (one_counts 0) as N. cbn [Nat.eqb] in N. pose proof one_K as HK0. specialize (A 0%nat HK0). specialize (B 0%nat HK0). rewrite N in *.
    destruct (Nat.lt_ge_cases (length labels) 2) as [G|G]; [specialize (B G); lia|]. specialize (A G).
    destruct (Nat.leb (length labels) (min_examples_per_class o)); lia.
  Qed.
  Lemma one_by_noise pcm o M : (forall j, (j < K)%nat -> j <> 0%nat -> zget pcm j 0 = 0%Z) -> by_noise_rate_mask srt labels pp K pcm o = Ok M -> forall e, ~ flagged M e.
  Proof.
    intros Hp HM e He. destruct (by_noise_rate_spec srt labels pp K pcm o M Hs Hd HM) as (L & A & B). pose proof (flagged_counts M e L He) as C.
    pose proof (one_counts 0) as N. cbn [Nat.eqb] in N. pose proof one_K as HK0. specialize (A 0%nat HK0). specialize (B 0%nat HK0). rewrite N in *.
    destruct (Nat.le_gt_cases (length labels) (Nat.max 1 (min_examples_per_class o))) as [G|G]; [specialize (A G); lia|]. destruct (B G) as ((T & _ & F) & _).
    assert (Le : (e < length labels)%nat) by (rewrite <- L; apply flagged_lt; auto). assert (E0 : label_of labels e = 0%nat) by (apply H0; apply nth_In; auto).
    destruct (proj1 (F e Le E0) He) as (j & Hj & Nj & P & _). rewrite Hp in P by auto. lia.
  Qed.
  Lemma one_class_full flt o : num_to_remove_per_class o = None -> n_jobs o = 1%nat -> confident_joint o = None ->
    (flt = ConfidentLearning \/ flt = PruneByNoiseRate \/ flt = PruneByClass \/ flt = Both -> exists m, find_label_issues srt labels pp K flt o = Ok m /\ length m = length labels /\ forall e, ~ flagged m e) /\
    (flt = PredictedNeqGiven \/ flt = LowSelfConfidence \/ (flt = LowNormalizedMargin /\ (2 <= K)%nat) -> find_label_issues srt labels pp K flt o = Raise ValueError).
  Proof.
    intros Hn Hj Hc. pose proof (ds_ne _ _ _ Hd) as Hne. pose proof (ds_len _ _ _ Hd) as Hlen. destruct one_calibrated as (zm & Ez & Lz & Cz).
    assert (V : assert_valid_inputs labels pp K (set_is_zero labels) = Ok tt) by (apply valid_ok; auto; left; rewrite (one_set_zero labels 0) by auto; reflexivity).
    assert (W : assert_valid_inputs labels pp K false = Raise ValueError) by (apply (one_rejected labels pp K 0); auto).
    destruct (prune_counts_total srt labels K (zmat_to_q zm) o Hne (ds_lab _ _ _ Hd) Hn) as (pcm & Hp). destruct (one_prune_counts zm o pcm Lz Cz Hn Hp) as (P1 & P2).
    destruct (class_mask_total srt labels pp K pcm o Hj) as (mc & Mc). destruct (noise_mask_total srt labels pp K pcm o Hj) as (mn & Mn).
    pose proof (one_by_class pcm o mc P2 Mc) as Fc. pose proof (one_by_noise pcm o mn P1 Mn) as Fn.
    split.
    - intros Hf. assert (G : exists r, raw_mask srt labels pp K flt o = Ok r /\ forall e, ~ flagged r e).
      { unfold raw_mask. rewrite Hc, Ez. cbn [rbind fst snd]. destruct Hf as [->|[->|[->| ->]]].
        - eexists. split; [reflexivity|]. intros e He. apply mask_of_flag in He as (_ & []).
        - rewrite Hp. cbn [rbind]. rewrite Mn. eauto.
        - rewrite Hp. cbn [rbind]. rewrite Mc. eauto.
        - rewrite Hp. cbn [rbind]. rewrite Mc. cbn [rbind]. rewrite Mn. cbn [rbind]. eexists. split; [reflexivity|]. intros e He.
          destruct (by_class_spec srt labels pp K pcm o mc Hs Hd Mc) as (L1 & _). destruct (by_noise_rate_spec srt labels pp K pcm o mn Hs Hd Mn) as (L2 & _).
          apply combine_and_flag in He; [|lia]. destruct He as (He & _). exact (Fn e He). }
      destruct G as (r & Hr & Fr). pose proof (raw_mask_length _ _ _ _ _ _ _ Hlen Hr) as Lr. exists (clear_where r (reduce_issues pp labels)).
      assert (E : find_label_issues srt labels pp K flt o = Ok (clear_where r (reduce_issues pp labels))).
      { unfold find_label_issues. rewrite V. cbn [rbind]. rewrite Hn, andb_false_r, Hj, Hr. cbn [Nat.ltb Nat.leb rbind]. destruct Hf as [->|[->|[->| ->]]]; reflexivity. }
      split; [exact E|]. split; [eapply find_length; eauto|]. intros e He. apply clear_where_sub in He; [exact (Fr e He)|]. rewrite reduce_length; auto.
    - intros Hf. unfold find_label_issues. rewrite V. cbn [rbind]. rewrite Hn, andb_false_r, Hj. unfold raw_mask. rewrite Hc, Ez. cbn [Nat.ltb Nat.leb rbind fst snd]. destruct Hf as [->|[->|(-> & HK)]].
      + unfold find_predicted_neq_given. rewrite W. reflexivity.
      + destruct (scores_ok K labels pp SelfConfidence false Hd (or_introl eq_refl)) as (sc & -> & _). unfold num_label_issues. rewrite W. reflexivity.
      + destruct (scores_ok K labels pp NormalizedMargin false Hd (or_intror HK)) as (sc & -> & _). unfold num_label_issues. rewrite W. reflexivity.
  Qed.
End One.
