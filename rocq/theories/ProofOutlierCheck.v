(** * Proofs about Datalab's outlier flags *)
From Coq Require Import QArith Qround Qreals Reals List Bool Arith Permutation Sorted Lia Lqa Setoid.
From Coq Require Lra.
From Verif Require Import Base BaseFacts ModelKnn SpecKnn ProofKnnDup ModelOutlier SpecOutlier ProofOutlier ModelOutlierCheck SpecOutlierCheck.
From Verif Require SpecNoniid ProofNoniid ProofKnn.
Import ListNotations.
Open Scope Q_scope.

(** ** Sorted lists and quantiles *)
Lemma sorted_nth_le s i j : StronglySorted Qle s -> (i <= j)%nat -> (j < length s)%nat -> nth i s 0 <= nth j s 0.
Proof.
  intros H. revert i j. induction H as [|x t Hs IH F]; intros i j Hij Hj; cbn in Hj. lia.
  destruct i as [|i], j as [|j]; cbn [nth]; try lia; try lra.
  - rewrite Forall_forall in F. apply F, nth_In. lia.
  - apply IH; lia.
Qed.
Lemma sorted_countQ s x k : StronglySorted Qle s -> (k < length s)%nat ->
  (nth k s 0 <= x <-> (k < SpecNoniid.how_many (fun d => Qleb d x) s)%nat).
Proof.
  intros Hs. revert k. induction Hs as [|y t H IH F]; intros k Hk; cbn [length] in Hk. lia.
  unfold SpecNoniid.how_many in *. cbn [filter]. destruct (Qleb y x) eqn:E.
  - apply Qle_bool_iff in E. cbn [length]. destruct k as [|k]; cbn [nth]. split; [lia|auto]. rewrite IH by lia. lia.
  - assert (E' : ~ y <= x). { intros C. apply Qle_bool_iff in C. unfold Qleb in E. congruence. }
    assert (Z : filter (fun d => Qleb d x) t = []).
    { clear -F E'. induction F as [|a t Ha F IH]; cbn; auto. destruct (Qleb a x) eqn:E2; auto.
      apply Qle_bool_iff in E2. exfalso. apply E'. lra. }
    rewrite Z. cbn [length]. split; [|lia]. intros C. exfalso. apply E'. destruct k as [|k]; cbn [nth] in C; auto.
    rewrite Forall_forall in F. assert (y <= nth k t 0) by (apply F, nth_In; lia). lra.
Qed.
Lemma sorted_unique s s' k : StronglySorted Qle s -> StronglySorted Qle s' -> Permutation s s' -> nth k s 0 == nth k s' 0.
Proof.
  intros H H' P. pose proof (Permutation_length P) as L. destruct (le_lt_dec (length s) k) as [G|G].
  { rewrite !nth_overflow by lia. reflexivity. }
  assert (A : forall x, nth k s 0 <= x <-> nth k s' 0 <= x).
  { intros x. rewrite !sorted_countQ by (auto; lia). rewrite (ProofNoniid.how_many_perm _ _ _ P). reflexivity. }
  apply Qle_antisym; apply A; lra.
Qed.
Lemma Qnat_lt' a b : Qnat a < Qnat b <-> (a < b)%nat.
Proof. unfold Qnat, Qlt. cbn. lia. Qed.
Lemma Qnat_le' a b : Qnat a <= Qnat b <-> (a <= b)%nat.
Proof. unfold Qnat, Qle. cbn. lia. Qed.
Lemma quantile_mono l p1 p2 q1 q2 : p1 <= p2 -> p2 <= 1 -> is_quantile p1 l q1 -> is_quantile p2 l q2 -> q1 <= q2.
Proof.
  intros Hp Hp1 (s & lo1 & f1 & P1 & S1 & L1 & F1 & E1 & Q1) (s' & lo2 & f2 & P2 & S2 & L2 & F2 & E2 & Q2).
  assert (PS : Permutation s' s) by (rewrite P2; symmetry; auto).
  rewrite (sorted_unique s' s lo2), (sorted_unique s' s (S lo2)) in Q2 by auto. clear s' P2 S2 PS.
  assert (Ls : length s = length l) by (apply Permutation_length; auto).
  assert (N0 : 0 <= Qnat (length l - 1)) by apply ProofNoniid.Qnat_nonneg.
  assert (Hpos : Qnat lo1 + f1 <= Qnat lo2 + f2) by nra.
  assert (Htop : Qnat lo2 + f2 <= Qnat (length l - 1)) by nra.
  assert (Hlo : (lo1 <= lo2)%nat).
  { destruct (le_lt_dec lo1 lo2) as [|G]; auto. assert (Qnat lo2 + 1 <= Qnat lo1). { rewrite <- ProofNoniid.Qnat_S1. apply Qnat_le'. lia. } lra. }
  (* the upper neighbour matters only when it exists *)
  assert (U : (S lo2 < length l)%nat \/ f2 == 0).
  { destruct (le_lt_dec (length l) (S lo2)); [right|left; auto]. replace (length l - 1)%nat with lo2 in Htop by lia. lra. }
  assert (U2 : nth lo2 s 0 <= q2).
  { rewrite Q2. destruct U as [U|U]. pose proof (sorted_nth_le s lo2 (S lo2) S1 ltac:(lia) ltac:(lia)). nra. rewrite U. lra. }
  destruct (Nat.eq_dec lo1 lo2) as [->|NE].
  - rewrite Q1, Q2. destruct U as [U|U]. pose proof (sorted_nth_le s lo2 (S lo2) S1 ltac:(lia) ltac:(lia)). nra.
    assert (f1 == 0) by lra. rewrite U, H. lra.
  - pose proof (sorted_nth_le s lo1 (S lo1) S1 ltac:(lia) ltac:(lia)). pose proof (sorted_nth_le s (S lo1) lo2 S1 ltac:(lia) ltac:(lia)).
    assert (q1 <= nth (S lo1) s 0) by (rewrite Q1; nra). lra.
Qed.
Lemma quantile_unique l p q1 q2 : p <= 1 -> is_quantile p l q1 -> is_quantile p l q2 -> q1 == q2.
Proof. intros. apply Qle_antisym; eapply quantile_mono with (p1 := p) (p2 := p); eauto; lra. Qed.
Lemma quantile_perm l l' p q : Permutation l l' -> is_quantile p l q -> is_quantile p l' q.
Proof.
  intros P (s & lo & fr & H1 & H2 & H3 & H4 & H5 & H6). pose proof (Permutation_length P) as L.
  exists s, lo, fr. rewrite <- L. repeat split; auto; try tauto. rewrite H1. auto.
Qed.
Lemma SS_scale c s : 0 < c -> StronglySorted Qle s -> StronglySorted Qle (map (Qmult c) s).
Proof.
  intros Hc. induction 1 as [|x t H IH F]; cbn; constructor; auto.
  apply Forall_forall. intros y Hy. apply in_map_iff in Hy as (z & <- & Hz). rewrite Forall_forall in F. specialize (F z Hz). nra.
Qed.
Lemma nth_scale c s k : nth k (map (Qmult c) s) 0 == c * nth k s 0.
Proof. revert k. induction s; intros [|k]; cbn [map nth]; try ring. apply IHs. Qed.
Lemma quantile_scale c l p q : 0 < c -> is_quantile p l q -> is_quantile p (map (Qmult c) l) (c * q).
Proof.
  intros Hc (s & lo & fr & H1 & H2 & H3 & H4 & H5 & H6).
  exists (map (Qmult c) s), lo, fr. rewrite map_length.
  refine (conj _ (conj _ (conj H3 (conj H4 (conj H5 _))))).
  - apply Permutation_map. auto.
  - apply SS_scale; auto.
  - rewrite !nth_scale, H6. ring.
Qed.
Lemma floor_nat q : 0 <= q -> Qnat (Z.to_nat (Qfloor q)) <= q /\ q < Qnat (Z.to_nat (Qfloor q)) + 1.
Proof.
  intros H. assert (0 <= Qfloor q)%Z. { change 0%Z with (Qfloor 0). apply Qfloor_resp_le. auto. }
  unfold Qnat. rewrite Z2Nat.id by auto. split. apply Qfloor_le. pose proof (Qlt_floor q) as L. rewrite inject_Z_plus in L. exact L.
Qed.
Lemma percentile_ok srt l p : argsort_ok srt -> l <> [] -> 0 <= p <= 1 -> is_quantile p l (percentile srt l p).
Proof.
  intros Hs Hl Hp. destruct (Hs l) as (A1 & A2). unfold percentile.
  set (s := take_idx 0 l (srt l)). set (pos := p * Qnat (length l - 1)). set (lo := Z.to_nat (Qfloor pos)).
  assert (N0 : 0 <= Qnat (length l - 1)) by apply ProofNoniid.Qnat_nonneg.
  assert (P0 : 0 <= pos) by (unfold pos; nra). assert (P1 : pos <= Qnat (length l - 1)) by (unfold pos; nra).
  destruct (floor_nat pos P0) as [B1 B2]. fold lo in B1, B2.
  assert (Hn : (0 < length l)%nat) by (destruct l; [congruence|cbn; lia]).
  assert (Hlo : (lo <= length l - 1)%nat) by (apply Qnat_le'; lra).
  exists s, lo, (pos - Qnat lo). refine (conj _ (conj _ (conj _ (conj _ (conj _ _))))).
  - apply take_perm; auto.
  - apply SS_take; auto.
  - lia.
  - lra.
  - change (p * Qnat (length l - 1)) with pos. clearbody pos lo. ring.
  - destruct (le_lt_dec (length l) (lo + 1)) as [G|G].
    + assert (E : lo = (length l - 1)%nat) by lia. assert (Z : pos - Qnat lo == 0). { rewrite <- E in P1. lra. } rewrite Z. ring.
    + rewrite Nat.min_l by lia. rewrite Nat.add_1_r. ring.
Qed.

(** ** The issue column *)
Definition used_threshold (threshold : option Q) : Q := match threshold with Some t => t | None => 37037 # 100000 end.
Lemma mean_nth dist i : (i < length dist)%nat -> nth i (map qmean dist) 0 = mean_distance dist i.
Proof. intros H. rewrite (nth_map_gen _ _ _ _ []) by auto. reflexivity. Qed.
Lemma used_threshold_range threshold : (match threshold with Some t => t == 0 \/ 0 <= t <= 1 | None => True end) -> 0 <= used_threshold threshold <= 1.
Proof. destruct threshold as [t|]; cbn; intros H. destruct H as [H|H]; [rewrite H; lra|lra]. split; unfold Qle; cbn; lia. Qed.

Lemma column_ok srt dist threshold c : argsort_ok srt -> threshold_and_issue_column srt dist threshold = Ok c ->
  dist <> [] /\ 0 <= used_threshold threshold <= 1 /\
  snd c = map (fun x => above x (compute_issue_threshold srt (map qmean dist) (used_threshold threshold))) (map qmean dist).
Proof.
  intros Hs H. unfold threshold_and_issue_column in H.
  assert (D : forall t, (match threshold with None => default_features | Some t => t end) = t -> t = used_threshold threshold).
  { intros t <-. destruct threshold; reflexivity. }
  destruct (match threshold with Some t => _ | None => _ end) as [u|] eqn:E1; [|discriminate]. cbn [rbind] in H.
  destruct dist as [|r t]; [discriminate|]. injection H as <-. cbn [snd]. split; [discriminate|]. split.
  - apply used_threshold_range. destruct threshold as [q|]; auto. destruct (Qeq_bool q 0) eqn:E2.
    + left. apply Qeq_bool_iff in E2. auto.
    + right. destruct (Qleb 0 q && Qleb q 1) eqn:E3; [|discriminate]. apply andb_true_iff in E3 as [X Y].
      apply Qle_bool_iff in X, Y. auto.
  - rewrite (D _ eq_refl). reflexivity.
Qed.

Lemma flag_iff srt dist thr i : argsort_ok srt -> 0 <= thr <= 1 -> (i < length dist)%nat ->
  (flagged (map (fun x => above x (compute_issue_threshold srt (map qmean dist) thr)) (map qmean dist)) i <->
   0 < thr /\ percentile srt (map qmean dist) (3 # 4) + (1 / thr - 1) * (percentile srt (map qmean dist) (3 # 4) - percentile srt (map qmean dist) (1 # 4))
     < mean_distance dist i).
Proof.
  intros Hs Ht Hi. unfold flagged. rewrite (nth_map_gen _ _ _ _ 0) by (rewrite map_length; auto). rewrite mean_nth by auto.
  unfold compute_issue_threshold. destruct (Qeq_bool thr 0) eqn:E.
  - apply Qeq_bool_iff in E. split; [|intros [X _]; lra]. destruct (Qeq_bool _ 0); cbn; discriminate.
  - cbn [above]. rewrite Qltb_iff. unfold iqr. split; [|tauto]. intros X. split; auto.
    apply Qeq_bool_neq in E. destruct (Qlt_le_dec 0 thr); auto. exfalso. apply E. lra.
Qed.

Lemma knn_ok srt t mt sc threshold dist flags scores : argsort_ok srt ->
  knn_issues srt t mt sc threshold dist = Ok (flags, scores) ->
  dist <> [] /\ 0 <= used_threshold threshold <= 1 /\
  flags = map (fun x => above x (compute_issue_threshold srt (map qmean dist) (used_threshold threshold))) (map qmean dist).
Proof.
  intros Hs H. unfold knn_issues in H. destruct (threshold_and_issue_column srt dist threshold) as [c|] eqn:E; [|discriminate].
  cbn [rbind] in H. cbv zeta in H. destruct (match mt with Some m => _ | None => _ end) as [s|] eqn:E2; [|discriminate]. cbn [rbind] in H.
  apply (column_ok srt) in E; auto. destruct E as (A & B & C). assert (flags = snd c) by congruence. subst. auto.
Qed.

Lemma C85_flags_full srt t mt sc threshold dist flags scores : argsort_ok srt ->
  knn_issues srt t mt sc threshold dist = Ok (flags, scores) ->
  length flags = length dist /\
  exists q1 q3, is_quantile (1 # 4) (map (mean_distance dist) (seq 0 (length dist))) q1 /\
                is_quantile (3 # 4) (map (mean_distance dist) (seq 0 (length dist))) q3 /\
    forall i, (i < length dist)%nat ->
      (flagged flags i <-> let thr := match threshold with Some t => t | None => 37037 # 100000 end in
                           0 < thr /\ q3 + (1 / thr - 1) * (q3 - q1) < mean_distance dist i).
Proof.
  intros Hs H. destruct (knn_ok _ _ _ _ _ _ _ _ Hs H) as (NE & Ht & ->). split. { rewrite !map_length. reflexivity. }
  assert (EM : map (mean_distance dist) (seq 0 (length dist)) = map qmean dist).
  { apply nth_ext with (d := 0) (d' := 0). rewrite !map_length, seq_length. reflexivity.
    intros i Hi. rewrite map_length, seq_length in Hi. rewrite mean_nth by auto.
    rewrite (nth_map_gen _ _ _ _ 0%nat) by (rewrite seq_length; auto). rewrite seq_nth by auto. reflexivity. }
  assert (NM : map qmean dist <> []) by (intros C; apply map_eq_nil in C; auto).
  exists (percentile srt (map qmean dist) (1 # 4)), (percentile srt (map qmean dist) (3 # 4)). rewrite EM.
  split; [apply percentile_ok; auto; split; unfold Qle; cbn; lia|].
  split; [apply percentile_ok; auto; split; unfold Qle; cbn; lia|].
  intros i Hi. rewrite (flag_iff srt) by auto. reflexivity.
Qed.

Lemma iqr_nonneg srt l : argsort_ok srt -> l <> [] -> 0 <= percentile srt l (3 # 4) - percentile srt l (1 # 4).
Proof.
  intros Hs Hl. assert (percentile srt l (1 # 4) <= percentile srt l (3 # 4)); [|lra].
  apply (quantile_mono l (1 # 4) (3 # 4)); try apply percentile_ok; auto; try split; unfold Qle; cbn; lia.
Qed.
Lemma scale_nonneg thr : 0 < thr -> thr <= 1 -> 0 <= 1 / thr - 1.
Proof. intros H1 H2. assert (1 <= 1 / thr); [|lra]. apply Qle_shift_div_l; auto. lra. Qed.

(** at most about a quarter *)
Lemma how_many_app_le (f : Q -> bool) s lo : (forall k, (k <= lo)%nat -> (k < length s)%nat -> f (nth k s 0) = false) -> (lo < length s)%nat ->
  (SpecNoniid.how_many f s <= length s - S lo)%nat.
Proof.
  intros H Hlo. rewrite <- (firstn_skipn (S lo) s), ProofNoniid.how_many_app, app_length, firstn_length, skipn_length.
  assert (Z : SpecNoniid.how_many f (firstn (S lo) s) = 0%nat).
  { unfold SpecNoniid.how_many. assert (G : forall x, In x (firstn (S lo) s) -> f x = false).
    { intros x Hx. apply (In_nth _ _ 0) in Hx as (k & Hk & <-). rewrite firstn_length in Hk. rewrite ProofKnn.nth_firstn by lia. apply H; lia. }
    revert G. generalize (firstn (S lo) s) as l. induction l as [|a l IH]; cbn; intros G; auto. rewrite G by auto. auto. }
  rewrite Z. pose proof (ProofNoniid.how_many_le f (skipn (S lo) s)). rewrite skipn_length in H0. lia.
Qed.
Lemma C85_few_full srt t mt sc threshold dist flags scores : argsort_ok srt ->
  knn_issues srt t mt sc threshold dist = Ok (flags, scores) -> (4 * flagged_count flags <= length dist + 2)%nat.
Proof.
  intros Hs H. destruct (knn_ok _ _ _ _ _ _ _ _ Hs H) as (NE & Ht & ->).
  assert (NM : map qmean dist <> []) by (intros C; apply map_eq_nil in C; auto).
  set (avg := map qmean dist) in *. set (thr := used_threshold threshold) in *.
  set (f := fun x => above x (compute_issue_threshold srt avg thr)).
  assert (EC : forall (g : Q -> bool) l, flagged_count (map g l) = SpecNoniid.how_many g l).
  { intros g l. unfold flagged_count, SpecNoniid.how_many. induction l as [|a l IH]; cbn; auto. destruct (g a); cbn; rewrite IH; auto. }
  rewrite EC.
  assert (Q3 : is_quantile (3 # 4) avg (percentile srt avg (3 # 4))). { apply percentile_ok; auto; split; unfold Qle; cbn; lia. }
  destruct Q3 as (s & lo & fr & P & S1 & L & F & E & Q).
  assert (Ls : length s = length avg) by (apply Permutation_length; auto).
  rewrite <- (ProofNoniid.how_many_perm f _ _ P).
  assert (Lo : (3 * (length avg - 1) < 4 * lo + 4)%nat).
  { assert (X : 3 * Qnat (length avg - 1) < 4 * Qnat lo + 4).
    { assert (X : 4 * ((3 # 4) * Qnat (length avg - 1)) == 3 * Qnat (length avg - 1)) by ring. lra. }
    change 3 with (Qnat 3) in X. change 4 with (Qnat 4) in X. rewrite <- !ProofNoniid.Qnat_mult, <- ProofNoniid.Qnat_add in X. apply Qnat_lt' in X. lia. }
  assert (U : nth lo s 0 <= percentile srt avg (3 # 4)).
  { rewrite Q. destruct (le_lt_dec (length avg) (S lo)) as [G|G].
    - assert (lo = (length avg - 1)%nat) by lia. assert (Qnat lo + fr <= Qnat lo).
      { rewrite <- E. rewrite <- H0. pose proof (ProofNoniid.Qnat_nonneg lo). nra. }
      assert (Z : fr == 0) by lra. rewrite Z. lra.
    - pose proof (sorted_nth_le s lo (S lo) S1 ltac:(lia) ltac:(lia)). nra. }
  assert (B : (SpecNoniid.how_many f s <= length s - S lo)%nat).
  { apply how_many_app_le; [|lia]. intros k Hk Hk2. unfold f, compute_issue_threshold.
    destruct (Qeq_bool thr 0) eqn:E0. { destruct (Qeq_bool (iqr srt avg) 0); reflexivity. }
    cbn [above]. apply Qltb_false. pose proof (sorted_nth_le s k lo S1 Hk ltac:(lia)).
    pose proof (iqr_nonneg srt avg Hs NM) as I. fold (iqr srt avg) in I.
    assert (0 < thr). { apply Qeq_bool_neq in E0. destruct (Qlt_le_dec 0 thr); auto. exfalso. apply E0. lra. }
    pose proof (scale_nonneg thr ltac:(auto) ltac:(lra)). nra. }
  unfold avg in *. rewrite map_length in *. lia.
Qed.

Lemma C85_threshold_full srt t mt sc th1 th2 dist fl1 sc1 fl2 sc2 : argsort_ok srt ->
  knn_issues srt t mt sc (Some th1) dist = Ok (fl1, sc1) -> knn_issues srt t mt sc (Some th2) dist = Ok (fl2, sc2) ->
  th1 <= th2 -> sc1 = sc2 /\ (forall i, flagged fl1 i -> flagged fl2 i) /\ (th1 == 0 -> forall i, ~ flagged fl1 i).
Proof.
  intros Hs H1 H2 Hle. split.
  { unfold knn_issues in *. destruct (threshold_and_issue_column _ _ (Some th1)) as [c1|]; [|discriminate].
    destruct (threshold_and_issue_column _ _ (Some th2)) as [c2|]; [|discriminate]. cbn [rbind] in *. cbv zeta in *.
    destruct (match mt with Some m => _ | None => _ end) as [s|]; [|discriminate]. cbn [rbind] in *. congruence. }
  destruct (knn_ok _ _ _ _ _ _ _ _ Hs H1) as (NE & Ht1 & ->). destruct (knn_ok _ _ _ _ _ _ _ _ Hs H2) as (_ & Ht2 & ->).
  cbn [used_threshold] in *. assert (NM : map qmean dist <> []) by (intros C; apply map_eq_nil in C; auto).
  assert (R : forall f i, flagged (map f (map qmean dist)) i -> (i < length dist)%nat).
  { intros f i X. destruct (le_lt_dec (length dist) i); auto. unfold flagged in X. rewrite nth_overflow in X. discriminate. rewrite !map_length. auto. }
  split.
  - intros i X. pose proof (R _ _ X) as Hi. rewrite (flag_iff srt) in * by auto. destruct X as [P1 X]. split; [lra|].
    pose proof (iqr_nonneg srt _ Hs NM) as I. set (w := percentile srt _ (3 # 4) - percentile srt _ (1 # 4)) in *.
    assert (1 / th2 <= 1 / th1). { apply Qle_shift_div_l; auto. assert (0 < th2) by lra. setoid_replace (1 / th2 * th1) with (th1 / th2) by (field; lra).
      apply Qle_shift_div_r; lra. } nra.
  - intros Z i X. pose proof (R _ _ X) as Hi. rewrite (flag_iff srt) in X by auto. lra.
Qed.

(** ** Scores *)
Lemma scores_ok srt t mt sc threshold dist flags scores : knn_issues srt t mt sc threshold dist = Ok (flags, scores) ->
  exists s, (match mt with None => Ok (transform_distances_to_scores (map Q2R (map qmean dist)) t s)
                         | Some m => correct_precision_errors (transform_distances_to_scores (map Q2R (map qmean dist)) t s) (map Q2R (map qmean dist)) m end) = Ok scores
            /\ s = match sc with Some s => s | None => Rmax (Q2R (ModelKnn.median srt (map qmean dist))) (100 * float_eps)%R end.
Proof.
  intros H. unfold knn_issues in H. destruct (threshold_and_issue_column _ _ _) as [c|]; [|discriminate]. cbn [rbind] in H. cbv zeta in H.
  set (s := match sc with Some s => s | None => _ end) in *. exists s. split; [|reflexivity].
  destruct mt as [m|]; cbn [rbind] in *; [|congruence]. destruct (correct_precision_errors _ _ m) as [r|]; cbn [rbind] in *; congruence.
Qed.
Lemma mean_nonneg dist i : (forall row x, In row dist -> In x row -> 0 <= x) -> (i < length dist)%nat -> 0 <= mean_distance dist i.
Proof.
  intros H Hi. unfold mean_distance. set (row := nth i dist []).
  assert (Hr : forall x, In x row -> 0 <= x). { intros x. apply H. apply nth_In. auto. }
  assert (0 <= fold_right Qplus 0 row). { revert Hr. generalize row as l. induction l as [|a l IH]; cbn; intros G; [lra|]. specialize (IH (fun x h => G x (or_intror h))).
    pose proof (G a (or_introl eq_refl)). lra. }
  apply Qmult_le_0_compat; auto. apply Qinv_le_0_compat. apply ProofNoniid.Qnat_nonneg.
Qed.
Lemma C85_ordering_full srt t mt sc threshold dist flags scores : argsort_ok srt -> (0 < t)%R ->
  (forall row x, In row dist -> In x row -> 0 <= x) ->
  knn_issues srt t mt sc threshold dist = Ok (flags, scores) ->
  length scores = length dist /\
  (forall i, (i < length dist)%nat -> (0 < nth i scores 0 <= 1)%R) /\
  (forall i j, (i < length dist)%nat -> (j < length dist)%nat -> mean_distance dist i <= mean_distance dist j ->
     (nth j scores 0 <= nth i scores 0)%R /\ (flagged flags i -> flagged flags j)) /\
  (forall i j, (i < length dist)%nat -> (j < length dist)%nat -> flagged flags i -> ~ flagged flags j ->
     mean_distance dist j < mean_distance dist i /\ (nth i scores 0 <= nth j scores 0)%R).
Proof.
  intros Hs Ht Hd H. destruct (scores_ok _ _ _ _ _ _ _ _ H) as (s & ES & _).
  destruct (knn_ok _ _ _ _ _ _ _ _ Hs H) as (NE & Hth & EF).
  assert (Lr : length (map Q2R (map qmean dist)) = length dist) by (rewrite !map_length; reflexivity).
  assert (Nr : forall i, (i < length dist)%nat -> nth i (map Q2R (map qmean dist)) 0%R = Q2R (mean_distance dist i)).
  { intros i Hi. rewrite (nth_map_gen _ _ _ _ 0) by (rewrite map_length; auto). rewrite mean_nth by auto. reflexivity. }
  assert (Pr : forall d, In d (map Q2R (map qmean dist)) -> (0 <= d)%R).
  { intros d Hdd. apply (In_nth _ _ 0%R) in Hdd as (i & Hi & <-). rewrite Lr in Hi. rewrite Nr by auto.
    pose proof (mean_nonneg dist i Hd Hi) as X. apply Qle_Rle in X. replace (Q2R 0) with 0%R in X by (unfold Q2R; cbn; Lra.lra). auto. }
  assert (SC : length scores = length dist /\ (forall i, (i < length dist)%nat -> (0 < nth i scores 0 <= 1)%R) /\
     (forall i j, (i < length dist)%nat -> (j < length dist)%nat -> mean_distance dist i <= mean_distance dist j -> (nth j scores 0 <= nth i scores 0)%R)).
  { destruct mt as [m|].
    - destruct (C28_corrected_full _ _ _ _ _ Ht Pr ES) as (A & B & C). rewrite Lr in *. split; auto. split.
      + intros i Hi. apply B; auto.
      + intros i j Hi Hj M. apply C; auto. rewrite !Nr by auto. apply Qle_Rle; auto.
    - assert (E2 : scores = transform_distances_to_scores (map Q2R (map qmean dist)) t s) by congruence. subst scores.
      destruct (C28_transform_full _ t s Ht Pr) as (A & B & C & _). rewrite Lr in *. split; auto. split.
      + intros i Hi. apply B; auto.
      + intros i j Hi Hj M. apply Qle_Rle in M. rewrite <- !Nr in M by auto.
        destruct (Rle_or_lt (nth j (transform_distances_to_scores (map Q2R (map qmean dist)) t s) 0%R) (nth i (transform_distances_to_scores (map Q2R (map qmean dist)) t s) 0%R)) as [|G]; auto.
        apply C in G; auto. Lra.lra. }
  destruct SC as (A & B & C). split; auto. split; auto.
  assert (M : forall i j, (i < length dist)%nat -> (j < length dist)%nat -> mean_distance dist i <= mean_distance dist j -> flagged flags i -> flagged flags j).
  { intros i j Hi Hj L X. subst flags. rewrite (flag_iff srt) in * by auto. destruct X. split; auto. lra. }
  split. { intros i j Hi Hj L. split; [apply C; auto|apply M; auto]. }
  intros i j Hi Hj X Y. destruct (Qlt_le_dec (mean_distance dist j) (mean_distance dist i)) as [L|L].
  - split; auto. apply C; auto. lra.
  - exfalso. apply Y. apply (M i j); auto.
Qed.

(** ** Change of unit and order *)
Lemma qsum_scale c l : fold_right Qplus 0 (map (Qmult c) l) == c * fold_right Qplus 0 l.
Proof. induction l; cbn [map fold_right]. ring. rewrite IHl. ring. Qed.
Lemma mean_scale c dist i : mean_distance (map (map (Qmult c)) dist) i == c * mean_distance dist i.
Proof.
  unfold mean_distance. replace (nth i (map (map (Qmult c)) dist) []) with (map (Qmult c) (nth i dist [])).
  - rewrite map_length, qsum_scale. unfold Qdiv. ring.
  - revert i. induction dist; intros [|i]; cbn; auto.
Qed.
Lemma quantile_ext p l l' q : length l = length l' -> (forall k, nth k l 0 == nth k l' 0) -> is_quantile p l q -> is_quantile p l' q.
Proof.
  intros L E (s & lo & fr & P & S1 & Hlo & Hf & Ep & Eq).
  destruct (argsort_ins_ok l') as (A1 & A2). set (s' := take_idx 0 l' (argsort_ins l')).
  assert (P' : Permutation s' l') by (apply take_perm; auto). assert (S' : StronglySorted Qle s') by (apply SS_take; auto).
  assert (C : forall x, SpecNoniid.how_many (fun d => Qleb d x) l = SpecNoniid.how_many (fun d => Qleb d x) l').
  { clear -L E. revert l' L E. induction l as [|a l IH]; intros [|b l'] L E x; cbn in L; try lia; auto.
    unfold SpecNoniid.how_many in *. cbn [filter].
    assert (H : filter (fun d => Qleb d x) l = filter (fun d => Qleb d x) l \/ True) by auto.
    specialize (IH l' ltac:(lia) (fun k => E (S k)) x). pose proof (E 0%nat) as E0. cbn in E0.
    assert (B : Qleb a x = Qleb b x).
    { destruct (Qleb a x) eqn:X, (Qleb b x) eqn:Y; auto; unfold Qleb in *.
      - apply Qle_bool_iff in X. rewrite E0 in X. apply Qle_bool_iff in X. congruence.
      - apply Qle_bool_iff in Y. rewrite <- E0 in Y. apply Qle_bool_iff in Y. congruence. }
    rewrite B. destruct (Qleb b x); cbn [length]; auto. }
  assert (Ls : length s = length l) by (apply Permutation_length; auto). assert (Ls' : length s' = length l') by (apply Permutation_length; auto).
  assert (U : forall k, nth k s 0 == nth k s' 0).
  { intros k. destruct (le_lt_dec (length s) k) as [G|G]. { rewrite !nth_overflow by lia. reflexivity. }
    assert (A : forall x, nth k s 0 <= x <-> nth k s' 0 <= x).
    { intros x. rewrite !sorted_countQ by (auto; lia). rewrite (ProofNoniid.how_many_perm _ _ _ P), (ProofNoniid.how_many_perm _ _ _ P'), C. reflexivity. }
    apply Qle_antisym; apply A; lra. }
  exists s', lo, fr. rewrite <- L. refine (conj P' (conj S' (conj Hlo (conj Hf (conj Ep _))))). rewrite <- !U. exact Eq.
Qed.
Lemma C85_unit_full srt t mt sc threshold dist flags scores c : argsort_ok srt -> 0 < c ->
  knn_issues srt t mt sc threshold dist = Ok (flags, scores) ->
  exists scores', knn_issues srt t mt sc threshold (map (map (Qmult c)) dist) = Ok (flags, scores').
Proof.
  intros Hs Hc H. destruct (knn_ok _ _ _ _ _ _ _ _ Hs H) as (NE & Ht & EF).
  set (dist' := map (map (Qmult c)) dist). set (thr := used_threshold threshold) in *.
  assert (Ld : length dist' = length dist) by apply map_length.
  assert (NE' : dist' <> []) by (intros C; apply map_eq_nil in C; auto).
  assert (NM : map qmean dist <> []) by (intros C; apply map_eq_nil in C; auto).
  assert (NM' : map qmean dist' <> []) by (intros C; apply map_eq_nil in C; auto).
  assert (Mn : forall k, nth k (map (Qmult c) (map qmean dist)) 0 == nth k (map qmean dist') 0).
  { intros k. destruct (le_lt_dec (length dist) k) as [G|G]. { rewrite !nth_overflow; try reflexivity; rewrite !map_length; auto; lia. }
    rewrite nth_scale, !mean_nth by lia. rewrite <- mean_scale. reflexivity. }
  assert (Qs : forall p, 0 <= p <= 1 -> percentile srt (map qmean dist') p == c * percentile srt (map qmean dist) p).
  { intros p Hp. apply (quantile_unique (map qmean dist') p); try apply Hp. apply percentile_ok; auto.
    eapply quantile_ext; [|exact Mn|apply quantile_scale; auto; apply percentile_ok; auto]. rewrite !map_length. auto. }
  assert (E : map (fun x => above x (compute_issue_threshold srt (map qmean dist') thr)) (map qmean dist') = flags).
  { rewrite EF. apply nth_ext with (d := false) (d' := false). rewrite !map_length; auto.
    intros i Hi. rewrite !map_length in Hi.
    assert (B : forall a b : bool, (a = true <-> b = true) -> a = b). { intros [|] [|] [X Y]; auto. symmetry; auto. }
    apply B. fold (flagged (map (fun x => above x (compute_issue_threshold srt (map qmean dist') thr)) (map qmean dist')) i).
    fold (flagged (map (fun x => above x (compute_issue_threshold srt (map qmean dist) thr)) (map qmean dist)) i).
    rewrite !flag_iff by (auto; lia). rewrite !Qs by (split; unfold Qle; cbn; lia). unfold dist'. rewrite mean_scale.
    set (a := percentile srt _ (3 # 4)). set (b := percentile srt _ (1 # 4)). set (m := mean_distance dist i).
    assert (EQ : c * a + (1 / thr - 1) * (c * a - c * b) == c * (a + (1 / thr - 1) * (a - b))) by ring. rewrite EQ.
    split; intros [X Y]; split; auto; nra. }
  unfold knn_issues in *. unfold threshold_and_issue_column in *.
  destruct (match threshold with Some t => _ | None => _ end) as [u|]; [|discriminate]. cbn [rbind] in *.
  assert (M : forall {X} (d : list (list Q)) (a b : X), d <> [] -> match d with [] => a | _ :: _ => b end = b) by (intros X [|] a b; auto; congruence).
  rewrite M in * by auto. cbn [rbind] in *. cbv zeta in *. cbn [snd] in *.
  assert (ET : match threshold with None => default_features | Some t => t end = thr) by (unfold thr; destruct threshold; reflexivity).
  rewrite ET in *. rewrite E.
  destruct mt as [m|]; cbn [rbind] in *; [|eexists; reflexivity].
  unfold correct_precision_errors in *. destruct (tolerance m) as [tol|]; cbn [rbind] in *; [eexists; reflexivity|discriminate].
Qed.

Lemma C85_order_full srt t mt sc threshold dist flags scores perm : argsort_ok srt -> Permutation perm (seq 0 (length dist)) ->
  knn_issues srt t mt sc threshold dist = Ok (flags, scores) ->
  knn_issues srt t mt sc threshold (map (fun i => nth i dist []) perm) =
    Ok (map (fun i => nth i flags false) perm, map (fun i => nth i scores 0%R) perm).
Proof.
  intros Hs Hp H. destruct (knn_ok _ _ _ _ _ _ _ _ Hs H) as (NE & Ht & EF).
  set (dist' := map (fun i => nth i dist []) perm). set (thr := used_threshold threshold) in *.
  assert (Lp : length perm = length dist). { apply Permutation_length in Hp. rewrite seq_length in Hp. auto. }
  assert (Ip : forall i, In i perm -> (i < length dist)%nat). { intros i Hi. eapply Permutation_in in Hi; [|exact Hp]. apply in_seq in Hi. lia. }
  assert (PD : Permutation dist' dist).
  { unfold dist'. rewrite Hp. fold (tab (length dist) (fun i => nth i dist [])). rewrite tab_nth. reflexivity. }
  assert (NE' : dist' <> []). { intros C. rewrite C in PD. apply Permutation_nil in PD. auto. }
  assert (NM : map qmean dist <> []) by (intros C; apply map_eq_nil in C; auto).
  assert (NM' : map qmean dist' <> []) by (intros C; apply map_eq_nil in C; auto).
  assert (PM : Permutation (map qmean dist) (map qmean dist')) by (apply Permutation_map; symmetry; auto).
  assert (Qs : forall p, 0 <= p <= 1 -> percentile srt (map qmean dist') p == percentile srt (map qmean dist) p).
  { intros p Hp'. apply (quantile_unique (map qmean dist') p); try apply Hp'. apply percentile_ok; auto.
    eapply quantile_perm; [exact PM|]. apply percentile_ok; auto. }
  assert (EA : forall x, above x (compute_issue_threshold srt (map qmean dist') thr) = above x (compute_issue_threshold srt (map qmean dist) thr)).
  { intros x. unfold compute_issue_threshold. destruct (Qeq_bool thr 0). { destruct (Qeq_bool _ 0), (Qeq_bool _ 0); reflexivity. }
    cbn [above]. unfold iqr. assert (E : percentile srt (map qmean dist') (3 # 4) + (1 / thr - 1) * (percentile srt (map qmean dist') (3 # 4) - percentile srt (map qmean dist') (1 # 4))
      == percentile srt (map qmean dist) (3 # 4) + (1 / thr - 1) * (percentile srt (map qmean dist) (3 # 4) - percentile srt (map qmean dist) (1 # 4))).
    { rewrite !Qs by (split; unfold Qle; cbn; lia). reflexivity. }
    destruct (Qltb _ x) eqn:X, (Qltb _ x) eqn:Y in |- *; auto.
    - apply Qltb_iff in X. apply Qltb_false in Y. lra.
    - apply Qltb_false in X. apply Qltb_iff in Y. lra. }
  assert (EMED : ModelKnn.median srt (map qmean dist') == ModelKnn.median srt (map qmean dist)).
  { unfold ModelKnn.median. assert (LL : length (map qmean dist') = length (map qmean dist)) by (apply Permutation_length; symmetry; auto).
    rewrite LL. assert (U : forall k, nth k (take_idx 0 (map qmean dist') (srt (map qmean dist'))) 0 == nth k (take_idx 0 (map qmean dist) (srt (map qmean dist))) 0).
    { intros k. destruct (Hs (map qmean dist)) as (A1 & A2). destruct (Hs (map qmean dist')) as (B1 & B2).
      apply sorted_unique; try (apply SS_take; auto). rewrite (take_perm 0 _ _ B1), (take_perm 0 _ _ A1). symmetry. auto. }
    destruct (Nat.even _); rewrite !U; reflexivity. }
  assert (EMR : Q2R (ModelKnn.median srt (map qmean dist')) = Q2R (ModelKnn.median srt (map qmean dist))) by (apply Qeq_eqR; auto).
  assert (MI : forall {A B} (f : A -> B) (l : list A) (d : A) (d' : B), (forall i, In i perm -> (i < length l)%nat) ->
     map f (map (fun i => nth i l d) perm) = map (fun i => nth i (map f l) d') perm).
  { intros A B f l d d' Hl. rewrite map_map. apply map_ext_in. intros i Hi. rewrite (nth_map_gen _ _ _ _ d) by auto. reflexivity. }
  unfold knn_issues in *. unfold threshold_and_issue_column in *.
  destruct (match threshold with Some t => _ | None => _ end) as [u|]; [|discriminate]. cbn [rbind] in *.
  assert (M : forall {X} (d : list (list Q)) (a b : X), d <> [] -> match d with [] => a | _ :: _ => b end = b) by (intros X [|] a b; auto; congruence).
  rewrite M in * by auto. cbn [rbind] in *. cbv zeta in *. cbn [snd] in *.
  assert (ET : match threshold with None => default_features | Some t => t end = thr) by (unfold thr; destruct threshold; reflexivity).
  rewrite ET in *. rewrite EMR. set (scl := match sc with Some s => s | None => _ end) in *.
  assert (E1 : map (fun x => above x (compute_issue_threshold srt (map qmean dist') thr)) (map qmean dist') = map (fun i => nth i flags false) perm).
  { rewrite EF. unfold dist' at 2. rewrite (MI _ _ _ _ _ 0) by auto. rewrite map_map. apply map_ext_in. intros i Hi. rewrite EA.
    rewrite (nth_map_gen _ _ _ _ 0) by (rewrite map_length; auto). reflexivity. }
  rewrite E1. set (R0 := map Q2R (map qmean dist)) in *.
  assert (LR : length R0 = length dist) by (unfold R0; rewrite !map_length; auto).
  assert (ER : map Q2R (map qmean dist') = map (fun i => nth i R0 0%R) perm).
  { unfold dist'. rewrite (MI _ _ _ _ _ 0) by auto. rewrite (MI _ _ _ _ _ 0%R) by (rewrite map_length; auto). reflexivity. }
  assert (ETr : transform_distances_to_scores (map Q2R (map qmean dist')) t scl = map (fun i => nth i (transform_distances_to_scores R0 t scl) 0%R) perm).
  { rewrite ER. unfold transform_distances_to_scores. rewrite (MI _ _ _ _ _ 0%R) by (rewrite LR; auto). reflexivity. }
  rewrite ETr, ER. set (T := transform_distances_to_scores R0 t scl) in *.
  assert (LT : length T = length dist) by (unfold T, transform_distances_to_scores; rewrite map_length; auto).
  destruct mt as [m|]; cbn [rbind] in *; [|assert (ETS : T = scores) by congruence; rewrite ETS; reflexivity].
  unfold correct_precision_errors in *. destruct (tolerance m) as [[tl|]|]; cbn [rbind] in *;
    [| assert (ETS : T = scores) by congruence; rewrite ETS; reflexivity | discriminate].
  injection H as E2 E3. f_equal. f_equal. rewrite <- E3.
  assert (G : forall p, (forall i, In i p -> (i < length dist)%nat) ->
    map (fun sd : R * R => if Rlt_dec (snd sd) tl then 1%R else fst sd) (combine (map (fun i => nth i T 0%R) p) (map (fun i => nth i R0 0%R) p)) =
    map (fun i => nth i (map (fun sd : R * R => if Rlt_dec (snd sd) tl then 1%R else fst sd) (combine T R0)) 0%R) p).
  { induction p as [|i p IH]; cbn [map combine]; intros Hi; auto. f_equal; [|apply IH; intros; apply Hi; right; auto].
    pose proof (Hi i (or_introl eq_refl)). rewrite (nth_map_gen _ _ _ _ (0%R, 0%R)) by (rewrite combine_length; lia).
    rewrite combine_nth by lia. reflexivity. }
  apply G. auto.
Qed.

(** ** When the check fails *)
Lemma C85_outcome_full srt t mt sc threshold dist : dist <> [] ->
  knn_issues srt t mt sc threshold dist = Raise ValueError <->
  (match threshold with Some q => ~ 0 <= q <= 1 | None => False end) \/ mt = Some (Minkowski None).
Proof.
  intros NE. unfold knn_issues, threshold_and_issue_column.
  assert (M : forall {X} (d : list (list Q)) (a b : X), d <> [] -> match d with [] => a | _ :: _ => b end = b) by (intros X [|] a b; auto; congruence).
  assert (G : forall c : Q * xfloat * list bool, (do scores <- match mt with None => Ok (transform_distances_to_scores (map Q2R (map qmean dist)) t match sc with Some s => s | None => Rmax (Q2R (ModelKnn.median srt (map qmean dist))) (100 * float_eps)%R end)
     | Some m => correct_precision_errors (transform_distances_to_scores (map Q2R (map qmean dist)) t match sc with Some s => s | None => Rmax (Q2R (ModelKnn.median srt (map qmean dist))) (100 * float_eps)%R end) (map Q2R (map qmean dist)) m end; Ok (snd c, scores)) = Raise ValueError <-> mt = Some (Minkowski None)).
  { intros c. destruct mt as [m|]; cbn [rbind]; [|split; discriminate]. unfold correct_precision_errors.
    destruct m as [| |[p|]|]; cbn; split; intros X; try discriminate; auto; congruence. }
  destruct threshold as [q|].
  - destruct (Qeq_bool q 0) eqn:E.
    + apply Qeq_bool_iff in E. cbn [rbind]. rewrite M by auto. cbn [rbind]. cbv zeta. rewrite G. split; auto.
      intros [X|X]; auto. exfalso. apply X. lra.
    + destruct (Qleb 0 q && Qleb q 1) eqn:E2; cbn [rbind].
      * apply andb_true_iff in E2 as [X Y]. apply Qle_bool_iff in X, Y. rewrite M by auto. cbn [rbind]. cbv zeta. rewrite G. split; auto.
        intros [Z|Z]; auto. tauto.
      * split; auto. intros _. left. intros [X Y]. apply Qle_bool_iff in X, Y. unfold Qleb in E2. rewrite X, Y in E2. discriminate.
  - cbn [rbind]. rewrite M by auto. cbn [rbind]. cbv zeta. rewrite G. tauto.
Qed.
Lemma C85_no_other_full srt t mt sc threshold dist e : dist <> [] -> (forall p, mt <> Some (Minkowski (Some p))) ->
  knn_issues srt t mt sc threshold dist = Raise e -> e = ValueError.
Proof.
  intros NE Hm. unfold knn_issues, threshold_and_issue_column.
  assert (M : forall {X} (d : list (list Q)) (a b : X), d <> [] -> match d with [] => a | _ :: _ => b end = b) by (intros X [|] a b; auto; congruence).
  destruct (match threshold with Some t => _ | None => _ end) as [u|e'] eqn:E1; cbn [rbind].
  - rewrite M by auto. cbn [rbind]. cbv zeta. destruct mt as [m|]; cbn [rbind]; [|discriminate]. unfold correct_precision_errors.
    destruct m as [| |[p|]|]; cbn; try discriminate. congruence.
  - intros X. assert (e' = e) by congruence. subst. destruct threshold as [q|]; [|discriminate].
    destruct (Qeq_bool q 0); [discriminate|]. destruct (Qleb 0 q && Qleb q 1); congruence.
Qed.

(** ** Predicted probabilities *)
Lemma rmedian_ok sort l : sorts_R sort -> l <> [] -> is_median_R l (rmedian sort l).
Proof.
  intros Hs Hl. destruct (Hs l) as (H1 & H2). exists (sort l). split; auto. split; auto. unfold rmedian.
  destruct (Nat.even (length l)) eqn:Ev.
  - right. apply Nat.even_spec in Ev as (h & Eh). exists (h - 1)%nat.
    assert (h <> 0)%nat. { intros ->. destruct l; [congruence|cbn in Eh; lia]. }
    split; [lia|]. rewrite Eh. replace (2 * h / 2)%nat with h by (rewrite Nat.mul_comm, Nat.div_mul; lia).
    replace (S (h - 1)) with h by lia. Lra.lra.
  - left. assert (Nat.odd (length l) = true) as Ho by (rewrite <- Nat.negb_even, Ev; reflexivity).
    apply Nat.odd_spec in Ho as (h & Eh). exists h. split; auto. rewrite Eh.
    replace ((2 * h + 1) / 2)%nat with h; [reflexivity|].
    rewrite Nat.add_comm, Nat.mul_comm, Nat.div_add by lia. reflexivity.
Qed.
Lemma sorted_nth_leR s i j : StronglySorted Rle s -> (i <= j)%nat -> (j < length s)%nat -> (nth i s 0 <= nth j s 0)%R.
Proof.
  intros H. revert i j. induction H as [|x t Hs IH F]; intros i j Hij Hj; cbn in Hj. lia.
  destruct i as [|i], j as [|j]; cbn [nth]; try lia; try Lra.lra.
  - rewrite Forall_forall in F. apply F, nth_In. lia.
  - apply IH; lia.
Qed.
Lemma nth_skipn' {A} (l : list A) n k d : nth k (skipn n l) d = nth (n + k) l d.
Proof. revert l. induction n; intros [|a l]; cbn; auto. destruct k; auto. Qed.
Lemma how_many_firstR (f : R -> bool) s n : (forall k, (n <= k)%nat -> (k < length s)%nat -> f (nth k s 0%R) = false) ->
  (SpecNoniid.how_many f s <= n)%nat.
Proof.
  intros H. rewrite <- (firstn_skipn n s), ProofNoniid.how_many_app.
  assert (Z : SpecNoniid.how_many f (skipn n s) = 0%nat).
  { unfold SpecNoniid.how_many. assert (G : forall x, In x (skipn n s) -> f x = false).
    { intros x Hx. apply (In_nth _ _ 0%R) in Hx as (k & Hk & <-). rewrite skipn_length in Hk. rewrite nth_skipn'. apply H; lia. }
    revert G. generalize (skipn n s) as l. induction l as [|a l IH]; cbn; intros G; auto. rewrite G by auto. auto. }
  pose proof (ProofNoniid.how_many_le f (firstn n s)). rewrite firstn_length in H0. lia.
Qed.
Lemma median_nonneg l m : (forall x, In x l -> 0 <= x)%R -> is_median_R l m -> (0 <= m)%R.
Proof.
  intros H (s & P & S1 & [(h & L & E)|(h & L & E)]); pose proof (Permutation_length P) as Ls.
  - rewrite E. apply H. eapply Permutation_in; [exact P|]. apply nth_In. lia.
  - assert (0 <= nth h s 0 /\ 0 <= nth (S h) s 0)%R; [|Lra.lra].
    split; apply H; (eapply Permutation_in; [exact P|]); apply nth_In; lia.
Qed.
Lemma C86_flags_full sort threshold scores flags scores' : sorts_R sort -> scores <> [] ->
  pred_probs_issues sort threshold scores = Ok (flags, scores') ->
  scores' = scores /\ length flags = length scores /\
  exists m, is_median_R scores m /\
    (forall i, (i < length scores)%nat ->
       (flagged flags i <-> (nth i scores 0 < Q2R (match threshold with Some t => t | None => 13 # 100 end) * m)%R)) /\
    ((forall x, In x scores -> 0 <= x)%R -> match threshold with Some t => t <= 1 | None => True end ->
       (2 * flagged_count flags <= length scores)%nat) /\
    ((forall x, In x scores -> 0 <= x)%R -> match threshold with Some t => t == 0 | None => False end ->
       flagged_count flags = 0%nat).
Proof.
  intros Hs NE H. unfold pred_probs_issues in H.
  set (t := match threshold with None => default_pred_probs | Some t => t end) in *.
  destruct (Qleb 0 t) eqn:E0; [|discriminate]. apply Qle_bool_iff in E0.
  assert (EF : flags = map (below_R (Q2R t * rmedian sort scores)%R) scores) by congruence.
  assert (ES : scores' = scores) by congruence. clear H. split; auto. split. { rewrite EF, map_length. reflexivity. }
  exists (rmedian sort scores). pose proof (rmedian_ok sort scores Hs NE) as Med. split; auto.
  assert (EC : forall (g : R -> bool) l, flagged_count (map g l) = SpecNoniid.how_many g l).
  { intros g l. unfold flagged_count, SpecNoniid.how_many. induction l as [|a l IH]; cbn; auto. destruct (g a); cbn; rewrite IH; auto. }
  split; [|split].
  - intros i Hi. unfold flagged. rewrite EF. rewrite (nth_map_gen _ _ _ _ 0%R) by auto. unfold below_R.
    destruct (Rlt_dec _ _) as [L|L]; split; auto; discriminate.
  - intros Hx Hle. assert (Ht : 0 <= t <= 1). { split; auto. unfold t. destruct threshold; auto; unfold Qle; cbn; lia. }
    rewrite EF, EC. destruct Ht as [T0 T1]. apply Qle_Rle in T0, T1.
    replace (Q2R 0) with 0%R in T0 by (unfold Q2R; cbn; Lra.lra). replace (Q2R 1) with 1%R in T1 by (unfold Q2R; cbn; Lra.lra).
    pose proof (median_nonneg _ _ Hx Med) as M0.
    set (m := rmedian sort scores) in *. assert (B : (Q2R t * m <= m)%R) by (pose proof (Rmult_le_compat_r m _ _ M0 T1); Lra.lra).
    destruct Med as (s & P & S1 & Cases). pose proof (Permutation_length P) as Ls.
    rewrite <- (ProofNoniid.how_many_perm _ _ _ P).
    assert (F : forall k, below_R (Q2R t * m) k = true -> (k < m)%R). { intros k. unfold below_R. destruct (Rlt_dec _ _); [Lra.lra|discriminate]. }
    destruct Cases as [(h & L & E)|(h & L & E)].
    + assert (SpecNoniid.how_many (below_R (Q2R t * m)) s <= h)%nat; [|lia]. apply how_many_firstR. intros k Hk Hk2.
      apply not_true_is_false. intros X. apply F in X. pose proof (sorted_nth_leR s h k S1 Hk Hk2). Lra.lra.
    + assert (SpecNoniid.how_many (below_R (Q2R t * m)) s <= S h)%nat; [|lia]. apply how_many_firstR. intros k Hk Hk2.
      apply not_true_is_false. intros X. apply F in X. pose proof (sorted_nth_leR s (S h) k S1 Hk Hk2). pose proof (sorted_nth_leR s h (S h) S1 ltac:(lia) ltac:(lia)). Lra.lra.
  - intros Hx Hz. destruct threshold as [q|]; [|contradiction]. cbn in t. assert (Z : Q2R t = 0%R).
    { unfold t. rewrite (Qeq_eqR _ _ Hz). unfold Q2R; cbn; Lra.lra. }
    rewrite EF, EC, Z. apply Nat.le_0_r. apply (how_many_firstR _ scores 0). intros k _ Hk. unfold below_R.
    destruct (Rlt_dec _ _) as [L|]; auto. exfalso. pose proof (Hx (nth k scores 0%R) (nth_In _ _ Hk)). Lra.lra.
Qed.
Lemma C86_monotone_full sort t1 t2 scores f1 f2 s1 s2 : sorts_R sort -> (forall x, In x scores -> 0 <= x)%R ->
  pred_probs_issues sort (Some t1) scores = Ok (f1, s1) -> pred_probs_issues sort (Some t2) scores = Ok (f2, s2) -> t1 <= t2 ->
  forall i, flagged f1 i -> flagged f2 i.
Proof.
  intros Hs Hx H1 H2 Hle i Hf. destruct scores as [|x0 sc0].
  { unfold pred_probs_issues in H1. destruct (Qleb 0 t1); [|discriminate]. injection H1 as <- _. unfold flagged in Hf. destruct i; discriminate. }
  set (scores := x0 :: sc0) in *. assert (NE : scores <> []) by discriminate.
  pose proof (median_nonneg _ _ Hx (rmedian_ok sort scores Hs NE)) as M0.
  unfold pred_probs_issues in *. destruct (Qleb 0 t1); [|discriminate]. destruct (Qleb 0 t2); [|discriminate].
  assert (E1 : f1 = map (below_R (Q2R t1 * rmedian sort scores)%R) scores) by congruence.
  assert (E2 : f2 = map (below_R (Q2R t2 * rmedian sort scores)%R) scores) by congruence.
  clear H1 H2. apply Qle_Rle in Hle. unfold flagged in *. rewrite E1 in Hf. rewrite E2.
  destruct (le_lt_dec (length scores) i) as [G|G]. { rewrite nth_overflow in Hf by (rewrite map_length; auto). discriminate. }
  rewrite (nth_map_gen _ _ _ _ 0%R) in Hf by auto. rewrite (nth_map_gen _ _ _ _ 0%R) by auto. unfold below_R in *.
  destruct (Rlt_dec (nth i scores 0%R) (Q2R t1 * rmedian sort scores)) as [L|L]; [|discriminate].
  destruct (Rlt_dec (nth i scores 0%R) (Q2R t2 * rmedian sort scores)) as [L2|L2]; auto. exfalso. apply L2. eapply Rlt_le_trans; [exact L|]. apply Rmult_le_compat_r; auto.
Qed.
Lemma C86_path_full srt sort t mt sc threshold :
  (forall d ood, ModelOutlierCheck.find_issues srt sort t mt sc threshold (Some d) ood = ModelOutlierCheck.find_issues srt sort t mt sc threshold (Some d) None) /\
  ModelOutlierCheck.find_issues srt sort t mt sc threshold None None = Raise ValueError /\
  (forall e, ModelOutlierCheck.find_issues srt sort t mt sc threshold None (Some (Raise e)) = Raise e) /\
  (forall q s, q < 0 -> ModelOutlierCheck.find_issues srt sort t mt sc (Some q) None (Some (Ok s)) = Raise ValueError).
Proof.
  repeat split. intros q s H. cbn. unfold pred_probs_issues. destruct (Qleb 0 q) eqn:E; auto. apply Qle_bool_iff in E. lra.
Qed.
