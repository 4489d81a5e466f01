(** * Proofs about co-teaching *)
From Coq Require Import QArith Qround List ZArith Bool Arith Lia Lqa Permutation.
From Verif Require Import Base BaseFacts ModelUtil ModelCoteaching SpecBatchFlags SpecCoteaching.
Import ListNotations.
Open Scope Q_scope.

Lemma weigh_map losses weights : length weights = length losses ->
  map (fun lw => snd lw * fst lw) (combine losses weights) = weigh losses weights.
Proof.
  intros H. unfold weigh, tab.
  revert weights H. induction losses as [|l losses IH]; intros [|w weights] H; try discriminate; [reflexivity|].
  cbn [combine map length seq nth fst snd]. f_equal. rewrite <- seq_shift, map_map. rewrite IH by (simpl in H; lia). apply map_ext. reflexivity.
Qed.
Lemma weigh_length losses weights : length (weigh losses weights) = length losses.
Proof. apply tab_length. Qed.
Lemma lowest_firstn srt l n : argsort_ok srt -> n_lowest l n (firstn n (srt l)).
Proof. intros H. destruct (argsort_firstn l (srt l) n (H l)) as (A & B & C & D). repeat split; auto. Qed.
Lemma remember_bounds f n : 0 <= f -> f <= 1 -> let k := Z.to_nat (truncate ((1 - f) * Qnat n)) in
  Qnat k <= (1 - f) * Qnat n /\ (1 - f) * Qnat n < Qnat k + 1 /\ (k <= n)%nat.
Proof.
  intros H0 H1 k. assert (Hn : 0 <= Qnat n) by apply Qnat_nonneg. assert (Hp : 0 <= (1 - f) * Qnat n) by (apply Qmult_le_0_compat; lra).
  unfold k, truncate. destruct (Qle_bool 0 ((1 - f) * Qnat n)) eqn:E; [|rewrite <- not_true_iff_false, Qle_bool_iff in E; contradiction].
  set (q := (1 - f) * Qnat n) in *. assert (Hz : (0 <= Qfloor q)%Z) by (replace 0%Z with (Qfloor 0) by reflexivity; apply Qfloor_resp_le; auto).
  assert (EQ : Qnat (Z.to_nat (Qfloor q)) == inject_Z (Qfloor q)) by (unfold Qnat; rewrite Z2Nat.id by auto; reflexivity).
  pose proof (Qfloor_le q). pose proof (Qlt_floor q) as Hl. rewrite inject_Z_plus in Hl. change (inject_Z 1) with 1 in Hl. split; [lra|]. split; [lra|].
  assert (q <= Qnat n) by (unfold q; nra).
  assert (HQ : Qnat (Z.to_nat (Qfloor q)) <= Qnat n) by lra. unfold Qnat in HQ. rewrite <- Zle_Qle in HQ. lia.
Qed.
Lemma weighted_mean_ok losses weights idx : 0 < qsum (map (fun i => nth i weights 0) idx) -> weighted_average losses weights idx (weighted_mean losses weights idx).
Proof. intros H. unfold weighted_average, weighted_mean. field. lra. Qed.
Lemma qsum_pos_idx weights idx n : idx <> [] -> (forall i, In i idx -> (i < n)%nat) -> (forall i, (i < n)%nat -> 0 < nth i weights 0) -> 0 < qsum (map (fun i => nth i weights 0) idx).
Proof.
  intros Hne Hi Hw. induction idx as [|i idx IH]; [congruence|]. cbn [map]. change (0 < nth i weights 0 + qsum (map (fun i0 => nth i0 weights 0) idx)).
  pose proof (Hw i (Hi i (or_introl eq_refl))). destruct idx as [|j idx].
  - cbn [map]. unfold qsum. cbn [fold_right]. lra.
  - assert (0 < qsum (map (fun i0 => nth i0 weights 0) (j :: idx))) by (apply IH; [discriminate|intros; apply Hi; right; auto]). lra.
Qed.

Lemma loss_full srt losses1 losses2 weights f : argsort_ok srt -> length losses2 = length losses1 -> length weights = length losses1 ->
  (forall i, (i < length losses1)%nat -> 0 < nth i weights 0) -> 0 <= f -> f <= 1 -> 1 <= (1 - f) * Qnat (length losses1) ->
  exists n idx1 idx2 r1 r2 a1 a2, loss_coteaching srt losses1 losses2 weights f = Ok (r1, r2) /\
    Qnat n <= (1 - f) * Qnat (length losses1) /\ (1 - f) * Qnat (length losses1) < Qnat n + 1 /\ length idx1 = n /\ length idx2 = n /\
    n_lowest (weigh losses1 weights) n idx1 /\ n_lowest (weigh losses2 weights) n idx2 /\
    weighted_average losses1 weights idx2 a1 /\ weighted_average losses2 weights idx1 a2 /\
    r1 * Qnat n == a1 /\ r2 * Qnat n == a2.
Proof.
  intros Hs H2 Hw Hp F0 F1 Hr. unfold loss_coteaching. rewrite !weigh_map by lia. cbv zeta. rewrite weigh_length.
  destruct (remember_bounds f (length losses1) F0 F1) as (B1 & B2 & B3). set (n := Z.to_nat (truncate ((1 - f) * Qnat (length losses1)))) in *.
  assert (Hn : (1 <= n)%nat). { destruct n; [|lia]. change (Qnat 0) with 0 in B2. lra. }
  destruct (Nat.eqb_spec n 0); [lia|].
  pose proof (lowest_firstn srt (weigh losses1 weights) n Hs) as L1. pose proof (lowest_firstn srt (weigh losses2 weights) n Hs) as L2.
  pose proof L1 as (_ & L1b & L1c & _). pose proof L2 as (_ & L2b & L2c & _). rewrite weigh_length in *.
  set (i1 := firstn n (srt (weigh losses1 weights))) in *. set (i2 := firstn n (srt (weigh losses2 weights))) in *.
  assert (P1 : 0 < qsum (map (fun i => nth i weights 0) i1)).
  { apply (qsum_pos_idx weights i1 (length losses1)); auto. intros E. rewrite E in L1b. simpl in L1b. lia. }
  assert (P2 : 0 < qsum (map (fun i => nth i weights 0) i2)).
  { apply (qsum_pos_idx weights i2 (length losses1)); auto; [intros E; rewrite E in L2b; simpl in L2b; lia|]. intros i Hi. specialize (L2c i Hi). lia. }
  assert (Pn : 0 < Qnat n) by (apply Qnat_pos; lia).
  exists n, i1, i2. eexists. eexists. exists (weighted_mean losses1 weights i2), (weighted_mean losses2 weights i1).
  split; [reflexivity|]. split; [auto|]. split; [auto|]. split; [lia|]. split; [lia|]. split; [auto|]. split; [auto|].
  split; [apply weighted_mean_ok; auto|]. split; [apply weighted_mean_ok; auto|]. split; field; lra.
Qed.
Lemma loss_nothing srt losses1 losses2 weights f : argsort_ok srt -> length losses2 = length losses1 -> length weights = length losses1 ->
  0 <= f -> f <= 1 -> (1 - f) * Qnat (length losses1) < 1 -> loss_coteaching srt losses1 losses2 weights f = Raise ZeroDivision.
Proof.
  intros Hs H2 Hw F0 F1 Hr. unfold loss_coteaching. rewrite !weigh_map by lia. cbv zeta. rewrite weigh_length.
  destruct (remember_bounds f (length losses1) F0 F1) as (B1 & B2 & B3). set (n := Z.to_nat (truncate ((1 - f) * Qnat (length losses1)))) in *.
  destruct (Nat.eqb_spec n 0); [reflexivity|]. exfalso. assert (1 <= Qnat n) by (unfold Qnat; change 1 with (inject_Z 1); rewrite <- Zle_Qle; lia). lra.
Qed.

(** ** Schedules *)
Lemma nth_seq_map (f : nat -> Q) n i : (i < n)%nat -> nth i (map f (seq 0 n)) 0 = f i.
Proof. intros H. rewrite (nth_map_gen f _ i 0 0%nat) by (rewrite seq_length; auto). rewrite seq_nth by auto. reflexivity. Qed.
Lemma schedule_ok epochs f g ng : (ng <= epochs)%nat -> forget_rate_scheduler epochs f g ng = Ok (linspace0 g ng ++ repeat f (epochs - ng)).
Proof.
  intros H. unfold forget_rate_scheduler. destruct (Nat.ltb_spec epochs ng); [lia|]. cbn [andb]. f_equal. apply firstn_all2.
  rewrite app_length, repeat_length. unfold linspace0. rewrite map_length, seq_length. lia.
Qed.
Lemma schedule_nth f g ng epochs i : (ng <= epochs)%nat -> (i < epochs)%nat ->
  nth i (linspace0 g ng ++ repeat f (epochs - ng)) 0 = if Nat.ltb i ng then Qnat i * (g / Qnat (ng - 1)) else f.
Proof.
  intros H Hi. assert (L : length (linspace0 g ng) = ng) by (unfold linspace0; rewrite map_length, seq_length; auto).
  destruct (Nat.ltb_spec i ng).
  - rewrite app_nth1 by lia. unfold linspace0. apply nth_seq_map. auto.
  - rewrite app_nth2 by lia. rewrite L. assert (E : nth (i - ng) (repeat f (epochs - ng)) 0 = nth (i - ng) (repeat f (epochs - ng)) f) by (apply nth_indep; rewrite repeat_length; lia).
    rewrite E. apply nth_repeat.
Qed.
Lemma gradual_bounds g ng i : 0 <= g -> (i < ng)%nat -> 0 <= Qnat i * (g / Qnat (ng - 1)) <= g.
Proof.
  intros Hg Hi. destruct i as [|i]; [change (Qnat 0) with 0; assert (0 * (g / Qnat (ng - 1)) == 0) by ring; lra|].
  assert (P : 0 < Qnat (ng - 1)) by (apply Qnat_pos; lia). assert (Q : 0 < Qnat (S i)) by (apply Qnat_pos; lia). assert (L : Qnat (S i) <= Qnat (ng - 1)) by (apply Qnat_le; lia).
  assert (E : Qnat (S i) * (g / Qnat (ng - 1)) == g * (Qnat (S i) / Qnat (ng - 1))) by (field; lra). rewrite E.
  assert (0 <= Qnat (S i) / Qnat (ng - 1)) by (apply Qle_shift_div_l; lra). assert (Qnat (S i) / Qnat (ng - 1) <= 1) by (apply Qle_shift_div_r; lra). split; nra.
Qed.
Lemma gradual_mono g ng i j : 0 <= g -> (i <= j)%nat -> (j < ng)%nat -> Qnat i * (g / Qnat (ng - 1)) <= Qnat j * (g / Qnat (ng - 1)).
Proof.
  intros Hg Hij Hj. destruct (Nat.eq_dec i j) as [->|N]; [lra|]. assert (P : 0 < Qnat (ng - 1)) by (apply Qnat_pos; lia).
  apply Qmult_le_compat_r; [apply Qnat_le; lia|]. apply Qle_shift_div_l; lra.
Qed.
Lemma schedule_full epochs f g ng : (ng <= epochs)%nat -> 0 <= g -> g <= f -> exists s, forget_rate_scheduler epochs f g ng = Ok s /\ length s = epochs /\
  (forall i, (i < epochs)%nat -> 0 <= nth i s 0 <= f) /\
  (forall i j, (i <= j)%nat -> (j < epochs)%nat -> nth i s 0 <= nth j s 0) /\
  ((1 <= ng)%nat -> nth 0 s 0 == 0) /\ ((2 <= ng)%nat -> nth (ng - 1) s 0 == g) /\
  (forall i, (ng <= i)%nat -> (i < epochs)%nat -> nth i s 0 = f).
Proof.
  intros Hn Hg Hf. rewrite schedule_ok by auto. eexists. split; [reflexivity|]. split; [rewrite app_length, repeat_length; unfold linspace0; rewrite map_length, seq_length; lia|].
  split; [|split; [|split; [|split]]].
  - intros i Hi. rewrite schedule_nth by auto. destruct (Nat.ltb_spec i ng); [|lra]. pose proof (gradual_bounds g ng i Hg ltac:(lia)). lra.
  - intros i j Hij Hj. rewrite !schedule_nth by lia. destruct (Nat.ltb_spec i ng), (Nat.ltb_spec j ng); try lia.
    + apply gradual_mono; auto.
    + pose proof (gradual_bounds g ng i Hg ltac:(lia)). lra.
    + lra.
  - intros H1. rewrite schedule_nth by lia. destruct (Nat.ltb_spec 0 ng); [|lia]. change (Qnat 0) with 0. ring.
  - intros H2. rewrite schedule_nth by lia. destruct (Nat.ltb_spec (ng - 1) ng); [|lia]. assert (0 < Qnat (ng - 1)) by (apply Qnat_pos; lia). field. lra.
  - intros i H1 H2. rewrite schedule_nth by auto. destruct (Nat.ltb_spec i ng); [lia|]. reflexivity.
Qed.
Lemma schedule_rejects epochs f g ng : (epochs < ng)%nat -> (2 <= ng)%nat -> forget_rate_scheduler epochs f g ng = Raise ValueError.
Proof.
  intros H H2. unfold forget_rate_scheduler. destruct (Nat.ltb_spec epochs ng); [|lia]. destruct (Nat.eqb_spec ng 1); [lia|]. reflexivity.
Qed.
Lemma schedule_drop epochs f g ng : (2 <= ng)%nat -> (ng < epochs)%nat -> f < g -> exists s, forget_rate_scheduler epochs f g ng = Ok s /\ nth ng s 0 < nth (ng - 1) s 0.
Proof.
  intros H2 Hn Hf. rewrite schedule_ok by lia. eexists. split; [reflexivity|]. rewrite !schedule_nth by lia.
  destruct (Nat.ltb_spec ng ng); [lia|]. destruct (Nat.ltb_spec (ng - 1) ng); [|lia]. assert (0 < Qnat (ng - 1)) by (apply Qnat_pos; lia).
  assert (Qnat (ng - 1) * (g / Qnat (ng - 1)) == g) by (field; lra). lra.
Qed.

Lemma lr_full lr epochs start : 0 < lr -> let alpha := fst (initialize_lr_scheduler lr epochs start) in
  length alpha = epochs /\ length (snd (initialize_lr_scheduler lr epochs start)) = epochs /\
  (forall i, (i < epochs)%nat -> 0 < nth i alpha 0 <= lr) /\
  (forall i, (i < epochs)%nat -> (i <= start)%nat -> nth i alpha 0 == lr) /\
  (forall i j, (i < j)%nat -> (j < epochs)%nat -> nth j alpha 0 <= nth i alpha 0 /\ ((start <= i)%nat -> nth j alpha 0 < nth i alpha 0)) /\
  (forall i, (i < epochs)%nat -> nth i (snd (initialize_lr_scheduler lr epochs start)) 0 == 9 # 10).
Proof.
  intros Hlr alpha. unfold alpha, initialize_lr_scheduler. cbn [fst snd]. rewrite !map_length, !seq_length. split; [auto|]. split; [auto|].
  assert (N : forall i, (i < epochs)%nat -> nth i (map (fun i0 => if Nat.ltb i0 start then lr else Qnat (epochs - i0) / Qnat (epochs - start) * lr) (seq 0 epochs)) 0 =
     if Nat.ltb i start then lr else Qnat (epochs - i) / Qnat (epochs - start) * lr) by (intros i Hi; apply (nth_seq_map (fun i0 => if Nat.ltb i0 start then lr else Qnat (epochs - i0) / Qnat (epochs - start) * lr)); auto).
  assert (P : forall i, (i < epochs)%nat -> (start <= i)%nat -> 0 < Qnat (epochs - i) / Qnat (epochs - start) <= 1).
  { intros i Hi Hs. assert (0 < Qnat (epochs - start)) by (apply Qnat_pos; lia). assert (0 < Qnat (epochs - i)) by (apply Qnat_pos; lia). assert (Qnat (epochs - i) <= Qnat (epochs - start)) by (apply Qnat_le; lia).
    split; [apply Qlt_shift_div_l; lra|apply Qle_shift_div_r; lra]. }
  split; [|split; [|split]].
  - intros i Hi. rewrite N by auto. destruct (Nat.ltb_spec i start); [lra|]. pose proof (P i Hi ltac:(lia)). split; nra.
  - intros i Hi Hs. rewrite N by auto. destruct (Nat.ltb_spec i start); [reflexivity|]. assert (i = start) as -> by lia. assert (0 < Qnat (epochs - start)) by (apply Qnat_pos; lia). field. lra.
  - intros i j Hij Hj. rewrite !N by lia. destruct (Nat.ltb_spec i start), (Nat.ltb_spec j start); try lia.
    + split; [lra|lia].
    + pose proof (P j Hj ltac:(lia)). split; [nra|lia].
    + assert (D : 0 < Qnat (epochs - start)) by (apply Qnat_pos; lia).
      assert (L : Qnat (epochs - j) + 1 <= Qnat (epochs - i)). { unfold Qnat. change 1 with (inject_Z 1). rewrite <- inject_Z_plus, <- Zle_Qle. lia. }
      assert (S : Qnat (epochs - j) / Qnat (epochs - start) < Qnat (epochs - i) / Qnat (epochs - start)).
      { apply Qlt_shift_div_l; auto. assert (E : Qnat (epochs - j) / Qnat (epochs - start) * Qnat (epochs - start) == Qnat (epochs - j)) by (field; lra). lra. }
      split; [nra|intros _; nra].
  - intros i Hi. rewrite (nth_seq_map (fun i0 => if Nat.ltb i0 start then 9 # 10 else 9 # 10)) by auto. destruct (Nat.ltb i start); reflexivity.
Qed.

(** ** Batches *)
Lemma batches_app {A} (l : list (list A)) (b : list A) : batches_used (l ++ [b]) = l ++ (if Nat.ltb (length b) 16 then [] else [b]).
Proof.
  unfold batches_used. rewrite app_length. cbn [length].
  assert (G : forall (l : list (list A)) k m, (k + length l <= m)%nat ->
    map snd (filter (fun ib => negb (Nat.eqb (fst ib) m && Nat.ltb (length (snd ib)) MINIMUM_BATCH_SIZE)) (combine (seq k (length l + 1)) (l ++ [b]))) =
    l ++ map snd (filter (fun ib => negb (Nat.eqb (fst ib) m && Nat.ltb (length (snd ib)) MINIMUM_BATCH_SIZE)) [((k + length l)%nat, b)])).
  { induction l0 as [|a l0 IH]; intros k m Hm.
    - cbn [length app Nat.add seq combine]. rewrite Nat.add_0_r. reflexivity.
    - cbn [length app Nat.add seq combine]. cbn [filter fst]. cbn [length] in Hm. destruct (Nat.eqb_spec k m); [lia|]. cbn [andb negb map snd]. f_equal.
      rewrite IH by lia. replace (S k + length l0)%nat with (k + S (length l0))%nat by lia. reflexivity. }
  rewrite G by lia. f_equal. cbn [filter fst snd Nat.add]. replace (length l + 1 - 1)%nat with (length l) by lia. rewrite Nat.eqb_refl. unfold MINIMUM_BATCH_SIZE. cbn [andb].
  destruct (Nat.ltb (length b) 16); reflexivity.
Qed.
Lemma batches_full {A} (l : list (list A)) (b : list A) :
  ((length b < 16)%nat -> batches_used (l ++ [b]) = l) /\ ((16 <= length b)%nat -> batches_used (l ++ [b]) = l ++ [b]).
Proof.
  rewrite batches_app. split; intros H; destruct (Nat.ltb_spec (length b) 16); try lia; auto. apply app_nil_r.
Qed.
Lemma single_small {A} acc (b : list A) : (length b < 16)%nat -> train_accuracy acc [b] = Raise ZeroDivision.
Proof. intros H. unfold train_accuracy. pose proof (proj1 (batches_full [] b) H) as E. cbn [app] in E. rewrite E. reflexivity. Qed.

Lemma train_full {A} acc (l : list (list A)) (b : list A) : l <> [] -> let used := if Nat.ltb (length b) 16 then l else l ++ [b] in
  exists r, train_accuracy acc (l ++ [b]) = Ok r /\ r * Qnat (length used) == qsum (map acc used).
Proof.
  intros Hl used. unfold train_accuracy. rewrite batches_app.
  assert (E : l ++ (if Nat.ltb (length b) 16 then [] else [b]) = used) by (unfold used; destruct (Nat.ltb (length b) 16); [apply app_nil_r|reflexivity]).
  rewrite E. assert (Hu : used <> []). { unfold used. destruct (Nat.ltb (length b) 16); auto. destruct l; [congruence|discriminate]. }
  destruct used as [|u us]; [congruence|]. eexists. split; [reflexivity|]. assert (0 < Qnat (length (u :: us))) by (apply Qnat_pos; simpl; lia). field. lra.
Qed.

Lemma evaluate_fold batches c t : fold_left (fun acc batch => let '(correct, total) := acc in
    ((correct + length (filter (fun pl : nat * nat => Nat.eqb (fst pl) (snd pl)) batch))%nat, (total + length batch)%nat)) batches (c, t) =
  ((c + length (filter (fun pl => Nat.eqb (fst pl) (snd pl)) (concat batches)))%nat, (t + length (concat batches))%nat).
Proof.
  revert c t. induction batches as [|b bs IH]; intros c t; cbn [fold_left concat].
  - cbn [filter length]. rewrite !Nat.add_0_r. reflexivity.
  - rewrite IH, filter_app, !app_length. f_equal; lia.
Qed.
Lemma evaluate_full batches : (concat batches <> [] -> exists r, evaluate batches = Ok r /\
    r * Qnat (length (concat batches)) == 100 * Qnat (length (filter (fun pl => Nat.eqb (fst pl) (snd pl)) (concat batches))) /\ 0 <= r <= 100) /\
  (concat batches = [] -> evaluate batches = Raise ZeroDivision).
Proof.
  unfold evaluate. rewrite evaluate_fold. cbn [Nat.add]. split.
  - intros H. destruct (Nat.eqb_spec (length (concat batches)) 0) as [E|E]; [destruct (concat batches); [congruence|discriminate]|].
    eexists. split; [reflexivity|]. assert (P : 0 < Qnat (length (concat batches))) by (apply Qnat_pos; lia).
    set (m := filter _ _). assert (L : Qnat (length m) <= Qnat (length (concat batches))).
    { apply Qnat_le. unfold m. induction (concat batches) as [|x l IH]; [auto|]. cbn [filter]. destruct (Nat.eqb (fst x) (snd x)); cbn [length]; [|]; destruct l; cbn [filter length] in *; try lia; specialize (IH ltac:(discriminate) ltac:(lia) ltac:(apply Qnat_pos; lia)); lia. }
    pose proof (Qnat_nonneg (length m)). split; [field; lra|]. split; [apply Qle_shift_div_l; lra|apply Qle_shift_div_r; lra].
  - intros ->. reflexivity.
Qed.
