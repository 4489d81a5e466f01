From Coq Require Import QArith Qabs Qround List Permutation Sorted ZArith Bool Arith Lia Lqa Setoid Morphisms.
From Verif Require Import Base BaseFacts ModelUtil ModelCount ModelRank ModelPool ModelFilter ModelBatched
     SpecCount SpecFilter SpecBatched ProofUtil ProofCount ProofPool ProofFilter.
Import ListNotations.
Open Scope Q_scope.

(** ** the pool returns a permutation of the results *)
Section ImapUnordered.
Context {A B : Type} (f : A -> B).
Definition busy_results (o : option (nat * list A)) : list (list B) :=
  match o with Some (_, ch) => [map f ch] | None => [] end.
Definition all_results (s : @pool_state A B) : list (list B) :=
  map (fun c => map f (snd c)) (queue s) ++ flat_map busy_results (busy s) ++ map snd (done s).

Lemma flat_map_upd {X Y} (g : X -> list Y) l w v y : nth_error l w = Some y ->
  Permutation (g y ++ flat_map g (upd l w v)) (g v ++ flat_map g l).
Proof.
  revert w. induction l as [|x l IH]; intros [|w] H; simpl in *; try discriminate.
  - inversion H; subst. rewrite !app_assoc. apply Permutation_app_tail. apply Permutation_app_comm.
  - specialize (IH w H). rewrite !app_assoc. rewrite (Permutation_app_comm (g y)), (Permutation_app_comm (g v)).
    rewrite <- !app_assoc. apply Permutation_app_head. exact IH.
Qed.
Lemma step_perm s w : Permutation (all_results (pool_step f s w)) (all_results s).
Proof.
  unfold pool_step. destruct (nth_error (busy s) w) as [[[i ch]|]|] eqn:E; auto.
  - unfold all_results. cbn [queue busy done]. apply Permutation_app_head.
    pose proof (flat_map_upd busy_results (busy s) w None _ E) as P. cbn [busy_results app] in P.
    cbn [map snd]. rewrite <- Permutation_middle. rewrite <- P. reflexivity.
  - destruct (queue s) as [|[i ch] q] eqn:Eq; auto.
    unfold all_results. cbn [queue busy done]. rewrite Eq.
    pose proof (flat_map_upd busy_results (busy s) w (Some (i, ch)) _ E) as P. cbn [busy_results app] in P.
    rewrite P. cbn [map snd]. rewrite <- app_comm_cons. rewrite <- Permutation_middle. reflexivity.
Qed.
Lemma run_perm sched : forall s, Permutation (all_results (fold_left (pool_step f) sched s)) (all_results s).
Proof. induction sched; simpl; intros; auto. rewrite IHsched. apply step_perm. Qed.

Lemma init_results workers c args : all_results (pool_init (B:=B) workers c args) = map (map f) (chunks c args).
Proof.
  unfold all_results, pool_init. cbn [queue busy done]. cbn [map]. rewrite app_nil_r.
  assert (flat_map busy_results (repeat None workers) = []) as ->.
  { induction workers; simpl; auto. }
  rewrite app_nil_r. generalize (chunks c args) 0%nat. intros cs. induction cs; intros n; simpl; f_equal; auto.
Qed.
Lemma Permutation_concat {X} (l l' : list (list X)) : Permutation l l' -> Permutation (concat l) (concat l').
Proof.
  induction 1; simpl; auto.
  - apply Permutation_app_head. auto.
  - rewrite !app_assoc. apply Permutation_app_tail. apply Permutation_app_comm.
  - etransitivity; eauto.
Qed.
Lemma imap_unordered_perm workers sched args r : imap_unordered f workers sched args = Ok r ->
  Permutation r (map f args).
Proof.
  unfold imap_unordered. set (s := fold_left _ _ _). destruct (pool_finished s) eqn:E; [|discriminate].
  intros H; inversion H; subst r.
  pose proof (run_perm sched (pool_init workers 1 args)) as P. fold s in P. rewrite init_results in P.
  assert (Es : all_results s = map snd (done s)).
  { unfold all_results. unfold pool_finished in E. destruct (queue s); [|discriminate]. simpl.
    assert (flat_map busy_results (busy s) = []) as ->; auto.
    rewrite forallb_forall in E. clear - E. induction (busy s) as [|b l IH]; simpl; auto.
    rewrite IH by (intros; apply E; simpl; auto). specialize (E b (or_introl eq_refl)). destruct b; [discriminate|reflexivity]. }
  rewrite Es in P. rewrite map_rev, <- (Permutation_concat _ _ (Permutation_rev (map snd (done s)))).
  rewrite (Permutation_concat _ _ P). rewrite <- concat_map, chunks_concat by lia. reflexivity.
Qed.
Lemma imap_unordered_finishes workers args : (1 <= workers)%nat ->
  exists sched r, imap_unordered f workers sched args = Ok r.
Proof.
  intros Hw. destruct (pool_map_can_finish f workers 1 args Hw (le_n 1)) as (sched & H).
  exists sched. unfold pool_map in H. unfold imap_unordered. destruct (pool_finished _); [|discriminate]. eauto.
Qed.
End ImapUnordered.

(** ** C22 *)
Lemma count_true_concat {X} (g : X -> bool) (cs : list (list X)) :
  nsum (map (fun rs => count_true (map g rs)) cs) = count_true (map g (concat cs)).
Proof.
  induction cs as [|c cs IH]; simpl; auto. rewrite IH, map_app, count_true_app. reflexivity.
Qed.
Lemma chunksize_pos n : (1 <= chunksize n)%nat.
Proof.
  unfold chunksize. destruct (Nat.leb_spec n processes); [lia|].
  apply Nat.div_le_lower_bound; [discriminate|]. rewrite Nat.mul_1_r. lia.
Qed.

Lemma pool_count {X} (g : X -> bool) c workers sched rows r : (1 <= c)%nat ->
  imap_unordered (fun rs => count_true (map g rs)) workers sched (chunks c rows) = Ok r ->
  nsum r = count_true (map g rows).
Proof.
  intros Hc H. apply imap_unordered_perm in H. rewrite (nsum_perm _ _ H), count_true_concat, chunks_concat; auto.
Qed.

Lemma C22_default_full : forall K st b n_jobs sched st1 st2,
  update_num_label_issues K false Serial st b = Ok st1 ->
  update_num_label_issues K false (Pool n_jobs sched) st b = Ok st2 -> st1 = st2.
Proof.
  intros K st b n_jobs sched st1 st2. unfold update_num_label_issues.
  destruct (Nat.ltb _ _); [discriminate|]. cbn [negb]. intros H1 H2. inversion H1; subst; clear H1.
  destruct (imap_unordered _ _ _ _) as [r|] eqn:E; [|discriminate]. cbn [rbind] in H2.
  inversion H2; subst; clear H2.
  pose proof (pool_count (fun lr => counts_as_issue (confident_thresholds st) (fst lr) (snd lr)) _ _ _ _ _
     (chunksize_pos (length (fst b))) E) as ->. reflexivity.
Qed.

(** one example per chunk *)
Lemma chunks_one {X} (l : list X) : chunks 1 l = map (fun x => [x]) l.
Proof.
  unfold chunks. enough (forall n (l : list X), (length l <= n)%nat -> chunks_aux n 1 l = map (fun x => [x]) l) by (apply H; auto).
  induction n; intros [|x t] H; simpl in *; auto; [lia|]. rewrite IHn by lia. reflexivity.
Qed.
Lemma chunksize_small n : (n < 2 * 5000)%nat -> chunksize n = 1%nat.
Proof.
  intros H. unfold chunksize. destruct (Nat.leb_spec n processes); auto.
  pose proof (chunksize_pos n) as Hp. unfold chunksize in Hp. destruct (Nat.leb_spec n processes); [lia|].
  assert (n / processes < 2)%nat; [|lia]. apply Nat.div_lt_upper_bound; [discriminate|].
  assert (processes = 5000)%nat as -> by reflexivity. lia.
Qed.

Definition bump_one (g : nat * list Q -> nat) (acc : list nat) (lr : nat * list Q) : list nat :=
  upd acc (fst lr) (nth (fst lr) acc 0 + g lr)%nat.
Lemma fold_bump g rows : forall acc k, (forall lr, In lr rows -> (fst lr < length acc)%nat) -> (k < length acc)%nat ->
  length (fold_left (bump_one g) rows acc) = length acc /\
  nth k (fold_left (bump_one g) rows acc) 0%nat =
  (nth k acc 0 + nsum (map (fun lr => if Nat.eqb (fst lr) k then g lr else 0) rows))%nat.
Proof.
  induction rows as [|lr rows IH]; intros acc k Hr Hk; simpl; [split; [auto|lia]|].
  assert (L : length (bump_one g acc lr) = length acc) by apply upd_length.
  destruct (IH (bump_one g acc lr) k) as (A1 & A2).
  - intros. rewrite L. apply Hr. simpl; auto.
  - rewrite L; auto.
  - rewrite A1, A2, L. split; auto. unfold bump_one at 1.
    destruct (Nat.eqb_spec (fst lr) k) as [->|Hne].
    + rewrite nth_upd_eq by auto. lia.
    + rewrite nth_upd_neq by auto. lia.
Qed.
Lemma nsum_b2n {X} (p : X -> bool) (g : X -> bool) rows :
  nsum (map (fun x => if p x then b2n (g x) else 0%nat) rows) = count_true (map (fun x => (p x && g x)%bool) rows).
Proof.
  induction rows as [|x rows IH]; simpl; auto. rewrite count_true_cons, IH. destruct (p x), (g x); simpl; auto.
Qed.
Lemma fold_bump_tab K (g : nat * list Q -> bool) rows acc : length acc = K -> (forall lr, In lr rows -> (fst lr < K)%nat) ->
  fold_left (bump_one (fun lr => b2n (g lr))) rows acc =
  tab K (fun k => nth k acc 0 + count_true (map (fun lr => (Nat.eqb (fst lr) k && g lr)%bool) rows))%nat.
Proof.
  intros HK Hr. destruct (Nat.eq_0_gt_0_cases K) as [->|Hpos].
  - destruct rows as [|lr rows]; [|specialize (Hr lr (or_introl eq_refl)); lia].
    simpl. destruct acc; [reflexivity|discriminate].
  - apply list_eq_nth with (d := 0%nat).
    + rewrite tab_length. destruct (fold_bump (fun lr => b2n (g lr)) rows acc 0%nat) as (L & _); rewrite ?HK; auto. lia.
    + intros k Hk. destruct (fold_bump (fun lr => b2n (g lr)) rows acc 0%nat) as (L & _); rewrite ?HK; auto.
      rewrite L, HK in Hk.
      destruct (fold_bump (fun lr => b2n (g lr)) rows acc k) as (_ & V); rewrite ?HK; auto.
      rewrite V, nth_tab by auto. rewrite (nsum_b2n (fun lr => Nat.eqb (fst lr) k) g). reflexivity.
Qed.

Lemma fold3 {X Y1 Y2 Y3} (f1 : Y1 -> X -> Y1) (f2 : Y2 -> X -> Y2) (f3 : Y3 -> X -> Y3) l : forall a b c,
  fold_left (fun acc x => let '(p, q, r) := acc in (f1 p x, f2 q x, f3 r x)) l (a, b, c)
  = (fold_left f1 l a, fold_left f2 l b, fold_left f3 l c).
Proof. induction l; simpl; auto. Qed.
Lemma fold_left_ext_in {X Y} (f g : Y -> X -> Y) l : (forall a x, In x l -> f a x = g a x) -> forall a, fold_left f l a = fold_left g l a.
Proof. induction l as [|x l IH]; simpl; intros H a; auto. rewrite H by auto. apply IH. intros; apply H; auto. Qed.

Lemma count_true_perm {X} (p : X -> bool) l l' : Permutation l l' -> count_true (map p l) = count_true (map p l').
Proof.
  induction 1; simpl; rewrite ?count_true_cons; try lia.
Qed.
Lemma count_true_labels k (rows : list (nat * list Q)) :
  count_true (map (fun lr => (Nat.eqb (fst lr) k && true)%bool) rows) = n_labelled k (map fst rows).
Proof.
  induction rows as [|lr rows IH]; simpl; auto. rewrite count_true_cons, IH. destruct (Nat.eqb (fst lr) k); reflexivity.
Qed.

Lemma map_fst_combine {X Y} (l : list X) : forall l' : list Y, length l = length l' -> map fst (combine l l') = l.
Proof. induction l; intros [|y l'] H; simpl in *; try lia; auto. f_equal. auto. Qed.
Lemma map_snd_combine {X Y} (l : list X) : forall l' : list Y, length l = length l' -> map snd (combine l l') = l'.
Proof. induction l; intros [|y l'] H; simpl in *; try lia; auto. f_equal. auto. Qed.

(** counters as they should be *)
Definition iss_c (thr : list Q) (rows : list (nat * list Q)) (k : nat) : nat :=
  count_true (map (fun lr => (Nat.eqb (fst lr) k && counts_as_issue thr (fst lr) (snd lr))%bool) rows).
Definition nrm_c (thr : list Q) (rows : list (nat * list Q)) (k : nat) : nat :=
  count_true (map (fun lr => (Nat.eqb (fst lr) k && confident_prediction thr (snd lr))%bool) rows).

Definition with_counts st pc pcs ccs nrm :=
    {| confident_thresholds := confident_thresholds st; examples_per_class := examples_per_class st;
       examples_processed_thresh := examples_processed_thresh st;
       examples_processed_quality := examples_processed_quality st;
       prune_count := pc; prune_counts_c := pcs; class_counts_c := ccs; normalization_c := nrm;
       quality_scores := quality_scores st |}.

Definition exec_ok (calibrated : bool) (j : jobs) (n : nat) : Prop :=
  calibrated = false \/ j = Serial \/ (n < 2 * 5000)%nat.

Lemma update_canonical K calibrated j st b st' :
  length (fst b) = length (snd b) -> fst b <> [] -> (forall l, In l (fst b) -> (l < K)%nat) ->
  length (prune_counts_c st) = K -> length (class_counts_c st) = K -> length (normalization_c st) = K ->
  exec_ok calibrated j (length (fst b)) ->
  update_num_label_issues K calibrated j st b = Ok st' ->
  st' = (let rows := combine (fst b) (snd b) in let thr := confident_thresholds st in
    if calibrated then
      with_counts st (prune_count st)
        (tab K (fun k => nth k (prune_counts_c st) 0 + iss_c thr rows k)%nat)
        (tab K (fun k => nth k (class_counts_c st) 0 + n_labelled k (fst b))%nat)
        (tab K (fun k => nth k (normalization_c st) 0 + nrm_c thr rows k)%nat)
    else with_counts st (prune_count st + count_true (map (fun lr => counts_as_issue thr (fst lr) (snd lr)) rows))%nat
           (prune_counts_c st) (class_counts_c st) (normalization_c st)).
Proof.
  intros Hlen Hne Hlab L1 L2 L3 Hex. unfold update_num_label_issues.
  destruct (Nat.ltb _ _); [discriminate|]. cbv zeta.
  set (rows := combine (fst b) (snd b)). set (thr := confident_thresholds st).
  assert (Hrows : forall lr, In lr rows -> (fst lr < K)%nat).
  { intros lr Hin. apply Hlab. rewrite <- (map_fst_combine (fst b) (snd b) Hlen). apply in_map. exact Hin. }
  destruct calibrated; cbn [negb].
  - destruct j as [|n sched].
    + rewrite value_counts_ok by auto. cbn [rbind]. intros H; inversion H; subst st'. unfold with_counts.
      f_equal. apply tab_ext. intros k Hk. rewrite nth_tab by auto. reflexivity.
    + destruct Hex as [Hex|[Hex|Hex]]; try discriminate. rewrite chunksize_small by auto. rewrite chunks_one.
      match goal with |- context [imap_unordered ?F n sched ?args] => set (F0 := F); destruct (imap_unordered F0 n sched args) as [r|] eqn:E end; [|discriminate].
      cbn [rbind]. apply imap_unordered_perm in E. rewrite map_map in E.
      apply Permutation_map_inv in E as (rows' & -> & P).
      assert (Hrows' : forall lr, In lr rows' -> (fst lr < K)%nat).
      { intros lr Hin. apply Hrows. eapply Permutation_in; [symmetry; exact P|exact Hin]. }
      set (G := fun (acc : list nat * list nat * list nat) (res : list nat * (list bool * list bool)) =>
        let '(pcs, ccs, nrm) := acc in let '(lab, (nb, pb)) := res in
        (fancy_add pcs lab (map b2n pb), fancy_add ccs lab (map (fun _ => 1%nat) lab), fancy_add nrm lab (map b2n nb))).
      assert (EF : fold_left G (map (fun x => F0 [x]) rows') (prune_counts_c st, class_counts_c st, normalization_c st)
        = (fold_left (bump_one (fun lr => b2n (counts_as_issue thr (fst lr) (snd lr)))) rows' (prune_counts_c st),
           fold_left (bump_one (fun lr => b2n true)) rows' (class_counts_c st),
           fold_left (bump_one (fun lr => b2n (confident_prediction thr (snd lr)))) rows' (normalization_c st))).
      { rewrite <- fold3. generalize (prune_counts_c st, class_counts_c st, normalization_c st).
        clear. induction rows' as [|lr rows' IH]; intros acc; cbn [map fold_left]; auto. }
      pose proof (fold_bump_tab K (fun lr => counts_as_issue thr (fst lr) (snd lr)) rows' _ L1 Hrows') as B1.
      pose proof (fold_bump_tab K (fun _ => true) rows' _ L2 Hrows') as B2.
      pose proof (fold_bump_tab K (fun lr => confident_prediction thr (snd lr)) rows' _ L3 Hrows') as B3.
      rewrite B1, B2, B3 in EF. rewrite EF. intros H. injection H as <-. unfold with_counts. f_equal; apply tab_ext; intros k Hk; f_equal.
      * apply count_true_perm. symmetry. exact P.
      * rewrite (count_true_perm _ _ _ (Permutation_sym P)).
        rewrite count_true_labels. unfold rows. rewrite map_fst_combine by auto. reflexivity.
      * apply count_true_perm. symmetry. exact P.
  - destruct j as [|n sched].
    + intros H; inversion H; subst st'. reflexivity.
    + destruct (imap_unordered _ _ _ _) as [r|] eqn:E; [|discriminate]. cbn [rbind].
      intros H; inversion H; subst st'. unfold with_counts. f_equal. f_equal.
      apply (pool_count (fun lr => counts_as_issue thr (fst lr) (snd lr)) _ _ _ _ _ (chunksize_pos (length (fst b))) E).
Qed.

Lemma C22_calibrated_full : forall K st b n_jobs sched st1 st2,
  length (fst b) = length (snd b) -> fst b <> [] -> (forall l, In l (fst b) -> (l < K)%nat) ->
  length (prune_counts_c st) = K -> length (class_counts_c st) = K -> length (normalization_c st) = K ->
  (length (fst b) < 2 * 5000)%nat ->
  update_num_label_issues K true Serial st b = Ok st1 ->
  update_num_label_issues K true (Pool n_jobs sched) st b = Ok st2 -> st1 = st2.
Proof.
  intros K st b n_jobs sched st1 st2 H1 H2 H3 H4 H5 H6 H7 E1 E2.
  eapply update_canonical in E1; eauto; [|right; auto]. eapply update_canonical in E2; eauto; [|right; auto].
  congruence.
Qed.

(** ** C21: thresholds *)
Lemma rfold_app {A B} (f : A -> B -> res A) l1 l2 a : rfold f (l1 ++ l2) a = rbind (rfold f l1 a) (rfold f l2).
Proof. revert a. induction l1 as [|b t IH]; intros a; simpl; auto. destruct (f a b); simpl; auto. Qed.

Lemma n_labelled_app k a b : n_labelled k (a ++ b) = (n_labelled k a + n_labelled k b)%nat.
Proof. induction a; simpl; auto. rewrite IHa. lia. Qed.
Lemma own_probs_app k l1 : forall p1 l2 p2, length l1 = length p1 ->
  own_probs k (l1 ++ l2) (p1 ++ p2) = own_probs k l1 p1 ++ own_probs k l2 p2.
Proof.
  induction l1 as [|l l1 IH]; intros [|r p1] l2 p2 H; simpl in *; try lia; auto.
  rewrite IH by lia. destruct (Nat.eqb l k); reflexivity.
Qed.
Lemma split_lengths labels pp bs : is_split labels pp bs -> length labels = length pp.
Proof.
  intros (<- & <- & H). induction bs as [|b bs IH]; simpl; auto. rewrite !app_length.
  rewrite IH by (intros; apply H; simpl; auto). f_equal. apply H; simpl; auto.
Qed.
Lemma split_snoc b bs labels pp : is_split labels pp (bs ++ [b]) -> exists l p, is_split l p bs /\
  labels = l ++ fst b /\ pp = p ++ snd b /\ length (fst b) = length (snd b) /\ fst b <> [].
Proof.
  intros (<- & <- & H). exists (concat (map fst bs)), (concat (map snd bs)).
  split; [split; [reflexivity|split; [reflexivity|intros; apply H, in_or_app; auto]]|].
  rewrite !map_app, !concat_app. simpl. rewrite !app_nil_r.
  split; auto. split; auto. apply H. apply in_or_app. simpl. auto.
Qed.
Lemma floored_total_app k a b : floored_total k (a ++ b) == floored_total k a + floored_total k b.
Proof. induction a as [|x a IH]; simpl; [ring|]. rewrite IH. ring. Qed.

Definition thr_inv (K : nat) (labels : list nat) (bs : list batch) (st : inspector) : Prop :=
  examples_per_class st = tab K (fun k => n_labelled k labels) /\
  length (confident_thresholds st) = K /\
  (forall k, (k < K)%nat -> nth k (confident_thresholds st) 0 * Qnat (n_labelled k labels) == floored_total k bs) /\
  (forall k, (k < K)%nat -> In k labels -> 2 # 1000000 <= nth k (confident_thresholds st) 0) /\
  (bs <> [] -> forall k, (k < K)%nat -> ~ In k labels -> nth k (confident_thresholds st) 0 == 2 # 1000000) /\
  examples_processed_thresh st = length labels /\
  (prune_count st, prune_counts_c st, class_counts_c st, normalization_c st, quality_scores st,
   examples_processed_quality st) =
  (0%nat, repeat 0%nat K, repeat 0%nat K, repeat 0%nat K, [], 0%nat).

Lemma batch_threshold K k l p : length l = length p -> (k < K)%nat ->
  Qnat (n_labelled k l) * nth k (get_confident_thresholds l p K) 0 == floored_total k [(l, p)].
Proof.
  intros Hl Hk. destruct (thresholds_spec l p K k Hl Hk) as (H1 & H2). cbn [floored_total fst snd].
  destruct (n_labelled k l) eqn:E.
  - change (Qnat 0) with 0. ring.
  - assert (In k l) as Hin by (apply n_labelled_pos; lia). destruct (H1 Hin) as (a & (Hne & Ha) & ->).
    rewrite own_probs_length in Ha by auto. rewrite E in Ha. rewrite Qplus_0_r.
    assert (0 < Qnat (S n)) by (apply Qnat_pos; lia).
    assert (Ea : a == qsum (own_probs k l p) / Qnat (S n)) by (rewrite <- Ha; field; lra). rewrite Ea. reflexivity.
Qed.
Lemma batch_threshold_low K k l p : length l = length p -> (k < K)%nat ->
  2 # 1000000 <= nth k (get_confident_thresholds l p K) 0.
Proof.
  intros Hl Hk. unfold get_confident_thresholds. cbv zeta.
  rewrite (nth_map_gen _ _ _ _ 0) by (rewrite tab_length; auto). apply clip_lo_ge.
Qed.

Lemma thr_step K labels pp bs b st st' : is_split labels pp bs -> thr_inv K labels bs st ->
  length (fst b) = length (snd b) -> fst b <> [] -> (forall l, In l (fst b) -> (l < K)%nat) ->
  update_confident_thresholds K st b = Ok st' -> thr_inv K (labels ++ fst b) (bs ++ [b]) st'.
Proof.
  intros Hsp (I1 & I2 & I3 & I4 & I5 & I6 & I7) Hlen Hne Hlab.
  unfold update_confident_thresholds, batch_check. rewrite Hlen, Nat.eqb_refl. cbn [negb rbind].
  rewrite value_counts_ok by auto. cbn [rbind]. intros H. injection H as <-.
  assert (Ethr : forall k, (k < K)%nat -> forall v,
    v = clip_lo CONFIDENT_THRESHOLDS_LOWER_BOUND
      ((Qnat (nth k (examples_per_class st) 0%nat) * nth k (confident_thresholds st) 0
        + Qnat (nth k (tab K (fun k => n_labelled k (fst b))) 0%nat) * nth k (get_confident_thresholds (fst b) (snd b) K) 0)
       / clip_lo 1 (Qnat (nth k (examples_per_class st) 0%nat + nth k (tab K (fun k => n_labelled k (fst b))) 0%nat))) ->
    v * Qnat (n_labelled k (labels ++ fst b)) == floored_total k (bs ++ [b]) /\
    (In k (labels ++ fst b) -> 2 # 1000000 <= v) /\ (~ In k (labels ++ fst b) -> v == 2 # 1000000)).
  { intros k Hk v ->. rewrite I1, !nth_tab by auto. rewrite n_labelled_app.
    set (n1 := n_labelled k labels) in *. set (n2 := n_labelled k (fst b)) in *.
    pose proof (I3 k Hk) as E1. fold n1 in E1.
    pose proof (batch_threshold K k (fst b) (snd b) Hlen Hk) as E2. fold n2 in E2.
    assert (E3 : floored_total k (bs ++ [b]) == Qnat n1 * nth k (confident_thresholds st) 0 + Qnat n2 * nth k (get_confident_thresholds (fst b) (snd b) K) 0).
    { rewrite floored_total_app, <- E1. replace [b] with [(fst b, snd b)] by (destruct b; reflexivity). rewrite <- E2. ring. }
    set (t1 := nth k (confident_thresholds st) 0) in *. set (t2 := nth k (get_confident_thresholds (fst b) (snd b) K) 0) in *.
    pose proof (batch_threshold_low K k (fst b) (snd b) Hlen Hk) as Ht2. fold t2 in Ht2.
    assert (Ht1 : (0 < n1)%nat -> 2 # 1000000 <= t1). { intros Hn. apply I4; auto. apply n_labelled_pos. auto. }
    split; [|split].
    - rewrite E3. destruct (Nat.eq_0_gt_0_cases (n1 + n2)) as [Z|Z].
      + assert (n1 = 0 /\ n2 = 0)%nat as (-> & ->) by lia. change (Qnat (0 + 0)) with 0. change (Qnat 0) with 0. ring.
      + assert (Hq : 1 <= Qnat (n1 + n2)) by (change 1 with (Qnat 1); apply Qnat_le; lia).
        rewrite (clip_lo_id 1) by auto.
        rewrite clip_lo_id; [field; lra|]. apply Qle_shift_div_l; [lra|]. rewrite Qnat_plus.
        unfold CONFIDENT_THRESHOLDS_LOWER_BOUND.
        assert (G1 : (2 # 1000000) * Qnat n1 <= Qnat n1 * t1).
        { destruct (Nat.eq_0_gt_0_cases n1) as [->|Hn]; [change (Qnat 0) with 0; lra|].
          rewrite (Qmult_comm (Qnat n1)). apply Qmult_le_compat_r; auto. apply Qnat_nonneg. }
        assert (G2 : (2 # 1000000) * Qnat n2 <= Qnat n2 * t2).
        { rewrite (Qmult_comm (Qnat n2)). apply Qmult_le_compat_r; auto. apply Qnat_nonneg. }
        lra.
    - intros _. apply clip_lo_ge.
    - intros Hni. assert (n1 = 0%nat) as E. { destruct n1 eqn:E; auto. exfalso. apply Hni, in_or_app. left. apply n_labelled_pos. fold n1. lia. }
      assert (n2 = 0%nat) as E'. { destruct n2 eqn:E'; auto. exfalso. apply Hni, in_or_app. right. apply n_labelled_pos. fold n2. lia. }
      rewrite E, E'. change (Qnat (0 + 0)) with 0. change (Qnat 0) with 0.
      assert ((0 * t1 + 0 * t2) / clip_lo 1 0 == 0) as -> by (unfold Qdiv; ring). reflexivity. }
  split; [|split; [|split; [|split; [|split; [|split]]]]]; cbn [examples_per_class confident_thresholds examples_processed_thresh].
  - apply tab_ext. intros k Hk. rewrite I1, !nth_tab by auto. rewrite n_labelled_app. reflexivity.
  - apply tab_length.
  - intros k Hk. rewrite nth_tab by auto. apply (Ethr k Hk _ eq_refl).
  - intros k Hk Hin. rewrite nth_tab by auto. apply (Ethr k Hk _ eq_refl); auto.
  - intros _ k Hk Hni. rewrite nth_tab by auto. apply (Ethr k Hk _ eq_refl); auto.
  - rewrite I6, app_length. lia.
  - exact I7.
Qed.

Lemma thr_run K : forall bs labels pp st, is_split labels pp bs -> (forall l, In l labels -> (l < K)%nat) ->
  rfold (update_confident_thresholds K) bs (new_inspector K) = Ok st -> thr_inv K labels bs st.
Proof.
  intros bs. induction bs as [|b bs IH] using rev_ind; intros labels pp st Hsp Hlab H.
  - simpl in H. injection H as <-. destruct Hsp as (<- & _). simpl.
    unfold thr_inv, new_inspector. cbn. split; [|split; [|split; [|split; [|split; [|split]]]]].
    + apply list_eq_nth with (d := 0%nat); rewrite ?tab_length, ?repeat_length; auto.
      intros i Hi. rewrite nth_tab by auto. apply nth_repeat.
    + apply repeat_length.
    + intros k Hk. change (Qnat 0) with 0. ring.
    + intros k Hk [].
    + intros C; exfalso; apply C; reflexivity.
    + reflexivity.
    + reflexivity.
  - destruct (split_snoc b bs labels pp Hsp) as (l & p & Hs' & -> & -> & Hlen & Hne).
    rewrite rfold_app in H. destruct (rfold (update_confident_thresholds K) bs (new_inspector K)) as [st0|] eqn:E; [|discriminate]. cbn [rbind] in H.
    simpl in H. destruct (update_confident_thresholds K st0 b) as [st1|] eqn:E1; [|discriminate]. cbn [rbind] in H.
    injection H as <-. eapply thr_step; eauto.
    + eapply IH; eauto. intros; apply Hlab, in_or_app; auto.
    + intros; apply Hlab, in_or_app; auto.
Qed.
Lemma thr_run_ok K : forall bs labels pp, is_split labels pp bs -> (forall l, In l labels -> (l < K)%nat) ->
  exists st, rfold (update_confident_thresholds K) bs (new_inspector K) = Ok st.
Proof.
  intros bs labels pp (<- & <- & H) Hlab. generalize (new_inspector K) as st0.
  induction bs as [|b bs IH]; intros st0; simpl; eauto.
  destruct (H b (or_introl eq_refl)) as (Hl & Hne).
  unfold update_confident_thresholds at 1, batch_check. rewrite Hl, Nat.eqb_refl. cbn [negb rbind].
  rewrite value_counts_ok; auto; [|intros; apply Hlab; simpl; apply in_or_app; auto]. cbn [rbind].
  apply IH; intros.
  - apply H. simpl; auto.
  - apply Hlab. simpl. apply in_or_app; auto.
Qed.

Lemma floored_means_ok labels pp bs k : is_split labels pp bs -> means_ok bs ->
  floored_total k bs == qsum (own_probs k labels pp).
Proof.
  intros (<- & <- & H) Hm. induction bs as [|b bs IH]; simpl; [reflexivity|].
  destruct (H b (or_introl eq_refl)) as (Hl & Hne).
  rewrite own_probs_app by auto. rewrite qsum_app. rewrite IH.
  - apply Qplus_inj_r. destruct (n_labelled k (fst b)) eqn:E.
    + rewrite <- (own_probs_length k (fst b) (snd b) Hl) in E. destruct (own_probs k (fst b) (snd b)); [reflexivity|discriminate].
    + assert (0 < Qnat (S n)) by (apply Qnat_pos; lia).
      assert (qmax (qsum (own_probs k (fst b) (snd b)) / Qnat (S n)) (2 # 1000000) == qsum (own_probs k (fst b) (snd b)) / Qnat (S n)) as ->; [|field; lra].
      assert (2 # 1000000 <= qsum (own_probs k (fst b) (snd b)) / Qnat (S n)); [|qmm; lra].
      apply (Hm b k); simpl; auto.
      * apply n_labelled_pos. lia.
      * split; [intros C; rewrite <- (own_probs_length k (fst b) (snd b) Hl), C in E; discriminate|].
        rewrite own_probs_length, E by auto. field. lra.
  - intros; apply H; simpl; auto.
  - intros b' k' a Hb'. apply Hm. simpl. auto.
Qed.
Lemma floored_total_ge k bs labels : concat (map fst bs) = labels ->
  Qnat (n_labelled k labels) * (2 # 1000000) <= floored_total k bs.
Proof.
  intros <-. induction bs as [|b bs IH]; simpl; [change (Qnat 0) with 0; lra|].
  rewrite n_labelled_app, Qnat_plus. destruct (n_labelled k (fst b)); [change (Qnat 0) with 0; lra|].
  assert (Qnat (S n) * (2 # 1000000) <= Qnat (S n) * qmax (qsum (own_probs k (fst b) (snd b)) / Qnat (S n)) (2 # 1000000)); [|lra].
  rewrite !(Qmult_comm (Qnat (S n))). apply Qmult_le_compat_r; [qmm; lra|apply Qnat_nonneg].
Qed.

Lemma thr_full K labels pp bs st : is_split labels pp bs -> (forall l, In l labels -> (l < K)%nat) ->
  labels <> [] ->
  rfold (update_confident_thresholds K) bs (new_inspector K) = Ok st ->
  forall k, (k < K)%nat ->
  (In k labels -> nth k (confident_thresholds st) 0 * Qnat (n_labelled k labels) == floored_total k bs /\
     (means_ok bs -> nth k (confident_thresholds st) 0 == nth k (get_confident_thresholds labels pp K) 0)) /\
  (~ In k labels -> nth k (confident_thresholds st) 0 == 2 # 1000000).
Proof.
  intros Hsp Hlab Hne H k Hk. pose proof (split_lengths _ _ _ Hsp) as Hlen.
  destruct (thr_run K bs labels pp st Hsp Hlab H) as (_ & _ & I3 & _ & I5 & _). split.
  - intros Hin. split; [apply I3; auto|]. intros Hm.
    pose proof (I3 k Hk) as E. pose proof (floored_means_ok labels pp bs k Hsp Hm) as E2.
    destruct (thresholds_spec labels pp K k Hlen Hk) as (H1 & _). destruct (H1 Hin) as (a & (Hne' & Ha) & ->).
    rewrite own_probs_length in Ha by auto. rewrite E2, <- Ha in E.
    assert (0 < Qnat (n_labelled k labels)) by (apply Qnat_pos, n_labelled_pos; auto).
    apply Qmult_inj_r in E; [|lra]. rewrite E.
    pose proof (floored_total_ge k bs labels ltac:(apply Hsp)) as G. rewrite E2, <- Ha in G.
    assert (2 # 1000000 <= a). { apply Qmult_lt_0_le_reg_r with (Qnat (n_labelled k labels)); lra. }
    unfold CONFIDENT_THRESHOLDS_LOWER_BOUND. qmm; lra.
  - intros Hni. apply I5; auto. intros ->. destruct Hsp as (E & _). simpl in E. congruence.
Qed.

(** ** C21: scores and counts do not depend on the batching *)
Definition score_one (K : nat) (thr : list Q) (method : score_method) (adjust : bool) (lr : nat * list Q) : Q :=
  let row := if adjust
             then (let adj := map (fun xt => fst xt - snd xt + qmaximum thr) (combine (snd lr) thr) in
                   map (fun x => x / qsum adj) adj)
             else snd lr in
  match method with
  | SelfConfidence => nth (fst lr) row 0
  | NormalizedMargin => (nth (fst lr) row 0 - qmaximum (delete_at (fst lr) row) + 1) / 2
  end.
Lemma combine_map_r {X Y Z} (h : Y -> Z) (l : list X) : forall l' : list Y,
  combine l (map h l') = map (fun p => (fst p, h (snd p))) (combine l l').
Proof. induction l; intros [|y l']; simpl; auto. f_equal. auto. Qed.
Lemma combine_map_both {X Y Z} (f : X -> Y) (g : X -> Z) l : combine (map f l) (map g l) = map (fun x => (f x, g x)) l.
Proof. induction l; simpl; auto. f_equal; auto. Qed.

Lemma batch_scores_map labels pp K thr method adjust s :
  batch_scores labels pp K thr method adjust = Ok s -> s = map (score_one K thr method adjust) (combine labels pp).
Proof.
  unfold batch_scores.
  set (h := fun row => if adjust
             then (let adj := map (fun xt => fst xt - snd xt + qmaximum thr) (combine row thr) in
                   map (fun x => x / qsum adj) adj)
             else row).
  assert (E : (if adjust then subtract_confident_thresholds labels pp K (Some thr) else pp) = map h pp).
  { unfold h, subtract_confident_thresholds. destruct adjust; auto. symmetry. apply map_id. }
  rewrite E. destruct method.
  - intros H. injection H as <-. unfold get_self_confidence. rewrite combine_map_r, map_map. apply map_ext.
    intros [l row]. reflexivity.
  - destruct (Nat.leb K 1); [discriminate|]. intros H. injection H as <-.
    unfold get_normalized_margin, get_self_confidence. rewrite (combine_map_r h labels pp), !map_map, combine_map_both, map_map.
    apply map_ext. intros [l row]. reflexivity.
Qed.

Definition canon (K : nat) (calibrated : bool) (method : score_method) (adjust : bool) (st0 : inspector)
           (rows : list (nat * list Q)) : inspector :=
  let thr := confident_thresholds st0 in
  {| confident_thresholds := thr; examples_per_class := examples_per_class st0;
     examples_processed_thresh := examples_processed_thresh st0;
     examples_processed_quality := length rows;
     prune_count := if calibrated then 0%nat else count_true (map (fun lr => counts_as_issue thr (fst lr) (snd lr)) rows);
     prune_counts_c := tab K (fun k => if calibrated then iss_c thr rows k else 0%nat);
     class_counts_c := tab K (fun k => if calibrated then n_labelled k (map fst rows) else 0%nat);
     normalization_c := tab K (fun k => if calibrated then nrm_c thr rows k else 0%nat);
     quality_scores := map (score_one K thr method adjust) rows |}.

Lemma score_step K calibrated method adjust st0 rows j b st' :
  length (fst b) = length (snd b) -> fst b <> [] -> (forall l, In l (fst b) -> (l < K)%nat) ->
  exec_ok calibrated j (length (fst b)) ->
  score_label_quality K method adjust calibrated j (canon K calibrated method adjust st0 rows) b = Ok st' ->
  st' = canon K calibrated method adjust st0 (rows ++ combine (fst b) (snd b)).
Proof.
  intros Hlen Hne Hlab Hex. unfold score_label_quality, batch_check. rewrite Hlen, Nat.eqb_refl. cbn [negb rbind].
  destruct (Nat.ltb _ _); [discriminate|].
  destruct (batch_scores _ _ _ _ _ _) as [s|] eqn:Es; [|discriminate]. cbn [rbind].
  rewrite value_counts_ok by auto. cbn [rbind].
  destruct (update_num_label_issues _ _ _ _ _) as [st1|] eqn:Eu; [|discriminate]. cbn [rbind].
  apply update_canonical in Eu; auto; try apply tab_length.
  apply batch_scores_map in Es. cbn [canon confident_thresholds] in Es. subst s.
  intros H. injection H as <-. cbv zeta in Eu. cbn [canon confident_thresholds prune_count prune_counts_c class_counts_c normalization_c] in Eu.
  set (thr := confident_thresholds st0) in *. set (nrows := combine (fst b) (snd b)) in *.
  assert (Ln : length (snd b) = length nrows) by (unfold nrows; rewrite combine_length; lia).
  destruct calibrated; subst st1; unfold with_counts, canon; cbn; fold thr; f_equal.
  - rewrite app_length. lia.
  - apply tab_ext. intros k Hk. rewrite nth_tab by auto. unfold iss_c. rewrite map_app, count_true_app. reflexivity.
  - apply tab_ext. intros k Hk. rewrite nth_tab by auto. rewrite map_app, n_labelled_app. f_equal.
    unfold nrows. rewrite map_fst_combine by auto. reflexivity.
  - apply tab_ext. intros k Hk. rewrite nth_tab by auto. unfold nrm_c. rewrite map_app, count_true_app. reflexivity.
  - rewrite map_app. reflexivity.
  - rewrite app_length. lia.
  - rewrite map_app, count_true_app. reflexivity.
  - rewrite map_app. reflexivity.
Qed.

Lemma combine_app {X Y} (l1 : list X) : forall (p1 : list Y) l2 p2, length l1 = length p1 ->
  combine (l1 ++ l2) (p1 ++ p2) = combine l1 p1 ++ combine l2 p2.
Proof. induction l1; intros [|y p1] l2 p2 H; simpl in *; try lia; auto. f_equal. apply IHl1. lia. Qed.

Lemma score_run K calibrated method adjust st0 : forall sbs labels pp rows st,
  is_split labels pp (map fst sbs) -> (forall l, In l labels -> (l < K)%nat) ->
  (forall bj, In bj sbs -> exec_ok calibrated (snd bj) (length (fst (fst bj)))) ->
  rfold (fun st bj => score_label_quality K method adjust calibrated (snd bj) st (fst bj)) sbs
    (canon K calibrated method adjust st0 rows) = Ok st ->
  st = canon K calibrated method adjust st0 (rows ++ combine labels pp).
Proof.
  induction sbs as [|(b & j) sbs IH]; intros labels pp rows st Hsp Hlab Hex H.
  - destruct Hsp as (<- & <- & _). simpl in *. injection H as <-. rewrite app_nil_r. reflexivity.
  - destruct Hsp as (<- & <- & Hb). cbn [map fst concat] in *.
    destruct (Hb b (or_introl eq_refl)) as (Hlen & Hne).
    cbn [rfold fst snd] in H. destruct (score_label_quality _ _ _ _ _ _ _) as [st1|] eqn:E; [|discriminate]. cbn [rbind] in H.
    apply score_step in E; auto.
    + subst st1. rewrite combine_app by auto. rewrite app_assoc. eapply IH; eauto.
      * split; [reflexivity|split; [reflexivity|]]. intros; apply Hb; simpl; auto.
      * intros; apply Hlab. apply in_or_app; auto.
      * intros. apply Hex. simpl; auto.
    + intros; apply Hlab. apply in_or_app; auto.
    + apply (Hex (b, j)). simpl; auto.
Qed.

Lemma inspect_canon K calibrated method adjust bs sbs labels pp st :
  labels <> [] -> is_split labels pp bs -> is_split labels pp (map fst sbs) -> (forall l, In l labels -> (l < K)%nat) ->
  (forall bj, In bj sbs -> exec_ok calibrated (snd bj) (length (fst (fst bj)))) ->
  inspect K method adjust calibrated bs sbs = Ok st ->
  exists st0, rfold (update_confident_thresholds K) bs (new_inspector K) = Ok st0 /\
    st = canon K calibrated method adjust st0 (combine labels pp).
Proof.
  intros Hne Hb Hs Hlab Hex. unfold inspect.
  destruct (rfold (update_confident_thresholds K) bs (new_inspector K)) as [st0|] eqn:E; [|discriminate]. cbn [rbind]. intros H. exists st0. split; auto.
  destruct (thr_run K bs labels pp st0 Hb Hlab E) as (I1 & I2 & _ & _ & _ & I6 & I7).
  assert (Ec : st0 = canon K calibrated method adjust st0 []).
  { assert (R : forall K, repeat 0%nat K = tab K (fun k => 0%nat)).
    { intros n. apply list_eq_nth with (d := 0%nat); rewrite ?tab_length, ?repeat_length; auto.
      intros i Hi. rewrite nth_tab by auto. apply nth_repeat. }
    destruct st0. cbn in I7. injection I7 as -> -> -> -> -> ->. unfold canon. cbn. unfold iss_c, nrm_c. cbn.
    destruct calibrated; rewrite !R; reflexivity. }
  rewrite Ec in H. apply (score_run K calibrated method adjust st0 sbs labels pp []) in H; auto.
Qed.

Lemma Forall2_Qeq_refl l : Forall2 Qeq l l.
Proof. induction l; constructor; auto. reflexivity. Qed.
Lemma fold_qmax_Forall2 a b : Forall2 Qeq a b -> forall x y, x == y -> fold_left qmax a x == fold_left qmax b y.
Proof. induction 1; simpl; intros u v E; auto. apply IHForall2. rewrite E, H. reflexivity. Qed.
Lemma qmaximum_Forall2 a b : Forall2 Qeq a b -> qmaximum a == qmaximum b.
Proof. intros H. destruct H; simpl; [reflexivity|]. apply fold_qmax_Forall2; auto. Qed.
Lemma Forall2_map_gen {X Y Z W} (R : X -> Y -> Prop) (S : Z -> W -> Prop) (f : X -> Z) (g : Y -> W) l l' :
  Forall2 R l l' -> (forall x y, R x y -> S (f x) (g y)) -> Forall2 S (map f l) (map g l').
Proof. induction 1; simpl; constructor; auto. Qed.
Lemma Forall2_combine_r (row : list Q) : forall t1 t2, Forall2 Qeq t1 t2 ->
  Forall2 (fun a b => fst a = fst b /\ snd a == snd b) (combine row t1) (combine row t2).
Proof. induction row; intros t1 t2 H; simpl; [constructor|]. destruct H; constructor; auto. Qed.
Lemma Forall2_nth_Qeq a b i : Forall2 Qeq a b -> nth i a 0 == nth i b 0.
Proof. intros H. revert i. induction H; intros [|i]; simpl; auto; reflexivity. Qed.
Lemma Forall2_firstn {X Y} (R : X -> Y -> Prop) n : forall l l', Forall2 R l l' -> Forall2 R (firstn n l) (firstn n l').
Proof. induction n; intros l l' H; simpl; [constructor|]. destruct H; constructor; auto. Qed.
Lemma Forall2_skipn {X Y} (R : X -> Y -> Prop) n : forall l l', Forall2 R l l' -> Forall2 R (skipn n l) (skipn n l').
Proof. induction n; intros l l' H; simpl; auto. destruct H; auto. Qed.

Lemma score_one_ext K thr1 thr2 method adjust lr : Forall2 Qeq thr1 thr2 ->
  score_one K thr1 method adjust lr == score_one K thr2 method adjust lr.
Proof.
  intros H. unfold score_one. destruct adjust; [|destruct method; reflexivity].
  set (row1 := let adj := map (fun xt => fst xt - snd xt + qmaximum thr1) (combine (snd lr) thr1) in map (fun x => x / qsum adj) adj).
  set (row2 := let adj := map (fun xt => fst xt - snd xt + qmaximum thr2) (combine (snd lr) thr2) in map (fun x => x / qsum adj) adj).
  assert (F : Forall2 Qeq row1 row2).
  { unfold row1, row2. cbv zeta.
    assert (Fa : Forall2 Qeq (map (fun xt => fst xt - snd xt + qmaximum thr1) (combine (snd lr) thr1))
                             (map (fun xt => fst xt - snd xt + qmaximum thr2) (combine (snd lr) thr2))).
    { eapply Forall2_map_gen; [apply Forall2_combine_r; exact H|]. intros x y (E1 & E2). rewrite E1, E2, (qmaximum_Forall2 _ _ H). reflexivity. }
    eapply Forall2_map_gen; [exact Fa|]. intros x y E. rewrite E, (qsum_Forall2 _ _ Fa). reflexivity. }
  destruct method.
  - apply Forall2_nth_Qeq; auto.
  - rewrite (Forall2_nth_Qeq _ _ (fst lr) F).
    assert (qmaximum (delete_at (fst lr) row1) == qmaximum (delete_at (fst lr) row2)) as ->; [|reflexivity].
    apply qmaximum_Forall2. unfold delete_at. apply Forall2_app; [apply Forall2_firstn|apply Forall2_skipn]; auto.
Qed.

Lemma confident_ext thr1 thr2 row : Forall2 Qeq thr1 thr2 -> confident_prediction thr1 row = confident_prediction thr2 row.
Proof. intros H. unfold confident_prediction. rewrite (Forall2_nth_Qeq _ _ (argmax row) H). reflexivity. Qed.

Lemma issues_full : forall srt K method adjust calibrated labels pp bs1 sbs1 bs2 sbs2 st1 st2,
  respects_eq srt -> dataset K labels pp ->
  is_split labels pp bs1 -> is_split labels pp (map fst sbs1) -> is_split labels pp bs2 -> is_split labels pp (map fst sbs2) ->
  means_ok bs1 -> means_ok bs2 ->
  (forall bj, In bj (sbs1 ++ sbs2) -> exec_ok calibrated (snd bj) (length (fst (fst bj)))) ->
  inspect K method adjust calibrated bs1 sbs1 = Ok st1 -> inspect K method adjust calibrated bs2 sbs2 = Ok st2 ->
  get_num_issues K calibrated st1 = get_num_issues K calibrated st2 /\
  Forall2 Qeq (quality_scores st1) (quality_scores st2) /\
  issues_mask srt K calibrated labels pp st1 = issues_mask srt K calibrated labels pp st2.
Proof.
  intros srt K method adjust calibrated labels pp bs1 sbs1 bs2 sbs2 st1 st2 Hsrt Hds S1 S1' S2 S2' M1 M2 Hex E1 E2.
  destruct Hds as [Hlen Hne Hlab _ _].
  apply (inspect_canon K calibrated method adjust bs1 sbs1 labels pp) in E1 as (t1 & R1 & ->); auto; [|intros; apply Hex, in_or_app; auto].
  apply (inspect_canon K calibrated method adjust bs2 sbs2 labels pp) in E2 as (t2 & R2 & ->); auto; [|intros; apply Hex, in_or_app; auto].
  assert (F : Forall2 Qeq (confident_thresholds t1) (confident_thresholds t2)).
  { destruct (thr_run K bs1 labels pp t1 S1 Hlab R1) as (_ & L1 & _). destruct (thr_run K bs2 labels pp t2 S2 Hlab R2) as (_ & L2 & _).
    apply Forall2_nth_intro with (d := 0) (d' := 0); [congruence|]. intros k Hk. rewrite L1 in Hk.
    destruct (thr_full K labels pp bs1 t1 S1 Hlab Hne R1 k Hk) as (A1 & A2).
    destruct (thr_full K labels pp bs2 t2 S2 Hlab Hne R2 k Hk) as (B1 & B2).
    destruct (in_dec Nat.eq_dec k labels) as [Hin|Hin].
    - destruct (A1 Hin) as (_ & ->); auto. destruct (B1 Hin) as (_ & ->); auto. reflexivity.
    - rewrite A2, B2 by auto. reflexivity. }
  assert (Ec : forall lr : nat * list Q, counts_as_issue (confident_thresholds t1) (fst lr) (snd lr) = counts_as_issue (confident_thresholds t2) (fst lr) (snd lr)).
  { intros lr. unfold counts_as_issue. rewrite (confident_ext _ _ _ F). reflexivity. }
  assert (En : get_num_issues K calibrated (canon K calibrated method adjust t1 (combine labels pp)) =
               get_num_issues K calibrated (canon K calibrated method adjust t2 (combine labels pp))).
  { unfold get_num_issues, canon.
    cbn [examples_processed_quality prune_counts_c class_counts_c normalization_c prune_count].
    destruct (length (combine labels pp) <? 1)%nat; auto.
    destruct calibrated.
    - f_equal. f_equal. f_equal. f_equal. apply tab_ext. intros k Hk. rewrite !nth_tab by auto.
      assert (iss_c (confident_thresholds t1) (combine labels pp) k = iss_c (confident_thresholds t2) (combine labels pp) k) as ->.
      { unfold iss_c. f_equal. apply map_ext. intros lr. rewrite Ec. reflexivity. }
      assert (nrm_c (confident_thresholds t1) (combine labels pp) k = nrm_c (confident_thresholds t2) (combine labels pp) k) as ->.
      { unfold nrm_c. f_equal. apply map_ext. intros lr. rewrite (confident_ext _ _ _ F). reflexivity. }
      reflexivity.
    - f_equal. f_equal. apply map_ext. apply Ec. }
  assert (Fs : Forall2 Qeq (quality_scores (canon K calibrated method adjust t1 (combine labels pp)))
                           (quality_scores (canon K calibrated method adjust t2 (combine labels pp)))).
  { unfold canon. cbn. generalize (combine labels pp). induction l; simpl; constructor; auto. apply score_one_ext; auto. }
  split; auto. split; auto.
  unfold issues_mask, get_label_issues. rewrite En.
  change (examples_processed_quality (canon K calibrated method adjust t1 (combine labels pp))) with (length (combine labels pp)).
  change (examples_processed_quality (canon K calibrated method adjust t2 (combine labels pp))) with (length (combine labels pp)).
  destruct (Nat.ltb _ _); auto.
  destruct (get_num_issues K calibrated (canon K calibrated method adjust t2 (combine labels pp))); auto. cbn [rbind].
  unfold find_top_issues. rewrite (Hsrt _ _ Fs), (Forall2_len _ _ _ Fs). reflexivity.
Qed.

Lemma argsort_ins_respects : respects_eq argsort_ins.
Proof.
  intros x y H. unfold argsort_ins. rewrite (Forall2_len _ _ _ H). generalize (seq 0 (length y)) as s.
  assert (Hi : forall i p, insert_idx x i p = insert_idx y i p).
  { intros i p. induction p as [|j t IH]; simpl; auto. rewrite IH.
    assert (Qle_bool (nth i x 0) (nth j x 0) = Qle_bool (nth i y 0) (nth j y 0)) as ->; auto.
    apply Bool.eq_iff_eq_true. rewrite !Qle_bool_iff, (Forall2_nth_Qeq _ _ i H), (Forall2_nth_Qeq _ _ j H). reflexivity. }
  induction s as [|i s IH]; simpl; auto. rewrite IH. apply Hi.
Qed.

Lemma chunks_nonempty {X} c (l : list X) : (1 <= c)%nat -> forall ch, In ch (chunks c l) -> ch <> [] /\ (length ch <= c)%nat.
Proof.
  intros Hc. unfold chunks. generalize (length l) as n. intros n. revert l. induction n as [|n IH]; intros l ch; simpl; [intros []|].
  destruct l as [|x l]; [intros []|]. intros [<-|H]; [|eauto]. split; [|rewrite firstn_length; lia].
  destruct c; [lia|]. discriminate.
Qed.
Lemma split_batches_split labels pp c : (1 <= c)%nat -> length labels = length pp ->
  is_split labels pp (split_batches c labels pp) /\
  forall b, In b (split_batches c labels pp) -> (length (fst b) <= c)%nat.
Proof.
  intros Hc Hl. unfold split_batches. split; [split; [|split]|].
  - rewrite map_map. cbn [fst]. rewrite <- concat_map, chunks_concat by auto. apply map_fst_combine; auto.
  - rewrite map_map. cbn [snd]. rewrite <- concat_map, chunks_concat by auto. apply map_snd_combine; auto.
  - intros b Hb. apply in_map_iff in Hb as (ch & <- & Hin). cbn [fst snd]. rewrite !map_length. split; auto.
    destruct (chunks_nonempty c _ Hc ch Hin) as (Hn & _). destruct ch; [congruence|discriminate].
  - intros b Hb. apply in_map_iff in Hb as (ch & <- & Hin). cbn [fst snd]. rewrite map_length.
    apply (chunks_nonempty c _ Hc ch Hin).
Qed.
Lemma own_probs_In k : forall labels pp v, In v (own_probs k labels pp) ->
  exists e, (e < length labels)%nat /\ nth e labels 0%nat = k /\ v = nth k (nth e pp []) 0.
Proof.
  induction labels as [|l labels IH]; intros [|r pp] v; simpl; try tauto.
  destruct (Nat.eqb_spec l k) as [->|Hn].
  - intros [<-|H]; [exists 0%nat; repeat split; auto; lia|].
    destruct (IH _ _ H) as (e & H1 & H2 & H3). exists (S e). repeat split; auto; lia.
  - intros H. destruct (IH _ _ H) as (e & H1 & H2 & H3). exists (S e). repeat split; auto; lia.
Qed.
Lemma average_low l v lo : is_average l v -> (forall x, In x l -> lo <= x) -> lo <= v.
Proof.
  intros (Hne & Ha) H.
  assert (0 < Qnat (length l)) by (apply Qnat_pos; destruct l; [congruence|simpl; lia]).
  assert (Qnat (length l) * lo <= qsum l).
  { rewrite <- qsum_map_const. rewrite <- (map_id l) at 2. apply qsum_map_le. intros; apply H; auto. }
  apply Qmult_lt_0_le_reg_r with (Qnat (length l)); lra.
Qed.
Lemma floor_means labels pp bs : is_split labels pp bs -> own_prob_floor labels pp -> means_ok bs.
Proof.
  intros (<- & <- & H) Hf b k v Hb Hk Hav.
  apply (average_low _ _ _ Hav).
  intros x Hx. apply own_probs_In in Hx as (e & H1 & H2 & ->).
  destruct (in_split b bs Hb) as (b1 & b2 & ->).
  rewrite !map_app, !concat_app in Hf. cbn [map concat] in Hf.
  assert (E : length (concat (map fst b1)) = length (concat (map snd b1))).
  { clear - H. induction b1 as [|b' b1 IH]; simpl; auto. rewrite !app_length. rewrite IH by (intros; apply H; simpl; auto).
    f_equal. apply H. simpl; auto. }
  specialize (Hf (length (concat (map fst b1)) + e)%nat). rewrite !app_length in Hf. specialize (Hf ltac:(lia)).
  rewrite app_nth2_plus in Hf. rewrite app_nth1 in Hf by auto. rewrite H2 in Hf.
  rewrite E, app_nth2_plus in Hf. rewrite app_nth1 in Hf; auto.
  rewrite <- (proj1 (H b Hb)). auto.
Qed.

Lemma serial_run_ok K method adjust calibrated : (2 <= K)%nat -> forall bs st,
  (forall b, In b bs -> length (fst b) = length (snd b) /\ fst b <> [] /\ forall l, In l (fst b) -> (l < K)%nat) ->
  (1 <= examples_processed_thresh st)%nat ->
  exists st', rfold (fun st bj => score_label_quality K method adjust calibrated (snd bj) st (fst bj))
     (combine bs (repeat Serial (length bs))) st = Ok st'.
Proof.
  intros HK. induction bs as [|b bs IH]; intros st Hb Ht; simpl; eauto.
  destruct (Hb b (or_introl eq_refl)) as (Hl & Hne & Hlab).
  assert (exists st1, score_label_quality K method adjust calibrated Serial st b = Ok st1 /\ (1 <= examples_processed_thresh st1)%nat) as (st1 & E & Ht1).
  { unfold score_label_quality, batch_check. rewrite Hl, Nat.eqb_refl. cbn [negb rbind].
    destruct (Nat.ltb_spec (examples_processed_thresh st) 1); [lia|].
    assert (exists s, batch_scores (fst b) (snd b) K (confident_thresholds st) method adjust = Ok s) as (s & ->).
    { unfold batch_scores. destruct method; eauto. destruct (Nat.leb_spec K 1); [lia|eauto]. }
    cbn [rbind]. rewrite value_counts_ok by auto. cbn [rbind].
    unfold update_num_label_issues. destruct (Nat.ltb_spec (examples_processed_thresh st) 1); [lia|]. cbv zeta.
    destruct calibrated; cbn [negb]; [rewrite value_counts_ok by auto|]; cbn [rbind]; eexists; split; try reflexivity; assumption. }
  rewrite E. cbn [rbind]. apply IH; auto. intros b0 Hb0. apply Hb. simpl. auto.
Qed.
Lemma map_const_seq {X} (x : X) n s : map (fun _ => x) (seq s n) = repeat x n.
Proof. revert s. induction n; intros; simpl; f_equal; auto. Qed.
Lemma map_fst_combine_le {X Y} (l : list X) : forall l' : list Y, length l = length l' -> map fst (combine l l') = l.
Proof. exact (map_fst_combine l). Qed.

Lemma mask_length : forall n idx, length (mask_of n idx) = n.
Proof. intros. unfold mask_of. rewrite ?tab_length, ?map_length, ?seq_length. reflexivity. Qed.

Lemma C21_batch_size_full : forall srt K method adjust calibrated labels pp,
  respects_eq srt -> dataset K labels pp -> (2 <= K)%nat -> own_prob_floor labels pp ->
  exists m,
    (forall batch_size, (1 <= batch_size)%nat ->
       find_label_issues_batched srt labels pp K batch_size method adjust calibrated (fun _ => Serial) = Ok m) /\
    (forall batch_size js m', (1 <= batch_size)%nat -> calibrated = false \/ (batch_size < 2 * 5000)%nat ->
       find_label_issues_batched srt labels pp K batch_size method adjust calibrated js = Ok m' -> m' = m).
Proof.
  intros srt K method adjust calibrated labels pp Hsrt Hds HK Hfl. pose proof Hds as [Hlen Hne Hlab _ _].
  assert (Hrun : forall c, (1 <= c)%nat -> exists st,
    inspect K method adjust calibrated (split_batches c labels pp)
      (combine (split_batches c labels pp) (map (fun _ => Serial) (seq 0 (length (split_batches c labels pp))))) = Ok st).
  { intros c Hc. destruct (split_batches_split labels pp c Hc Hlen) as (Hs & _). unfold inspect.
    destruct (thr_run_ok K _ _ _ Hs Hlab) as (st & E). rewrite E. cbn [rbind]. rewrite map_const_seq.
    apply serial_run_ok; auto.
    - intros b Hb. destruct Hs as (E1 & E2 & H). destruct (H b Hb). repeat split; auto.
      intros l Hl. apply Hlab. rewrite <- E1. apply in_concat. exists (fst b). split; auto. apply in_map; auto.
    - destruct (thr_run K _ _ _ st Hs Hlab E) as (_ & _ & _ & _ & _ & -> & _). destruct labels; [congruence|simpl; lia]. }
  destruct (Hrun 1%nat (le_n 1)) as (st1 & E1).
  assert (Hm : exists m, issues_mask srt K calibrated labels pp st1 = Ok m).
  { destruct (split_batches_split labels pp 1 (le_n 1) Hlen) as (Hs & _).
    assert (Em : map fst (combine (split_batches 1 labels pp) (map (fun _ : nat => Serial) (seq 0 (length (split_batches 1 labels pp))))) = split_batches 1 labels pp)
      by (apply map_fst_combine; rewrite map_length, seq_length; auto).
    apply (inspect_canon K calibrated method adjust _ _ labels pp) in E1 as (t & Et & ->); auto; rewrite ?Em; auto.
    - unfold issues_mask, get_label_issues, get_num_issues.
      change (examples_processed_quality (canon K calibrated method adjust t (combine labels pp))) with (length (combine labels pp)).
      rewrite combine_length, <- Hlen, Nat.min_id. destruct labels; [congruence|]. cbn [length Nat.ltb Nat.leb].
      destruct calibrated; cbn [rbind]; eauto.
    - refine (eq_ind_r (fun z => is_split labels pp z) Hs Em).
    - intros bj Hbj. right. left.
      destruct bj as (b & j). apply in_combine_r in Hbj. apply in_map_iff in Hbj as (? & <- & _). reflexivity. }
  destruct Hm as (m & Hm). exists m.
  assert (Hgen : forall c js st, (1 <= c)%nat -> (calibrated = false \/ (c < 2 * 5000)%nat \/ forall i, js i = Serial) ->
    inspect K method adjust calibrated (split_batches c labels pp)
      (combine (split_batches c labels pp) (map js (seq 0 (length (split_batches c labels pp))))) = Ok st ->
    issues_mask srt K calibrated labels pp st = Ok m).
  { intros c js st Hc Hok E. rewrite <- Hm.
    destruct (split_batches_split labels pp c Hc Hlen) as (Hs & Hc').
    destruct (split_batches_split labels pp 1 (le_n 1) Hlen) as (Hs1 & Hc1).
    assert (Em : forall (js : nat -> jobs) c, map fst (combine (split_batches c labels pp) (map js (seq 0 (length (split_batches c labels pp))))) = split_batches c labels pp)
      by (intros; apply map_fst_combine; rewrite map_length, seq_length; auto).
    eapply (issues_full srt K method adjust calibrated labels pp _ _ _ _ st st1); try exact E; try exact E1; auto;
      try (eapply floor_means; eassumption); try (refine (eq_ind_r (fun z => is_split labels pp z) _ (Em _ _)); assumption).
    intros (b & j) Hin. apply in_app_or in Hin as [Hin|Hin]; cbn [fst snd].
    - pose proof (in_combine_l _ _ _ _ Hin) as Hb. apply in_combine_r in Hin. apply in_map_iff in Hin as (i & <- & _).
      destruct Hok as [->|[Hok|Hok]]; [left; auto| |right; left; auto].
      right. right. specialize (Hc' b Hb). lia.
    - right. left. apply in_combine_r in Hin. apply in_map_iff in Hin as (i & <- & _). reflexivity. }
  split.
  - intros c Hc. unfold find_label_issues_batched. rewrite Hlen, Nat.eqb_refl. cbn [negb].
    destruct (Nat.eqb_spec c 0); [lia|]. destruct (Hrun c Hc) as (st & E). rewrite E. cbn [rbind]. apply (Hgen c (fun _ => Serial)); auto.
  - clear E1. intros c js m' Hc Hok. unfold find_label_issues_batched. rewrite Hlen, Nat.eqb_refl. cbn [negb].
    destruct (Nat.eqb_spec c 0); [lia|]. destruct (inspect _ _ _ _ _ _) as [st|] eqn:E; [|discriminate]. cbn [rbind].
    intros H. rewrite (Hgen c js st) in H; auto; [congruence|tauto].
Qed.

(** the parallel calibrated count at the default batch size *)
Definition big_n : nat := 2 * 5000.
Definition big_labels : list nat := repeat 0%nat big_n.
Definition big_pp : list (list Q) := repeat [0; 1] big_n.
Definition big_count (j : jobs) : res nat :=
  do st <- inspect 2 SelfConfidence false true [(big_labels, big_pp)] [((big_labels, big_pp), j)] ;
  get_num_issues 2 true st.
Lemma big_dataset : dataset 2 big_labels big_pp.
Proof.
  constructor.
  - unfold big_labels, big_pp. rewrite !repeat_length. reflexivity.
  - unfold big_labels, big_n. discriminate.
  - intros l H. apply repeat_spec in H. subst. auto.
  - intros r H. apply repeat_spec in H. subst. reflexivity.
  - intros r x H Hx. apply repeat_spec in H. subst. simpl in Hx. destruct Hx as [<-|[<-|[]]]; lra.
Qed.
Lemma C22_refuted_full : exists labels pp n_jobs sched st1 st2,
  dataset 2 labels pp /\ length labels = (2 * 5000)%nat /\
  inspect 2 SelfConfidence false true [(labels, pp)] [((labels, pp), Serial)] = Ok st1 /\
  inspect 2 SelfConfidence false true [(labels, pp)] [((labels, pp), Pool n_jobs sched)] = Ok st2 /\
  get_num_issues 2 true st1 = Ok (2 * 5000)%nat /\ get_num_issues 2 true st2 = Ok 5000%nat.
Proof.
  assert (E1 : big_count Serial = Ok (2 * 5000)%nat) by (vm_compute; reflexivity).
  assert (E2 : big_count (Pool 2 (repeat 0%nat big_n)) = Ok 5000%nat) by (vm_compute; reflexivity).
  exists big_labels, big_pp, 2%nat, (repeat 0%nat big_n). revert E1 E2. unfold big_count.
  set (r1 := inspect 2 SelfConfidence false true [(big_labels, big_pp)] [((big_labels, big_pp), Serial)]).
  set (r2 := inspect 2 SelfConfidence false true [(big_labels, big_pp)] [((big_labels, big_pp), Pool 2 (repeat 0%nat big_n))]).
  clearbody r1 r2. intros E1 E2. destruct r1 as [st1|]; [|discriminate E1]. destruct r2 as [st2|]; [|discriminate E2].
  exists st1, st2. exact (conj big_dataset (conj (repeat_length _ _) (conj eq_refl (conj eq_refl (conj E1 E2))))).
Qed.

Lemma C21_floor_refuted_full : exists labels pp m1 m2,
  dataset 3 labels pp /\
  find_label_issues_batched argsort_ins labels pp 3 1 SelfConfidence false false (fun _ => Serial) = Ok m1 /\
  find_label_issues_batched argsort_ins labels pp 3 10 SelfConfidence false false (fun _ => Serial) = Ok m2 /\
  count_true m1 <> count_true m2.
Proof.
  exists [0; 0; 1]%nat, [[0; 1; 0]; [8#10; 1#10; 1#10]; [3999995#10000000; 3000000#10000000; 3000005#10000000]],
    [true; false; false], [true; false; true].
  split; [apply dataset_b_ok; vm_compute; reflexivity|]. split; [vm_compute; reflexivity|]. split; [vm_compute; reflexivity|].
  vm_compute. discriminate.
Qed.
