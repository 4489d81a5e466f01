From Coq Require Import QArith Qabs List ZArith Bool Arith Lia Lqa.
From Verif Require Import Base BaseFacts ModelUtil ModelCount SpecCount ProofUtil ProofCount ProofRank ModelFilter SpecFilter ProofFilter
  ModelMultilabel SpecMultilabel ProofMultilabel ModelMultiCount SpecMultiCount.
Import ListNotations.
Open Scope Q_scope.

(** ** thresholds *)
Lemma own_present K c : (c < K)%nat -> forall labels pp,
  own_probs 1 (binary_labels labels K c) (binary_probs pp c) = probs_present c labels pp.
Proof.
  intros Hc labels pp. rewrite binary_labels_eq, binary_probs_eq by auto. revert pp.
  induction labels as [|l t IH]; intros [|r rs]; simpl; auto; try (destruct (mem c l); reflexivity).
  destruct (mem c l) eqn:E; destruct (in_dec Nat.eq_dec c l) as [I|I]; simpl; try (rewrite IH; reflexivity).
  - apply mem_iff in E. tauto.
  - apply mem_iff in I. congruence.
Qed.
Lemma own_absent K c : (c < K)%nat -> forall labels pp,
  own_probs 0 (binary_labels labels K c) (binary_probs pp c) = probs_absent c labels pp.
Proof.
  intros Hc labels pp. rewrite binary_labels_eq, binary_probs_eq by auto. revert pp.
  induction labels as [|l t IH]; intros [|r rs]; simpl; auto; try (destruct (mem c l); reflexivity).
  destruct (mem c l) eqn:E; destruct (in_dec Nat.eq_dec c l) as [I|I]; simpl; try (rewrite IH; reflexivity).
  - apply mem_iff in E. tauto.
  - apply mem_iff in I. congruence.
Qed.
Lemma own_empty k : forall labels pp, ~ In k labels -> own_probs k labels pp = [].
Proof.
  induction labels as [|l t IH]; intros [|r rs] H; simpl; auto. destruct (Nat.eqb_spec l k) as [->|].
  - exfalso. apply H. left. auto.
  - apply IH. intros X. apply H. right. auto.
Qed.
Lemma threshold_own K labels pp k : length labels = length pp -> (k < K)%nat ->
  threshold_of (own_probs k labels pp) (nth k (get_confident_thresholds labels pp K) 0).
Proof.
  intros HL Hk. destruct (thresholds_spec labels pp K k HL Hk) as (H1 & H2).
  destruct (in_dec Nat.eq_dec k labels) as [I|I]; [left; auto|right]. split; [apply own_empty; auto|auto].
Qed.
Lemma thresholds_len labels pp K : length (get_confident_thresholds labels pp K) = K.
Proof. unfold get_confident_thresholds. rewrite map_length. apply tab_length. Qed.

Lemma C123_thresholds_full : forall labels pp K, ml_dataset K labels pp ->
  length (ml_thresholds labels pp K) = K /\
  forall c, (c < K)%nat -> exists t0 t1, nth c (ml_thresholds labels pp K) [] = [t0; t1] /\
    threshold_of (probs_absent c labels pp) t0 /\ threshold_of (probs_present c labels pp) t1.
Proof.
  intros labels pp K HD. unfold ml_thresholds. split; [rewrite map_length, seq_length; auto|].
  intros c Hc. rewrite (nth_map_gen _ _ _ _ 0%nat) by (rewrite seq_length; auto). rewrite seq_nth by auto. simpl plus.
  pose proof (binary_dataset K labels pp c HD Hc) as [BL _ _ _ _].
  pose proof (thresholds_len (binary_labels labels K c) (binary_probs pp c) 2) as L.
  pose proof (threshold_own 2 _ _ 0 BL ltac:(lia)) as T0. pose proof (threshold_own 2 _ _ 1 BL ltac:(lia)) as T1.
  rewrite own_absent in T0 by auto. rewrite own_present in T1 by auto.
  destruct (get_confident_thresholds _ _ 2) as [|t0 [|t1 [|]]]; simpl in L; try lia. exists t0, t1. auto.
Qed.

(** ** the joint *)
Lemma binary_in labels K c k : (c < K)%nat -> In k (binary_labels labels K c) ->
  exists e, (e < length labels)%nat /\ ((k = 1%nat /\ has_class labels e c) \/ (k = 0%nat /\ ~ has_class labels e c)).
Proof.
  intros Hc H. apply (In_nth _ _ 0%nat) in H as (e & He & <-). rewrite binary_length in He. exists e. split; [auto|].
  rewrite binary_label_nth by auto. pose proof (mem_has labels e c) as M. destruct (mem c (nth e labels [])); [left|right].
  - split; [auto|]. apply M; auto.
  - split; [auto|]. intros X. apply M in X. discriminate.
Qed.
Lemma usable_ok labels K c cj : (c < K)%nat -> usable_joint labels c cj -> cj_ok_for 2 (binary_labels labels K c) cj.
Proof.
  intros Hc (a & b & p & q & -> & A & B & P & QQ & R0 & R1). split; [reflexivity|].
  split; [intros r [<-|[<-|[]]]; reflexivity|].
  split; [intros r x [<-|[<-|[]]] [<-|[<-|[]]]; auto|].
  intros i Hi Hin. apply binary_in in Hin as (e & He & [(-> & H)|(-> & H)]); [simpl|simpl|auto].
  - rewrite Qplus_0_r. apply R1. eauto.
  - rewrite Qplus_0_r. apply R0. eauto.
Qed.

Lemma n_having_bin labels K c : (c < K)%nat -> n_having labels c (n_labelled 1 (binary_labels labels K c)).
Proof.
  intros Hc. pose proof (n_labelled_holds (binary_labels labels K c) 1) as HH. rewrite binary_length in HH. unfold n_having.
  eapply holds_for_ext; [|apply HH]. intros e He. cbn beta. rewrite binary_label_nth by auto. pose proof (mem_has labels e c) as HM.
  destruct (mem c (nth e labels [])); split; intros X; try discriminate; auto; try (apply HM; auto). apply HM in X. discriminate.
Qed.
Lemma n_lacking_bin labels K c : (c < K)%nat -> n_lacking labels c (n_labelled 0 (binary_labels labels K c)).
Proof.
  intros Hc. pose proof (n_labelled_holds (binary_labels labels K c) 0) as HH. rewrite binary_length in HH. unfold n_lacking.
  eapply holds_for_ext; [|apply HH]. intros e He. cbn beta. rewrite binary_label_nth by auto. pose proof (mem_has labels e c) as HM.
  destruct (mem c (nth e labels [])); split; intros X; try discriminate; auto.
  - exfalso. apply X, HM; auto.
  - intros Y. apply HM in Y. discriminate.
Qed.

(** the joint of one class *)
Definition class_joint (labels : list (list nat)) (c : nat) (J : list (list Q)) : Prop :=
  exists a b p q n, J = [[a; b]; [p; q]] /\ 0 <= a /\ 0 <= b /\ 0 <= p /\ 0 <= q /\ a + b + p + q == 1 /\
    n_having labels c n /\ p + q == Qnat n / Qnat (length labels).

Lemma class_joint_ok K labels c J : (c < K)%nat -> joint_ok 2 (binary_labels labels K c) J -> class_joint labels c J.
Proof.
  intros Hc (LJ & LR & NN & TOT & ROW).
  destruct J as [|r0 [|r1 [|]]]; simpl in LJ; try lia.
  pose proof (LR r0 (or_introl eq_refl)) as L0. pose proof (LR r1 (or_intror (or_introl eq_refl))) as L1.
  destruct r0 as [|a [|b [|]]]; simpl in L0; try lia. destruct r1 as [|p [|q [|]]]; simpl in L1; try lia.
  pose proof (NN 0%nat 0%nat ltac:(lia) ltac:(lia)) as N1. pose proof (NN 0%nat 1%nat ltac:(lia) ltac:(lia)) as N2.
  pose proof (NN 1%nat 0%nat ltac:(lia) ltac:(lia)) as N3. pose proof (NN 1%nat 1%nat ltac:(lia) ltac:(lia)) as N4.
  unfold mget in *. simpl in N1, N2, N3, N4, TOT. pose proof (ROW 1%nat ltac:(lia)) as R1. simpl in R1.
  exists a, b, p, q, (n_labelled 1 (binary_labels labels K c)). split; [auto|]. split; [auto|]. split; [auto|]. split; [auto|].
  split; [auto|]. split; [lra|]. split; [apply n_having_bin; auto|].
  rewrite binary_length in R1. rewrite <- R1. ring.
Qed.

Lemma calibrated_usable labels c zm n0 n1 : (exists a b p q, zm = [[a; b]; [p; q]] /\
      (0 <= a)%Z /\ (0 <= b)%Z /\ (0 <= p)%Z /\ (0 <= q)%Z /\ n0 = Z.to_nat (a + b) /\ n1 = Z.to_nat (p + q)) ->
  n_lacking labels c n0 -> n_having labels c n1 -> usable_joint labels c (zmat_to_q zm).
Proof.
  intros (a & b & p & q & -> & A & B & P & QQ & -> & ->) H0 H1.
  assert (POS : forall P m, holds_for (length labels) P m -> (exists e, (e < length labels)%nat /\ P e) -> (1 <= m)%nat).
  { intros P0 m (es & N & L & I) (e & He & Hp). assert (X : In e es) by (apply I; auto). subst m.
    destruct es; [destruct X|simpl; lia]. }
  assert (Q1 : forall x y, (0 <= x)%Z -> (0 <= y)%Z -> (1 <= Z.to_nat (x + y))%nat -> TINY_VALUE <= inject_Z x + inject_Z y).
  { intros x y X Y S. rewrite <- inject_Z_plus. apply Qle_trans with 1; [vm_compute; discriminate|].
    change 1 with (inject_Z 1). rewrite <- Zle_Qle. lia. }
  exists (inject_Z a), (inject_Z b), (inject_Z p), (inject_Z q). split; [reflexivity|].
  change 0 with (inject_Z 0). rewrite <- !Zle_Qle. split; [auto|]. split; [auto|]. split; [auto|]. split; [auto|].
  split; intros H; apply Q1; auto.
  - eapply POS; eauto.
  - eapply POS; eauto.
Qed.

Lemma ml_calibrate_runs srt cjs labels : argsort_ok srt -> labels <> [] ->
  (forall c, (c < length cjs)%nat -> (c < num_unique_classes labels)%nat -> usable_joint labels c (nth c cjs [])) ->
  exists ms, ml_calibrate srt cjs labels = Ok (tab (num_unique_classes labels) (fun c => nth_error ms c)) /\
    length ms = Nat.min (length cjs) (num_unique_classes labels) /\
    forall c, (c < length cjs)%nat -> (c < num_unique_classes labels)%nat ->
      calibrate_confident_joint srt (nth c cjs []) (binary_labels labels (num_unique_classes labels) c) = Ok (nth c ms []).
Proof.
  intros Hs Hn HU. unfold ml_calibrate. set (K := num_unique_classes labels) in *.
  assert (LC : length (combine cjs (seq 0 K)) = Nat.min (length cjs) K) by (rewrite combine_length, seq_length; auto).
  assert (NC : forall c, (c < length cjs)%nat -> (c < K)%nat -> nth c (combine cjs (seq 0 K)) ([], 0%nat) = (nth c cjs [], c)).
  { intros c H1 H2. assert (HH : nth_error (combine cjs (seq 0 K)) c = Some (nth c cjs [], c)).
    { clear -H1 H2. assert (G : forall (l : list (list (list Q))) s n c, (c < length l)%nat -> (c < n)%nat ->
        nth_error (combine l (seq s n)) c = Some (nth c l [], (s + c)%nat)).
      { induction l as [|x l IH]; intros s n c' A B; simpl in A; [lia|]. destruct n; [lia|]. simpl.
        destruct c'; simpl; [rewrite Nat.add_0_r; auto|]. rewrite IH by lia. f_equal. f_equal. lia. }
      rewrite G by auto. reflexivity. }
    apply nth_error_nth. auto. }
  assert (TOT : forall p, In p (combine cjs (seq 0 K)) ->
    exists b, calibrate_confident_joint srt (fst p) (binary_labels labels K (snd p)) = Ok b).
  { intros p Hp. apply (In_nth _ _ ([], 0%nat)) in Hp as (c & Hc & <-). rewrite LC in Hc. rewrite NC by lia. cbn [fst snd].
    destruct (calibrate_gen srt 2 (nth c cjs []) (binary_labels labels K c) Hs) as (zm & E & _).
    - apply usable_ok; [lia|]. apply HU; lia.
    - intros E. apply Hn, length_zero_iff_nil. rewrite <- (binary_length labels K c), E. reflexivity.
    - rewrite binary_labels_eq by lia. intros l Hl. apply in_map_iff in Hl as (r & <- & _). destruct (mem c r); lia.
    - eauto. }
  destruct (rmap_tot _ _ TOT) as (ms & E). rewrite E. cbn [rbind]. exists ms. split; [reflexivity|].
  apply rmap_ok in E. assert (LE : length (combine cjs (seq 0 K)) = length ms) by (clear -E; induction E; simpl; auto). split; [lia|].
  intros c H1 H2.
  assert (G : forall (l : list (list (list Q) * nat)) m, Forall2 (fun a b => calibrate_confident_joint srt (fst a) (binary_labels labels K (snd a)) = Ok b) l m ->
    forall c, (c < length l)%nat -> calibrate_confident_joint srt (fst (nth c l ([], 0%nat))) (binary_labels labels K (snd (nth c l ([], 0%nat)))) = Ok (nth c m [])).
  { clear. intros l m H. induction H; intros c Hc; simpl in Hc; [lia|]. destruct c; simpl; auto. apply IHForall2. lia. }
  specialize (G _ _ E c ltac:(lia)). rewrite NC in G by auto. exact G.
Qed.

Lemma unique_classes_le K labels : (forall l k, In l labels -> In k l -> (k < K)%nat) -> (num_unique_classes labels <= K)%nat.
Proof.
  intros H. unfold num_unique_classes. rewrite <- (seq_length K 0). apply NoDup_incl_length; [apply unique_NoDup|].
  intros k Hk. apply -> in_unique in Hk. apply in_concat in Hk as (l & Hl & Hk). apply in_seq. pose proof (H l k Hl Hk). lia.
Qed.
Lemma unique_classes_all K labels : (forall l k, In l labels -> In k l -> (k < K)%nat) -> all_occur labels K ->
  num_unique_classes labels = K.
Proof.
  intros H HA. apply Nat.le_antisymm; [apply unique_classes_le; auto|]. unfold num_unique_classes.
  rewrite <- (seq_length K 0) at 1. apply NoDup_incl_length; [apply seq_NoDup|].
  intros k Hk. apply in_seq in Hk. apply in_unique. destruct (HA k ltac:(lia)) as (e & He & Hh).
  apply in_concat. exists (nth e labels []). split; [apply nth_In; auto|auto].
Qed.

Lemma nth_error_map_inv {A B} (f : A -> B) l c d : (c < length l)%nat -> nth_error (map f l) c = Some (f (nth c l d)).
Proof. intros H. rewrite nth_error_map. rewrite (nth_error_nth' l d H). reflexivity. Qed.

Lemma joint_from_usable srt labels pp K cs : argsort_ok srt -> ml_dataset K labels pp -> (K <= length cs)%nat ->
  (forall c, (c < K)%nat -> usable_joint labels c (nth c cs [])) ->
  exists J, rmap (fun c => match nth_error cs c with
                 | Some cj => estimate_joint srt (binary_labels labels K c) (binary_probs pp c) 2 (Some cj)
                 | None => Raise IndexError end) (seq 0 K) = Ok J /\ length J = K /\
    forall c, (c < K)%nat -> class_joint labels c (nth c J []).
Proof.
  intros Hs HD HL HU.
  assert (HT : forall c, (c < K)%nat -> exists j, estimate_joint srt (binary_labels labels K c) (binary_probs pp c) 2 (Some (nth c cs [])) = Ok j /\ class_joint labels c j).
  { intros c Hc. destruct (estimate_joint_gen srt 2 _ _ (Some (nth c cs [])) Hs (binary_dataset K labels pp c HD Hc)) as (j & E & O).
    - intros c' [= <-]. apply usable_ok; auto.
    - exists j. split; [auto|]. eapply class_joint_ok; eauto. }
  destruct (rmap_tot (fun c => match nth_error cs c with
                 | Some cj => estimate_joint srt (binary_labels labels K c) (binary_probs pp c) 2 (Some cj)
                 | None => Raise IndexError end) (seq 0 K)) as (J & E).
  { intros c Hc. apply in_seq in Hc. rewrite (nth_error_nth' cs []) by lia. destruct (HT c ltac:(lia)) as (j & E & _). eauto. }
  exists J. split; [auto|]. apply rmap_ok in E. apply (Forall2_seq _ K J []) in E as (LL & F). split; [auto|].
  intros c Hc. destruct (HT c Hc) as (j & E & O). specialize (F c Hc). rewrite (nth_error_nth' cs []) in F by lia.
  rewrite E in F. injection F as <-. auto.
Qed.

Lemma C123_joint_full : forall srt labels pp K cjs, argsort_ok srt -> ml_dataset K labels pp ->
  (forall cs, cjs = Some cs -> length cs = K /\ forall c, (c < K)%nat -> usable_joint labels c (nth c cs [])) ->
  exists J, ml_estimate_joint srt labels pp K cjs = Ok J /\ length J = K /\
    forall c, (c < K)%nat -> exists a b p q n, nth c J [] = [[a; b]; [p; q]] /\
      0 <= a /\ 0 <= b /\ 0 <= p /\ 0 <= q /\ a + b + p + q == 1 /\
      n_having labels c n /\ p + q == Qnat n / Qnat (length labels).
Proof.
  intros srt labels pp K cjs Hs HD HC. unfold ml_estimate_joint. pose proof HD as [HL Hn Hlab _ _]. destruct cjs as [cs|].
  - destruct (HC cs eq_refl) as (L & U).
    destruct (ml_calibrate_runs srt cs labels Hs Hn) as (ms & -> & _).
    { intros c H1 _. apply U. lia. }
    cbn [rbind]. apply joint_from_usable; auto; lia.
  - cbn [rbind]. destruct (C66_full srt labels pp K Hs HD) as (zs & -> & LZ & HZ). cbn [rbind].
    apply joint_from_usable; auto; [rewrite map_length; lia|].
    intros c Hc. rewrite (nth_map_gen _ _ _ _ []) by lia.
    destruct (HZ c Hc) as (a & b & p & q & E & A & B & P & QQ & N0 & N1 & _).
    eapply calibrated_usable; eauto. exists a, b, p, q. auto 10.
Qed.

(** ** calibration *)
Lemma C123_calibrated_full : forall srt labels cjs K, argsort_ok srt -> labels <> [] ->
  (forall l k, In l labels -> In k l -> (k < K)%nat) -> all_occur labels K -> length cjs = K ->
  (forall c, (c < K)%nat -> usable_joint labels c (nth c cjs [])) ->
  exists ms, ml_calibrate srt cjs labels = Ok ms /\ length ms = K /\
    forall c, (c < K)%nat -> exists a b p q n0 n1, nth c ms None = Some [[a; b]; [p; q]] /\
      (0 <= a)%Z /\ (0 <= b)%Z /\ (0 <= p)%Z /\ (0 <= q)%Z /\
      n_lacking labels c n0 /\ n_having labels c n1 /\ (a + b = Z.of_nat n0)%Z /\ (p + q = Z.of_nat n1)%Z.
Proof.
  intros srt labels cjs K Hs Hn Hlab HA HL HU. pose proof (unique_classes_all K labels Hlab HA) as EK.
  destruct (ml_calibrate_runs srt cjs labels Hs Hn) as (ms & E & LM & HM).
  { intros c H1 _. apply HU. lia. }
  rewrite EK in *. rewrite E. eexists. split; [reflexivity|]. split; [apply tab_length|].
  intros c Hc. rewrite nth_tab by auto. rewrite (nth_error_nth' ms []) by lia.
  specialize (HM c ltac:(lia) Hc).
  destruct (calibrate_gen srt 2 (nth c cjs []) (binary_labels labels K c) Hs) as (zm & E' & LZ & ROW).
  - apply usable_ok; auto.
  - intros X. apply Hn, length_zero_iff_nil. rewrite <- (binary_length labels K c), X. reflexivity.
  - rewrite binary_labels_eq by lia. intros l Hl. apply in_map_iff in Hl as (r & <- & _). destruct (mem c r); lia.
  - rewrite E' in HM. injection HM as <-.
    destruct (ROW 0%nat ltac:(lia)) as (L0 & S0 & N0). destruct (ROW 1%nat ltac:(lia)) as (L1 & S1 & N1).
    destruct zm as [|r0 [|r1 [|]]]; simpl in LZ; try lia. simpl in L0, L1, S0, S1.
    destruct r0 as [|a [|b [|]]]; simpl in L0; try lia. destruct r1 as [|p [|q [|]]]; simpl in L1; try lia.
    exists a, b, p, q, (n_labelled 0 (binary_labels labels K c)), (n_labelled 1 (binary_labels labels K c)).
    split; [auto|].
    destruct (N0 0%nat ltac:(lia)) as (X1 & _). destruct (N0 1%nat ltac:(lia)) as (X2 & _).
    destruct (N1 0%nat ltac:(lia)) as (X3 & _). destruct (N1 1%nat ltac:(lia)) as (X4 & _).
    unfold zget in *. simpl in *. split; [auto|]. split; [auto|]. split; [auto|]. split; [auto|].
    split; [apply n_lacking_bin; auto|]. split; [apply n_having_bin; auto|]. split; lia.
Qed.

(** a class nobody has costs one matrix *)
Lemma C123_calibrated_short_full : forall srt labels cjs K c ms,
  (forall l k, In l labels -> In k l -> (k < K)%nat) -> (c < K)%nat ->
  (forall e, (e < length labels)%nat -> ~ has_class labels e c) ->
  ml_calibrate srt cjs labels = Ok ms -> (length ms < K)%nat.
Proof.
  intros srt labels cjs K c ms Hlab Hc HN H. unfold ml_calibrate in H.
  destruct (rmap _ _); cbn [rbind] in H; [|discriminate]. injection H as <-. rewrite tab_length.
  unfold num_unique_classes.
  assert (I : incl (unique (concat labels)) (remove Nat.eq_dec c (seq 0 K))).
  { intros k Hk. apply -> in_unique in Hk. apply in_concat in Hk as (l & Hl & Hk).
    apply in_in_remove.
    - intros ->. apply (In_nth _ _ []) in Hl as (e & He & <-). apply (HN e He). exact Hk.
    - apply in_seq. pose proof (Hlab l k Hl Hk). lia. }
  apply NoDup_incl_length in I; [|apply unique_NoDup].
  assert (R : (length (remove Nat.eq_dec c (seq 0 K)) < length (seq 0 K))%nat) by (apply remove_length_lt, in_seq; lia).
  rewrite seq_length in R. lia.
Qed.

(** ** the number of issues *)
Lemma C123_count_full : forall srt labels pp K cjs method n sched, argsort_ok srt -> ml_dataset K labels pp ->
  (forall c, (c < K)%nat -> mixed labels c) -> (1 <= n)%nat ->
  exists k, ml_num_label_issues srt labels pp K cjs method n sched = Ok k /\
    holds_for (length labels) (fun e => exists c bl bp j, (c < K)%nat /\ clearly_disagrees labels pp e c /\
      one_vs_rest labels pp c bl bp /\
      counted_as (get_confident_thresholds bl bp 2) (row_of bp e) j /\ j <> label_of bl e) k.
Proof.
  intros srt labels pp K cjs method n sched Hs HD HM Hn. unfold ml_num_label_issues.
  destruct (C63_cl_full srt labels pp K (default_options cjs sched n) Hs HD HM eq_refl Hn) as (m & -> & LM & F).
  cbn [rbind]. eexists. split; [reflexivity|]. rewrite <- LM. apply holds_mask. intros e He. rewrite LM in He.
  unfold flagged in F. rewrite (F e). split; [intros (_ & H); exact H|auto].
Qed.
Lemma C123_count_same_full : forall srt labels pp K cjs method n sched m, 
  ml_find_label_issues srt labels pp K ConfidentLearning (default_options cjs sched n) None = Ok m ->
  forall k, ml_num_label_issues srt labels pp K cjs method n sched = Ok k <-> k = count_true m.
Proof.
  intros srt labels pp K cjs method n sched m E k. unfold ml_num_label_issues. rewrite E. cbn [rbind].
  split; [intros [= <-]; auto|intros ->; auto].
Qed.

(** ** predicted different from given *)
Lemma binary_disagrees K labels pp e c : ml_dataset K labels pp -> (c < K)%nat -> (e < length labels)%nat ->
  negb (Nat.eqb (argmax (nth e (binary_probs pp c) [])) (nth e (binary_labels labels K c) 0%nat)) = true <->
  disagrees labels pp e c.
Proof.
  intros HD Hc He. pose proof HD as [HL _ _ _ _]. rewrite binary_prob_nth by lia. rewrite binary_label_nth by auto.
  set (x := prob_of pp e c). pose proof (mem_has labels e c) as M.
  pose proof (argmax_max [1 - x; x] 0%nat ltac:(simpl; lia)) as A0.
  pose proof (argmax_max [1 - x; x] 1%nat ltac:(simpl; lia)) as A1.
  assert (AL : Nat.lt (argmax [1 - x; x]) 2) by (apply (argmax_lt [1 - x; x]); discriminate).
  assert (AF : Nat.lt 0 (argmax [1 - x; x]) -> nth 0 [1 - x; x] 0 < nth (argmax [1 - x; x]) [1 - x; x] 0) by (apply (argmax_spec [1 - x; x]); discriminate).
  rewrite negb_true_iff, Nat.eqb_neq. unfold disagrees. fold x.
  destruct (argmax [1 - x; x]) as [|[|]]; [| |lia]; simpl in A0, A1; destruct (mem c (nth e labels [])).
  - split; [intros _; left; split; [apply M; auto|lra]|discriminate].
  - split; [congruence|]. intros [(H & _)|(_ & H)]; [apply M in H; discriminate|lra].
  - specialize (AF ltac:(lia)). simpl in AF. split; [congruence|]. intros [(_ & H)|(H & _)]; [lra|]. exfalso. apply H, M; auto.
  - specialize (AF ltac:(lia)). simpl in AF. split; [intros _; right; split; [|lra]|discriminate].
    intros H. apply M in H. discriminate.
Qed.

Lemma C123_pneq_full : forall labels pp K, ml_dataset K labels pp -> (forall c, (c < K)%nat -> mixed labels c) ->
  exists m, ml_predicted_neq_given labels pp K = Ok m /\ length m = length labels /\
    forall e, flagged m e <-> (e < length labels)%nat /\ exists c, (c < K)%nat /\ disagrees labels pp e c.
Proof.
  intros labels pp K HD HM. unfold ml_predicted_neq_given.
  assert (HT : forall c, (c < K)%nat -> exists m, find_predicted_neq_given (binary_labels labels K c) (binary_probs pp c) 2 = Ok m /\
    forall e, flagged m e <-> (e < length labels)%nat /\ disagrees labels pp e c).
  { intros c Hc. pose proof (binary_dataset K labels pp c HD Hc) as HB. unfold find_predicted_neq_given.
    rewrite (valid_ok 2 _ _ false HB) by (right; apply binary_two; auto). cbn [rbind]. eexists. split; [reflexivity|].
    intros e. unfold flagged. pose proof HB as [BL _ _ _ _]. rewrite binary_length in BL.
    destruct (Nat.lt_ge_cases e (length labels)) as [He|He].
    - rewrite (nth_map_gen _ _ _ _ ([], 0%nat)) by (rewrite combine_length, binary_length; lia).
      rewrite combine_nth by (rewrite binary_length; auto). cbn [fst snd]. rewrite binary_disagrees by auto. tauto.
    - split; [|lia]. rewrite nth_overflow; [discriminate|]. rewrite map_length, combine_length, binary_length. lia. }
  destruct (rmap_tot (fun c => find_predicted_neq_given (binary_labels labels K c) (binary_probs pp c) 2) (seq 0 K)) as (cols & E).
  { intros c Hc. apply in_seq in Hc. destruct (HT c ltac:(lia)) as (m & E & _). eauto. }
  rewrite E. cbn [rbind]. eexists. split; [reflexivity|]. split; [apply any_class_length|].
  apply rmap_ok in E. apply (Forall2_seq _ K cols []) in E as (LL & F).
  assert (G : forall c, (c < K)%nat -> forall e, flagged (nth c cols []) e <-> (e < length labels)%nat /\ disagrees labels pp e c).
  { intros c Hc. destruct (HT c Hc) as (m & E & X). rewrite (F c Hc) in E. injection E as ->. auto. }
  intros e. rewrite any_class_flag. split.
  - intros (He & m & Hm & Hf). apply (in_nth_range m []) in Hm as (c & Hc & <-). split; [auto|]. exists c. rewrite LL in Hc.
    split; [auto|]. apply G in Hf; auto. tauto.
  - intros (He & c & Hc & Hd). split; [auto|]. exists (nth c cols []). split; [apply nth_In; lia|]. apply G; auto.
Qed.

Lemma same_invalid labels pp K v : (forall l, In l labels -> l = v) -> assert_valid_inputs labels pp K false = Raise ValueError.
Proof.
  intros H. unfold assert_valid_inputs. destruct labels as [|l t] eqn:E; [reflexivity|]. rewrite <- E in *.
  assert (LU : (length (unique labels) < 2)%nat).
  { assert (N : NoDup (unique labels)) by apply unique_NoDup.
    assert (A : forall w, In w (unique labels) -> w = v) by (intros w Hw; apply H, in_unique; auto).
    destruct (unique labels) as [|a [|b u]]; simpl; try lia. exfalso. inversion N; subst. apply H2. left.
    rewrite (A a), (A b); [auto|right; left; auto|left; auto]. }
  destruct (Nat.ltb_spec (length (unique labels)) 2); [reflexivity|lia].
Qed.
Lemma C123_pneq_raises_full : forall labels pp K c, (c < K)%nat -> ~ mixed labels c ->
  forall m, ml_predicted_neq_given labels pp K <> Ok m.
Proof.
  intros labels pp K c Hc HM m H. unfold ml_predicted_neq_given in H.
  destruct (rmap _ _) as [cols|] eqn:E; cbn [rbind] in H; [|discriminate].
  revert E. apply rmap_raise with (a := c) (e := ValueError); [apply in_seq; lia|].
  unfold find_predicted_neq_given.
  assert (X : exists v, forall l, In l (binary_labels labels K c) -> l = v).
  { destruct (in_dec Nat.eq_dec 1%nat (binary_labels labels K c)) as [I|I].
    - exists 1%nat. intros l Hl. apply binary_in in Hl as (e & He & [(-> & _)|(-> & N)]); auto. exfalso. apply HM.
      apply binary_in in I as (e' & He' & [(_ & I)|(X & _)]); auto; [|discriminate]. split; eauto.
    - exists 0%nat. intros l Hl. pose proof Hl as Hl'. apply binary_in in Hl as (e & He & [(-> & _)|(-> & N)]); auto. tauto. }
  destruct X as (v & X). rewrite (same_invalid _ _ _ v X). reflexivity.
Qed.
