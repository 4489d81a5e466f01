From Coq Require Import QArith List ZArith Bool Arith Lia Lqa Permutation.
From Verif Require Import Base BaseFacts ModelUtil ModelCount ModelRank ModelFilter ModelBatched ModelMultilabel ModelMultiHealth
     SpecCount SpecFilter SpecMultilabel SpecMultiHealth ProofCount ProofFilter ProofRank ProofTotal ProofToken ProofMultilabel ProofIdeal.
Import ListNotations.
Open Scope Q_scope.

Lemma rmap_cases {A B} (f : A -> res B) l : (forall a, In a l -> f a = Raise Diverges \/ exists b, f a = Ok b) ->
  (exists bs, rmap f l = Ok bs) \/ (rmap f l = Raise Diverges /\ exists a, In a l /\ f a = Raise Diverges).
Proof.
  induction l as [|a t IH]; intros H; [left; exists []; reflexivity|].
  cbn [rmap]. destruct (H a (or_introl eq_refl)) as [E|(b & E)]; rewrite E; cbn [rbind].
  - right. split; auto. exists a. split; [left; auto|auto].
  - destruct IH as [(bs & ->)|(-> & a' & I & E')]; [intros; apply H; right; auto| |]; cbn [rbind]; [eauto|].
    right. split; auto. exists a'. split; [right; auto|auto].
Qed.
Lemma rmap_div {A B} (f : A -> res B) l a : (forall a, In a l -> f a = Raise Diverges \/ exists b, f a = Ok b) ->
  In a l -> f a = Raise Diverges -> rmap f l = Raise Diverges.
Proof.
  intros H I E. destruct (rmap_cases f l H) as [(bs & E')|(E' & _)]; auto. exfalso.
  apply rmap_ok in E'. clear H. induction E'; [contradiction|]. destruct I as [->|I]; [congruence|auto].
Qed.

Section S.
  Variables (srt : list Q -> list nat) (labels : list (list nat)) (pp : list (list Q)) (K : nat).
  Hypothesis Hs : argsort_ok srt.
  Hypothesis HD : ml_dataset K labels pp.
  Hypothesis HM : forall c, (c < K)%nat -> mixed labels c.

  Definition jobs_o (n : nat) s : ml_options := default_options None s n.

  Lemma class_jobs n s c : class_options (jobs_o n s) c =
    with_jobs (class_options (jobs_o 1 (fun _ => ([], []))) c) n (fst (s c)) (snd (s c)).
  Proof. reflexivity. Qed.
  Lemma class_one s c : class_options (jobs_o 1 s) c = with_jobs (class_options (jobs_o 1 (fun _ => ([], []))) c) 1 (fst (s c)) (snd (s c)).
  Proof. reflexivity. Qed.

  Lemma base_cols : exists cols, length cols = K /\
    issues_per_class srt labels pp K PruneByNoiseRate (jobs_o 1 (fun _ => ([], []))) None = Ok cols /\
    forall c, (c < K)%nat -> find_label_issues srt (binary_labels labels K c) (binary_probs pp c) 2 PruneByNoiseRate
        (class_options (jobs_o 1 (fun _ => ([], []))) c) = Ok (nth c cols []) /\ length (nth c cols []) = length labels.
  Proof.
    destruct (per_class_ok srt labels pp K PruneByNoiseRate (jobs_o 1 (fun _ => ([], []))) (fun _ m => length m = length labels)) as (cols & E & L & G).
    - intros c Hc. destruct (find_total srt 2 (binary_labels labels K c) (binary_probs pp c) PruneByNoiseRate
        (class_options (jobs_o 1 (fun _ => ([], []))) c) Hs (binary_dataset K labels pp c HD Hc) (binary_two K labels c Hc (HM c Hc)) eq_refl eq_refl)
        as (m & E & L). rewrite binary_length in L. eauto.
    - exists cols. auto.
  Qed.

  Variable cols : list (list bool).
  Hypothesis LC : length cols = K.
  Hypothesis GC : forall c, (c < K)%nat -> find_label_issues srt (binary_labels labels K c) (binary_probs pp c) 2 PruneByNoiseRate
        (class_options (jobs_o 1 (fun _ => ([], []))) c) = Ok (nth c cols []) /\ length (nth c cols []) = length labels.

  Lemma class_run n s c : (1 <= n)%nat -> (c < K)%nat ->
    find_label_issues srt (binary_labels labels K c) (binary_probs pp c) 2 PruneByNoiseRate (class_options (jobs_o n s) c) = Raise Diverges \/
    find_label_issues srt (binary_labels labels K c) (binary_probs pp c) 2 PruneByNoiseRate (class_options (jobs_o n s) c) = Ok (nth c cols []).
  Proof.
    intros Hn Hc. rewrite class_jobs. destruct (GC c Hc) as (G & _).
    destruct (parallel_eq srt (binary_labels labels K c) (binary_probs pp c) 2 PruneByNoiseRate
      (class_options (jobs_o 1 (fun _ => ([], []))) c) n (fst (s c)) (snd (s c)) [] [] Hn) as [E|E]; auto.
    right. rewrite E. rewrite <- G. reflexivity.
  Qed.

  (** a call finds [cols] or never returns *)
  Definition done n s : Prop := forall c, (c < K)%nat ->
    find_label_issues srt (binary_labels labels K c) (binary_probs pp c) 2 PruneByNoiseRate (class_options (jobs_o n s) c) = Ok (nth c cols []).

  Lemma per_class_run n s : (1 <= n)%nat ->
    (done n s /\ issues_per_class srt labels pp K PruneByNoiseRate (jobs_o n s) None = Ok cols) \/
    (issues_per_class srt labels pp K PruneByNoiseRate (jobs_o n s) None = Raise Diverges /\
     forall rank_by adjust, ranked_issues_per_class srt labels pp K PruneByNoiseRate (jobs_o n s) rank_by adjust = Raise Diverges).
  Proof.
    intros Hn. unfold issues_per_class.
    set (f := fun c => find_label_issues srt (binary_labels labels K c) (binary_probs pp c) 2 PruneByNoiseRate (class_options (jobs_o n s) c)).
    assert (HF : forall c, In c (seq 0 K) -> f c = Raise Diverges \/ exists b, f c = Ok b).
    { intros c Hc. apply in_seq in Hc. destruct (class_run n s c Hn ltac:(lia)); unfold f; eauto. }
    destruct (rmap_cases f (seq 0 K) HF) as [(bs & E)|(E & c & Ic & Ec)].
    - left. pose proof E as E'. apply rmap_ok in E'. apply (Forall2_seq _ K bs []) in E' as (LB & G).
      assert (A : bs = cols).
      { apply list_eq_nth with (d := []); [congruence|]. intros c Hc. rewrite LB in Hc. specialize (G c Hc). unfold f in G.
        destruct (class_run n s c Hn Hc) as [X|X]; rewrite X in G; congruence. }
      subst bs. split; [exact G|exact E].
    - right. split; [exact E|]. intros rank_by adjust. unfold ranked_issues_per_class. apply rmap_div with (a := c); auto.
      + intros c' Hc'. apply in_seq in Hc'.
        destruct (class_run n s c' Hn ltac:(lia)) as [X|X].
        * left. unfold find_label_issues_ranked. rewrite X. reflexivity.
        * right. destruct (find_ranked_spec srt 2 _ _ PruneByNoiseRate _ rank_by adjust _ Hs (binary_dataset K labels pp c' HD ltac:(lia))
            (binary_two K labels c' ltac:(lia) (HM c' ltac:(lia))) X) as (idx & _ & Y & _). eauto.
      + unfold find_label_issues_ranked. unfold f in Ec. rewrite Ec. reflexivity.
  Qed.

  (** the rows found are the same whatever the pools do *)
  Lemma common_run n s : done n s -> common_multilabel_issues srt labels pp K (jobs_o n s) =
     common_multilabel_issues srt labels pp K (jobs_o 1 (fun _ => ([], []))).
  Proof.
    intros Hd. unfold common_multilabel_issues, ranked_issues_per_class.
    assert (E : forall l, (forall c, In c l -> (c < K)%nat) ->
      rmap (fun c => find_label_issues_ranked srt (binary_labels labels K c) (binary_probs pp c) 2 PruneByNoiseRate (class_options (jobs_o n s) c) SelfConfidence false) l =
      rmap (fun c => find_label_issues_ranked srt (binary_labels labels K c) (binary_probs pp c) 2 PruneByNoiseRate (class_options (jobs_o 1 (fun _ => ([], []))) c) SelfConfidence false) l).
    { induction l as [|c t IH]; intros H; [reflexivity|]. cbn [rmap]. rewrite IH by (intros; apply H; right; auto).
      assert (Hc : (c < K)%nat) by (apply H; left; auto).
      assert (E1 : find_label_issues_ranked srt (binary_labels labels K c) (binary_probs pp c) 2 PruneByNoiseRate (class_options (jobs_o n s) c) SelfConfidence false =
        find_label_issues_ranked srt (binary_labels labels K c) (binary_probs pp c) 2 PruneByNoiseRate (class_options (jobs_o 1 (fun _ => ([], []))) c) SelfConfidence false).
      { unfold find_label_issues_ranked. rewrite (Hd c Hc), (proj1 (GC c Hc)). reflexivity. }
      rewrite E1. reflexivity. }
    rewrite E; [reflexivity|]. intros c Hc. apply in_seq in Hc. lia.
  Qed.

  Lemma holds_split n (P R : nat -> Prop) a b c : (forall e, R e \/ ~ R e) ->
    holds_for n P a -> holds_for n (fun e => P e /\ R e) b -> holds_for n (fun e => P e /\ ~ R e) c -> a = (b + c)%nat.
  Proof.
    intros Hdec (la & Na & <- & Ha) (lb & Nb & <- & Hb) (lc & Nc & <- & Hc). rewrite <- app_length.
    apply NoDup_same_length; auto.
    - apply ProofToken.NoDup_app_intro; auto. intros x Hx Hx'. apply Hb in Hx. apply Hc in Hx'. tauto.
    - intro x. rewrite in_app_iff, Ha, Hb, Hc. destruct (Hdec x); tauto.
  Qed.
  Lemma holds_le n (P R : nat -> Prop) a b : (forall e, P e -> R e) -> holds_for n P a -> holds_for n R b -> (a <= b)%nat.
  Proof.
    intros H (la & Na & <- & Ha) (lb & Nb & <- & Hb). apply NoDup_incl_length; auto. intros x Hx. apply Ha in Hx. apply Hb. intuition.
  Qed.
  Lemma union_le : (count_true (any_class (length labels) cols) <= fold_right Nat.add 0 (map count_true cols))%nat.
  Proof.
    rewrite <- where_length. assert (E : fold_right Nat.add 0%nat (map count_true cols) = length (concat (map where_ cols))).
    { clear. induction cols as [|m t IH]; [reflexivity|]. cbn. rewrite app_length, where_length. rewrite IH. reflexivity. }
    rewrite E. apply NoDup_incl_length; [unfold where_; apply NoDup_filter, seq_NoDup|].
    intros e He. unfold where_ in He. apply filter_In in He as (_ & He). apply (proj1 (any_class_flag (length labels) cols e)) in He as (Hlt & m & Hm & Hf).
    apply in_concat. exists (where_ m). split; [apply in_map; auto|]. unfold where_. apply filter_In. split; [|exact Hf].
    apply in_seq. apply In_nth with (d := []) in Hm as (c & Hc & <-). rewrite (proj2 (GC c ltac:(lia))). lia.
  Qed.

  Lemma summary_run n s1 s2 s3 ne : (1 <= n)%nat -> done n s1 -> done n s2 -> done n s3 ->
    issues_per_class srt labels pp K PruneByNoiseRate (jobs_o n s3) None = Ok cols ->
    exists t, multilabel_health_summary srt (Some labels) pp K ne None n s1 s2 s3 = Ok t /\ consistent labels K cols t.
  Proof.
    intros Hn D1 D2 D3 I3. pose proof HD as [_ Hne _ _ _].
    assert (I0 : issues_per_class srt labels pp K PruneByNoiseRate (jobs_o 1 (fun _ => ([], []))) None = Ok cols).
    { destruct (per_class_run 1 (fun _ => ([], [])) (le_n 1)) as [(_ & E)|(E & _)]; auto. exfalso.
      assert (F : forall c, In c (seq 0 K) -> exists b, find_label_issues srt (binary_labels labels K c) (binary_probs pp c) 2 PruneByNoiseRate
        (class_options (jobs_o 1 (fun _ => ([], []))) c) = Ok b).
      { intros c Hc. apply in_seq in Hc. exists (nth c cols []). apply GC. lia. }
      destruct (rmap_tot _ _ F) as (x & X). unfold issues_per_class in E. rewrite X in E. discriminate. }
    destruct (C65_common_full srt labels pp K _ cols Hs HD HM I0) as (rows & ER & LR & CR & KR & _).
    destruct (C65_rank_full srt labels pp K _ rows Hs HD HM (ex_intro _ _ I0) ER) as (table & ET & PT & TT & _).
    unfold multilabel_health_summary.
    assert (X0 : exists q, match ne with Some k => Ok (Qnat k) | None => num_examples_multilabel (Some labels) None end = Ok q).
    { destruct ne; cbn; eauto. }
    destruct X0 as (q0 & ->). cbn [rbind].
    unfold rank_classes_call, common_call, health_call. cbn [num_examples_multilabel rbind].
    fold (jobs_o n s1). fold (jobs_o n s2). fold (jobs_o n s3).
    assert (E1 : rank_classes_by_multilabel_quality srt labels pp K (jobs_o n s1) = Ok table).
    { rewrite <- ET. unfold rank_classes_by_multilabel_quality. rewrite (common_run n s1 D1). reflexivity. }
    rewrite E1. cbn [rbind]. rewrite (common_run n s2 D2), ER. cbn [rbind].
    unfold overall_multilabel_health_score, ml_find_label_issues. cbn [is_low andb]. rewrite I3. cbn [rbind].
    eexists. split; [reflexivity|].
    set (m := any_class (length labels) cols).
    assert (LM : length m = length labels) by apply any_class_length.
    assert (HB : holds_for (length labels) (fun e => exists c, (c < K)%nat /\ flagged (nth c cols []) e) (count_true m)).
    { rewrite <- LM. apply holds_mask. intros e He. rewrite LM in He. change (flagged m e <-> exists c, (c < K)%nat /\ flagged (nth c cols []) e).
      unfold m. rewrite any_class_flag. split.
      - intros (_ & mm & Hm & Hf). apply In_nth with (d := []) in Hm as (c & Hc & <-). exists c. split; [lia|auto].
      - intros (c & Hc & Hf). split; [auto|]. exists (nth c cols []). split; [apply nth_In; lia|auto]. }
    exists (count_true m). split; [exact HB|].
    assert (HN : 0 < Qnat (length labels)).
    { unfold Qnat. change 0 with (inject_Z 0). rewrite <- Zlt_Qlt. destruct labels; [congruence|simpl; lia]. }
    assert (HLE : Qnat (count_true m) <= Qnat (length labels)).
    { rewrite <- LM. unfold Qnat. rewrite <- Zle_Qle. assert (count_true m <= length m)%nat by (unfold count_true; clearbody m; clear; induction m as [|[] t IH]; cbn; lia). lia. }
    assert (H0 : 0 <= Qnat (count_true m)) by apply Qnat_nonneg.
    cbn [s_score s_classes s_common].
    split; [field; lra|].
    assert (A1 : 0 <= Qnat (count_true m) / Qnat (length labels)) by (apply Qle_shift_div_l; lra).
    assert (A2 : Qnat (count_true m) / Qnat (length labels) <= 1) by (apply Qle_shift_div_r; lra).
    split; [split; lra|]. split; [exact PT|]. split; [exact LR|].
    assert (Dec : forall c e, has_class labels e c \/ ~ has_class labels e c).
    { intros c e. unfold has_class. destruct (in_dec Nat.eq_dec c (nth e labels [])); auto. }
    assert (Each : forall r, In r table -> (q_class r < K)%nat /\ exists given absent,
       common_counts {| s_score := 0; s_classes := table; s_common := rows |} (q_class r) given absent /\
       q_issues r = Z.of_nat given /\ q_inverse r = Z.of_nat absent /\
       holds_for (length labels) (fun e => flagged (nth (q_class r) cols []) e /\ has_class labels e (q_class r)) given /\
       holds_for (length labels) (fun e => flagged (nth (q_class r) cols []) e /\ ~ has_class labels e (q_class r)) absent /\
       (given + absent = count_true (nth (q_class r) cols []))%nat).
    { intros r Hr. destruct (TT r Hr) as (a & b & q & q' & Ia & Ib & Ea & Eb & _).
      pose proof (KR _ _ _ _ Ia) as Hc. split; [auto|]. exists a, b.
      destruct (CR (q_class r) true Hc) as (a' & qa & _ & Ua & Ha & _). destruct (Ua _ _ Ia) as (-> & _).
      destruct (CR (q_class r) false Hc) as (b' & qb & _ & Ub & Hb & _). destruct (Ub _ _ Ib) as (-> & _).
      apply holds_for_iff with (P' := fun e => flagged (nth (q_class r) cols []) e /\ has_class labels e (q_class r)) in Ha; [|intros; tauto].
      apply holds_for_iff with (P' := fun e => flagged (nth (q_class r) cols []) e /\ ~ has_class labels e (q_class r)) in Hb.
      2: { intros e _. split; intros (X & Y); (split; [exact X|]); [intro Z; apply Y in Z; discriminate|split; [tauto|discriminate]]. }
      split; [split; eauto|]. split; [auto|]. split; [auto|]. split; [auto|]. split; [auto|].
      symmetry. apply (holds_split (length labels) (fun e => flagged (nth (q_class r) cols []) e) (fun e => has_class labels e (q_class r))); auto.
      destruct (GC (q_class r) Hc) as (_ & L). rewrite <- L. apply holds_mask. intros; reflexivity. }
    split.
    - intros c Hc. assert (Ic : In c (map q_class table)) by (apply (Permutation_in _ (Permutation_sym PT)), in_seq; lia).
      apply in_map_iff in Ic as (r & <- & Hr). destruct (Each r Hr) as (_ & g & a & H1 & H2 & H3 & H4 & H5 & H6).
      exists r, g, a. split; [split; auto|]. split; [exact H1|]. split; [auto|]. split; [auto|]. split; [auto|]. split; [auto|].
      rewrite H6. apply (holds_le (length labels) (fun e => flagged (nth (q_class r) cols []) e) (fun e => exists c, (c < K)%nat /\ flagged (nth c cols []) e)); eauto.
      destruct (GC (q_class r) Hc) as (_ & L). rewrite <- L. apply holds_mask. intros; reflexivity.
    - assert (SZ : all_class_issues {| s_score := 1 - Qnat (count_true m) / Qnat (length labels); s_classes := table; s_common := rows |} =
        Z.of_nat (fold_right Nat.add 0%nat (map (fun c => count_true (nth c cols [])) (map q_class table)))).
      { unfold all_class_issues. cbn [s_classes]. clear -Each. induction table as [|r t IH]; [reflexivity|].
        cbn [fold_right map]. rewrite IH.
        - destruct (Each r (or_introl eq_refl)) as (_ & g & a & _ & -> & -> & _ & _ & H). lia.
        - intros r' Hr'. destruct (Each r' (or_intror Hr')) as (X & g & a & ((q & Y) & (q' & Y')) & Z). split; auto. exists g, a.
          split; [split; eauto|]. auto. }
      rewrite SZ. apply inj_le.
      assert (PS : forall l l' : list nat, Permutation l l' -> fold_right Nat.add 0%nat l = fold_right Nat.add 0%nat l').
      { clear. induction 1; cbn; lia. }
      rewrite (PS _ (map (fun c => count_true (nth c cols [])) (seq 0 K))) by (apply Permutation_map; exact PT).
      replace (map (fun c => count_true (nth c cols [])) (seq 0 K)) with (map count_true cols).
      + apply union_le.
      + apply list_eq_nth with (d := 0%nat); [rewrite !map_length, seq_length; auto|].
        intros c Hc. rewrite map_length in Hc. rewrite nth_map_gen with (d' := []) by auto.
        rewrite nth_map_gen with (d' := 0%nat) by (rewrite seq_length; lia). rewrite seq_nth by lia. reflexivity.
  Qed.

  Lemma summary_cases n s1 s2 s3 ne : (1 <= n)%nat ->
    multilabel_health_summary srt (Some labels) pp K ne None n s1 s2 s3 = Raise Diverges \/
    exists t, multilabel_health_summary srt (Some labels) pp K ne None n s1 s2 s3 = Ok t /\ consistent labels K cols t.
  Proof.
    intros Hn.
    destruct (per_class_run n s1 Hn) as [(D1 & I1)|(_ & R1)].
    2: { left. unfold multilabel_health_summary. destruct ne; cbn [rbind num_examples_multilabel];
         unfold rank_classes_call; cbn [rbind num_examples_multilabel]; unfold rank_classes_by_multilabel_quality, common_multilabel_issues;
         fold (jobs_o n s1); rewrite R1; reflexivity. }
    destruct (per_class_run n s2 Hn) as [(D2 & I2)|(_ & R2)].
    2: { left. unfold multilabel_health_summary.
         destruct (C65_common_full srt labels pp K _ cols Hs HD HM I1) as (rows & ER & _).
         destruct (C65_rank_full srt labels pp K _ rows Hs HD HM (ex_intro _ _ I1) ER) as (table & ET & _).
         destruct ne; cbn [rbind num_examples_multilabel];
         unfold rank_classes_call, common_call; cbn [rbind num_examples_multilabel];
         fold (jobs_o n s1); fold (jobs_o n s2); rewrite ET; cbn [rbind]; unfold common_multilabel_issues; rewrite R2; reflexivity. }
    destruct (per_class_run n s3 Hn) as [(D3 & I3)|(R3 & _)].
    2: { left. unfold multilabel_health_summary.
         destruct (C65_common_full srt labels pp K _ cols Hs HD HM I1) as (rows & ER & _).
         destruct (C65_rank_full srt labels pp K _ rows Hs HD HM (ex_intro _ _ I1) ER) as (table & ET & _).
         destruct (C65_common_full srt labels pp K _ cols Hs HD HM I2) as (rows2 & ER2 & _).
         destruct ne; cbn [rbind num_examples_multilabel];
         unfold rank_classes_call, common_call, health_call; cbn [rbind num_examples_multilabel];
         fold (jobs_o n s1); fold (jobs_o n s2); fold (jobs_o n s3); rewrite ET; cbn [rbind]; rewrite ER2; cbn [rbind];
         unfold overall_multilabel_health_score, ml_find_label_issues; cbn [is_low andb]; rewrite R3; reflexivity. }
    right. apply summary_run; auto.
  Qed.

  Lemma done_one s : done 1 s.
  Proof.
    intros c Hc. destruct (find_total srt 2 (binary_labels labels K c) (binary_probs pp c) PruneByNoiseRate
        (class_options (jobs_o 1 s) c) Hs (binary_dataset K labels pp c HD Hc) (binary_two K labels c Hc (HM c Hc)) eq_refl eq_refl) as (m & E & _).
    destruct (class_run 1 s c (le_n 1) Hc); congruence.
  Qed.
End S.

Theorem C142_full : forall srt labels pp K, argsort_ok srt -> ml_dataset K labels pp -> (forall c, (c < K)%nat -> mixed labels c) ->
  exists cols, issues_per_class srt labels pp K PruneByNoiseRate (default_options None (fun _ => ([], [])) 1) None = Ok cols /\
    (forall ne n s1 s2 s3, (1 <= n)%nat ->
       multilabel_health_summary srt (Some labels) pp K ne None n s1 s2 s3 = Raise Diverges \/
       exists t, multilabel_health_summary srt (Some labels) pp K ne None n s1 s2 s3 = Ok t /\ consistent labels K cols t) /\
    (forall ne s1 s2 s3, exists t,
       multilabel_health_summary srt (Some labels) pp K ne None 1 s1 s2 s3 = Ok t /\ consistent labels K cols t).
Proof.
  intros srt labels pp K Hs HD HM. destruct (base_cols srt labels pp K Hs HD HM) as (cols & LC & IC & GC).
  exists cols. split; [exact IC|]. split.
  - intros ne n s1 s2 s3 Hn. apply summary_cases; auto.
  - intros ne s1 s2 s3. apply summary_run; auto; try (apply done_one; auto).
Qed.

Theorem C142_no_labels_full : forall srt pp K ne cj n s1 s2 s3,
  multilabel_health_summary srt None pp K ne cj n s1 s2 s3 = Raise ValueError.
Proof. intros. unfold multilabel_health_summary. destruct ne; reflexivity. Qed.
