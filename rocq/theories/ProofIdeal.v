(** * Proofs for C131 *)
From Coq Require Import QArith Qabs Qround List Permutation Sorted ZArith Bool Arith Lia Lqa Setoid Morphisms.
From Verif Require Import Base BaseFacts ModelUtil ModelCount ModelRank ModelPool ModelFilter ModelLatent ModelEstimate
     SpecCount SpecFilter SpecRank SpecEstimate SpecIdeal ProofUtil ProofCount ProofPool ProofFilter ProofRank ProofEstimate.
Import ListNotations.
Open Scope Q_scope.

(** ** counting *)
Lemma holds_for_unique n P a b : holds_for n P a -> holds_for n P b -> a = b.
Proof.
  intros (l & Nl & <- & Hl) (l' & Nl' & <- & Hl'). apply NoDup_same_length; auto.
  intro x. rewrite Hl, Hl'. tauto.
Qed.
Lemma holds_for_iff n P P' a : (forall e, (e < n)%nat -> P e <-> P' e) -> holds_for n P a -> holds_for n P' a.
Proof.
  intros H (l & Nl & <- & Hl). exists l. split; [auto|]. split; [auto|]. intro i. rewrite Hl.
  split; intros [Hi Hp]; split; auto; apply (H i Hi); auto.
Qed.
Lemma holds_for_S n P : holds_for 0 P 0 /\
  forall a, holds_for n (fun e => P (S e)) a ->
    (P 0%nat -> holds_for (S n) P (S a)) /\ (~ P 0%nat -> holds_for (S n) P a).
Proof.
  split.
  - exists []. split; [constructor|]. split; [reflexivity|]. intro i. cbn. split; [tauto|lia].
  - intros a (l & Nl & <- & Hl).
    assert (NS : NoDup (map S l)) by (apply FinFun.Injective_map_NoDup; auto; intros x y; lia).
    assert (IS : forall i, In i (map S l) <-> (exists j, i = S j /\ (j < n)%nat /\ P (S j))).
    { intro i. rewrite in_map_iff. split.
      - intros [j [<- Hj]]. exists j. apply Hl in Hj. tauto.
      - intros [j [-> Hj]]. exists j. split; auto. apply Hl. auto. }
    split; intros H0.
    + exists (0%nat :: map S l). split; [constructor; auto; rewrite IS; intros [j [? _]]; lia|].
      split; [cbn; rewrite map_length; auto|]. intro i. cbn [In]. rewrite IS. split.
      * intros [<-|[j [-> [? ?]]]]; split; auto; lia.
      * intros [Hi Hp]. destruct i as [|i]; auto. right. exists i. repeat split; auto; lia.
    + exists (map S l). split; [auto|]. split; [apply map_length|]. intro i. rewrite IS. split.
      * intros [j [-> [? ?]]]. split; auto; lia.
      * intros [Hi Hp]. destruct i as [|i]; [tauto|]. exists i. repeat split; auto; lia.
Qed.

Lemma n_pair_holds i j labels : forall tl, length tl = length labels ->
  holds_for (length labels) (fun e => label_of labels e = i /\ nth e tl 0%nat = j) (n_pair i j labels tl).
Proof.
  induction labels as [|l ls IH]; intros [|t ts] H; cbn in H; try discriminate.
  - apply (holds_for_S 0 _).
  - injection H as H. specialize (IH ts H).
    pose (P := fun e => label_of (l :: ls) e = i /\ nth e (t :: ts) 0%nat = j).
    destruct (holds_for_S (length ls) P) as [_ HS]. specialize (HS _ IH) as [H1 H0].
    cbn [n_pair length]. change (holds_for (S (length ls)) P ((if Nat.eqb l i then if Nat.eqb t j then 1 else 0 else 0) + n_pair i j ls ts)).
    destruct (Nat.eqb_spec l i) as [El|El]; [destruct (Nat.eqb_spec t j) as [Et|Et]|]; cbn [Nat.add].
    + apply H1. split; auto.
    + apply H0. intros [_ X]. cbn in X. congruence.
    + apply H0. intros [X _]. cbn in X. congruence.
Qed.
Lemma n_wrong_holds labels : forall tl, length tl = length labels ->
  holds_for (length labels) (fun e => label_of labels e <> nth e tl 0%nat) (n_wrong labels tl).
Proof.
  induction labels as [|l ls IH]; intros [|t ts] H; cbn in H; try discriminate.
  - apply (holds_for_S 0 _).
  - injection H as H. specialize (IH ts H).
    pose (P := fun e => label_of (l :: ls) e <> nth e (t :: ts) 0%nat).
    destruct (holds_for_S (length ls) P) as [_ HS]. specialize (HS _ IH) as [H1 H0].
    cbn [n_wrong length]. change (holds_for (S (length ls)) P ((if Nat.eqb l t then 0 else 1) + n_wrong ls ts)).
    destruct (Nat.eqb_spec l t) as [El|El]; cbn [Nat.add].
    + apply H0. intros X. apply X. cbn. auto.
    + apply H1. intros X. cbn in X. congruence.
Qed.

Lemma nsum_consI a l : nsum (a :: l) = (a + nsum l)%nat. Proof. reflexivity. Qed.
Lemma nsum_tab_zero K : nsum (tab K (fun _ => 0%nat)) = 0%nat.
Proof. apply nsum_zero. intros x Hx. apply in_tab in Hx as [? [_ ->]]. auto. Qed.
Lemma nsum_tab_plus K f g : nsum (tab K (fun i => f i + g i)%nat) = (nsum (tab K f) + nsum (tab K g))%nat.
Proof. unfold tab. apply nsum_map_plus. Qed.
Lemma nsum_tab_one K t : (t < K)%nat -> nsum (tab K (fun j => if Nat.eqb t j then 1 else 0)%nat) = 1%nat.
Proof.
  revert t. induction K as [|K IH]; intros t Ht; [lia|]. rewrite tab_S, nsum_consI.
  destruct t as [|t].
  - cbn [Nat.eqb]. rewrite nsum_tab_zero. auto.
  - cbn [Nat.eqb]. apply IH. lia.
Qed.
Lemma n_pair_row K i labels : forall tl, length tl = length labels -> (forall t, In t tl -> (t < K)%nat) ->
  nsum (tab K (fun j => n_pair i j labels tl)) = n_labelled i labels.
Proof.
  induction labels as [|l ls IH]; intros [|t ts] H Ht; cbn in H; try discriminate; cbn [n_pair n_labelled].
  - apply nsum_tab_zero.
  - injection H as H. rewrite nsum_tab_plus, IH; [|auto|intros; apply Ht; right; auto].
    f_equal. destruct (Nat.eqb l i); [|apply nsum_tab_zero]. apply nsum_tab_one, Ht. left. auto.
Qed.

(** ** what is counted *)
Section Ideal.
Variables (K : nat) (labels tl : list nat) (pp : list (list Q)).
Hypothesis D : dataset K labels pp.
Hypothesis H2 : two_classes labels.
Hypothesis ID : ideal K labels tl pp.
Let t e := nth e tl 0%nat.
Let thr := get_confident_thresholds labels pp K.

Lemma t_lt e : (e < length labels)%nat -> (t e < K)%nat.
Proof. intro He. apply (ds_lab _ _ _ D), (id_class _ _ _ _ ID); auto. Qed.
Lemma row_len e : (e < length labels)%nat -> length (row_of pp e) = K.
Proof. intro He. apply (ds_row _ _ _ D). apply nth_In. rewrite <- (ds_len _ _ _ D). auto. Qed.
Lemma prob_nonneg e k : (e < length labels)%nat -> (k < K)%nat -> 0 <= prob_of pp e k.
Proof.
  intros He Hk. unfold prob_of. apply (ds_prob _ _ _ D (nth e pp [])).
  - apply nth_In. rewrite <- (ds_len _ _ _ D). auto.
  - apply nth_In. pose proof (row_len e He) as R. unfold row_of in R. rewrite R. auto.
Qed.
Lemma other_class y : exists k, (k < K)%nat /\ k <> y.
Proof.
  destruct H2 as (a & b & Ha & Hb & Hn). destruct (Nat.eq_dec a y) as [E|E].
  - exists b. split; [apply (ds_lab _ _ _ D); auto|congruence].
  - exists a. split; [apply (ds_lab _ _ _ D); auto|auto].
Qed.
Lemma true_reached e : (e < length labels)%nat -> reaches thr (row_of pp e) (t e).
Proof.
  intro He. pose proof (t_lt e He) as Ht. split; [rewrite row_len; auto|].
  destruct (thresholds_spec labels pp K (t e) (ds_len _ _ _ D) Ht) as [S _].
  destruct (S (id_class _ _ _ _ ID e He)) as (a & Ha & Et). fold thr in Et. rewrite Et.
  pose proof (id_sure _ _ _ _ ID e a He Ha) as Hs. destruct (other_class (t e)) as (k & Hk & Hne).
  pose proof (id_lead _ _ _ _ ID e k He Hk Hne) as Hlead. pose proof (prob_nonneg e k He Hk).
  unfold prob_of in *. fold (t e) in *. change (row_of pp e) with (nth e pp []).
  unfold CONFIDENT_THRESHOLDS_LOWER_BOUND.
  match goal with |- qmax a ?c - _ <= _ => destruct (qmax_spec a c) as [[? E]|[? E]]; rewrite E end; lra.
Qed.
Lemma counted_true e j : (e < length labels)%nat -> (counted_as thr (row_of pp e) j <-> j = t e).
Proof.
  intro He. pose proof (true_reached e He) as R. pose proof (t_lt e He) as Ht. pose proof (row_len e He) as RL.
  assert (M : forall i, (i < K)%nat -> i <> t e -> nth i (row_of pp e) 0 < nth (t e) (row_of pp e) 0).
  { intros i Hi Hne. pose proof (id_lead _ _ _ _ ID e i He Hi Hne) as L. unfold prob_of in L.
    change (nth e pp []) with (row_of pp e) in L. fold (t e) in L. lra. }
  assert (ML : most_likely (row_of pp e) (t e)).
  { split; [rewrite RL; auto|]. split.
    - intros i Hi. rewrite RL in Hi. destruct (Nat.eq_dec i (t e)) as [->|Hne]; [lra|]. apply Qlt_le_weak, M; auto.
    - intros i Hi. apply M; lia. }
  assert (C : counted_as thr (row_of pp e) (t e)).
  { pose proof (counted_as_iff thr (row_of pp e) (t e)) as _.
    destruct (existsb (fun i => negb (Nat.eqb i (t e)) && Qleb (nth i thr 0 - (1 # 1000000)) (nth i (row_of pp e) 0))%bool (seq 0 K)) eqn:E.
    - apply existsb_exists in E as (i & Hi & Ei). apply in_seq in Hi. apply andb_prop in Ei as [E1 E2].
      apply negb_true_iff, Nat.eqb_neq in E1. apply Qleb_iff in E2.
      right. split; auto. exists i, (t e). split; auto. split; auto. split; auto. rewrite RL. lia.
    - left. split; auto. intros i [Hi1 Hi2]. destruct (Nat.eq_dec i (t e)) as [|Hne]; auto. exfalso.
      rewrite RL in Hi1.
      assert (existsb (fun i => negb (Nat.eqb i (t e)) && Qleb (nth i thr 0 - (1 # 1000000)) (nth i (row_of pp e) 0))%bool (seq 0 K) = true); [|congruence].
      apply existsb_exists. exists i. split; [apply in_seq; lia|].
      apply andb_true_intro. split; [apply negb_true_iff, Nat.eqb_neq; auto|apply Qleb_iff; auto]. }
  split; [intro H; eapply counted_as_fun; eauto|intros ->; auto].
Qed.
Lemma beaten_wrong e : (e < length labels)%nat -> (clearly_beaten labels pp e <-> label_of labels e <> t e).
Proof.
  intro He. pose proof (t_lt e He) as Ht. pose proof (row_len e He) as RL.
  assert (Hl : (label_of labels e < K)%nat) by (apply (ds_lab _ _ _ D), nth_In; auto).
  split.
  - intros (j & Hj & Hb) E. rewrite E, RL in *. destruct (Nat.eq_dec j (t e)) as [->|Hne].
    + destruct Hb as [?|[? _]]; [lra|lia].
    + pose proof (id_lead _ _ _ _ ID e j He Hj Hne) as L. fold (t e) in L. destruct Hb as [?|[_ ?]]; lra.
  - intro Hne. exists (t e). rewrite RL. split; auto. left. apply (id_lead _ _ _ _ ID e _ He Hl Hne).
Qed.

Lemma tl_lt x : In x tl -> (x < K)%nat.
Proof.
  intro Hx. apply (In_nth _ _ 0%nat) in Hx as (e & He & <-). apply t_lt. rewrite <- (id_len _ _ _ _ ID). auto.
Qed.
End Ideal.

Lemma C131_issues_full : forall srt K labels tl pp o, argsort_ok srt -> dataset K labels pp -> two_classes labels ->
  ideal K labels tl pp -> num_to_remove_per_class o = None -> (1 <= n_jobs o)%nat ->
  num_label_issues srt labels pp K = Ok (n_wrong labels tl) /\
  (forall flt, flt = ConfidentLearning \/ flt = PredictedNeqGiven ->
     exists m, find_label_issues srt labels pp K flt o = Ok m /\ length m = length labels /\
       forall e, flagged m e <-> wrong labels tl e).
Proof.
  intros srt K labels tl pp o Hs D H2 ID Hn Hj.
  destruct (C06_full srt K labels pp o Hs D H2 Hn Hj) as (m & Hm & Lm & Hc & Hf).
  assert (F : forall e, flagged m e <-> wrong labels tl e).
  { intro e. rewrite Hf. unfold wrong. split.
    - intros (He & _ & Hb). split; auto. apply (beaten_wrong K labels tl pp D ID); auto.
    - intros (He & Hw). split; auto. split.
      + exists (nth e tl 0%nat). split; auto. apply (counted_true K labels tl pp D H2 ID); auto.
      + apply (beaten_wrong K labels tl pp D ID); auto. }
  split.
  - rewrite Hc. f_equal. apply (holds_for_unique (length labels) (fun e => label_of labels e <> nth e tl 0%nat)).
    + exists (where_ m). split; [apply where_NoDup|]. split; [apply where_length|]. intro i. rewrite in_where.
      apply (F i).
    + apply n_wrong_holds. apply (id_len _ _ _ _ ID).
  - intros flt [->| ->].
    + exists m. auto.
    + destruct (C07_pneq_full srt K labels pp o Hs D H2 Hn Hj) as (m' & Hm' & Lm' & Hf').
      exists m'. split; auto. split; auto. intro e. rewrite Hf'. unfold wrong.
      split; intros (He & Hw); split; auto; apply (beaten_wrong K labels tl pp D ID); auto.
Qed.

(** ** the table of counts *)
Lemma tally_get K labels tl i j : (i < K)%nat -> (j < K)%nat -> zget (tally K labels tl) i j = Z.of_nat (n_pair i j labels tl).
Proof. intros Hi Hj. unfold zget, tally. rewrite !nth_tab by auto. auto. Qed.
Lemma zmat_ext K (a b : list (list Z)) : length a = K -> length b = K ->
  (forall i, (i < K)%nat -> length (nth i a []) = K /\ length (nth i b []) = K) ->
  (forall i j, (i < K)%nat -> (j < K)%nat -> zget a i j = zget b i j) -> a = b.
Proof.
  intros La Lb Lr H. apply (list_eq_nth _ _ []); [congruence|]. intros i Hi. rewrite La in Hi.
  destruct (Lr i Hi) as [A B]. apply (list_eq_nth _ _ 0%Z); [congruence|]. intros j Hj. rewrite A in Hj. apply (H i j Hi Hj).
Qed.

Lemma n_pair_le_row i j labels : forall tl, length tl = length labels -> ~ In i labels -> n_pair i j labels tl = 0%nat.
Proof.
  induction labels as [|l ls IH]; intros [|t ts] H Hn; cbn in H; try discriminate; cbn [n_pair]; auto.
  rewrite IH; [|lia|intro; apply Hn; right; auto].
  destruct (Nat.eqb_spec l i); auto. exfalso. apply Hn. left. auto.
Qed.

Lemma uncal_cells srt K labels tl pp : dataset K labels pp -> two_classes labels -> ideal K labels tl pp ->
  exists cj idx, compute_confident_joint srt labels pp K None false = Ok (cj, idx) /\
    StronglySorted lt idx /\ (forall e, In e idx <-> wrong labels tl e) /\
    forall i j, (i < K)%nat -> (j < K)%nat ->
      zget cj i j = if Nat.eqb i j then Z.max 1 (Z.of_nat (n_pair i j labels tl)) else Z.of_nat (n_pair i j labels tl).
Proof.
  intros D H2 ID.
  destruct (compute_confident_joint_full srt K labels pp None D) as (cj & idx & E & Hc & _ & Hs & Hi); [discriminate|].
  exists cj, idx. split; auto. split; auto. split.
  - intro e. rewrite Hi. unfold wrong. split.
    + intros (He & j & Hj & Hne). split; auto. apply (counted_true K labels tl pp D H2 ID) in Hj; auto. unfold label_of. congruence.
    + intros (He & Hne). split; auto. exists (nth e tl 0%nat). split; [apply (counted_true K labels tl pp D H2 ID); auto|auto].
  - intros i j Hi' Hj'. destruct (Hc i j Hi' Hj') as (n & Hn & ->).
    assert (n = n_pair i j labels tl) as ->; auto.
    eapply holds_for_unique; [|apply n_pair_holds; apply (id_len _ _ _ _ ID)].
    eapply holds_for_iff; [|exact Hn]. intros e He. cbn beta.
    split; intros [A B]; split; auto; apply (counted_true K labels tl pp D H2 ID e j He) in B || apply (counted_true K labels tl pp D H2 ID e j He); auto.
Qed.

Lemma row_total K cj i (f : nat -> nat) : length (nth i cj []) = K -> (forall j, (j < K)%nat -> zget cj i j = Z.of_nat (f j)) ->
  qsum (map inject_Z (nth i cj [])) == Qnat (nsum (tab K f)).
Proof.
  intros L H. rewrite Qnat_nsum, map_tab. rewrite qsum_as_tab, map_length, L. apply qsum_tab_ext. intros j Hj.
  rewrite (nth_map_gen inject_Z _ _ _ 0%Z) by lia. change (nth j (nth i cj []) 0%Z) with (zget cj i j). rewrite H by auto. reflexivity.
Qed.

Lemma cal_exact srt K labels tl pp : argsort_ok srt -> dataset K labels pp -> two_classes labels -> ideal K labels tl pp ->
  correct_at_least 1 labels tl ->
  exists idx, compute_confident_joint srt labels pp K None true = Ok (tally K labels tl, idx) /\
    StronglySorted lt idx /\ (forall e, In e idx <-> wrong labels tl e).
Proof.
  intros Hs D H2 ID C1.
  destruct (uncal_cells srt K labels tl pp D H2 ID) as (cj & idx & E & Si & Hi & Hc).
  exists idx. split; [|split; auto].
  unfold compute_confident_joint in *. cbv zeta in *. injection E as Ecj Eidx. rewrite Ecj, Eidx.
  pose proof (uncalibrated_cj_ok labels pp (get_confident_thresholds labels pp K) K) as OK. rewrite Ecj in OK.
  pose proof (cj_ok_weaken K labels _ OK) as OKf.
  destruct OKf as (O1 & O2 & O3 & O4).
  destruct (calibrate_full_gen srt K (zmat_to_q cj) labels Hs O1 O2 O3 O4 (ds_ne _ _ _ D) (ds_lab _ _ _ D))
    as (zm & Ez & Lz & Rz & _ & Bz).
  rewrite Ez. cbn [rbind]. do 2 f_equal.
  apply (zmat_ext K); auto; [apply tab_length| |].
  - intros i Hi'. split; [apply Rz; auto|]. unfold tally. rewrite nth_tab by auto. apply tab_length.
  - intros i j Hi' Hj'. rewrite tally_get by auto.
    destruct (Bz i j Hi' Hj') as [_ B]. rewrite zmat_get in B.
    assert (Lr : length (nth i cj []) = K).
    { assert (In (nth i (zmat_to_q cj) []) (zmat_to_q cj)) as I by (apply nth_In; lia). apply O2 in I.
      rewrite zmat_row, map_length in I. auto. }
    assert (Hrow : In i labels -> qsum (nth i (zmat_to_q cj) []) == Qnat (n_labelled i labels)).
    { intro Hin. rewrite zmat_row, <- (n_pair_row K i labels tl); [|apply (id_len _ _ _ _ ID)|apply (tl_lt K labels tl pp D ID)].
      apply row_total; auto. intros j' Hj''. rewrite Hc by auto. destruct (Nat.eqb_spec i j') as [<-|]; auto.
      pose proof (C1 i Hin). lia. }
    destruct (in_dec Nat.eq_dec i labels) as [Hin|Hout].
    + assert (zget cj i j = Z.of_nat (n_pair i j labels tl)) as Ec.
      { rewrite Hc by auto. destruct (Nat.eqb_spec i j) as [<-|]; auto. pose proof (C1 i Hin). lia. }
      rewrite Ec, (Hrow Hin) in B.
      assert (0 < Qnat (n_labelled i labels)) by (apply Qnat_pos, n_labelled_pos; auto).
      setoid_replace (inject_Z (Z.of_nat (n_pair i j labels tl)) * Qnat (n_labelled i labels) / Qnat (n_labelled i labels))
        with (inject_Z (Z.of_nat (n_pair i j labels tl))) in B by (field; lra).
      apply Qabs_Qlt_condition in B. destruct B as [B1 B2].
      assert (inject_Z (zget zm i j) < inject_Z (Z.of_nat (n_pair i j labels tl)) + 1) as G1 by lra.
      assert (inject_Z (Z.of_nat (n_pair i j labels tl)) < inject_Z (zget zm i j) + 1) as G2 by lra.
      apply inject_Z_lt_1 in G1, G2. lia.
    + rewrite (n_pair_le_row i j labels tl (id_len _ _ _ _ ID) Hout).
      assert (n_labelled i labels = 0)%nat as En.
      { destruct (n_labelled i labels) eqn:En; auto. exfalso. apply Hout, n_labelled_pos. lia. }
      rewrite En in B. setoid_replace (inject_Z (zget cj i j) * Qnat 0 / qsum (nth i (zmat_to_q cj) [])) with 0 in B
        by (rewrite Qnat_0; unfold Qdiv; ring).
      apply Qabs_Qlt_condition in B. destruct B as [B1 B2].
      assert (inject_Z (zget zm i j) < inject_Z 0 + 1) as G1 by (change (inject_Z 0) with 0; lra).
      assert (inject_Z 0 < inject_Z (zget zm i j) + 1) as G2 by (change (inject_Z 0) with 0; lra).
      apply inject_Z_lt_1 in G1, G2. cbn. lia.
Qed.

Lemma tally_ok K labels tl : length tl = length labels -> (forall x, In x tl -> (x < K)%nat) ->
  counts_all K labels (tally K labels tl).
Proof.
  intros L Ht. unfold counts_all. split; [apply tab_length|]. split.
  - intros r Hr. apply in_tab in Hr as (i & _ & ->). apply tab_length.
  - split.
    + intros i j Hi Hj. rewrite tally_get by auto. lia.
    + intros i Hi. unfold given_total. rewrite <- (n_pair_row K i labels tl L Ht), Qnat_nsum, map_tab.
      apply qsum_tab_ext. intros j Hj. rewrite tally_get by auto. reflexivity.
Qed.

Lemma C131_counts_full : forall srt K labels tl pp, argsort_ok srt -> dataset K labels pp -> two_classes labels ->
  ideal K labels tl pp ->
  (exists cj idx, compute_confident_joint srt labels pp K None false = Ok (cj, idx) /\
    StronglySorted lt idx /\ (forall e, In e idx <-> wrong labels tl e) /\
    forall i j, (i < K)%nat -> (j < K)%nat ->
      zget cj i j = if Nat.eqb i j then Z.max 1 (Z.of_nat (n_pair i j labels tl)) else Z.of_nat (n_pair i j labels tl)) /\
  (correct_at_least 1 labels tl ->
    (exists idx, compute_confident_joint srt labels pp K None true = Ok (tally K labels tl, idx) /\
       StronglySorted lt idx /\ (forall e, In e idx <-> wrong labels tl e)) /\
    exists J, estimate_joint srt labels pp K None = Ok J /\ length J = K /\ (forall r, In r J -> length r = K) /\
      forall i j, (i < K)%nat -> (j < K)%nat -> mget J i j == Qnat (n_pair i j labels tl) / Qnat (length labels)).
Proof.
  intros srt K labels tl pp Hs D H2 ID. split; [apply uncal_cells; auto|]. intro C1.
  pose proof (cal_exact srt K labels tl pp Hs D H2 ID C1) as G. split; auto. destruct G as (idx & E & _).
  destruct (estimate_joint_gen srt K labels pp None Hs D) as (J & EJ & LJ & RJ & _); [discriminate|].
  exists J. split; auto. split; auto. split; auto. intros i j Hi Hj.
  unfold estimate_joint in EJ. rewrite E in EJ. cbn [rbind fst] in EJ. injection EJ as <-.
  set (m := zmat_to_q (tally K labels tl)).
  assert (Lm : length m = K) by (unfold m, zmat_to_q, tally; rewrite map_length; apply tab_length).
  destruct (tally_ok K labels tl (id_len _ _ _ _ ID) (tl_lt K labels tl pp D ID)) as (_ & _ & _ & GT).
  assert (Lrow : forall i, (i < K)%nat -> nth i m [] = tab K (fun j => inject_Z (Z.of_nat (n_pair i j labels tl)))).
  { intros i' Hi'. unfold m. rewrite zmat_row. unfold tally. rewrite nth_tab by auto. apply map_tab. }
  assert (Ht : qsum (map qsum m) == Qnat (length labels)).
  { rewrite qsum_as_tab, map_length, Lm. rewrite <- (nsum_labelled K labels (ds_lab _ _ _ D)), Qnat_nsum, map_tab.
    apply qsum_tab_ext. intros i' Hi'. rewrite (nth_map_gen qsum m i' 0 []) by lia. rewrite Lrow, <- GT by auto.
    unfold given_total. apply qsum_tab_ext. intros j' Hj'. rewrite tally_get by auto. reflexivity. }
  assert (HN : 1 <= Qnat (length labels)).
  { change 1 with (Qnat 1). apply Qnat_le. destruct labels; [destruct (ds_ne _ _ _ D); auto|simpl; lia]. }
  assert (Htot : clip_lo TINY_VALUE (qsum (map qsum m)) == Qnat (length labels)).
  { rewrite clip_lo_id; auto. rewrite Ht. pose proof TINY_le_1. lra. }
  unfold mget. rewrite (nth_map_gen _ m i [] []) by lia. rewrite Lrow by auto.
  rewrite (nth_map_gen _ _ j 0 0) by (rewrite tab_length; auto). rewrite nth_tab by auto. rewrite Htot. reflexivity.
Qed.

Lemma C131_noise_full : forall srt K labels tl pp, argsort_ok srt -> dataset K labels pp -> two_classes labels ->
  ideal K labels tl pp -> correct_at_least 1 labels tl -> moderate_noise K (length labels) (tally K labels tl) ->
  forall conv m, exists py N I,
    estimate_from_probabilities srt labels pp None conv m true = Ok (py, N, I, tally K labels tl) /\
    proportions K (length labels) (tally K labels tl) py N I.
Proof.
  intros srt K labels tl pp Hs D H2 ID C1 M conv m.
  destruct (cal_exact srt K labels tl pp Hs D H2 ID C1) as (idx & E & _).
  destruct (latent_exact K labels (tally K labels tl) m conv (ds_ne _ _ _ D) (ds_lab _ _ _ D)
    (tally_ok K labels tl (id_len _ _ _ _ ID) (tl_lt K labels tl pp D ID)) M) as (py & N & I & EL & P).
  exists py, N, I. split; auto. unfold estimate_from_probabilities.
  assert (length (nth 0 pp []) = K) as ->.
  { apply (ds_row _ _ _ D), nth_In. rewrite <- (ds_len _ _ _ D). destruct labels; [destruct (ds_ne _ _ _ D); auto|simpl; lia]. }
  rewrite E. cbn [rbind fst]. rewrite EL. reflexivity.
Qed.

(** ** predictions that depend on the true class only *)
Lemma own_probs_in k labels : forall pp x, In x (own_probs k labels pp) ->
  exists e, (e < length labels)%nat /\ label_of labels e = k /\ x = prob_of pp e k.
Proof.
  induction labels as [|l ls IH]; intros [|r rs] x H; cbn in H; try tauto.
  destruct (Nat.eqb_spec l k) as [El|El].
  - destruct H as [<-|H].
    + exists 0%nat. cbn. split; [lia|]. auto.
    + destruct (IH _ _ H) as (e & A & B & C). exists (S e). cbn. split; [lia|]. auto.
  - destruct (IH _ _ H) as (e & A & B & C). exists (S e). cbn. split; [lia|]. auto.
Qed.

Lemma C131_conditional_full : forall K labels tl pp N, dataset K labels pp -> length tl = length labels ->
  (forall x, In x tl -> In x labels) ->
  class_conditional K tl pp N -> diagonal_dominates K N -> ideal K labels tl pp.
Proof.
  intros K labels tl pp N D L Hin CC DD.
  assert (T : forall e, (e < length labels)%nat -> In (nth e tl 0%nat) labels) by (intros; apply Hin, nth_In; lia).
  assert (T' : forall e, (e < length labels)%nat -> (nth e tl 0%nat < K)%nat) by (intros; apply (ds_lab _ _ _ D); auto).
  split; auto.
  - intros e k He Hk Hne. pose proof (CC e k ltac:(lia) Hk) as C1. pose proof (CC e (nth e tl 0%nat) ltac:(lia) (T' e He)) as C2.
    destruct (DD (nth e tl 0%nat) k (T' e He) Hk Hne) as [B _]. rewrite C1, C2. exact B.
  - intros e a He Ha. pose proof (CC e (nth e tl 0%nat) ltac:(lia) (T' e He)) as C2. rewrite C2.
    destruct (average_bounds _ a 0 (N (nth e tl 0%nat) (nth e tl 0%nat)) Ha) as [_ B]; [|lra].
    intros x Hx. apply own_probs_in in Hx as (e' & He' & _ & ->). split.
    + apply (prob_nonneg K labels pp D); auto.
    + pose proof (CC e' (nth e tl 0%nat) ltac:(lia) (T' e He)) as C3. rewrite C3.
      destruct (Nat.eq_dec (nth e' tl 0%nat) (nth e tl 0%nat)) as [E|E]; [rewrite E; lra|].
      apply (DD (nth e tl 0%nat) (nth e' tl 0%nat)); auto.
Qed.

(** ** the plan of the prune filters *)
Lemma plan_exact srt labels K counts o pcm : num_to_remove_per_class o = None -> frac_noise o == 1 ->
  length counts = K -> (forall r, In r counts -> length r = K) ->
  (forall i j, (i < K)%nat -> (j < K)%nat -> (0 <= zget counts i j)%Z) ->
  prune_counts srt labels K (zmat_to_q counts) o = Ok pcm ->
  forall k j, (k < K)%nat -> (j < K)%nat -> (Z.of_nat (min_examples_per_class o) <= zget counts k k)%Z ->
    zget pcm j k = zget counts k j.
Proof.
  intros Hn Hf L LR H0 Hp k j Hk Hj Hm. unfold prune_counts in Hp.
  destruct (value_counts labels K) as [vc|]; cbn [rbind] in Hp; [|discriminate]. rewrite Hn in Hp.
  unfold keep_at_least_n_per_class in Hp. cbv zeta in Hp. rewrite round_preserving_row_totals_Z in Hp. cbn [rbind] in Hp.
  injection Hp as <-.
  set (M := transpose K (zmat_to_q counts)). assert (LM : length M = K) by apply tab_length. rewrite LM.
  set (nd := tab K (fun k => qmax (mget M k k) (Qnat (min_examples_per_class o)))).
  assert (EM : forall a b, (a < K)%nat -> (b < K)%nat -> mget M a b == inject_Z (zget counts b a)).
  { intros a b Ha Hb. unfold M, transpose, mget. rewrite nth_tab by auto. unfold col.
    rewrite (nth_map_gen _ (zmat_to_q counts) b 0 []) by (unfold zmat_to_q; rewrite map_length; lia).
    change (nth a (nth b (zmat_to_q counts) []) 0) with (mget (zmat_to_q counts) b a). rewrite zmat_get. reflexivity. }
  assert (End : nth k nd 0 == mget M k k).
  { unfold nd. rewrite nth_tab by auto. destruct (qmax_spec (mget M k k) (Qnat (min_examples_per_class o))) as [[A ->]|[A ->]]; [|reflexivity].
    assert (Qnat (min_examples_per_class o) <= mget M k k); [|lra]. rewrite EM by auto. unfold Qnat. rewrite <- Zle_Qle. auto. }
  match goal with |- context [reduce_prune_counts ?x _] => set (nm := x) end.
  assert (Lnm : length nm = K) by apply tab_length.
  assert (Enm : forall a, (a < K)%nat -> mget nm a k == inject_Z (zget counts k a)).
  { intros a Ha. unfold nm. rewrite mget_tab by auto. destruct (Nat.eqb_spec a k) as [->|Hne].
    - rewrite End. apply EM; auto.
    - rewrite (nth_tab K (fun k0 => nth k0 nd 0 - mget M k0 k0)) by auto.
      set (w := nth k (tab K (fun k0 => qmax _ 1)) 0).
      assert (Ew : (nth k nd 0 - mget M k k) / w == 0) by (rewrite End; unfold Qdiv; ring).
      assert (Hz : 0 <= inject_Z (zget counts k a)) by (change 0 with (inject_Z 0); rewrite <- Zle_Qle; apply H0; auto).
      pose proof (EM a k Ha Hk) as E2.
      destruct (Qltb (mget M a k - (nth k nd 0 - mget M k k) / w) 0) eqn:El; qb; lra. }
  unfold reduce_prune_counts. rewrite Lnm.
  rewrite zmap_get by (rewrite ?nth_tab, ?tab_length by auto; rewrite ?tab_length; auto).
  rewrite mget_tab by auto.
  assert (TR : forall q z, q == inject_Z z -> truncate q = z).
  { intros q z E. rewrite <- (truncate_Z z). unfold truncate.
    assert (Qle_bool 0 q = Qle_bool 0 (inject_Z z)) as -> by (rewrite E; reflexivity).
    destruct (Qle_bool 0 (inject_Z z)); rewrite E; reflexivity. }
  apply TR. destruct (Nat.eqb_spec j k) as [->|Hne].
  - rewrite Enm by auto. rewrite qsum_zero; [ring|]. intros x Hx. apply in_tab in Hx as (r & Hr & ->).
    rewrite mget_tab by auto. destruct (Nat.eqb r k); [ring|]. rewrite Hf. ring.
  - rewrite mget_tab by auto. destruct (Nat.eqb_spec j k); [congruence|]. rewrite Hf, Enm by auto. ring.
Qed.

(** ** picking as many as there are *)
Lemma same_set (A P : list nat) : NoDup A -> NoDup P -> length A = length P ->
  (forall e e', In e P -> ~ In e A -> In e' A -> ~ In e' P -> False) -> forall x, In x A <-> In x P.
Proof.
  intros NA NP L H.
  assert (IP : incl P A).
  { intros e He. destruct (in_dec Nat.eq_dec e A) as [|Hn]; auto. exfalso.
    assert (incl A P) as IA.
    { intros e' He'. destruct (in_dec Nat.eq_dec e' P) as [|Hn']; auto. exfalso. eapply H; eauto. }
    apply Hn. apply (NoDup_length_incl NA (l' := P)); auto. lia. }
  assert (IA : incl A P) by (apply NoDup_length_incl; auto; lia).
  intro x. split; auto.
Qed.
Lemma holds_same n (P P' : nat -> Prop) c : holds_for n P c -> holds_for n P' c ->
  (forall e e', (e < n)%nat -> (e' < n)%nat -> P' e -> ~ P e -> P e' -> ~ P' e' -> False) ->
  forall e, (e < n)%nat -> (P e <-> P' e).
Proof.
  intros (A & NA & LA & HA) (B & NB & LB & HB) H e He.
  assert (S : forall x, In x A <-> In x B).
  { apply same_set; auto; [congruence|]. intros x y Hx Hx' Hy Hy'. apply HB in Hx as [? ?]. apply HA in Hy as [? ?].
    apply (H x y); auto; intro X; [apply Hx'; apply HA|apply Hy'; apply HB]; auto. }
  specialize (S e). rewrite HA, HB in S. tauto.
Qed.

Lemma n_flagged_holds k labels : forall M, length M = length labels ->
  holds_for (length labels) (fun e => label_of labels e = k /\ flagged M e) (n_flagged k labels M).
Proof.
  induction labels as [|l ls IH]; intros [|b bs] H; cbn in H; try discriminate.
  - apply (holds_for_S 0 _).
  - injection H as H. specialize (IH bs H).
    pose (P := fun e => label_of (l :: ls) e = k /\ flagged (b :: bs) e).
    destruct (holds_for_S (length ls) P) as [_ HS]. specialize (HS _ IH) as [H1 H0].
    cbn [n_flagged length]. change (holds_for (S (length ls)) P ((if Nat.eqb l k then if b then 1 else 0 else 0) + n_flagged k ls bs)).
    destruct (Nat.eqb_spec l k) as [El|El]; [destruct b|]; cbn [Nat.add].
    + apply H1. split; [exact El|reflexivity].
    + apply H0. intros [_ X]. cbv in X. discriminate.
    + apply H0. intros [X _]. cbn in X. congruence.
Qed.
Lemma n_off_holds k labels : forall tl, length tl = length labels ->
  exists a, (a + n_pair k k labels tl = n_labelled k labels)%nat /\
    holds_for (length labels) (fun e => label_of labels e = k /\ nth e tl 0%nat <> k) a.
Proof.
  induction labels as [|l ls IH]; intros [|t ts] H; cbn in H; try discriminate.
  - exists 0%nat. split; [reflexivity|]. apply (holds_for_S 0 _).
  - injection H as H. destruct (IH ts H) as (a & Ea & Ha).
    pose (P := fun e => label_of (l :: ls) e = k /\ nth e (t :: ts) 0%nat <> k).
    destruct (holds_for_S (length ls) P) as [_ HS]. specialize (HS _ Ha) as [H1 H0].
    cbn [n_pair n_labelled length]. fold P.
    destruct (Nat.eqb_spec l k) as [El|El]; [destruct (Nat.eqb_spec t k) as [Et|Et]|].
    + exists a. split; [lia|]. apply H0. intros [_ X]. cbn in X. congruence.
    + exists (S a). split; [lia|]. apply H1. split; auto.
    + exists a. split; [lia|]. apply H0. intros [X _]. cbn in X. congruence.
Qed.
Lemma n_pair_pos e labels tl : length tl = length labels -> (e < length labels)%nat ->
  (0 < n_pair (label_of labels e) (nth e tl 0%nat) labels tl)%nat.
Proof.
  intros L He. destruct (n_pair_holds (label_of labels e) (nth e tl 0%nat) labels tl L) as (l & Nl & <- & Hl).
  assert (In e l) as I by (apply Hl; auto). destruct l; [destruct I|cbn; lia].
Qed.
Lemma n_pair_le i j labels : forall tl, (n_pair i j labels tl <= n_labelled i labels)%nat.
Proof.
  induction labels as [|l ls IH]; intros [|t ts]; cbn [n_pair n_labelled]; try lia.
  specialize (IH ts). destruct (Nat.eqb l i), (Nat.eqb t j); lia.
Qed.

Section Prune.
Variables (srt : list Q -> list nat) (K : nat) (labels tl : list nat) (pp : list (list Q)) (o : options).
Hypothesis Hs : argsort_ok srt.
Hypothesis D : dataset K labels pp.
Hypothesis H2 : two_classes labels.
Hypothesis ID : ideal K labels tl pp.
Hypothesis Hn : num_to_remove_per_class o = None.
Hypothesis Hf : frac_noise o == 1.
Hypothesis Hc : confident_joint o = None.
Hypothesis C1 : correct_at_least (Nat.max 1 (min_examples_per_class o)) labels tl.
Let L := id_len _ _ _ _ ID.

Lemma at_least_1 : correct_at_least 1 labels tl.
Proof. intros k Hk. specialize (C1 k Hk). lia. Qed.
Lemma plan_tally cj pcm :
  (confident_joint o = None -> exists counts idx,
     compute_confident_joint srt labels pp K None true = Ok (counts, idx) /\ cj = zmat_to_q counts) ->
  prune_counts srt labels K cj o = Ok pcm ->
  forall k j, (k < K)%nat -> (j < K)%nat -> In k labels -> zget pcm j k = Z.of_nat (n_pair k j labels tl).
Proof.
  intros Hcn Hp k j Hk Hj Hin. destruct (Hcn Hc) as (counts & idx & E & ->).
  destruct (cal_exact srt K labels tl pp Hs D H2 ID at_least_1) as (idx' & E' & _).
  assert (counts = tally K labels tl) by congruence. subst counts.
  destruct (tally_ok K labels tl L (tl_lt K labels tl pp D ID)) as (T1 & T2 & T3 & _).
  rewrite (plan_exact srt labels K (tally K labels tl) o pcm Hn Hf T1 T2 T3 Hp k j Hk Hj).
  - apply tally_get; auto.
  - rewrite tally_get by auto. specialize (C1 k Hin). lia.
Qed.
Lemma label_lt e : (e < length labels)%nat -> In (label_of labels e) labels /\ (label_of labels e < K)%nat.
Proof. intro He. assert (In (label_of labels e) labels) by (apply nth_In; auto). split; auto. apply (ds_lab _ _ _ D); auto. Qed.
Lemma no_wrong k : n_labelled k labels = n_pair k k labels tl ->
  forall e, (e < length labels)%nat -> label_of labels e = k -> nth e tl 0%nat = k.
Proof.
  intros E e He El. destruct (n_off_holds k labels tl L) as (a & Ea & (l & Nl & La & Hl)).
  assert (a = 0)%nat by lia. destruct (Nat.eq_dec (nth e tl 0%nat) k) as [|Hne]; auto. exfalso.
  assert (In e l) as I by (apply Hl; auto). destruct l; [destruct I|cbn in La; lia].
Qed.

Lemma by_class_exact m : wrong_less_sure_in_class labels tl pp ->
  find_label_issues srt labels pp K PruneByClass o = Ok m -> forall e, flagged m e <-> wrong labels tl e.
Proof.
  intros W Hm. pose proof (find_length _ _ _ _ _ _ _ (ds_len _ _ _ D) Hm) as Lm.
  destruct (C11_full srt K labels pp o m Hs D Hm) as (cj & pcm & mk & _ & Hcn & Hp & Lk & Hcnt & Hcnt1 & Hord & Hfl).
  pose proof (plan_tally cj pcm Hcn Hp) as PT.
  assert (G : forall e, (e < length labels)%nat -> (flagged mk e <-> label_of labels e <> nth e tl 0%nat)).
  { intros e He. destruct (label_lt e He) as [Hin Hk]. remember (label_of labels e) as k eqn:Ek.
    pose proof (C1 k Hin) as Ck. pose proof (n_pair_le k k labels tl) as Hle.
    destruct (n_off_holds k labels tl L) as (a & Ea & Ha).
    assert (Ec : n_flagged k labels mk = a).
    { destruct (le_lt_dec 2 (n_labelled k labels)) as [H|H].
      - rewrite Hcnt by auto. rewrite PT by auto. destruct (Nat.leb_spec (n_labelled k labels) (min_examples_per_class o)); lia.
      - rewrite Hcnt1 by auto. lia. }
    pose proof (n_flagged_holds k labels mk Lk) as Hk'. rewrite Ec in Hk'.
    pose proof (holds_same _ _ _ _ Hk' Ha) as S. cbn beta in S.
    assert (S' : label_of labels e = k /\ flagged mk e <-> label_of labels e = k /\ nth e tl 0%nat <> k).
    { apply S; auto. intros x y Hx Hy [X1 X2] X3 [Y1 Y2] Y3.
      assert (wrong labels tl x) as Wx by (split; auto; congruence).
      assert (~ wrong labels tl y) as Wy.
      { intros [_ B]. apply Y3. split; auto. congruence. }
      pose proof (W x y Wx Hy Wy ltac:(congruence)) as A.
      pose proof (Hord y x Hy Hx ltac:(congruence) Y2) as B. rewrite Y1, X1 in *.
      specialize (B ltac:(intro; apply X3; auto)). lra. }
    rewrite <- Ek in S'. split; intro H; [intro X; apply S'; [auto|congruence]|].
    apply S'. split; auto. }
  intro e. unfold wrong. split.
  - intro H. assert (He : (e < length labels)%nat).
    { destruct (le_lt_dec (length labels) e); auto. exfalso. unfold flagged in H. rewrite nth_overflow in H by lia. discriminate. }
    split; auto. apply Hfl in H as [H _]; auto. apply G; auto.
  - intros [He Hw]. apply Hfl; auto. split; [apply G; auto|]. apply (beaten_wrong K labels tl pp D ID); auto.
Qed.

Lemma by_noise_exact m : margins_separate labels tl pp ->
  find_label_issues srt labels pp K PruneByNoiseRate o = Ok m -> forall e, flagged m e <-> wrong labels tl e.
Proof.
  intros W Hm. pose proof (find_length _ _ _ _ _ _ _ (ds_len _ _ _ D) Hm) as Lm.
  destruct (C12_full srt K labels pp o m Hs D Hm) as (cj & pcm & mk & _ & Hcn & Hp & Lk & Hsmall & Hbig & Hfl).
  pose proof (plan_tally cj pcm Hcn Hp) as PT.
  assert (G : forall e, (e < length labels)%nat -> (flagged mk e <-> label_of labels e <> nth e tl 0%nat)).
  { intros e He. destruct (label_lt e He) as [Hin Hk]. remember (label_of labels e) as k eqn:Ek.
    pose proof (C1 k Hin) as Ck. pose proof (n_pair_le k k labels tl) as Hle.
    destruct (le_lt_dec (n_labelled k labels) (Nat.max 1 (min_examples_per_class o))) as [Hsm|Hbg].
    - specialize (Hsmall k Hk Hsm). pose proof (n_flagged_holds k labels mk Lk) as (l & Nl & Ll & Hl).
      rewrite Hsmall in Ll. destruct l; [|discriminate]. split.
      + intro H. exfalso. apply (Hl e). auto.
      + intro H. exfalso. apply H. symmetry. apply (no_wrong k); auto. lia.
    - destruct (Hbig k Hk Hbg) as [(T & HT & HF) _]. rewrite (HF e He (eq_sym Ek)).
      assert (TS : forall j, (j < K)%nat -> j <> k -> (0 < zget pcm j k)%Z ->
                forall x, In x (T j) <-> (x < length labels)%nat /\ label_of labels x = k /\ nth x tl 0%nat = j).
      { intros j Hj Hne Hpos. destruct (HT j Hj Hne Hpos) as (NT & LT & IT & OT). rewrite PT in * by auto.
        rewrite Nat2Z.id in LT. pose proof (n_pair_le k j labels tl) as Hle2. rewrite Nat.min_l in LT by auto.
        destruct (n_pair_holds k j labels tl L) as (P & NP & LP & HP).
        intro x. rewrite <- HP. apply same_set; auto; [congruence|].
        intros y z Hy Hy' Hz Hz'. apply HP in Hy as (Y1 & Y2 & Y3). destruct (IT z Hz) as [Z1 Z2].
        pose proof (OT z y Hz Y1 Y2 Hy') as O.
        assert (wrong labels tl y) as Wy by (split; auto; congruence).
        pose proof (W y z Wy Z1 ltac:(congruence)) as A. rewrite Y2, Y3 in A.
        specialize (A ltac:(intro X; apply Hz'; apply HP; auto)). cbn beta in O. lra. }
      split.
      + intros (j & Hj & Hne & Hpos & I). apply TS in I; auto. destruct I as (_ & _ & E). congruence.
      + intro H. exists (nth e tl 0%nat). pose proof (t_lt K labels tl pp D ID e He) as Ht.
        assert (Hpos : (0 < zget pcm (nth e tl 0%nat) k)%Z).
        { rewrite PT by auto. pose proof (n_pair_pos e labels tl L He). rewrite <- Ek in *. lia. }
        repeat split; auto. apply TS; auto. }
  intro e. unfold wrong. split.
  - intro H. assert (He : (e < length labels)%nat).
    { destruct (le_lt_dec (length labels) e); auto. exfalso. unfold flagged in H. rewrite nth_overflow in H by lia. discriminate. }
    split; auto. apply Hfl in H as [H _]; auto. apply G; auto.
  - intros [He Hw]. apply Hfl; auto. split; [apply G; auto|]. apply (beaten_wrong K labels tl pp D ID); auto.
Qed.
End Prune.

Lemma C131_prune_full : forall srt K labels tl pp o m, argsort_ok srt -> dataset K labels pp -> two_classes labels ->
  ideal K labels tl pp -> num_to_remove_per_class o = None -> frac_noise o == 1 -> confident_joint o = None ->
  correct_at_least (Nat.max 1 (min_examples_per_class o)) labels tl ->
  (wrong_less_sure_in_class labels tl pp ->
     find_label_issues srt labels pp K PruneByClass o = Ok m -> forall e, flagged m e <-> wrong labels tl e) /\
  (margins_separate labels tl pp ->
     find_label_issues srt labels pp K PruneByNoiseRate o = Ok m -> forall e, flagged m e <-> wrong labels tl e) /\
  (wrong_less_sure_in_class labels tl pp -> margins_separate labels tl pp ->
     find_label_issues srt labels pp K Both o = Ok m -> forall e, flagged m e <-> wrong labels tl e).
Proof.
  intros srt K labels tl pp o m Hs D H2 ID Hn Hf Hc C1. split; [|split].
  - intros W. eapply by_class_exact; eauto.
  - intros W. eapply by_noise_exact; eauto.
  - intros W1 W2 Hm. apply find_both_spec in Hm as (mc & mn & E1 & E2 & _ & F); [|apply (ds_len _ _ _ D)].
    intro e. rewrite F. rewrite (by_class_exact srt K labels tl pp o Hs D H2 ID Hn Hf Hc C1 mc W1 E1).
    rewrite (by_noise_exact srt K labels tl pp o Hs D H2 ID Hn Hf Hc C1 mn W2 E2). tauto.
Qed.

(** ** the low-score filters *)
Lemma low_exact srt K labels tl pp o m scores flt : argsort_ok srt -> dataset K labels pp -> two_classes labels ->
  ideal K labels tl pp -> num_to_remove_per_class o = None -> (1 <= n_jobs o)%nat ->
  flt = LowSelfConfidence \/ flt = LowNormalizedMargin ->
  find_label_issues srt labels pp K flt o = Ok m ->
  get_label_quality_scores labels pp K
      (match flt with LowSelfConfidence => SelfConfidence | _ => NormalizedMargin end) false = Ok scores ->
  (forall e e', wrong labels tl e -> (e' < length labels)%nat -> ~ wrong labels tl e' -> nth e scores 0 < nth e' scores 0) ->
  forall e, flagged m e <-> wrong labels tl e.
Proof.
  intros Hs D H2 ID Hn Hj Hflt Hm Hsc W.
  destruct (C14_full srt labels pp K flt o Hs D H2 Hn Hj Hflt) as (m' & sc & N & Em & Esc & EN & Lm & Cm & Ord).
  assert (m' = m) by congruence. assert (sc = scores) by congruence. subst m' sc.
  destruct (C131_issues_full srt K labels tl pp o Hs D H2 ID Hn Hj) as [EN' _].
  assert (N = n_wrong labels tl) by congruence. subst N.
  assert (FL : forall e, flagged m e -> (e < length labels)%nat).
  { intros e Hx. destruct (le_lt_dec (length labels) e); auto. exfalso. unfold flagged in Hx. rewrite nth_overflow in Hx by lia. discriminate. }
  assert (HA : holds_for (length labels) (fun e => flagged m e) (n_wrong labels tl)).
  { exists (where_ m). split; [apply where_NoDup|]. split; [rewrite where_length; congruence|]. intro i. rewrite in_where.
    split; [intro Hx; split; [apply FL|]; exact Hx|tauto]. }
  pose proof (n_wrong_holds labels tl (id_len _ _ _ _ ID)) as HB.
  pose proof (holds_same _ _ _ _ HA HB) as S. cbn beta in S.
  assert (S' : forall e, (e < length labels)%nat -> (flagged m e <-> label_of labels e <> nth e tl 0%nat)).
  { intros e He. apply S; auto. intros x y Hx Hy X1 X2 Y1 Y2.
    pose proof (Ord y x Hx Y1 X2). pose proof (W x y (conj Hx X1) Hy ltac:(intros [_ Z]; auto)). lra. }
  intro e. unfold wrong. split.
  - intro Hx. pose proof (FL e Hx) as He. split; auto. apply S'; auto.
  - intros [He Hw]. apply S'; auto.
Qed.

Lemma two_K K labels pp : dataset K labels pp -> two_classes labels -> (2 <= K)%nat.
Proof.
  intros D (a & b & Ha & Hb & Hne). apply (ds_lab _ _ _ D) in Ha, Hb. lia.
Qed.

Lemma C131_scores_full : forall K labels tl pp, dataset K labels pp -> two_classes labels -> ideal K labels tl pp ->
  exists s, get_label_quality_scores labels pp K NormalizedMargin false = Ok s /\ length s = length labels /\
    forall e, (e < length labels)%nat -> (nth e s 0 < 1 # 2 <-> wrong labels tl e).
Proof.
  intros K labels tl pp D H2 ID.
  destruct (C15_scores_full K labels pp NormalizedMargin D (two_K _ _ _ D H2)) as (s & Es & Ls & Hsc).
  exists s. split; auto. split; auto. intros e He. destruct (Hsc e He) as (_ & _ & b & _ & _ & Hw).
  pose proof (t_lt K labels tl pp D ID e He) as Ht. pose proof (row_len K labels pp D e He) as RL.
  destruct (label_lt K labels pp D e He) as [_ Hl].
  assert (Hiff : label_wins (row_of pp e) (label_of labels e) <-> label_of labels e = nth e tl 0%nat).
  { unfold label_wins. split.
    - intro Hx. destruct (Nat.eq_dec (label_of labels e) (nth e tl 0%nat)) as [|Hne]; auto. exfalso.
      pose proof (id_lead _ _ _ _ ID e _ He Hl Hne) as A.
      specialize (Hx (nth e tl 0%nat) ltac:(rewrite RL; auto)). unfold prob_of, row_of in *. lra.
    - intros E j Hj. rewrite E. rewrite RL in Hj. destruct (Nat.eq_dec j (nth e tl 0%nat)) as [->|Hne]; [lra|].
      pose proof (id_lead _ _ _ _ ID e j He Hj Hne) as A. unfold prob_of, row_of in *. lra. }
  rewrite Hiff in Hw. unfold wrong. split.
  - intro Hx. split; auto. intro E. apply Hw in E. lra.
  - intros [_ Hx]. destruct (Qlt_le_dec (nth e s 0) (1 # 2)) as [|G]; auto. exfalso. apply Hx, Hw. auto.
Qed.

Lemma C131_every_full : forall srt K labels tl pp o flt m, argsort_ok srt -> dataset K labels pp -> two_classes labels ->
  ideal K labels tl pp -> wrong_less_sure labels tl pp -> margins_separate labels tl pp ->
  num_to_remove_per_class o = None -> frac_noise o == 1 -> confident_joint o = None ->
  correct_at_least (Nat.max 1 (min_examples_per_class o)) labels tl ->
  find_label_issues srt labels pp K flt o = Ok m -> forall e, flagged m e <-> wrong labels tl e.
Proof.
  intros srt K labels tl pp o flt m Hs D H2 ID W1 W2 Hn Hf Hc C1 Hm.
  assert (Hj : (1 <= n_jobs o)%nat).
  { unfold find_label_issues in Hm. destruct (assert_valid_inputs _ _ _ _); cbn [rbind] in Hm; [|discriminate].
    destruct (_ && _)%bool; [discriminate|]. destruct (Nat.ltb_spec (n_jobs o) 1); [discriminate|auto]. }
  assert (W1' : wrong_less_sure_in_class labels tl pp) by (intros e e' A B C _; apply W1; auto).
  destruct (C131_prune_full srt K labels tl pp o m Hs D H2 ID Hn Hf Hc C1) as (P1 & P2 & P3).
  destruct (C131_issues_full srt K labels tl pp o Hs D H2 ID Hn Hj) as [_ CL].
  assert (X : forall flt', flt' = ConfidentLearning \/ flt' = PredictedNeqGiven -> find_label_issues srt labels pp K flt' o = Ok m ->
            forall e, flagged m e <-> wrong labels tl e).
  { intros flt' Hflt Hm'. destruct (CL flt' Hflt) as (m' & Em & _ & F). assert (m' = m) by congruence. subst. auto. }
  destruct flt.
  - destruct (C131_scores_full K labels tl pp D H2 ID) as (s & Es & Ls & Hsc).
    apply (low_exact srt K labels tl pp o m s LowNormalizedMargin); auto.
    intros e e' We He' We'. pose proof (proj2 (Hsc e (proj1 We)) We). 
    destruct (Qlt_le_dec (nth e' s 0) (1 # 2)) as [G|G]; [exfalso; apply We', Hsc; auto|lra].
  - destruct (C15_scores_full K labels pp SelfConfidence D (two_K _ _ _ D H2)) as (s & Es & Ls & Hsc).
    apply (low_exact srt K labels tl pp o m s LowSelfConfidence); auto.
    intros e e' We He' We'. destruct (Hsc e (proj1 We)) as (_ & _ & ->). destruct (Hsc e' He') as (_ & _ & ->). apply W1; auto.
  - apply P2; auto.
  - apply P1; auto.
  - apply P3; auto.
  - apply (X ConfidentLearning); auto.
  - apply (X PredictedNeqGiven); auto.
Qed.

Lemma C131_margin_full : forall srt K labels tl pp o m, argsort_ok srt -> dataset K labels pp -> two_classes labels ->
  ideal K labels tl pp -> num_to_remove_per_class o = None ->
  find_label_issues srt labels pp K LowNormalizedMargin o = Ok m -> forall e, flagged m e <-> wrong labels tl e.
Proof.
  intros srt K labels tl pp o m Hs D H2 ID Hn Hm.
  assert (Hj : (1 <= n_jobs o)%nat).
  { unfold find_label_issues in Hm. destruct (assert_valid_inputs _ _ _ _); cbn [rbind] in Hm; [|discriminate].
    destruct (_ && _)%bool; [discriminate|]. destruct (Nat.ltb_spec (n_jobs o) 1); [discriminate|auto]. }
  destruct (C131_scores_full K labels tl pp D H2 ID) as (s & Es & Ls & Hsc).
  apply (low_exact srt K labels tl pp o m s LowNormalizedMargin); auto.
  intros e e' We He' We'. pose proof (proj2 (Hsc e (proj1 We)) We). 
  destruct (Qlt_le_dec (nth e' s 0) (1 # 2)) as [G|G]; [exfalso; apply We', Hsc; auto|lra].
Qed.

Lemma C131_uniform_full : forall K labels tl pp a b, dataset K labels pp -> length tl = length labels ->
  (forall x, In x tl -> In x labels) -> uniform_predictions K tl pp a b -> b + (1 # 1000000) < a ->
  ideal K labels tl pp /\ wrong_less_sure labels tl pp /\ margins_separate labels tl pp.
Proof.
  intros K labels tl pp a b D L Hin U Hab.
  assert (T' : forall e, (e < length labels)%nat -> (nth e tl 0%nat < K)%nat).
  { intros e He. apply (ds_lab _ _ _ D), Hin, nth_In. lia. }
  assert (LK : forall e, (e < length labels)%nat -> (label_of labels e < K)%nat) by (intros; apply (ds_lab _ _ _ D), nth_In; auto).
  assert (P : forall e k, (e < length labels)%nat -> (k < K)%nat ->
             (k = nth e tl 0%nat -> prob_of pp e k == a) /\ (k <> nth e tl 0%nat -> prob_of pp e k == b)).
  { intros e k He Hk. pose proof (U e k ltac:(lia) Hk) as E. cbn beta in E.
    destruct (Nat.eqb_spec k (nth e tl 0%nat)); split; intro; try congruence; auto. }
  split; [|split].
  - apply (C131_conditional_full K labels tl pp _ D L Hin U). intros j k Hj Hk Hne. rewrite Nat.eqb_refl.
    destruct (Nat.eqb_spec k j); [congruence|]. destruct (Nat.eqb_spec j k); [congruence|]. lra.
  - intros e e' [He Hw] He' Hr.
    assert (label_of labels e' = nth e' tl 0%nat) as E.
    { destruct (Nat.eq_dec (label_of labels e') (nth e' tl 0%nat)); auto. exfalso. apply Hr. split; auto. }
    rewrite (proj2 (P e _ He (LK e He)) Hw), (proj1 (P e' _ He' (LK e' He')) E). lra.
  - intros e e' [He Hw] He' El Hne.
    rewrite (proj1 (P e _ He (T' e He)) eq_refl), (proj2 (P e _ He (LK e He)) Hw).
    rewrite (proj2 (P e' _ He' (T' e He)) ltac:(congruence)).
    destruct (Nat.eq_dec (label_of labels e) (nth e' tl 0%nat)) as [E|E].
    + rewrite (proj1 (P e' _ He' (LK e He)) E). lra.
    + rewrite (proj2 (P e' _ He' (LK e He)) E). lra.
Qed.
