(** * Lemmas about predictions that agree less with the given labels *)
From Coq Require Import QArith Qabs List Sorted ZArith Bool Arith Lia Lqa.
From Verif Require Import Base BaseFacts ModelUtil ModelCount ModelRank ModelFilter SpecCount SpecFilter SpecRank SpecMonotone SpecTwice
  ProofUtil ProofCount ProofFilter ProofRank ProofIdeal ProofTwice ProofStable.
Import ListNotations.
Open Scope Q_scope.

Lemma most_likely_ex row : row <> [] -> exists j, most_likely row j.
Proof.
  induction row as [|x row IH]; [congruence|]. intros _. destruct row as [|y row].
  - exists 0%nat. split; [cbn; lia|]. split; intros i Hi; [|lia]. destruct i as [|i]; [apply Qle_refl|cbn in Hi; lia].
  - destruct IH as (j & Hj & H1 & H2); [congruence|]. remember (y :: row) as tail eqn:Et. clear Et. destruct (Qlt_le_dec x (nth j tail 0)) as [L|L].
    + exists (S j). split; [cbn in *; lia|]. split; intros [|i] Hi; cbn [nth].
      * lra.
      * apply H1. cbn in *; lia.
      * exact L.
      * apply H2. lia.
    + exists 0%nat. split; [cbn; lia|]. split; intros [|i] Hi; cbn [nth]; try lia; try apply Qle_refl.
      apply Qle_trans with (nth j tail 0); auto. apply H1. cbn in *; lia.
Qed.

(** the rule, without the case distinction of the confident joint *)
Lemma rule K labels pp e : dataset K labels pp ->
  flagged (cl_mask labels pp K) e <->
  (e < length labels)%nat /\ clearly_beaten labels pp e /\
  exists j, (j < K)%nat /\ j <> label_of labels e /\
    nth j (get_confident_thresholds labels pp K) 0 - (1 # 1000000) <= prob_of pp e j.
Proof.
  intros Hd. rewrite cl_flagged_iff by auto. set (thr := get_confident_thresholds labels pp K).
  assert (R : (e < length labels)%nat -> length (row_of pp e) = K).
  { intros He. apply Hd, nth_In. now rewrite <- (ds_len _ _ _ Hd). }
  split.
  - intros (He & (j & C & N) & B). split; [auto|]. split; [auto|]. specialize (R He).
    assert (X : exists i, i <> label_of labels e /\ reaches thr (row_of pp e) i).
    { destruct C as [(C & _)|((a & b & Nab & A & A') & _)]; [exists j; auto|].
      destruct (Nat.eq_dec a (label_of labels e)) as [->|Na]; [exists b|exists a]; split; auto. }
    destruct X as (i & Ni & Hi & Ti). exists i. rewrite R in Hi. auto.
  - intros (He & B & (j & Hj & N & T)). split; [auto|]. split; [|auto]. specialize (R He).
    assert (Rj : reaches thr (row_of pp e) j) by (split; [lia|exact T]).
    destruct (most_likely_ex (row_of pp e)) as (t & Ht).
    { intros E. rewrite E in R. cbn in R. lia. }
    assert (Nt : t <> label_of labels e).
    { intros ->. destruct B as (i & Hi & B). destruct Ht as (_ & Ht & _). specialize (Ht i Hi). unfold prob_of in B.
      fold (row_of pp e) in B. destruct B as [B|(_ & B)]; lra. }
    destruct (existsb (fun i => (negb (Nat.eqb i j) && Qle_bool (nth i thr 0 - (1 # 1000000)) (nth i (row_of pp e) 0))%bool) (seq 0 K)) eqn:E.
    + apply existsb_exists in E as (i & Hi & Ei). apply andb_true_iff in Ei as (E1 & E2). apply negb_true_iff, Nat.eqb_neq in E1.
      apply Qle_bool_iff in E2. apply in_seq in Hi. exists t. split; [|exact Nt]. right. split; [|exact Ht].
      exists i, j. split; [exact E1|]. split; [split; [lia|exact E2]|exact Rj].
    + exists j. split; [|exact N]. left. split; [exact Rj|]. intros i (Hi & Ti).
      destruct (Nat.eq_dec i j) as [|Nij]; [auto|]. exfalso. apply not_true_iff_false in E. apply E. apply existsb_exists. exists i.
      split; [apply in_seq; lia|]. apply andb_true_iff. split; [apply negb_true_iff, Nat.eqb_neq, Nij|apply Qle_bool_iff; exact Ti].
Qed.

Lemma own_less k : forall labels pp pp', length labels = length pp -> length labels = length pp' ->
  (forall e, (e < length labels)%nat -> label_of labels e = k -> prob_of pp' e k <= prob_of pp e k) ->
  length (own_probs k labels pp') = length (own_probs k labels pp) /\
  qsum (own_probs k labels pp') <= qsum (own_probs k labels pp).
Proof.
  induction labels as [|l ls IH]; intros [|r rs] [|r' rs'] H1 H2 H; simpl in H1, H2; try discriminate.
  - split; [reflexivity|apply Qle_refl].
  - destruct (IH rs rs') as (L & S); auto; [intros e He; apply (H (S e)); cbn; lia|]. cbn [own_probs].
    destruct (Nat.eqb_spec l k) as [->|]; [|auto]. cbn [length]. split; [congruence|]. unfold qsum in *. cbn [fold_right].
    specialize (H 0%nat ltac:(cbn; lia) eq_refl). unfold prob_of in H. cbn [nth] in H. lra.
Qed.
Lemma thr_less K labels pp pp' k : dataset K labels pp -> dataset K labels pp' -> less_agreement K labels pp pp' -> (k < K)%nat ->
  nth k (get_confident_thresholds labels pp' K) 0 <= nth k (get_confident_thresholds labels pp K) 0.
Proof.
  intros Hd Hd' H Hk.
  destruct (thresholds_spec labels pp K k (ds_len _ _ _ Hd) Hk) as (A1 & A2).
  destruct (thresholds_spec labels pp' K k (ds_len _ _ _ Hd') Hk) as (B1 & B2).
  destruct (in_dec Nat.eq_dec k labels) as [Hin|Hin].
  - destruct (A1 Hin) as (a & (Na & Ha) & ->). destruct (B1 Hin) as (b & (Nb & Hb) & ->).
    destruct (own_less k labels pp pp') as (L & S); [apply Hd|apply Hd'| |].
    { intros e He El. specialize (H e k He Hk). rewrite El, Nat.eqb_refl in H. exact H. }
    rewrite L in Hb. set (n := Qnat (length (own_probs k labels pp))) in *.
    assert (0 < n) by (apply Qnat_pos; destruct (own_probs k labels pp); cbn; [congruence|lia]).
    assert (b <= a) by (apply (Qmult_le_r _ _ n); auto; lra).
    unfold qmax. destruct (Qle_bool b _) eqn:E1, (Qle_bool a _) eqn:E2; rewrite ?Qle_bool_iff in *;
      repeat match goal with H : Qle_bool _ _ = false |- _ =>
         apply not_true_iff_false in H; rewrite Qle_bool_iff in H; apply Qnot_le_lt in H end; lra.
  - rewrite A2, B2 by auto. apply Qle_refl.
Qed.
Lemma beaten_less K labels pp pp' e : dataset K labels pp -> dataset K labels pp' -> less_agreement K labels pp pp' ->
  (e < length labels)%nat -> clearly_beaten labels pp e -> clearly_beaten labels pp' e.
Proof.
  intros Hd Hd' H He (j & Hj & B).
  rewrite (rowK K labels pp Hd e He) in Hj.
  assert (Hl : (label_of labels e < K)%nat) by (apply Hd, nth_In, He).
  assert (N : j <> label_of labels e) by (intros ->; destruct B as [B|(L & _)]; [lra|lia]).
  exists j. rewrite (rowK K labels pp' Hd' e He). split; [exact Hj|].
  pose proof (H e j He Hj) as P1. pose proof (H e _ He Hl) as P2. rewrite Nat.eqb_refl in P2.
  destruct (Nat.eqb_spec j (label_of labels e)); [congruence|].
  destruct B as [B|(L & B)]; [left; lra|].
  destruct (Qlt_le_dec (prob_of pp' e (label_of labels e) + (1 # 1000000)) (prob_of pp' e j)) as [X|X]; [left; exact X|right; split; [exact L|lra]].
Qed.

Lemma count_true_incl : forall m m', length m' = length m -> (forall e, flagged m e -> flagged m' e) -> (count_true m <= count_true m')%nat.
Proof.
  unfold count_true, flagged. induction m as [|b m IH]; intros [|b' m'] L H; try discriminate; [cbn; lia|].
  injection L as L. specialize (IH m' L (fun e => H (S e))). specialize (H 0%nat). cbn in H. destruct b, b'; cbn; try lia; specialize (H eq_refl); discriminate.
Qed.

Lemma C135_rule_full : forall srt K labels pp o, argsort_ok srt -> dataset K labels pp -> two_classes labels ->
  num_to_remove_per_class o = None -> (1 <= n_jobs o)%nat ->
  exists m, find_label_issues srt labels pp K ConfidentLearning o = Ok m /\ length m = length labels /\
    forall e, flagged m e <-> (e < length labels)%nat /\ clearly_beaten labels pp e /\
      exists j, (j < K)%nat /\ j <> label_of labels e /\
        nth j (get_confident_thresholds labels pp K) 0 - (1 # 1000000) <= prob_of pp e j.
Proof.
  intros srt K labels pp o Hs Hd H2 Hn Hj. exists (cl_mask labels pp K). split; [now apply find_cl_eq|]. split; [now apply cl_length|].
  intros e. now apply rule.
Qed.
Lemma C135_issues_full : forall srt K labels pp pp' o flt m m', argsort_ok srt -> dataset K labels pp -> dataset K labels pp' ->
  two_classes labels -> less_agreement K labels pp pp' -> flt = ConfidentLearning \/ flt = PredictedNeqGiven ->
  find_label_issues srt labels pp K flt o = Ok m -> find_label_issues srt labels pp' K flt o = Ok m' ->
  forall e, flagged m e -> flagged m' e.
Proof.
  intros srt K labels pp pp' o flt m m' Hs Hd Hd' H2 H Hf Hm Hm' e F.
  destruct (find_options _ _ _ _ _ _ _ Hm) as (Ho & Hj).
  assert (Hn : num_to_remove_per_class o = None) by (apply Ho; destruct Hf as [->| ->]; reflexivity).
  destruct Hf as [->| ->].
  - rewrite find_cl_eq in Hm, Hm' by auto. assert (m = cl_mask labels pp K) by congruence. assert (m' = cl_mask labels pp' K) by congruence.
    subst m m'. apply (proj1 (rule K labels pp e Hd)) in F as (He & B & (j & Hj' & N & T)). apply (proj2 (rule K labels pp' e Hd')). split; [exact He|].
    split; [exact (beaten_less K labels pp pp' e Hd Hd' H He B)|]. exists j. split; [auto|]. split; [auto|].
    pose proof (thr_less K labels pp pp' j Hd Hd' H Hj'). pose proof (H e j He Hj') as P.
    destruct (Nat.eqb_spec j (label_of labels e)); [congruence|]. lra.
  - destruct (C07_pneq_full srt K labels pp o Hs Hd H2 Hn Hj) as (m1 & E1 & _ & F1).
    destruct (C07_pneq_full srt K labels pp' o Hs Hd' H2 Hn Hj) as (m2 & E2 & _ & F2).
    assert (m1 = m) by congruence. assert (m2 = m') by congruence. subst. apply F1 in F as (He & B). apply F2. split; [auto|]. exact (beaten_less K labels pp pp' e Hd Hd' H He B).
Qed.
Lemma C135_count_full : forall srt K labels pp pp' n n', argsort_ok srt -> dataset K labels pp -> dataset K labels pp' ->
  two_classes labels -> less_agreement K labels pp pp' ->
  num_label_issues srt labels pp K = Ok n -> num_label_issues srt labels pp' K = Ok n' -> (n <= n')%nat.
Proof.
  intros srt K labels pp pp' n n' Hs Hd Hd' H2 H En En'. rewrite (num_label_issues_eq srt K) in En, En' by auto.
  assert (n = count_true (cl_mask labels pp K)) by congruence. assert (n' = count_true (cl_mask labels pp' K)) by congruence. subst.
  apply count_true_incl; [now rewrite !(cl_length K)|]. intros e F.
  set (o := {| frac_noise := 1; num_to_remove_per_class := None; min_examples_per_class := 1; confident_joint := None; n_jobs := 1; sched_c := []; sched_n := [] |}).
  refine (C135_issues_full srt K labels pp pp' o ConfidentLearning _ _ Hs Hd Hd' H2 H (or_introl eq_refl) _ _ e F); apply find_cl_eq; auto.
Qed.
Lemma C135_scores_full : forall K labels pp pp' method, (2 <= K)%nat -> dataset K labels pp -> dataset K labels pp' -> less_agreement K labels pp pp' ->
  method = SelfConfidence \/ method = NormalizedMargin ->
  exists s s', get_label_quality_scores labels pp K method false = Ok s /\
    get_label_quality_scores labels pp' K method false = Ok s' /\ length s = length labels /\ length s' = length labels /\
    forall e, (e < length labels)%nat -> nth e s' 0 <= nth e s 0.
Proof.
  intros K labels pp pp' method H2 Hd Hd' H Hm.
  destruct (C15_scores_full K labels pp method Hd H2) as (s & Es & Ls & Hs).
  destruct (C15_scores_full K labels pp' method Hd' H2) as (s' & Es' & Ls' & Hs').
  exists s, s'. do 4 (split; [assumption|]). intros e He. specialize (Hs e He). specialize (Hs' e He).
  assert (Hl : (label_of labels e < K)%nat) by (apply Hd, nth_In, He).
  pose proof (H e _ He Hl) as P. rewrite Nat.eqb_refl in P. destruct Hm as [->| ->].
  - destruct Hs as (_ & _ & ->), Hs' as (_ & _ & ->). exact P.
  - destruct Hs as (_ & _ & b & ((j & Hj & Nj & Ej) & Bj) & E & _), Hs' as (_ & _ & b' & ((j' & Hj' & Nj' & Ej') & Bj') & E' & _).
    pose proof (rowK K labels pp Hd e He) as R. pose proof (rowK K labels pp' Hd' e He) as R'.
    specialize (Bj' j ltac:(lia) Nj). pose proof (H e j He ltac:(lia)) as P1. destruct (Nat.eqb_spec j (label_of labels e)); [congruence|].
    unfold prob_of in *. fold (row_of pp e) (row_of pp' e) in *. rewrite E, E'. subst b b'.
    assert (X : forall u, (u + 1) / 2 == u * (1 # 2) + (1 # 2)) by (intros; field). rewrite !X. lra.
Qed.

(** relabelling: nobody is clearly beaten any more *)
Lemma C133_relabelled_full : forall srt K labels labels' pp o m, argsort_ok srt -> dataset K labels pp ->
  two_classes labels -> two_classes labels' -> length labels' = length labels ->
  find_label_issues srt labels pp K PredictedNeqGiven o = Ok m ->
  (forall e, flagged m e -> most_likely (row_of pp e) (label_of labels' e)) ->
  (forall e, (e < length labels)%nat -> ~ flagged m e -> label_of labels' e = label_of labels e) ->
  num_label_issues srt labels' pp K = Ok 0%nat /\
  forall flt o' m', find_label_issues srt labels' pp K flt o' = Ok m' -> forall e, ~ flagged m' e.
Proof.
  intros srt K labels labels' pp o m Hs Hd H2 H2' Hl Hm Hfix Hkeep.
  destruct (find_options _ _ _ _ _ _ _ Hm) as (Ho & Hj).
  destruct (C07_pneq_full srt K labels pp o Hs Hd H2 (Ho eq_refl) Hj) as (m0 & E & Lm & Hf).
  assert (m0 = m) by congruence. subst m0.
  assert (Hd' : dataset K labels' pp).
  { pose proof Hd as [D1 D2 D3 D4 D5]. split; auto; [congruence|destruct labels', labels; try discriminate; congruence|].
    intros l Hin. apply In_nth with (d := 0%nat) in Hin as (e & He & <-). rewrite Hl in He.
    assert (R : length (row_of pp e) = K) by (apply D4, nth_In; lia).
    destruct (nth e m false) eqn:F.
    - destruct (Hfix e F) as (X & _). rewrite R in X. exact X.
    - fold (label_of labels' e). rewrite Hkeep; [|lia|unfold flagged; congruence]. apply D3, nth_In. lia. }
  assert (Hnb : forall e, (e < length labels')%nat -> ~ clearly_beaten labels' pp e).
  { intros e He B. rewrite Hl in He. destruct (nth e m false) eqn:F.
    - destruct (Hfix e F) as (_ & X & _). destruct B as (j & Hj' & B). specialize (X j Hj'). unfold prob_of in B. fold (row_of pp e) in B.
      destruct B as [B|(_ & B)]; lra.
    - assert (NF : ~ flagged m e) by (unfold flagged; congruence). apply NF, Hf. split; [exact He|].
      unfold clearly_beaten in *. rewrite (Hkeep e He NF) in B. exact B. }
  assert (Hnone : forall e, ~ flagged (cl_mask labels' pp K) e).
  { intros e He. apply cl_flagged_iff in He as (He & _ & Hb); auto. eapply Hnb; eauto. }
  split.
  - apply (nothing srt K _ _ ConfidentLearning o m); auto.
  - intros flt o' m' Hm' e He. destruct (is_low flt) eqn:El.
    + eapply (nothing srt K _ _ flt o' m'); eauto. destruct flt; try discriminate; auto.
    + assert (HeL : (e < length labels')%nat).
      { rewrite <- (find_length srt _ _ K flt o' m' (ds_len _ _ _ Hd') Hm').
        apply Nat.nle_gt. intros C. unfold flagged in He. rewrite nth_overflow in He by exact C. discriminate. }
      destruct (find_marked srt _ _ K flt o' m' Hd' El Hm') as (r & _ & _ & _ & Hfm).
      apply Hfm in He; auto. destruct He as (_ & Hb). eapply Hnb; eauto.
Qed.
