(** * Proofs for C167 *)
From Coq Require Import QArith Qabs List Sorted ZArith Bool Arith Lia Lqa Setoid Morphisms.
From Verif Require Import Base BaseFacts ModelUtil ModelCount ModelFilter ModelIssueCount SpecCount SpecFilter SpecBatched
     SpecIssueCount SpecRescale SpecBatchFlags ProofUtil ProofCount ProofFilter ProofIdeal ProofApprox ProofNumbering5.
Import ListNotations.
Open Scope Q_scope.
Opaque TINY_VALUE.

Section Rescale.
  Context (K : nat) (labels : list nat) (pp pp' : list (list Q)) (a b : nat -> Q).
  Context (Hd : dataset K labels pp) (Hd' : dataset K labels pp').
  Context (Hf : own_prob_floor labels pp) (Hf' : own_prob_floor labels pp') (Hr : rescaled K a b pp pp').
  Let thr := get_confident_thresholds labels pp K.
  Let thr' := get_confident_thresholds labels pp' K.

  Lemma own_sum k : (k < K)%nat ->
    length (own_probs k labels pp') = length (own_probs k labels pp) /\
    qsum (own_probs k labels pp') == a k * qsum (own_probs k labels pp) + b k * Qnat (length (own_probs k labels pp)).
  Proof.
    intros Hk. destruct Hr as (Hlp & H). pose proof (ds_len _ _ _ Hd) as Hl.
    assert (G : forall e, (e < length pp)%nat -> nth k (nth e pp' []) 0 == a k * nth k (nth e pp []) 0 + b k) by (intros; apply H; auto).
    clear H. revert Hlp Hl G. generalize pp pp'. clear - k. induction labels as [|l ls IH]; intros p p' Hlp Hl G.
    - destruct p, p'; cbn [own_probs length qsum fold_right]; split; auto; unfold qsum; cbn; change (Qnat 0) with 0; ring.
    - destruct p as [|r p], p' as [|r' p']; try discriminate. cbn [own_probs].
      destruct (IH p p') as (A & B); [cbn in Hlp; lia|cbn in Hl; lia|intros e He; apply (G (S e)); cbn; lia|].
      destruct (Nat.eqb l k); [|split; auto]. cbn [length]. split; [lia|].
      assert (forall x l, qsum (x :: l) = x + qsum l) as Qc by reflexivity. rewrite !Qc, B, Qnat_S.
      specialize (G 0%nat ltac:(cbn; lia)). cbn [nth] in G. rewrite G. ring.
  Qed.

  Lemma thr_rescaled k : (k < K)%nat -> In k labels -> nth k thr' 0 == a k * nth k thr 0 + b k.
  Proof.
    intros Hk Hin. symmetry. apply (thr_average K labels pp' k Hd' Hf' Hk Hin).
    assert (C : class_threshold labels pp k (nth k thr 0)) by (apply (thr_average K labels pp k Hd Hf Hk Hin); reflexivity).
    destruct C as (U & _). destruct (U Hin) as (Hne & E). destruct (own_sum k Hk) as (L & S).
    split; [|tauto]. intros _. split.
    - destruct (own_probs k labels pp'); [destruct (own_probs k labels pp); [congruence|discriminate]|congruence].
    - rewrite L, S, <- E. ring.
  Qed.
  Lemma not_reached p k : dataset K labels p -> (k < K)%nat -> ~ In k labels -> forall e, (e < length labels)%nat ->
    ~ reaches (get_confident_thresholds labels p K) (row_of p e) k.
  Proof.
    intros D Hk Hin e He. apply (thresholds_full K labels p k D Hk); auto. apply nth_In. rewrite <- (ds_len _ _ _ D). auto.
  Qed.
  Lemma row_K p e : dataset K labels p -> (e < length labels)%nat -> length (row_of p e) = K.
  Proof. intros D He. apply (ds_row _ _ _ D), nth_In. rewrite <- (ds_len _ _ _ D). auto. Qed.

  Context (Hc : forall k, (k < K)%nat -> a k == 1 \/ (clear_threshold thr pp k /\ clear_threshold thr' pp' k)).

  Lemma reaches_iff e k : (e < length labels)%nat -> reaches thr' (row_of pp' e) k <-> reaches thr (row_of pp e) k.
  Proof.
    intros He. destruct (Nat.lt_ge_cases k K) as [Hk|Hk].
    2:{ unfold reaches. rewrite !row_K by auto. split; intros (A & _); lia. }
    destruct (in_dec Nat.eq_dec k labels) as [Hin|Hin].
    2:{ split; intros A; exfalso; revert A; apply not_reached; auto. }
    pose proof (thr_rescaled k Hk Hin) as T. pose proof (ds_len _ _ _ Hd) as Hl. pose proof (ds_len _ _ _ Hd') as Hl'.
    destruct Hr as (_ & H). destruct (H e k ltac:(lia) Hk) as (Pa & P). unfold prob_of in P.
    unfold reaches. rewrite !row_K by auto. unfold row_of.
    set (x := nth k (nth e pp []) 0) in *. set (x' := nth k (nth e pp' []) 0) in *.
    destruct (Hc k Hk) as [E|(C & C')].
    - rewrite T, P, E. split; intros (_ & A); split; auto; lra.
    - specialize (C e ltac:(lia)). specialize (C' e ltac:(lia)). unfold prob_of in C, C'. fold x in C. fold x' in C'.
      assert (Eq : x' - nth k thr' 0 == a k * (x - nth k thr 0)) by (rewrite P, T; ring).
      split; intros (_ & A); split; auto.
      + destruct C as [C|C]; [lra|]. destruct C' as [C'|C']; [|lra].
        assert (0 <= a k * (x - nth k thr 0)) by lra.
        assert (0 < a k * (nth k thr 0 - x)) by (apply Qmult_lt_0_compat; lra). lra.
      + destruct C' as [C'|C']; [lra|]. destruct C as [C|C]; [|lra].
        assert (0 <= a k * (x - nth k thr 0)) by (apply Qmult_le_0_compat; lra). lra.
  Qed.

  Context (H1 : one_confident thr pp).
  Lemma one_confident' : one_confident thr' pp'.
  Proof.
    intros e j j' He A B. pose proof (ds_len _ _ _ Hd) as Hl. pose proof (ds_len _ _ _ Hd') as Hl'.
    apply (H1 e); [lia| |]; apply reaches_iff; auto; lia.
  Qed.
  Lemma counted_one t p e j : one_confident t p -> (e < length p)%nat -> counted_as t (row_of p e) j <-> reaches t (row_of p e) j.
  Proof.
    intros O He. split.
    - intros [(A & _)|((x & y & Hxy & A & B) & _)]; auto. exfalso. apply Hxy. apply (O e); auto.
    - intros A. left. split; auto. intros i B. apply (O e); auto.
  Qed.
  Lemma counted_iff e j : (e < length labels)%nat -> counted_as thr' (row_of pp' e) j <-> counted_as thr (row_of pp e) j.
  Proof.
    intros He. pose proof (ds_len _ _ _ Hd) as Hl. pose proof (ds_len _ _ _ Hd') as Hl'.
    rewrite !counted_one by (auto using one_confident'; lia). apply reaches_iff; auto.
  Qed.

  Lemma ex_counted_same i j e : (e < length labels)%nat -> ex_counted labels pp' thr' i j e = ex_counted labels pp thr i j e.
  Proof.
    intros He. apply eq_true_iff_eq.
    pose proof (ex_counted_iff labels pp' thr' K i j e (ds_row _ _ _ Hd') (thresholds_length _ _ _) (ds_len _ _ _ Hd') He) as A.
    pose proof (ex_counted_iff labels pp thr K i j e (ds_row _ _ _ Hd) (thresholds_length _ _ _) (ds_len _ _ _ Hd) He) as B.
    rewrite A, B. pose proof (counted_iff e j He) as C. unfold row_of in C. tauto.
  Qed.
  Lemma uncalibrated_same : confident_joint_uncalibrated labels pp' K thr' = confident_joint_uncalibrated labels pp K thr.
  Proof.
    unfold confident_joint_uncalibrated. cbv zeta. unfold tab. apply map_ext_in. intros i Hi. apply in_seq in Hi.
    apply map_ext_in. intros j Hj. apply in_seq in Hj.
    rewrite (confusion_cell labels pp' thr' K i j (ds_len _ _ _ Hd')), (confusion_cell labels pp thr K i j (ds_len _ _ _ Hd)) by lia.
    rewrite (filter_ext_in (ex_counted labels pp' thr' i j) (ex_counted labels pp thr i j)); [reflexivity|].
    intros e He. apply in_seq in He. apply ex_counted_same. lia.
  Qed.
  Lemma indices_same : confident_off_diagonal_indices labels pp' thr' = confident_off_diagonal_indices labels pp thr.
  Proof.
    destruct (off_diag_spec labels pp thr K (ds_row _ _ _ Hd) (thresholds_length _ _ _) (ds_len _ _ _ Hd)) as (S1 & M1).
    destruct (off_diag_spec labels pp' thr' K (ds_row _ _ _ Hd') (thresholds_length _ _ _) (ds_len _ _ _ Hd')) as (S2 & M2).
    assert (ND : forall l, StronglySorted lt l -> NoDup l).
    { induction l as [|x l IH]; intros Hs; constructor; apply StronglySorted_inv in Hs as (Hs & Fa); auto.
      intros C. rewrite Forall_forall in Fa. specialize (Fa x C). lia. }
    apply (sorted_same lt); auto.
    - intros e. rewrite M1, M2. split; intros (He & j & Hj & Hne); split; auto; exists j; split; auto;
        [apply (counted_iff e j He)|apply (counted_iff e j He)]; auto.
    - intros; lia.
  Qed.
  Lemma joint_same srt cal : compute_confident_joint srt labels pp' K None cal = compute_confident_joint srt labels pp K None cal.
  Proof. unfold compute_confident_joint. fold thr. fold thr'. rewrite uncalibrated_same, indices_same. reflexivity. Qed.
End Rescale.

Lemma C167_joint_full : forall srt K labels pp pp' a b calibrate,
  dataset K labels pp -> dataset K labels pp' -> own_prob_floor labels pp -> own_prob_floor labels pp' ->
  rescaled K a b pp pp' ->
  (forall k, (k < K)%nat -> a k == 1 \/
     (clear_threshold (get_confident_thresholds labels pp K) pp k /\ clear_threshold (get_confident_thresholds labels pp' K) pp' k)) ->
  one_confident (get_confident_thresholds labels pp K) pp ->
  compute_confident_joint srt labels pp' K None calibrate = compute_confident_joint srt labels pp K None calibrate.
Proof. intros srt K labels pp pp' a b cal D D' F F' R C O. apply (joint_same K labels pp pp' a b); auto. Qed.
Lemma C167_estimates_full : forall srt K labels pp pp' a b cj,
  dataset K labels pp -> dataset K labels pp' -> own_prob_floor labels pp -> own_prob_floor labels pp' -> two_classes labels ->
  rescaled K a b pp pp' ->
  (forall k, (k < K)%nat -> a k == 1 \/
     (clear_threshold (get_confident_thresholds labels pp K) pp k /\ clear_threshold (get_confident_thresholds labels pp' K) pp' k)) ->
  one_confident (get_confident_thresholds labels pp K) pp ->
  estimate_joint srt labels pp' K None = estimate_joint srt labels pp K None /\
  num_label_issues_method srt labels pp' K cj OffDiagonalCalibrated = num_label_issues_method srt labels pp K cj OffDiagonalCalibrated.
Proof.
  intros srt K labels pp pp' a b cj D D' F F' H2 R C O. split.
  - unfold estimate_joint. rewrite (C167_joint_full srt K labels pp pp' a b true) by auto. reflexivity.
  - unfold num_label_issues_method. rewrite (valid_ok K labels pp false D), (valid_ok K labels pp' false D') by auto. cbn [rbind].
    unfold num_label_issues_from_joint. rewrite (C167_joint_full srt K labels pp pp' a b true) by auto. reflexivity.
Qed.
Lemma C167_flags_full : forall srt K labels pp pp' a b o,
  argsort_ok srt -> dataset K labels pp -> dataset K labels pp' -> own_prob_floor labels pp -> own_prob_floor labels pp' ->
  two_classes labels -> rescaled K a b pp pp' ->
  (forall k, (k < K)%nat -> a k == 1 \/
     (clear_threshold (get_confident_thresholds labels pp K) pp k /\ clear_threshold (get_confident_thresholds labels pp' K) pp' k)) ->
  one_confident (get_confident_thresholds labels pp K) pp ->
  num_to_remove_per_class o = None -> (1 <= n_jobs o)%nat ->
  exists m m', find_label_issues srt labels pp K ConfidentLearning o = Ok m /\
    find_label_issues srt labels pp' K ConfidentLearning o = Ok m' /\
    (forall e, clearly_beaten labels pp e -> clearly_beaten labels pp' e -> flagged m e <-> flagged m' e) /\
    ((forall e, clearly_beaten labels pp e <-> clearly_beaten labels pp' e) -> m = m').
Proof.
  intros srt K labels pp pp' a b o Hs D D' F F' H2 R C O Hn Hj.
  destruct (C06_full srt K labels pp o Hs D H2 Hn Hj) as (m & Em & Lm & _ & Fm).
  destruct (C06_full srt K labels pp' o Hs D' H2 Hn Hj) as (m' & Em' & Lm' & _ & Fm').
  exists m, m'. split; auto. split; auto.
  assert (G : forall e, (clearly_beaten labels pp e <-> clearly_beaten labels pp' e) -> flagged m e <-> flagged m' e).
  { intros e B. rewrite Fm, Fm'.
    split; intros (He & (j & Cj & Hj') & Cb); (split; [auto|]); (split; [exists j; split; auto|tauto]).
    - apply (counted_iff K labels pp pp' a b); auto.
    - apply (counted_iff K labels pp pp' a b) in Cj; auto. }
  split; [intros e B B'; apply G; tauto|]. intros B. apply list_eq_nth with (d := false); [lia|]. intros e He.
  apply eq_true_iff_eq. apply G. auto.
Qed.
