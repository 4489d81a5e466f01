(** * Proofs for C179 *)
From Coq Require Import QArith Qabs List ZArith Bool Arith Lia Lqa.
From Verif Require Import Base BaseFacts ModelUtil ModelCount SpecCount SpecBatched SpecProportion
     ProofCount ProofIssueCount.
Import ListNotations.
Open Scope Q_scope.

Lemma F2_length {A B} (R : A -> B -> Prop) l l' : Forall2 R l l' -> length l = length l'.
Proof. induction 1; cbn [length]; auto. Qed.

Lemma F2_map {A B C D} (R : A -> B -> Prop) (S : C -> D -> Prop) f g l l' :
  (forall a b, R a b -> S (f a) (g b)) -> Forall2 R l l' -> Forall2 S (map f l) (map g l').
Proof. induction 2; cbn [map]; constructor; auto. Qed.

Lemma frac_parts_eq : forall fl fl', Forall2 Qeq fl fl' -> forall ints,
  Forall2 Qeq (map (fun fi => fst fi - inject_Z (snd fi)) (combine fl ints))
              (map (fun fi => fst fi - inject_Z (snd fi)) (combine fl' ints)).
Proof.
  induction 1 as [|x y l l' E _ IH]; intros [|z ints]; cbn [combine map]; try apply Forall2_nil.
  constructor; [cbn [fst snd]; rewrite E; reflexivity|apply IH].
Qed.

Lemma rps_loop_eq srt fuel fl fl' s : respects_eq srt -> Forall2 Qeq fl fl' -> forall ints,
  rps_loop srt fuel fl s ints = rps_loop srt fuel fl' s ints.
Proof.
  intros Hs H. induction fuel as [|fuel IH]; intros ints; cbn [rps_loop]; [reflexivity|].
  rewrite (Hs _ _ (frac_parts_eq _ _ H ints)), (F2_length _ _ _ H).
  destruct (Qltb _ _); [apply IH|reflexivity].
Qed.

Lemma rps_respects srt fl fl' : respects_eq srt -> Forall2 Qeq fl fl' ->
  round_preserving_sum srt fl = round_preserving_sum srt fl'.
Proof.
  intros Hs H. unfold round_preserving_sum, round_preserving_sum_fuel.
  rewrite (qsum_Forall2 _ _ H), (F2_length _ _ _ H).
  replace (map round_half_even fl) with (map round_half_even fl').
  - apply rps_loop_eq; auto.
  - clear -H. induction H as [|x y l l' E _ IH]; cbn [map]; [reflexivity|]. rewrite IH, E. reflexivity.
Qed.

Lemma rprt_respects srt m m' : respects_eq srt -> Forall2 (Forall2 Qeq) m m' ->
  round_preserving_row_totals srt m = round_preserving_row_totals srt m'.
Proof.
  intros Hs H. unfold round_preserving_row_totals. induction H as [|r r' m m' E _ IH]; [reflexivity|].
  cbn [rmap]. rewrite (rps_respects srt r r') by auto. destruct (round_preserving_sum srt r'); cbn [rbind]; [|reflexivity].
  rewrite IH. reflexivity.
Qed.

Lemma qsum_scaled c r r' : Forall2 (fun x y => y == c * x) r r' -> qsum r' == c * qsum r.
Proof.
  induction 1 as [|x y l l' E _ IH]; [cbn; ring|].
  change (qsum (y :: l')) with (y + qsum l'). change (qsum (x :: l)) with (x + qsum l).
  rewrite E, IH. ring.
Qed.

Lemma row_eq r r' n : scaled_row r r' ->
  ((forall x, In x r -> 0 <= x) /\ (qsum r == 0 \/ TINY_VALUE <= qsum r)) ->
  ((forall x, In x r' -> 0 <= x) /\ (qsum r' == 0 \/ TINY_VALUE <= qsum r')) ->
  Forall2 Qeq (map (fun x => x / clip_lo TINY_VALUE (qsum r) * n) r)
              (map (fun x => x / clip_lo TINY_VALUE (qsum r') * n) r').
Proof.
  intros (c & Hc & F) (Hn & Hr) (Hn' & Hr').
  pose proof (qsum_scaled _ _ _ F) as S.
  assert (T : 0 < TINY_VALUE) by reflexivity.
  destruct Hr as [Z|P].
  - (* an empty row *)
    assert (Z0 : forall x, In x r -> x == 0).
    { intros x Hx. pose proof (qsum_ge_elem r x Hn Hx). pose proof (Hn x Hx). lra. }
    clear S Hr' Hn' Z Hn. set (a := clip_lo TINY_VALUE (qsum r)). set (b := clip_lo TINY_VALUE (qsum r')).
    clearbody a b. revert Z0. induction F as [|x y l l' E _ IH]; intros Z0; cbn [map]; constructor.
    + rewrite E, (Z0 x (or_introl eq_refl)). unfold Qdiv. ring.
    + apply IH. intros; apply Z0; right; auto.
  - assert (P' : TINY_VALUE <= qsum r').
    { destruct Hr' as [Z'|]; [|auto]. exfalso. rewrite S in Z'.
      assert (0 < c * qsum r) by (apply Qmult_lt_0_compat; lra). lra. }
    assert (Ea := clip_lo_id _ _ P). assert (Eb := clip_lo_id _ _ P').
    set (a := clip_lo TINY_VALUE (qsum r)) in *. set (b := clip_lo TINY_VALUE (qsum r')) in *.
    assert (Hb : b == c * a) by (rewrite Eb, Ea; exact S).
    assert (Ha : 0 < a) by (rewrite Ea; lra).
    clearbody a b. clear -F Hb Ha Hc. induction F as [|x y l l' E _ IH]; cbn [map]; constructor; auto.
    rewrite E, Hb. field. split; lra.
Qed.

Lemma countable_tail r m : countable (r :: m) -> countable m.
Proof. intros H x Hx. apply H. right; auto. Qed.

Theorem calibrate_proportions srt cj cj' labels : respects_eq srt -> same_proportions cj cj' ->
  countable cj -> countable cj' ->
  calibrate_confident_joint srt cj labels = calibrate_confident_joint srt cj' labels.
Proof.
  intros Hs H C C'. unfold calibrate_confident_joint. rewrite (F2_length _ _ _ H).
  destruct (value_counts labels (length cj')) as [lc|]; cbn [rbind]; [|reflexivity]. cbv zeta.
  assert (E : Forall2 (Forall2 Qeq)
    (map (fun rc : list Q * nat => let '(row, c) := rc in
       map (fun x => x / clip_lo TINY_VALUE (qsum row) * Qnat c) row) (combine cj lc))
    (map (fun rc : list Q * nat => let '(row, c) := rc in
       map (fun x => x / clip_lo TINY_VALUE (qsum row) * Qnat c) row) (combine cj' lc))).
  { clear Hs. revert lc C C'. induction H as [|r r' m m' E _ IH]; intros [|n lc] C C'; cbn [combine map]; try apply Forall2_nil.
    constructor; [apply row_eq; auto; [apply C|apply C']; left; auto|].
    apply IH; eapply countable_tail; eauto. }
  set (A := map _ (combine cj lc)) in *. set (B := map _ (combine cj' lc)) in *. clearbody A B.
  apply rprt_respects; auto.
  assert (T : qsum (map qsum A) == qsum (map qsum B)).
  { apply qsum_Forall2. eapply F2_map; [|exact E]. intros a b. apply qsum_Forall2. }
  eapply F2_map; [|exact E]. intros a b Hab. eapply F2_map; [|exact Hab]. intros x y Hxy. cbv beta.
  rewrite Hxy, T. reflexivity.
Qed.

Theorem joint_proportions srt cj cj' labels pp K : respects_eq srt -> same_proportions cj cj' ->
  countable cj -> countable cj' ->
  estimate_joint srt labels pp K (Some cj) = estimate_joint srt labels pp K (Some cj').
Proof.
  intros. unfold estimate_joint. rewrite (calibrate_proportions srt cj cj') by auto. reflexivity.
Qed.

Theorem num_issues_proportions srt cj cj' labels pp K : respects_eq srt -> same_proportions cj cj' ->
  countable cj -> countable cj' ->
  num_label_issues_from_joint srt labels pp K (Some cj) = num_label_issues_from_joint srt labels pp K (Some cj').
Proof.
  intros. unfold num_label_issues_from_joint. cbn [rbind]. rewrite (joint_proportions srt cj cj') by auto. reflexivity.
Qed.

Theorem calibrate_idempotent srt K cj labels : argsort_ok srt ->
  length cj = K -> (forall r, In r cj -> length r = K) ->
  (forall r x, In r cj -> In x r -> 0 <= x) ->
  (forall i, (i < K)%nat -> In i labels -> TINY_VALUE <= qsum (nth i cj [])) ->
  labels <> [] -> (forall l, In l labels -> (l < K)%nat) ->
  exists zm, calibrate_confident_joint srt cj labels = Ok zm /\
    calibrate_confident_joint srt (zmat_to_q zm) labels = Ok zm /\
    forall pp, estimate_joint srt labels pp K (Some cj) = estimate_joint srt labels pp K (Some (zmat_to_q zm)).
Proof.
  intros Hs H1 H2 H3 H4 Hne Hl.
  destruct (calibrate_gen srt K cj labels Hs (conj H1 (conj H2 (conj H3 H4))) Hne Hl) as (zm & E & L & R).
  assert (F : calibrate_confident_joint srt (zmat_to_q zm) labels = Ok zm).
  { apply (calibrate_fixed srt K); auto. split; auto. intros i Hi. destruct (R i Hi) as (A & B & C).
    split; [exact A|split; [exact B|]]. intros j Hj. apply (C j Hj). }
  exists zm. split; [exact E|split; [exact F|]]. intros pp. unfold estimate_joint. rewrite E, F. reflexivity.
Qed.
