(** * Proofs for C170 *)
From Coq Require Import QArith Qabs List ZArith Bool Arith Lia Lqa.
From Verif Require Import Base BaseFacts ModelUtil ModelCount ModelFilter SpecCount SpecFilter
     SpecReplace ProofUtil ProofCount ProofFilter ProofIdeal ProofIssueCount ProofCalibCount ProofResample.
Import ListNotations.
Open Scope Q_scope.
Opaque TINY_VALUE.

(** ** averages that differ in one value *)
Lemma one_value m T x x' b b' a a' : 0 <= m -> 0 <= T -> T <= m -> 0 <= x -> x <= 1 -> 0 <= x' -> x' <= 1 ->
  (b == 0 \/ b == 1) -> (b' == 0 \/ b' == 1) -> 0 < m + b -> 0 < m + b' ->
  a * (m + b) == T + b * x -> a' * (m + b') == T + b' * x' ->
  forall M, M == m + b \/ M == m + b' -> m + b <= M -> m + b' <= M -> Qabs (a' - a) * M <= 1.
Proof.
  intros Hm T0 Tm X0 X1 X0' X1' Hb Hb' P P' A A' M HM M1 M2.
  assert (G : forall m T x a d, 0 <= m -> 0 <= T -> T <= m -> 0 <= x -> x <= 1 -> 0 < m -> a * m == T -> d * (m + 1) == T + x ->
     (a - d) * (m + 1) == a - x /\ 0 <= a /\ a <= 1).
  { clear. intros m T x a d Hm T0 Tm X0 X1 P A D. assert (0 <= a) by nra. assert (a <= 1) by nra. split; [|auto].
    assert (E : (a - d) * (m + 1) == a * m + a - d * (m + 1)) by ring. rewrite E, A, D. ring. }
  assert (U : forall z, -1 <= z * M -> z * M <= 1 -> Qabs z * M <= 1).
  { intros z L R. apply Qabs_case; intros; lra. }
  apply U; clear U.
  all: destruct Hb as [B|B], Hb' as [B'|B']; rewrite B in A, P, M1, HM; rewrite B' in A', P', M2, HM.
  all: try (assert (EM : M == m) by (destruct HM; lra)).
  all: try (assert (EM : M == m + 1) by (destruct HM; lra)).
  all: rewrite EM.
  - assert ((a' - a) * m == 0) by (setoid_replace ((a' - a) * m) with (a' * (m + 0) - a * (m + 0)) by ring; rewrite A, A'; ring). lra.
  - destruct (G m T x' a a') as (E & L & R); auto; lra.
  - destruct (G m T x a' a) as (E & L & R); auto; lra.
  - assert ((a' - a) * (m + 1) == x' - x) by (setoid_replace ((a' - a) * (m + 1)) with (a' * (m + 1) - a * (m + 1)) by ring; rewrite A, A'; ring). lra.
  - assert ((a' - a) * m == 0) by (setoid_replace ((a' - a) * m) with (a' * (m + 0) - a * (m + 0)) by ring; rewrite A, A'; ring). lra.
  - destruct (G m T x' a a') as (E & L & R); auto; lra.
  - destruct (G m T x a' a) as (E & L & R); auto; lra.
  - assert ((a' - a) * (m + 1) == x' - x) by (setoid_replace ((a' - a) * (m + 1)) with (a' * (m + 1) - a * (m + 1)) by ring; rewrite A, A'; ring). lra.
Qed.
Lemma qmax_lip x y f : Qabs (qmax x f - qmax y f) <= Qabs (x - y).
Proof.
  pose proof (Qle_Qabs (x - y)) as P. pose proof (Qle_Qabs (- (x - y))) as N. rewrite Qabs_opp in N. pose proof (Qabs_nonneg (x - y)).
  apply Qabs_Qle_condition.
  destruct (qmax_spec x f) as [(A & ->)|(A & ->)], (qmax_spec y f) as [(B & ->)|(B & ->)]; split; lra.
Qed.

Lemma n_pos labels k : Qnat (n_labelled k labels) == pos_sum labels (fun _ => 1) k.
Proof.
  unfold pos_sum, label_of. induction labels as [|l ls IH]; [reflexivity|]. cbn [n_labelled length seq map]. rewrite <- seq_shift, map_map. cbn [nth].
  rewrite qsum_cons, Qnat_plus, IH. destruct (Nat.eqb l k); [change (Qnat 1) with 1|change (Qnat 0) with 0]; ring.
Qed.

Section Replace.
  Context (K e0 : nat) (labels : list nat) (pp : list (list Q)) (labels' : list nat) (pp' : list (list Q)).
  Context (Hd : dataset K labels pp) (Hd' : dataset K labels' pp') (Hr : replaced e0 labels pp labels' pp').

  (** the sum over the other examples *)
  Definition others (g : nat -> Q) (k : nat) : Q :=
    qsum (tab (length labels) (fun e => if Nat.eqb e0 e then 0 else if Nat.eqb (label_of labels e) k then g e else 0)).
  Lemma pos_split g k : pos_sum labels g k == others g k + (if Nat.eqb (label_of labels e0) k then 1 else 0) * g e0.
  Proof.
    destruct Hr as (He & _). unfold pos_sum, others.
    change (map _ (seq 0 (length labels))) with (tab (length labels) (fun e => if Nat.eqb (label_of labels e) k then g e else 0)).
    rewrite (qsum_tab_split (length labels) e0) by auto. destruct (Nat.eqb (label_of labels e0) k); ring.
  Qed.
  Lemma pos_split' g g' k : (forall e, e <> e0 -> g' e = g e) ->
    pos_sum labels' g' k == others g k + (if Nat.eqb (label_of labels' e0) k then 1 else 0) * g' e0.
  Proof.
    intros Hg. destruct Hr as (He & Hl & _ & H). unfold pos_sum, others. rewrite Hl.
    change (map _ (seq 0 (length labels))) with (tab (length labels) (fun e => if Nat.eqb (label_of labels' e) k then g' e else 0)).
    rewrite (qsum_tab_split (length labels) e0) by auto.
    rewrite (qsum_tab_ext (length labels) (fun j => if Nat.eqb e0 j then 0 else if Nat.eqb (label_of labels' j) k then g' j else 0)
      (fun e => if Nat.eqb e0 e then 0 else if Nat.eqb (label_of labels e) k then g e else 0)).
    - destruct (Nat.eqb (label_of labels' e0) k); ring.
    - intros j _. destruct (Nat.eqb_spec e0 j) as [|N]; [reflexivity|]. rewrite (proj1 (H j ltac:(auto))), Hg by auto. reflexivity.
  Qed.
  Lemma prob_unit l p e k : dataset K l p -> (e < length l)%nat -> (k < K)%nat -> 0 <= prob_of p e k /\ prob_of p e k <= 1.
  Proof.
    intros D He Hk. assert (In (nth e p []) p) by (apply nth_In; rewrite <- (ds_len _ _ _ D); auto).
    apply (ds_prob _ _ _ D (nth e p [])); auto. apply nth_In. rewrite (ds_row _ _ _ D); auto.
  Qed.
  Lemma other_bounds k : (k < K)%nat -> 0 <= others (fun e => prob_of pp e k) k /\ others (fun e => prob_of pp e k) k <= others (fun _ => 1) k /\ 0 <= others (fun _ => 1) k.
  Proof.
    intros Hk. unfold others, tab.
    assert (G : forall L, (forall e, In e L -> (e < length labels)%nat) ->
      let f g := qsum (map (fun e => if Nat.eqb e0 e then 0 else if Nat.eqb (label_of labels e) k then g e else 0) L) in
      0 <= f (fun e => prob_of pp e k) /\ f (fun e => prob_of pp e k) <= f (fun _ => 1) /\ 0 <= f (fun _ => 1)).
    { induction L as [|e L IH]; intros HL f; [cbn; lra|]. destruct IH as (A & B & C); [intros; apply HL; right; auto|].
      unfold f. cbn [map]. rewrite !qsum_cons. destruct (prob_unit labels pp e k Hd (HL e (or_introl eq_refl)) Hk).
      destruct (Nat.eqb e0 e); [lra|]. destruct (Nat.eqb (label_of labels e) k); lra. }
    apply (G (seq 0 (length labels))). intros e He. apply in_seq in He. lia.
  Qed.

  Let thr := get_confident_thresholds labels pp K.
  Let thr' := get_confident_thresholds labels' pp' K.
  Lemma thr_moved k : (k < K)%nat -> In k labels -> In k labels' ->
    (k <> label_of labels e0 -> k <> label_of labels' e0 -> nth k thr' 0 == nth k thr 0) /\
    Qabs (nth k thr' 0 - nth k thr 0) <= influence labels labels' k.
  Proof.
    intros Hk Hin Hin'.
    destruct (proj1 (thresholds_spec labels pp K k (ds_len _ _ _ Hd) Hk) Hin) as (a & (Na & Aa) & Ea).
    destruct (proj1 (thresholds_spec labels' pp' K k (ds_len _ _ _ Hd') Hk) Hin') as (a' & (Na' & Aa') & Ea').
    fold thr in Ea. fold thr' in Ea'.
    destruct (own_pos k labels pp (ds_len _ _ _ Hd)) as (S1 & L1). destruct (own_pos k labels' pp' (ds_len _ _ _ Hd')) as (S2 & L2).
    pose proof (n_pos labels k) as N1. pose proof (n_pos labels' k) as N2.
    pose proof Hr as (He & Hl & Hlp & H).
    assert (He' : (e0 < length labels')%nat) by lia.
    rewrite pos_split in S1, L1, N1.
    rewrite (pos_split' (fun e => prob_of pp e k) (fun e => prob_of pp' e k)) in S2
      by (intros e Ne; unfold prob_of; pose proof (proj2 (H e Ne)) as R; unfold row_of in R; now rewrite R).
    rewrite (pos_split' (fun _ => 1) (fun _ => 1)) in L2, N2 by auto.
    destruct (other_bounds k Hk) as (O1 & O2 & O3).
    destruct (prob_unit labels pp e0 k Hd He Hk) as (X0 & X1). destruct (prob_unit labels' pp' e0 k Hd' He' Hk) as (X0' & X1').
    set (m := others (fun _ => 1) k) in *. set (T := others (fun e => prob_of pp e k) k) in *. clearbody m T.
    set (x := prob_of pp e0 k) in *. set (x' := prob_of pp' e0 k) in *. clearbody x x'.
    set (b := if Nat.eqb (label_of labels e0) k then 1 else 0) in *. set (b' := if Nat.eqb (label_of labels' e0) k then 1 else 0) in *.
    assert (Pn : 0 < Qnat (length (own_probs k labels pp))) by (apply Qnat_pos; destruct (own_probs k labels pp); [congruence|cbn; lia]).
    assert (Pn' : 0 < Qnat (length (own_probs k labels' pp'))) by (apply Qnat_pos; destruct (own_probs k labels' pp'); [congruence|cbn; lia]).
    rewrite L1 in Pn, Aa. rewrite L2 in Pn', Aa'. rewrite S1 in Aa. rewrite S2 in Aa'.
    assert (Bb : b == 0 \/ b == 1) by (unfold b; destruct (Nat.eqb (label_of labels e0) k); [right|left]; reflexivity).
    assert (Bb' : b' == 0 \/ b' == 1) by (unfold b'; destruct (Nat.eqb (label_of labels' e0) k); [right|left]; reflexivity).
    rewrite Qmult_1_r in Pn, Pn', Aa, Aa', N1, N2.
    split.
    - intros D D'. rewrite Ea, Ea'. unfold b, b' in *.
      rewrite (proj2 (Nat.eqb_neq _ _)) in Aa, Pn by auto. rewrite (proj2 (Nat.eqb_neq _ _)) in Aa' by auto.
      assert (E : a' == a). { apply (Qmult_inj_r _ _ (m + 0)); [lra|]. rewrite Aa, Aa'. ring. }
      rewrite E. reflexivity.
    - unfold influence. set (M := Nat.max (n_labelled k labels) (n_labelled k labels')) in *.
      assert (PM : 0 < Qnat M) by (apply Qnat_pos; assert (0 < Qnat (n_labelled k labels)) as P0 by (rewrite N1; auto);
        unfold M; destruct (n_labelled k labels) as [|q]; [exfalso; apply (Qlt_irrefl 0), P0|lia]).
      apply Qle_shift_div_l; auto.
      apply Qle_trans with (Qabs (a' - a) * Qnat M).
      + apply Qmult_le_compat_r; [|lra]. rewrite Ea, Ea'. apply qmax_lip.
      + assert (C1 : Qnat (n_labelled k labels) <= Qnat M) by (apply Qnat_le; unfold M; lia).
        assert (C2 : Qnat (n_labelled k labels') <= Qnat M) by (apply Qnat_le; unfold M; lia).
        apply (one_value m T x x' b b' a a'); auto; [|rewrite <- N1; auto|rewrite <- N2; auto].
        unfold M. destruct (Nat.max_spec (n_labelled k labels) (n_labelled k labels')) as [(_ & ->)|(_ & ->)]; auto.
  Qed.

  Lemma reaches_kept e k : (e < length labels)%nat -> (k < K)%nat -> (forall j, In j labels <-> In j labels') ->
    ~ near_threshold K e0 labels pp labels' e -> e <> e0 -> reaches thr' (row_of pp e) k <-> reaches thr (row_of pp e) k.
  Proof.
    intros He Hk HJ HN Ne. unfold reaches.
    assert (G : nth k thr' 0 - (1 # 1000000) <= nth k (row_of pp e) 0 <-> nth k thr 0 - (1 # 1000000) <= nth k (row_of pp e) 0).
    { destruct (in_dec Nat.eq_dec k labels) as [I|I].
      - destruct (thr_moved k Hk I (proj1 (HJ k) I)) as (A & B).
        destruct (Nat.eq_dec k (label_of labels e0)) as [E|E]; [|destruct (Nat.eq_dec k (label_of labels' e0)) as [E'|E']].
        3:{ rewrite A by auto. tauto. }
        all: assert (~ Qabs (prob_of pp e k - (nth k thr 0 - (1 # 1000000))) <= influence labels labels' k)
          by (intros Q; apply HN; split; [auto|]; exists k; split; [tauto|exact Q]).
        all: apply Qabs_Qle_condition in B; apply Qnot_le_lt in H; unfold prob_of in H; fold (row_of pp e) in H.
        all: revert H; apply Qabs_case; intros; split; intros; lra.
      - destruct (thresholds_spec labels pp K k (ds_len _ _ _ Hd) Hk) as (_ & A). destruct (thresholds_spec labels' pp' K k (ds_len _ _ _ Hd') Hk) as (_ & A').
        fold thr in A. fold thr' in A'. rewrite A, A' by (rewrite <- ?HJ; auto). tauto. }
    rewrite G. tauto.
  Qed.
  Lemma counted_kept e j : (e < length labels)%nat -> (forall j, In j labels <-> In j labels') ->
    ~ near_threshold K e0 labels pp labels' e -> e <> e0 -> counted_as thr' (row_of pp e) j <-> counted_as thr (row_of pp e) j.
  Proof.
    intros He HJ HN Ne.
    assert (L : length (row_of pp e) = K) by (apply (ds_row _ _ _ Hd), nth_In; rewrite <- (ds_len _ _ _ Hd); auto).
    assert (R : forall k, reaches thr' (row_of pp e) k <-> reaches thr (row_of pp e) k).
    { intros k. destruct (Nat.lt_ge_cases k K) as [Hk|Hk]; [apply reaches_kept; auto|]. unfold reaches. rewrite L. split; intros (A & _); lia. }
    unfold counted_as. split.
    - intros [(A & B)|((x & y & N & A & B) & C)]; [left|right].
      + split; [apply R; auto|]. intros i Hi. apply B, R; auto.
      + split; auto. exists x, y. rewrite <- !R. auto.
    - intros [(A & B)|((x & y & N & A & B) & C)]; [left|right].
      + split; [apply R; auto|]. intros i Hi. apply B, R; auto.
      + split; auto. exists x, y. rewrite !R. auto.
  Qed.
End Replace.

Lemma C170_thresholds_full : forall K e0 labels pp labels' pp' k,
  dataset K labels pp -> dataset K labels' pp' -> replaced e0 labels pp labels' pp' ->
  (k < K)%nat -> In k labels -> In k labels' ->
  (k <> label_of labels e0 -> k <> label_of labels' e0 ->
     nth k (get_confident_thresholds labels' pp' K) 0 == nth k (get_confident_thresholds labels pp K) 0) /\
  Qabs (nth k (get_confident_thresholds labels' pp' K) 0 - nth k (get_confident_thresholds labels pp K) 0) <= influence labels labels' k.
Proof. intros. eapply thr_moved; eauto. Qed.

Lemma flagged_kept K e0 labels pp labels' pp' m m' e thr thr' :
  thr = get_confident_thresholds labels pp K -> thr' = get_confident_thresholds labels' pp' K ->
  dataset K labels pp -> dataset K labels' pp' -> replaced e0 labels pp labels' pp' -> (forall k, In k labels <-> In k labels') ->
  (forall e, flagged m e <-> (e < length labels)%nat /\ (exists j, counted_as thr (row_of pp e) j /\ j <> label_of labels e) /\ clearly_beaten labels pp e) ->
  (forall e, flagged m' e <-> (e < length labels')%nat /\ (exists j, counted_as thr' (row_of pp' e) j /\ j <> label_of labels' e) /\ clearly_beaten labels' pp' e) ->
  (e < length labels)%nat -> e <> e0 -> ~ near_threshold K e0 labels pp labels' e -> flagged m' e <-> flagged m e.
Proof.
  intros -> -> Hd Hd' Hr HJ Fm Fm' He Ne HN. rewrite Fm, Fm'. pose proof Hr as (_ & Hl & _ & H). destruct (H e Ne) as (A & B).
  assert (Cb : clearly_beaten labels' pp' e <-> clearly_beaten labels pp e).
  { unfold clearly_beaten, prob_of. fold (row_of pp' e). fold (row_of pp e). rewrite A, B. tauto. }
  rewrite Cb, A, B, Hl. split.
  - intros (_ & (j & Cj & Nj) & Bt). split; auto. split; auto. exists j. split; auto. apply (counted_kept K e0 labels pp labels' pp' Hd Hd' Hr e j He HJ HN Ne); auto.
  - intros (_ & (j & Cj & Nj) & Bt). split; auto. split; auto. exists j. split; auto. apply (counted_kept K e0 labels pp labels' pp' Hd Hd' Hr e j He HJ HN Ne); auto.
Qed.

Lemma C170_flags_full : forall srt K e0 labels pp labels' pp' o,
  argsort_ok srt -> dataset K labels pp -> dataset K labels' pp' -> two_classes labels ->
  replaced e0 labels pp labels' pp' -> (forall k, In k labels <-> In k labels') ->
  num_to_remove_per_class o = None -> (1 <= n_jobs o)%nat ->
  exists m m', find_label_issues srt labels pp K ConfidentLearning o = Ok m /\
    find_label_issues srt labels' pp' K ConfidentLearning o = Ok m' /\
    (forall e, (e < length labels)%nat -> e <> e0 -> ~ near_threshold K e0 labels pp labels' e -> flagged m' e <-> flagged m e) /\
    forall q n n', holds_for (length labels) (near_threshold K e0 labels pp labels') q ->
      num_label_issues srt labels pp K = Ok n -> num_label_issues srt labels' pp' K = Ok n' ->
      (n' <= n + q + 1)%nat /\ (n <= n' + q + 1)%nat.
Proof.
  intros srt K e0 labels pp labels' pp' o Hs Hd Hd' H2 Hr HJ Hn Hj.
  assert (H2' : two_classes labels') by (destruct H2 as (x & y & A & B & N); exists x, y; rewrite <- !HJ; auto).
  destruct (C06_full srt K labels pp o Hs Hd H2 Hn Hj) as (m & Em & Lm & Nm & Fm).
  destruct (C06_full srt K labels' pp' o Hs Hd' H2' Hn Hj) as (m' & Em' & Lm' & Nm' & Fm').
  exists m, m'. split; auto. split; auto. pose proof Hr as (_ & Hl & _ & _).
  pose proof (fun e => flagged_kept K e0 labels pp labels' pp' m m' e _ _ eq_refl eq_refl Hd Hd' Hr HJ Fm Fm') as G.
  split; [auto|]. intros q n n' (idx & ND & Lq & I) En En'. rewrite Nm in En. injection En as <-. rewrite Nm' in En'. injection En' as <-.
  rewrite <- !where_length, <- Lq.
  assert (S1 : forall a b, (forall e, In e a -> (e < length labels)%nat) -> (forall e, (e < length labels)%nat -> e <> e0 -> ~ In e idx -> In e a -> In e b) -> NoDup a ->
    (length a <= length b + length idx + 1)%nat).
  { intros a b La AB NDa. assert (Hi : incl a (e0 :: idx ++ b)).
    { intros e Hin. destruct (Nat.eq_dec e e0) as [->|N]; [left; auto|right]. apply in_or_app.
      destruct (in_dec Nat.eq_dec e idx); [left; auto|right; auto]. }
    apply NoDup_incl_length in Hi; auto. cbn [length] in Hi. rewrite app_length in Hi. lia. }
  split; apply S1; auto using where_NoDup.
  - intros e He. apply where_lt in He. lia.
  - intros e He Ne Ni. rewrite !in_where. apply (G e He Ne). intros Q. apply Ni, I. auto.
  - intros e He. apply where_lt in He. lia.
  - intros e He Ne Ni. rewrite !in_where. apply (G e He Ne). intros Q. apply Ni, I. auto.
Qed.
