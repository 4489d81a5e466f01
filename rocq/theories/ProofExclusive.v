(** * Proofs about two exclusive classes treated as multi-label data *)
From Coq Require Import QArith List Bool Arith Lia Lqa.
From Verif Require Import Base BaseFacts ModelUtil ModelCount ModelRank ModelPool ModelFilter ModelMultilabel SpecCount SpecRank SpecFilter SpecTwice
  SpecMultilabel SpecExclusive ProofUtil ProofCount ProofFilter ProofRank ProofMultilabel.
Import ListNotations.
Open Scope Q_scope.

(** the class that [j] of the one-vs-rest problem of [c] stands for *)
Definition stands (c j : nat) : nat := if Nat.eqb j 1 then c else (1 - c)%nat.
Definition bin (c l : nat) : nat := if Nat.eqb l c then 1%nat else 0%nat.

Lemma avg_eq l l' a a' : Forall2 Qeq l l' -> is_average l a -> is_average l' a' -> a == a'.
Proof.
  intros F (Hne & E) (_ & E').
  assert (G : length l = length l' /\ qsum l == qsum l').
  { clear -F. induction F as [|x y l l' H F (IL & IS)]; [split; reflexivity|]. split; [cbn; congruence|]. unfold qsum in *. cbn. rewrite H, IS. reflexivity. }
  destruct G as (GL & GS). rewrite <- GL, <- GS, <- E in E'.
  assert (P : 0 < Qnat (length l)). { destruct l; [congruence|]. unfold Qnat. cbn [length]. unfold Qlt. cbn. lia. }
  assert (Z : (a - a') * Qnat (length l) == 0) by lra. apply Qmult_integral in Z. destruct Z; lra.
Qed.
Lemma own_bin c j : (c < 2)%nat -> (j < 2)%nat -> forall labels pp, (forall l, In l labels -> (l < 2)%nat) ->
  (forall r, In r pp -> length r = 2%nat /\ qsum r == 1) ->
  Forall2 Qeq (own_probs j (map (bin c) labels) (map (fun r => [1 - nth c r 0; nth c r 0]) pp)) (own_probs (stands c j) labels pp).
Proof.
  intros Hc Hj. induction labels as [|l labels IH]; intros pp Hl Hr; [constructor|]. destruct pp as [|r pp]; [cbn; constructor|].
  cbn [map own_probs]. specialize (IH pp (fun x H => Hl x (or_intror H)) (fun x H => Hr x (or_intror H))).
  destruct (Hr r (or_introl eq_refl)) as (Lr & Sr). destruct r as [|x [|y [|z r]]]; try discriminate Lr.
  assert (S1 : x + y == 1) by (unfold qsum in Sr; cbn in Sr; lra).
  pose proof (Hl l (or_introl eq_refl)) as L2. unfold stands, bin in *.
  destruct c as [|[|c]]; [| |lia]; destruct j as [|[|j]]; try lia; destruct l as [|[|l]]; try lia; cbn [Nat.eqb Nat.sub nth] in *;
    try exact IH; (constructor; [lra|exact IH]).
Qed.
Lemma thr_bin c j labels pp : (c < 2)%nat -> (j < 2)%nat -> dataset 2 labels pp -> rows_sum_to_one pp -> two_classes labels ->
  nth j (get_confident_thresholds (map (bin c) labels) (map (fun r => [1 - nth c r 0; nth c r 0]) pp) 2) 0 ==
  nth (stands c j) (get_confident_thresholds labels pp 2) 0.
Proof.
  intros Hc Hj Hd Hs H2. pose proof (ds_len _ _ _ Hd) as L.
  assert (Hin : forall k, (k < 2)%nat -> In k labels).
  { intros k Hk. destruct H2 as (a & b & Ha & Hb & N). pose proof (ds_lab _ _ _ Hd a Ha). pose proof (ds_lab _ _ _ Hd b Hb).
    assert (k = a \/ k = b) as [->| ->] by lia; assumption. }
  assert (Hst : (stands c j < 2)%nat) by (unfold stands; destruct (Nat.eqb j 1); lia).
  assert (Hb : bin c (stands c j) = j).
  { unfold stands, bin. destruct c as [|[|c]]; [| |lia]; destruct j as [|[|j]]; try lia; reflexivity. }
  destruct (proj1 (thresholds_spec (map (bin c) labels) (map (fun r => [1 - nth c r 0; nth c r 0]) pp) 2 j
    ltac:(rewrite !map_length; exact L) Hj)) as (a & A1 & A2).
  { rewrite <- Hb. apply in_map. apply Hin, Hst. }
  destruct (proj1 (thresholds_spec labels pp 2 (stands c j) L Hst) (Hin _ Hst)) as (a' & B1 & B2).
  rewrite A2, B2. pose proof (own_bin c j Hc Hj labels pp (ds_lab _ _ _ Hd)
    (fun r Hr => conj (ds_row _ _ _ Hd r Hr) (Hs r Hr))) as F.
  pose proof (avg_eq _ _ _ _ F A1 B1) as E. unfold qmax.
  destruct (Qle_bool a _) eqn:Q1; destruct (Qle_bool a' _) eqn:Q2; try reflexivity; try exact E;
    rewrite <- E in Q2 at 1; congruence.
Qed.
(** when one class is ahead by the tolerance, the other label counts as an issue iff the threshold is reached *)
Lemma binary_counted thr x y l : (l < 2)%nat -> nth l [x; y] 0 < nth (1 - l) [x; y] 0 ->
  ((exists j, counted_as thr [x; y] j /\ j <> l) <-> nth (1 - l) thr 0 - (1 # 1000000) <= nth (1 - l) [x; y] 0).
Proof.
  intros Hl Ha. split.
  - intros (j & [((Hj & R) & _)|((a & b & N & Ra & Rb) & (Hj & _))] & Nj); cbn [length] in Hj.
    + assert (j = (1 - l)%nat) as -> by lia. exact R.
    + destruct Ra as (Ka & Ra), Rb as (Kb & Rb). cbn [length] in Ka, Kb.
      assert (a = (1 - l)%nat \/ b = (1 - l)%nat) as [->| ->] by lia; assumption.
  - intros R. exists (1 - l)%nat. split; [|lia].
    destruct (Qlt_le_dec (nth l [x; y] 0) (nth l thr 0 - (1 # 1000000))) as [C|C].
    + left. split; [split; [cbn [length]; lia|exact R]|]. intros i (Ki & Ri). cbn [length] in Ki.
      destruct (Nat.eq_dec i l) as [->|]; [lra|lia].
    + right. split.
      * exists l, (1 - l)%nat. split; [lia|]. split; (split; [cbn [length]; lia|assumption]).
      * split; [cbn [length]; lia|]. split.
        -- intros i Hi. cbn [length] in Hi. destruct (Nat.eq_dec i l) as [->|]; [lra|]. assert (i = (1 - l)%nat) as -> by lia. lra.
        -- intros i Hi. assert (i = l) as -> by lia. exact Ha.
Qed.

Section Two.
Variables (labels : list nat) (pp : list (list Q)).
Hypotheses (Hd : dataset 2 labels pp) (Hs : rows_sum_to_one pp) (H2 : two_classes labels).

Lemma row_two e : (e < length labels)%nat -> exists x y, nth e pp [] = [x; y] /\ x + y == 1.
Proof.
  intros He. assert (I : In (nth e pp []) pp) by (apply nth_In; rewrite <- (ds_len _ _ _ Hd); exact He).
  pose proof (ds_row _ _ _ Hd _ I) as L. pose proof (Hs _ I) as S1. destruct (nth e pp []) as [|x [|y [|z r]]]; try discriminate.
  exists x, y. split; [reflexivity|]. unfold qsum in S1. cbn in S1. lra.
Qed.
Lemma lab_two e : (e < length labels)%nat -> (label_of labels e < 2)%nat.
Proof. intros He. apply (ds_lab _ _ _ Hd). now apply nth_In. Qed.
Lemma has_iff e c : (e < length labels)%nat -> has_class (as_sets labels) e c <-> label_of labels e = c.
Proof.
  intros He. unfold has_class, as_sets. rewrite (nth_indep _ [] ((fun l => [l]) 0%nat)) by (rewrite map_length; exact He).
  rewrite (map_nth (fun l => [l])). unfold label_of. cbn. tauto.
Qed.
Lemma ml_data : ml_dataset 2 (as_sets labels) pp.
Proof.
  constructor.
  - unfold as_sets. rewrite map_length. apply Hd.
  - unfold as_sets. pose proof (ds_ne _ _ _ Hd). destruct labels; [congruence|discriminate].
  - intros l k Hl Hk. unfold as_sets in Hl. apply in_map_iff in Hl. destruct Hl as (y & <- & Hy). destruct Hk as [<-|[]]. exact (ds_lab _ _ _ Hd y Hy).
  - exact (ds_row _ _ _ Hd).
  - exact (ds_prob _ _ _ Hd).
Qed.
Lemma ml_mixed c : (c < 2)%nat -> mixed (as_sets labels) c.
Proof.
  intros Hc. assert (W : forall k, (k < 2)%nat -> exists e, (e < length labels)%nat /\ label_of labels e = k).
  { intros k Hk. destruct H2 as (a & b & Ha & Hb & N). pose proof (ds_lab _ _ _ Hd a Ha). pose proof (ds_lab _ _ _ Hd b Hb).
    assert (Ik : In k labels) by (assert (k = a \/ k = b) as [->| ->] by lia; assumption).
    apply (In_nth _ _ 0%nat) in Ik. exact Ik. }
  unfold mixed, as_sets. rewrite map_length. fold (as_sets labels). split.
  - destruct (W c Hc) as (e & He & E). exists e. split; [exact He|]. now apply has_iff.
  - destruct (W (1 - c)%nat ltac:(lia)) as (e & He & E). exists e. split; [exact He|]. rewrite has_iff by exact He. lia.
Qed.

(** the two ways to disagree *)
Lemma beaten_two e : no_exact_gap labels pp -> (e < length labels)%nat ->
  (clearly_beaten labels pp e <-> exists c, (c < 2)%nat /\ clearly_disagrees (as_sets labels) pp e c).
Proof.
  intros Hg He. destruct (row_two e He) as (x & y & Er & S1). pose proof (lab_two e He) as L2. specialize (Hg e He).
  unfold clearly_beaten, clearly_disagrees, row_of, prob_of in *. rewrite Er in *. cbn [length].
  split.
  - intros (j & Hj & B). exists (label_of labels e). split; [exact L2|]. left. split; [now apply has_iff|].
    destruct (label_of labels e) as [|[|l]]; [| |lia]; destruct j as [|[|j]]; try lia; cbn [nth] in *; destruct B as [B|(B0 & B)]; try lia; lra.
  - intros (c & Hc & [(Hh & B)|(Hh & B)]); rewrite has_iff in Hh by exact He.
    + subst c. exists (1 - label_of labels e)%nat. split; [lia|]. destruct (label_of labels e) as [|[|l]]; [| |lia]; cbn [Nat.sub nth] in *.
      * left. specialize (Hg eq_refl). lra.
      * destruct (Qlt_le_dec (y + (1 # 1000000)) x); [now left|right; split; [lia|lra]].
    + exists c. split; [exact Hc|]. left. destruct (label_of labels e) as [|[|l]]; [| |lia]; destruct c as [|[|c]]; try lia; cbn [nth] in *; lra.
Qed.
Lemma ovr_lists c bl bp : (c < 2)%nat -> one_vs_rest (as_sets labels) pp c bl bp ->
  bl = map (bin c) labels /\ bp = map (fun r => [1 - nth c r 0; nth c r 0]) pp.
Proof.
  intros Hc (L1 & L2 & B1 & B2). unfold as_sets in L1, B1. rewrite map_length in L1, B1. fold (as_sets labels) in B1. split.
  - apply (nth_ext _ _ 0%nat (bin c 0%nat)); [rewrite map_length; exact L1|]. intros e He. rewrite map_nth. rewrite L1 in He.
    specialize (B1 e He). rewrite has_iff in B1 by exact He. unfold bin, label_of in *.
    destruct (Nat.eqb_spec (nth e labels 0%nat) c) as [E|N]; destruct B1 as [(B & C)|(B & C)]; congruence.
  - apply (nth_ext _ _ [] ((fun r => [1 - nth c r 0; nth c r 0]) [])); [rewrite map_length; exact L2|]. intros e He. rewrite L2 in He.
    rewrite (map_nth (fun r => [1 - nth c r 0; nth c r 0])). rewrite (B2 e He). reflexivity.
Qed.
Lemma confident_two e c bl bp : (e < length labels)%nat -> (c < 2)%nat -> clearly_disagrees (as_sets labels) pp e c ->
  one_vs_rest (as_sets labels) pp c bl bp ->
  ((exists j, counted_as (get_confident_thresholds bl bp 2) (row_of bp e) j /\ j <> label_of bl e) <->
   (exists j, counted_as (get_confident_thresholds labels pp 2) (row_of pp e) j /\ j <> label_of labels e)).
Proof.
  intros He Hc Dis Ovr. destruct (ovr_lists c bl bp Hc Ovr) as (Eb & Ep).
  destruct Ovr as (_ & _ & B1 & B2). unfold as_sets in B1. rewrite map_length in B1. fold (as_sets labels) in B1. specialize (B1 e He). rewrite has_iff in B1 by exact He.
  assert (He2 : (e < length pp)%nat) by (rewrite <- (ds_len _ _ _ Hd); exact He). specialize (B2 e He2).
  destruct (row_two e He) as (x & y & Er & S1). pose proof (lab_two e He) as L2.
  unfold row_of. rewrite B2, Er. unfold label_of at 1. unfold clearly_disagrees in Dis. rewrite has_iff in Dis by exact He.
  unfold prob_of in *. rewrite Er in *.
  set (l := label_of labels e) in *. set (l' := nth e bl 0%nat) in *.
  assert (El' : l' = bin c l) by (unfold bin; destruct (Nat.eqb_spec l c) as [E|N]; destruct B1 as [(B & C)|(B & C)]; congruence).
  assert (Hl' : (l' < 2)%nat) by (rewrite El'; unfold bin; destruct (Nat.eqb l c); lia).
  rewrite (binary_counted _ (1 - nth c [x; y] 0) (nth c [x; y] 0) l' Hl').
  2:{ rewrite El'. unfold bin. destruct Dis as [(E & P)|(N & P)].
      - rewrite E, Nat.eqb_refl. revert P. generalize (nth c [x; y] 0). intros q P. cbn [nth Nat.sub]. lra.
      - destruct (Nat.eqb_spec l c); [contradiction|]. revert P. generalize (nth c [x; y] 0). intros q P. cbn [nth Nat.sub]. lra. }
  rewrite (binary_counted _ x y l L2).
  2:{ destruct Dis as [(E & P)|(N & P)].
      - subst c. clearbody l. destruct l as [|[|]]; [| |lia]; cbn [nth Nat.sub] in *; lra.
      - clearbody l. destruct l as [|[|]]; [| |lia]; destruct c as [|[|]]; try lia; cbn [nth Nat.sub] in *; lra. }
  rewrite Eb, Ep, (thr_bin c (1 - l') labels pp Hc ltac:(lia) Hd Hs H2).
  assert (Es : stands c (1 - l') = (1 - l)%nat).
  { rewrite El'. unfold stands, bin. clearbody l. destruct l as [|[|]]; [| |lia]; destruct c as [|[|]]; try lia; reflexivity. }
  rewrite Es.
  assert (Ev : nth (1 - l') [1 - nth c [x; y] 0; nth c [x; y] 0] 0 == nth (1 - l) [x; y] 0).
  { rewrite El'. unfold bin. clearbody l. destruct l as [|[|]]; [| |lia]; destruct c as [|[|]]; try lia; cbn [Nat.eqb Nat.sub nth]; lra. }
  rewrite Ev. reflexivity.
Qed.
Lemma mask_eq (m m' : list bool) n : length m = n -> length m' = n -> (forall e, (e < n)%nat -> (flagged m e <-> flagged m' e)) -> m = m'.
Proof.
  intros L L' H. apply (nth_ext _ _ false false); [congruence|]. intros e He. specialize (H e ltac:(lia)). unfold flagged in H.
  destruct (nth e m false), (nth e m' false); try reflexivity; [symmetry|]; apply H; reflexivity.
Qed.
Lemma exclusive_full srt flt o o' : argsort_ok srt -> no_exact_gap labels pp -> ml_num_to_remove o = None -> (1 <= ml_n_jobs o)%nat ->
  num_to_remove_per_class o' = None -> (1 <= n_jobs o')%nat -> flt = ConfidentLearning \/ flt = PredictedNeqGiven ->
  exists m, ml_find_label_issues srt (as_sets labels) pp 2 flt o None = Ok m /\ find_label_issues srt labels pp 2 flt o' = Ok m.
Proof.
  intros Hsrt Hg O1 O2 O3 O4 Hf.
  assert (Len : length (as_sets labels) = length labels) by (unfold as_sets; apply map_length).
  assert (Ovr : forall c, exists bl bp, one_vs_rest (as_sets labels) pp c bl bp).
  { intros c. exists (map (bin c) labels), (map (fun r => [1 - nth c r 0; nth c r 0]) pp).
    split; [now rewrite map_length|]. split; [apply map_length|]. split.
    - intros e He. rewrite Len in He. rewrite has_iff by exact He.
      rewrite (nth_indep _ 0%nat (bin c 0%nat)) by (rewrite map_length; exact He). rewrite map_nth. unfold bin, label_of.
      destruct (Nat.eqb_spec (nth e labels 0%nat) c); [left|right]; auto.
    - intros e He. rewrite (nth_indep _ [] ((fun r => [1 - nth c r 0; nth c r 0]) [])) by (rewrite map_length; exact He).
      rewrite (map_nth (fun r => [1 - nth c r 0; nth c r 0])). reflexivity. }
  destruct Hf as [->| ->].
  - destruct (C63_cl_full srt (as_sets labels) pp 2%nat o Hsrt ml_data ml_mixed O1 O2) as (m & E & L & F).
    destruct (C06_full srt 2%nat labels pp o' Hsrt Hd H2 O3 O4) as (m' & E' & L' & _ & F').
    exists m. split; [exact E|]. rewrite E'. f_equal. symmetry. rewrite Len in L. apply (mask_eq m m' _ L L'). intros e He. rewrite F, F', Len.
    rewrite (beaten_two e Hg He). split.
    + intros (_ & c & bl & bp & j & Hc & Dis & O & C & N). split; [exact He|]. split; [|exists c; auto].
      apply (proj1 (confident_two e c bl bp He Hc Dis O)). exists j. auto.
    + intros (_ & C & (c & Hc & Dis)). split; [exact He|]. destruct (Ovr c) as (bl & bp & O).
      destruct (proj2 (confident_two e c bl bp He Hc Dis O) C) as (j & Cj & Nj). exists c, bl, bp, j. auto.
  - destruct (C63_pneq_full srt (as_sets labels) pp 2%nat o Hsrt ml_data ml_mixed O1 O2) as (m & E & L & F).
    destruct (C07_pneq_full srt 2%nat labels pp o' Hsrt Hd H2 O3 O4) as (m' & E' & L' & F').
    exists m. split; [exact E|]. rewrite E'. f_equal. symmetry. rewrite Len in L. apply (mask_eq m m' _ L L'). intros e He. rewrite F, F', Len.
    rewrite (beaten_two e Hg He). reflexivity.
Qed.
Lemma exclusive_scores srt method alpha : argsort_ok srt -> (forall a, alpha = Some a -> 0 <= a /\ a <= 1) ->
  exists s s', ml_label_quality_scores srt (as_sets labels) pp 2 method false alpha = Ok s /\
    get_label_quality_scores labels pp 2 method false = Ok s' /\ length s = length labels /\ length s' = length labels /\
    forall e, (e < length labels)%nat -> nth e s 0 == nth e s' 0 /\ nth e s 0 == prob_of pp e (label_of labels e).
Proof.
  intros Hsrt Ha. assert (Len : length (as_sets labels) = length labels) by (unfold as_sets; apply map_length).
  destruct (ml_mixed 0%nat ltac:(lia)) as ((e1 & He1 & M1) & (e2 & He2 & M2)).
  destruct (C64_overall_full srt (as_sets labels) pp 2%nat method false alpha Hsrt ml_data ltac:(lia)
    (conj (ex_intro _ e1 (ex_intro _ 0%nat (conj He1 (conj (Nat.lt_0_succ 1) M1)))) (ex_intro _ e2 (ex_intro _ 0%nat (conj He2 (conj (Nat.lt_0_succ 1) M2))))) Ha)
    as (cs & s & Ecs & Es & Ls & Fs).
  destruct (C64_class_full (as_sets labels) pp 2%nat method ml_data (ex_intro _ e1 (ex_intro _ 0%nat (conj He1 M1)))) as (cs' & Ecs' & Lcs & Fcs).
  assert (cs' = cs) as -> by congruence.
  destruct (C15_scores_full 2%nat labels pp method Hd ltac:(lia)) as (s' & Es' & Ls' & Fs').
  exists s, s'. split; [exact Es|]. split; [exact Es'|]. rewrite Len in Ls. split; [exact Ls|]. split; [exact Ls'|].
  intros e He. destruct (row_two e He) as (x & y & Er & S1). pose proof (lab_two e He) as L2.
  assert (Each : forall c, (c < 2)%nat -> nth c (nth e cs []) 0 == prob_of pp e (label_of labels e)).
  { intros c Hc. destruct (Fcs e ltac:(lia)) as (_ & Fc). destruct (Fc c Hc) as (F1 & F2 & _). rewrite has_iff in F1, F2 by exact He.
    destruct (Nat.eq_dec (label_of labels e) c) as [E|N]; [rewrite (F1 E), E; reflexivity|]. rewrite (F2 N). unfold prob_of. rewrite Er.
    destruct (label_of labels e) as [|[|]]; [| |lia]; destruct c as [|[|]]; try lia; cbn; lra. }
  destruct (Fs e ltac:(lia)) as (_ & (c1 & Hc1 & P1) & (c2 & Hc2 & P2) & _). rewrite Each in P1 by exact Hc1. rewrite Each in P2 by exact Hc2.
  assert (G : nth e s 0 == prob_of pp e (label_of labels e)) by lra. split; [|exact G]. rewrite G.
  destruct (Fs' e He) as (_ & _ & F). destruct method; [rewrite F; reflexivity|].
  destruct F as (b & (Hb1 & Hb2) & F & _). rewrite F. clear F. unfold prob_of, row_of in *. rewrite Er in *.
  destruct Hb1 as (j & Hj & Nj & Ej). cbn [length] in Hj. destruct (label_of labels e) as [|[|]]; [| |lia]; destruct j as [|[|]]; try lia; cbn [nth] in *; rewrite <- Ej; unfold Qdiv; change (/ 2) with (1 # 2); lra.
Qed.
End Two.
