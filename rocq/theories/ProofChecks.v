(** * Proofs about the per-dataset checks: imbalance, null values, identifier columns *)
From Coq Require Import QArith List Bool Arith ZArith Permutation Sorted Lia Lqa.
From Verif Require Import Base BaseFacts ProofUtil ProofCount ProofNoise ModelRank ModelChecks SpecChecks.
Import ListNotations.
Open Scope Q_scope.

(** ** Class imbalance *)
Lemma fraction_count c labels : fraction c labels = Qnat (count c labels) / Qnat (length labels).
Proof.
  unfold fraction. rewrite count_length. f_equal. f_equal. f_equal. apply filter_ext. intros x. apply Nat.eqb_sym.
Qed.
Lemma flt_le {A} (f : A -> bool) l : (length (filter f l) <= length l)%nat.
Proof. induction l as [|x l IH]; cbn; [lia|]. destruct (f x); cbn; lia. Qed.
Lemma fraction_bounds c labels : 0 <= fraction c labels <= 1.
Proof.
  unfold fraction. destruct labels as [|y l].
  - cbn. unfold Qdiv. split; [apply Qle_refl|]. cbn. discriminate.
  - assert (P : 0 < Qnat (length (y :: l))) by (apply Qnat_pos; cbn; lia).
    split.
    + apply Qle_shift_div_l; [exact P|]. rewrite Qmult_0_l. apply Qnat_nonneg.
    + apply Qle_shift_div_r; [exact P|]. rewrite Qmult_1_l. apply Qnat_le. apply flt_le.
Qed.
Lemma make_summary_ok x : 0 <= x <= 1 -> make_summary x = Ok x.
Proof.
  intros [A B]. unfold make_summary.
  assert (E1 : Qltb x 0 = false) by (apply Qltb_false; exact A).
  assert (E2 : Qltb 1 x = false) by (apply Qltb_false; exact B).
  rewrite E1, E2. reflexivity.
Qed.

Definition imb_probs labels := map (fun c => Qnat c / Qnat (length labels)) (bincount labels).
Lemma imb_probs_length labels : labels <> [] -> length (imb_probs labels) = (nmax labels + 1)%nat.
Proof.
  intros H. unfold imb_probs. rewrite map_length. destruct labels; [congruence|]. cbn [bincount]. apply tab_length.
Qed.
Lemma nth_imb_probs labels c : labels <> [] -> (c < nmax labels + 1)%nat -> nth c (imb_probs labels) 0 = fraction c labels.
Proof.
  intros H Hc. pose proof (imb_probs_length labels H) as L. unfold imb_probs in *. rewrite map_length in L.
  rewrite (nth_map_gen _ _ _ _ 0%nat) by lia. rewrite fraction_count. f_equal. f_equal.
  destruct labels as [|y l]; [congruence|]. cbn [bincount]. rewrite nth_tab by exact Hc. reflexivity.
Qed.
Lemma imb_rarest labels : labels <> [] -> rarest_class labels (nmax labels + 1) (argmin (imb_probs labels)).
Proof.
  intros H. pose proof (imb_probs_length labels H) as L.
  destruct (argmin_spec (imb_probs labels)) as [A [B C]].
  { intros E. rewrite E in L. cbn in L. lia. }
  rewrite L in A. unfold rarest_class. split; [exact A|]. split.
  - intros c Hc. specialize (B c). rewrite L in B. specialize (B Hc).
    rewrite !nth_imb_probs in B by (auto; lia). exact B.
  - intros c Hc. specialize (C c Hc). rewrite !nth_imb_probs in C by (auto; lia). exact C.
Qed.

Theorem imbalance_spec threshold K labels : labels <> [] -> (0 < K)%nat ->
  exists r rep, class_imbalance threshold K labels = Ok rep /\ rarest_class labels (nmax labels + 1) r /\
    length (flags rep) = length labels /\ length (scores rep) = length labels /\
    summary rep = fraction r labels /\
    forall i, (i < length labels)%nat ->
      (nth i (flags rep) false = true <-> nth i labels 0%nat = r /\ fraction r labels < threshold / Qnat K) /\
      (nth i labels 0%nat = r -> nth i (scores rep) 0 = fraction r labels) /\
      (nth i labels 0%nat <> r -> nth i (scores rep) 0 = 1).
Proof.
  intros H HK. exists (argmin (imb_probs labels)). pose proof (imb_rarest labels H) as R.
  set (r := argmin (imb_probs labels)) in *.
  assert (Hp : nth r (imb_probs labels) 0 = fraction r labels) by (apply nth_imb_probs; [exact H| apply R]).
  exists (Report (map (fun y => Qltb (fraction r labels) (threshold * (1 / Qnat K)) && Nat.eqb y r) labels)
            (map (fun y => if Nat.eqb y r then fraction r labels else 1) labels) (fraction r labels)).
  split.
  { destruct K as [|K]; [lia|].
    assert (E0 : class_imbalance threshold (S K) labels = do s <- make_summary (nth r (imb_probs labels) 0) ;
      Ok (Report (map (fun y => Qltb (nth r (imb_probs labels) 0) (threshold * (1 / Qnat (S K))) && Nat.eqb y r) labels)
            (map (fun y => if Nat.eqb y r then nth r (imb_probs labels) 0 else 1) labels) s)).
    { unfold r. destruct labels as [|y l]; [congruence|reflexivity]. }
    rewrite E0, Hp, make_summary_ok by apply fraction_bounds. reflexivity. }
  split; [exact R|]. cbn [flags scores summary]. rewrite !map_length. split; [reflexivity|]. split; [reflexivity|].
  split; [reflexivity|].
  intros i Hi. rewrite !(nth_map_gen _ _ _ _ 0%nat) by exact Hi.
  assert (PK : 0 < Qnat K) by (apply Qnat_pos; exact HK).
  assert (E : threshold * (1 / Qnat K) == threshold / Qnat K) by (field; lra).
  split; [|split].
  - rewrite andb_true_iff, Qltb_iff, Nat.eqb_eq, E. tauto.
  - intros E'. rewrite E', Nat.eqb_refl. reflexivity.
  - intros E'. apply Nat.eqb_neq in E'. rewrite E'. reflexivity.
Qed.

Lemma rarest_unique labels m r r' : rarest_class labels m r -> rarest_class labels m r' -> r = r'.
Proof.
  intros [A [B C]] [A' [B' C']]. destruct (Nat.lt_trichotomy r r') as [L|[L|L]]; [|exact L|].
  - specialize (C' r L). specialize (B r' A'). lra.
  - specialize (C r' L). specialize (B' r A). lra.
Qed.
Lemma fraction_pos c labels : In c labels -> 0 < fraction c labels.
Proof.
  intros H. unfold fraction. assert (P : 0 < Qnat (length labels)).
  { apply Qnat_pos. destruct labels; [destruct H|cbn; lia]. }
  apply Qlt_shift_div_l; [exact P|]. rewrite Qmult_0_l. apply Qnat_pos.
  assert (I : In c (filter (Nat.eqb c) labels)) by (apply filter_In; split; [exact H|apply Nat.eqb_refl]).
  destruct (filter (Nat.eqb c) labels); [destruct I|cbn; lia].
Qed.
Lemma fraction_absent c labels : ~ In c labels -> fraction c labels == 0.
Proof.
  intros H. unfold fraction.
  assert (E : filter (Nat.eqb c) labels = []).
  { destruct (filter (Nat.eqb c) labels) as [|x t] eqn:E; [reflexivity|].
    assert (I : In x (filter (Nat.eqb c) labels)) by (rewrite E; left; reflexivity).
    apply filter_In in I. destruct I as [I1 I2]. apply Nat.eqb_eq in I2. subst x. contradiction. }
  rewrite E. cbn [length]. unfold Qdiv. rewrite Qnat_0. apply Qmult_0_l.
Qed.

Theorem imbalance_all_classes threshold K labels : (0 < K)%nat -> (forall c, In c labels <-> (c < K)%nat) ->
  exists rep, class_imbalance threshold K labels = Ok rep /\ length (flags rep) = length labels /\
    exists r, rarest_class labels K r /\ summary rep = fraction r labels /\
    forall i, (i < length labels)%nat ->
      (nth i (flags rep) false = true <-> nth i labels 0%nat = r /\ fraction r labels < threshold / Qnat K) /\
      (nth i labels 0%nat = r -> nth i (scores rep) 0 = fraction r labels) /\
      (nth i labels 0%nat <> r -> nth i (scores rep) 0 = 1).
Proof.
  intros HK HC. assert (H : labels <> []).
  { intros E. assert (I : In 0%nat labels) by (apply HC; exact HK). rewrite E in I. destruct I. }
  destruct (imbalance_spec threshold K labels H HK) as [r [rep [E [R [L1 [L2 [S F]]]]]]].
  exists rep. split; [exact E|]. split; [exact L1|]. exists r.
  assert (EM : (nmax labels + 1)%nat = K).
  { assert (I1 : (nmax labels < K)%nat) by (apply HC, nmax_in, H).
    assert (I2 : (K - 1 <= nmax labels)%nat) by (apply nmax_ge, HC; lia). lia. }
  rewrite EM in R. split; [exact R|]. split; [exact S|exact F].
Qed.

(** some class id below the largest one has no example: nothing is flagged *)
Theorem imbalance_absent threshold K labels c : (0 < K)%nat -> ~ In c labels -> (c < nmax labels)%nat ->
  exists rep, class_imbalance threshold K labels = Ok rep /\
    (forall i, nth i (flags rep) false = false) /\ (forall s, In s (scores rep) -> s = 1).
Proof.
  intros HK HN Hc. assert (H : labels <> []) by (intros E; rewrite E in Hc; cbn in Hc; lia).
  destruct (imbalance_spec threshold K labels H HK) as [r [rep [E [R [L1 [L2 [S F]]]]]]].
  exists rep. split; [exact E|].
  assert (NR : ~ In r labels).
  { intros I. destruct R as [_ [R _]]. specialize (R c ltac:(lia)).
    pose proof (fraction_pos r labels I). rewrite (fraction_absent c labels HN) in R. lra. }
  split.
  - intros i. destruct (Nat.lt_ge_cases i (length labels)) as [Hi|Hi].
    + destruct (F i Hi) as [F1 _]. destruct (nth i (flags rep) false); [|reflexivity]. exfalso.
      destruct (proj1 F1 eq_refl) as [F2 _]. apply NR. rewrite <- F2. apply nth_In, Hi.
    + apply nth_overflow. lia.
  - intros s I. destruct (In_nth _ _ 0 I) as [i [Hi E']]. rewrite L2 in Hi. rewrite <- E'.
    destruct (F i Hi) as [_ [_ F3]]. apply F3. intros E''. apply NR. rewrite <- E''. apply nth_In, Hi.
Qed.

(** ** Null values *)
Section NullProofs.
Context {V : Type}.
Implicit Type features : list (list (option V)).
Lemma present_missing (r : list (option V)) : (present r + count_true (map is_missing r) = length r)%nat.
Proof.
  unfold present. rewrite count_true_map. induction r as [|c r IH]; [reflexivity|].
  destruct c; cbn [filter is_missing length]; lia.
Qed.
Lemma present_all (r : list (option V)) : present r = 0%nat <-> forall c, In c r -> c = None.
Proof.
  unfold present. induction r as [|c r IH]; cbn [filter].
  - split; [intros _ c []|reflexivity].
  - destruct c as [v|]; cbn [length].
    + split; [discriminate|]. intros H. specialize (H (Some v) (or_introl eq_refl)). discriminate.
    + rewrite IH. split; [intros H c [<-|I]; auto| intros H c I; apply H; right; exact I].
Qed.

Theorem null_spec cols features : (0 < cols)%nat -> features <> [] -> (forall r, In r features -> length r = cols) ->
  exists rep, null_check cols features = Ok rep /\
    length (flags rep) = length features /\ length (scores rep) = length features /\
    summary rep = qmean (scores rep) /\ 
    forall i, (i < length features)%nat ->
      (nth i (flags rep) false = true <-> forall c, In c (nth i features []) -> c = None) /\
      nth i (scores rep) 0 = Qnat (present (nth i features [])) / Qnat cols.
Proof.
  intros HC HF HL. unfold null_check, null_tracker. rewrite map_map. rewrite map_map. 
  set (sc := map (fun x => Qnat (cols - count_true (map is_missing x)) / Qnat cols) features).
  assert (PC : 0 < Qnat cols) by (apply Qnat_pos; exact HC).
  assert (B : 0 <= qmean sc <= 1).
  { apply qmean_bounds. 
    - unfold sc. destruct features; [congruence|discriminate].
    - intros x I. unfold sc in I. apply in_map_iff in I. destruct I as [r [<- I]]. split.
      + apply Qle_shift_div_l; [exact PC|]. rewrite Qmult_0_l. apply Qnat_nonneg.
      + apply Qle_shift_div_r; [exact PC|]. rewrite Qmult_1_l. apply Qnat_le. lia. }
  rewrite make_summary_ok by exact B. cbn [rbind]. eexists. split; [reflexivity|]. cbn [flags scores summary].
  unfold sc. rewrite !map_length. split; [reflexivity|]. split; [reflexivity|]. split; [reflexivity|].
  intros i Hi. rewrite !map_map. rewrite !(nth_map_gen _ features _ _ []) by exact Hi.
  assert (I : In (nth i features []) features) by (apply nth_In, Hi).
  pose proof (present_missing (nth i features [])) as PM. rewrite (HL _ I) in PM.
  assert (E : (cols - count_true (map is_missing (nth i features [])) = present (nth i features []))%nat) by lia.
  rewrite E. split; [|reflexivity]. rewrite Nat.eqb_eq. apply present_all.
Qed.
End NullProofs.

Lemma beq_pattern_eq a : forall b, beq_pattern a b = true <-> a = b.
Proof.
  induction a as [|x a IH]; intros [|y b]; cbn; try (split; [reflexivity||discriminate|reflexivity||discriminate]).
  rewrite andb_true_iff, Bool.eqb_true_iff, IH. split; [intros [-> ->]; reflexivity|intros E; injection E; auto].
Qed.
Lemma most_common_fold l : forall t b, let m := fold_left (fun best p => if Nat.ltb (occurrences best l) (occurrences p l) then p else best) t b in
  (m = b \/ In m t) /\ (occurrences b l <= occurrences m l)%nat /\ forall p, In p t -> (occurrences p l <= occurrences m l)%nat.
Proof.
  induction t as [|x t IH]; intros b; cbn [fold_left].
  - split; [left; reflexivity|]. split; [lia|intros p []].
  - cbv zeta. specialize (IH (if (occurrences b l <? occurrences x l)%nat then x else b)). cbv zeta in IH.
    destruct IH as [A [B C]]. destruct (Nat.ltb_spec (occurrences b l) (occurrences x l)) as [H|H].
    + split; [destruct A as [A|A]; right; [left; congruence|right; exact A]|].
      split; [lia|]. intros p [<-|I]; [exact B|apply C, I].
    + split; [destruct A as [A|A]; [left; exact A|right; right; exact A]|].
      split; [exact B|]. intros p [<-|I]; [lia|apply C, I].
Qed.
Lemma most_common_spec l : l <> [] -> In (most_common l) l /\ forall p, In p l -> (occurrences p l <= occurrences (most_common l) l)%nat.
Proof.
  intros H. destruct (most_common_fold l l (hd [] l)) as [A [B C]]. fold (most_common l) in *. split; [|exact C].
  destruct A as [A|A]; [|exact A]. rewrite A. destruct l; [congruence|left; reflexivity].
Qed.

Lemma nully_iff r : existsb (fun b => b) r = true <-> nully r.
Proof. rewrite existsb_exists. split; [intros [x [I E]]; subst x; exact I|intros I; exists true; auto]. Qed.

Lemma occ_rows tracker p : nully p ->
  let N := where_ (map (fun r => existsb (fun b => b) r) tracker) in
  let P := map (fun i => nth i tracker []) N in
  map (fun i => nth i N 0%nat) (where_ (map (fun r => beq_pattern r p) P)) = rows_with p tracker /\
  occurrences p P = length (rows_with p tracker).
Proof.
  intros Hp N P.
  assert (E : map (fun i => nth i N 0%nat) (where_ (map (fun r => beq_pattern r p) P)) = rows_with p tracker).
  { apply sorted_lt_ext.
    - unfold P. rewrite map_map.
      assert (SN : StronglySorted lt N) by apply where_sorted.
      assert (SW := where_sorted (map (fun x => beq_pattern (nth x tracker []) p) N)).
      assert (BW : forall i, In i (where_ (map (fun x => beq_pattern (nth x tracker []) p) N)) -> (i < length N)%nat).
      { intros i I. apply where_lt in I. rewrite map_length in I. exact I. }
      revert SW BW. generalize (where_ (map (fun x => beq_pattern (nth x tracker []) p) N)) as W.
      assert (NM : forall a b, (a < b)%nat -> (b < length N)%nat -> (nth a N 0 < nth b N 0)%nat).
      { clear - SN. induction SN as [|x l S IH F]; intros a b Hab Hb; [cbn in Hb; lia|].
        destruct b as [|b]; [lia|]. destruct a as [|a]; cbn [nth].
        - rewrite Forall_forall in F. apply F. apply nth_In. cbn in Hb. lia.
        - apply IH; cbn in Hb; lia. }
      intros W. induction 1 as [|x l S IH F]; intros BW; cbn; constructor.
      + apply IH. intros i I. apply BW. right. exact I.
      + rewrite Forall_forall in *. intros y I. apply in_map_iff in I. destruct I as [z [<- I]].
        apply NM; [apply F, I|apply BW; right; exact I].
    - unfold rows_with. apply filter_seq_sorted.
    - intros i. split.
      + intros I. apply in_map_iff in I. destruct I as [j [<- I]]. pose proof (where_lt _ _ I) as Lj.
        rewrite map_length in Lj. unfold P in Lj. rewrite map_length in Lj.
        apply in_where in I. unfold P in I. rewrite map_map in I. rewrite (nth_map_gen _ _ _ _ 0%nat) in I by exact Lj.
        apply beq_pattern_eq in I. unfold rows_with. apply filter_In.
        assert (IN : In (nth j N 0%nat) N) by (apply nth_In, Lj).
        apply where_lt in IN. rewrite map_length in IN. split; [apply in_seq; lia|].
        destruct (list_eq_dec bool_dec _ p); [reflexivity|contradiction].
      + intros I. unfold rows_with in I. apply filter_In in I. destruct I as [I1 I2]. apply in_seq in I1.
        destruct (list_eq_dec bool_dec (nth i tracker []) p) as [E|]; [|discriminate].
        assert (IN : In i N).
        { unfold N. apply in_where. rewrite (nth_map_gen _ _ _ _ []) by lia. apply nully_iff. rewrite E. exact Hp. }
        destruct (In_nth _ _ 0%nat IN) as [j [Lj Ej]]. apply in_map_iff. exists j. split; [exact Ej|].
        apply in_where. unfold P. rewrite map_map. rewrite (nth_map_gen _ _ _ _ 0%nat) by exact Lj.
        apply beq_pattern_eq. rewrite Ej. exact E. }
  split; [exact E|]. rewrite <- E, map_length, where_length, count_true_map. unfold occurrences.
  f_equal. apply filter_ext. intros a. destruct (beq_pattern p a) eqn:E1, (beq_pattern a p) eqn:E2; try reflexivity.
  - apply beq_pattern_eq in E1. subst. assert (beq_pattern a a = true) by (apply beq_pattern_eq; reflexivity). congruence.
  - apply beq_pattern_eq in E2. subst. assert (beq_pattern p p = true) by (apply beq_pattern_eq; reflexivity). congruence.
Qed.

Theorem common_none tracker : (forall r, In r tracker -> ~ nully r) -> most_common_issue tracker = CommonIssue None [] 0.
Proof.
  intros H. unfold most_common_issue.
  destruct (existsb (fun r => existsb (fun b => b) r) tracker) eqn:E; [|reflexivity]. exfalso.
  apply existsb_exists in E. destruct E as [r [I E]]. apply (H r I). apply nully_iff, E.
Qed.
Theorem common_some tracker r0 : In r0 tracker -> nully r0 ->
  exists p, most_common_issue tracker = CommonIssue (Some p) (rows_with p tracker) (length (rows_with p tracker)) /\
    nully p /\ rows_with p tracker <> [] /\
    forall q, nully q -> (length (rows_with q tracker) <= length (rows_with p tracker))%nat.
Proof.
  intros H0 N0. unfold most_common_issue.
  assert (E : existsb (fun r => existsb (fun b => b) r) tracker = true).
  { apply existsb_exists. exists r0. split; [exact H0|apply nully_iff, N0]. }
  rewrite E. 
  set (N := where_ (map (fun r => existsb (fun b => b) r) tracker)).
  set (P := map (fun i => nth i tracker []) N).
  assert (PN : forall q, In q P -> nully q).
  { intros q I. unfold P in I. apply in_map_iff in I. destruct I as [i [<- I]]. pose proof (where_lt _ _ I) as L.
    rewrite map_length in L. apply in_where in I. rewrite (nth_map_gen _ _ _ _ []) in I by exact L. apply nully_iff, I. }
  assert (PI : forall i, (i < length tracker)%nat -> nully (nth i tracker []) -> In (nth i tracker []) P).
  { intros i L Hn. unfold P. apply (in_map (fun i => nth i tracker [])). unfold N. apply in_where. rewrite (nth_map_gen _ _ _ _ []) by exact L.
    apply nully_iff, Hn. }
  assert (PE : P <> []).
  { destruct (In_nth _ _ [] H0) as [i [L Ei]]. intros Z. specialize (PI i L). rewrite Ei, Z in PI. exact (PI N0). }
  destruct (most_common_spec P PE) as [M1 M2]. exists (most_common P).
  pose proof (PN _ M1) as NP. destruct (occ_rows tracker _ NP) as [R1 R2]. fold N in R1, R2. fold P in R1, R2.
  rewrite R1, R2. split; [reflexivity|]. split; [exact NP|]. split.
  - intros Z. rewrite Z in R2. unfold occurrences in R2.
    assert (I : In (most_common P) (filter (beq_pattern (most_common P)) P)).
    { apply filter_In. split; [exact M1|apply beq_pattern_eq; reflexivity]. }
    destruct (filter (beq_pattern (most_common P)) P); [destruct I|discriminate].
  - intros q Nq. destruct (rows_with q tracker) as [|i t] eqn:Eq; [cbn; lia|]. rewrite <- Eq.
    assert (I : In i (rows_with q tracker)) by (rewrite Eq; left; reflexivity).
    unfold rows_with in I. apply filter_In in I. destruct I as [I1 I2]. apply in_seq in I1.
    destruct (list_eq_dec bool_dec (nth i tracker []) q) as [E'|]; [|discriminate].
    assert (Iq : In q P) by (rewrite <- E'; apply PI; [lia|rewrite E'; exact Nq]).
    specialize (M2 q Iq). destruct (occ_rows tracker q Nq) as [_ R2']. fold N in R2'. fold P in R2'. rewrite R2, R2' in M2. exact M2.
Qed.

Theorem column_impact_spec cols tracker j : (j < cols)%nat ->
  nth j (column_impact cols tracker) 0 ==
    Qnat (length (filter (fun r => nth j r false) tracker)) / Qnat (length tracker).
Proof.
  intros H. unfold column_impact. rewrite nth_tab by exact H. unfold qmean. rewrite map_length.
  apply Qmult_comp; [|reflexivity]. induction tracker as [|r t IH]; [reflexivity|].
  cbn [map filter]. rewrite qsum_cons, IH. destruct (nth j r false); cbn [length]; rewrite ?Qnat_S; ring.
Qed.

(** ** Identifier columns *)
Lemma zinsert_in x l z : In z (zinsert x l) <-> z = x \/ In z l.
Proof.
  induction l as [|y t IH]; cbn; [intuition|].
  destruct (Z.eqb_spec x y) as [->|H]; cbn; [intuition|].
  destruct (Z.ltb_spec x y); cbn; [intuition|]. rewrite IH. intuition.
Qed.
Lemma zinsert_sorted x l : StronglySorted Z.lt l -> StronglySorted Z.lt (zinsert x l).
Proof.
  induction 1 as [|y t S IH F]; cbn; [constructor; constructor|].
  destruct (Z.eqb_spec x y) as [->|H]; [constructor; assumption|].
  destruct (Z.ltb_spec x y).
  - constructor; [constructor; assumption|]. constructor; [assumption|]. rewrite Forall_forall in *. intros z I. specialize (F z I). lia.
  - constructor; [exact IH|]. rewrite Forall_forall in *. intros z I. apply zinsert_in in I. destruct I as [->|I]; [lia|auto].
Qed.
Lemma zunique_in l z : In z (zunique l) <-> In z l.
Proof. induction l as [|x l IH]; cbn; [tauto|]. rewrite zinsert_in, IH. intuition. Qed.
Lemma zunique_sorted l : StronglySorted Z.lt (zunique l).
Proof. induction l; cbn; [constructor|apply zinsert_sorted; assumption]. Qed.
Lemma zsorted_ext : forall l l', StronglySorted Z.lt l -> StronglySorted Z.lt l' -> (forall z, In z l <-> In z l') -> l = l'.
Proof.
  induction l as [|x l IH]; intros [|y l'] S S' H; [reflexivity| | |].
  - exfalso. apply (proj2 (H y)). left. reflexivity.
  - exfalso. apply (proj1 (H x)). left. reflexivity.
  - inversion_clear S as [|a b S1 F1]. inversion_clear S' as [|a b S2 F2]. rewrite Forall_forall in F1, F2.
    assert (E : x = y).
    { destruct (proj1 (H x) (or_introl eq_refl)) as [E|I]; [auto|].
      destruct (proj2 (H y) (or_introl eq_refl)) as [E|I']; [auto|]. specialize (F1 y I'). specialize (F2 x I). lia. }
    subst y. f_equal. apply IH; auto. intros z. split; intros I.
    + destruct (proj1 (H z) (or_intror I)) as [<-|I2]; [specialize (F1 x I); lia|exact I2].
    + destruct (proj2 (H z) (or_intror I)) as [<-|I2]; [specialize (F2 x I); lia|exact I2].
Qed.
Lemma zlist_eqb_eq a : forall b, zlist_eqb a b = true <-> a = b.
Proof.
  induction a as [|x a IH]; intros [|y b]; cbn; try (split; [reflexivity||discriminate|reflexivity||discriminate]).
  rewrite andb_true_iff, Z.eqb_eq, IH. split; [intros [-> ->]; reflexivity|intros E; injection E; auto].
Qed.
Lemma zrange_sorted a n : StronglySorted Z.lt (tab n (fun i => a + Z.of_nat i)%Z).
Proof.
  revert a. induction n as [|n IH]; intros a; [constructor|]. rewrite tab_S. constructor.
  - assert (E : tab n (fun i => (a + Z.of_nat (S i))%Z) = tab n (fun i => (a + 1 + Z.of_nat i)%Z)) by (apply tab_ext; intros; lia).
    rewrite E. apply IH.
  - apply Forall_forall. intros z I. apply in_tab in I. destruct I as [i [_ ->]]. lia.
Qed.
Lemma zrange_in a n z : In z (tab n (fun i => a + Z.of_nat i)%Z) <-> (a <= z < a + Z.of_nat n)%Z.
Proof.
  rewrite in_tab. split.
  - intros [i [H ->]]. lia.
  - intros H. exists (Z.to_nat (z - a)). split; lia.
Qed.
Theorem sequential_iff col : is_sequential col = true <-> consecutive_run col.
Proof.
  unfold is_sequential, consecutive_run. pose proof (zunique_in col) as UI. pose proof (zunique_sorted col) as US. split.
  - destruct (zunique col) as [|m t] eqn:E; [discriminate|]. cbv zeta. rewrite <- E in *. rewrite tab_length.
    set (n := Z.to_nat (last (zunique col) 0 + 1 - m)%Z).
    destruct (Nat.eqb_spec n 1) as [H1|H1]; [discriminate|]. cbn [orb].
    destruct (Nat.eqb_spec (length (zunique col)) n) as [H2|H2]; [|discriminate]. cbn [negb].
    intros H. apply zlist_eqb_eq in H. exists m, (m + Z.of_nat n - 1)%Z.
    assert (0 < n)%nat by (rewrite <- H2, E; cbn; lia). split; [lia|].
    intros z. rewrite <- UI, <- H, zrange_in. lia.
  - intros [a [b [Hab H]]].
    assert (E : zunique col = tab (Z.to_nat (b + 1 - a)) (fun i => a + Z.of_nat i)%Z).
    { apply zsorted_ext; [exact US|apply zrange_sorted|]. intros z. rewrite UI, H, zrange_in. lia. }
    assert (EL : last (zunique col) 0%Z = b).
    { rewrite E. replace (Z.to_nat (b + 1 - a)) with (S (Z.to_nat (b - a))) by lia. rewrite tab_snoc, last_last. lia. }
    assert (EC : exists t, zunique col = a :: t).
    { rewrite E. replace (Z.to_nat (b + 1 - a)) with (S (Z.to_nat (b - a))) by lia. rewrite tab_S. eexists. f_equal. lia. }
    destruct EC as [t EC]. rewrite EC. cbv zeta. rewrite <- EC. rewrite EL, tab_length.
    rewrite E at 1. rewrite tab_length, Nat.eqb_refl.
    destruct (Nat.eqb_spec (Z.to_nat (b + 1 - a)) 1) as [H1|H1]; [lia|]. cbn [orb negb].
    apply zlist_eqb_eq. symmetry. exact E.
Qed.
Definition identifier_column (c : column) : Prop := exists v, c = IntColumn v /\ consecutive_run v.
Theorem identifier_spec columns : columns <> [] ->
  exists rep ids, identifier_check columns = Ok (rep, ids) /\
    StronglySorted lt ids /\
    (forall j, In j ids <-> (j < length columns)%nat /\ identifier_column (nth j columns (OtherColumn 0))) /\
    (summary rep = 0 <-> ids <> []) /\ (summary rep = 1 <-> ids = []) /\
    length (flags rep) = column_size (hd (OtherColumn 0) columns) /\
    length (scores rep) = column_size (hd (OtherColumn 0) columns) /\
    (forall f, In f (flags rep) -> f = false) /\ (forall s, In s (scores rep) -> s = 1).
Proof.
  intros H. set (c := hd (OtherColumn 0) columns).
  assert (E0 : identifier_check columns = do s <- make_summary (if existsb (fun b => b) (map is_identifier columns) then 0 else 1) ;
    Ok (Report (repeat false (column_size c)) (repeat 1 (column_size c)) s, where_ (map is_identifier columns))).
  { unfold c. destruct columns; [congruence|reflexivity]. }
  rewrite E0.
  assert (M : forall b : bool, make_summary (if b then 0 else 1) = Ok (if b then 0 else 1)).
  { intros []; apply make_summary_ok; lra. }
  rewrite M. cbn [rbind]. eexists. eexists. split; [reflexivity|]. cbn [summary flags scores].
  split; [apply where_sorted|]. split.
  { intros j. rewrite in_where. unfold identifier_column. split.
    - intros I. destruct (Nat.lt_ge_cases j (length columns)) as [L|L].
      + split; [exact L|]. rewrite (nth_map_gen _ _ _ _ (OtherColumn 0)) in I by exact L.
        destruct (nth j columns (OtherColumn 0)) as [v|n]; [|discriminate]. exists v. split; [reflexivity|apply sequential_iff, I].
      + rewrite nth_overflow in I by (rewrite map_length; exact L). discriminate.
    - intros [L [v [E1 E2]]]. rewrite (nth_map_gen _ _ _ _ (OtherColumn 0)) by exact L. rewrite E1. apply sequential_iff, E2. }
  assert (W : existsb (fun b => b) (map is_identifier columns) = true <-> where_ (map is_identifier columns) <> []).
  { rewrite existsb_exists. split.
    - intros [b [I Eb]]. subst b. destruct (In_nth _ _ false I) as [j [_ Ej]]. intros Z.
      assert (I' : In j (where_ (map is_identifier columns))) by (apply in_where, Ej). rewrite Z in I'. destruct I'.
    - intros Z. destruct (where_ (map is_identifier columns)) as [|j w] eqn:Ew; [congruence|].
      assert (I' : In j (where_ (map is_identifier columns))) by (rewrite Ew; left; reflexivity).
      pose proof (where_lt _ _ I') as L. apply in_where in I'. exists true. split; [|reflexivity]. rewrite <- I'. apply nth_In, L. }
  rewrite !repeat_length. refine (conj _ (conj _ (conj eq_refl (conj eq_refl (conj _ _))))).
  - rewrite <- W. destruct (existsb (fun b => b) (map is_identifier columns)); split; auto; discriminate.
  - destruct (existsb (fun b => b) (map is_identifier columns)) eqn:Ex.
    + split; [discriminate|]. intros Z. exfalso. apply (proj1 W eq_refl), Z.
    + split; [|auto]. intros _. destruct (where_ (map is_identifier columns)) as [|j w] eqn:Ew; [reflexivity|]. 
      exfalso. assert (false = true) by (apply W; discriminate). discriminate.
  - intros f I. apply repeat_spec in I. exact I.
  - intros s I. apply repeat_spec in I. exact I.
Qed.
