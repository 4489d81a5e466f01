(** * Proofs about the report of the null check *)
From Coq Require Import String QArith List Bool Arith Lia Lqa.
From Verif Require Import Base BaseFacts ModelDatalab SpecDatalab ProofDatalab ModelReport SpecReport ProofReport ModelNullReport SpecNullReport.
From Verif Require ModelChecks SpecChecks ProofChecks.
Import ListNotations.
Open Scope string_scope.
Open Scope list_scope.
Open Scope nat_scope.

Lemma note_mentions n : mentions (note n) n.
Proof. unfold note. split; intros H; destruct (Nat.eqb_spec n 0); try lia; reflexivity. Qed.

Lemma rows_having_filter {R} (P : R -> Prop) (f : R -> bool) l : (forall r, In r l -> (f r = true <-> P r)) -> rows_having P l (length (filter f l)).
Proof.
  intros H. exists (filter (fun i => match nth_error l i with Some r => f r | None => false end) (seq 0 (length l))). split; [|split].
  - apply NoDup_filter, seq_NoDup.
  - clear H. assert (G : forall k l0, length (filter (fun i => match nth_error l0 (i - k) with Some r => f r | None => false end) (seq k (length l0))) = length (filter f l0)).
    { clear. intros k l0. revert k. induction l0 as [|x l0 IH]; intros k; [reflexivity|]. cbn [length seq filter]. rewrite Nat.sub_diag. cbn [nth_error].
      assert (E : forall i, In i (seq (S k) (length l0)) -> match nth_error (x :: l0) (i - k) with Some r => f r | None => false end =
        match nth_error l0 (i - S k) with Some r => f r | None => false end).
      { intros i Hi. apply in_seq in Hi. replace (i - k) with (S (i - S k)) by lia. reflexivity. }
      rewrite (filter_ext_in _ _ _ E). destruct (f x); cbn [length]; rewrite IH; reflexivity. }
    rewrite <- (G 0 l). f_equal. apply filter_ext. intros i. rewrite Nat.sub_0_r. reflexivity.
  - intros i. rewrite filter_In, in_seq. split.
    + intros (_ & F). destruct (nth_error l i) as [r|] eqn:E; [|discriminate]. exists r. split; [reflexivity|]. apply H; [eapply nth_error_In; eauto|exact F].
    + intros (r & E & Pr). rewrite E. split.
      * assert (i < length l) by (apply nth_error_Some; congruence). lia.
      * apply H; [eapply nth_error_In; eauto|exact Pr].
Qed.

Lemma filter_map_length {A B} (g : A -> B) (p : B -> bool) l : length (filter p (map g l)) = length (filter (fun x => p (g x)) l).
Proof. induction l as [|x l IH]; [reflexivity|]. cbn. destruct (p (g x)); cbn; rewrite IH; reflexivity. Qed.
Lemma combine_map {A B C} (f : A -> B) (g : A -> C) l : combine (map f l) (map g l) = map (fun x => (f x, g x)) l.
Proof. induction l as [|x l IH]; [reflexivity|]. cbn. now rewrite IH. Qed.

Section Rows.
Context {V : Type} (cols : nat) (features : list (list (option V))).
Hypothesis Hc : 0 < cols.
Hypothesis Hr : forall r, In r features -> length r = cols.

Lemma missing_count (r : list (option V)) : count_true (map ModelChecks.is_missing r) <= length r /\
  (count_true (map ModelChecks.is_missing r) = length r <-> all_missing r) /\ (0 < count_true (map ModelChecks.is_missing r) <-> In None r).
Proof.
  induction r as [|c r (I1 & I2 & I3)]; [cbn; repeat split; try lia; try (intros _ x []); intros []|].
  unfold all_missing in *. destruct c as [v|].
  - cbn [map ModelChecks.is_missing]. change (count_true (false :: map ModelChecks.is_missing r)) with (count_true (map ModelChecks.is_missing r)).
    cbn [length]. split; [lia|]. split; split.
    + lia.
    + intros A. specialize (A (Some v) (or_introl eq_refl)). discriminate.
    + intros H. right. now apply I3.
    + intros [H|H]; [discriminate|]. now apply I3.
  - cbn [map ModelChecks.is_missing]. change (count_true (true :: map ModelChecks.is_missing r)) with (S (count_true (map ModelChecks.is_missing r))).
    cbn [length]. split; [lia|]. split; split.
    + intros E c [<-|H]; [reflexivity|]. revert c H. apply I2. lia.
    + intros A. f_equal. apply I2. intros c H. apply A. now right.
    + intros _. now left.
    + intros _. lia.
Qed.

Lemma flags_rows rep : ModelChecks.null_check cols features = Ok rep ->
  exists full partial, rows_having all_missing features full /\ rows_having some_missing features partial /\
    count_true (ModelChecks.flags rep) = full /\
    length (filter is_true_cell (map CFlag (ModelChecks.flags rep))) = full /\
    length (filter (fun p => below_one (snd p) && negb (is_true_cell (fst p))) (combine (map CFlag (ModelChecks.flags rep)) (map CNum (ModelChecks.scores rep)))) = partial.
Proof.
  unfold ModelChecks.null_check. destruct (ModelChecks.make_summary _) as [s|e]; [|discriminate]. cbn [rbind]. intros E. injection E as <-.
  cbn [ModelChecks.flags ModelChecks.scores]. unfold ModelChecks.null_tracker. rewrite !map_map.
  rewrite (combine_map (fun x => CFlag (Nat.eqb (cols - count_true (map ModelChecks.is_missing x)) 0))).
  rewrite !filter_map_length. cbn [fst snd is_true_cell below_one].
  eexists _, _. split; [|split; [|split; [|split; [reflexivity|reflexivity]]]].
  - apply rows_having_filter. intros r H. destruct (missing_count r) as (I1 & I2 & _). rewrite (Hr r H) in *. rewrite Nat.eqb_eq.
    rewrite <- I2. lia.
  - apply rows_having_filter. intros r H. destruct (missing_count r) as (I1 & I2 & I3). rewrite (Hr r H) in *.
    set (c := count_true (map ModelChecks.is_missing r)) in *.
    rewrite andb_true_iff, negb_true_iff, Nat.eqb_neq, Qltb_iff.
    assert (L : (Qnat (cols - c) / Qnat cols < 1)%Q <-> 0 < c).
    { assert (P : (0 < Qnat cols)%Q) by (apply Qnat_pos; lia). split.
      - intros Q1. destruct (Nat.eq_dec c 0) as [Z|]; [|lia]. exfalso. rewrite Z, Nat.sub_0_r in Q1. revert Q1. apply Qle_not_lt.
        apply Qle_shift_div_l; [exact P|]. rewrite Qmult_1_l. apply Qle_refl.
      - intros C. apply Qlt_shift_div_r; [exact P|]. rewrite Qmult_1_l. apply Qnat_lt_iff. lia. }
    rewrite L, I3. unfold some_missing. split.
    + intros (N & D). split; [exact N|]. destruct (Exists_dec (fun x => x <> None) r) as [X|X].
      * intros [v|]; [left; discriminate|right; congruence].
      * apply Exists_exists in X. destruct X as ([v|] & Hv & Hn); [exists v; exact Hv|congruence].
      * exfalso. apply D. enough (c = cols) by lia. apply I2. intros x Hx. destruct x as [v|]; [|reflexivity].
        exfalso. apply X, Exists_exists. exists (Some v). split; [exact Hx|discriminate].
    + intros (N & v & Hv). split; [exact N|]. intros Z. assert (c = cols) by lia. apply I2 in H0. specialize (H0 _ Hv). discriminate.
  - unfold count_true. rewrite filter_map_length. reflexivity.
Qed.
End Rows.

Section Report.
Context {A W V : Type} (n : nat) (stats : list (string * idict A W)) (history : list (list (check (idict A W)))).
Let log := all_outcomes (init_issues n stats) history.
Let st := audit n stats history.
Hypothesis Hwf : well_formed_log n log.

Lemma notes_full cols (features : list (list (option V))) rep out argsort fuel t (d : labels A) levels_of k v s :
  0 < cols -> (forall r, In r features -> length r = cols) -> ModelChecks.null_check cols features = Ok rep ->
  latest "null" log (Some out) ->
  m_frame out = [(flag_column "null", map CFlag (ModelChecks.flags rep)); (score_column "null", map CNum (ModelChecks.scores rep))] ->
  check_report argsort fuel t d levels_of k v st "null" = Ok s ->
  exists full partial a b, rows_having all_missing features full /\ rows_having some_missing features partial /\
    null_section argsort fuel t d levels_of k v st = Ok (s, (a, b)) /\ mentions a full /\ mentions b partial /\ s_count s = full.
Proof.
  intros Hc Hr Nc La Fr Cr. destruct (flags_rows cols features Hc Hr rep Nc) as (full & partial & R1 & R2 & F0 & F1 & F2).
  destruct (audit_latest n stats history "null" Hwf _ La) as (fl & sc & Hfr & Gs & H1 & H2 & H3). fold st in Gs, H1, H2, H3.
  assert (Efs : map CFlag fl = map CFlag (ModelChecks.flags rep) /\ map CNum sc = map CNum (ModelChecks.scores rep)) by (rewrite Fr in Hfr; injection Hfr as <- <-; auto).
  destruct Efs as (Ef & Es).
  exists full, partial, (note full), (note partial). split; [exact R1|]. split; [exact R2|]. split; [|split; [apply note_mentions|split; [apply note_mentions|]]].
  - unfold null_section. rewrite Cr. cbn [rbind]. unfold check_report in Cr. destruct (levels_of "null") as [levels|]; [|discriminate].
    destruct (get_issues_table t d "null" st) as [tab|e] eqn:Gt; [|discriminate]. cbn [rbind] in *.
    unfold get_issues_table in Gt. destruct (get_issues (Some "null") st) as [cs|e] eqn:Gi; [|discriminate]. cbn [rbind] in Gt. rewrite H3 in Gt.
    destruct (show_info t d "null" (m_info out)) as [i|e]; [|discriminate]. cbn [rbind] in Gt.
    destruct (rmap _ _) as [ex|e]; [|discriminate]. cbn [rbind] in Gt. injection Gt as <-. cbn [fst].
    apply get_issues_cols in Gi. subst cs. unfold null_notes. rewrite !(lookup_filter_key (contains "null")), contains_flag, contains_score, H1, H2, Ef, Es.
    cbn [rbind]. rewrite F1, F2. reflexivity.
  - unfold check_report in Cr. destruct (levels_of "null") as [levels|]; [|discriminate].
    destruct (get_issues_table t d "null" st) as [tab|e] eqn:Gt; [|discriminate]. cbn [rbind] in Cr. rewrite Gs in Cr. cbn [rbind] in Cr. rewrite H3 in Cr.
    unfold get_issues_table in Gt. destruct (get_issues (Some "null") st) as [cs|e] eqn:Gi; [|discriminate]. cbn [rbind] in Gt. rewrite H3 in Gt.
    destruct (show_info t d "null" (m_info out)) as [i|e]; [|discriminate]. cbn [rbind] in Gt, Cr.
    destruct (rmap _ _) as [ex|e]; [|discriminate]. cbn [rbind] in Gt. injection Gt as <-. cbn [fst snd] in Cr.
    apply get_issues_cols in Gi. subst cs. unfold manager_report in Cr. destruct (Nat.ltb _ _); [discriminate|].
    rewrite !(lookup_filter_key (contains "null")), contains_flag, contains_score, H1, H2 in Cr.
    destruct (numbers _) as [q|e]; [|discriminate]. cbn [rbind] in Cr. destruct (rmap _ _) as [vs|e]; [|discriminate]. cbn [rbind] in Cr.
    destruct (rmap _ vs) as [sh|e]; [|discriminate]. cbn [rbind] in Cr. injection Cr as <-. cbn [s_count].
    rewrite Ef. unfold num_true. rewrite map_map. cbn [is_true_cell]. rewrite map_id. exact F0.
Qed.

(** whether the report has a section about null values *)
Lemma section_iff cols (features : list (list (option V))) rep out sort_rows argsort fuel t (d : labels A) levels_of show_all k v rows sections :
  0 < cols -> (forall r, In r features -> length r = cols) -> ModelChecks.null_check cols features = Ok rep ->
  latest "null" log (Some out) ->
  m_frame out = [(flag_column "null", map CFlag (ModelChecks.flags rep)); (score_column "null", map CNum (ModelChecks.scores rep))] ->
  sorts_by_num sort_rows -> argsort_ok argsort ->
  get_report sort_rows argsort fuel t d levels_of show_all k v st = Ok (Report rows sections) ->
  (In "null" (map s_name sections) <-> show_all = true \/ exists r, In r features /\ all_missing r).
Proof.
  intros Hc Hr Nc La Fr Hs Ha Hg. destruct (flags_rows cols features Hc Hr rep Nc) as (full & partial & R1 & _ & F0 & _).
  destruct (audit_latest n stats history "null" Hwf _ La) as (fl & sc & Hfr & Gs & _). fold st in Gs.
  assert (Ef : count_true fl = full).
  { assert (E : map CFlag fl = map CFlag (ModelChecks.flags rep)) by (rewrite Fr in Hfr; injection Hfr as <- _; reflexivity).
    rewrite <- F0. assert (G : forall a b, map CFlag a = map CFlag b -> a = b) by (induction a as [|x a IH]; intros [|y b]; cbn; intros Z; try discriminate; [reflexivity|injection Z as <- Z; f_equal; auto]).
    now rewrite (G _ _ E). }
  destruct (contents_full n stats history Hwf sort_rows argsort fuel Hs Ha t d levels_of show_all k v _ Hg) as (C1 & _ & _ & C4 & _). fold st in C1.
  rewrite C4, filter_In, in_map_iff.
  assert (U : forall r, In r (issue_summary st) -> r_type r = "null" -> r_num r = full).
  { intros r I T. unfold get_issue_summary in Gs. destruct (issue_summary st) as [|r0 l]; [discriminate|].
    destruct (filter _ (r0 :: l)) as [|r1 l1] eqn:E; [discriminate|].
    assert (J : In r (filter (fun r => String.eqb (r_type r) "null") (r0 :: l))) by (apply filter_In; split; [exact I|now apply String.eqb_eq]).
    rewrite E in J. injection Gs as E1 E2. subst r1 l1. destruct J as [<-|[]]. cbn [r_num]. exact Ef. }
  assert (X : 0 < full <-> exists r, In r features /\ all_missing r).
  { destruct R1 as (w & Nd & Lw & Iw). split.
    - intros P. destruct w as [|i w]; [cbn in Lw; lia|]. destruct (proj1 (Iw i) (or_introl eq_refl)) as (r & E & M). exists r. split; [eapply nth_error_In; eauto|exact M].
    - intros (r & I & M). apply In_nth_error in I. destruct I as (i & E). assert (J : In i w) by (apply Iw; eauto). destruct w; [destruct J|cbn in Lw; lia]. }
  rewrite <- X. split.
  - intros ((r & T & I) & _). apply C1 in I. destruct I as (I & [S1|P]); [left; exact S1|right]. now rewrite <- (U r I T).
  - intros H. split; [|reflexivity].
    unfold get_issue_summary in Gs. destruct (issue_summary st) as [|r0 l] eqn:Es; [discriminate|].
    destruct (filter _ (r0 :: l)) as [|r1 l1] eqn:E; [discriminate|].
    assert (J : In r1 (filter (fun r => String.eqb (r_type r) "null") (r0 :: l))) by (rewrite E; now left).
    apply filter_In in J. destruct J as (J & T). apply String.eqb_eq in T. exists r1. split; [exact T|]. apply C1. split; [exact J|].
    destruct H as [H|H]; [left; exact H|right]. now rewrite (U r1 J T).
Qed.
End Report.
