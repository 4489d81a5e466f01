(** * Proofs about what Datalab's label check stores *)
From Coq Require Import String QArith Qabs List ZArith Bool Arith Lia Lqa Permutation Sorted.
From Verif Require Import Base BaseFacts ModelUtil ModelCount ModelRank ModelFilter ModelBatched ModelLearn ModelDataset
     ModelLabelCheck ModelLabelInfo SpecCount SpecFilter SpecLatent SpecDataset SpecLearn SpecLabelInfo
     ProofCount ProofFilter ProofDataset ProofLearn.
Import ListNotations.
Open Scope Q_scope.

Section Info.
  Variable srt : list Q -> list nat.
  Variable minv : matrix -> res matrix.
  Variable js : nat -> jobs.
  Variable cfg : settings.

  (** what a completed check went through *)
  Lemma check_ok kw qk user st k labels K pps fs th nm im sv flags scores score info :
    label_check srt minv js cfg kw qk user st k labels K pps fs th nm im sv = Ok (flags, scores, score, info) ->
    exists pp cl df args joint,
      probabilities k labels K pps fs pp /\
      find_label_issues srt minv js cfg {| ds_labels := labels; ds_pred_probs := Some pp; ds_cv := Raise ValueError |}
        th nm im sv (new_object kw qk) = (cl, Ok df) /\
      d_issue df = Some (BoolCol flags) /\ d_quality df = Some scores /\
      d_given df = Some labels /\ d_predicted df = Some (map argmax pp) /\
      get_label_quality_scores labels pp (width pp) (fst qk) (snd qk) = Ok scores /\
      assert_valid_inputs labels pp (width pp) false = Ok tt /\
      summary_parameters (reset user st) labels pp = Ok args /\
      health_summary srt (snd args) (fst args) = Ok (score, joint, li_classes info, li_overlapping info) /\
      info = {| li_num_label_issues := count_true flags;
               li_average_label_quality := qmean scores;
               li_given_label := labels;
               li_predicted_label := map argmax pp;
               li_classes := li_classes info;
               li_overlapping := li_overlapping info;
               li_confident_joint := c_cj cl;
               li_py := c_py cl;
               li_noise_matrix := c_noise cl;
               li_inverse_noise_matrix := c_inverse cl;
               li_confident_thresholds := get_confident_thresholds labels pp (width pp);
               li_used_features := match pps with None => true | Some _ => false end;
               li_used_pred_probs := match pps with None => false | Some _ => true end |}.
  Proof.
    intro H. unfold label_check in H.
    destruct (match pps, fs with Some p, _ => Ok p | None, None => Raise ValueError | None, Some nb => features_pred_probs k labels K nb end) as [pp|] eqn:EP; cbn [rbind] in H; [|discriminate].
    assert (PP : probabilities k labels K pps fs pp).
    { unfold probabilities. destruct pps as [p|]; [congruence|]. destruct fs as [nb|]; [|discriminate]. exists nb. split; auto. }
    unfold label_find_issues, mbind, lift in H. rewrite EP in H.
    destruct (find_label_issues srt minv js cfg _ th nm im sv (new_object kw qk)) as [cl [df|]] eqn:EF; cbn [rbind] in H; [|discriminate].
    destruct (assert_valid_inputs labels pp (width pp) false) as [[]|] eqn:EV; cbn [rbind] in H; [|discriminate].
    destruct (summary_parameters (reset user st) labels pp) as [args|] eqn:EA; cbn [rbind] in H; [|discriminate].
    destruct (health_summary srt (snd args) (fst args)) as [[[[sc jo] cls] ov]|] eqn:EH; cbn [rbind] in H; [|discriminate].
    destruct (find_ok _ _ _ _ _ _ _ _ _ _ _ _ EF) as (q & _ & Q & R). injection Q as <-.
    assert (T : exists m, d_issue df = Some (BoolCol m) /\ exists s, d_quality df = Some s /\ get_label_quality_scores labels pp (width pp) (fst qk) (snd qk) = Ok s /\
        d_given df = Some labels /\ d_predicted df = Some (map argmax pp)).
    { destruct (low_memory cfg).
      - destruct R as (pp' & m & s & E1 & _ & E3 & ->). injection E1 as <-. exists m. split; [reflexivity|]. exists s. auto.
      - destruct R as (kw' & _ & (pp' & m & s & E1 & _ & E3 & ->) & _). injection E1 as <-. exists m. split; [reflexivity|]. exists s. auto. }
    destruct T as (m & T1 & s & T2 & T3 & T4 & T5). rewrite T1, T2, T4, T5 in H. injection H as <- <- <- <-.
    exists pp, cl, df, args, jo. repeat (split; [assumption|]). reflexivity.
  Qed.

  Lemma plain_args st labels pp user args : plain_statistics st -> summary_parameters (reset user st) labels pp = Ok args ->
    user = None ->
    fst args = {| in_labels := Some labels; in_pred_probs := Some pp; in_K := width pp; in_num_examples := None;
                  in_joint := None; in_confident_joint := None |}.
  Proof.
    intros (P1 & P2) E ->. unfold summary_parameters, reset in E. cbn in E. rewrite P1, P2 in E. injection E as <-. reflexivity.
  Qed.

  (** the score of a summary of labels and probabilities *)
  Lemma data_summary labels pp asym score joint cls ov :
    health_summary srt asym {| in_labels := Some labels; in_pred_probs := Some pp; in_K := width pp; in_num_examples := None;
                  in_joint := None; in_confident_joint := None |} = Ok (score, joint, cls, ov) ->
    estimate_joint srt labels pp (width pp) None = Ok joint /\ exists issues, num_label_issues srt labels pp (width pp) = Ok issues /\ (issues <= length labels)%nat /\ ~ Qnat (length labels) == 0 /\ score = 1 - Qnat issues / Qnat (length labels).
  Proof.
    intros H. unfold health_summary in H. cbn [in_labels in_pred_probs in_K in_num_examples in_joint in_confident_joint the_joint estimate_joint_opt] in H.
    destruct (estimate_joint srt labels pp (width pp) None) as [j|] eqn:EJ; cbn [rbind] in H; [|discriminate].
    cbn [get_num_examples rbind] in H.
    destruct (rank_classes_by_label_quality srt _) as [c|]; cbn [rbind] in H; [|discriminate].
    destruct (find_overlapping_classes srt _ _) as [o|]; cbn [rbind] in H; [|discriminate].
    unfold overall_label_health_score in H. cbn [in_labels in_pred_probs in_K in_num_examples rbind] in H.
    destruct (num_label_issues srt labels pp (width pp)) as [issues|] eqn:E; cbn [rbind] in H; [|discriminate].
    destruct (Qeq_bool (Qnat (length labels)) 0) eqn:Z; cbn [rbind] in H; [discriminate|]. injection H as <- <- <- <-.
    split; [reflexivity|]. exists issues. apply Qeq_bool_neq in Z. pose proof (num_label_issues_le _ _ _ _ _ E). auto.
  Qed.

  Lemma score_arith n c : (c <= n)%nat -> ~ Qnat n == 0 ->
    (1 - Qnat c / Qnat n) * Qnat n == Qnat n - Qnat c /\ 0 <= 1 - Qnat c / Qnat n <= 1.
  Proof.
    intros L N. pose proof (Qnat_nonneg n). pose proof (Qnat_nonneg c). apply Qnat_le in L.
    assert (0 < Qnat n) by (destruct (Qlt_le_dec 0 (Qnat n)); [assumption|exfalso; apply N; lra]). split; [field; lra|].
    assert (0 <= Qnat c / Qnat n) by (apply Qle_shift_div_l; lra).
    assert (Qnat c / Qnat n <= 1) by (apply Qle_shift_div_r; lra). lra.
  Qed.

  Lemma mask_holds m n P : length m = n -> (forall e, flagged m e <-> (e < n)%nat /\ P e) -> holds_for n P (count_true m).
  Proof.
    intros L H. exists (where_ m). split; [apply NoDup_filter, seq_NoDup|]. split; [apply where_length|].
    intro i. rewrite <- H. unfold where_, flagged. rewrite filter_In, in_seq. split; [tauto|]. intro F. split; [|exact F].
    destruct (Nat.lt_ge_cases i (length m)) as [L'|L']; [lia|]. rewrite nth_overflow in F by lia. discriminate.
  Qed.

  Theorem score_full kw qk st k labels K pps fs th nm im sv flags scores score info pp :
    argsort_ok srt -> plain_statistics st ->
    label_check srt minv js cfg kw qk None st k labels K pps fs th nm im sv = Ok (flags, scores, score, info) ->
    probabilities k labels K pps fs pp -> dataset (length (nth 0 pp [])) labels pp -> two_classes labels ->
    exists errors, holds_for (length labels) (estimated_error (li_confident_thresholds info) labels pp) errors /\
      score * Qnat (length labels) == Qnat (length labels) - Qnat errors /\ 0 <= score <= 1.
  Proof.
    intros HS PS H PP D T. destruct (check_ok _ _ _ _ _ _ _ _ _ _ _ _ _ _ _ _ _ H) as (pp' & cl & df & args & joint & PP' & _ & _ & _ & _ & _ & _ & _ & EA & EH & EI).
    assert (pp' = pp). { unfold probabilities in *. destruct pps; [congruence|]. destruct PP as (a & A1 & A2), PP' as (b & B1 & B2). congruence. }
    subst pp'. rewrite (plain_args _ _ _ _ _ PS EA eq_refl) in EH. apply data_summary in EH. destruct EH as (_ & issues & EN & LE & NZ & ->).
    pose (o := {| frac_noise := 1; num_to_remove_per_class := None; min_examples_per_class := 1; confident_joint := None; n_jobs := 1; sched_c := []; sched_n := [] |}).
    destruct (C06_full srt (width pp) labels pp o HS D T eq_refl (le_n 1)) as (m & _ & ML & MN & MF).
    exists issues. split; [|apply score_arith; assumption].
    rewrite MN in EN. injection EN as <-. rewrite EI. cbn [li_confident_thresholds]. apply mask_holds; [exact ML|exact MF].
  Qed.

  (** filters that flag exactly as many examples as are estimated to be mislabelled *)
  Theorem matches_flags kw qk st k labels K pps fs th nm im sv flags scores score info pp f :
    argsort_ok srt -> plain_statistics st -> low_memory cfg = false -> pulearning cfg = None ->
    kw_filter kw = Some f -> f = ConfidentLearning \/ f = LowNormalizedMargin \/ f = LowSelfConfidence ->
    label_check srt minv js cfg kw qk None st k labels K pps fs th nm im sv = Ok (flags, scores, score, info) ->
    probabilities k labels K pps fs pp -> dataset (length (nth 0 pp [])) labels pp -> two_classes labels ->
    length flags = length labels /\ score * Qnat (length labels) == Qnat (length labels) - Qnat (li_num_label_issues info).
  Proof.
    intros HS PS LM PU KF FF H PP D T. destruct (check_ok _ _ _ _ _ _ _ _ _ _ _ _ _ _ _ _ _ H) as (pp' & cl & df & args & joint & PP' & EF & F1 & F2 & F3 & F4 & F5 & F6 & EA & EH & EI).
    assert (pp' = pp). { unfold probabilities in *. destruct pps; [congruence|]. destruct PP as (a & A1 & A2), PP' as (b & B1 & B2). congruence. }
    subst pp'. rewrite (plain_args _ _ _ _ _ PS EA eq_refl) in EH. apply data_summary in EH. destruct EH as (_ & issues & EN & LE & NZ & ->).
    destruct (find_ok _ _ _ _ _ _ _ _ _ _ _ _ EF) as (q & _ & _ & R). rewrite LM in R.
    destruct R as (kw' & _ & (p2 & m & s2 & E1 & E2 & E3 & ->) & R). injection E1 as <-. cbn [d_issue ds_labels] in *. injection F1 as ->.
    assert (FK : filter_of kw' = f).
    { destruct (R PU) as (kw0 & K0 & _ & _ & [->|(cj & _ & ->)]); injection K0 as <-; unfold filter_of; cbn; now rewrite KF. }
    rewrite FK in E2.
    assert (NT : num_to_remove_per_class (options_of kw') = None /\ (1 <= n_jobs (options_of kw'))%nat).
    { unfold ModelFilter.find_label_issues in E2. destruct (assert_valid_inputs labels pp (width pp) (set_is_zero labels)); cbn [rbind] in E2; [|discriminate].
      assert (NP : is_prune f = false) by (destruct FF as [->|[->| ->]]; reflexivity). rewrite NP in E2. cbn [negb andb] in E2.
      destruct (num_to_remove_per_class (options_of kw')); [discriminate|]. destruct (Nat.ltb_spec (n_jobs (options_of kw')) 1); [discriminate|]. auto. }
    destruct NT as (NT & NJ).
    enough (length flags = length labels /\ issues = count_true flags) as (X1 & X2).
    { split; [exact X1|]. rewrite EI. cbn [li_num_label_issues]. subst issues. apply score_arith; assumption. }
    split; [eapply find_length; [apply D|exact E2]|].
    destruct FF as [->|FF].
    - destruct (C06_full srt (width pp) labels pp (options_of kw') HS D T NT NJ) as (m & M1 & _ & MN & _). congruence.
    - assert (LF : is_low f = true) by (destruct FF as [-> | ->]; reflexivity).
      destruct (low_spec srt labels pp (width pp) f (options_of kw') HS D T NT NJ LF) as (m & sc & N & M1 & _ & MN & _ & MC & _). congruence.
  Qed.

  Theorem table_full kw qk user st k labels K pps fs th nm im sv flags scores score info pp :
    label_check srt minv js cfg kw qk user st k labels K pps fs th nm im sv = Ok (flags, scores, score, info) ->
    probabilities k labels K pps fs pp -> dataset (length (nth 0 pp [])) labels pp -> (fst qk = SelfConfidence \/ (2 <= length (nth 0 pp []))%nat) ->
    length scores = length labels /\
    get_label_quality_scores labels pp (length (nth 0 pp [])) (fst qk) (snd qk) = Ok scores /\
    is_average scores (li_average_label_quality info) /\
    li_num_label_issues info = length (filter (fun b : bool => b) flags) /\
    li_given_label info = labels /\ length (li_predicted_label info) = length labels /\
    (forall e, (e < length labels)%nat -> most_likely (nth e pp []) (nth e (li_predicted_label info) 0%nat)) /\
    (li_used_features info = true <-> pps = None) /\ (li_used_pred_probs info = true <-> pps <> None).
  Proof.
    intros H PP D Q. destruct (check_ok _ _ _ _ _ _ _ _ _ _ _ _ _ _ _ _ _ H) as (pp' & cl & df & args & joint & PP' & EF & F1 & F2 & F3 & F4 & F5 & F6 & EA & EH & EI).
    assert (pp' = pp). { unfold probabilities in *. destruct pps; [congruence|]. destruct PP as (a & A1 & A2), PP' as (b & B1 & B2). congruence. }
    subst pp'. pose proof D as [DL DN DB DR DP].
    destruct (scores_ok (width pp) labels pp (fst qk) (snd qk) D Q) as (s & ES & LS). assert (s = scores) by congruence. subst s.
    split; [exact LS|]. split; [exact F5|]. rewrite EI. cbn [li_average_label_quality li_num_label_issues li_given_label li_predicted_label li_used_features li_used_pred_probs].
    split; [split|].
    - intros ->. destruct labels; [now apply DN|discriminate].
    - unfold qmean. field. rewrite LS. destruct labels; [now exfalso; apply DN|]. cbn [length]. unfold Qnat. rewrite Nat2Z.inj_succ. unfold Z.succ. rewrite inject_Z_plus.
      pose proof (Qnat_nonneg (length labels)) as X. unfold Qnat in X. change (inject_Z 1) with 1. lra.
    - split; [reflexivity|]. split; [reflexivity|]. split; [rewrite map_length; auto|]. split.
      + intros e He. rewrite (nth_indep _ 0%nat (argmax [])) by (rewrite map_length; lia). rewrite map_nth.
        assert (In (nth e pp []) pp) by (apply nth_In; lia).
        assert (NE : nth e pp [] <> []).
        { intro Z. pose proof (DR _ H0) as L. rewrite Z in L. cbn in L. destruct labels as [|l ls]; [now apply DN|]. pose proof (DB l (or_introl eq_refl)). lia. }
        pose proof (argmax_spec _ NE) as (A1 & A2 & A3). unfold most_likely. auto.
      + destruct pps; (split; split; intro X; try reflexivity; try discriminate; try (exfalso; now apply X)).
  Qed.

  (** the tables of the summary *)
  Theorem classes_full kw qk st k labels K pps fs th nm im sv flags scores score info pp :
    argsort_ok srt -> plain_statistics st ->
    label_check srt minv js cfg kw qk None st k labels K pps fs th nm im sv = Ok (flags, scores, score, info) ->
    probabilities k labels K pps fs pp -> dataset (length (nth 0 pp [])) labels pp ->
    exists joint, estimate_joint srt labels pp (length (nth 0 pp [])) None = Ok joint /\
    Permutation (map class_index (li_classes info)) (seq 0 (length (nth 0 pp []))) /\
    StronglySorted (fun r r' => class_quality r <= class_quality r') (li_classes info) /\
    (forall r, In r (li_classes info) -> (1 # 1000000) <= pr_given joint (class_index r) ->
       class_quality r * pr_given joint (class_index r) == mget joint (class_index r) (class_index r)) /\
    StronglySorted (fun r r' => overlap_prob r' <= overlap_prob r) (li_overlapping info) /\
    qsum (map overlap_prob (li_overlapping info)) == pr_wrong joint.
  Proof.
    intros HS PS H PP D. destruct (check_ok _ _ _ _ _ _ _ _ _ _ _ _ _ _ _ _ _ H) as (pp' & cl & df & args & joint & PP' & _ & _ & _ & _ & _ & _ & _ & EA & EH & EI).
    assert (pp' = pp). { unfold probabilities in *. destruct pps; [congruence|]. destruct PP as (a & A1 & A2), PP' as (b & B1 & B2). congruence. }
    subst pp'. rewrite (plain_args _ _ _ _ _ PS EA eq_refl) in EH. pose proof EH as EJ. apply data_summary in EJ. destruct EJ as (EJ & _).
    exists joint. split; [exact EJ|].
    destruct (estimate_joint_gen srt (width pp) labels pp None HS D) as (J & E1 & J1 & J2 & J3 & _); [discriminate|].
    assert (J = joint) by (unfold width in *; congruence). subst J.
    assert (NS : nonneg_square (width pp) joint).
    { split; [exact J1|]. split; [exact J2|]. intros r x Hr Hx. apply (In_nth _ _ []) in Hr. destruct Hr as (i & Hi & <-). apply (In_nth _ _ 0) in Hx. destruct Hx as (j & Hj & <-).
      apply (J3 i j); [lia|]. rewrite J2 in Hj; [exact Hj|]. apply nth_In. exact Hi. }
    exact (summary_tables srt (width pp) _ _ _ _ _ _ HS EH NS).
  Qed.

  (** the pairs in the overlap table *)
  Lemma summary_pairs K asym a score joint classes overlap : argsort_ok srt ->
    health_summary srt asym a = Ok (score, joint, classes, overlap) -> nonneg_square K joint ->
    NoDup (map (fun r => (overlap_a r, overlap_b r)) overlap) /\
    (forall x y, In (x, y) (map (fun r => (overlap_a r, overlap_b r)) overlap) <->
       (x < K)%nat /\ (y < K)%nat /\ (if asym then x <> y else (x < y)%nat)) /\
    (forall r, In r overlap -> overlap_prob r == (if asym then mget joint (overlap_a r) (overlap_b r) else pr_confused joint (overlap_a r) (overlap_b r))).
  Proof.
    intros HS H S. unfold health_summary in H.
    destruct (the_joint srt a) as [j|]; cbn [rbind] in H; [|discriminate].
    destruct (match in_num_examples a with Some n => Ok n | None => get_num_examples (in_labels a) None end) as [n|];
      cbn [rbind] in H; [|discriminate].
    set (a' := {| in_labels := in_labels a; in_pred_probs := in_pred_probs a; in_K := in_K a;
                 in_num_examples := Some n; in_joint := Some j; in_confident_joint := in_confident_joint a |}) in *.
    destruct (rank_classes_by_label_quality srt a') as [c|] eqn:EC; cbn [rbind] in H; [|discriminate].
    destruct (find_overlapping_classes srt asym a') as [o|] eqn:EO; cbn [rbind] in H; [|discriminate].
    destruct (overall_label_health_score srt _) as [s|]; cbn [rbind] in H; [|discriminate].
    injection H as -> -> -> ->. pose proof S as (L & R & _).
    destruct (find_overlapping_spec srt K asym a' joint n overlap HS L R eq_refl eq_refl EO) as (A & B & _ & C & _).
    split; [exact A|]. split; [exact B|]. intros r Hr. apply (C r Hr).
  Qed.
  Theorem overlap_full kw qk st k labels K pps fs th nm im sv flags scores score info pp :
    argsort_ok srt -> plain_statistics st ->
    label_check srt minv js cfg kw qk None st k labels K pps fs th nm im sv = Ok (flags, scores, score, info) ->
    probabilities k labels K pps fs pp -> dataset (length (nth 0 pp [])) labels pp ->
    exists joint, estimate_joint srt labels pp (length (nth 0 pp [])) None = Ok joint /\
    NoDup (map (fun r => (overlap_a r, overlap_b r)) (li_overlapping info)) /\
    (forall x y, In (x, y) (map (fun r => (overlap_a r, overlap_b r)) (li_overlapping info)) <->
       (x < length (nth 0 pp []))%nat /\ (y < length (nth 0 pp []))%nat /\ (st_asymmetric st = Some true /\ x <> y \/ st_asymmetric st <> Some true /\ (x < y)%nat)) /\
    (forall r, In r (li_overlapping info) ->
       (st_asymmetric st = Some true -> overlap_prob r == mget joint (overlap_a r) (overlap_b r)) /\
       (st_asymmetric st <> Some true -> overlap_prob r == pr_confused joint (overlap_a r) (overlap_b r))).
  Proof.
    intros HS PS H PP D. destruct (check_ok _ _ _ _ _ _ _ _ _ _ _ _ _ _ _ _ _ H) as (pp' & cl & df & args & joint & PP' & _ & _ & _ & _ & _ & _ & _ & EA & EH & EI).
    assert (pp' = pp). { unfold probabilities in *. destruct pps; [congruence|]. destruct PP as (a & A1 & A2), PP' as (b & B1 & B2). congruence. }
    subst pp'. assert (EB : snd args = match st_asymmetric st with Some b => b | None => false end).
    { destruct PS as (P1 & P2). unfold summary_parameters, reset in EA. cbn in EA. rewrite P1, P2 in EA. injection EA as <-. reflexivity. }
    rewrite (plain_args _ _ _ _ _ PS EA eq_refl) in EH. pose proof EH as EJ. apply data_summary in EJ. destruct EJ as (EJ & _).
    exists joint. split; [exact EJ|].
    destruct (estimate_joint_gen srt (width pp) labels pp None HS D) as (J & E1 & J1 & J2 & J3 & _); [discriminate|].
    assert (J = joint) by (unfold width in *; congruence). subst J.
    assert (NS : nonneg_square (width pp) joint).
    { split; [exact J1|]. split; [exact J2|]. intros r x Hr Hx. apply (In_nth _ _ []) in Hr. destruct Hr as (i & Hi & <-). apply (In_nth _ _ 0) in Hx. destruct Hx as (j & Hj & <-).
      apply (J3 i j); [lia|]. rewrite J2 in Hj; [exact Hj|]. apply nth_In. exact Hi. }
    destruct (summary_pairs (width pp) _ _ _ _ _ _ HS EH NS) as (A & B & C). fold (width pp). rewrite EB in *. split; [exact A|]. split.
    - intros x y. rewrite B. destruct (st_asymmetric st) as [[|]|]; intuition congruence.
    - intros r Hr. specialize (C r Hr). destruct (st_asymmetric st) as [[|]|]; split; intros N; congruence || exact C.
  Qed.

  (** the confident joint in the info *)
  Lemma find_first_cj kw qk ds th nm im sv s1 t : pulearning cfg = None -> low_memory cfg = false -> kw_cj kw = None ->
    find_label_issues srt minv js cfg ds th nm im sv (new_object kw qk) = (s1, Ok t) ->
    exists pp cj idx, get_pred_probs ds = Ok pp /\
      compute_confident_joint srt (ds_labels ds) pp (width pp) th true = Ok (cj, idx) /\ c_cj s1 = Some (zmat_to_q cj).
  Proof.
    intros PU LM C0 H.
    unfold find_label_issues in H. rewrite LM, PU in H.
    apply mbind_ok in H. destruct H as (s2 & [] & E2 & H). injection E2 as <- _. destruct (low_trace nm || low_trace im)%bool; [discriminate|].
    apply mbind_ok in H. destruct H as (s3 & K & E3 & H). injection E3 as <- _. apply mbind_ok in H. destruct H as (s4 & [] & E4 & H). injection E4 as <-.
    destruct (_ && _)%bool; [discriminate|].
    apply mbind_ok in H. destruct H as (s5 & [pp m] & E5 & H).
    apply mbind_ok in E5. destruct E5 as (s6 & [] & E6 & E5). apply mbind_ok in E5. destruct E5 as (s7 & pp' & E7 & E5).
    apply mbind_ok in E5. destruct E5 as (s8 & [] & E8 & E5). injection E8 as <-. apply mbind_ok in E5. destruct E5 as (s9 & [] & E9 & E5).
    apply mbind_ok in E5. destruct E5 as (s10 & k & E10 & E5). injection E10 as <- <-.
    assert (S6 : c_cj s6 = None).
    { unfold process_label_issues_kwargs, mbind, get in E6. cbn in E6. destruct (kw_unsupported kw); [discriminate|]. rewrite C0 in E6.
      cbn in E6. injection E6 as <-. reflexivity. }
    destruct (estimate_first _ _ _ _ _ _ _ _ _ _ S6 E7) as (cj & idx & J1 & J2). pose proof (estimate_sets _ _ _ _ _ _ _ _ _ _ E7) as (PP & _ & K7 & _).
    exists pp', cj, idx. refine (conj PP (conj J1 _)).
    assert (K9 : c_cj s9 = Some (zmat_to_q cj)).
    { apply (f_equal fst) in E9. cbn [fst remember_joint modify] in E9. rewrite <- E9. rewrite J2. destruct (c_kwargs s7) as [k7|]; [|exact J2].
      destruct (kw_cj k7); [exact J2|]. destruct (kw_filter k7) as [[]|]; exact J2. }
    assert (K5 : c_cj s5 = c_cj s9).
    { destruct (c_kwargs s9) as [k9|] eqn:X9; [|discriminate]. apply mbind_ok in E5. destruct E5 as (s11 & m' & E11 & E5). injection E11 as <- _. injection E5 as <- _ _. reflexivity. }
    cbn [fst snd] in H. apply mbind_ok in H. destruct H as (s12 & q & E12 & H). injection E12 as <- <-.
    destruct (c_quality_kwargs s5) as [[]|]; [|discriminate]. apply mbind_ok in H. destruct H as (s13 & q' & E13 & H). injection E13 as <- _.
    apply mbind_ok in H. destruct H as (s14 & [] & E14 & H). injection H as <- _.
    destruct sv; injection E14 as <-; cbn; congruence.
  Qed.

  Theorem info_joint kw qk user st k labels K pps fs th nm im sv flags scores score info pp :
    argsort_ok srt -> low_memory cfg = false -> pulearning cfg = None -> kw_cj kw = None ->
    label_check srt minv js cfg kw qk user st k labels K pps fs th nm im sv = Ok (flags, scores, score, info) ->
    probabilities k labels K pps fs pp -> dataset (length (nth 0 pp [])) labels pp ->
    exists counts, li_confident_joint info = Some (map (map inject_Z) counts) /\ length counts = length (nth 0 pp []) /\
      forall i, (i < length (nth 0 pp []))%nat -> zsum (nth i counts []) = Z.of_nat (n_labelled i labels).
  Proof.
    intros HS LM PU C0 H PP D. destruct (check_ok _ _ _ _ _ _ _ _ _ _ _ _ _ _ _ _ _ H) as (pp' & cl & df & args & joint & PP' & EF & _ & _ & _ & _ & _ & _ & _ & _ & EI).
    assert (pp' = pp). { unfold probabilities in *. destruct pps; [congruence|]. destruct PP as (a & A1 & A2), PP' as (b & B1 & B2). congruence. }
    subst pp'. destruct (find_first_cj _ _ _ _ _ _ _ _ _ PU LM C0 EF) as (p & cj & idx & EP & EC & ECJ). injection EP as <-. cbn [ds_labels] in EC.
    exists cj. rewrite EI. cbn [li_confident_joint]. split; [exact ECJ|].
    unfold compute_confident_joint in EC.
    set (thr := match th with None => _ | Some _ => _ end) in EC.
    destruct D as [DL DN DB DR DP].
    destruct (calibrate_spec srt (width pp) _ labels HS (uncalibrated_cj_ok labels pp thr (width pp)) DN DB) as (zm & EZ & Z1 & Z2).
    rewrite EZ in EC. cbn [rbind] in EC. assert (zm = cj) by congruence. subst cj. split; [exact Z1|]. intros i Hi. apply Z2. exact Hi.
  Qed.

  (** parameters for the health summary *)
  Theorem parameters_full kw qk hp st k labels K pps fs th nm im sv out :
    label_check srt minv js cfg kw qk (Some hp) st k labels K pps fs th nm im sv = Ok out ->
    hp_class_names hp <> None /\ hp_confident_joint hp = None /\ (hp_joint hp = None \/ hp_num_examples hp = None).
  Proof.
    destruct out as [[[flags scores] score] info]. intro H. destruct (check_ok _ _ _ _ _ _ _ _ _ _ _ _ _ _ _ _ _ H) as (pp & cl & df & args & joint & _ & _ & _ & _ & _ & _ & _ & _ & EA & EH & _).
    unfold summary_parameters, reset in EA. destruct (hp_class_names hp); [|discriminate]. split; [discriminate|].
    destruct (hp_confident_joint hp) as [cj|].
    - injection EA as <-. exfalso. unfold health_summary in EH. cbn in EH. discriminate.
    - split; [reflexivity|]. destruct (hp_joint hp); [|now left]. destruct (hp_num_examples hp); [|now right].
      injection EA as <-. exfalso. cbn [fst snd] in EH. rewrite summary_joint_only in EH. discriminate.
  Qed.
End Info.

Theorem same_score srt minv js cfg kw qk st k K th nm im sv flags scores score info minv' js' cfg' kw' qk' st' k' K' fs fs' th' nm' im' sv' flags' scores' score' info' labels pp :
    plain_statistics st -> plain_statistics st' ->
    label_check srt minv js cfg kw qk None st k labels K (Some pp) fs th nm im sv = Ok (flags, scores, score, info) ->
    label_check srt minv' js' cfg' kw' qk' None st' k' labels K' (Some pp) fs' th' nm' im' sv' = Ok (flags', scores', score', info') ->
    score = score'.
Proof.
  intros P P' H H'. destruct (check_ok _ _ _ _ _ _ _ _ _ _ _ _ _ _ _ _ _ _ _ _ _ H) as (p & cl & df & args & joint & -> & _ & _ & _ & _ & _ & _ & _ & EA & EH & _).
  destruct (check_ok _ _ _ _ _ _ _ _ _ _ _ _ _ _ _ _ _ _ _ _ _ H') as (p' & cl' & df' & args' & joint' & -> & _ & _ & _ & _ & _ & _ & _ & EA' & EH' & _).
  rewrite (plain_args _ _ _ _ _ P EA eq_refl) in EH. rewrite (plain_args _ _ _ _ _ P' EA' eq_refl) in EH'.
  apply data_summary in EH. apply data_summary in EH'. destruct EH as (_ & i & E & _ & _ & ->). destruct EH' as (_ & i' & E' & _ & _ & ->). congruence.
Qed.
