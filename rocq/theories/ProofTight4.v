(** * Further facts found by trying wrong programs: empty sentences, class maps, integer flags, passed noise rates *)
From Coq Require Import QArith List ZArith Bool Arith Lia Lqa.
From Verif Require Import Base BaseFacts ModelUtil ModelLatent SpecCount ProofUtil ProofCount ProofLatent ProofEstimate ProofTight2.
From Verif Require ModelToken ModelRank ModelBatched ModelLearn ProofLearn.
Import ListNotations.
Open Scope Q_scope.

(** ** sentences without tokens *)
Lemma rmap_raises {A B} (f : A -> res B) l x : In x l -> (forall y, (exists v, f y = Ok v) \/ f y = Raise ValueError) -> f x = Raise ValueError ->
  rmap f l = Raise ValueError.
Proof.
  intros I T E. induction l as [|a l IH]; [destruct I|]. cbn [rmap]. destruct I as [->|I].
  - rewrite E. reflexivity.
  - destruct (T a) as [(v & ->)| ->]; cbn [rbind]; auto. rewrite IH by auto. reflexivity.
Qed.
Lemma nested_empty : forall ls (x : list Q), In 0%nat ls -> In [] (ModelToken.nested_list x ls).
Proof.
  induction ls as [|n ls IH]; intros x I; [destruct I|]. cbn [ModelToken.nested_list]. destruct I as [->|I]; [left; reflexivity|].
  right. apply IH; auto.
Qed.
Lemma empty_sentence : forall labels pp K method ts,
  ModelRank.get_label_quality_scores (concat labels) (concat pp) K method false = Ok ts -> In [] labels ->
  ModelToken.token_get_label_quality_scores labels pp K method = Raise ValueError.
Proof.
  intros labels pp K method ts E I. unfold ModelToken.token_get_label_quality_scores. rewrite E. cbn [rbind]. cbv zeta.
  rewrite (rmap_raises _ _ []); [reflexivity| | |reflexivity].
  - apply nested_empty. apply in_map_iff. exists []. auto.
  - intros [|y l]; [right; reflexivity|left; eexists; reflexivity].
Qed.

(** ** class maps *)
Lemma map_too_short : forall entities maps x, In x entities -> (length maps <= x)%nat -> ModelToken.mapping entities maps = Raise IndexError.
Proof.
  intros entities maps x I L. unfold ModelToken.mapping. induction entities as [|a l IH]; [destruct I|]. cbn [rmap].
  destruct I as [->|I].
  - apply nth_error_None in L. rewrite L. reflexivity.
  - specialize (IH I). destruct (nth_error maps a); cbn [rbind]; [rewrite IH|]; reflexivity.
Qed.

(** ** integer flags with labels in a Python list *)
Section C.
  Import ModelLearn ProofLearn.
  Variable srt : list Q -> list nat.
  Variable minv : matrix -> res matrix.
  Variable js : nat -> ModelBatched.jobs.
  Variable cfg : settings.

  Lemma select_all {A} m : forall (l : list A), (length l <= length m)%nat -> (forall b, In b m -> b = true) -> select m l = l.
  Proof.
    induction m as [|b m IH]; intros [|x l] L H; cbn in L; try lia; auto.
    rewrite (H b) by (left; auto). unfold select in *. cbn [combine filter map fst snd]. f_equal. apply IH; [lia|intros; apply H; right; auto].
  Qed.
  Lemma integer_flags_list {A} (d : A) X ds th nm im df0 w s s' tr df z :
    fit srt minv js cfg d X Lst ds th nm im (Some (DFArg df0)) w s = (s', Ok (tr, df)) ->
    d_issue df0 = Some (IntCol z) -> Forall zero_one z -> (2 <= length X)%nat ->
    tr_X tr = map (from_end d X) z /\ tr_labels tr = ds_labels ds.
  Proof.
    intros H Hz Z01 LX. unfold fit in H. destruct (w_in_clf_kwargs w); [discriminate|].
    destruct (match w_given w with Some _ => negb (w_supported w) | None => false end); [discriminate|].
    apply mbind_ok in H. destruct H as (s1 & arg & E1 & H).
    assert (arg = DFArg df0) as ->.
    { apply mbind_ok in E1. destruct E1 as (s2 & [] & _ & E1). apply mbind_ok in E1. destruct E1 as (s3 & nc & _ & E1).
      apply mbind_ok in E1. destruct E1 as (s4 & [] & _ & E1). now injection E1. }
    clear E1. apply mbind_ok in H. destruct H as (s2 & df1 & E2 & H). injection E2 as <- E2.
    assert (D1 : d_issue df1 = Some (IntCol z)).
    { unfold process_label_issues_arg in E2. rewrite Hz in E2. destruct (negb _); [discriminate|].
      destruct (d_given df0); [destruct (existsb _ _); [discriminate|]|]; congruence. }
    apply mbind_ok in H. destruct H as (s3 & [] & _ & H). apply mbind_ok in H. destruct H as (s4 & df2 & E4 & H).
    assert (D2 : d_issue df2 = Some (IntCol z)).
    { destruct (d_quality df1); [injection E4 as _ <-; exact D1|]. destruct (ds_pred_probs ds); [|injection E4 as _ <-; exact D1].
      apply mbind_ok in E4. destruct E4 as (s5 & qk & _ & E4). destruct qk as [[me ad]|]; [|discriminate].
      apply mbind_ok in E4. destruct E4 as (s6 & q & _ & E4). apply mbind_ok in E4. destruct E4 as (s7 & [] & _ & E4).
      injection E4 as _ <-. exact D1. }
    rewrite D2 in H. apply mbind_ok in H. destruct H as (s5 & kl & E5 & H). injection E5 as <- E5.
    assert (S5 : kl = (Lst, ds_labels ds)).
    { change (subset_labels Lst (IntCol z) (ds_labels ds) = Ok kl) in E5. unfold subset_labels, list_comprehension in E5.
      destruct (Nat.leb_spec (length (ds_labels ds)) (length (truthy (IntCol z)))) as [L|L]; cbn [rbind] in E5; [|discriminate].
      rewrite select_all in E5; [congruence|auto|]. intros b Hb. cbn [truthy] in Hb. apply in_map_iff in Hb as (y & <- & Iy).
      rewrite Forall_forall in Z01. apply Z01 in Iy. destruct Iy as [->| ->]; reflexivity. }
    subst kl. clear E5.
    apply mbind_ok in H. destruct H as (s6 & xc & E6 & H). injection E6 as <- E6. assert (S6 : subset_data d (IntCol z) X = Ok (map (from_end d X) z)) by (unfold subset_data; now rewrite subset_flags).
    change (subset_data d (IntCol z) X = Ok xc) in E6. rewrite S6 in E6. injection E6 as <-. apply mbind_ok in H. destruct H as (s7 & nmx & _ & H). apply mbind_ok in H. destruct H as (s8 & nc & _ & H).
    cbn [snd fst] in H.
    destruct (w_given w) as [sw|]; destruct (w_final w) as [fw|].
    - injection H as _ <- _. auto.
    - apply mbind_ok in H. destruct H as (s9 & sw' & _ & H). injection H as _ <- _. auto.
    - injection H as _ <- _. auto.
    - destruct nmx as [nmx|]; [|injection H as _ <- _; auto]. destruct (w_supported w); [|injection H as _ <- _; auto].
      apply mbind_ok in H. destruct H as (s9 & aw & _ & H). apply mbind_ok in H. destruct H as (s10 & ew & _ & H).
      apply mbind_ok in H. destruct H as (s11 & [] & _ & H). injection H as _ <- _. auto.
  Qed.

  (** ** passed noise rates *)
  Lemma freqs_full K labels : (0 < K)%nat -> (forall l, In l labels -> (l < K)%nat) -> (forall k, (k < K)%nat -> In k labels) ->
    class_freqs labels = tab K (fun k => Qnat (n_labelled k labels) / Qnat (length labels)).
  Proof.
    intros HK H A. unfold class_freqs, tab. 
    assert (unique labels = seq 0 K) as ->.
    { unfold unique. assert (E : S (nmax labels) = K).
      { assert (N : labels <> []) by (intro; subst; apply (A 0%nat); lia). pose proof (H _ (nmax_in labels N)).
        assert (In (K - 1)%nat labels) as I by (apply A; lia). apply nmax_ge in I. lia. }
      rewrite E. assert (F : forall u, (forall x, In x u -> mem x labels = true) -> filter (fun v => mem v labels) u = u).
      { induction u as [|a u IH]; intro Hu; auto. cbn [filter]. rewrite (Hu a) by (left; auto). f_equal. apply IH. intros; apply Hu; right; auto. }
      apply F. intros x Hx. apply in_seq in Hx. apply mem_iff. apply A. lia. }
    apply map_ext. intro k. rewrite n_labelled_count. reflexivity.
  Qed.
  Lemma passed_noise K ds th N inv p sv kw qk s' t :
    find_label_issues srt minv js cfg ds th (Some N) None sv (new_object kw qk) = (s', Ok t) -> low_memory cfg = false -> kw_cj kw = None ->
    (0 < K)%nat -> (forall l, In l (ds_labels ds) -> (l < K)%nat) -> (forall k, (k < K)%nat -> In k (ds_labels ds)) ->
    length N = K -> length inv = K -> (forall r, In r inv -> length r = K) -> minv N = Ok inv ->
    (forall i j, (i < K)%nat -> (j < K)%nat -> qsum (tab K (fun k => mget inv i k * mget N k j)) == if Nat.eqb i j then 1 else 0) ->
    (forall k, (k < K)%nat -> qsum (tab K (fun y => mget N k y * p y)) == Qnat (n_labelled k (ds_labels ds)) / Qnat (length (ds_labels ds))) ->
    (forall k, (k < K)%nat -> 1 # 1000000 <= p k /\ p k <= 1) -> qsum (tab K p) == 1 ->
    exists py, c_py s' = Some py /\ length py = K /\ forall k, (k < K)%nat -> nth k py 0 == p k.
  Proof.
    intros H LM CJ HK HL HA LN LI LR EI HI HP Hb H1.
    set (py := fst (compute_py_inv_noise_matrix inv (class_freqs (ds_labels ds)) N)).
    assert (PY : length py = K /\ forall k, (k < K)%nat -> nth k py 0 == p k).
    { unfold py, compute_py_inv_noise_matrix. cbn [fst]. apply clip_values_exact; auto.
      - rewrite map_length. auto.
      - intros k Hk. rewrite (nth_map_gen _ _ _ _ []) by lia. rewrite (freqs_full K) by auto.
        rewrite (dot_tab K) by (rewrite ?tab_length; auto; apply LR, nth_In; lia).
        rewrite (qsum_tab_ext K _ (fun i => qsum (tab K (fun y => mget inv k i * mget N i y * p y)))).
        + rewrite qsum_tab_swap. rewrite (qsum_tab_ext K _ (fun y => (if Nat.eqb k y then 1 else 0) * p y)).
          * rewrite (qsum_tab_ext K _ (fun y => if Nat.eqb y k then p y else 0)); [apply (qsum_indicator p k K 0); lia|].
            intros y Hy. rewrite (Nat.eqb_sym k y). destruct (Nat.eqb y k); ring.
          * intros y Hy. rewrite <- HI by auto. unfold tab. rewrite (qsum_map_scale_r (fun s => mget inv k s * mget N s y)). reflexivity.
        + intros i Hi. rewrite nth_tab by auto. rewrite <- HP by auto. unfold tab. fold (mget inv k i).
          rewrite <- (qsum_map_scale (fun y => mget N i y * p y)). apply qsum_map_ext. intros y _. ring. }
    exists py. split; [|exact PY].
    set (P := fun s => c_py s = Some py).
    unfold find_label_issues in H. rewrite LM in H.
    apply mbind_ok in H. destruct H as (s2 & [] & E2 & H). injection E2 as <- _. destruct (low_trace _ || low_trace _)%bool; [discriminate|].
    apply mbind_ok in H. destruct H as (s3 & K' & E3 & H). injection E3 as <- _. apply mbind_ok in H. destruct H as (s4 & [] & E4 & H). injection E4 as <-.
    destruct (_ && _)%bool; [discriminate|].
    apply mbind_ok in H. destruct H as (s5 & [pp m] & E5 & H).
    apply mbind_ok in E5. destruct E5 as (s6 & [] & E6 & E5). apply mbind_ok in E5. destruct E5 as (s7 & pp' & E7 & E5).
    assert (S6 : c_cj s6 = None).
    { unfold process_label_issues_kwargs, mbind, get in E6. cbn in E6. destruct (kw_unsupported kw); [discriminate|]. rewrite CJ in E6.
      cbn in E6. injection E6 as <-. reflexivity. }
    assert (P7 : P s7).
    { unfold estimate_noise in E7. apply mbind_ok in E7. destruct E7 as (t1 & cj & F1 & E7). injection F1 as <- <-. rewrite S6 in E7.
      apply mbind_ok in E7. destruct E7 as (t2 & noise & F2 & E7). injection F2 as <- <-.
      apply mbind_ok in E7. destruct E7 as (t3 & [] & F3 & E7).
      assert (P3 : P t3).
      { apply mbind_ok in F3. destruct F3 as (t4 & [] & F4 & F3). apply mbind_ok in F3. destruct F3 as (t5 & iv & F5 & F3).
        injection F5 as <- F5. rewrite EI in F5. injection F5 as <-.
        apply mbind_ok in F3. destruct F3 as (t6 & [] & F6 & F3). cbv zeta in F3. injection F3 as <-. reflexivity. }
      cbv iota in E7. match type of E7 with ?m t3 = _ => assert (KP : keeps P m) end.
      { keep; apply keeps_modify; intros s0 H0; exact H0. }
      specialize (KP t3 P3). rewrite E7 in KP. exact KP. }
    clearbody py. assert (P5 : P s5).
    { match type of E5 with ?m s7 = _ => assert (KP : keeps P m) end.
      { keep; try (apply keeps_modify; intros s0 H0); try exact H0.
        all: unfold P in *; repeat (match goal with |- context [match ?x with _ => _ end] => destruct x; cbn end); exact H0. }
      specialize (KP s7 P7). rewrite E5 in KP. exact KP. }
    match type of H with ?m s5 = _ => assert (KP : keeps P m) end.
    { keep; apply keeps_modify; intros s0 H0; exact H0. }
    specialize (KP s5 P5). rewrite H in KP. exact KP.
  Qed.
End C.
