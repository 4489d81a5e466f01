(** * Proofs about ensemble active learning *)
From Coq Require Import QArith List ZArith Bool Arith Lia Lqa.
From Verif Require Import Base BaseFacts ModelUtil ModelCount ModelRank SpecCount ModelMultiannotator SpecMultiannotator ProofMultiannotator ModelActive SpecActive.
Import ListNotations.
Open Scope Q_scope.

Lemma set_nth_length {A} i (x : A) l : length (set_nth i x l) = length l.
Proof.
  unfold set_nth. rewrite app_length. destruct (Nat.lt_ge_cases i (length l)) as [H|H].
  - rewrite firstn_length_le by lia. destruct (skipn i l) as [|y t] eqn:E.
    + pose proof (skipn_length i l) as L. rewrite E in L. simpl in L. lia.
    + pose proof (skipn_length i l) as L. rewrite E in L. simpl in *. lia.
  - rewrite skipn_all2 by lia. rewrite firstn_all2 by lia. simpl. lia.
Qed.
Lemma set_nth_same {A} i (x : A) l : (i < length l)%nat -> nth_error (set_nth i x l) i = Some x.
Proof.
  revert i. induction l as [|y l IH]; intros [|i] H; simpl in H; try lia; [reflexivity|]. unfold set_nth in *. simpl. apply IH. lia.
Qed.
Lemma set_nth_other {A} i j (x : A) l : i <> j -> nth_error (set_nth i x l) j = nth_error l j.
Proof.
  revert i j. induction l as [|y l IH]; intros [|i] [|j] H; try congruence; try reflexivity. unfold set_nth in *. simpl. apply IH. congruence.
Qed.
Lemma load_store_same h r i m : (r < length h)%nat ->
  load (store_model h r i m) r = mk_array (set_nth i m (a_models (load h r))) (a_N (load h r)) (a_K (load h r)).
Proof.
  intros H. unfold store_model. unfold load at 1. apply nth_error_nth. apply set_nth_same. auto.
Qed.
Lemma load_store_other h r r' i m : r <> r' -> load (store_model h r i m) r' = load h r'.
Proof.
  intros H. unfold store_model, load at 1. rewrite <- (nth_default_eq r' _ empty_array). unfold nth_default. rewrite set_nth_other by auto.
  unfold load. rewrite <- nth_default_eq. reflexivity.
Qed.
Lemma store_length h r i m : length (store_model h r i m) = length h.
Proof. apply set_nth_length. Qed.
Lemma load_out h r : (length h <= r)%nat -> load h r = empty_array.
Proof. intros. apply nth_overflow. auto. Qed.

Section A.
Context {T : Type} (one : T) (best : table -> list (list Q) -> res T) (scale : T -> list (list Q) -> list (list Q)).

Lemma bind_inv {A B} (m : st A) (f : A -> st B) h h' y : bind m f h = (h', Ok y) -> exists h1 x, m h = (h1, Ok x) /\ f x h1 = (h', Ok y).
Proof. unfold bind. destruct (m h) as [h1 [x|e]]; intros H; [eauto|discriminate]. Qed.

Lemma calibrate_inv t r n : forall s h h' temps, (r < length h)%nat -> (s + n <= length (a_models (load h r)))%nat ->
  calibrate best scale t r (seq s n) h = (h', Ok temps) ->
  length h' = length h /\ length temps = n /\ (forall r', r' <> r -> load h' r' = load h r') /\
  a_N (load h' r) = a_N (load h r) /\ a_K (load h' r) = a_K (load h r) /\ length (a_models (load h' r)) = length (a_models (load h r)) /\
  (forall i, (i < s \/ s + n <= i)%nat -> nth_error (a_models (load h' r)) i = nth_error (a_models (load h r)) i) /\
  (forall i m, (i < n)%nat -> nth_error (a_models (load h r)) (s + i) = Some m ->
     exists temp, nth_error temps i = Some temp /\ best t m = Ok temp /\ nth_error (a_models (load h' r)) (s + i) = Some (scale temp m)).
Proof.
  induction n as [|n IH]; intros s h h' temps Hr Hs H.
  - cbn in H. unfold ret in H. assert (h = h') by congruence. assert (temps = []) by congruence. subst. repeat split; auto. intros i m Hi. lia.
  - cbn [seq calibrate] in H. apply bind_inv in H as (h1 & a & E & H). unfold read in E. assert (h1 = h) by congruence. assert (a = load h r) by congruence. subst h1 a. clear E.
    apply bind_inv in H as (h1 & temp & E & H). unfold lift_res in E. assert (h1 = h) by congruence. subst h1. assert (Eb : best t (nth s (a_models (load h r)) []) = Ok temp) by congruence. clear E.
    apply bind_inv in H as (h1 & [] & E & H). unfold write in E. assert (E1 : h1 = store_model h r s (scale temp (nth s (a_models (load h r)) []))) by congruence. clear E.
    apply bind_inv in H as (h2 & ts & E & H). cbn in H. unfold ret in H. assert (h2 = h') by congruence. assert (temps = temp :: ts) by congruence. subst h2 temps. clear H.
    set (m0 := nth s (a_models (load h r)) []) in *.
    assert (L1 : load h1 r = mk_array (set_nth s (scale temp m0) (a_models (load h r))) (a_N (load h r)) (a_K (load h r))) by (rewrite E1; apply load_store_same; auto).
    assert (Hm0 : nth_error (a_models (load h r)) s = Some m0) by (apply nth_error_nth'; lia).
    apply IH in E; [|rewrite E1, store_length; auto|rewrite L1; cbn [a_models]; rewrite set_nth_length; lia].
    destruct E as (A & B & C & D & E & F & G & I). rewrite L1 in D, E, F, G, I. cbn [a_models a_N a_K] in *. rewrite set_nth_length in F.
    split; [rewrite A, E1; apply store_length|]. split; [simpl; lia|]. split; [intros r' Hr'; rewrite C by auto; rewrite E1; apply load_store_other; auto|].
    split; [auto|]. split; [auto|]. split; [auto|]. split.
    + intros i Hi. rewrite G by lia. apply set_nth_other. lia.
    + intros [|i] m Hi Hm.
      * rewrite Nat.add_0_r in *. assert (m = m0) by congruence. subst m. exists temp. split; [reflexivity|]. split; [auto|].
        rewrite G by lia. apply set_nth_same. lia.
      * destruct (I i m) as (tp & X & Y & Z); [lia|rewrite set_nth_other by lia; rewrite <- Hm; f_equal; lia|].
        exists tp. split; [auto|]. split; [auto|]. rewrite <- Z. f_equal. lia.
Qed.
Lemma calibrate_full t r h h' temps : calibrate best scale t r (seq 0 (length (a_models (load h r)))) h = (h', Ok temps) ->
  length h' = length h /\ (forall r', r' <> r -> load h' r' = load h r') /\ a_N (load h' r) = a_N (load h r) /\ a_K (load h' r) = a_K (load h r) /\
  best_for best t temps (a_models (load h r)) /\ scaled scale temps (a_models (load h r)) (a_models (load h' r)).
Proof.
  intros H. destruct (Nat.lt_ge_cases r (length h)) as [Hr|Hr].
  - apply calibrate_inv in H as (A & B & C & D & E & F & _ & I); auto. repeat (split; [auto; fail|]). split.
    + split; [auto|]. intros i m Hm. destruct (I i m) as (tp & X & Y & Z); [apply nth_error_Some; congruence|auto|]. eauto.
    + split; [auto|]. split; [auto|]. intros i m Hm. destruct (I i m) as (tp & X & Y & Z); [apply nth_error_Some; congruence|auto|]. eauto.
  - rewrite (load_out h r Hr) in *. cbn in H. unfold ret in H. assert (h = h') by congruence. assert (temps = []) by congruence. subst. rewrite (load_out h' r Hr).
    repeat split; auto; intros i m Hm; destruct i; discriminate.
Qed.
Lemma rescale_inv temps r n : forall s h h' x, (r < length h)%nat -> (s + n <= length (a_models (load h r)))%nat ->
  rescale scale temps r (seq s n) h = (h', Ok x) ->
  length h' = length h /\ (forall r', r' <> r -> load h' r' = load h r') /\
  a_N (load h' r) = a_N (load h r) /\ a_K (load h' r) = a_K (load h r) /\ length (a_models (load h' r)) = length (a_models (load h r)) /\
  (forall i, (i < s \/ s + n <= i)%nat -> nth_error (a_models (load h' r)) i = nth_error (a_models (load h r)) i) /\
  (forall i m, (s <= i < s + n)%nat -> nth_error (a_models (load h r)) i = Some m ->
     exists temp, nth_error temps i = Some temp /\ nth_error (a_models (load h' r)) i = Some (scale temp m)).
Proof.
  induction n as [|n IH]; intros s h h' x Hr Hs H.
  - cbn in H. unfold ret in H. assert (h = h') by congruence. subst. repeat split; auto. intros i m Hi. lia.
  - cbn [seq rescale] in H. destruct (nth_error temps s) as [temp|] eqn:Et; [|discriminate].
    apply bind_inv in H as (h1 & a & E & H). unfold read in E. assert (h1 = h) by congruence. assert (a = load h r) by congruence. subst h1 a. clear E.
    apply bind_inv in H as (h1 & [] & E & H). unfold write in E. assert (E1 : h1 = store_model h r s (scale temp (nth s (a_models (load h r)) []))) by congruence. clear E.
    set (m0 := nth s (a_models (load h r)) []) in *.
    assert (L1 : load h1 r = mk_array (set_nth s (scale temp m0) (a_models (load h r))) (a_N (load h r)) (a_K (load h r))) by (rewrite E1; apply load_store_same; auto).
    assert (Hm0 : nth_error (a_models (load h r)) s = Some m0) by (apply nth_error_nth'; lia).
    apply IH in H; [|rewrite E1, store_length; auto|rewrite L1; cbn [a_models]; rewrite set_nth_length; lia].
    destruct H as (A & C & D & E & F & G & I). rewrite L1 in D, E, F, G, I. cbn [a_models a_N a_K] in *. rewrite set_nth_length in F.
    split; [rewrite A, E1; apply store_length|]. split; [intros r' Hr'; rewrite C by auto; rewrite E1; apply load_store_other; auto|].
    split; [auto|]. split; [auto|]. split; [auto|]. split.
    + intros i Hi. rewrite G by lia. apply set_nth_other. lia.
    + intros i m Hi Hm. destruct (Nat.eq_dec i s) as [->|Hn].
      * assert (m = m0) by congruence. subst m. exists temp. split; [auto|]. rewrite G by lia. apply set_nth_same. lia.
      * apply I; [lia|]. rewrite set_nth_other by lia. auto.
Qed.
Lemma rescale_full temps r h h' x : rescale scale temps r (seq 0 (length (a_models (load h r)))) h = (h', Ok x) -> length temps = length (a_models (load h r)) ->
  length h' = length h /\ (forall r', r' <> r -> load h' r' = load h r') /\ a_N (load h' r) = a_N (load h r) /\ a_K (load h' r) = a_K (load h r) /\
  scaled scale temps (a_models (load h r)) (a_models (load h' r)).
Proof.
  intros H Ht. destruct (Nat.lt_ge_cases r (length h)) as [Hr|Hr].
  - apply rescale_inv in H as (A & C & D & E & F & _ & I); auto. repeat (split; [auto; fail|]).
    intros i m Hm. apply I; auto. split; [lia|]. apply nth_error_Some. congruence.
  - rewrite (load_out h r Hr) in *. cbn in H. unfold ret in H. assert (h = h') by congruence. subst. rewrite (load_out h' r Hr).
    repeat split; auto; intros i m Hm; destruct i; discriminate.
Qed.
Lemma rescale_len temps r h h' x : rescale scale temps r (seq 0 (length (a_models (load h r)))) h = (h', Ok x) ->
  length (a_models (load h' r)) = length (a_models (load h r)) /\ a_N (load h' r) = a_N (load h r) /\ a_K (load h' r) = a_K (load h r) /\ (forall r', r' <> r -> load h' r' = load h r').
Proof.
  intros H. destruct (Nat.lt_ge_cases r (length h)) as [Hr|Hr].
  - apply rescale_inv in H as (A & C & D & E & F & _ & I); auto.
  - rewrite (load_out h r Hr) in *. cbn in H. unfold ret in H. assert (h = h') by congruence. subst. rewrite (load_out h' r Hr). auto.
Qed.

Lemma scores_inv c p K q : get_label_quality_scores c p K SelfConfidence false = Ok q -> q = get_self_confidence c p.
Proof.
  unfold get_label_quality_scores. destruct (assert_valid_inputs _ _ _ _); cbn [rbind]; [|discriminate]. cbn. congruence.
Qed.
Lemma self_conf_nth c p i : length c = length p -> (i < length c)%nat -> nth i (get_self_confidence c p) 0 = mget p i (nth i c 0%nat).
Proof.
  intros HL Hi. unfold get_self_confidence. rewrite (nth_map_gen _ _ _ _ (0%nat, [])) by (rewrite combine_length; lia). rewrite combine_nth by lia. reflexivity.
Qed.
Lemma self_conf_length c p : length c = length p -> length (get_self_confidence c p) = length c.
Proof. intros. unfold get_self_confidence. rewrite map_length, combine_length. lia. Qed.
Lemma scaled_in temps before after m : scaled scale temps before after -> In m after -> exists temp m0, In m0 before /\ m = scale temp m0.
Proof.
  intros (L1 & L2 & H) Hm. apply In_nth_error in Hm as (i & Hi). assert (i < length before)%nat by (rewrite <- L1; apply nth_error_Some; congruence).
  destruct (nth_error before i) as [m0|] eqn:E; [|apply nth_error_None in E; lia]. destruct (H i m0 E) as (tp & _ & E2). exists tp, m0. split; [eapply nth_error_In; eauto|congruence].
Qed.
Lemma weight_annotators aw r : length r = length aw -> annotation_weight aw r == weight_of_annotators aw r.
Proof.
  unfold annotation_weight, weight_of_annotators. revert aw. induction r as [|o r IH]; intros [|w aw] HL; simpl in HL; try discriminate; [reflexivity|].
  cbn [combine map fst snd length]. rewrite qsum_cons. rewrite (IH aw) by lia. cbn [seq]. rewrite <- seq_shift.
  assert (E : forall l, map (fun j => nth j (w :: aw) 0) (filter (fun j => match nth j (o :: r) None with Some _ => true | None => false end) (map S l)) =
              map (fun j => nth j aw 0) (filter (fun j => match nth j r None with Some _ => true | None => false end) l)).
  { intros l. rewrite filter_map_comm, map_map. reflexivity. }
  destruct o as [k|]; cbn [present]; [change (filter (fun j => match nth j (Some k :: r) None with Some _ => true | None => false end) (0%nat :: map S (seq 0 (length r)))) with (0%nat :: filter (fun j => match nth j (Some k :: r) None with Some _ => true | None => false end) (map S (seq 0 (length r)))); rewrite map_cons, qsum_cons, E; reflexivity|].
  change (filter (fun j => match nth j (None :: r) None with Some _ => true | None => false end) (0%nat :: map S (seq 0 (length r)))) with (filter (fun j => match nth j (None :: r) None with Some _ => true | None => false end) (map S (seq 0 (length r)))). rewrite E. ring.
Qed.
Lemma waverage_weighted x w : 0 < qsum w -> weighted x w (waverage x w).
Proof. intros H. unfold weighted, waverage. field. lra. Qed.

Lemma two_weighted q K aw mw avg r b : annotation_weight aw r == b -> 0 <= annotation_weight aw r -> 0 < mw -> 0 < avg ->
  weighted [q; 1 / Qnat K] [b + mw; avg] (active_score K aw mw avg q r).
Proof.
  intros E H1 H2 H3. unfold weighted. rewrite active_formula. cbn [combine map fst snd]. rewrite !qsum_cons.
  change (qsum []) with 0. rewrite <- E. set (k := 1 / Qnat K). set (x := annotation_weight aw r) in *. field. lra.
Qed.
Context (fsqrt : Q -> Q) (rnd rnd' : nat -> nat).
Definition quality_ensemble (t : table) (M K : nat) (ms : list (list (list Q))) (mw aw q : list Q) : Prop :=
  (exists info, get_label_quality_multiannotator_ensemble fsqrt rnd t M K ms = Ok info /\ q = c_quality info /\ mw = model_weights (c_post info) /\ aw = annot_weights (c_post info)) \/
  ((forall r, In r t -> num_annotations r = 1%nat) /\ mw = repeat 1 (length ms) /\ aw = repeat 1 M /\
   forall i k, (i < length t)%nat -> In (Some k) (nth i t []) -> is_average (map (fun m => mget m i k) ms) (nth i q 0)).

Lemma labelled_inv t M r h h1 w :
  (forall row, In row t -> length row = M) -> (2 <= a_K (load h r))%nat ->
  (forall m, In m (a_models (load h r)) -> distributions (a_N (load h r)) (a_K (load h r)) m) -> keeps_distributions scale -> (forall x, 0 < x -> 0 < fsqrt x) ->
  labelled_half one best scale fsqrt rnd t M r h = (h1, Ok w) ->
  a_models (load h r) <> [] /\ a_N (load h r) = length t /\ w_K w = a_K (load h r) /\ (forall r', r' <> r -> load h1 r' = load h r') /\
  a_N (load h1 r) = a_N (load h r) /\ a_K (load h1 r) = a_K (load h r) /\
  (forall m, In m (a_models (load h1 r)) -> distributions (length t) (a_K (load h r)) m) /\
  length (a_models (load h1 r)) = length (a_models (load h r)) /\
  ((forall row, In row t -> num_annotations row = 1%nat) -> h1 = h /\ w_temps w = repeat one (length (a_models (load h r)))) /\
  (~ (forall row, In row t -> num_annotations row = 1%nat) ->
     best_for best t (w_temps w) (a_models (load h r)) /\ scaled scale (w_temps w) (a_models (load h r)) (a_models (load h1 r))) /\
  length (w_temps w) = length (a_models (load h r)) /\ length (w_models w) = length (a_models (load h r)) /\ (forall x, In x (w_models w) -> 0 < x) /\
  exists q aw, quality_ensemble t M (a_K (load h r)) (a_models (load h1 r)) (w_models w) aw q /\
    length q = length t /\ (forall x, In x q -> 0 <= x /\ x <= 1) /\ length aw = M /\ (forall x, In x aw -> 0 < x) /\ w_avg w = qmean aw /\ 0 < w_avg w /\
    w_scores w = map (fun qr => active_score (a_K (load h r)) aw (qsum (w_models w)) (qmean aw) (fst qr) (snd qr)) (combine q t).
Proof.
  intros W HK HD Hsc Hf H. unfold labelled_half in H. apply bind_inv in H as (h0 & a & E & H). unfold read in E. assert (h0 = h) by congruence. assert (a = load h r) by congruence. subst h0 a. clear E.
  destruct (a_models (load h r)) as [|m0 ms0] eqn:Em; [discriminate|]. rewrite <- Em in *. assert (Hne : a_models (load h r) <> []) by congruence.
  apply bind_inv in H as (h2 & [[[temps q] mw] aw] & E & H). unfold ret in H. assert (h2 = h1) by congruence. subst h2.
  assert (Ew : w = mk_weights (a_K (load h r)) temps mw (qmean aw) (map (fun qr => active_score (a_K (load h r)) aw (qsum mw) (qmean aw) (fst qr) (snd qr)) (combine q t))) by congruence.
  clear H. split; [auto|]. destruct (forallb (fun row => num_annotations row =? 1) t) eqn:EF.
  - rewrite forallb_forall in EF. assert (H1 : forall row, In row t -> num_annotations row = 1%nat) by (intros row Hr; apply Nat.eqb_eq; auto). clear EF.
    apply bind_inv in E as (h2 & [] & EV & E). unfold lift_res in EV. assert (h2 = h) by congruence. subst h2.
    assert (EV' : assert_valid_multiannotator t M (Some (a_N (load h r), a_K (load h r))) true = Ok tt) by congruence. clear EV.
    apply bind_inv in E as (h2 & c & EC & E). unfold lift_res in EC. assert (h2 = h) by congruence. subst h2.
    assert (EC' : get_majority_vote_label rnd t M (Some (average_priors (a_N (load h r)) (a_K (load h r)) (a_models (load h r)))) (a_K (load h r)) false = Ok c) by congruence. clear EC.
    apply bind_inv in E as (h2 & q' & EQ & E). unfold lift_res in EQ. assert (h2 = h) by congruence. subst h2.
    assert (EQ' : q' = get_self_confidence c (average_priors (a_N (load h r)) (a_K (load h r)) (a_models (load h r)))) by (eapply scores_inv; injection EQ as EQ; exact EQ). clear EQ.
    unfold ret in E. assert (h = h1) by congruence. subst h1. assert (temps = repeat one (length (a_models (load h r)))) by congruence. assert (q' = q) by congruence.
    assert (mw = repeat 1 (length (a_models (load h r)))) by congruence. assert (aw = repeat 1 M) by congruence. clear E. subst temps q' mw aw.
    assert (S : forall row, In row t -> exists k, In (Some k) row).
    { intros row Hr. specialize (H1 row Hr). rewrite num_given in H1. destruct (given row) as [|k l] eqn:E; [discriminate|]. exists k. apply in_given. rewrite E. left; auto. }
    destruct (mv_lt _ _ _ _ _ _ EC' W S) as [LC BC].
    assert (Htn : t <> []).
    { unfold assert_valid_multiannotator in EV'. intros ->. simpl in EV'. destruct (existsb _ (seq 0 M)); discriminate. }
    assert (HN : a_N (load h r) = length t).
    { unfold assert_valid_multiannotator in EV'. repeat match type of EV' with (if ?b then _ else _) = _ => destruct b; [discriminate|] end.
      destruct (all_given t); [discriminate|]. destruct (a_N (load h r) =? length t) eqn:E; [apply Nat.eqb_eq; auto|discriminate]. }
    assert (HM : (1 <= M)%nat).
    { destruct t as [|row t']; [congruence|]. destruct (S row (or_introl eq_refl)) as (k & Hk). rewrite <- (W row (or_introl eq_refl)). destruct row; [destruct Hk|simpl; lia]. }
    assert (LA : length c = length (average_priors (a_N (load h r)) (a_K (load h r)) (a_models (load h r)))) by (rewrite average_priors_length; lia).
    assert (QA : forall i, (i < length t)%nat -> nth i q 0 = qmean (map (fun m => mget m i (nth i c 0%nat)) (a_models (load h r)))).
    { intros i Hi. rewrite <- H0. rewrite self_conf_nth by (auto; lia). unfold mget at 1, average_priors. rewrite nth_tab by lia. rewrite nth_tab; [reflexivity|]. apply BC, nth_In. lia. }
    assert (LQ : length q = length t) by (rewrite <- H0; rewrite self_conf_length; auto).
    assert (OneM : forall n x, In x (repeat 1 n) -> 0 < x) by (intros n x Hx; apply repeat_spec in Hx; subst; lra).
    split; [auto|]. split; [rewrite Ew; reflexivity|]. split; [auto|]. split; [auto|]. split; [auto|]. split; [rewrite <- HN; auto|]. split; [auto|].
    split; [intros _; split; [auto|rewrite Ew; reflexivity]|]. split; [intros Hn; destruct (Hn H1)|].
    rewrite Ew. cbn [w_temps w_models w_avg w_scores]. split; [apply repeat_length|]. split; [apply repeat_length|]. split; [apply OneM|].
    exists q, (repeat 1 M). split.
    { right. split; [auto|]. split; [auto|]. split; [auto|]. intros i k Hi Hk. rewrite QA by auto.
      destruct (C35_plurality_full rnd t M _ (a_K (load h r)) false c W S EC') as [_ HP]. destruct (HP i Hi) as ((Hv & _) & _). apply votes_in in Hv.
      rewrite (single_plurality (nth i t []) k (nth i c 0%nat)); auto; [|apply H1, nth_In; auto].
      destruct (map (fun m => mget m i k) (a_models (load h r))) eqn:Emm; [apply map_eq_nil in Emm; congruence|]. rewrite <- Emm.
      split; [rewrite Emm; discriminate|]. unfold qmean. rewrite Emm. field. assert (0 < Qnat (length (q0 :: l))) by (apply Qnat_pos; simpl; lia). lra. }
    split; [auto|]. split.
    { intros x Hx. destruct (In_nth _ _ 0 Hx) as (i & Hi & <-). rewrite QA by lia. apply (ProofNoise.qmean_bounds 0 1).
      - intros E. apply map_eq_nil in E. congruence.
      - intros y Hy. apply in_map_iff in Hy as (m & <- & Hm). unfold mget. destruct (HD m Hm) as [D1 D2].
        apply (nth_unit (a_K (load h r))). apply D2, nth_In. lia. }
    split; [apply repeat_length|]. split; [apply OneM|]. split; [auto|]. split; [|auto].
    destruct (ProofNoise.qmean_bounds 1 1 (repeat 1 M)) as [A _]; [destruct M; [lia|discriminate]|intros x Hx; apply repeat_spec in Hx; subst; lra|lra].
  - assert (HNS : ~ (forall row, In row t -> num_annotations row = 1%nat)).
    { intros H1. assert (forallb (fun row => num_annotations row =? 1) t = true); [|congruence]. apply forallb_forall. intros row Hr. apply Nat.eqb_eq; auto. }
    clear EF. apply bind_inv in E as (h2 & temps' & EC & E). apply calibrate_full in EC as (A & B & C & D & EB & ES).
    apply bind_inv in E as (h3 & info & EL & E). unfold ret in E. assert (h3 = h1) by congruence. subst h3.
    assert (temps' = temps) by congruence. assert (q = c_quality info) by congruence. assert (mw = model_weights (c_post info)) by congruence. assert (aw = annot_weights (c_post info)) by congruence. subst temps' q mw aw. clear E.
    unfold label_quality_ensemble in EL. apply bind_inv in EL as (h3 & a & E & EL). unfold read in E. assert (h3 = h2) by congruence. assert (a = load h2 r) by congruence. subst h3 a. clear E.
    apply bind_inv in EL as (h3 & [] & EV & EL). unfold lift_res in EV. assert (h3 = h2) by congruence. subst h3.
    assert (EV' : assert_valid_multiannotator t M (Some (a_N (load h2 r), a_K (load h2 r))) false = Ok tt) by congruence. clear EV.
    apply bind_inv in EL as (h3 & x & E & EL). unfold ret in E. assert (h3 = h2) by congruence. subst h3. clear E.
    apply bind_inv in EL as (h3 & a & E & EL). unfold read in E. assert (h3 = h2) by congruence. assert (a = load h2 r) by congruence. subst h3 a. clear E.
    unfold lift_res in EL. assert (h2 = h1) by congruence. subst h2. assert (EI : get_label_quality_multiannotator_ensemble fsqrt rnd t M (a_K (load h1 r)) (a_models (load h1 r)) = Ok info) by congruence. clear EL.
    apply valid_inv in EV' as (HN & HA & HO & HU); auto. rewrite C in HN. rewrite D in *.
    assert (Lm : length (a_models (load h1 r)) = length (a_models (load h r))) by apply ES.
    assert (HD1 : forall m, In m (a_models (load h1 r)) -> distributions (length t) (a_K (load h r)) m).
    { intros m Hm. destruct (scaled_in _ _ _ _ ES Hm) as (tp & m1 & Hm1 & ->). apply Hsc. rewrite <- HN. auto. }
    pose proof EI as EI'. unfold get_label_quality_multiannotator_ensemble in EI'. apply label_quality_inv in EI' as (_ & _ & G & _); auto; [|destruct (a_models (load h1 r)); [simpl in Lm; destruct (a_models (load h r)); [congruence|discriminate]|discriminate]].
    destruct G as (_ & _ & LQ & BQ & _ & _ & _ & LM & BM & LA & BA & _).
    split; [auto|]. split; [rewrite Ew; reflexivity|]. split; [auto|]. split; [congruence|]. split; [auto|]. split; [auto|]. split; [auto|].
    split; [intros H1; destruct (HNS H1)|]. rewrite Ew. cbn [w_temps w_models w_avg w_scores]. split; [auto|]. split; [apply ES|]. split; [congruence|]. split; [auto|].
    exists (c_quality info), (annot_weights (c_post info)). split; [left; eauto 6|]. split; [auto|]. split; [auto|]. split; [auto|]. split; [intros x0 Hx; apply BA; auto|]. split; [auto|]. split; [|auto].
    assert (Hn : annot_weights (c_post info) <> []).
    { destruct HO as (row & i & j & Hr & _ & (k & Hk) & _). intros E. rewrite E in LA. simpl in LA. rewrite <- LA in W. rewrite nth_overflow in Hk by (rewrite (W row Hr); lia). discriminate. }
    unfold qmean. apply Qlt_shift_div_l; [apply Qnat_pos; destruct (annot_weights (c_post info)); [congruence|simpl; lia]|].
    setoid_replace (0 * Qnat (length (annot_weights (c_post info)))) with 0 by ring. apply qsum_pos; auto. intros x0 Hx. apply BA; auto.
Qed.

Lemma model_votes_row N ms i : (i < N)%nat -> nth i (model_votes N ms) [] = map Some (map (fun m => argmax (nth i m [])) ms).
Proof. intros H. unfold model_votes. rewrite nth_tab by auto. rewrite map_map. reflexivity. Qed.
Lemma weighted_bounds lo hi x w a : length x = length w -> (forall y, In y x -> lo <= y /\ y <= hi) -> (forall b, In b w -> 0 < b) -> w <> [] -> weighted x w a -> lo <= a /\ a <= hi.
Proof.
  intros HL Hx Hw Hn Ha. assert (Hp : 0 < qsum w) by (apply qsum_pos; auto).
  destruct (waverage_bounds lo hi x w HL Hx) as [A B]; auto; [intros b Hb; apply Qlt_le_weak; auto|].
  assert (E : a == waverage x w).
  { unfold weighted in Ha. unfold waverage. rewrite <- Ha. field. lra. }
  rewrite E. auto.
Qed.
Lemma unlabelled_inv (w : @weights T) a u : (1 <= a_K a)%nat -> (forall m, In m (a_models a) -> distributions (a_N a) (a_K a) m) ->
  (forall x, In x (w_models w) -> 0 < x) -> 0 < w_avg w ->
  unlabelled_scores rnd' w a = Ok u ->
  length (a_models a) = length (w_models w) /\ (2 <= length (a_models a))%nat /\ length u = a_N a /\
  forall i, (i < a_N a)%nat -> exists fav c, favourites (a_K a) (a_models a) i fav /\ plurality (map Some fav) c /\
    (forall k x y, plurality (map Some fav) k -> is_average (map (fun m => mget m i k) (a_models a)) x -> is_average (map (fun m => mget m i c) (a_models a)) y -> x <= y) /\
    weighted (map (fun m => mget m i c) (a_models a) ++ [1 / Qnat (a_K a)]) (w_models w ++ [w_avg w]) (nth i u 0).
Proof.
  intros HK HD Hw Ha H. unfold unlabelled_scores in H. destruct (a_K a =? 0) eqn:EK; [discriminate|]. clear EK.
  destruct (get_majority_vote_label _ _ _ _ _ _) as [c|] eqn:EC; cbn [rbind] in H; [|discriminate].
  destruct (length (a_models a) =? length (w_models w)) eqn:EL; cbn [negb] in H; [|discriminate]. apply Nat.eqb_eq in EL.
  apply scores_inv in H. split; [auto|].
  assert (LV : length (model_votes (a_N a) (a_models a)) = a_N a) by apply tab_length.
  assert (W : forall r, In r (model_votes (a_N a) (a_models a)) -> length r = length (a_models a)).
  { intros r Hr. apply In_nth with (d := []) in Hr as (i & Hi & <-). rewrite LV in Hi. rewrite model_votes_row by auto. rewrite !map_length. auto. }
  pose proof EC as EV. unfold get_majority_vote_label in EV.
  destruct (assert_valid_multiannotator _ _ _ _) as [[]|] eqn:EA; cbn [rbind] in EV; [|discriminate]. clear EV.
  assert (P2 : (2 <= length (a_models a))%nat).
  { unfold assert_valid_multiannotator in EA. destruct (existsb _ _); [discriminate|]. destruct (existsb _ _); [discriminate|].
    destruct (length (a_models a) <=? 1) eqn:E1; [discriminate|]. apply Nat.leb_gt in E1. lia. }
  apply valid_inv in EA as (_ & HA & _ & _); auto.
  assert (S := an_some _ _ _ HA). destruct (C35_plurality_full rnd' _ _ _ _ _ _ W S EC) as [LC HP]. rewrite LV in *.
  assert (LMd : length c = length (modified_probs (a_N a) (a_K a) (a_models a) (w_models w) (w_avg w))) by (unfold modified_probs; rewrite tab_length; auto).
  split; [auto|]. split; [rewrite H, self_conf_length; auto|]. intros i Hi.
  destruct (HP i Hi) as (Hpl & Hbest & _ & _). rewrite (model_votes_row _ _ i Hi) in Hpl, Hbest.
  assert (Hrow : forall m, In m (a_models a) -> nth i m [] <> [] /\ length (nth i m []) = a_K a).
  { intros m Hm. destruct (HD m Hm) as [D1 D2]. destruct (D2 (nth i m [])) as (L & _); [apply nth_In; lia|]. split; [intros E; rewrite E in L; simpl in L; lia|auto]. }
  assert (HcK : (nth i c 0%nat < a_K a)%nat).
  { destruct Hpl as [Hv _]. apply votes_in in Hv. apply in_map_iff in Hv as (k & Ek & Hk). injection Ek as <-.
    apply in_map_iff in Hk as (m & <- & Hm). destruct (Hrow m Hm) as [Hn L]. rewrite <- L. apply argmax_lt; auto. }
  exists (map (fun m => argmax (nth i m [])) (a_models a)), (nth i c 0%nat). split; [|split; [auto|split]].
  - unfold favourites. clear - Hrow. induction (a_models a) as [|m ms IH]; simpl; [constructor|]. constructor; [|apply IH; intros m' Hm'; apply Hrow; right; auto].
    destruct (Hrow m (or_introl eq_refl)) as [Hn L]. destruct (argmax_spec _ Hn) as (A & B & C). rewrite L in *. split; [auto|split; auto].
  - intros k x y Hk Hx Hy. specialize (Hbest _ eq_refl k Hk). unfold mget at 1 2, average_priors in Hbest. rewrite !nth_tab in Hbest by auto.
    assert (HkK : (k < a_K a)%nat).
    { destruct Hk as [Hv _]. apply votes_in in Hv. apply in_map_iff in Hv as (k' & Ek & Hk). injection Ek as <-.
      apply in_map_iff in Hk as (m & <- & Hm). destruct (Hrow m Hm) as [Hn L]. rewrite <- L. apply argmax_lt; auto. }
    rewrite !nth_tab in Hbest by auto.
    rewrite (is_average_unique _ _ _ Hx (ProofCount.qmean_average _ (proj1 Hx))), (is_average_unique _ _ _ Hy (ProofCount.qmean_average _ (proj1 Hy))). exact Hbest.
  - rewrite H. rewrite self_conf_nth by (auto; lia). unfold mget at 2, modified_probs. rewrite nth_tab by auto. rewrite nth_tab by auto. apply waverage_weighted.
    apply qsum_pos; [destruct (w_models w); discriminate|]. intros x Hx. apply in_app_or in Hx as [Hx|[<-|[]]]; auto.
Qed.

(** inversion of the whole function *)
Lemma active_ensemble_inv t M pp ppu h h' s u : active_ensemble one best scale fsqrt rnd rnd' t M pp ppu h = (h', Ok (s, u)) ->
  match pp, t, ppu with
  | Some r, Some t, None => exists w, labelled_half one best scale fsqrt rnd t M r h = (h', Ok w) /\ s = w_scores w /\ u = []
  | Some r, Some t, Some v => a_K (load h r) = a_K (load h v) /\ exists w h1 x, labelled_half one best scale fsqrt rnd t M r h = (h1, Ok w) /\ s = w_scores w /\
      rescale scale (w_temps w) v (seq 0 (length (a_models (load h1 v)))) h1 = (h', Ok x) /\ unlabelled_scores rnd' w (load h' v) = Ok u
  | None, _, Some v => s = [] /\ a_models (load h v) <> [] /\ exists x, rescale scale (repeat one (length (a_models (load h v)))) v (seq 0 (length (a_models (load h v)))) h = (h', Ok x) /\
      unlabelled_scores rnd' (mk_weights (a_K (load h v)) (repeat one (length (a_models (load h v)))) (repeat 1 (length (a_models (load h v)))) 1 []) (load h' v) = Ok u
  | _, _, _ => False
  end.
Proof.
  unfold active_ensemble. intros H. apply bind_inv in H as (h0 & [] & E & H). assert (h0 = h) by congruence. subst h0.
  assert (EA : assert_valid_pred_probs pp ppu h = Ok tt) by congruence. clear E.
  apply bind_inv in H as (h1 & w & E & H).
  assert (HU : forall v, ppu = Some v -> s = w_scores w /\ exists x, rescale scale (w_temps w) v (seq 0 (length (a_models (load h1 v)))) h1 = (h', Ok x) /\ unlabelled_scores rnd' w (load h' v) = Ok u).
  { intros v ->. apply bind_inv in H as (h2 & a & E2 & H). unfold read in E2. assert (h2 = h1) by congruence. assert (a = load h1 v) by congruence. subst h2 a. clear E2.
    apply bind_inv in H as (h2 & x & E2 & H). apply bind_inv in H as (h3 & a & E3 & H). unfold read in E3. assert (h3 = h2) by congruence. assert (a = load h2 v) by congruence. subst h3 a. clear E3.
    apply bind_inv in H as (h3 & y & E3 & H). unfold lift_res in E3. assert (h3 = h2) by congruence. subst h3. unfold ret in H. assert (h2 = h') by congruence. subst h2.
    split; [congruence|]. exists x. split; [auto|]. congruence. }
  destruct pp as [r|].
  - destruct t as [t|]; [|discriminate]. destruct ppu as [v|].
    + destruct (HU v eq_refl) as (-> & x & A & B). split; [|eauto 8]. cbn in EA. destruct (a_K (load h r) =? a_K (load h v)) eqn:E1; [apply Nat.eqb_eq; auto|discriminate].
    + unfold ret in H. assert (h1 = h') by congruence. subst h1. exists w. split; [auto|]. split; congruence.
  - destruct ppu as [v|]; [|discriminate]. destruct (HU v eq_refl) as (-> & x & A & B). clear HU H.
    apply bind_inv in E as (h2 & a & E2 & E). unfold read in E2. assert (h2 = h) by congruence. assert (a = load h v) by congruence. subst h2 a. clear E2.
    destruct (a_models (load h v)) as [|m ms] eqn:Em; [discriminate|]. rewrite <- Em in *. unfold ret in E. assert (h = h1) by congruence. subst h1.
    assert (Ew : w = mk_weights (a_K (load h v)) (repeat one (length (a_models (load h v)))) (repeat 1 (length (a_models (load h v)))) 1 []) by congruence.
    subst w. cbn [w_temps w_scores] in *. split; [auto|]. split; [congruence|]. exists x. auto.
Qed.

Lemma scaled_length temps before after : scaled scale temps before after -> length after = length before.
Proof. intros H. apply H. Qed.
Lemma repeat_error n i : (i < n)%nat -> nth_error (repeat one n) i = Some one.
Proof. revert i. induction n; intros [|i] H; simpl; try lia; auto. apply IHn. lia. Qed.

Lemma arrays_full t M r v h h' s u :
  (forall row, In row t -> length row = M) -> (2 <= a_K (load h r))%nat ->
  (forall m, In m (a_models (load h r)) -> distributions (a_N (load h r)) (a_K (load h r)) m) -> keeps_distributions scale -> (forall x, 0 < x -> 0 < fsqrt x) ->
  active_ensemble one best scale fsqrt rnd rnd' (Some t) M (Some r) (Some v) h = (h', Ok (s, u)) ->
  exists temps mid,
    ((forall row, In row t -> num_annotations row = 1%nat) -> temps = repeat one (length (a_models (load h r))) /\ mid = a_models (load h r)) /\
    (~ (forall row, In row t -> num_annotations row = 1%nat) -> best_for best t temps (a_models (load h r)) /\ scaled scale temps (a_models (load h r)) mid) /\
    (v <> r -> a_models (load h' r) = mid /\ scaled scale temps (a_models (load h v)) (a_models (load h' v))) /\
    (v = r -> scaled scale temps mid (a_models (load h' r))) /\
    (forall r', r' <> r -> r' <> v -> load h' r' = load h r').
Proof.
  intros W HK HD Hsc Hf H. apply active_ensemble_inv in H as (HKK & w & h1 & x & HL & _ & HR & HU).
  destruct (labelled_inv _ _ _ _ _ _ W HK HD Hsc Hf HL) as (Hne & HN & Hw & Ho & Hn1 & Hk1 & Hd1 & Lm & Hs1 & Hs2 & Lt & Lw & Hpos & q & aw & Hq & LQ & BQ & LA & BA & Eavg & Pavg & Es).
  assert (Lv : length (a_models (load h' v)) = length (w_models w)).
  { unfold unlabelled_scores in HU. destruct (a_K (load h' v) =? 0); [discriminate|]. destruct (get_majority_vote_label _ _ _ _ _ _); cbn [rbind] in HU; [|discriminate].
    destruct (length (a_models (load h' v)) =? length (w_models w)) eqn:EL; [apply Nat.eqb_eq; auto|discriminate]. }
  destruct (rescale_len _ _ _ _ _ HR) as (L1 & _ & _ & Hoth).
  apply rescale_full in HR as (_ & _ & _ & _ & Hsv); [|congruence].
  exists (w_temps w), (a_models (load h1 r)). split; [intros H1; destruct (Hs1 H1) as [-> ->]; auto|]. split; [auto|]. split; [|split].
  - intros Hvr. split; [rewrite Hoth by auto; auto|]. rewrite <- (Ho v) by auto. auto.
  - intros ->. auto.
  - intros r' H1 H2. rewrite Hoth by auto. apply Ho. auto.
Qed.

Lemma scores_full t M r ppu h h' s u :
  (forall row, In row t -> length row = M) -> (2 <= a_K (load h r))%nat ->
  (forall m, In m (a_models (load h r)) -> distributions (a_N (load h r)) (a_K (load h r)) m) ->
  (forall v m, ppu = Some v -> In m (a_models (load h v)) -> distributions (a_N (load h v)) (a_K (load h v)) m) ->
  keeps_distributions scale -> (forall x, 0 < x -> 0 < fsqrt x) -> ppu <> Some r ->
  active_ensemble one best scale fsqrt rnd rnd' (Some t) M (Some r) ppu h = (h', Ok (s, u)) ->
  exists mw aw avg q,
    quality_ensemble t M (a_K (load h r)) (a_models (load h' r)) mw aw q /\
    length mw = length (a_models (load h r)) /\ (forall x, In x mw -> 0 < x) /\ length aw = M /\ (forall x, In x aw -> 0 < x) /\ is_average aw avg /\
    length q = length t /\ (forall x, In x q -> 0 <= x /\ x <= 1) /\
    length s = length t /\
    (forall i, (i < length t)%nat -> weighted [nth i q 0; 1 / Qnat (a_K (load h r))] [weight_of_annotators aw (nth i t []) + qsum mw; avg] (nth i s 0)) /\
    (ppu = None -> u = []) /\
    (forall v, ppu = Some v -> length u = a_N (load h v) /\ length (a_models (load h v)) = length mw /\
       forall i, (i < a_N (load h v))%nat -> exists fav c, favourites (a_K (load h r)) (a_models (load h' v)) i fav /\ plurality (map Some fav) c /\
         (forall k x y, plurality (map Some fav) k -> is_average (map (fun m => mget m i k) (a_models (load h' v))) x ->
            is_average (map (fun m => mget m i c) (a_models (load h' v))) y -> x <= y) /\
         weighted (map (fun m => mget m i c) (a_models (load h' v)) ++ [1 / Qnat (a_K (load h r))]) (mw ++ [avg]) (nth i u 0)).
Proof.
  intros W HK HD HDv Hsc Hf Hne H. apply active_ensemble_inv in H.
  assert (exists w h1, labelled_half one best scale fsqrt rnd t M r h = (h1, Ok w) /\ s = w_scores w /\ load h' r = load h1 r /\ (ppu = None -> u = []) /\
    (forall v, ppu = Some v -> a_K (load h r) = a_K (load h v) /\ exists x, rescale scale (w_temps w) v (seq 0 (length (a_models (load h1 v)))) h1 = (h', Ok x) /\ unlabelled_scores rnd' w (load h' v) = Ok u)) as (w & h1 & HL & -> & ER & HU0 & HU).
  { destruct ppu as [v|].
    - destruct H as (HKK & w & h1 & x & HL & -> & HR & HU). exists w, h1. split; [auto|]. split; [auto|]. split.
      + destruct (rescale_len _ _ _ _ _ HR) as (_ & _ & _ & Hoth). apply Hoth. congruence.
      + split; [discriminate|]. intros v' E. injection E as <-. split; [auto|]. eauto.
    - destruct H as (w & HL & -> & ->). exists w, h'. repeat (split; [auto; fail|]). discriminate. }
  destruct (labelled_inv _ _ _ _ _ _ W HK HD Hsc Hf HL) as (Hne' & HN & Hw & Ho & Hn1 & Hk1 & Hd1 & Lm & Hs1 & Hs2 & Lt & Lw & Hpos & q & aw & Hq & LQ & BQ & LA & BA & Eavg & Pavg & Es).
  exists (w_models w), aw, (w_avg w), q. rewrite ER. split; [auto|]. split; [auto|]. split; [auto|]. split; [auto|]. split; [auto|].
  assert (Haw : aw <> []) by (intros ->; rewrite Eavg in Pavg; vm_compute in Pavg; discriminate).
  split; [rewrite Eavg; apply ProofCount.qmean_average; auto|]. split; [auto|]. split; [auto|]. split; [rewrite Es, map_length, combine_length; lia|]. split; [|split; [auto|]].
  - intros i Hi. rewrite Es. rewrite (nth_map_gen _ _ _ _ (0, [])) by (rewrite combine_length; lia). rewrite combine_nth by auto. cbn [fst snd]. rewrite <- Eavg.
    assert (EW := weight_annotators aw (nth i t []) ltac:(rewrite LA; apply W, nth_In; auto)).
    assert (0 <= annotation_weight aw (nth i t [])) by (apply annotation_weight_nonneg; auto).
    assert (0 < qsum (w_models w)).
    { apply qsum_pos; auto. destruct (w_models w); [|discriminate]. simpl in Lw. destruct (a_models (load h r)); [congruence|discriminate]. }
    apply two_weighted; auto.
  - intros v Ev. destruct (HU v Ev) as (HKK & x & HR & HUs). destruct (rescale_len _ _ _ _ _ HR) as (L1 & L2 & L3 & Hoth).
    assert (Hvr : v <> r) by congruence. rewrite (Ho v Hvr) in L1, L2, L3.
    assert (Lv : length (a_models (load h' v)) = length (w_models w)).
    { clear - HUs. unfold unlabelled_scores in HUs. destruct (a_K (load h' v) =? 0); [discriminate|]. destruct (get_majority_vote_label _ _ _ _ _ _); cbn [rbind] in HUs; [|discriminate].
      destruct (length (a_models (load h' v)) =? length (w_models w)) eqn:EL; [apply Nat.eqb_eq; auto|discriminate]. }
    apply rescale_full in HR as (_ & _ & _ & _ & Hsv); [|rewrite (Ho v Hvr); congruence]. rewrite (Ho v Hvr) in Hsv.
    apply unlabelled_inv in HUs as (A & B & C & D); auto; [| lia|].
    + rewrite L2, L3 in *. rewrite <- HKK in D. split; [auto|]. split; [congruence|]. auto.
    + intros m Hm. destruct (scaled_in _ _ _ _ Hsv Hm) as (tp & m1 & Hm1 & ->). apply Hsc. rewrite L2, L3. eauto.
Qed.

Lemma unlabelled_only_full t M v h h' s u :
  (1 <= a_K (load h v))%nat -> (forall m, In m (a_models (load h v)) -> distributions (a_N (load h v)) (a_K (load h v)) m) -> keeps_distributions scale ->
  active_ensemble one best scale fsqrt rnd rnd' t M None (Some v) h = (h', Ok (s, u)) ->
  s = [] /\ scaled scale (repeat one (length (a_models (load h v)))) (a_models (load h v)) (a_models (load h' v)) /\ (forall r', r' <> v -> load h' r' = load h r') /\
  length u = a_N (load h v) /\
  forall i, (i < a_N (load h v))%nat -> exists fav c, favourites (a_K (load h v)) (a_models (load h' v)) i fav /\ plurality (map Some fav) c /\
    is_average (map (fun m => mget m i c) (a_models (load h' v)) ++ [1 / Qnat (a_K (load h v))]) (nth i u 0).
Proof.
  intros HK HD Hsc H. apply active_ensemble_inv in H. assert (H' := H). destruct H' as (-> & Hne & x & HR & HU).
  destruct (rescale_len _ _ _ _ _ HR) as (L1 & L2 & L3 & Hoth). apply rescale_full in HR as (_ & _ & _ & _ & Hsv); [|apply repeat_length].
  split; [auto|]. split; [auto|]. split; [auto|].
  apply unlabelled_inv in HU as (A & B & C & D); auto; cbn [w_models w_avg w_K] in *; try lia; try (intros y Hy; apply repeat_spec in Hy; subst; lra); try lra.
  - rewrite L2, L3 in *. split; [auto|]. intros i Hi. destruct (D i Hi) as (fav & c & F1 & F2 & _ & F4). exists fav, c. split; [auto|]. split; [auto|].
    split; [destruct (map (fun m => mget m i c) (a_models (load h' v))); discriminate|]. unfold weighted in F4.
    assert (G : forall l : list Q, qsum (map (fun xw => fst xw * snd xw) (combine l (repeat 1 (length l)))) == qsum l).
    { induction l as [|y l IH]; [reflexivity|]. cbn [length repeat combine map fst snd]. rewrite !qsum_cons, IH. ring. }
    assert (G2 : forall n, qsum (repeat 1 n) == Qnat n).
    { induction n as [|n IHn]; [reflexivity|]. cbn [repeat]. rewrite qsum_cons, IHn. rewrite Qnat_S. ring. }
    assert (E : repeat 1 (length (a_models (load h v))) ++ [1] = repeat 1 (length (map (fun m => mget m i c) (a_models (load h' v)) ++ [1 / Qnat (a_K (load h v))]))).
    { rewrite app_length, map_length, L1. cbn [length]. rewrite Nat.add_1_r. rewrite <- repeat_cons. reflexivity. }
    rewrite E in F4. rewrite G, G2 in F4. exact F4.
  - intros m Hm. destruct (scaled_in _ _ _ _ Hsv Hm) as (tp & m1 & Hm1 & ->). apply Hsc. rewrite L2, L3. eauto.
Qed.

Lemma weighted_two q k a b x : 0 < a -> 0 < b -> weighted [q; k] [a; b] x -> x == blend k b q a.
Proof.
  intros Ha Hb H. unfold weighted in H. cbn [combine map fst snd] in H. rewrite !qsum_cons in H. change (qsum []) with 0 in H. unfold blend.
  assert (E : q * a + k * b == x * (a + b)) by lra. rewrite E. field. lra.
Qed.
Lemma favourite_prob K rw c : distribution K rw -> top_class K rw c -> 1 / Qnat K <= nth c rw 0.
Proof.
  intros HD (HcK & HB & _). destruct (top_ge K rw HD) as [A _]; [lia|]. destruct HD as (L & _ & _).
  assert (Hn : rw <> []) by (intros ->; simpl in L; lia). pose proof (qmaximum_in rw Hn) as Hin. apply In_nth with (d := 0) in Hin as (j & Hj & E). rewrite <- E in A. specialize (HB j ltac:(lia)). lra.
Qed.
Lemma plurality_all fav c c0 : (forall x, In x fav -> x = c0) -> plurality (map Some fav) c -> c = c0.
Proof.
  intros H [Hv _]. apply votes_in in Hv. apply in_map_iff in Hv as (k & E & Hk). injection E as ->. auto.
Qed.

Lemma order_full t M r ppu h h' s u :
  (forall row, In row t -> length row = M) -> (2 <= a_K (load h r))%nat ->
  (forall m, In m (a_models (load h r)) -> distributions (a_N (load h r)) (a_K (load h r)) m) ->
  (forall v m, ppu = Some v -> In m (a_models (load h v)) -> distributions (a_N (load h v)) (a_K (load h v)) m) ->
  keeps_distributions scale -> (forall x, 0 < x -> 0 < fsqrt x) -> ppu <> Some r ->
  active_ensemble one best scale fsqrt rnd rnd' (Some t) M (Some r) ppu h = (h', Ok (s, u)) ->
  exists mw aw q, quality_ensemble t M (a_K (load h r)) (a_models (load h' r)) mw aw q /\
    (forall i, (i < length t)%nat ->
      (1 / Qnat (a_K (load h r)) <= nth i q 0 -> 1 / Qnat (a_K (load h r)) <= nth i s 0 /\ nth i s 0 <= nth i q 0) /\
      (nth i q 0 <= 1 / Qnat (a_K (load h r)) -> nth i q 0 <= nth i s 0 /\ nth i s 0 <= 1 / Qnat (a_K (load h r)))) /\
    (forall i i', (i < length t)%nat -> (i' < length t)%nat ->
      (forall j, annotators_of (nth i t []) j -> annotators_of (nth i' t []) j) ->
      1 / Qnat (a_K (load h r)) <= nth i' q 0 -> nth i q 0 <= nth i' q 0 ->
      nth i s 0 <= nth i' s 0 /\
      (1 / Qnat (a_K (load h r)) < nth i' q 0 -> (exists j, ~ annotators_of (nth i t []) j /\ annotators_of (nth i' t []) j) -> nth i s 0 < nth i' s 0)) /\
    (forall v i, ppu = Some v -> (i < a_N (load h v))%nat -> 0 <= nth i u 0 /\ nth i u 0 <= 1 /\
      (forall c, (forall m, In m (a_models (load h' v)) -> top_class (a_K (load h r)) (nth i m []) c) -> 1 / Qnat (a_K (load h r)) <= nth i u 0 )).
Proof.
  intros W HK HD HDv Hsc Hf Hne H. assert (HA := H). apply scores_full in H as (mw & aw & avg & q & Hq & Lmw & Pmw & Law & Paw & Havg & LQ & BQ & LS & HS & Hu0 & HU); auto.
  exists mw, aw, q. split; [auto|].
  assert (HKQ : 0 < Qnat (a_K (load h r))) by (apply Qnat_pos; lia).
  assert (Havg0 : 0 < avg).
  { destruct Havg as [Hn Ea]. assert (0 < qsum aw) by (apply qsum_pos; auto). assert (0 < Qnat (length aw)) by (apply Qnat_pos; destruct aw; [congruence|simpl; lia]).
    destruct (Qlt_le_dec 0 avg); auto. exfalso. assert (avg * Qnat (length aw) <= 0 * Qnat (length aw)) by (apply Qmult_le_compat_r; lra). lra. }
  assert (Hmwn : mw <> []).
  { apply active_ensemble_inv in HA. assert (exists w h1, labelled_half one best scale fsqrt rnd t M r h = (h1, Ok w)) as (w & h1 & HL) by (destruct ppu; [destruct HA as (_ & w & h1 & x & HL & _); eauto|destruct HA as (w & HL & _); eauto]).
    apply labelled_inv in HL as (Hn & _); auto. intros ->. simpl in Lmw. destruct (a_models (load h r)); [congruence|discriminate]. }
  assert (Hmw : 0 < qsum mw) by (apply qsum_pos; auto).
  assert (Hwt : forall i, (i < length t)%nat -> weight_of_annotators aw (nth i t []) == annotation_weight aw (nth i t []) /\ 0 <= weight_of_annotators aw (nth i t [])).
  { intros i Hi. assert (E := weight_annotators aw (nth i t []) ltac:(rewrite Law; apply W, nth_In; auto)). split; [symmetry; auto|]. rewrite <- E. apply annotation_weight_nonneg; auto. }
  assert (Es : forall i, (i < length t)%nat -> nth i s 0 == blend (1 / Qnat (a_K (load h r))) avg (nth i q 0) (weight_of_annotators aw (nth i t []) + qsum mw)).
  { intros i Hi. destruct (Hwt i Hi). apply weighted_two; auto. lra. }
  split; [|split].
  - intros i Hi. destruct (Hwt i Hi). rewrite (Es i Hi). apply blend_between; auto. lra.
  - intros i i' Hi Hi' Hs Hge Hle. rewrite (Es i Hi), (Es i' Hi'). destruct (Hwt i Hi) as [E1 P1]. destruct (Hwt i' Hi') as [E2 P2].
    destruct (annotation_weight_sub aw (nth i t []) (nth i' t [])) as [A1 A2]; auto; [rewrite Law; apply W, nth_In; auto|rewrite Law; apply W, nth_In; auto|].
    split; [apply blend_mono; auto; lra|]. intros Hgt Hj. specialize (A2 Hj). apply blend_strict; auto; try lra.
  - intros v i Ev Hi. destruct (HU v Ev) as (LU & Lv & HF). destruct (HF i Hi) as (fav & c & Hfav & Hpl & _ & Hwd).
    assert (Hd : forall m, In m (a_models (load h' v)) -> distribution (a_K (load h r)) (nth i m [])).
    { intros m Hm. assert (HI := HA). apply active_ensemble_inv in HI. rewrite Ev in HI. destruct HI as (HKK & w & h1 & x & HL & _ & HR & HUs).
      destruct (labelled_inv _ _ _ _ _ _ W HK HD Hsc Hf HL) as (_ & _ & _ & Ho & _ & _ & _ & _ & _ & _ & Lt & _).
      assert (Hvr : v <> r) by congruence. apply rescale_full in HR as (_ & _ & _ & _ & Hsv); [|rewrite (Ho v Hvr); congruence]. rewrite (Ho v Hvr) in Hsv.
      destruct (scaled_in _ _ _ _ Hsv Hm) as (tp & m1 & Hm1 & ->). destruct (Hsc tp _ _ _ (HDv v m1 Ev Hm1)) as [D1 D2]. rewrite HKK. apply D2, nth_In. lia. }
    assert (Lw : length (map (fun m => mget m i c) (a_models (load h' v)) ++ [1 / Qnat (a_K (load h r))]) = length (mw ++ [avg])).
    { rewrite !app_length, map_length. cbn [length]. f_equal. assert (HI := HA). apply active_ensemble_inv in HI. rewrite Ev in HI. destruct HI as (HKK & w & h1 & x & HL & _ & HR & HUs).
      destruct (labelled_inv _ _ _ _ _ _ W HK HD Hsc Hf HL) as (_ & _ & _ & Ho & _). destruct (rescale_len _ _ _ _ _ HR) as (L1 & _). rewrite (Ho v) in L1 by congruence. congruence. }
    assert (Pw : forall b, In b (mw ++ [avg]) -> 0 < b) by (intros b Hb; apply in_app_or in Hb as [Hb|[<-|[]]]; auto).
    assert (Nw : mw ++ [avg] <> []) by (destruct mw; discriminate).
    assert (HK1 : 1 / Qnat (a_K (load h r)) <= 1).
    { apply Qle_shift_div_r; auto. rewrite Qmult_1_l. change 1 with (Qnat 1). apply Qnat_le. lia. }
    assert (HK0 : 0 <= 1 / Qnat (a_K (load h r))) by (apply Qle_shift_div_l; auto; lra).
    destruct (weighted_bounds 0 1 _ _ (nth i u 0) Lw) as [B0 B1]; auto.
    { intros y Hy. apply in_app_or in Hy as [Hy|[<-|[]]]; [|auto]. apply in_map_iff in Hy as (m & <- & Hm). unfold mget. apply (nth_unit (a_K (load h r))). auto. }
    split; [auto|]. split; [auto|]. intros c0 Hc0.
    assert (c = c0).
    { apply (plurality_all fav); auto. intros x Hx. unfold favourites in Hfav. clear - Hfav Hc0 Hx.
      induction Hfav as [|m y ms fs Hy Hfs IH]; [destruct Hx|]. destruct Hx as [->|Hx].
      - destruct (Hc0 m (or_introl eq_refl)) as (A1 & A2 & A3). destruct Hy as (B1 & B2 & B3). destruct (Nat.lt_total x c0) as [L|[L|L]]; auto.
        + specialize (A3 x L). specialize (B2 c0 A1). lra.
        + specialize (B3 c0 L). specialize (A2 x B1). lra.
      - apply IH; auto. intros m' Hm'. apply Hc0. right; auto. }
    subst c0. destruct (weighted_bounds (1 / Qnat (a_K (load h r))) 1 _ _ (nth i u 0) Lw) as [B2 _]; auto.
    intros y Hy. apply in_app_or in Hy as [Hy|[<-|[]]]; [|lra]. apply in_map_iff in Hy as (m & <- & Hm). unfold mget. split; [apply favourite_prob; auto|apply (nth_unit (a_K (load h r))); auto].
Qed.

Lemma one_model_full t M pp v h h' s u : length (a_models (load h v)) = 1%nat -> active_ensemble one best scale fsqrt rnd rnd' t M pp (Some v) h <> (h', Ok (s, u)).
Proof.
  intros H1 H. apply active_ensemble_inv in H.
  assert (HX : forall (w : @weights T) h1 x, length (a_models (load h1 v)) = 1%nat -> rescale scale (w_temps w) v (seq 0 (length (a_models (load h1 v)))) h1 = (h', Ok x) -> unlabelled_scores rnd' w (load h' v) = Ok u -> False).
  { intros w h1 x L HR HU. destruct (rescale_len _ _ _ _ _ HR) as (L1 & _). rewrite L in L1. unfold unlabelled_scores in HU. destruct (a_K (load h' v) =? 0); [discriminate|].
    unfold get_majority_vote_label in HU. rewrite L1 in HU. destruct (assert_valid_multiannotator _ _ _ _) as [[]|] eqn:EA; cbn [rbind] in HU; [|discriminate].
    unfold assert_valid_multiannotator in EA. destruct (existsb _ _); [discriminate|]. destruct (existsb _ _); [discriminate|]. discriminate. }
  destruct pp as [r|].
  - destruct t as [t|]; [|destruct H]. destruct H as (_ & w & h1 & x & HL & _ & HR & HU). apply (HX w h1 x); auto.
    unfold labelled_half in HL. apply bind_inv in HL as (h0 & a & E & HL). unfold read in E. assert (h0 = h) by congruence. assert (a = load h r) by congruence. subst h0 a. clear E.
    destruct (a_models (load h r)) as [|m0 ms0] eqn:Em; [discriminate|]. rewrite <- Em in *. apply bind_inv in HL as (h2 & [[[temps q] mw] aw] & E & HL). unfold ret in HL. assert (h2 = h1) by congruence. subst h2. clear HL.
    destruct (forallb _ t).
    + apply bind_inv in E as (h2 & [] & EV & E). unfold lift_res in EV. assert (h2 = h) by congruence. subst h2. apply bind_inv in E as (h2 & c & EC & E). unfold lift_res in EC. assert (h2 = h) by congruence. subst h2.
      apply bind_inv in E as (h2 & q' & EQ & E). unfold lift_res in EQ. assert (h2 = h) by congruence. subst h2. unfold ret in E. assert (h = h1) by congruence. subst h1. auto.
    + apply bind_inv in E as (h2 & temps' & EC & E). apply calibrate_full in EC as (_ & B & _ & _ & _ & ES). apply bind_inv in E as (h3 & info & EL & E). unfold ret in E. assert (h3 = h1) by congruence. subst h3.
      unfold label_quality_ensemble in EL. apply bind_inv in EL as (h3 & a & E3 & EL). unfold read in E3. assert (h3 = h2) by congruence. subst h3.
      apply bind_inv in EL as (h3 & [] & EV & EL). unfold lift_res in EV. assert (h3 = h2) by congruence. subst h3.
      apply bind_inv in EL as (h3 & y & E4 & EL). unfold ret in E4. assert (h3 = h2) by congruence. subst h3.
      apply bind_inv in EL as (h3 & a' & E5 & EL). unfold read in E5. assert (h3 = h2) by congruence. subst h3. unfold lift_res in EL. assert (h2 = h1) by congruence. subst h2.
      destruct (Nat.eq_dec v r) as [->|Hn]; [rewrite (proj1 ES); auto|rewrite (B v Hn); auto].
  - destruct H as (_ & _ & x & HR & HU). apply (HX (mk_weights (a_K (load h v)) (repeat one (length (a_models (load h v)))) (repeat 1 (length (a_models (load h v)))) 1 []) h x); auto.
Qed.

Lemma quality_calibrate_full t M r h h' info :
  label_quality_ensemble best scale fsqrt rnd t M true r h = (h', Ok info) ->
  exists temps, best_for best t temps (a_models (load h r)) /\ scaled scale temps (a_models (load h r)) (a_models (load h' r)) /\ (forall r', r' <> r -> load h' r' = load h r') /\
    a_N (load h r) = length t /\
    label_quality_ensemble best scale fsqrt rnd t M false r h' = (h', Ok info).
Proof.
  intros EL. unfold label_quality_ensemble in EL. apply bind_inv in EL as (h3 & a & E3 & EL). unfold read in E3. assert (h3 = h) by congruence. assert (a = load h r) by congruence. subst h3 a. clear E3.
  apply bind_inv in EL as (h3 & [] & EV & EL). unfold lift_res in EV. assert (h3 = h) by congruence. subst h3.
  assert (EV' : assert_valid_multiannotator t M (Some (a_N (load h r), a_K (load h r))) false = Ok tt) by congruence. clear EV.
  apply bind_inv in EL as (h3 & temps & E4 & EL). apply calibrate_full in E4 as (_ & B & C & D & EB & ES).
  apply bind_inv in EL as (h4 & a' & E5 & EL). unfold read in E5. assert (h4 = h3) by congruence. assert (a' = load h3 r) by congruence. subst h4 a'. clear E5.
  unfold lift_res in EL. assert (h3 = h') by congruence. subst h3. exists temps. split; [auto|]. split; [auto|]. split; [auto|]. split.
  - unfold assert_valid_multiannotator in EV'. repeat match type of EV' with (if ?b then _ else _) = _ => destruct b; [discriminate|] end.
    destruct (all_given t); [discriminate|]. destruct (a_N (load h r) =? length t) eqn:E; [apply Nat.eqb_eq; auto|discriminate].
  - unfold label_quality_ensemble, bind, read, lift_res, ret. rewrite C, D, EV'. rewrite D in EL. congruence.
Qed.
End A.
