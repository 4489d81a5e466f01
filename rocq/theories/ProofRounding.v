(** * Proofs for property C162 *)
From Coq Require Import QArith Qabs Qminmax List Bool Arith ZArith Lia Lqa Permutation Sorting.Sorted.
From Verif Require Import Base BaseFacts ModelUtil ModelCount SpecCount ProofUtil ProofCount SpecRounding.
Import ListNotations.
Open Scope Q_scope.

(** ** the residuals stay within 1 of each other *)
Definition spread (xs : list Q) (zs : list Z) : Prop :=
  forall i j, (i < length xs)%nat -> (j < length xs)%nat ->
    (nth i xs 0 - inject_Z (nth i zs 0%Z)) - (nth j xs 0 - inject_Z (nth j zs 0%Z)) <= 1.

Lemma spread_start xs : spread xs (map round_half_even xs).
Proof.
  intros i j Hi Hj. rewrite !(nth_map_gen round_half_even xs _ 0%Z 0) by auto.
  pose proof (round_half_even_bound (nth i xs 0)). pose proof (round_half_even_bound (nth j xs 0)). lra.
Qed.

Lemma residual_nth xs ints i : length ints = length xs -> (i < length xs)%nat ->
  nth i (map (fun fi => fst fi - inject_Z (snd fi)) (combine xs ints)) 0 = nth i xs 0 - inject_Z (nth i ints 0%Z).
Proof.
  intros Hl Hi. rewrite (nth_map_gen _ _ _ _ (0, 0%Z)) by (rewrite combine_length; lia).
  rewrite combine_nth by auto. reflexivity.
Qed.

Lemma spread_loop srt xs S0 : argsort_ok srt -> forall fuel ints zs, length ints = length xs -> spread xs ints ->
  rps_loop srt fuel xs S0 ints = Ok zs -> length zs = length xs /\ spread xs zs.
Proof.
  intros Hsrt. induction fuel as [|fuel IH]; intros ints zs Hl Hsp; cbn [rps_loop].
  - destruct (Qltb _ _); [discriminate|]. intros E. injection E as <-. auto.
  - destruct (Qltb _ _); [|intros E; injection E as <-; auto].
    set (dl := map (fun fi => fst fi - inject_Z (snd fi)) (combine xs ints)).
    set (order := srt dl). set (c := Nat.min _ _).
    assert (Hdl : length dl = length xs) by (unfold dl; rewrite map_length, combine_length; lia).
    assert (Hord : is_argsort dl order) by apply Hsrt.
    assert (Hin : forall i, In i order <-> (i < length xs)%nat) by (rewrite <- Hdl; apply argsort_in; auto).
    assert (Hnd : NoDup order) by (apply (argsort_NoDup dl); auto).
    assert (Hsorted : StronglySorted (fun i j => nth i dl 0 <= nth j dl 0) order) by apply Hord.
    assert (Hd : forall i, (i < length xs)%nat -> nth i dl 0 = nth i xs 0 - inject_Z (nth i ints 0%Z)).
    { intros i Hi. apply residual_nth; auto. }
    intros E. apply IH in E; auto; [rewrite add_at_length; auto|].
    destruct (Z.ltb (S0 - zsum ints) 0).
    + set (T := firstn c order).
      assert (HT : NoDup T) by (apply firstn_NoDup; auto).
      assert (HTl : forall i, In i T -> (i < length ints)%nat).
      { intros i Hi. rewrite Hl. apply Hin. eapply firstn_In; eauto. }
      assert (Hcmp : forall i j, In i T -> (j < length xs)%nat -> ~ In j T -> nth i dl 0 <= nth j dl 0).
      { intros i j Hi Hj Hn. rewrite <- (firstn_skipn c order) in Hsorted.
        apply StronglySorted_app in Hsorted as (_ & _ & HH). apply HH; auto.
        apply Hin in Hj. rewrite <- (firstn_skipn c order) in Hj. apply in_app_or in Hj as [?|?]; auto. contradiction. }
      intros i j Hi Hj. rewrite !add_at_nth by auto. rewrite !inject_Z_plus.
      pose proof (Hsp i j Hi Hj) as Hs.
      destruct (mem i T) eqn:Ei; destruct (mem j T) eqn:Ej; change (inject_Z (-1)) with (-(1)); change (inject_Z 0) with 0; try lra.
      * apply mem_iff in Ei. assert (~ In j T) by (intros C; apply mem_iff in C; congruence).
        pose proof (Hcmp i j Ei Hj H) as Hc. rewrite !Hd in Hc by auto. lra.
    + set (T := firstn c (rev order)).
      assert (HT : NoDup T) by (apply firstn_NoDup, NoDup_rev; auto).
      assert (HTl : forall i, In i T -> (i < length ints)%nat).
      { intros i Hi. rewrite Hl. apply Hin. apply in_rev. eapply firstn_In; eauto. }
      assert (Hcmp : forall i j, In i T -> (j < length xs)%nat -> ~ In j T -> nth j dl 0 <= nth i dl 0).
      { intros i j Hi Hj Hn.
        assert (order = rev (skipn c (rev order)) ++ rev T) as Ho.
        { rewrite <- rev_app_distr. unfold T. rewrite firstn_skipn, rev_involutive. reflexivity. }
        rewrite Ho in Hsorted. apply StronglySorted_app in Hsorted as (_ & _ & HH).
        apply HH; [|rewrite <- in_rev; auto].
        apply Hin in Hj. rewrite Ho in Hj. apply in_app_or in Hj as [?|Hj]; auto.
        rewrite <- in_rev in Hj. contradiction. }
      intros i j Hi Hj. rewrite !add_at_nth by auto. rewrite !inject_Z_plus.
      pose proof (Hsp i j Hi Hj) as Hs.
      destruct (mem i T) eqn:Ei; destruct (mem j T) eqn:Ej; change (inject_Z 1) with 1; change (inject_Z 0) with 0; try lra.
      * apply mem_iff in Ej. assert (~ In i T) by (intros C; apply mem_iff in C; congruence).
        pose proof (Hcmp j i Ej Hi H) as Hc. rewrite !Hd in Hc by auto. lra.
Qed.

(** ** so no other integers with the same sum are closer *)
Lemma convex_up g m u : convex_cost g -> m <= g (u + 1) - g u -> forall k, Qnat k * m <= g (u + Qnat k) - g u.
Proof.
  intros (Hg & Hc) Hm. induction k as [|k IH].
  - change (Qnat 0) with 0. rewrite (Hg (u + 0) u) by ring. lra.
  - rewrite (Hg (u + Qnat (S k)) (u + Qnat k + 1)) by (rewrite Qnat_S; ring). pose proof (Qnat_S k) as HS.
    pose proof (Qnat_nonneg k). pose proof (Hc u (u + Qnat k) ltac:(lra)) as H0. rewrite HS. lra.
Qed.
Lemma convex_down g m u : convex_cost g -> g u - g (u - 1) <= m -> forall k, g u - g (u - Qnat k) <= Qnat k * m.
Proof.
  intros (Hg & Hc) Hm. induction k as [|k IH].
  - change (Qnat 0) with 0. rewrite (Hg (u - 0) u) by ring. lra.
  - rewrite (Hg (u - Qnat (S k)) (u - (Qnat k + 1))) by (rewrite Qnat_S; ring). pose proof (Qnat_S k) as HS.
    pose proof (Qnat_nonneg k) as Hk. pose proof (Hc (u - (Qnat k + 1)) (u - 1) ltac:(lra)) as H.
    rewrite (Hg (u - (Qnat k + 1) + 1) (u - Qnat k)), (Hg (u - 1 + 1) u) in H by ring.
    rewrite HS. lra.
Qed.
Lemma convex_shift g m u : convex_cost g -> g u - g (u - 1) <= m -> m <= g (u + 1) - g u ->
  forall d : Z, inject_Z d * m <= g (u + inject_Z d) - g u.
Proof.
  intros Hg H1 H2 d. destruct (Z_lt_le_dec d 0) as [Hd|Hd].
  - pose proof (convex_down g m u Hg H1 (Z.to_nat (- d))) as H. unfold Qnat in H. rewrite Z2Nat.id in H by lia.
    rewrite inject_Z_opp in H. destruct Hg as (Hg & _).
    rewrite (Hg (u - - inject_Z d) (u + inject_Z d)) in H by ring. lra.
  - pose proof (convex_up g m u Hg H2 (Z.to_nat d)) as H. unfold Qnat in H. rewrite Z2Nat.id in H by lia. exact H.
Qed.

(** a least element of a non-empty list of numbers *)
Lemma least_exists (f : nat -> Q) n : (0 < n)%nat -> exists m, (m < n)%nat /\ forall i, (i < n)%nat -> f m <= f i.
Proof.
  induction n as [|n IH]; [lia|]. intros _. destruct (Nat.eq_dec n 0) as [->|Hn].
  - exists 0%nat. split; [lia|]. intros i Hi. assert (i = 0)%nat as -> by lia. lra.
  - destruct IH as (m & Hm & H); [lia|]. destruct (Qlt_le_dec (f n) (f m)) as [L|L].
    + exists n. split; [lia|]. intros i Hi. destruct (Nat.eq_dec i n) as [->|]; [lra|].
      assert (f m <= f i) by (apply H; lia). lra.
    + exists m. split; [lia|]. intros i Hi. destruct (Nat.eq_dec i n) as [->|]; auto. apply H; lia.
Qed.

Lemma cost_gap g m xs : convex_cost g -> forall zs ws, length zs = length xs -> length ws = length xs ->
  (forall i, (i < length xs)%nat ->
     let e := inject_Z (nth i zs 0%Z) - nth i xs 0 in g e - g (e - 1) <= m /\ m <= g (e + 1) - g e) ->
  inject_Z (zsum ws - zsum zs) * m <= rounding_cost g xs ws - rounding_cost g xs zs.
Proof.
  intros Hg. induction xs as [|x xs IH]; intros [|z zs] [|w ws] Hz Hw H; try discriminate Hz; try discriminate Hw; cbn [rounding_cost].
  - change (inject_Z (zsum [] - zsum [])) with 0. lra.
  - assert (inject_Z (zsum ws - zsum zs) * m <= rounding_cost g xs ws - rounding_cost g xs zs) as Hr.
    { apply IH; [simpl in *; lia|simpl in *; lia|]. intros i Hi. apply (H (S i)). simpl. lia. }
    destruct (H 0%nat ltac:(simpl; lia)) as (H1 & H2). cbn [nth] in H1, H2.
    pose proof (convex_shift g m _ Hg H1 H2 (w - z)) as H3. destruct Hg as (Hg & _).
    rewrite (Hg (inject_Z z - x + inject_Z (w - z)) (inject_Z w - x)) in H3
      by (unfold Z.sub; rewrite inject_Z_plus, inject_Z_opp; ring).
    cbn [zsum fold_right]. fold (zsum ws) (zsum zs).
    replace (w + zsum ws - (z + zsum zs))%Z with ((w - z) + (zsum ws - zsum zs))%Z by lia.
    rewrite inject_Z_plus. lra.
Qed.

Lemma spread_best xs zs : length zs = length xs -> spread xs zs -> best_rounding xs zs.
Proof.
  intros Hl Hsp. split; auto. intros g ws Hg Hw Hs.
  destruct (Nat.eq_dec (length xs) 0) as [E|E].
  { destruct xs; [|discriminate]. simpl. lra. }
  destruct (least_exists (fun i => inject_Z (nth i zs 0%Z) - nth i xs 0) (length xs)) as (m & Hm & Hleast); [lia|].
  cbv beta in Hleast. set (e := inject_Z (nth m zs 0%Z) - nth m xs 0) in *.
  pose proof (cost_gap g (g (e + 1) - g e) xs Hg zs ws Hl Hw) as H.
  rewrite Hs, Z.sub_diag in H. change (inject_Z 0) with 0 in H.
  enough (0 * (g (e + 1) - g e) <= rounding_cost g xs ws - rounding_cost g xs zs) by lra.
  apply H. clear H. intros i Hi. cbv zeta. specialize (Hleast i Hi). specialize (Hsp m i Hm Hi).
  set (f := inject_Z (nth i zs 0%Z) - nth i xs 0) in *. destruct Hg as (Hg & Hc).
  split; [|apply Hc; auto].
  pose proof (Hc (f - 1) e) as H. rewrite (Hg (f - 1 + 1) f) in H by ring. apply H. unfold f, e. lra.
Qed.

Lemma best_sum srt fuel xs zs : argsort_ok srt ->
  round_preserving_sum_fuel srt fuel xs = Ok zs -> best_rounding xs zs.
Proof.
  intros Hs E. apply spread_loop in E; auto; [|rewrite map_length; auto|apply spread_start].
  destruct E. apply spread_best; auto.
Qed.

Lemma rmap_ok_inv {A B} (f : A -> res B) : forall l bs, rmap f l = Ok bs -> Forall2 (fun a b => f a = Ok b) l bs.
Proof.
  induction l as [|a l IH]; intros bs; cbn [rmap].
  - intros E; injection E as <-. constructor.
  - destruct (f a) eqn:E1; cbn [rbind]; [|discriminate]. destruct (rmap f l) eqn:E2; cbn [rbind]; [|discriminate].
    intros E; injection E as <-. constructor; auto.
Qed.

Lemma best_rows srt m zm : argsort_ok srt -> round_preserving_row_totals srt m = Ok zm -> Forall2 best_rounding m zm.
Proof.
  intros Hs E. apply rmap_ok_inv in E. induction E as [|a b l l' H _ IH]; constructor; auto.
  eapply best_sum; eauto.
Qed.

(** ** costs of the usual kinds *)
Lemma convex_abs : convex_cost Qabs.
Proof.
  split; [intros u v ->; reflexivity|]. intros u v H.
  destruct (Qlt_le_dec v 0); destruct (Qlt_le_dec u 0); destruct (Qlt_le_dec (v+1) 0); destruct (Qlt_le_dec (u+1) 0);
    try lra;
    repeat match goal with
    | L : ?a < 0 |- _ => rewrite (Qabs_neg a) by lra; revert L
    | L : 0 <= ?a |- _ => rewrite (Qabs_pos a) by lra; revert L
    end; intros; lra.
Qed.
Lemma convex_square : convex_cost (fun e => e * e).
Proof. split; [intros u v ->; reflexivity|]. intros u v H. lra. Qed.
Lemma convex_excess t : convex_cost (fun e => if Qle_bool t e then e - t else 0).
Proof.
  split.
  - intros u v E. destruct (Qle_bool t u) eqn:A; destruct (Qle_bool t v) eqn:B; try lra;
      rewrite E in A; congruence.
  - intros u v H.
    assert (forall q, Qle_bool t q = true -> t <= q) as P1 by (intros; apply Qle_bool_iff; auto).
    assert (forall q, Qle_bool t q = false -> q < t) as P2.
    { intros q Hq. destruct (Qlt_le_dec q t); auto. apply Qle_bool_iff in q0. congruence. }
    destruct (Qle_bool t u) eqn:A; destruct (Qle_bool t v) eqn:B; destruct (Qle_bool t (u+1)) eqn:C;
      destruct (Qle_bool t (v+1)) eqn:D;
      repeat match goal with
      | X : Qle_bool _ _ = true |- _ => apply P1 in X
      | X : Qle_bool _ _ = false |- _ => apply P2 in X
      end; lra.
Qed.

(** the cost only depends on the values of the numbers *)
Lemma cost_ext g : convex_cost g -> forall xs ys zs, length xs = length ys -> length zs = length xs ->
  (forall i, (i < length xs)%nat -> nth i xs 0 == nth i ys 0) -> rounding_cost g xs zs == rounding_cost g ys zs.
Proof.
  intros (Hg & _). induction xs as [|x xs IH]; intros [|y ys] [|z zs] Hl Hz H; try discriminate; cbn [rounding_cost]; [reflexivity|].
  rewrite (IH ys zs); [|simpl in *; lia|simpl in *; lia|intros i Hi; apply (H (S i)); simpl; lia].
  rewrite (Hg (inject_Z z - x) (inject_Z z - y)); [reflexivity|].
  specialize (H 0%nat ltac:(simpl; lia)). cbn [nth] in H. rewrite H. reflexivity.
Qed.
Lemma best_ext xs ys zs : length xs = length ys -> (forall i, (i < length xs)%nat -> nth i xs 0 == nth i ys 0) ->
  best_rounding xs zs -> best_rounding ys zs.
Proof.
  intros Hl H (Hz & Hb). split; [congruence|]. intros g ws Hg Hw Hs.
  rewrite <- !(cost_ext g Hg xs ys) by (auto; congruence). apply Hb; auto. congruence.
Qed.

(** ** the calibrated confident joint *)
Lemma calibrate_best srt K cj labels zm : argsort_ok srt ->
  length cj = K -> (forall r, In r cj -> length r = K) ->
  (forall r x, In r cj -> In x r -> 0 <= x) ->
  (forall i, (i < K)%nat -> In i labels -> TINY_VALUE <= qsum (nth i cj [])) ->
  labels <> [] -> (forall l, In l labels -> (l < K)%nat) ->
  calibrate_confident_joint srt cj labels = Ok zm ->
  forall i, (i < K)%nat ->
    best_rounding (map (fun x => x * Qnat (n_labelled i labels) / qsum (nth i cj [])) (nth i cj [])) (nth i zm []).
Proof.
  intros Hsrt HK Hrl Hnn Hrs Hne Hlab.
  unfold calibrate_confident_joint. rewrite HK, (value_counts_ok labels K) by auto.
  cbn [rbind]. set (lc := tab K (fun k => n_labelled k labels)).
  assert (Hlc : nsum lc = length labels) by (apply nsum_labelled; auto).
  set (calibrated := map _ (combine cj lc)).
  assert (Hlen1 : length calibrated = K).
  { unfold calibrated. rewrite map_length, combine_length, HK. unfold lc. rewrite tab_length. lia. }
  assert (Hpos : forall i, (i < K)%nat -> n_labelled i labels = 0%nat \/ TINY_VALUE <= qsum (nth i cj [])).
  { intros i Hi. destruct (Nat.eq_dec (n_labelled i labels) 0); [left; auto|right]. apply Hrs; auto. apply n_labelled_in. lia. }
  assert (Hc1 : forall i, (i < K)%nat -> nth i calibrated [] =
     map (fun x => x / clip_lo TINY_VALUE (qsum (nth i cj [])) * Qnat (n_labelled i labels)) (nth i cj [])).
  { intros i Hi. unfold calibrated.
    rewrite (nth_map_gen _ _ _ _ ([], 0%nat)) by (unfold lc; rewrite combine_length, HK, tab_length; lia).
    rewrite combine_nth by (unfold lc; rewrite tab_length; auto).
    unfold lc. rewrite nth_tab by auto. reflexivity. }
  assert (Hc1s : forall i, (i < K)%nat -> qsum (nth i calibrated []) == Qnat (n_labelled i labels)).
  { intros i Hi. rewrite Hc1 by auto. pose proof TINY_pos.
    rewrite (qsum_map_scale_r (fun x => x / clip_lo TINY_VALUE (qsum (nth i cj [])))).
    destruct (Hpos i Hi) as [H0|Hp]; [rewrite H0; change (Qnat 0) with 0; ring|].
    rewrite (qsum_map_div (fun x => x)). rewrite map_id, clip_lo_id by auto. field. lra. }
  set (total := qsum (map qsum calibrated)).
  assert (Htot : total == Qnat (length labels)).
  { unfold total. rewrite <- Hlc, Qnat_nsum. unfold lc. rewrite map_tab.
    rewrite (qsum_as_tab (map qsum calibrated)), map_length, Hlen1.
    apply qsum_tab_ext. intros i Hi. rewrite (nth_map_gen qsum calibrated i 0 []) by lia. auto. }
  assert (HN : 1 <= Qnat (length labels)).
  { change 1 with (Qnat 1). apply Qnat_le. destruct labels; [congruence|simpl; lia]. }
  assert (Hct : clip_lo TINY_VALUE total == Qnat (length labels)).
  { rewrite clip_lo_id; auto. rewrite Htot. pose proof TINY_le_1. lra. }
  set (cal2 := map (map _) calibrated).
  assert (Hlen2 : length cal2 = K) by (unfold cal2; rewrite map_length; auto).
  intros E i Hi. apply best_rows in E; auto.
  apply (Forall2_nth _ _ _ [] []) in E as (Hlz & HF). specialize (HF i ltac:(lia)).
  assert (Hli : length (nth i cj []) = K) by (apply Hrl, nth_In; lia).
  assert (Hl2 : length (nth i cal2 []) = K).
  { unfold cal2. rewrite (nth_map_gen _ calibrated i [] []) by lia. rewrite map_length, Hc1, map_length; auto. }
  revert HF. apply best_ext; [rewrite map_length; congruence|].
  rewrite Hl2. intros j Hj. rewrite (nth_map_gen _ (nth i cj []) j 0 0) by lia.
  unfold cal2. rewrite (nth_map_gen _ calibrated i [] []) by lia.
  rewrite (nth_map_gen _ (nth i calibrated []) j 0 0) by (rewrite Hc1, map_length; auto; lia).
  rewrite Hc1 by auto. rewrite (nth_map_gen _ (nth i cj []) j 0 0) by lia.
  rewrite Hct, Hlc. pose proof TINY_pos.
  destruct (Hpos i Hi) as [H0|Hp].
  - rewrite H0. change (Qnat 0) with 0. unfold Qdiv. ring.
  - rewrite clip_lo_id by auto. field. split; lra.
Qed.

(** ** the largest error *)
Lemma convex_outside t : 0 <= t -> convex_cost (fun e => if Qle_bool t (Qabs e) then Qabs e - t else 0).
Proof.
  intros Ht. split.
  - intros u v E. destruct (Qle_bool t (Qabs u)) eqn:A; destruct (Qle_bool t (Qabs v)) eqn:B; rewrite E in *; try congruence; reflexivity.
  - assert (forall e, (if Qle_bool t (Qabs e) then Qabs e - t else 0) ==
              (if Qle_bool t e then e - t else 0) + (if Qle_bool t (- e) then - e - t else 0)) as D.
    { intros e.
      assert (forall q, (if Qle_bool t q then q - t else 0) == Qmax 0 (q - t)) as M.
      { intros q. destruct (Qle_bool t q) eqn:A.
        - apply Qle_bool_iff in A. rewrite Q.max_r by lra. reflexivity.
        - assert (q < t) by (destruct (Qlt_le_dec q t); auto; apply Qle_bool_iff in q0; congruence).
          rewrite Q.max_l by lra. reflexivity. }
      rewrite (M e), (M (Qabs e)), (M (- e)).
      destruct (Qlt_le_dec e 0).
      - rewrite (Qabs_neg e) by lra. rewrite (Q.max_l 0 (e - t)) by lra. ring.
      - rewrite (Qabs_pos e) by lra. rewrite (Q.max_l 0 (- e - t)) by lra. ring. }
    intros u v H. rewrite !D.
    destruct (convex_excess t) as (Hg & Hc). cbv beta in Hg, Hc.
    pose proof (Hc u v H) as H1. pose proof (Hc (- v - 1) (- u - 1) ltac:(lra)) as H2.
    rewrite (Hg (- v - 1 + 1) (- v)), (Hg (- u - 1 + 1) (- u)), (Hg (- v - 1) (- (v + 1))), (Hg (- u - 1) (- (u + 1))) in H2 by ring.
    lra.
Qed.

Lemma cost_zero g : forall xs zs, (forall i, (i < length xs)%nat -> g (inject_Z (nth i zs 0%Z) - nth i xs 0) == 0) ->
  rounding_cost g xs zs == 0.
Proof.
  induction xs as [|x xs IH]; intros [|z zs] H; cbn [rounding_cost]; try reflexivity.
  rewrite IH; [|intros i Hi; apply (H (S i)); simpl; lia].
  specialize (H 0%nat ltac:(simpl; lia)). cbn [nth] in H. rewrite H. reflexivity.
Qed.
Lemma cost_nonneg g : (forall e, 0 <= g e) -> forall xs zs, 0 <= rounding_cost g xs zs.
Proof.
  intros H. induction xs as [|x xs IH]; intros [|z zs]; cbn [rounding_cost]; try lra.
  pose proof (IH zs). pose proof (H (inject_Z z - x)). lra.
Qed.
Lemma cost_term g : (forall e, 0 <= g e) -> forall xs zs i, length zs = length xs -> (i < length xs)%nat ->
  g (inject_Z (nth i zs 0%Z) - nth i xs 0) <= rounding_cost g xs zs.
Proof.
  intros H. induction xs as [|x xs IH]; intros [|z zs] i Hl Hi; try discriminate Hl; [simpl in Hi; lia|].
  cbn [rounding_cost]. destruct i as [|i]; cbn [nth].
  - pose proof (cost_nonneg g H xs zs). lra.
  - pose proof (IH zs i ltac:(simpl in *; lia) ltac:(simpl in *; lia)). pose proof (H (inject_Z z - x)). lra.
Qed.

Lemma best_max xs zs ws t : best_rounding xs zs -> length ws = length xs -> zsum ws = zsum zs ->
  (forall i, (i < length xs)%nat -> Qabs (inject_Z (nth i ws 0%Z) - nth i xs 0) <= t) ->
  forall i, (i < length xs)%nat -> Qabs (inject_Z (nth i zs 0%Z) - nth i xs 0) <= t.
Proof.
  intros (Hl & Hb) Hw Hs H i Hi.
  assert (0 <= t) as Ht. { specialize (H i Hi). pose proof (Qabs_nonneg (inject_Z (nth i ws 0%Z) - nth i xs 0)). lra. }
  set (g := fun e => if Qle_bool t (Qabs e) then Qabs e - t else 0).
  assert (Hnn : forall e, 0 <= g e).
  { intros e. unfold g. destruct (Qle_bool t (Qabs e)) eqn:A; [apply Qle_bool_iff in A|]; lra. }
  pose proof (Hb g ws (convex_outside t Ht) Hw Hs) as Hc.
  rewrite (cost_zero g xs ws) in Hc.
  - pose proof (cost_term g Hnn xs zs i Hl Hi) as Ht'. unfold g at 1 in Ht'.
    destruct (Qle_bool t (Qabs (inject_Z (nth i zs 0%Z) - nth i xs 0))) eqn:A; [lra|].
    destruct (Qlt_le_dec t (Qabs (inject_Z (nth i zs 0%Z) - nth i xs 0))) as [L|]; auto.
    apply Qlt_le_weak, Qle_bool_iff in L. congruence.
  - intros k Hk. unfold g. destruct (Qle_bool t (Qabs (inject_Z (nth k ws 0%Z) - nth k xs 0))) eqn:A; [|reflexivity].
    apply Qle_bool_iff in A. specialize (H k Hk). lra.
Qed.

Lemma costs_full xs zs ws : best_rounding xs zs -> length ws = length xs -> zsum ws = zsum zs ->
  rounding_cost Qabs xs zs <= rounding_cost Qabs xs ws /\
  rounding_cost (fun e => e * e) xs zs <= rounding_cost (fun e => e * e) xs ws /\
  forall t, (forall i, (i < length xs)%nat -> Qabs (inject_Z (nth i ws 0%Z) - nth i xs 0) <= t) ->
    forall i, (i < length xs)%nat -> Qabs (inject_Z (nth i zs 0%Z) - nth i xs 0) <= t.
Proof.
  intros H Hw Hs. split; [|split].
  - apply H; auto. apply convex_abs.
  - apply H; auto. apply convex_square.
  - intros t. apply best_max; auto.
Qed.
