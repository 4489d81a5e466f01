(** * Proofs about regression label issues *)
From Coq Require Import QArith Qabs Qround List ZArith Bool Arith Lia Lqa Permutation Sorted.
From Verif Require Import Base BaseFacts ModelUtil ModelKnn ModelCV ModelRegression SpecCV SpecKnn SpecRegression ProofCV ProofKnn ProofKnnDup ProofDataset.
Import ListNotations.
Open Scope Q_scope.

Lemma too_few_spec n c k : too_few n c k = Z.ltb (num_kept n k) (Z.of_nat c).
Proof.
  unfold too_few, num_kept. f_equal. apply Qfloor_comp. ring.
Qed.

Lemma grid_scores_ok eval n c base ks rs : grid_scores eval n c base ks = Ok rs ->
  length rs = length ks /\ forall t, In t (combine ks rs) -> scored (fun k r => exists c, eval c k = Ok r) n c t.
Proof.
  unfold grid_scores. generalize 0%nat as s. revert rs.
  induction ks as [|k ks IH]; intros rs s H; cbn in H.
  - injection H as <-. split; [reflexivity|]. intros ? [].
  - destruct (if too_few n c k then _ else _) as [r|] eqn:E; cbn [rbind] in H; [|discriminate].
    destruct (rmap _ (combine (seq (S s) _) ks)) as [rs'|] eqn:E'; cbn [rbind] in H; [|discriminate].
    injection H as <-. destruct (IH _ _ E') as [L F]. split; [cbn; now rewrite L|].
    intros t [<-|Ht]; [|auto]. unfold scored; cbn [fst snd].
    rewrite too_few_spec in E. destruct (Z.ltb _ _) eqn:T.
    + apply Z.ltb_lt in T. left. split; [assumption|]. injection E as <-. reflexivity.
    + apply Z.ltb_ge in T. right. split; [assumption|]. eauto.
Qed.

Lemma grid_scores_total eval n c ks base : (forall c' k, In k ks -> (Z.of_nat c <= num_kept n k)%Z -> exists r, eval c' k = Ok r) ->
  exists rs, grid_scores eval n c base ks = Ok rs.
Proof.
  intro H. unfold grid_scores. generalize 0%nat as s.
  induction ks as [|k ks IH]; intro s; cbn; [eauto|].
  destruct (IH (fun c' k' Hk => H c' k' (or_intror Hk)) (S s)) as [rs R]. rewrite too_few_spec.
  destruct (Z.ltb _ _) eqn:T; cbn [rbind].
  - rewrite R. cbn. eauto.
  - apply Z.ltb_ge in T. destruct (H (base + s)%nat k (or_introl eq_refl) T) as [r ->]. cbn [rbind]. rewrite R. cbn. eauto.
Qed.

Lemma linspace_in a b m x : In x (linspace_inner a b m) ->
  exists i, (1 <= i <= m)%nat /\ x == a + (Qnat i / Qnat (S m)) * (b - a).
Proof.
  unfold linspace_inner. intro H. apply In_nth with (d := 0) in H. destruct H as [i [Hi <-]]. rewrite tab_length in Hi.
  exists (S i). split; [lia|]. rewrite nth_tab by assumption. field. pose proof (Qnat_pos (S m) ltac:(lia)). lra.
Qed.

Lemma linspace_length a b m : length (linspace_inner a b m) = m.
Proof. apply tab_length. Qed.

Lemma qmaximum_argmax rs : rs <> [] -> nth (argmax rs) rs 0 == qmaximum rs.
Proof.
  intro H. apply Qle_antisym.
  - apply qmaximum_ge, nth_In, argmax_lt, H.
  - pose proof (qmaximum_in rs H) as I. apply In_nth with (d := 0) in I. destruct I as [j [Hj E]].
    rewrite <- E. apply argmax_max. assumption.
Qed.

Lemma combine_nth_in (ks rs : list Q) i : length ks = length rs -> (i < length ks)%nat ->
  In (nth i ks 0, nth i rs 0) (combine ks rs).
Proof. intros L H. rewrite <- combine_nth by assumption. apply nth_In. rewrite combine_length. lia. Qed.

Lemma map_fst_combine {A B} (l : list A) (l' : list B) : length l = length l' -> map fst (combine l l') = l.
Proof. revert l'. induction l; intros [|b l'] H; cbn in *; try discriminate; [reflexivity|]. now rewrite IHl by lia. Qed.

Lemma sorted_take srt l : argsort_ok srt -> Permutation (take_idx 0 l (srt l)) l  /\
  forall i j, (i <= j < length l)%nat -> nth i (take_idx 0 l (srt l)) 0 <= nth j (take_idx 0 l (srt l)) 0.
Proof.
  intro Hs. specialize (Hs l). pose proof (argsort_length _ _ Hs) as L. destruct Hs as [P SS]. split.
  - unfold take_idx. apply Permutation_trans with (map (fun i => nth i l 0) (seq 0 (length l))); [now apply Permutation_map|]. now rewrite map_nth_seq'.
  - intros i j [H1 H2]. unfold take_idx. rewrite !(nth_map_gen _ _ _ _ 0%nat) by lia.
    destruct (Nat.eq_dec i j) as [->|N]; [apply Qle_refl|].
    rewrite <- (firstn_skipn (S i) (srt l)) in SS. apply StronglySorted_app in SS. destruct SS as (_ & _ & SS).
    apply SS.
    + rewrite <- (nth_firstn (S i)) by lia. apply nth_In. rewrite firstn_length. lia.
    + replace j with (S i + (j - S i))%nat by lia. rewrite <- nth_skipn. apply nth_In. rewrite skipn_length. lia.
Qed.

Lemma find_best_k_spec srt eval n c coarse fine k r : argsort_ok srt ->
  find_best_k srt eval n c coarse fine = Ok (k, r) ->
  best_of_search (fun k r => exists c, eval c k = Ok r) n c (Z.to_nat fine) coarse k r.
Proof.
  intros Hs H. unfold find_best_k in H. destruct coarse as [|k0 [|k1 rest]]; [discriminate| |].
  - rewrite too_few_spec in H. destruct (Z.ltb _ _) eqn:T; [discriminate|]. apply Z.ltb_ge in T.
    destruct (eval 0%nat k0) as [r0|] eqn:E; cbn [rbind] in H; [|discriminate]. injection H as <- <-.
    exists [(k0, r0)], [], k0, r0. refine (conj _ (conj _ (conj _ (conj _ (conj _ (conj _ (conj _ (conj _ _)))))))).
    + reflexivity.
    + intros t [<-|[]]. right. split; [exact T|]. eauto.
    + now left.
    + intros t [<-|[]]. apply Qle_refl.
    + intros t [].
    + intros (lo & hi & [<-|[]] & [<-|[]] & H1 & H2). lra.
    + now left.
    + exists r0. split; [reflexivity|now left].
    + intros t [<-|[]]. apply Qle_refl.
  - set (coarse := k0 :: k1 :: rest) in *. assert (LC : (2 <= length coarse)%nat) by (cbn; lia).
    assert (LN : length coarse <> 1%nat) by lia.
    clearbody coarse. clear k0 k1 rest. destruct (sorted_take srt coarse Hs) as [P SO].
    set (s := take_idx 0 coarse (srt coarse)) in *. clearbody s.
    pose proof (Permutation_length P) as LS.
    destruct (grid_scores eval n c 0 s) as [rs|] eqn:G; cbn [rbind] in H; [|discriminate].
    apply grid_scores_ok in G. destruct G as [LR G].
    assert (NE : rs <> []) by (intros ->; cbn in LR; lia).
    pose proof (argmax_lt rs NE) as BL. pose proof (qmaximum_argmax rs NE) as BM.
    set (b := argmax rs) in *.
    destruct (Z.ltb fine 0) eqn:F0; [discriminate|]. apply Z.ltb_ge in F0.
    assert (CM : forall t, In t (combine s rs) -> snd t <= nth b rs 0).
    { intros t Ht. rewrite BM. apply qmaximum_ge. destruct t as [a q]. apply in_combine_r in Ht. exact Ht. }
    assert (KB : In (nth b s 0, nth b rs 0) (combine s rs)) by (apply combine_nth_in; lia).
    assert (MF : map fst (combine s rs) = s) by (apply map_fst_combine; lia).
    destruct (Z.eqb fine 0) eqn:F1.
    + apply Z.eqb_eq in F1. subst fine. injection H as <- <-.
      exists (combine s rs), [], (nth b s 0), (nth b rs 0).
      refine (conj _ (conj _ (conj KB (conj CM (conj _ (conj _ (conj _ (conj _ _)))))))).
      * rewrite MF. exact P.
      * rewrite app_nil_r. exact G.
      * intros t [].
      * reflexivity.
      * now right.
      * exists (nth b rs 0). rewrite app_nil_r. split; [exact BM|exact KB].
      * rewrite app_nil_r. intros t Ht. rewrite <- BM. now apply CM.
    + set (m := Z.to_nat fine) in *. apply Z.eqb_neq in F1. assert (M0 : (1 <= m)%nat) by lia. clearbody m. clear F0 F1.
      set (fk := _ ++ _) in H.
      destruct (grid_scores eval n c (length s) fk) as [rf|] eqn:GF; cbn [rbind] in H; [|discriminate].
      apply grid_scores_ok in GF. destruct GF as [LF GF].
      assert (IN : forall i, (i < length s)%nat -> In (nth i s 0) coarse)
        by (intros i Hi; apply (Permutation_in _ P), nth_In, Hi).
      assert (ADJ : forall i, (S i < length s)%nat -> adjacent coarse (nth i s 0) (nth (S i) s 0)).
      { intros i Hi. refine (conj (IN _ _) (conj (IN _ _) _)); try lia. intros x Hx.
        apply (Permutation_in _ (Permutation_sym P)) in Hx. apply In_nth with (d := 0) in Hx. destruct Hx as [j [Hj <-]].
        pose proof (SO i (S i) ltac:(lia)) as Q0. split; [|lra].
        destruct (le_lt_dec j i) as [L|L].
        - pose proof (SO j i ltac:(lia)). lra.
        - pose proof (SO (S i) j ltac:(lia)). lra. }
      assert (FADJ : forall x, In x fk -> exists nb i, adjacent coarse nb (nth b s 0) /\ (1 <= i <= m)%nat /\
                x == nb + (Qnat i / Qnat (S m)) * (nth b s 0 - nb)).
      { intros x Hx. apply in_app_or in Hx. destruct Hx as [Hx|Hx].
        - destruct (Nat.eqb b 0) eqn:B0; [destruct Hx|]. apply Nat.eqb_neq in B0.
          apply linspace_in in Hx. destruct Hx as [i [Hi E]]. exists (nth (b - 1) s 0), i.
          refine (conj _ (conj Hi E)). replace b with (S (b - 1)) at 2 by lia. apply ADJ. lia.
        - destruct (Nat.eqb b (length s - 1)) eqn:B0; [destruct Hx|]. apply Nat.eqb_neq in B0.
          apply linspace_in in Hx. destruct Hx as [i [Hi E]]. exists (nth (S b) s 0), (S m - i)%nat.
          refine (conj _ (conj _ _)); [|lia|].
          + destruct (ADJ b ltac:(lia)) as (A1 & A2 & A3). refine (conj A2 (conj A1 _)). intros y Hy.
            destruct (A3 y Hy). split; assumption.
          + rewrite E. assert (Q1 : Qnat (S m - i) == Qnat (S m) - Qnat i).
            { pose proof (Qnat_plus (S m - i) i) as Q2. replace (S m - i + i)%nat with (S m) in Q2 by lia. lra. }
            rewrite Q1. field. pose proof (Qnat_pos (S m) ltac:(lia)). lra. }
      assert (FL : length fk = ((if Nat.eqb b 0 then 0 else m) + (if Nat.eqb b (length s - 1) then 0 else m))%nat).
      { unfold fk. rewrite app_length. destruct (Nat.eqb b 0), (Nat.eqb b (length s - 1)); rewrite ?linspace_length; reflexivity. }
      assert (FN : rf <> []).
      { intros ->. cbn in LF. rewrite FL in LF. destruct (Nat.eqb b 0) eqn:B0; [|lia].
        apply Nat.eqb_eq in B0. destruct (Nat.eqb b (length s - 1)) eqn:B1; [apply Nat.eqb_eq in B1|]; lia. }
      pose proof (argmax_lt rf FN) as BLf. pose proof (qmaximum_argmax rf FN) as BMf. set (bf := argmax rf) in *.
      assert (FMX : forall t, In t (combine fk rf) -> snd t <= qmaximum rf).
      { intros [a q] Ht. apply in_combine_r in Ht. now apply qmaximum_ge. }
      assert (KF : In (nth bf fk 0, nth bf rf 0) (combine fk rf)) by (apply combine_nth_in; lia).
      assert (MIX : exists r', r' == r /\ In (k, r') (combine s rs ++ combine fk rf)).
      { destruct (Qltb _ _); injection H as <- <-.
        - exists (nth b rs 0). split; [exact BM|]. apply in_or_app. now left.
        - exists (nth bf rf 0). split; [exact BMf|]. apply in_or_app. now right. }
      assert (MAX : forall t, In t (combine s rs ++ combine fk rf) -> snd t <= r).
      { intros t Ht. destruct (Qltb _ _) eqn:C; injection H as <- <-; qb; apply in_app_or in Ht; destruct Ht as [Ht|Ht];
        try specialize (CM t Ht); try specialize (FMX t Ht); lra. }
      exists (combine s rs), (combine fk rf), (nth b s 0), (nth b rs 0).
      refine (conj _ (conj _ (conj KB (conj CM (conj _ (conj _ (conj _ (conj MIX MAX)))))))).
      * rewrite MF. exact P.
      * intros t Ht. apply in_app_or in Ht. destruct Ht; auto.
      * intros [x q] Ht. apply in_combine_l in Ht. cbn [fst]. now apply FADJ.
      * intros (lo & hi & L1 & L2 & L3 & L4). rewrite combine_length, LF, Nat.min_id, FL.
        apply (Permutation_in _ (Permutation_sym P)) in L1, L2. apply In_nth with (d := 0) in L1, L2.
        destruct L1 as [jl [Jl <-]], L2 as [jh [Jh <-]].
        destruct (Nat.eqb b 0) eqn:B0; [apply Nat.eqb_eq in B0; pose proof (SO b jl ltac:(lia)); lra|].
        destruct (Nat.eqb b (length s - 1)) eqn:B1; [apply Nat.eqb_eq in B1; pose proof (SO jh b ltac:(lia)); lra|]. lia.
      * rewrite combine_length, LF, Nat.min_id, FL. apply Nat.eqb_neq in LN. rewrite LN.
        destruct (Nat.eqb b 0) eqn:B0, (Nat.eqb b (length s - 1)) eqn:B1; try lia.
Qed.

(** ** r2 *)
Lemma nth_repeat_in (a : Q) n i : (i < n)%nat -> nth i (repeat a n) 0 = a.
Proof. revert i. induction n; intros [|i] H; cbn; try lia; auto. apply IHn. lia. Qed.

Lemma combine_sum (f : Q -> Q -> Q) (y p : list Q) : length p = length y ->
  qsum (map (fun ab => f (fst ab) (snd ab)) (combine y p)) == qsum (tab (length y) (fun i => f (nth i y 0) (nth i p 0))).
Proof.
  intro L. assert (E : map (fun ab => f (fst ab) (snd ab)) (combine y p) = tab (length y) (fun i => f (nth i y 0) (nth i p 0))).
  { apply list_eq_nth with (d := 0).
    - rewrite map_length, combine_length, tab_length. lia.
    - intros i Hi. rewrite map_length, combine_length in Hi. rewrite nth_tab by lia.
      rewrite (nth_map_gen _ _ _ _ (0, 0)) by (rewrite combine_length; lia). rewrite combine_nth by lia. reflexivity. }
  rewrite E. reflexivity.
Qed.

Lemma r2_ok y p : length p = length y -> is_r2 y p (r2_score y p).
Proof.
  intro L. unfold is_r2, r2_score.
  set (num := qsum (map _ (combine y p))). set (den := qsum (map _ y)).
  assert (EN : num == squares_about y p) by (apply (combine_sum (fun a b => (a - b) * (a - b))); assumption).
  assert (ED : den == squares_about y (repeat (mean_of y) (length y))).
  { unfold den, squares_about. rewrite <- (map_nth_seq' y 0) at 1. rewrite map_map. unfold tab. apply qsum_map_ext.
    intros i Hi. apply in_seq in Hi. rewrite nth_repeat_in by lia. reflexivity. }
  refine (conj _ (conj _ _)); intro S.
  - destruct (Qeq_bool den 0) eqn:E; [apply Qeq_bool_iff in E; rewrite ED in E; contradiction|].
    rewrite <- EN, <- ED. reflexivity.
  - intro N. rewrite <- ED in S. apply Qeq_bool_iff in S. rewrite S. rewrite <- EN in N. apply Qeq_bool_iff in N. rewrite N. reflexivity.
  - intro N. rewrite <- ED in S. apply Qeq_bool_iff in S. rewrite S. rewrite <- EN in N.
    destruct (Qeq_bool num 0) eqn:E; [apply Qeq_bool_iff in E; contradiction|reflexivity].
Qed.

(** ** flags *)
Lemma flags_spec srt k q : argsort_ok srt -> 0 <= k <= 1 ->
  length (flags srt k q) = length q /\
  Z.of_nat (count_true (flags srt k q)) = Qceiling (Qnat (length q) * k) /\
  (forall i j, (i < length q)%nat -> (j < length q)%nat -> nth i (flags srt k q) false = true ->
     nth j (flags srt k q) false = false -> nth i q 0 <= nth j q 0).
Proof.
  intros Hs HK. unfold flags. rewrite mask_of_length.
  destruct (argsort_firstn q (srt q) (ceil_nat (Qnat (length q) * k)) (Hs q)) as (ND & L & B & O).
  refine (conj eq_refl (conj _ _)).
  - rewrite count_mask_of by assumption. rewrite L, Nat.min_l by (now apply (ceil_nat_le [])).
    unfold ceil_nat. rewrite Z2Nat.id; [reflexivity|].
    apply Z.le_trans with (Qceiling 0); [cbn; lia|]. apply Qceiling_resp_le.
    apply Qmult_le_0_compat; [apply Qnat_nonneg|lra].
  - intros i j Hi Hj. rewrite !nth_mask_of by assumption. intros Fi Fj. apply O; auto.
    + now apply mem_iff.
    + intro C. apply mem_iff in C. congruence.
Qed.

(** ** the whole procedure *)
Lemma Qfloor_plus_Z x z : Qfloor (x + inject_Z z) = (Qfloor x + z)%Z.
Proof.
  pose proof (Qfloor_le x). pose proof (Qlt_floor x). pose proof (Qfloor_le (x + inject_Z z)). pose proof (Qlt_floor (x + inject_Z z)).
  rewrite inject_Z_plus in *. change (inject_Z 1) with 1 in *.
  assert (A : (Qfloor x + z < Qfloor (x + inject_Z z) + 1)%Z).
  { rewrite Zlt_Qlt, !inject_Z_plus. change (inject_Z 1) with 1. lra. }
  assert (B : (Qfloor (x + inject_Z z) < Qfloor x + z + 1)%Z).
  { rewrite Zlt_Qlt, !inject_Z_plus. change (inject_Z 1) with 1. lra. }
  lia.
Qed.

Lemma cv_none {A} (d : A) fit X y c f : get_cv_predictions d fit X y None 0 c f =
  get_cv_predictions d fit X y (Some (seq 0 (length y))) 0 c f.
Proof. reflexivity. Qed.

Lemma cv_ext {A} (d : A) fit X y s k c f f' : (forall m, (c <= m)%nat -> f m = f' m) ->
  get_cv_predictions d fit X y s k c f = get_cv_predictions d fit X y s k c f'.
Proof.
  intro H. unfold get_cv_predictions. destruct (cv_split _ _ _) as [[ins outs]|]; cbn [rbind]; [|reflexivity].
  destruct (Nat.ltb_spec (length ins) c); [reflexivity|]. now rewrite H by assumption.
Qed.

Lemma cv_run {A} (d : A) fit X y s k c folds call : (2 <= c)%nat -> proper_regressor fit -> kfold folds ->
  Permutation s (seq 0 (length y)) -> 0 <= k <= 1 -> (Z.of_nat c <= num_kept (length y) k)%Z ->
  exists p, get_cv_predictions d fit X y (Some s) k c (folds call c) = Ok p /\ cv_of d fit X y s k c p /\
    length p = length y.
Proof.
  intros C2 PF KF PS HK HC.
  pose proof (ceil_nat_le [] (length y) k HK) as CL.
  assert (CZ : Z.of_nat (ceil_nat (Qnat (length y) * k)) = Qceiling (Qnat (length y) * k)).
  { unfold ceil_nat. rewrite Z2Nat.id; [reflexivity|].
    apply Z.le_trans with (Qceiling 0); [cbn; lia|]. apply Qceiling_resp_le.
    apply Qmult_le_0_compat; [apply Qnat_nonneg|lra]. }
  assert (NK : num_kept (length y) k = (Z.of_nat (length y) - Qceiling (Qnat (length y) * k))%Z).
  { unfold num_kept, Qceiling. set (q := Qnat (length y) * k).
    rewrite (Qfloor_comp (Qnat (length y) - q) (- q + inject_Z (Z.of_nat (length y)))) by (unfold Qnat; ring).
    rewrite Qfloor_plus_Z. lia. }
  rewrite NK, <- CZ in HC.
  set (f := fun m => if Nat.leb c m then folds call c m else [seq 0 m]).
  destruct (get_cv_predictions_ok d fit X y PF s k c f) as (ins & outs & p & E & SE & LO & CV); auto; [lia| |].
  { intro m. unfold f. destruct (Nat.leb_spec c m); [apply KF; lia|]. unfold cv_partition. cbn. now rewrite app_nil_r. }
  assert (LI : (c <= length ins)%nat).
  { apply Permutation_length in PS. rewrite seq_length, SE, app_length, LO in PS. lia. }
  assert (EF : f (length ins) = folds call c (length ins)) by (unfold f; apply Nat.leb_le in LI; now rewrite LI). rewrite EF in CV.
  rewrite (cv_ext _ _ _ _ _ _ _ f (folds call c)) in E
    by (intros m Hm; unfold f; apply Nat.leb_le in Hm; now rewrite Hm).
  exists p. refine (conj E (conj _ _)); [|apply CV].
  exists ins, outs, (map (map (fun j => nth j ins 0%nat)) (folds call c (length ins))).
  refine (conj SE (conj _ (conj _ CV))); [rewrite LO; exact CZ|]. rewrite map_length. apply KF. lia.
Qed.

Lemma num_kept_eq n k : num_kept n k = (Z.of_nat n - Qceiling (Qnat n * k))%Z.
Proof.
  unfold num_kept, Qceiling. set (q := Qnat n * k).
  rewrite (Qfloor_comp (Qnat n - q) (- q + inject_Z (Z.of_nat n))) by (unfold Qnat; ring).
  rewrite Qfloor_plus_Z. lia.
Qed.
Lemma ceil_nat_Z n k : 0 <= k -> Z.of_nat (ceil_nat (Qnat n * k)) = Qceiling (Qnat n * k).
Proof.
  intro H. unfold ceil_nat. rewrite Z2Nat.id; [reflexivity|].
  apply Z.le_trans with (Qceiling 0); [cbn; lia|]. apply Qceiling_resp_le.
  apply Qmult_le_0_compat; [apply Qnat_nonneg|lra].
Qed.

Lemma cv_inv {A} (d : A) fit X y s k c folds call p : (2 <= c)%nat -> proper_regressor fit -> kfold folds ->
  Permutation s (seq 0 (length y)) ->
  get_cv_predictions d fit X y (Some s) k c (folds call c) = Ok p ->
  cv_of d fit X y s k c p /\ length p = length y /\ 0 <= k <= 1 /\ (Z.of_nat c <= num_kept (length y) k)%Z.
Proof.
  intros C2 PF KF PS E.
  assert (LS : length s = length y) by (now rewrite (Permutation_length PS), seq_length).
  assert (C : 0 <= k <= 1 /\ (c <= length y - ceil_nat (Qnat (length y) * k))%nat).
  { destruct (Qlt_le_dec k 0) as [K0|K0]; [|destruct (Qlt_le_dec 1 k) as [K1|K1];
      [|destruct (le_lt_dec c (length y - ceil_nat (Qnat (length y) * k))) as [K2|K2]; [split; [split|]; assumption|]]];
    exfalso; rewrite get_cv_predictions_rejects in E; try discriminate E; try assumption; intros [[] ?]; (lra || lia). }
  destruct C as [HK HC].
  assert (HN : (Z.of_nat c <= num_kept (length y) k)%Z).
  { rewrite num_kept_eq. pose proof (ceil_nat_Z (length y) k ltac:(lra)). pose proof (ceil_nat_le [] (length y) k HK). lia. }
  destruct (cv_run d fit X y s k c folds call C2 PF KF PS HK HN) as (p' & E' & CV & L).
  rewrite E in E'. injection E' as <-. refine (conj CV (conj L (conj HK HN))).
Qed.

Lemma kept_zero n : num_kept n 0 = Z.of_nat n.
Proof.
  rewrite num_kept_eq. rewrite (Qceiling_comp (Qnat n * 0) (inject_Z 0)) by (rewrite Qmult_0_r; reflexivity).
  rewrite Qceiling_Z. lia.
Qed.

Lemma var_ok l : variance l = var_of l.
Proof. unfold variance, var_of, qmean, mean_of. reflexivity. Qed.

Lemma rmap_all {A B} (f : A -> res B) (P : B -> Prop) l bs : rmap f l = Ok bs -> (forall a b, f a = Ok b -> P b) ->
  length bs = length l /\ forall b, In b bs -> P b.
Proof.
  intros H F. revert bs H. induction l as [|a l IH]; intros bs H; cbn in H.
  - injection H as <-. split; [reflexivity|intros ? []].
  - destruct (f a) as [b|] eqn:E; cbn [rbind] in H; [|discriminate]. destruct (rmap f l) as [bs'|]; cbn [rbind] in H; [|discriminate].
    injection H as <-. destruct (IH _ eq_refl) as [L Q]. split; [cbn; now rewrite L|]. intros x [<-|Hx]; eauto.
Qed.
Lemma rmap_total {A B} (f : A -> res B) l : (forall a, exists b, f a = Ok b) -> exists bs, rmap f l = Ok bs.
Proof.
  intro H. induction l as [|a l [bs IH]]; cbn; [eauto|]. destruct (H a) as [b ->]. cbn [rbind]. rewrite IH. cbn. eauto.
Qed.

Lemma best_of_search_mono (S1 S2 : Q -> Q -> Prop) n c m coarse k r : (forall k r, S1 k r -> S2 k r) ->
  best_of_search S1 n c m coarse k r -> best_of_search S2 n c m coarse k r.
Proof.
  intros M (tc & tf & kb & rb & H1 & H2 & H3). exists tc, tf, kb, rb. refine (conj H1 (conj _ H3)).
  intros t Ht. destruct (H2 t Ht) as [H|[Ha Hb]]; [now left|right; split; auto].
Qed.

Section Run.
  Context {A : Type} (d : A) (srt : list Q -> list nat) (sq ex : Q -> Q) (fit fit0 : list A -> list Q -> list A -> list Q)
          (folds : nat -> nat -> nat -> list (list nat)) (cvn n_boot : nat) (alea : bool)
          (X : list A) (y : list Q) (y_int : bool).
  Hypothesis Hs : argsort_ok srt.
  Hypothesis PF : proper_regressor fit.
  Hypothesis PF0 : proper_regressor fit0.
  Hypothesis KF : kfold folds.
  Hypothesis C2 : (2 <= cvn)%nat.

  Let run := find_label_issues d srt sq ex fit fit0 folds cvn n_boot alea X y y_int.
  Let n := length y.

  Lemma ranks_ok (p : list Q) : length p = n ->
    ranks n (fun i => Qabs (nth i p 0 - nth i y 0)) (srt (map (fun ab => Qabs (fst ab - snd ab)) (combine p y))).
  Proof.
    intro L. set (l := map _ _).
    assert (LL : length l = n) by (unfold l; rewrite map_length, combine_length; unfold n in *; lia).
    destruct (Hs l) as [P S]. rewrite LL in P. split; [exact P|].
    assert (E : forall i, (i < n)%nat -> nth i l 0 = Qabs (nth i p 0 - nth i y 0)).
    { intros i Hi. unfold l. rewrite (nth_map_gen _ _ _ _ (0, 0)) by (rewrite combine_length; unfold n in *; lia).
      rewrite combine_nth by (unfold n in *; lia). reflexivity. }
    assert (B : forall i, In i (srt l) -> (i < n)%nat) by (intros i Hi; apply (Permutation_in _ P), in_seq in Hi; lia).
    revert S B. generalize (srt l) as q. induction q as [|a q IH]; intros S B; [constructor|].
    inversion_clear S as [|? ? S' F]. constructor; [apply IH; auto; intros; apply B; now right|].
    rewrite Forall_forall in *. intros x Hx. rewrite <- !E by (apply B; cbn; auto). auto.
  Qed.

  Lemma run_spec u coarse fine k t : run u coarse fine = Ok (k, t) ->
    exists initial ranking r0 kb rb preds unc med,
      cv_of d fit X y (seq 0 n) 0 cvn initial /\
      ranks n (fun i => Qabs (nth i initial 0 - nth i y 0)) ranking /\ is_r2 y initial r0 /\
      best_of_search (fun k r => exists p, cv_of d fit0 X y ranking k cvn p /\ is_r2 y p r) n cvn (Z.to_nat fine) coarse kb rb /\
      (rb <= r0 -> k = 0) /\ (r0 < rb -> k = kb) /\ 0 <= k <= 1 /\
      cv_of d fit X y ranking k cvn preds /\ uncertainties d sq fit0 cvn n_boot alea X y u preds unc /\
      t_given t = y /\ t_predicted t = (if y_int then map (fun p => inject_Z (truncate p)) preds else preds) /\
      length (t_quality t) = n /\ length (t_is_issue t) = n /\
      is_median (tab n (fun i => Qabs ((nth i preds 0 - nth i y 0) / (unc i + TINY_VALUE)))) med /\
      (forall i, (i < n)%nat -> nth i (t_quality t) 0 =
         ex (- Qabs ((nth i preds 0 - nth i y 0) / (unc i + TINY_VALUE)) / qmax TINY_VALUE med)) /\
      Z.of_nat (count_true (t_is_issue t)) = Qceiling (Qnat n * k) /\
      (forall i j, (i < n)%nat -> (j < n)%nat -> nth i (t_is_issue t) false = true -> nth j (t_is_issue t) false = false ->
         nth i (t_quality t) 0 <= nth j (t_quality t) 0).
  Proof.
    unfold run, find_label_issues. fold n. destruct (Nat.leb n 1 || _)%bool eqn:V; [discriminate|].
    apply orb_false_iff in V. destruct V as [V1 V2]. apply Nat.leb_gt in V1. apply negb_false_iff, Nat.eqb_eq in V2.
    rewrite cv_none. fold n.
    destruct (get_cv_predictions d fit X y (Some (seq 0 n)) 0 cvn _) as [ini|] eqn:EI; cbn [rbind]; [|discriminate].
    apply cv_inv in EI; auto. destruct EI as (CI & LI & _ & _).
    set (rk := srt _). pose proof (ranks_ok ini LI) as RK. fold rk in RK.
    destruct (find_best_k _ _ _ _ _ _) as [[kb rb]|] eqn:EB; cbn [rbind fst snd]; [|discriminate].
    apply find_best_k_spec in EB; [|assumption].
    set (k0 := if Qle_bool rb (r2_score y ini) then 0 else kb).
    destruct (get_cv_predictions d fit X y (Some rk) k0 cvn _) as [preds|] eqn:EP; cbn [rbind]; [|discriminate].
    apply cv_inv in EP; auto; [|apply RK]. destruct EP as (CP & LP & HK & _).
    set (c := (1 + length coarse + 2 * Z.to_nat fine)%nat). clearbody c.
    set (residual := map (fun ab => fst ab - snd ab) (combine preds y)).
    assert (LR : length residual = n) by (unfold residual; rewrite map_length, combine_length; unfold n in *; lia).
    assert (ER : forall i, (i < n)%nat -> nth i residual 0 = nth i preds 0 - nth i y 0).
    { intros i Hi. unfold residual. rewrite (nth_map_gen _ _ _ _ (0, 0)) by (rewrite combine_length; unfold n in *; lia).
      rewrite combine_nth by (unfold n in *; lia). reflexivity. }
    destruct (match u with None => _ | Some _ => _ end) as [uu|] eqn:EU; cbn [rbind]; [|discriminate].
    intro E. injection E as <- <-.
    assert (UN : uncertainties d sq fit0 cvn n_boot alea X y u preds (uncertainty_at uu)).
    { unfold uncertainties. fold n. destruct u as [[x|l]|].
      - injection EU as <-. reflexivity.
      - destruct (Nat.eqb_spec (length l) n); [|discriminate]. injection EU as <-. split; [assumption|reflexivity].
      - destruct (epistemic _ _ _ _ _ _ _ _ _) as [e|] eqn:EE; cbn [rbind] in EU; [|discriminate].
        destruct (if alea then _ else _) as [a|] eqn:EA; cbn [rbind] in EU; [|discriminate]. injection EU as <-.
        assert (HA : if alea then exists p, cv_of d fit0 X residual (seq 0 n) 0 cvn p /\ a = sq (var_of p) else a = 0).
        { destruct alea; [|now injection EA as <-]. unfold aleatoric in EA. rewrite cv_none, LR in EA.
          destruct (get_cv_predictions _ _ _ _ _ _ _ _) as [p|] eqn:EV in EA; cbn [rbind] in EA; [|discriminate].
          rewrite <- LR in EV at 1. apply cv_inv in EV; auto. destruct EV as [CV _]. injection EA as <-. exists p. rewrite var_ok.
          split; [|reflexivity]. now rewrite LR in CV. }
        unfold epistemic in EE. fold n in EE. destruct (Nat.eqb_spec n_boot 0) as [NB|NB].
        + injection EE as <-. exists [], a. refine (conj _ (conj _ (conj HA _))); [now rewrite NB|intros ? []|].
          intros i Hi. cbn [uncertainty_at]. rewrite (nth_map_gen _ _ _ _ 0) by (now rewrite repeat_length).
          rewrite nth_repeat_in by assumption. reflexivity.
        + destruct (rmap _ (seq 0 n_boot)) as [boots|] eqn:EM; cbn [rbind] in EE; [|discriminate]. injection EE as <-.
          apply rmap_all with (P := fun b => cv_of d fit0 X y (seq 0 n) 0 2 b) in EM.
          * destruct EM as [LM FM]. rewrite seq_length in LM. exists boots, a. refine (conj LM (conj FM (conj HA _))).
            intros i Hi. cbn [uncertainty_at]. rewrite (nth_map_gen _ _ _ _ 0) by (now rewrite tab_length).
            rewrite nth_tab by assumption. rewrite var_ok. reflexivity.
          * intros b p Hb. rewrite cv_none in Hb. fold n in Hb. apply cv_inv in Hb; auto. apply Hb. }
    set (adj := adjusted residual uu). 
    assert (EA : adj = tab n (fun i => Qabs ((nth i preds 0 - nth i y 0) / (uncertainty_at uu i + TINY_VALUE)))).
    { unfold adj, adjusted. rewrite LR. apply map_ext_in. intros i Hi. apply in_seq in Hi. now rewrite ER by lia. }
    assert (LA : length adj = n) by (rewrite EA; apply tab_length).
    set (q := quality_scores srt ex adj).
    assert (LQ : length q = n) by (unfold q, quality_scores; now rewrite map_length).
    destruct (flags_spec srt k0 q Hs HK) as (F1 & F2 & F3). rewrite LQ in F1, F2, F3.
    exists ini, rk, (r2_score y ini), kb, rb, preds, (uncertainty_at uu), (median srt adj). cbn [t_given t_predicted t_quality t_is_issue].
    refine (conj CI (conj RK (conj (r2_ok _ _ LI) (conj _ (conj _ (conj _ (conj HK (conj CP (conj UN (conj eq_refl (conj eq_refl (conj LQ (conj F1 (conj _ (conj _ (conj F2 F3)))))))))))))))).
    - revert EB. apply best_of_search_mono. intros k' r' [call E].
      destruct (get_cv_predictions d fit0 X y (Some rk) k' cvn _) as [p|] eqn:EV; cbn [rbind] in E; [|discriminate].
      apply cv_inv in EV; auto; [|apply RK]. injection E as <-. exists p. split; [apply EV|]. apply r2_ok, EV.
    - intro H. unfold k0. apply Qle_bool_iff in H. now rewrite H.
    - intro H. unfold k0. destruct (Qle_bool rb (r2_score y ini)) eqn:E; [|reflexivity]. apply Qle_bool_iff in E. lra.
    - rewrite <- EA. apply median_ok; [assumption|]. intro N. rewrite N in LA. cbn in LA. lia.
    - intros i Hi. unfold q, quality_scores. rewrite (nth_map_gen _ _ _ _ 0) by lia. rewrite EA at 1. rewrite nth_tab by assumption.
      reflexivity.
  Qed.

  Lemma cv_none_total c s (f : list A -> list Q -> list A -> list Q) yy : proper_regressor f -> (2 <= s <= length yy)%nat ->
    exists p, get_cv_predictions d f X yy None 0 s (folds c s) = Ok p.
  Proof.
    intros P H. clear C2. rewrite cv_none. destruct (cv_run d f X yy (seq 0 (length yy)) 0 s folds c ltac:(lia) P KF) as [p [E _]]; [reflexivity|lra|rewrite kept_zero; lia|]. eauto.
  Qed.

  Lemma run_total u coarse fine : (2 <= n)%nat -> length X = n -> (cvn <= n)%nat -> coarse <> [] ->
    (forall k, In k coarse -> 0 <= k <= 1) ->
    (forall k, coarse = [k] -> (Z.of_nat cvn <= num_kept n k)%Z) -> (0 <= fine)%Z ->
    (forall l, u = Some (UArray l) -> length l = n) ->
    (forall p r, cv_of d fit X y (seq 0 n) 0 cvn p -> is_r2 y p r -> - inject_Z (10 ^ 30) <= r) ->
    exists k t, run u coarse fine = Ok (k, t).
  Proof.
    intros N2 LX CN NE RG SG FN UL LO. unfold run, find_label_issues. fold n.
    replace (Nat.leb n 1 || negb (Nat.eqb (length X) n))%bool with false
      by (symmetry; apply orb_false_iff; split; [apply Nat.leb_gt; lia|]; rewrite LX, Nat.eqb_refl; reflexivity).
    destruct (cv_none_total 0 cvn fit y PF (conj C2 CN)) as [ini EI]. rewrite EI. cbn [rbind].
    rewrite cv_none in EI. apply cv_inv in EI; auto. destruct EI as (CI & LI & _ & _).
    set (rk := srt _). pose proof (ranks_ok ini LI) as RK. fold rk in RK.
    set (eval := fun c k => rbind _ _).
    assert (EV : forall c k, 0 <= k <= 1 -> (Z.of_nat cvn <= num_kept n k)%Z -> exists r, eval c k = Ok r).
    { intros c k HK HN. unfold eval. destruct (cv_run d fit0 X y rk k cvn folds (1 + c)%nat C2 PF0 KF) as [p [-> _]]; auto; [apply RK|].
      cbn [rbind]. eauto. }
    assert (TB : exists b, find_best_k srt eval n cvn coarse fine = Ok b).
    { destruct coarse as [|k0 [|k1 rest]]; [congruence| |].
      - unfold find_best_k. rewrite too_few_spec. specialize (SG _ eq_refl).
        destruct (Z.ltb_spec (num_kept n k0) (Z.of_nat cvn)); [lia|].
        destruct (EV 0%nat k0) as [r ->]; [apply RG; now left|assumption|]. cbn [rbind]. eauto.
      - unfold find_best_k. set (coarse := k0 :: k1 :: rest) in *. assert (LC : (2 <= length coarse)%nat) by (cbn; lia).
        clearbody coarse. destruct (sorted_take srt coarse Hs) as [P SO].
        set (s := take_idx 0 coarse (srt coarse)) in *. clearbody s. pose proof (Permutation_length P) as LS.
        assert (RS : forall x, In x s -> 0 <= x <= 1) by (intros x Hx; apply RG, (Permutation_in _ P), Hx).
        destruct (grid_scores_total eval n cvn s 0) as [rs R]; [intros; apply EV; auto|]. rewrite R. cbn [rbind].
        apply grid_scores_ok in R. destruct R as [LR _]. assert (NR : rs <> []) by (intros ->; cbn in LR; lia).
        pose proof (argmax_lt rs NR) as BL. set (b := argmax rs) in *. clearbody b.
        replace (Z.ltb fine 0) with false by (symmetry; apply Z.ltb_ge; lia).
        destruct (Z.eqb fine 0); [eauto|]. set (m := Z.to_nat fine). set (fk := _ ++ _).
        assert (LIN : forall a b x, 0 <= a <= 1 -> 0 <= b <= 1 -> In x (linspace_inner a b m) -> 0 <= x <= 1).
        { intros a b' x Ha Hb Hx. apply linspace_in in Hx. destruct Hx as [i [Hi E]]. 
          assert (W : 0 <= Qnat i / Qnat (S m) <= 1).
          { pose proof (Qnat_pos (S m) ltac:(lia)) as QP. pose proof (Qnat_nonneg i). pose proof (Qnat_le i (S m) ltac:(lia)). split.
            - apply Qle_shift_div_l; lra.
            - apply Qle_shift_div_r; lra. }
          set (w := Qnat i / Qnat (S m)) in *. clearbody w. rewrite E. split; nra. }
        assert (FK : forall x, In x fk -> 0 <= x <= 1).
        { intros x Hx. apply in_app_or in Hx. destruct Hx as [Hx|Hx].
          - destruct (Nat.eqb b 0); [destruct Hx|]. revert Hx. apply LIN; apply RS, nth_In; lia.
          - destruct (Nat.eqb_spec b (length s - 1)); [destruct Hx|]. revert Hx. apply LIN; apply RS, nth_In; lia. }
        destruct (grid_scores_total eval n cvn fk (length s)) as [rf RF]; [intros; apply EV; auto|]. rewrite RF. cbn [rbind].
        destruct (Qltb _ _); eauto. }
    destruct TB as [[kb rb] EB]. rewrite EB. cbn [rbind fst snd]. apply find_best_k_spec in EB; [|assumption].
    set (k0 := if Qle_bool rb (r2_score y ini) then 0 else kb).
    assert (FK : 0 <= k0 <= 1 /\ (Z.of_nat cvn <= num_kept n k0)%Z).
    { unfold k0. destruct (Qle_bool rb (r2_score y ini)) eqn:E; [split; [lra|rewrite kept_zero; lia]|].
      assert (LT : r2_score y ini < rb) by (apply Qnot_le_lt; intro C; apply Qle_bool_iff in C; congruence).
      specialize (LO ini (r2_score y ini) CI (r2_ok _ _ LI)).
      destruct EB as (tc & tf & b & rbb & _ & SC & _ & _ & _ & _ & _ & (r' & Er & I) & _).
      destruct (SC _ I) as [[_ C]|[C1 [c C3]]]; [cbn [snd] in C; subst r'; lra|]. cbn [fst snd] in *.
      split; [|assumption]. unfold eval in C3.
      destruct (get_cv_predictions d fit0 X y (Some rk) kb cvn _) as [p|] eqn:EP; cbn [rbind] in C3; [|discriminate].
      apply cv_inv in EP; auto; [|apply RK]. apply EP. }
    destruct FK as [HK HN].
    match goal with |- context [get_cv_predictions d fit X y (Some rk) k0 cvn (folds ?cc cvn)] => set (c := cc) end.
    destruct (cv_run d fit X y rk k0 cvn folds c C2 PF KF (proj1 RK) HK HN) as (preds & EP & CP & LP).
    fold n. rewrite EP. cbn [rbind]. set (residual := map _ (combine preds y)).
    assert (LR : length residual = n) by (unfold residual; rewrite map_length, combine_length; unfold n in *; lia).
    assert (TU : exists uu, match u with
               | None =>
                   do e <- epistemic d sq fit0 folds n_boot (c + 1)%nat X y preds ;
                   do a <- (if alea then aleatoric d sq fit0 folds cvn (c + 1 + n_boot)%nat X residual else Ok 0) ;
                   Ok (UArray (map (fun x => x + a) e))
               | Some (UArray l) => if Nat.eqb (length l) n then Ok (UArray l) else Raise ValueError
               | Some (UScalar x) => Ok (UScalar x) end = Ok uu).
    { destruct u as [[x|l]|]; [eauto|rewrite (UL l eq_refl), Nat.eqb_refl; eauto|].
      assert (TE : exists e, epistemic d sq fit0 folds n_boot (c + 1)%nat X y preds = Ok e).
      { unfold epistemic. destruct (Nat.eqb n_boot 0); [eauto|].
        destruct (rmap_total (fun b => get_cv_predictions d fit0 X y None 0 2 (folds (c + 1 + b)%nat 2)) (seq 0 n_boot)) as [bs ->];
          [intro a; apply cv_none_total; auto|]. cbn [rbind]. eauto. }
      destruct TE as [e ->]. cbn [rbind].
      assert (TA : exists a, (if alea then aleatoric d sq fit0 folds cvn (c + 1 + n_boot)%nat X residual else Ok 0) = Ok a).
      { destruct alea; [|eauto]. unfold aleatoric. destruct (cv_none_total (c + 1 + n_boot) cvn fit0 residual PF0) as [p ->]; [lia|].
        cbn [rbind]. eauto. }
      destruct TA as [a ->]. cbn [rbind]. eauto. }
    destruct TU as [uu ->]. cbn [rbind]. eauto.
  Qed.
End Run.
