(** * Lemmas about reordering the examples of Datalab's checks *)
From Coq Require Import QArith Qreals Reals List ZArith Bool Arith Lia Lqa Permutation Sorted.
From Verif Require Import Base BaseFacts ModelRank ModelChecks ModelKnn ModelOutlierCheck SpecChecks SpecKnn SpecOutlierCheck SpecSymmetry SpecShuffle
  ProofRank ProofSymmetry ProofRows ProofChecks ProofChecks2 ProofKnn ProofKnnDup ProofOutlierCheck ProofRegRank.
From Verif Require Import SpecChecks ProofChecks2 ModelChecks.
Import ListNotations.
Open Scope Q_scope.

Lemma order_len {n} order : Permutation order (seq 0 n) -> length order = n.
Proof. intros H. apply Permutation_length in H. now rewrite seq_length in H. Qed.
Lemma order_lt {n} order i : Permutation order (seq 0 n) -> In i order -> (i < n)%nat.
Proof. intros H I. apply (Permutation_in _ H), in_seq in I. lia. Qed.
Lemma order_at {n} order i : Permutation order (seq 0 n) -> (i < n)%nat -> (nth i order 0 < n)%nat.
Proof. intros H I. apply (order_lt _ _ H), nth_In. rewrite (order_len _ H). exact I. Qed.
Lemma order_inj {n} order i j : Permutation order (seq 0 n) -> (i < n)%nat -> (j < n)%nat -> nth i order 0%nat = nth j order 0%nat -> i = j.
Proof.
  intros H I J E. assert (N : NoDup order) by (eapply Permutation_NoDup; [symmetry; exact H|apply seq_NoDup]).
  apply (proj1 (NoDup_nth order 0%nat) N); rewrite ?(order_len _ H); auto.
Qed.
Lemma pick_map {A B} (f : A -> B) d d' order l : (forall i, In i order -> (i < length l)%nat) ->
  map f (pick d order l) = pick d' order (map f l).
Proof. intros H. unfold pick. rewrite map_map. apply map_ext_in. intros i I. rewrite (nth_map_gen _ _ _ _ d) by auto. reflexivity. Qed.
Lemma Qltb_comp a b a' b' : a == a' -> b == b' -> Qltb a b = Qltb a' b'.
Proof.
  intros E F. destruct (Qltb a b) eqn:X, (Qltb a' b') eqn:Y; auto.
  - apply Qltb_iff in X. apply Qltb_false in Y. lra.
  - apply Qltb_false in X. apply Qltb_iff in Y. lra.
Qed.
Lemma make_summary_comp x y z : x == y -> make_summary x = Ok z -> z = x /\ make_summary y = Ok y.
Proof.
  intros E. unfold make_summary. rewrite (Qltb_comp y 0 x 0), (Qltb_comp 1 y 1 x) by (auto; try reflexivity; now symmetry).
  destruct (_ || _); [discriminate|]. intros H. injection H as <-. auto.
Qed.
Lemma F2_refl (l : list Q) : Forall2 Qeq l l.
Proof. induction l; constructor; auto. reflexivity. Qed.
Lemma qmean_perm l l' : Permutation l l' -> qmean l == qmean l'.
Proof. intros H. unfold qmean. rewrite (Permutation_length H), (qsum_perm _ _ H). reflexivity. Qed.

(** ** Class imbalance *)
Lemma nmax_perm l l' : Permutation l l' -> nmax l = nmax l'.
Proof. unfold nmax. induction 1; cbn [fold_right]; lia. Qed.
Lemma bincount_perm l l' : Permutation l l' -> bincount l = bincount l'.
Proof.
  intros H. destruct l as [|a l], l' as [|b l']; auto.
  - apply Permutation_nil in H. discriminate.
  - symmetry in H. apply Permutation_nil in H. discriminate.
  - unfold bincount. rewrite (nmax_perm _ _ H). apply tab_ext. intros. apply count_perm, H.
Qed.
Lemma imbalance_shuffled threshold K labels order rep : Permutation order (seq 0 (length labels)) ->
  class_imbalance threshold K labels = Ok rep ->
  exists rep', class_imbalance threshold K (pick 0%nat order labels) = Ok rep' /\ shuffled order rep rep'.
Proof.
  intros Ho H. pose proof (pick_perm 0%nat _ _ Ho) as HP.
  assert (L : forall i, In i order -> (i < length labels)%nat) by (intros; eapply order_lt; eauto).
  unfold class_imbalance in *. destruct labels as [|a t]; [discriminate|]. remember (a :: t) as labels eqn:EL.
  destruct (pick 0%nat order labels) as [|b u] eqn:E; [apply Permutation_nil in HP; congruence|].
  rewrite <- E in *. rewrite (bincount_perm _ _ HP), pick_length, (order_len _ Ho). destruct K; [discriminate|].
  set (cp := map _ (bincount labels)) in *.
  destruct (make_summary (nth (argmin cp) cp 0)) as [s|]; [|discriminate]. cbn [rbind] in *. injection H as <-.
  eexists. split; [reflexivity|]. unfold shuffled. cbn [flags scores summary].
  split; [apply pick_map; auto|]. split; [|reflexivity]. rewrite (pick_map _ _ 0) by auto. apply F2_refl.
Qed.

(** ** Missing values *)
Lemma null_shuffled {V} cols (features : list (list (option V))) order rep : Permutation order (seq 0 (length features)) ->
  null_check cols features = Ok rep ->
  exists rep', null_check cols (pick [] order features) = Ok rep' /\ shuffled order rep rep'.
Proof.
  intros Ho H. assert (L : forall i, In i order -> (i < length features)%nat) by (intros; eapply order_lt; eauto).
  unfold null_check, null_tracker in *. set (f := fun r : list (option V) => (cols - count_true (map is_missing r))%nat).
  assert (EF : forall X, map (fun r => (cols - count_true r)%nat) (map (map is_missing) X) = map f X) by (intros; apply map_map).
  rewrite EF in *.
  set (g := fun c => Qnat c / Qnat cols) in *.
  rewrite (pick_map f _ 0%nat) by auto. assert (L' : forall i, In i order -> (i < length (map f features))%nat) by (intros; rewrite map_length; auto).
  rewrite (pick_map g _ 0) by auto.
  assert (E : qmean (map g (map f features)) == qmean (pick 0 order (map g (map f features)))).
  { apply qmean_perm. symmetry. apply pick_perm. rewrite !map_length. exact Ho. }
  destruct (make_summary (qmean (map g (map f features)))) as [s|] eqn:S; [|discriminate]. cbn [rbind] in H. injection H as <-.
  destruct (make_summary_comp _ _ _ E S) as [-> ->]. cbn [rbind]. eexists. split; [reflexivity|].
  unfold shuffled. cbn [flags scores summary]. split; [|split; [apply F2_refl|symmetry; exact E]].
  apply pick_map. auto.
Qed.

(** ** Underperforming group *)
Section Under.
Context (m : nat) (ids : list Z) (labels : list nat) (pp : list (list Q)) (order : list nat).
Context (Ho : Permutation order (seq 0 (length ids))) (HP : probabilities (length ids) labels pp).
Let at_ i := nth i order 0%nat.
Let ids' := pick 0%Z order ids.
Let labels' := pick 0%nat order labels.
Let pp' := pick [] order pp.

Lemma ids_len : length ids' = length ids.
Proof. unfold ids'. rewrite pick_length. apply (order_len _ Ho). Qed.
Lemma ids_at i : (i < length ids)%nat -> nth i ids' 0%Z = nth (at_ i) ids 0%Z.
Proof. intros H. apply pick_nth. now rewrite (order_len _ Ho). Qed.
Lemma conf_at i : (i < length ids)%nat -> conf labels' pp' i = conf labels pp (at_ i).
Proof. intros H. unfold conf, labels', pp'. rewrite !pick_nth by now rewrite (order_len _ Ho). reflexivity. Qed.
Lemma ids_in c : In c ids' <-> In c ids.
Proof. pose proof (pick_perm 0%Z _ _ Ho) as P. split; apply Permutation_in; [|symmetry]; exact P. Qed.
Lemma members_perm P : Permutation (map at_ (members ids' P)) (members ids P).
Proof.
  apply NoDup_Permutation.
  - apply NoDup_map_in; [|apply NoDup_filter, seq_NoDup]. intros x y X Y. unfold members in X, Y.
    apply filter_In in X, Y. destruct X as [X _], Y as [Y _]. apply in_seq in X, Y. rewrite ids_len in X, Y.
    apply (order_inj _ _ _ Ho); lia.
  - apply NoDup_filter, seq_NoDup.
  - intros e. unfold members. rewrite in_map_iff. split.
    + intros (i & <- & I). apply filter_In in I. destruct I as [I B]. apply in_seq in I. rewrite ids_len in I.
      apply filter_In. split; [apply in_seq; pose proof (order_at _ i Ho ltac:(lia)); unfold at_; lia|]. rewrite <- ids_at by lia. exact B.
    + intros I. apply filter_In in I. destruct I as [I B]. apply in_seq in I.
      assert (J : In e order) by (apply (Permutation_in _ (Permutation_sym Ho)), in_seq; lia).
      apply (In_nth _ _ 0%nat) in J. destruct J as (i & Hi & E). rewrite (order_len _ Ho) in Hi. exists i. split; [exact E|].
      apply filter_In. split; [apply in_seq; rewrite ids_len; lia|]. rewrite ids_at by lia. unfold at_. rewrite E. exact B.
Qed.
Lemma mean_conf_perm P P' : (forall c, P c = P' c) -> mean_conf labels' pp' (members ids' P) == mean_conf labels pp (members ids P').
Proof.
  intros HE. assert (E : members ids P = members ids P') by (apply filter_ext; intros; apply HE). rewrite <- E.
  unfold mean_conf. pose proof (members_perm P) as M.
  rewrite <- (Permutation_length M), map_length.
  rewrite <- (qsum_perm _ _ (Permutation_map (conf labels pp) M)). rewrite map_map.
  rewrite (map_ext_in (conf labels' pp') (fun i => conf labels pp (at_ i))); [reflexivity|].
  intros i I. apply filter_In in I. destruct I as [I _]. apply in_seq in I. rewrite ids_len in I. apply conf_at. lia.
Qed.
Lemma cluster_perm c : cluster_conf ids' labels' pp' c == cluster_conf ids labels pp c.
Proof. apply mean_conf_perm. reflexivity. Qed.
Lemma members_same c : length (members ids' (Z.eqb c)) = length (members ids (Z.eqb c)).
Proof. rewrite <- (Permutation_length (members_perm (Z.eqb c))), map_length. reflexivity. Qed.
Lemma kept_perm c : kept m ids' c <-> kept m ids c.
Proof. unfold kept. rewrite members_same, ids_in. tauto. Qed.
Lemma overall_perm : overall_conf m ids' labels' pp' == overall_conf m ids labels pp.
Proof. apply mean_conf_perm. intros c. unfold keptb. now rewrite members_same. Qed.
Lemma probs_perm : probabilities (length ids') labels' pp'.
Proof.
  destruct HP as (A & B & C). rewrite ids_len. unfold probabilities, labels', pp'. rewrite !pick_length, (order_len _ Ho).
  split; [reflexivity|]. split; [reflexivity|]. intros i Hi. fold labels' pp'. rewrite conf_at by exact Hi. apply C, (order_at _ _ Ho), Hi.
Qed.

Lemma visit_comp mean mean' p p' : mean == mean' -> (forall c, p c == p' c) -> forall l w r r' s s', r == r' ->
  let st := fold_left (visit mean p) l (s, w, r) in let st' := fold_left (visit mean' p') l (s', w, r') in
  snd (fst st) = snd (fst st') /\ snd st == snd st'.
Proof.
  intros HM HE. induction l as [|c l IH]; intros w r r' s s' HR; cbn [fold_left]; [split; [reflexivity|exact HR]|].
  cbv zeta in *. unfold visit at 2 4 6 8. rewrite (Qltb_comp (p c) mean (p' c) mean'), (Qltb_comp (p c) r (p' c) r') by auto.
  destruct (Qltb (p' c) mean'); [|apply IH, HR]. destruct (Qltb (p' c) r'); apply IH; [|exact HR].
  rewrite HM, (HE c). reflexivity.
Qed.

Lemma under_shuffled so so' thr : visits_all so -> visits_all so' -> (forall c, In c ids -> (-1 <= c)%Z) -> thr <= 1 -> (exists c, kept m ids c) ->
  exists rep w rep' w', underperforming_check so thr m ids labels pp = Ok (rep, w) /\
    underperforming_check so' thr m ids' labels' pp' = Ok (rep', w') /\
    Forall2 Qeq (scores rep') (pick 0 order (scores rep)) /\
    (so' ids' = so ids -> w' = w /\ shuffled order rep rep').
Proof.
  intros HO HO' HV HT HK.
  assert (HV' : forall c, In c ids' -> (-1 <= c)%Z) by (intros c I; apply HV, ids_in, I).
  assert (HK' : exists c, kept m ids' c) by (destruct HK as [c K]; exists c; apply kept_perm, K).
  destruct (under_reported so HO m ids labels pp HP HV thr HT HK) as (rep & w & E & F1 & F2 & F3 & F4 & _).
  destruct (under_reported so' HO' m ids' labels' pp' probs_perm HV' thr HT HK') as (rep' & w' & E' & F1' & F2' & F3' & F4' & _).
  exists rep, w, rep', w'. split; [exact E|]. split; [exact E'|].
  assert (SC : Forall2 Qeq (scores rep') (pick 0 order (scores rep))).
  { apply F2_nth_eq; [rewrite pick_length, F2', ids_len; symmetry; apply (order_len _ Ho)|].
    intros i Hi. rewrite F2', ids_len in Hi. rewrite pick_nth by now rewrite (order_len _ Ho).
    fold (at_ i). pose proof (order_at _ i Ho Hi) as Ha. fold (at_ i) in Ha.
    destruct (F4 _ Ha) as [X Y]. destruct (F4' i ltac:(now rewrite ids_len)) as [X' Y']. rewrite ids_at in X', Y' by exact Hi.
    set (c := nth (at_ i) ids 0%Z) in *. pose proof (cluster_perm c) as CP. pose proof overall_perm as OP.
    destruct (Qlt_le_dec (cluster_conf ids labels pp c) (overall_conf m ids labels pp)) as [D|D].
    - destruct (keptb m ids c) eqn:KB.
      + assert (KC : kept m ids c).
        { unfold keptb in KB. rewrite andb_true_iff, negb_true_iff, Z.eqb_neq, Nat.leb_le in KB. unfold kept. split; [tauto|].
          split; [unfold c; apply nth_In, Ha|tauto]. }
        rewrite X by auto. rewrite X' by (split; [apply kept_perm, KC|rewrite CP, OP; exact D]). rewrite CP, OP. reflexivity.
      + assert (KC : ~ kept m ids c).
        { intros (A & _ & B). unfold keptb in KB. apply not_true_iff_false in KB. apply KB.
          rewrite andb_true_iff, negb_true_iff, Z.eqb_neq, Nat.leb_le. auto. }
        rewrite Y by tauto. rewrite Y' by (rewrite kept_perm; tauto). reflexivity.
    - rewrite Y by (intros [_ A]; lra). rewrite Y' by (intros [_ A]; rewrite CP, OP in A; lra). reflexivity. }
  split; [exact SC|]. intros EO.
  rewrite (under_eq so HO m ids labels pp HP HV thr HK) in E.
  rewrite (under_eq so' HO' m ids' labels' pp' probs_perm HV' thr HK') in E'.
  assert (EU : uids so' m ids' = uids so m ids).
  { unfold uids. rewrite EO. apply filter_ext. intros c. unfold zcount. fold (members ids' (Z.eqb c)). 
    f_equal. pose proof (pick_perm 0%Z _ _ Ho) as P. apply Permutation_length, perm_filter, P. }
  unfold folded in E, E'. rewrite EU in E'.
  pose proof (visit_comp _ _ _ _ overall_perm cluster_perm (uids so m ids) (zminimum (uids so m ids) - 1)%Z 1 1 [] [] (Qeq_refl 1)) as V.
  cbv zeta in V, E, E'.
  destruct (fold_left (visit (overall_conf m ids' labels' pp') _) _ _) as [[sc1 w1] r1].
  destruct (fold_left (visit (overall_conf m ids labels pp) _) _ _) as [[sc2 w2] r2]. cbn [fst snd] in V. destruct V as [-> V].
  destruct (make_summary r2) as [s2|] eqn:S2; [|discriminate].
  destruct (make_summary_comp r2 r1 _ (Qeq_sym _ _ V) S2) as [-> S1]. rewrite S1 in E'. cbn [rbind] in E, E'.
  rewrite (Qltb_comp r1 _ r2 (if Qltb thr 0 then 0 else thr) V (Qeq_refl _)) in E'.
  injection E as <- <-. injection E' as <- <-. split; [reflexivity|]. cbn [scores] in SC. unfold shuffled. cbn [flags scores summary].
  split; [|split; [exact SC|exact V]]. apply pick_map. intros; eapply order_lt; eauto.
Qed.
End Under.

(** ** Data valuation *)
Lemma admirers_perm k nb nb' order i : Permutation order (seq 0 (length nb)) -> renumbered order nb nb' -> (i < length nb)%nat ->
  Permutation (map (fun a => nth a order 0%nat) (admirers k nb' i)) (admirers k nb (nth i order 0%nat)).
Proof.
  intros Ho [L R] Hi. pose proof (order_len _ Ho) as LO. rewrite LO in *.
  assert (EX : forall a, (a < length nb)%nat -> existsb (Nat.eqb i) (firstn k (nth a nb' [])) = existsb (Nat.eqb (nth i order 0%nat)) (firstn k (nth (nth a order 0%nat) nb []))).
  { intros a Ha. destruct (R a Ha) as [R1 R2]. rewrite <- R2, firstn_map.
    apply eq_true_iff_eq. rewrite !existsb_exists. split.
    - intros (x & X & Y). apply Nat.eqb_eq in Y. subst x. exists (nth i order 0%nat). split; [apply in_map_iff; eauto|apply Nat.eqb_refl].
    - intros (x & X & Y). apply Nat.eqb_eq in Y. subst x. apply in_map_iff in X. destruct X as (j & E & J).
      exists j. split; [exact J|]. apply Nat.eqb_eq. symmetry. apply (order_inj _ _ _ Ho); auto. apply R1.
      rewrite <- (firstn_skipn k (nth a nb' [])). apply in_or_app. auto. }
  apply NoDup_Permutation.
  - apply NoDup_map_in; [|apply NoDup_filter, seq_NoDup]. intros x y X Y.
    apply filter_In in X, Y. destruct X as [X _], Y as [Y _]. apply in_seq in X, Y. apply (order_inj _ _ _ Ho); lia.
  - apply NoDup_filter, seq_NoDup.
  - intros e. unfold admirers. rewrite in_map_iff. split.
    + intros (a & <- & I). apply filter_In in I. destruct I as [I B]. apply in_seq in I. rewrite L in I.
      apply filter_In. split; [apply in_seq; pose proof (order_at _ a Ho ltac:(lia)); lia|]. rewrite <- EX by lia. exact B.
    + intros I. apply filter_In in I. destruct I as [I B]. apply in_seq in I.
      assert (J : In e order) by (apply (Permutation_in _ (Permutation_sym Ho)), in_seq; lia).
      apply (In_nth _ _ 0%nat) in J. destruct J as (a & Ha & E). rewrite LO in Ha. exists a. split; [exact E|].
      apply filter_In. split; [apply in_seq; lia|]. rewrite EX by lia. rewrite E. exact B.
Qed.
Lemma renumbered_lists n k nb nb' order : Permutation order (seq 0 n) -> neighbor_lists n k nb -> renumbered order nb nb' -> neighbor_lists n k nb'.
Proof.
  intros Ho [L N] [L' R]. pose proof (order_len _ Ho) as LO. rewrite LO in *. split; [exact L'|]. intros a Ha.
  destruct (R a Ha) as [R1 R2]. destruct (N _ (order_at _ a Ho Ha)) as (N1 & N2 & N3).
  rewrite <- R2, map_length in N1. rewrite <- R2, firstn_map in N2. split; [exact N1|]. split; [eapply NoDup_map_inv; exact N2|exact R1].
Qed.
Lemma valuation_shuffled threshold labels k w nb nb' order rep : (1 <= k)%nat -> neighbor_lists (length labels) k nb ->
  Permutation order (seq 0 (length labels)) -> renumbered order nb nb' -> data_valuation_check threshold k w nb labels = Ok rep ->
  exists rep', data_valuation_check threshold k w nb' (pick 0%nat order labels) = Ok rep' /\ shuffled order rep rep'.
Proof.
  intros Hk HN Ho HR H. pose proof (order_len _ Ho) as LO.
  set (labels' := pick 0%nat order labels). assert (LL : length labels' = length labels) by (unfold labels'; rewrite pick_length; exact LO).
  assert (HN' : neighbor_lists (length labels') k nb') by (rewrite LL; eapply renumbered_lists; eauto).
  destruct (shapley_spec labels k nb Hk HN) as (sc & E & L & V). destruct (shapley_spec labels' k nb' Hk HN') as (sc' & E' & L' & V').
  rewrite LL in L', V'.
  assert (SC : Forall2 Qeq sc' (pick 0 order sc)).
  { apply F2_nth_eq; [rewrite pick_length; congruence|]. intros i Hi. rewrite L' in Hi. rewrite pick_nth by now rewrite LO.
    rewrite V', V by (auto; apply (order_at _ _ Ho), Hi). 
    assert (LN : length nb = length labels) by apply HN.
    pose proof (admirers_perm k nb nb' order i ltac:(now rewrite LN) HR ltac:(now rewrite LN)) as AP.
    rewrite <- (qsum_perm _ _ (Permutation_map _ AP)), map_map.
    apply Qplus_comp; [reflexivity|]. apply Qdiv_comp; [|reflexivity].
    rewrite (map_ext_in _ (fun a => agree labels (nth i order 0%nat) (nth a order 0%nat) - agree labels (kth_neighbor k nb (nth a order 0%nat)) (nth a order 0%nat)));
      [reflexivity|].
    intros a I. apply filter_In in I. destruct I as [I _]. apply in_seq in I. destruct HR as [R0 HR]. rewrite LO in R0, HR.
    destruct (HR a ltac:(lia)) as [R1 R2]. destruct (proj2 HN' a ltac:(lia)) as (N1 & _ & _).
    assert (AT : forall x, (x < length labels)%nat -> nth x labels' 0%nat = nth (nth x order 0%nat) labels 0%nat)
      by (intros x Hx; unfold labels'; apply pick_nth; now rewrite LO).
    assert (KN : (kth_neighbor k nb' a < length labels)%nat) by (apply R1, nth_In; lia).
    assert (KE : nth (kth_neighbor k nb' a) order 0%nat = kth_neighbor k nb (nth a order 0%nat)).
    { unfold kth_neighbor. rewrite <- R2. rewrite (nth_map_gen _ _ _ _ 0%nat) by lia. reflexivity. }
    unfold agree. rewrite !AT by (auto; lia). rewrite KE. reflexivity. }
  unfold data_valuation_check in *. destruct (Nat.ltb w k); [discriminate|]. rewrite E in H. fold labels'. rewrite E'. cbn [rbind] in *.
  assert (EM : qmean sc == qmean sc').
  { rewrite (qmean_F2 _ _ SC). symmetry. apply qmean_perm, pick_perm. now rewrite L. }
  destruct (make_summary (qmean sc)) as [s|] eqn:S0; [|discriminate]. destruct (make_summary_comp _ _ _ EM S0) as [-> ->].
  cbn [rbind] in *. injection H as <-. eexists. split; [reflexivity|]. unfold shuffled. cbn [flags scores summary].
  split; [|split; [exact SC|symmetry; exact EM]].
  rewrite <- (pick_map _ 0) by (intros i I; rewrite L; eapply order_lt; eauto).
  clear -SC. induction SC as [|a b x y E F IH]; [reflexivity|]. cbn [map]. rewrite IH. f_equal. apply Qltb_comp; [exact E|reflexivity].
Qed.

(** ** Near duplicates *)
Lemma median_perm srt l l' : argsort_ok srt -> Permutation l l' -> ModelKnn.median srt l == ModelKnn.median srt l'.
Proof.
  intros Hs P. unfold ModelKnn.median. rewrite (Permutation_length P).
  assert (U : forall k, nth k (take_idx 0 l (srt l)) 0 == nth k (take_idx 0 l' (srt l')) 0).
  { intros k. destruct (Hs l) as (A1 & A2). destruct (Hs l') as (B1 & B2).
    apply sorted_unique; try (apply SS_take; auto). rewrite (take_perm 0 _ _ B1), (take_perm 0 _ _ A1). exact P. }
  destruct (Nat.even _); rewrite !U; reflexivity.
Qed.
Lemma qmax_comp a b a' b' : a == a' -> b == b' -> qmax a b == qmax a' b'.
Proof. intros E F. destruct (qmax_spec a b) as [[? ->]|[? ->]], (qmax_spec a' b') as [[? ->]|[? ->]]; lra. Qed.

Lemma near_shuffled srt N k g g' order t r : argsort_ok srt -> graph_shape N k g -> valid_indices N g ->
  Permutation order (seq 0 N) -> fst g' = pick [] order (fst g) -> renumbered order (snd g) (snd g') ->
  find_near_duplicates srt t g = Ok r ->
  exists r', find_near_duplicates srt t g' = Ok r' /\
    nd_flags r' = pick false order (nd_flags r) /\ nd_scores r' = pick 0%R order (nd_scores r) /\
    length (nd_sets r') = N /\
    forall i j, (i < N)%nat -> (j < N)%nat ->
      (In j (nth i (nd_sets r') []) <-> In (nth j order 0%nat) (nth (nth i order 0%nat) (nd_sets r) [])).
Proof.
  intros Hs HG HV Ho E1 [R0 HR] H. pose proof (order_len _ Ho) as LO. rewrite LO in *. destruct HG as (G1 & G2 & G3).
  assert (HG : graph_shape N k g) by (split; auto).
  assert (HN : (0 < N)%nat).
  { destruct N; [|lia]. unfold find_near_duplicates in H. rewrite G1 in H. discriminate. }
  assert (HG' : graph_shape N k g').
  { split; [rewrite E1, pick_length; exact LO|]. split; [exact R0|]. intros i Hi. pose proof (order_at _ i Ho Hi) as Ha. split.
    - rewrite E1, pick_nth by now rewrite LO. apply G3, Ha.
    - destruct (HR i Hi) as [_ R2]. rewrite <- (map_length (fun j => nth j order 0%nat)), R2. apply G3, Ha. }
  assert (HV' : valid_indices N g') by (intros i j Hi I; apply (proj1 (HR i Hi)), I).
  rewrite (find_ok srt N k g t HG HN) in H. injection H as <-.
  exists (result srt N g' t). split; [apply (find_ok srt N k g' t HG' HN)|].
  assert (NN : nn g' = pick 0 order (nn g)).
  { unfold nn. rewrite E1. apply pick_map. intros i I. rewrite G1. apply (order_lt _ _ Ho I). }
  assert (EM : med srt g' == med srt g).
  { unfold med, median_nn_distance. apply qmax_comp; [|reflexivity]. apply median_perm; auto. rewrite NN. apply pick_perm.
    rewrite (nn_length N k g HG). exact Ho. }
  assert (ED : forall i p, (i < N)%nat -> dst g' i p = dst g (nth i order 0%nat) p).
  { intros i p Hi. unfold dst. rewrite E1, pick_nth by now rewrite LO. reflexivity. }
  assert (EN : forall i p, (i < N)%nat -> (p < k)%nat -> nth (nbr g' i p) order 0%nat = nbr g (nth i order 0%nat) p).
  { intros i p Hi Hp. unfold nbr. destruct (HR i Hi) as [_ R2]. rewrite <- R2. rewrite (nth_map_gen _ _ _ _ 0%nat); [reflexivity|].
    destruct HG' as (_ & _ & G3'). destruct (G3' i Hi) as [_ ->]. exact Hp. }
  assert (NL : forall i p, (i < N)%nat -> (p < k)%nat -> (nbr g' i p < N)%nat).
  { intros i p Hi Hp. apply (HV' i); auto. apply nth_In. destruct HG' as (_ & _ & G3'). destruct (G3' i Hi) as [_ ->]. exact Hp. }
  assert (CE : forall rad rad', rad == rad' -> forall i j, (i < N)%nat -> (j < N)%nat -> (close_edge k g' rad i j <-> close_edge k g rad' (nth i order 0%nat) (nth j order 0%nat))).
  { intros rad rad' HE i j Hi Hj. unfold close_edge. split; intros (p & Hp & A & B); exists p; (split; [exact Hp|]).
    - rewrite <- EN by auto. rewrite A. split; [reflexivity|]. rewrite <- ED by auto. lra.
    - rewrite <- EN in A by auto. split; [apply (order_inj _ _ _ Ho); auto|]. rewrite ED by auto. lra. }
  destruct (sets_spec N k g (set_threshold t) (med srt g) HG HV) as (S1 & S2 & _).
  destruct (sets_spec N k g' (set_threshold t) (med srt g') HG' HV') as (S1' & S2' & _).
  assert (SETS : forall i j, (i < N)%nat -> (j < N)%nat ->
      (In j (nth i (nd_sets (result srt N g' t)) []) <-> In (nth j order 0%nat) (nth (nth i order 0%nat) (nd_sets (result srt N g t)) []))).
  { intros i j Hi Hj. cbn [result nd_sets]. pose proof (order_at _ i Ho Hi). pose proof (order_at _ j Ho Hj).
    rewrite S2, S2' by auto. 
    assert (RE : set_threshold t * med srt g' == set_threshold t * med srt g) by (rewrite EM; reflexivity).
    rewrite (CE _ _ RE i j), (CE _ _ RE j i) by auto. tauto. }
  assert (FL : nd_flags (result srt N g' t) = pick false order (nd_flags (result srt N g t))).
  { apply (list_eq_nth _ _ false); [rewrite pick_length, LO; cbn [result nd_flags]; apply mask_of_length|].
    intros i Hi. assert (Hi' : (i < N)%nat) by (cbn [result nd_flags] in Hi; rewrite mask_of_length in Hi; exact Hi).
    rewrite pick_nth by now rewrite LO. apply eq_true_iff_eq.
    rewrite (flags_spec srt N k g' t HG' HV' HN i Hi'), (flags_spec srt N k g t HG HV HN _ (order_at _ i Ho Hi')).
    split; intros A B; apply A.
    - destruct (nth i (nd_sets (result srt N g' t)) []) as [|j l] eqn:E; [reflexivity|exfalso].
      assert (I : In j (nth i (nd_sets (result srt N g' t)) [])) by (rewrite E; left; reflexivity).
      assert (Hj : (j < N)%nat) by (cbn [result nd_sets] in I; apply S2' in I; tauto).
      apply SETS in I; auto. rewrite B in I. destruct I.
    - destruct (nth (nth i order 0%nat) (nd_sets (result srt N g t)) []) as [|e l] eqn:E; [reflexivity|exfalso].
      assert (I : In e (nth (nth i order 0%nat) (nd_sets (result srt N g t)) [])) by (rewrite E; left; reflexivity).
      assert (He : (e < N)%nat) by (cbn [result nd_sets] in I; apply S2 in I; [tauto|apply (order_at _ i Ho Hi')]).
      assert (J : In e order) by (apply (Permutation_in _ (Permutation_sym Ho)), in_seq; lia).
      apply (In_nth _ _ 0%nat) in J. destruct J as (j & Hj & EJ). rewrite LO in Hj. rewrite <- EJ in I. apply SETS in I; auto. rewrite B in I. destruct I. }
  split; [exact FL|]. split; [|split; [exact S1'|exact SETS]].
  cbn [result nd_scores]. rewrite NN. rewrite (pick_map _ _ 0%R) by (intros i I; rewrite (nn_length N k g HG); apply (order_lt _ _ Ho I)).
  f_equal. apply map_ext. intros d. unfold exp_score. destruct (isclose0 d); [reflexivity|]. 
  rewrite (Qeq_eqR (1 / med srt g') (1 / med srt g)) by (rewrite EM; reflexivity). reflexivity.
Qed.

(** ** Outliers by predicted probabilities *)
Lemma ood_shuffled sort threshold s order fl s' : sorts_R sort -> Permutation order (seq 0 (length s)) ->
  pred_probs_issues sort threshold s = Ok (fl, s') ->
  pred_probs_issues sort threshold (pick 0%R order s) = Ok (pick false order fl, pick 0%R order s').
Proof.
  intros Hs Ho H. unfold pred_probs_issues in *. destruct (Qleb 0 _); [|discriminate]. injection H as <- <-.
  rewrite (rmedian_perm sort (pick 0%R order s) s Hs (pick_perm _ _ _ Ho)). do 2 f_equal. apply pick_map.
  intros i I. apply (order_lt _ _ Ho I).
Qed.
