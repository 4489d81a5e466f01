(** * Proofs about the class-level dataset summaries *)
From Coq Require Import QArith Qabs Qround List ZArith Bool Arith Lia Lqa Permutation Sorted.
From Verif Require Import Base BaseFacts ModelUtil ModelCount ModelFilter ModelDataset SpecCount SpecLatent
  SpecDataset ProofUtil ProofCount ProofLatent ProofPool ProofFilter ProofMultilabel.
Import ListNotations.
Open Scope Q_scope.

(** ** Sorting a table *)
Lemma map_nth_seq {A} (l : list A) d : map (fun i => nth i l d) (seq 0 (length l)) = l.
Proof.
  apply list_eq_nth with (d := d).
  - now rewrite map_length, seq_length.
  - intros i Hi. rewrite map_length, seq_length in Hi.
    rewrite (nth_map_gen _ _ _ _ 0%nat) by (rewrite seq_length; lia). now rewrite seq_nth.
Qed.

Lemma sort_by_perm {A} srt (key : A -> Q) d rows : argsort_ok srt -> Permutation (sort_by srt key d rows) rows.
Proof.
  intro H. unfold sort_by. destruct (H (map key rows)) as [P _].
  rewrite map_length in P. rewrite <- (map_nth_seq rows d) at 2. now apply Permutation_map.
Qed.

Lemma sort_by_sorted {A} srt (key : A -> Q) d rows : argsort_ok srt ->
  StronglySorted (fun a b => key a <= key b) (sort_by srt key d rows).
Proof.
  intro H. unfold sort_by. destruct (H (map key rows)) as [P S].
  assert (B : forall i, In i (srt (map key rows)) -> (i < length rows)%nat).
  { intros i Hi. apply (Permutation_in _ P) in Hi. rewrite map_length in Hi. apply in_seq in Hi. lia. }
  revert B S. generalize (srt (map key rows)). induction l as [|i l IH]; intros B S; cbn.
  - constructor.
  - apply StronglySorted_inv in S. destruct S as [S F]. constructor.
    + apply IH; [|assumption]. intros j Hj. apply B. now right.
    + apply Forall_forall. intros x Hx. apply in_map_iff in Hx. destruct Hx as [j [<- Hj]].
      rewrite Forall_forall in F. specialize (F j Hj).
      rewrite !(nth_map_gen _ _ _ _ d) in F by (apply B; cbn; auto). exact F.
Qed.

(** ** Class table *)
Lemma square_mget K m i j : nonneg_square K m -> (i < K)%nat -> (j < K)%nat -> 0 <= mget m i j.
Proof.
  intros (L & R & P) Hi Hj. unfold mget. assert (In (nth i m []) m) by (apply nth_In; lia).
  apply (P (nth i m [])); [assumption|]. apply nth_In. rewrite R; assumption.
Qed.

Lemma row_sum K m i : nonneg_square K m -> (i < K)%nat -> qsum (nth i m []) == pr_given m i.
Proof.
  intros (L & R & P) Hi. unfold pr_given. rewrite qsum_as_tab.
  rewrite R by (apply nth_In; lia). rewrite L. reflexivity.
Qed.

Lemma col_sum K m i : nonneg_square K m -> (i < K)%nat -> qsum (col i m) == pr_true m i.
Proof. intros (L & R & P) Hi. unfold pr_true. now rewrite col_nth. Qed.

Lemma cond_noise_bounds e x d : 0 < e -> 0 <= d -> d <= x ->
  0 <= (x - d) / clip_lo e x <= 1.
Proof.
  intros He Hd Hx. pose proof (clip_lo_ge e x) as G.
  assert (G2 : x <= clip_lo e x) by (unfold clip_lo, qmax; destruct (Qle_bool x e) eqn:E; [now apply Qle_bool_iff|lra]).
  split.
  - apply Qle_shift_div_l; lra.
  - apply Qle_shift_div_r; lra.
Qed.

Lemma cond_noise_value e x d : 0 < e -> e <= x -> (1 - (x - d) / clip_lo e x) * x == d.
Proof. intros He Hx. rewrite clip_lo_id by assumption. field. lra. Qed.

Lemma pr_given_diag K m k : nonneg_square K m -> (k < K)%nat -> mget m k k <= pr_given m k.
Proof.
  intros S Hk. pose proof S as (L & _). unfold pr_given. rewrite L.
  apply (qsum_tab_ge K (fun y => mget m k y)); [|assumption]. intros; eapply square_mget; eassumption.
Qed.
Lemma pr_true_diag K m k : nonneg_square K m -> (k < K)%nat -> mget m k k <= pr_true m k.
Proof.
  intros S Hk. pose proof S as (L & _). unfold pr_true. rewrite L.
  apply (qsum_tab_ge K (fun y => mget m y k)); [|assumption]. intros; eapply square_mget; eassumption.
Qed.

Lemma class_rows_index m n : map class_index (class_rows m n) = seq 0 (length m).
Proof. unfold class_rows. rewrite map_tab. unfold tab. now rewrite map_id. Qed.

Lemma EPS_pos : 0 < EPSILON. Proof. reflexivity. Qed.

Lemma rounds_to_ext q q' z : q == q' -> rounds_to q z -> rounds_to q' z.
Proof. intros E [A B]. split; rewrite <- E; assumption. Qed.

Lemma class_rows_row K m n r : nonneg_square K m -> In r (class_rows m n) ->
  let k := class_index r in
  (k < K)%nat /\
  0 <= class_label_noise r <= 1 /\ 0 <= class_inverse_label_noise r <= 1 /\ 0 <= class_quality r <= 1 /\
  class_quality r + class_label_noise r == 1 /\
  ((1 # 1000000) <= pr_given m k -> class_quality r * pr_given m k == mget m k k) /\
  ((1 # 1000000) <= pr_true m k -> (1 - class_inverse_label_noise r) * pr_true m k == mget m k k) /\
  rounds_to ((pr_given m k - mget m k k) * n) (class_label_issues r) /\
  rounds_to ((pr_true m k - mget m k k) * n) (class_inverse_label_issues r).
Proof.
  intros S Hr. unfold class_rows in Hr. apply in_map_iff in Hr. destruct Hr as [k [<- Hk]].
  apply in_seq in Hk. pose proof S as (L & R & P). assert (Hk' : (k < K)%nat) by lia.
  cbn [class_index class_label_noise class_inverse_label_noise class_quality class_label_issues
       class_inverse_label_issues].
  pose proof (row_sum K m k S Hk') as RS. pose proof (col_sum K m k S Hk') as CS.
  pose proof (pr_given_diag K m k S Hk') as GD. pose proof (pr_true_diag K m k S Hk') as TD.
  pose proof (square_mget K m k k S Hk' Hk') as D0.
  assert (B1 := cond_noise_bounds EPSILON (qsum (nth k m [])) (mget m k k) EPS_pos D0 ltac:(rewrite RS; assumption)).
  assert (B2 := cond_noise_bounds EPSILON (qsum (col k m)) (mget m k k) EPS_pos D0 ltac:(rewrite CS; assumption)).
  refine (conj Hk' (conj B1 (conj B2 (conj _ (conj _ (conj _ (conj _ (conj _ _)))))))).
  - lra.
  - ring.
  - intro E. rewrite <- RS in E |- *. apply cond_noise_value; [reflexivity|exact E].
  - intro E. rewrite <- CS in E |- *. apply cond_noise_value; [reflexivity|exact E].
  - eapply rounds_to_ext; [|apply round_half_even_rounds]. now rewrite RS.
  - eapply rounds_to_ext; [|apply round_half_even_rounds]. now rewrite CS.
Qed.

Lemma rank_classes_spec srt K a m n rows : argsort_ok srt -> nonneg_square K m ->
  in_joint a = Some m -> in_num_examples a = Some n ->
  rank_classes_by_label_quality srt a = Ok rows ->
  Permutation (map class_index rows) (seq 0 K) /\
  StronglySorted (fun r r' => class_quality r <= class_quality r') rows /\
  forall r, In r rows ->
  let k := class_index r in
  0 <= class_label_noise r <= 1 /\ 0 <= class_inverse_label_noise r <= 1 /\ 0 <= class_quality r <= 1 /\
  class_quality r + class_label_noise r == 1 /\
  ((1 # 1000000) <= pr_given m k -> class_quality r * pr_given m k == mget m k k) /\
  ((1 # 1000000) <= pr_true m k -> (1 - class_inverse_label_noise r) * pr_true m k == mget m k k) /\
  rounds_to ((pr_given m k - mget m k k) * n) (class_label_issues r) /\
  rounds_to ((pr_true m k - mget m k k) * n) (class_inverse_label_issues r).
Proof.
  intros HS S HJ HN H. unfold rank_classes_by_label_quality, the_joint in H. rewrite HJ, HN in H.
  cbn [rbind] in H. injection H as <-. pose proof S as (L & _).
  pose proof (sort_by_perm srt class_quality class_row_0 (class_rows m n) HS) as P.
  refine (conj _ (conj _ _)).
  - rewrite <- L, <- (class_rows_index m n). now apply Permutation_map.
  - now apply sort_by_sorted.
  - intros r Hr. apply (Permutation_in _ P) in Hr. now apply (class_rows_row K m n r S) in Hr.
Qed.

(** ** Overlap table *)
Lemma rcv_list_square m K : length m = K -> (forall r, In r m -> length r = K) ->
  rcv_list m = flat_map (fun i => tab K (fun j => (i, j, mget m i j))) (seq 0 K).
Proof.
  intros L R. unfold rcv_list. rewrite !flat_map_concat_map. f_equal.
  rewrite (combine_seq _ []). rewrite L. apply map_ext_in. intros i Hi. apply in_seq in Hi.
  cbn [fst snd]. rewrite Nat.sub_0_r. rewrite R by (apply nth_In; lia).
  rewrite <- (R (nth i m [])) at 1 by (apply nth_In; lia).
  rewrite (combine_seq _ 0). rewrite R by (apply nth_In; lia). unfold tab. apply map_ext.
  intro j. cbn [fst snd]. rewrite Nat.sub_0_r. reflexivity.
Qed.

Section Pairs.
  Variable K : nat.
  Variable v : nat -> nat -> Q.
  Variable p : nat -> nat -> bool.
  Let L := filter (fun t => p (fst (fst t)) (snd (fst t)))
                  (flat_map (fun i => tab K (fun j => (i, j, v i j))) (seq 0 K)).

  Lemma pairs_in t : In t L <->
    (fst (fst t) < K)%nat /\ (snd (fst t) < K)%nat /\ p (fst (fst t)) (snd (fst t)) = true /\
    snd t = v (fst (fst t)) (snd (fst t)).
  Proof.
    unfold L. rewrite filter_In, in_flat_map. split.
    - intros [[i [Hi Hj]] Hp]. apply in_map_iff in Hj. destruct Hj as [j [<- Hj]].
      apply in_seq in Hi. apply in_seq in Hj. cbn [fst snd] in *.
      refine (conj _ (conj _ (conj Hp eq_refl))); lia.
    - destruct t as [[a b] x]. cbn [fst snd]. intros (Ha & Hb & Hp & ->). split; [|assumption].
      exists a. split; [apply in_seq; lia|]. apply in_map_iff. exists b. split; [reflexivity|]. apply in_seq; lia.
  Qed.

  Lemma filter_flat_map {A B} (q : B -> bool) (f : A -> list B) l :
    filter q (flat_map f l) = flat_map (fun x => filter q (f x)) l.
  Proof. induction l; cbn; [reflexivity|]. rewrite filter_app. now f_equal. Qed.

  Lemma pairs_nodup : NoDup (map fst L).
  Proof.
    unfold L. rewrite filter_flat_map. generalize (seq_NoDup K 0). generalize (seq 0 K) at 1 2.
    induction l as [|i l IH]; intro ND; cbn; [constructor|]. inversion_clear ND as [|? ? Hn ND'].
    rewrite map_app. apply ProofToken.NoDup_app_intro.
    - unfold tab. generalize (seq_NoDup K 0). generalize (seq 0 K). induction l0 as [|j l0 IH0]; intro ND0; cbn; [constructor|].
      inversion_clear ND0 as [|? ? Hn0 ND0']. destruct (p i j); cbn [map]; [constructor|]; auto.
      intro H. apply in_map_iff in H. destruct H as [t [E Ht]]. apply filter_In in Ht. destruct Ht as [Ht _].
      apply in_map_iff in Ht. destruct Ht as [j' [<- Hj']]. cbn in E. injection E as ->. contradiction.
    - now apply IH.
    - intros x H1 H2. apply in_map_iff in H1. destruct H1 as [t [<- Ht]]. apply filter_In in Ht. destruct Ht as [Ht _].
      apply in_map_iff in Ht. destruct Ht as [j' [<- Hj']]. apply in_map_iff in H2. destruct H2 as [t' [E Ht']].
      apply in_flat_map in Ht'. destruct Ht' as [i' [Hi' Ht']]. apply filter_In in Ht'. destruct Ht' as [Ht' _].
      apply in_map_iff in Ht'. destruct Ht' as [j'' [<- _]]. cbn in E. injection E as -> _. contradiction.
  Qed.

  Lemma pairs_sum : qsum (map snd L) ==
    qsum (tab K (fun a => qsum (tab K (fun b => if p a b then v a b else 0)))).
  Proof.
    unfold L. rewrite filter_flat_map. unfold tab at 2. generalize (seq 0 K) at 1 2.
    induction l as [|i l IH]; cbn [flat_map map]; [reflexivity|].
    rewrite map_app, qsum_app, qsum_cons, IH. apply Qplus_inj_r.
    unfold tab. generalize (seq 0 K). induction l0 as [|j l0 IH0]; cbn; [reflexivity|].
    rewrite <- IH0. destruct (p i j); cbn [map snd]; [reflexivity|]. rewrite Qplus_0_l. reflexivity.
  Qed.
End Pairs.

Lemma symmetric_joint_get m i j : (i < length m)%nat -> (j < length m)%nat -> (i <= j)%nat ->
  mget (symmetric_joint m) i j = mget m i j + mget m j i.
Proof.
  intros Hi Hj Hij. unfold symmetric_joint, mget at 1. rewrite !nth_tab by assumption.
  apply Nat.leb_le in Hij. now rewrite Hij.
Qed.

Lemma symmetric_joint_square m : length (symmetric_joint m) = length m /\
  forall r, In r (symmetric_joint m) -> length r = length m.
Proof.
  split; [apply tab_length|]. intros r Hr. apply in_map_iff in Hr. destruct Hr as [i [<- _]]. apply tab_length.
Qed.

Definition listed (asymmetric : bool) (a b : nat) : bool :=
  if asymmetric then negb (Nat.eqb a b) else Nat.ltb a b.
Definition pair_value (asymmetric : bool) (m : list (list Q)) (a b : nat) : Q :=
  if asymmetric then mget m a b else mget (symmetric_joint m) a b.

Lemma overlap_rows_eq asym m n K : length m = K -> (forall r, In r m -> length r = K) ->
  overlap_rows asym m n =
  map (fun t => {| overlap_a := fst (fst t); overlap_b := snd (fst t);
                   overlap_num := round_half_even (snd t * n); overlap_prob := snd t |})
   (filter (fun t => listed asym (fst (fst t)) (snd (fst t)))
           (flat_map (fun i => tab K (fun j => (i, j, pair_value asym m i j))) (seq 0 K))).
Proof.
  intros L R. unfold overlap_rows, listed, pair_value. destruct asym; f_equal.
  - now rewrite (rcv_list_square m K).
  - destruct (symmetric_joint_square m) as [L2 R2]. rewrite L in L2, R2. now rewrite (rcv_list_square _ K).
Qed.

Lemma pair_sum_asym m : qsum (tab (length m) (fun a => qsum (tab (length m) (fun b =>
    if listed true a b then pair_value true m a b else 0)))) == pr_wrong m.
Proof.
  unfold pr_wrong, listed, pair_value. apply qsum_tab_ext. intros a Ha. apply qsum_tab_ext. intros b Hb.
  destruct (Nat.eqb a b); reflexivity.
Qed.

Lemma qsum_tab_plus n f g : qsum (tab n (fun i => f i + g i)) == qsum (tab n f) + qsum (tab n g).
Proof. unfold tab. apply qsum_map_plus. Qed.

Lemma pair_sum_sym m : qsum (tab (length m) (fun a => qsum (tab (length m) (fun b =>
    if listed false a b then pair_value false m a b else 0)))) == pr_wrong m.
Proof.
  set (K := length m). unfold pr_wrong, listed, pair_value. fold K.
  transitivity (qsum (tab K (fun a => qsum (tab K (fun b => if Nat.ltb a b then mget m a b else 0)))) +
                qsum (tab K (fun a => qsum (tab K (fun b => if Nat.ltb a b then mget m b a else 0))))).
  - rewrite <- qsum_tab_plus. apply qsum_tab_ext. intros a Ha. rewrite <- qsum_tab_plus.
    apply qsum_tab_ext. intros b Hb. destruct (Nat.ltb a b) eqn:E; [|lra]. apply Nat.ltb_lt in E.
    rewrite symmetric_joint_get by (fold K; lia). reflexivity.
  - rewrite (qsum_tab_swap K K (fun a b => if Nat.ltb a b then mget m b a else 0)).
    rewrite <- qsum_tab_plus. apply qsum_tab_ext. intros a Ha. rewrite <- qsum_tab_plus.
    apply qsum_tab_ext. intros b Hb. destruct (Nat.ltb_spec a b), (Nat.ltb_spec b a), (Nat.eqb_spec a b); try lia; lra.
Qed.

Lemma find_overlapping_spec srt K asym a m n rows : argsort_ok srt ->
  length m = K -> (forall r, In r m -> length r = K) ->
  in_joint a = Some m -> in_num_examples a = Some n ->
  find_overlapping_classes srt asym a = Ok rows ->
  NoDup (map (fun r => (overlap_a r, overlap_b r)) rows) /\
  (forall x y, In (x, y) (map (fun r => (overlap_a r, overlap_b r)) rows) <->
     (x < K)%nat /\ (y < K)%nat /\ (if asym then x <> y else (x < y)%nat)) /\
  StronglySorted (fun r r' => overlap_prob r' <= overlap_prob r) rows /\
  (forall r, In r rows ->
     overlap_prob r == (if asym then mget m (overlap_a r) (overlap_b r)
                        else pr_confused m (overlap_a r) (overlap_b r)) /\
     rounds_to (overlap_prob r * n) (overlap_num r)) /\
  qsum (map overlap_prob rows) == pr_wrong m.
Proof.
  intros HS L R HJ HN H. unfold find_overlapping_classes, the_joint in H. rewrite HJ, HN in H.
  cbn [rbind] in H. injection H as <-.
  pose proof (sort_by_perm srt (fun r => - overlap_prob r) overlap_row_0 (overlap_rows asym m n) HS) as P.
  pose proof (sort_by_sorted srt (fun r => - overlap_prob r) overlap_row_0 (overlap_rows asym m n) HS) as SS.
  set (rows := sort_by _ _ _ _) in *. clearbody rows.
  pose proof (overlap_rows_eq asym m n K L R) as E.
  assert (M : map (fun r => (overlap_a r, overlap_b r)) (overlap_rows asym m n) =
              map fst (filter (fun t => listed asym (fst (fst t)) (snd (fst t)))
                (flat_map (fun i => tab K (fun j => (i, j, pair_value asym m i j))) (seq 0 K)))).
  { rewrite E, map_map. apply map_ext. intros [[? ?] ?]. reflexivity. }
  refine (conj _ (conj _ (conj _ (conj _ _)))).
  - eapply Permutation_NoDup; [apply Permutation_map, Permutation_sym, P|]. rewrite M. apply pairs_nodup.
  - intros x y.
    assert (I : In (x, y) (map (fun r => (overlap_a r, overlap_b r)) rows) <->
                In (x, y) (map (fun r => (overlap_a r, overlap_b r)) (overlap_rows asym m n))).
    { split; apply Permutation_in; apply Permutation_map; [exact P|apply Permutation_sym, P]. }
    rewrite I, M, in_map_iff.
    assert (Q : listed asym x y = true <-> (if asym then x <> y else (x < y)%nat)).
    { unfold listed. destruct asym; [rewrite negb_true_iff, Nat.eqb_neq|rewrite Nat.ltb_lt]; reflexivity. }
    split.
    + intros [t [Et Ht]]. apply pairs_in in Ht. rewrite Et in Ht. cbn [fst snd] in Ht. intuition.
    + intros (Hx & Hy & Hp). exists (x, y, pair_value asym m x y). split; [reflexivity|].
      apply pairs_in. cbn [fst snd]. intuition.
  - clear -SS. induction SS as [|r rows SS IH F]; constructor; [assumption|].
    eapply Forall_impl; [|exact F]. cbn. intros; lra.
  - intros r Hr. apply (Permutation_in _ P) in Hr. rewrite E in Hr. apply in_map_iff in Hr.
    destruct Hr as [t [<- Ht]]. apply pairs_in in Ht. destruct Ht as (Ha & Hb & Hp & Hv).
    cbn [overlap_a overlap_b overlap_prob overlap_num]. split; [|apply round_half_even_rounds].
    rewrite Hv. unfold pair_value, listed in *. destruct asym; [reflexivity|]. apply Nat.ltb_lt in Hp.
    rewrite symmetric_joint_get by lia. reflexivity.
  - rewrite (qsum_perm _ _ (Permutation_map overlap_prob P)), E, map_map.
    rewrite (map_ext _ snd) by reflexivity. rewrite pairs_sum, <- L. destruct asym.
    + apply pair_sum_asym.
    + apply pair_sum_sym.
Qed.

(** ** Overall score *)
Lemma pr_split m : pr_correct m + pr_wrong m == qsum (tab (length m) (fun s => pr_given m s)).
Proof.
  unfold pr_correct, pr_wrong, pr_given. set (K := length m). rewrite <- qsum_tab_plus.
  apply qsum_tab_ext. intros s Hs.
  transitivity (qsum (tab K (fun y => if Nat.eqb s y then mget m s y else 0)) +
                qsum (tab K (fun y => if Nat.eqb s y then 0 else mget m s y))).
  - apply Qplus_inj_r. symmetry. transitivity (qsum (tab K (fun y => if Nat.eqb y s then mget m s y else 0))).
    + apply qsum_tab_ext. intros y Hy. now rewrite (Nat.eqb_sym y s).
    + unfold tab. now rewrite (qsum_indicator (fun y => mget m s y) s K 0) by lia.
  - rewrite <- qsum_tab_plus. apply qsum_tab_ext. intros y Hy. destruct (Nat.eqb s y); lra.
Qed.

Lemma trace_correct m : trace m = pr_correct m.
Proof. reflexivity. Qed.

Lemma score_from_joint srt a m n : in_joint a = Some m -> in_num_examples a = Some n ->
  in_labels a = None \/ in_pred_probs a = None ->
  overall_label_health_score srt a = Ok (pr_correct m).
Proof.
  intros HJ HN [H|H]; unfold overall_label_health_score, the_joint; rewrite HN, HJ, H; cbn [rbind];
    destruct (in_pred_probs a), (in_labels a); reflexivity.
Qed.

Lemma num_label_issues_le srt labels pp K n : num_label_issues srt labels pp K = Ok n -> (n <= length labels)%nat.
Proof.
  unfold num_label_issues, num_label_issues_off_diagonal. destruct (assert_valid_inputs labels pp K false); cbn [rbind]; [|discriminate].
  destruct (compute_confident_joint srt labels pp K None false) as [r|]; cbn [rbind]; [|discriminate].
  intro H. injection H as <-. unfold count_true. eapply Nat.le_trans; [apply filter_len_le|].
  rewrite map_length, combine_length. unfold mask_of. rewrite map_length, seq_length. lia.
Qed.

Lemma score_from_data srt a l pp s : in_labels a = Some l -> in_pred_probs a = Some pp -> in_num_examples a = None ->
  overall_label_health_score srt a = Ok s ->
  exists issues, num_label_issues srt l pp (in_K a) = Ok issues /\ (issues <= length l)%nat /\
                 s * Qnat (length l) == Qnat (length l) - Qnat issues /\ 0 <= s <= 1.
Proof.
  intros HL HP HN H. unfold overall_label_health_score in H. rewrite HL, HP, HN in H. cbn [get_num_examples rbind] in H.
  destruct (num_label_issues srt l pp (in_K a)) as [issues|] eqn:E; cbn [rbind] in H; [|discriminate].
  destruct (Qeq_bool (Qnat (length l)) 0) eqn:Z; [discriminate|]. injection H as <-.
  apply Qeq_bool_neq in Z. pose proof (Qnat_nonneg (length l)). assert (P : 0 < Qnat (length l)) by lra.
  pose proof (num_label_issues_le _ _ _ _ _ E) as LE. exists issues. refine (conj eq_refl (conj LE (conj _ _))).
  - field. lra.
  - pose proof (Qnat_nonneg issues). apply Qnat_le in LE.
    assert (0 <= Qnat issues / Qnat (length l)) by (apply Qle_shift_div_l; lra).
    assert (Qnat issues / Qnat (length l) <= 1) by (apply Qle_shift_div_r; lra). lra.
Qed.

Lemma summary_tables srt K asym a score joint classes overlap : argsort_ok srt ->
  health_summary srt asym a = Ok (score, joint, classes, overlap) -> nonneg_square K joint ->
  Permutation (map class_index classes) (seq 0 K) /\
  StronglySorted (fun r r' => class_quality r <= class_quality r') classes /\
  (forall r, In r classes -> (1 # 1000000) <= pr_given joint (class_index r) ->
     class_quality r * pr_given joint (class_index r) == mget joint (class_index r) (class_index r)) /\
  StronglySorted (fun r r' => overlap_prob r' <= overlap_prob r) overlap /\
  qsum (map overlap_prob overlap) == pr_wrong joint.
Proof.
  intros HS H S. unfold health_summary in H.
  destruct (the_joint srt a) as [j|]; cbn [rbind] in H; [|discriminate].
  destruct (match in_num_examples a with Some n => Ok n | None => get_num_examples (in_labels a) None end) as [n|];
    cbn [rbind] in H; [|discriminate].
  set (a' := {| in_labels := in_labels a; in_pred_probs := in_pred_probs a; in_K := in_K a;
               in_num_examples := Some n; in_joint := Some j; in_confident_joint := in_confident_joint a |}) in *.
  destruct (rank_classes_by_label_quality srt a') as [c|] eqn:EC; cbn [rbind] in H; [|discriminate].
  destruct (find_overlapping_classes srt asym a') as [o|] eqn:EO; cbn [rbind] in H; [|discriminate].
  destruct (overall_label_health_score srt _) as [s|]; cbn [rbind] in H; [|discriminate].
  injection H as -> -> -> ->. pose proof S as (L & R & _).
  destruct (rank_classes_spec srt K a' joint n classes HS S eq_refl eq_refl EC) as (A & B & C).
  destruct (find_overlapping_spec srt K asym a' joint n overlap HS L R eq_refl eq_refl EO) as (_ & _ & D & _ & E).
  refine (conj A (conj B (conj _ (conj D E)))). intros r Hr. apply (C r Hr).
Qed.

(** A joint and a number of examples are enough for each table, not for the summary. *)
Lemma summary_joint_only srt asym m n K :
  health_summary srt asym {| in_labels := None; in_pred_probs := None; in_K := K; in_num_examples := Some n;
                             in_joint := Some m; in_confident_joint := None |} = Raise OtherError.
Proof. reflexivity. Qed.
Lemma rank_confident_joint_only srt cj K :
  rank_classes_by_label_quality srt {| in_labels := None; in_pred_probs := None; in_K := K; in_num_examples := None;
                             in_joint := None; in_confident_joint := Some cj |} = Raise ValueError.
Proof. reflexivity. Qed.
