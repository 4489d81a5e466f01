(** * Proofs about the multi-annotator label formats *)
From Coq Require Import String QArith List ZArith Bool Arith Sorted Lia.
From Verif Require Import Base BaseFacts ModelLabels ModelWide SpecLabels SpecWide ProofLabels ModelMultiannotator SpecMultiannotator ProofCount ProofMultiannotator.
Import ListNotations.
Open Scope nat_scope.

Lemma sorted_increasing {A} (leb : A -> A -> bool) (O : total_order leb) l : increasing leb (np_unique leb l) /\ (forall y, In y (np_unique leb l) <-> In y l) /\ NoDup (np_unique leb l).
Proof.
  destruct (np_unique_spec leb O l) as (S & I). split; [exact S|]. split; [exact I|]. apply (sorted_NoDup leb O). exact S.
Qed.

Section P.
Context {T A L : Type} (leb_t : T -> T -> bool) (leb_a : A -> A -> bool).
Hypothesis (Ot : total_order leb_t) (Oa : total_order leb_a).
Lemma same_cell_iff (r s : T * A * option L) : same_cell leb_t leb_a r s = true <-> fst r = fst s.
Proof.
  unfold same_cell. rewrite andb_true_iff, (key_eqb_iff leb_t Ot), (key_eqb_iff leb_a Oa). destruct r as [[t a] x], s as [[t' a'] y]; simpl. split; [intros (-> & ->); reflexivity|].
  intros E. injection E as -> ->. auto.
Qed.
Lemma duplicate_iff (long : list (T * A * option L)) : has_duplicate leb_t leb_a long = false <-> one_label_each long.
Proof.
  unfold one_label_each. induction long as [|r t IH]; simpl; [split; [constructor|reflexivity]|]. rewrite orb_false_iff, IH. split.
  - intros (E & N). constructor; auto. intros I. apply in_map_iff in I. destruct I as (s & Es & I).
    assert (existsb (same_cell leb_t leb_a r) t = true) by (apply existsb_exists; exists s; split; [exact I|apply same_cell_iff; auto]). congruence.
  - intros N. inversion N; subst. split; auto. destruct (existsb _ t) eqn:E; auto. apply existsb_exists in E. destruct E as (s & I & Es). apply same_cell_iff in Es.
    exfalso. apply H1. rewrite Es. apply in_map. exact I.
Qed.

Lemma wide_full (long : list (T * A * option L)) :
  (one_label_each long -> exists tasks annotators m, convert_long_to_wide leb_t leb_a long = Ok (tasks, annotators, m) /\
     increasing leb_t tasks /\ increasing leb_a annotators /\
     (forall t, In t tasks <-> exists a l, In (t, a, l) long) /\ (forall a, In a annotators <-> exists t l, In (t, a, l) long) /\
     length m = length tasks /\ (forall r, In r m -> length r = length annotators) /\
     (forall i j t a, nth_error tasks i = Some t -> nth_error annotators j = Some a -> forall l, at_cell m i j = Some l <-> In (t, a, Some l) long)) /\
  (~ one_label_each long -> convert_long_to_wide leb_t leb_a long = Raise ValueError).
Proof.
  unfold convert_long_to_wide. split.
  - intros N. rewrite (proj2 (duplicate_iff long) N). do 3 eexists. split; [reflexivity|].
    destruct (sorted_increasing leb_t Ot (map (fun r => fst (fst r)) long)) as (S1 & I1 & _).
    destruct (sorted_increasing leb_a Oa (map (fun r => snd (fst r)) long)) as (S2 & I2 & _).
    set (tasks := np_unique leb_t _) in *. set (annotators := np_unique leb_a _) in *.
    split; [exact S1|]. split; [exact S2|]. split; [|split; [|split; [|split]]].
    + intros t. rewrite I1, in_map_iff. split.
      * intros ([[t' a] l] & <- & H). exists a, l. exact H.
      * intros (a & l & H). exists (t, a, l). auto.
    + intros a. rewrite I2, in_map_iff. split.
      * intros ([[t a'] l] & <- & H). exists t, l. exact H.
      * intros (t & l & H). exists (t, a, l). auto.
    + apply map_length.
    + intros r Hr. apply in_map_iff in Hr. destruct Hr as (t & <- & _). apply map_length.
    + intros i j t a Hi Hj l. unfold at_cell.
      erewrite (nth_error_nth (map _ tasks)) by (apply map_nth_error; exact Hi).
      erewrite (nth_error_nth (map _ annotators)) by (apply map_nth_error; exact Hj).
      destruct (find _ long) as [[[t' a'] l']|] eqn:F.
      * apply find_some in F. destruct F as (I & E). simpl in E. apply andb_true_iff in E. destruct E as (E1 & E2).
        apply (key_eqb_iff leb_t Ot) in E1. apply (key_eqb_iff leb_a Oa) in E2. subst t' a'. simpl. split; [intros ->; exact I|].
        intros I'. unfold one_label_each in N. clear - N I I'. induction long as [|r u IH]; [destruct I|]. simpl in N. inversion N; subst. destruct I as [->|I], I' as [E|I'].
        -- congruence.
        -- exfalso. apply H1. apply in_map_iff. exists (t, a, Some l). auto.
        -- exfalso. apply H1. subst r. apply in_map_iff. exists (t, a, l'). auto.
        -- auto.
      * split; [discriminate|]. intros I. apply (find_none _ _ F) in I. simpl in I. 
        rewrite (proj2 (key_eqb_iff leb_t Ot t t) eq_refl), (proj2 (key_eqb_iff leb_a Oa a a) eq_refl) in I. discriminate.
  - intros N. destruct (has_duplicate leb_t leb_a long) eqn:E; [reflexivity|]. exfalso. apply N. apply duplicate_iff. exact E.
Qed.
End P.

Section F.
Context {A : Type} (leb : A -> A -> bool) (O : total_order leb).
Lemma dict_set_new d x i : ~ In x (map fst d) -> dict_set leb d x i = d ++ [(x, i)].
Proof.
  induction d as [|[y j] t IH]; simpl; intros H; [reflexivity|]. destruct (key_eqb leb x y) eqn:E.
  - apply (key_eqb_iff leb O) in E. subst. exfalso. auto.
  - rewrite IH; auto.
Qed.
Lemma build_combine l : NoDup l -> build_map leb l = combine l (seq 0 (length l)).
Proof.
  unfold build_map. intros N. assert (G : forall l n d, NoDup l -> (forall x, In x l -> ~ In x (map fst d)) ->
    fold_left (fun d xi => dict_set leb d (fst xi) (snd xi)) (combine l (seq n (length l))) d = d ++ combine l (seq n (length l))).
  { clear l N. induction l as [|x t IH]; intros n d N D; simpl; [rewrite app_nil_r; reflexivity|]. inversion N; subst. rewrite dict_set_new by (apply D; left; reflexivity).
    rewrite IH; auto.
    - rewrite <- app_assoc. reflexivity.
    - intros y Hy C. rewrite map_app, in_app_iff in C. simpl in C. destruct C as [C|[->|[]]]; [apply (D y); [right; auto|auto]|contradiction]. }
  rewrite (G l 0 []); auto.
Qed.
Lemma flat_present (labels : list (list (option A))) x : In x (flat_map (fun o => match o with Some l => [l] | None => [] end) (concat labels)) <-> occurs labels x.
Proof.
  rewrite in_flat_map. unfold occurs. split.
  - intros ([y|] & H & I); [|destruct I]. destruct I as [->|[]]. apply in_concat in H. exact H.
  - intros (r & Hr & Hx). exists (Some x). split; [apply in_concat; eauto|left; reflexivity].
Qed.
Lemma replace_ok u : NoDup u -> forall s x, In x u -> exists k, replace leb (combine u (seq s (length u))) x = New (s + k) /\ nth_error u k = Some x.
Proof.
  unfold replace. induction u as [|y t IH]; intros N s x H; [destruct H|]. inversion N; subst. simpl. destruct (key_eqb leb x y) eqn:E.
  - apply (key_eqb_iff leb O) in E. subst y. exists 0. rewrite Nat.add_0_r. auto.
  - destruct H as [->|H]; [rewrite (proj2 (key_eqb_iff leb O x x) eq_refl) in E; discriminate|]. destruct (IH H3 (S s) x H) as (k & Hk & Hn). exists (S k).
    rewrite <- plus_n_Sm. split; [exact Hk|exact Hn].
Qed.
Lemma format_full is_nan cast labels : (forall x, occurs labels x -> is_nan x = false /\ cast x = x) ->
  exists m inv names, format_multiannotator_labels leb is_nan cast labels = (m, inv) /\ inv = combine (seq 0 (length names)) names /\
    increasing leb names /\ (forall x, In x names <-> occurs labels x) /\
    Forall2 (Forall2 (fun o c => match o with None => c = None | Some x => exists k, c = Some (New k) /\ nth_error names k = Some x end)) labels m.
Proof.
  intros H. unfold format_multiannotator_labels. set (pr := flat_map _ (concat labels)).
  assert (EF : filter (fun l => negb (is_nan l)) pr = pr).
  { assert (G : forall l, (forall x, In x l -> occurs labels x) -> filter (fun l => negb (is_nan l)) l = l).
    { induction l as [|x t IH]; intros K; simpl; [reflexivity|]. destruct (H x (K x (or_introl eq_refl))) as (-> & _). simpl. f_equal. apply IH. intros; apply K; right; auto. }
    apply G. intros x. apply flat_present. }
  rewrite EF. destruct (sorted_increasing leb O pr) as (S & I & N). set (u := np_unique leb pr) in *.
  assert (EM : map cast u = u).
  { rewrite <- (map_id u) at 2. apply map_ext_in. intros x Hx. apply H. apply flat_present. apply I. exact Hx. }
  rewrite EM, (build_combine u N). exists (map (map (option_map (replace leb (combine u (seq 0 (length u)))))) labels), (inverse_map (combine u (seq 0 (length u)))), u.
  split; [reflexivity|]. split; [apply inverse_combine|]. split; [exact S|]. split; [intros x; rewrite I; apply flat_present|].
  apply Forall2_map_r. intros r Hr. apply Forall2_map_r. intros [x|] Hx; simpl; [|reflexivity].
  destruct (replace_ok u N 0 x) as (k & Hk & Hn); [apply I, flat_present; exists r; auto|]. exists k. rewrite Hk. auto.
Qed.
End F.

Lemma Z_order : total_order Z.leb.
Proof.
  split.
  - intros x y. rewrite !Z.leb_le. lia.
  - intros x y. rewrite !Z.leb_le. lia.
  - intros x y z. rewrite !Z.leb_le. lia.
Qed.
Lemma ascii_cmp_trans c : forall a b d, Ascii.compare a b = c -> Ascii.compare b d = c -> c <> Eq -> Ascii.compare a d = c.
Proof.
  intros a b d. unfold Ascii.compare. destruct c; intros H1 H2 H3; [congruence| |].
  - apply N.compare_lt_iff in H1, H2. apply N.compare_lt_iff. eapply N.lt_trans; eassumption.
  - apply N.compare_gt_iff in H1, H2. apply N.compare_gt_iff. eapply N.lt_trans; eassumption.
Qed.
Lemma ascii_cmp_eq a b : Ascii.compare a b = Eq -> a = b.
Proof. apply Ascii.compare_eq_iff. Qed.
Lemma ascii_cmp_refl a : Ascii.compare a a = Eq.
Proof. unfold Ascii.compare. apply N.compare_refl. Qed.
Lemma string_lt_trans : forall a b d, String.compare a b = Lt -> String.compare b d = Lt -> String.compare a d = Lt.
Proof.
  induction a as [|x a IH]; intros [|y b] [|z d]; simpl; try discriminate; auto.
  destruct (Ascii.compare x y) eqn:E1; try discriminate; destruct (Ascii.compare y z) eqn:E2; try discriminate; intros H1 H2.
  - apply ascii_cmp_eq in E1, E2. subst. rewrite ascii_cmp_refl. eauto.
  - apply ascii_cmp_eq in E1. subst. rewrite E2. reflexivity.
  - apply ascii_cmp_eq in E2. subst. rewrite E1. reflexivity.
  - rewrite (ascii_cmp_trans Lt x y z E1 E2 ltac:(discriminate)). reflexivity.
Qed.
Lemma string_cmp_refl a : String.compare a a = Eq.
Proof. induction a as [|x a IH]; simpl; [reflexivity|]. rewrite ascii_cmp_refl. exact IH. Qed.
Lemma string_order : total_order String.leb.
Proof.
  split.
  - apply String.leb_total.
  - apply String.leb_antisym.
  - intros x y z. unfold String.leb. destruct (String.compare x y) eqn:E1; try discriminate; destruct (String.compare y z) eqn:E2; try discriminate; intros _ _.
    + apply String.compare_eq_iff in E1, E2. subst. rewrite string_cmp_refl. reflexivity.
    + apply String.compare_eq_iff in E1. subst. rewrite E2. reflexivity.
    + apply String.compare_eq_iff in E2. subst. rewrite E1. reflexivity.
    + rewrite (string_lt_trans _ _ _ E1 E2). reflexivity.
Qed.
Lemma format_ints_full labels : exists m inv names, format_ints labels = (m, inv) /\ inv = combine (seq 0 (length names)) names /\
    increasing Z.leb names /\ (forall x, In x names <-> occurs labels x) /\
    Forall2 (Forall2 (fun o c => match o with None => c = None | Some x => exists k, c = Some (New k) /\ nth_error names k = Some x end)) labels m.
Proof. apply (format_full Z.leb Z_order). auto. Qed.
Lemma format_strings_full labels : ~ occurs labels "nan"%string -> exists m inv names, format_strings labels = (m, inv) /\ inv = combine (seq 0 (length names)) names /\
    increasing String.leb names /\ (forall x, In x names <-> occurs labels x) /\
    Forall2 (Forall2 (fun o c => match o with None => c = None | Some x => exists k, c = Some (New k) /\ nth_error names k = Some x end)) labels m.
Proof.
  intros H. apply (format_full String.leb string_order). intros x Hx. split; [|reflexivity]. apply String.eqb_neq. intros ->. contradiction.
Qed.

Lemma accepted_full t M pp allow : (forall r, In r t -> length r = M) ->
  (assert_valid_multiannotator t M pp allow = Ok tt <->
   t <> [] /\ (forall r, In r t -> exists k, In (Some k) r) /\ every_annotator_used M t /\ (allow = true \/ has_overlap t) /\
   (forall n K, pp = Some (n, K) -> n = length t /\ forall r k, In r t -> In (Some k) r -> k < K)) /\
  (assert_valid_multiannotator t M pp allow = Ok tt \/ assert_valid_multiannotator t M pp allow = Raise ValueError).
Proof.
  intros W. unfold assert_valid_multiannotator. split.
  - split.
    + intros H.
      destruct (existsb (fun r => negb (existsb present r)) t) eqn:E1; [discriminate|].
      destruct (existsb _ (seq 0 M)) eqn:E2; [discriminate|].
      destruct (negb allow && (M <=? 1))%bool eqn:E3; [discriminate|].
      destruct (negb allow && forallb _ t)%bool eqn:E4; [discriminate|].
      destruct (all_given t) as [|l ls] eqn:E5; [discriminate|].
      assert (S : forall r, In r t -> exists k, In (Some k) r).
      { intros r Hr. destruct (existsb present r) eqn:E.
        - apply existsb_exists in E as (o & Ho & Hp). apply present_some in Hp as (k & ->). eauto.
        - exfalso. assert (existsb (fun r => negb (existsb present r)) t = true); [|congruence]. apply existsb_exists. exists r. rewrite E. auto. }
      split; [intros ->; discriminate|]. split; [exact S|]. split; [|split].
      * intros j Hj. destruct (existsb (fun r => present (nth j r None)) t) eqn:E.
        -- apply existsb_exists in E as (r & Hr & Hp). apply present_some in Hp as (k & Hk). eauto.
        -- exfalso. assert (existsb (fun j => negb (existsb (fun r => present (nth j r None)) t)) (seq 0 M) = true); [|congruence].
           apply existsb_exists. exists j. rewrite E. split; auto. apply in_seq; lia.
      * destruct allow; [left; reflexivity|right]. simpl in E4. assert (Hx : exists r, In r t /\ num_annotations r <> 1).
        { clear -E4. induction t as [|r t IH]; [discriminate|]. simpl in E4. apply andb_false_iff in E4 as [E|E].
          - exists r. split; [left; auto|]. apply Nat.eqb_neq; auto.
          - destruct (IH E) as (r' & Hr & Hn). exists r'. split; [right|]; auto. }
        destruct Hx as (r & Hr & Hn). pose proof (num_pos r (S r Hr)). assert (H2 : 2 <= num_annotations r) by lia.
        apply num_two in H2 as (i & j & Hij & Hi & Hj). exists r, i, j. auto.
      * intros n K ->. destruct (negb (n =? length t)) eqn:E6; [discriminate|]. destruct (K <? nmax (l :: ls) + 1) eqn:E7; [discriminate|].
        apply negb_false_iff, Nat.eqb_eq in E6. split; [exact E6|]. intros r k Hr Hk. apply Nat.ltb_ge in E7. rewrite <- E5 in E7.
        assert (In k (all_given t)) by (apply in_all_given; eauto). apply nmax_ge in H0. lia.
    + intros (NE & S & U & OV & PP).
      assert (E1 : existsb (fun r => negb (existsb present r)) t = false).
      { apply not_true_is_false. intros E. apply existsb_exists in E as (r' & Hr' & E). apply negb_true_iff in E.
        destruct (S r' Hr') as (k & Hk). assert (existsb present r' = true); [|congruence]. apply existsb_exists. exists (Some k). auto. }
      assert (E2 : existsb (fun j => negb (existsb (fun r => present (nth j r None)) t)) (seq 0 M) = false).
      { apply not_true_is_false. intros E. apply existsb_exists in E as (j' & Hj' & E). apply negb_true_iff in E. apply in_seq in Hj'.
        destruct (U j') as (r' & k & Hr' & Hk); [lia|]. assert (existsb (fun r => present (nth j' r None)) t = true); [|congruence].
        apply existsb_exists. exists r'. rewrite Hk. auto. }
      rewrite E1, E2. assert (E34 : (negb allow && (M <=? 1))%bool = false /\ (negb allow && forallb (fun r => Nat.eqb (num_annotations r) 1) t)%bool = false).
      { destruct allow; [auto|]. destruct OV as [C|(r & i & j & Hr & Hij & Hi & Hj)]; [discriminate|]. simpl.
        assert (HM : forall a, annotators_of r a -> a < M).
        { intros a (k & Hk). rewrite <- (W r Hr). destruct (le_lt_dec (length r) a); auto. rewrite nth_overflow in Hk by auto. discriminate. }
        split; [apply Nat.leb_gt; apply HM in Hi, Hj; lia|].
        apply not_true_is_false. intros E. rewrite forallb_forall in E. pose proof (E r Hr) as E'. apply Nat.eqb_eq in E'.
        assert (2 <= num_annotations r) by (apply num_two; exists i, j; auto). lia. }
      destruct E34 as (-> & ->). destruct (all_given t) as [|l ls] eqn:E5.
      { exfalso. destruct t as [|r t']; [congruence|]. destruct (S r (or_introl eq_refl)) as (k & Hk). assert (In k (all_given (r :: t'))); [|rewrite E5 in *; auto].
        apply in_all_given. exists r. split; [left; auto|auto]. }
      destruct pp as [[n K]|]; [|reflexivity]. destruct (PP n K eq_refl) as (-> & C). rewrite Nat.eqb_refl. simpl negb.
      destruct (Nat.ltb_spec K (nmax (l :: ls) + 1)); [|reflexivity]. exfalso.
      assert (I : In (nmax (l :: ls)) (all_given t)). { rewrite E5. apply nmax_in. discriminate. }
      apply in_all_given in I. destruct I as (r & Hr & Hk). pose proof (C _ _ Hr Hk). lia.
  - repeat match goal with |- context [if ?b then _ else _] => destruct b; auto | |- context [match ?x with _ => _ end] => destruct x; auto end.
Qed.
