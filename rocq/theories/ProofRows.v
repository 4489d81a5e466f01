(** * Lemmas about reordering the examples of multi-annotator data *)
From Coq Require Import QArith Qabs List ZArith Bool Arith Lia Lqa Permutation.
From Verif Require Import Base BaseFacts ModelUtil ModelCount ModelRank ModelMultiannotator SpecCount SpecRank SpecMultiannotator SpecSymmetry SpecRows
  ProofUtil ProofCount ProofRank ProofSymmetry ProofMultiannotator ProofReorder.
Import ListNotations.
Open Scope Q_scope.

(** ** Lists *)
Lemma pick_perm {A} (d : A) order l : Permutation order (seq 0 (length l)) -> Permutation (pick d order l) l.
Proof.
  intros H. rewrite <- (pick_seq d l) at 2. unfold pick. apply Permutation_map. exact H.
Qed.
Lemma pick_combine {A B} (da : A) (db : B) order a b : length a = length b ->
  combine (pick da order a) (pick db order b) = pick (da, db) order (combine a b).
Proof.
  intros L. unfold pick. induction order as [|i o IH]; [reflexivity|]. cbn [map combine]. rewrite combine_nth by auto. now rewrite IH.
Qed.
Lemma perm_filter {A} (f : A -> bool) l l' : Permutation l l' -> Permutation (filter f l) (filter f l').
Proof.
  induction 1; cbn [filter]; auto.
  - destruct (f x); auto.
  - destruct (f x), (f y); auto. apply perm_swap.
  - eapply perm_trans; eauto.
Qed.
Lemma select_filter {A} m (l : list A) : select m l = map snd (filter fst (combine m l)).
Proof.
  reflexivity.
Qed.
Lemma select_perm {A} (d : A) order m l : length m = length l -> Permutation order (seq 0 (length l)) ->
  Permutation (select (pick false order m) (pick d order l)) (select m l).
Proof.
  intros L H. rewrite !select_filter. apply Permutation_map, perm_filter. rewrite pick_combine by auto.
  apply pick_perm. rewrite combine_length, L, Nat.min_id. exact H.
Qed.
Lemma count_perm k l l' : Permutation l l' -> count k l = count k l'.
Proof. intros H. unfold count. apply (proj1 (Permutation_count_occ Nat.eq_dec l l') H). Qed.
Lemma F2_nth_eq (a b : list Q) : length a = length b -> (forall i, (i < length a)%nat -> nth i a 0 == nth i b 0) -> Forall2 Qeq a b.
Proof.
  revert b. induction a as [|x a IH]; intros [|y b] Hl Hn; try discriminate; constructor.
  - apply (Hn 0%nat). simpl; lia.
  - apply IH; [simpl in Hl; lia|]. intros i Hi. apply (Hn (S i)). simpl; lia.
Qed.
Lemma F2_rows (a b : list (list Q)) : length a = length b -> (forall i, (i < length a)%nat -> Forall2 Qeq (nth i a []) (nth i b [])) -> same_rows a b.
Proof.
  revert b. induction a as [|x a IH]; intros [|y b] Hl Hn; try discriminate; constructor.
  - apply (Hn 0%nat). simpl; lia.
  - apply IH; [simpl in Hl; lia|]. intros i Hi. apply (Hn (S i)). simpl; lia.
Qed.
Lemma F2_nth_Q (a b : list Q) : Forall2 Qeq a b -> forall i, nth i a 0 == nth i b 0.
Proof. induction 1; intros [|i]; simpl; auto; reflexivity. Qed.
Lemma qmean_F2 a b : Forall2 Qeq a b -> qmean a == qmean b.
Proof. intros H. unfold qmean. rewrite (qsum_Forall2 _ _ H), (F2_len _ _ _ H). reflexivity. Qed.

Lemma unique_ext l l' : (forall x, In x l <-> In x l') -> unique l = unique l'.
Proof.
  intros H. unfold unique. rewrite (nmax_ext _ _ H). apply filter_ext. intros v. apply eq_true_iff_eq. rewrite !mem_iff. apply H.
Qed.

(** equal optional numbers *)
Definition ol (o o' : option (list Q)) : Prop :=
  match o, o' with Some a, Some b => Forall2 Qeq a b | None, None => True | _, _ => False end.
Lemma known_oq l l' : Forall2 same_value l l' -> Forall2 Qeq (known l) (known l').
Proof.
  unfold known. induction 1 as [|a b l l' Hab _ IH]; [constructor|]. cbn [flat_map].
  destruct a, b; cbn in Hab; try contradiction; cbn [app]; auto.
Qed.
Lemma impute_oq l l' : Forall2 same_value l l' -> ol (impute l) (impute l').
Proof.
  intros H. pose proof (known_oq _ _ H) as HK. unfold impute. pose proof (qmean_F2 _ _ HK) as HM.
  destruct HK as [|a b k k' Hab HK]; [exact I|]. cbn [ol]. set (m := qmean (a :: k)) in *. set (m' := qmean (b :: k')) in *.
  clearbody m m'. clear HK. induction H as [|o o' l l' Ho _ IH]; [constructor|]. cbn [map]. constructor; auto.
  destruct o, o'; cbn in Ho; try contradiction; auto.
Qed.
Lemma tab_F2 {A} (R : A -> A -> Prop) n f g : (forall i, (i < n)%nat -> R (f i) (g i)) -> Forall2 R (tab n f) (tab n g).
Proof.
  intros H. unfold tab. apply F2_map_same. intros i Hi. apply in_seq in Hi. apply H. lia.
Qed.
Lemma keep_min_ext s s' c : (forall k, In k c -> s k == s' k) -> keep_min s c = keep_min s' c.
Proof.
  intros H. unfold keep_min. apply filter_ext_in. intros k Hk.
  assert (E : qminimum (map s c) == qminimum (map s' c)).
  { assert (Hn : forall f : nat -> Q, map f c <> []) by (intros f; destruct c; [destruct Hk|discriminate]).
    apply Qle_antisym.
    - destruct (proj1 (in_map_iff _ _ _) (qminimum_in _ (Hn s'))) as (x & <- & Hx). rewrite <- (H x Hx). apply qminimum_le, in_map; auto.
    - destruct (proj1 (in_map_iff _ _ _) (qminimum_in _ (Hn s))) as (x & <- & Hx). rewrite (H x Hx). apply qminimum_le, in_map; auto. }
  destruct (Qeq_bool (s k) _) eqn:E1.
  - symmetry. apply Qeq_bool_iff. apply Qeq_bool_iff in E1. rewrite <- (H k Hk), E1. auto.
  - symmetry. apply not_true_is_false. intros E2. apply Qeq_bool_iff in E2. apply Qeq_bool_neq in E1. apply E1. rewrite (H k Hk), E2. symmetry; auto.
Qed.
Lemma waverage_perm {A} (f g : A -> Q) l l' : Permutation l l' -> waverage (map f l) (map g l) == waverage (map f l') (map g l').
Proof.
  intros H. unfold waverage.
  assert (E : forall m, combine (map f m) (map g m) = map (fun a => (f a, g a)) m) by (induction m as [|a m IH]; cbn; [auto|now rewrite IH]).
  rewrite !E, !map_map. rewrite (qsum_perm _ _ (Permutation_map _ H)), (qsum_perm _ _ (Permutation_map g H)). reflexivity.
Qed.

Section Rows.
Variables (t : table) (order : list nat) (M : nat).
Hypothesis Ho : Permutation order (seq 0 (length t)).
Notation t' := (pick [] order t).
Notation at_ := (fun i => nth i order 0%nat).

Lemma o_len : length order = length t.
Proof. rewrite (Permutation_length Ho). apply seq_length. Qed.
Lemma o_lt i : In i order -> (i < length t)%nat.
Proof. intros H. apply (proj1 (order_in _ _ Ho i)). auto. Qed.
Lemma at_lt i : (i < length t)%nat -> (at_ i < length t)%nat.
Proof. intros H. apply o_lt, nth_In. rewrite o_len. auto. Qed.
Lemma t'_len : length t' = length t.
Proof. rewrite pick_length. apply o_len. Qed.
Lemma t'_nth i : (i < length t)%nat -> nth i t' [] = nth (at_ i) t [].
Proof. intros H. apply pick_nth. rewrite o_len. auto. Qed.
Lemma t'_perm : Permutation t' t.
Proof. apply pick_perm. exact Ho. Qed.
Lemma t'_in r : In r t' <-> In r t.
Proof. split; apply Permutation_in; [|symmetry]; apply t'_perm. Qed.

(** ** Majority vote *)
Lemma given_rows : Permutation (all_given t') (all_given t).
Proof. unfold all_given. apply Permutation_flat_map, t'_perm. Qed.
Lemma given_in l : In l (all_given t') <-> In l (all_given t).
Proof. split; apply Permutation_in; [|symmetry]; apply given_rows. Qed.
Lemma freq_rows k : class_frequency t' k = class_frequency t k.
Proof. unfold class_frequency. f_equal. apply nsum_perm, Permutation_map, t'_perm. Qed.
Lemma nontied_rows K : ol (impute (agreement_nontied M (nontied_pairs K t'))) (impute (agreement_nontied M (nontied_pairs K t))).
Proof.
  apply impute_oq. unfold agreement_nontied. apply tab_F2. intros j _.
  assert (HP : Permutation (filter (fun p => present (nth j (fst p) None)) (nontied_pairs K t')) (filter (fun p => present (nth j (fst p) None)) (nontied_pairs K t))).
  { apply perm_filter. unfold nontied_pairs. apply Permutation_flat_map, t'_perm. }
  destruct (filter _ (nontied_pairs K t')) as [|a l] eqn:E1, (filter _ (nontied_pairs K t)) as [|b l'] eqn:E2; [exact I| | |].
  - apply Permutation_nil in HP. discriminate.
  - symmetry in HP. apply Permutation_nil in HP. discriminate.
  - cbn [same_value]. apply qmean_perm, Permutation_map. exact HP.
Qed.
Lemma agreeing_rows s s' r c : ol s s' -> keep_agreeing s r c = keep_agreeing s' r c.
Proof.
  intros H. unfold keep_agreeing. destruct s as [s|], s' as [s'|]; cbn in H; try contradiction; auto.
  apply keep_max_ext. intros k _. unfold label_score. apply qmean_F2. unfold take_idx. apply F2_map_same. intros j _. now apply F2_nth_Q.
Qed.
Lemma vote_rows K pp i r : (i < length t)%nat -> vote_of K M t' (option_map (pick [] order) pp) i r = vote_of K M t pp (at_ i) r.
Proof.
  intros Hi. unfold vote_of.
  rewrite (tiebreak_ext _ (keep_agreeing (impute (agreement_nontied M (nontied_pairs K t))) r)) by (intros c; apply agreeing_rows, nontied_rows).
  f_equal. rewrite (tiebreak_ext _ (keep_min (class_frequency t))) by (intros c; apply keep_min_ext_eq; intros; apply freq_rows). f_equal.
  destruct pp as [p|]; [|reflexivity]. cbn [option_map]. apply tiebreak_ext. intros c. apply keep_max_ext. intros k _.
  unfold mget. rewrite pick_nth by (rewrite o_len; auto). reflexivity.
Qed.
Lemma valid_rows pp flag : assert_valid_multiannotator t M pp flag = assert_valid_multiannotator t' M pp flag.
Proof.
  unfold assert_valid_multiannotator.
  rewrite (existsb_ext_in _ t' t t'_in).
  assert (E : forall l, existsb (fun j => negb (existsb (fun r => present (nth j r None)) t')) l = existsb (fun j => negb (existsb (fun r => present (nth j r None)) t)) l).
  { induction l as [|j l IH]; [reflexivity|]. cbn [existsb]. rewrite IH. f_equal. f_equal. apply existsb_ext_in, t'_in. }
  rewrite E.
  assert (F : forallb (fun r => Nat.eqb (num_annotations r) 1) t' = forallb (fun r => Nat.eqb (num_annotations r) 1) t).
  { apply eq_true_iff_eq. rewrite !forallb_forall. split; intros H r Hr; apply H, t'_in; auto. }
  rewrite F, t'_len. pose proof given_rows as HG. pose proof (nmax_ext _ _ given_in) as HN.
  repeat match goal with |- (if ?b then _ else _) = _ => destruct b; [reflexivity|] end.
  destruct (all_given t') as [|a l] eqn:E1, (all_given t) as [|b l'] eqn:E2.
  - reflexivity.
  - apply Permutation_nil in HG. discriminate.
  - symmetry in HG. apply Permutation_nil in HG. discriminate.
  - rewrite HN. reflexivity.
Qed.
Lemma vote_full rnd pp Kpp verbose mv : get_majority_vote_label rnd t M pp Kpp verbose = Ok mv ->
  get_majority_vote_label (fun i => rnd (at_ i)) t' M (option_map (pick [] order) pp) Kpp verbose = Ok (pick 0%nat order mv).
Proof.
  intros H. destruct (gmv_nth _ _ _ _ _ _ _ H) as [LM HN].
  assert (HV : (if verbose then assert_valid_multiannotator t' M (match option_map (pick [] order) pp with None => None | Some p => Some (length p, Kpp) end) false else Ok tt) = Ok tt).
  { unfold get_majority_vote_label in H. destruct verbose; [|reflexivity].
    destruct (assert_valid_multiannotator t M _ false) as [[]|] eqn:E; cbn [rbind] in H; [|discriminate].
    rewrite <- valid_rows. destruct pp as [p|]; cbn [option_map]; [|exact E]. rewrite pick_length, o_len.
    assert (Lp : length p = length t); [|rewrite <- Lp; exact E].
    unfold assert_valid_multiannotator in E.
    repeat match type of E with (if ?b then _ else _) = _ => destruct b; [discriminate|] end.
    destruct (all_given t); [discriminate|]. destruct (Nat.eqb_spec (length p) (length t)); [auto|discriminate]. }
  pose proof given_rows as HG. pose proof (nmax_ext _ _ given_in) as HX.
  pose proof (existsb_ext_in (fun l => Nat.leb (num_classes t pp Kpp) l) _ _ given_in) as HE.
  assert (HR : rmap (fun ir => draw (fun i => rnd (at_ i)) (fst ir) (vote_of (num_classes t pp Kpp) M t' (option_map (pick [] order) pp) (fst ir) (snd ir))) (combine (seq 0 (length t')) t') = Ok (pick 0%nat order mv)).
  { assert (G : forall l, (forall ir, In ir l -> (fst ir < length t)%nat /\ snd ir = nth (at_ (fst ir)) t []) ->
      rmap (fun ir => draw (fun i => rnd (at_ i)) (fst ir) (vote_of (num_classes t pp Kpp) M t' (option_map (pick [] order) pp) (fst ir) (snd ir))) l =
      Ok (map (fun ir => nth (at_ (fst ir)) mv 0%nat) l)).
    { induction l as [|[i r] l IH]; intros Hl; [reflexivity|]. cbn [rmap map fst snd]. destruct (Hl _ (or_introl eq_refl)) as [Hi Hr]. cbn [fst snd] in Hi, Hr.
      rewrite vote_rows by auto. subst r.
      assert (D : draw (fun i => rnd (at_ i)) i (vote_of (num_classes t pp Kpp) M t pp (at_ i) (nth (at_ i) t [])) = Ok (nth (at_ i) mv 0%nat)).
      { rewrite <- (HN (at_ i) (at_lt i Hi)). reflexivity. }
      cbn beta in D |- *. rewrite D. cbn [rbind]. rewrite IH by (intros ir Hir; apply Hl; right; auto). reflexivity. }
    rewrite G.
    - f_equal. transitivity (map (fun i => nth (at_ i) mv 0%nat) (map fst (combine (seq 0 (length t')) t'))); [rewrite map_map; reflexivity|].
      assert (EF : forall (A B : Type) (a : list A) (b : list B), length a = length b -> map fst (combine a b) = a).
      { intros A B a. induction a as [|x a IH]; intros [|y b] Hl; try discriminate; [reflexivity|]. cbn. f_equal. apply IH. simpl in Hl. lia. }
      rewrite EF by apply seq_length. rewrite t'_len, <- o_len. unfold pick. change (seq 0 (length order)) with (seq 0 (length order)).
      transitivity (map (fun e => nth e mv 0%nat) (pick 0%nat (seq 0 (length order)) order)); [unfold pick; rewrite map_map; reflexivity|]. rewrite pick_seq. reflexivity.
    - intros [i r] Hir. cbn [fst snd]. destruct (In_nth _ _ (0%nat, []) Hir) as (n & Hn & En). rewrite combine_length, seq_length, Nat.min_id in Hn.
      rewrite combine_nth in En by apply seq_length. rewrite seq_nth in En by auto. injection En as <- <-. rewrite t'_len in Hn. split; [auto|]. rewrite t'_nth by auto. reflexivity. }
  unfold get_majority_vote_label in H |- *. rewrite HV. cbn [rbind].
  match type of H with rbind ?x _ = _ => destruct x as [u|]; cbn [rbind] in H; [clear u|discriminate] end.
  unfold num_classes in HE, HR. change (labels_in t) with (all_given t) in *.
  destruct pp as [p|]; cbn [option_map] in *.
  - assert (H' : (if Nat.eqb Kpp 0 then Raise ValueError else if existsb (fun l => Nat.leb Kpp l) (all_given t) then Raise IndexError else Ok tt) = Ok tt).
    { destruct (Nat.eqb Kpp 0); [destruct (all_given t); discriminate|]. destruct (existsb _ (all_given t)); [discriminate|reflexivity]. }
    rewrite <- HE in H'. destruct (Nat.eqb Kpp 0); [discriminate|]. destruct (existsb _ (all_given t')) eqn:E; [discriminate|].
    destruct (all_given t'); rewrite ?E; exact HR.
  - destruct (all_given t) as [|b l'] eqn:E2; [discriminate|]. rewrite <- E2 in *.
    destruct (all_given t') as [|a l] eqn:E1; [apply Permutation_nil in HG; congruence|]. rewrite <- E1 in *. rewrite HX.
    destruct (Nat.eqb (nmax (all_given t) + 1) 0); [discriminate|]. rewrite HE. destruct (existsb _ (all_given t)); [discriminate|]. exact HR.
Qed.

(** ** CROWDLAB *)
Lemma pick_in_range {A B} (f : A -> B) d d' l : length l = length t -> map f (pick d order l) = pick d' order (map f l).
Proof. intros L. apply pick_map. intros i Hi. rewrite L. now apply o_lt. Qed.
Lemma multi_rows : multi t' = pick false order (multi t).
Proof. unfold multi. now apply pick_in_range. Qed.
Lemma agreement_rows c : length c = length t -> agreement_with_consensus t' (pick 0%nat order c) = pick 0 order (agreement_with_consensus t c).
Proof.
  intros L. unfold agreement_with_consensus. rewrite pick_combine by auto. apply pick_in_range. rewrite combine_length. lia.
Qed.
Lemma select_rows {A} (d : A) l : length l = length t -> Permutation (select (multi t') (pick d order l)) (select (multi t) l).
Proof. intros L. rewrite multi_rows. apply select_perm; [rewrite multi_length; auto|]. rewrite L. exact Ho. Qed.
Lemma likelihood_rows c : length c = length t -> consensus_likelihood t' (pick 0%nat order c) == consensus_likelihood t c.
Proof.
  intros L. unfold consensus_likelihood. apply qmean_perm. rewrite agreement_rows by auto. apply select_rows.
  unfold agreement_with_consensus. rewrite map_length, combine_length. lia.
Qed.
Lemma class_error_rows c K : length c = length t -> most_likely_class_error t' (pick 0%nat order c) K == most_likely_class_error t c K.
Proof.
  intros L. unfold most_likely_class_error. cbv zeta. pose proof (select_rows 0%nat c L) as HP.
  rewrite (tab_ext K (fun k => Qnat (count k (select (multi t') (pick 0%nat order c)))) (fun k => Qnat (count k (select (multi t) c))))
    by (intros k _; rewrite (count_perm k _ _ HP); reflexivity).
  apply clip_lo_Proper; [reflexivity|]. apply qmean_perm, Permutation_map, HP.
Qed.
Lemma single_rows j : same_value (single_annotator_agreement t' j) (single_annotator_agreement t j).
Proof.
  unfold single_annotator_agreement. cbv zeta. pose proof (perm_filter (fun r => present (nth j r None)) _ _ t'_perm) as HP.
  set (a := filter _ t') in *. set (b := filter _ t) in *.
  pose proof (qsum_perm _ _ (Permutation_map (fun r => Qnat (num_annotations r - 1)) HP)) as HS.
  destruct (Qeq_bool (qsum (map _ a)) 0) eqn:E1, (Qeq_bool (qsum (map _ b)) 0) eqn:E2; [exact I| | |].
  - apply Qeq_bool_iff in E1. apply Qeq_bool_neq in E2. apply E2. rewrite <- HS. exact E1.
  - apply Qeq_bool_iff in E2. apply Qeq_bool_neq in E1. apply E1. rewrite HS. exact E2.
  - cbn [same_value]. now apply waverage_perm.
Qed.
Lemma annotators_rows : ol (agreement_with_annotators t' M) (agreement_with_annotators t M).
Proof. apply impute_oq, tab_F2. intros j _. apply single_rows. Qed.
Lemma adjusted_F2 e e' a a' : e == e' -> Forall2 Qeq a a' -> Forall2 Qeq (adjusted_agreement e a) (adjusted_agreement e' a').
Proof.
  intros He. unfold adjusted_agreement. induction 1 as [|x y a a' Hxy _ IH]; cbn [map]; constructor; auto.
  apply clip_lo_Proper; [reflexivity|]. rewrite Hxy, He. reflexivity.
Qed.
Lemma model_weight_rows fsqrt c e e' p : (forall x y, x == y -> fsqrt x == fsqrt y) -> e == e' -> length c = length t -> length p = length t ->
  model_weight fsqrt t' (pick 0%nat order c) e (pick [] order p) == model_weight fsqrt t c e' p.
Proof.
  intros Hf He Lc Lp. unfold model_weight. cbv zeta. rewrite !select_filter.
  assert (E : forall (m : list bool) (a : list (list Q)) (b : list nat), length a = length m -> length b = length m ->
     combine (map snd (filter fst (combine m a))) (map snd (filter fst (combine m b))) = map snd (filter fst (combine m (combine a b)))).
  { intros m. induction m as [|x m IH]; intros [|u a] [|v b] La Lb; try discriminate; [reflexivity|]. cbn [combine filter fst].
    simpl in La, Lb. destruct x; cbn [map snd combine]; rewrite IH by lia; reflexivity. }
  assert (Lm : length (multi t') = length t) by (rewrite multi_length; apply t'_len).
  rewrite !E by (rewrite ?multi_length, ?pick_length, ?o_len; auto using t'_len). rewrite <- !select_filter, pick_combine by congruence.
  assert (HP : Permutation (select (multi t') (pick ([], 0%nat) order (combine p c))) (select (multi t) (combine p c))).
  { apply select_rows. rewrite combine_length. lia. }
  rewrite (qmean_perm _ _ (Permutation_map _ HP)), He.
  assert (HS : fsqrt (qmean (map (fun r => Qnat (num_annotations r)) t')) == fsqrt (qmean (map (fun r => Qnat (num_annotations r)) t))).
  { apply Hf, qmean_perm, Permutation_map, t'_perm. }
  rewrite HS. reflexivity.
Qed.
Lemma posterior_F2 K cl cl' mws mws' aw aw' priors r : cl == cl' -> Forall2 Qeq mws mws' -> Forall2 Qeq aw aw' ->
  Forall2 Qeq (posterior_row K cl (non_consensus_likelihood K cl) mws aw priors r) (posterior_row K cl' (non_consensus_likelihood K cl') mws' aw' priors r).
Proof.
  intros Hc Hm Ha. unfold posterior_row. apply tab_F2. intros k _.
  assert (E1 : qsum (map (fun mp : Q * list Q => fst mp * nth k (snd mp) 0) (combine mws priors)) == qsum (map (fun mp : Q * list Q => fst mp * nth k (snd mp) 0) (combine mws' priors))).
  { apply qsum_Forall2. clear -Hm. revert priors. induction Hm as [|x y a b Hxy _ IH]; intros [|p ps]; cbn [combine map]; constructor; auto. cbn [fst snd]. rewrite Hxy. reflexivity. }
  assert (E2 : qsum (map (vote_weight cl (non_consensus_likelihood K cl) k) (combine aw r)) == qsum (map (vote_weight cl' (non_consensus_likelihood K cl') k) (combine aw' r))).
  { apply qsum_Forall2. revert r. clear -Ha Hc. induction Ha as [|x y a b Hxy _ IH]; intros [|o r]; cbn [combine map]; constructor; auto.
    unfold vote_weight, non_consensus_likelihood. cbn [fst snd]. destruct o as [l|]; [|reflexivity]. destruct (Nat.eqb l k); rewrite Hxy, Hc; reflexivity. }
  assert (E3 : annotation_weight aw r == annotation_weight aw' r).
  { unfold annotation_weight. apply qsum_Forall2. clear E1 E2. revert r. clear -Ha. induction Ha as [|x y a b Hxy _ IH]; intros [|o r]; cbn [combine map]; constructor; auto.
    cbn [fst snd]. destruct (present o); auto. reflexivity. }
  rewrite E1, E2, E3, (qsum_Forall2 _ _ Hm). reflexivity.
Qed.
(** the posterior of the reordered data *)
Definition same_post (P' P : posterior) : Prop :=
  same_rows (post P') (pick [] order (post P)) /\ Forall2 Qeq (model_weights P') (model_weights P) /\ Forall2 Qeq (annot_weights P') (annot_weights P).
Lemma crowdlab_rows fsqrt K c priors P : (forall x y, x == y -> fsqrt x == fsqrt y) -> length c = length t -> (forall p, In p priors -> length p = length t) ->
  crowdlab fsqrt t M K c priors = Ok P ->
  exists P', crowdlab fsqrt t' M K (pick 0%nat order c) (map (pick [] order) priors) = Ok P' /\ same_post P' P.
Proof.
  intros Hf Lc Lp H. unfold crowdlab in *. pose proof annotators_rows as HA.
  destruct (agreement_with_annotators t M) as [a|]; [|discriminate]. destruct (agreement_with_annotators t' M) as [a'|]; cbn in HA; [|contradiction].
  injection H as <-. eexists. split; [reflexivity|].
  assert (Hm : Forall2 Qeq (map (model_weight fsqrt t' (pick 0%nat order c) (most_likely_class_error t' (pick 0%nat order c) K)) (map (pick [] order) priors))
    (map (model_weight fsqrt t c (most_likely_class_error t c K)) priors)).
  { rewrite map_map. apply F2_map_same. intros p Hp. apply model_weight_rows; auto. now apply class_error_rows. }
  pose proof (adjusted_F2 _ _ _ _ (class_error_rows c K Lc) HA) as Hw.
  split; [|split; [exact Hm|exact Hw]]. cbn [post model_weights annot_weights] in *. apply F2_rows.
  { rewrite map_length, combine_length, seq_length, Nat.min_id, !pick_length. reflexivity. }
  intros i Hi. rewrite map_length, combine_length, seq_length, Nat.min_id, t'_len in Hi.
  rewrite pick_nth by (rewrite o_len; auto).
  rewrite !(nth_map_gen _ _ _ _ (0%nat, [])) by (rewrite combine_length, seq_length, Nat.min_id, ?t'_len; auto using at_lt).
  rewrite !combine_nth by apply seq_length. rewrite !seq_nth by (rewrite ?t'_len; auto using at_lt). cbn [fst snd Nat.add]. rewrite t'_nth by auto.
  assert (EP : map (fun p => nth i p []) (map (pick [] order) priors) = map (fun p : list (list Q) => nth (at_ i) p []) priors).
  { rewrite map_map. apply map_ext. intros p. apply pick_nth. rewrite o_len; auto. }
  rewrite EP.
  apply posterior_F2; auto. now apply likelihood_rows.
Qed.

(** ** Consensus *)
Lemma annotations_rows K : annotations M K t -> annotations M K t'.
Proof. intros [A B C]. split; [intros r Hr|intros r Hr|intros r k Hr]; apply (proj1 (t'_in r)) in Hr; eauto. Qed.
Lemma overlap_rows : has_overlap t -> has_overlap t'.
Proof. intros (r & i & j & Hr & H). exists r, i, j. split; [apply (proj2 (t'_in r)); auto|auto]. Qed.
Lemma distributions_rows K p : distributions (length t) K p -> distributions (length t') K (pick [] order p).
Proof.
  intros [L D]. split; [rewrite !pick_length; auto|]. intros rw Hr. apply D. eapply Permutation_in; [|exact Hr]. apply pick_perm. rewrite L. exact Ho.
Qed.
Definition same_consensus (i' i : consensus_info) : Prop :=
  c_label i' = pick 0%nat order (c_label i) /\ Forall2 Qeq (c_quality i') (pick 0 order (c_quality i)) /\
  c_agreement i' = pick 0 order (c_agreement i) /\ same_post (c_post i') (c_post i).
Lemma pick_lt K c : (forall k, In k c -> (k < K)%nat) -> length c = length t -> forall k, In k (pick 0%nat order c) -> (k < K)%nat.
Proof. intros H L k Hk. apply H. eapply Permutation_in; [|exact Hk]. apply pick_perm. rewrite L. exact Ho. Qed.
Lemma stats_rows fsqrt K priors c info : annotations M K t -> has_overlap t -> (2 <= K)%nat -> length c = length t -> (forall k, In k c -> (k < K)%nat) -> priors <> [] ->
  (forall q, In q priors -> distributions (length t) K q) -> (forall x, 0 < x -> 0 < fsqrt x) -> (forall x y, x == y -> fsqrt x == fsqrt y) ->
  consensus_stats fsqrt t M K priors c = Ok info ->
  exists info', consensus_stats fsqrt t' M K (map (pick [] order) priors) (pick 0%nat order c) = Ok info' /\ same_consensus info' info.
Proof.
  intros HA HO HK Lc Hc Hne HD Hs Hf H.
  assert (HD' : forall q, In q (map (pick [] order) priors) -> distributions (length t') K q).
  { intros q Hq. apply in_map_iff in Hq as (p & <- & Hp). apply distributions_rows. auto. }
  assert (Lc' : length (pick 0%nat order c) = length t') by (rewrite !pick_length; auto).
  assert (Hne' : map (pick [] order) priors <> []) by (destruct priors; [congruence|discriminate]).
  destruct (consensus_stats_ok fsqrt t M K c priors HA HO HK Lc Hc Hne HD Hs) as (i1 & E1 & G1 & L1).
  rewrite E1 in H. assert (info = i1) by congruence. subst info. clear H.
  destruct (consensus_stats_ok fsqrt t' M K (pick 0%nat order c) (map (pick [] order) priors) (annotations_rows K HA) (overlap_rows HO) HK Lc' (pick_lt K c Hc Lc) Hne' HD' Hs) as (i2 & E2 & G2 & L2).
  exists i2. split; auto.
  destruct (crowdlab_rows fsqrt K c priors (c_post i1) Hf Lc) as (P' & EP' & SP); [intros p Hp; apply HD; auto|apply (stats_crowdlab _ _ _ _ _ _ _ E1)|].
  pose proof (stats_crowdlab _ _ _ _ _ _ _ E2) as EP2. rewrite EP' in EP2. assert (P' = c_post i2) by congruence. subst P'.
  assert (A1 : c_agreement i1 = agreement_with_consensus t c /\ c_agreement i2 = agreement_with_consensus t' (pick 0%nat order c)).
  { unfold consensus_stats in E1, E2. split.
    - destruct (crowdlab fsqrt t M K c priors); [|discriminate]. cbn [rbind] in E1. destruct (get_label_quality_scores _ _ _ _ _); [|discriminate]. cbn [rbind] in E1. injection E1 as <-. reflexivity.
    - rewrite EP' in E2. cbn [rbind] in E2. destruct (get_label_quality_scores _ _ _ _ _); [|discriminate]. cbn [rbind] in E2. injection E2 as <-. reflexivity. }
  destruct A1 as [A1 A2].
  split; [congruence|]. split; [|split; [rewrite A1, A2; now apply agreement_rows|exact SP]].
  destruct G1 as (_ & _ & Q1 & _ & _ & _ & D1 & _ & _ & _ & _ & N1). destruct G2 as (_ & _ & Q2 & _ & _ & _ & D2 & _ & _ & _ & _ & N2).
  apply F2_nth_eq; [rewrite Q2, !pick_length; auto|]. intros i Hi. rewrite Q2 in Hi. rewrite N2 by auto. rewrite t'_len in Hi.
  rewrite pick_nth by (rewrite o_len; auto). rewrite N1 by (now apply at_lt). rewrite L1, L2. rewrite pick_nth by (rewrite o_len; auto).
  unfold mget. destruct SP as [SP _]. pose proof (F2_nth _ _ _ SP i [] []) as HR. cbn beta in HR. rewrite pick_nth in HR by (rewrite o_len; auto). apply F2_nth_Q, HR.
  destruct D2 as [D2 _]. rewrite D2, t'_len. auto.
Qed.
Lemma best_rows p p' mv : length p = length t -> length mv = length t -> same_rows p' (pick [] order p) ->
  best_quality_label p' (pick 0%nat order mv) = pick 0%nat order (best_quality_label p mv).
Proof.
  intros Lp Lm H. rewrite (best_label_ext (pick [] order p) p' _ H). unfold best_quality_label. rewrite pick_combine by congruence.
  apply pick_in_range. rewrite combine_length. lia.
Qed.
Lemma core_full fsqrt rnd K priors vp method info : (forall r, In r t -> length r = M) -> (2 <= K)%nat -> priors <> [] ->
  (forall q, In q priors -> distributions (length t) K q) -> (forall x, 0 < x -> 0 < fsqrt x) -> (forall x y, x == y -> fsqrt x == fsqrt y) ->
  label_quality_core fsqrt rnd t M K priors vp method = Ok info ->
  exists info', label_quality_core fsqrt (fun i => rnd (at_ i)) t' M K (map (pick [] order) priors) (pick [] order vp) method = Ok info' /\ same_consensus info' info.
Proof.
  intros HW HK Hne HD Hs Hf H.
  destruct (label_quality_inv fsqrt rnd t M K priors vp method info HW HK Hne HD Hs H) as (HA & HO & (GL & GC & _) & mv & minfo & EM & EI & EL & EC).
  pose proof H as H0. unfold label_quality_core in H0 |- *.
  destruct (assert_valid_multiannotator t M (Some (length vp, K)) false) as [[]|] eqn:EV; [|discriminate].
  destruct (valid_inv t M (length vp) K HW EV) as (Lv & _). rewrite pick_length, o_len, <- Lv, <- valid_rows, EV. cbn [rbind]. clear H0.
  pose proof (vote_full rnd (Some vp) K false mv EM) as EM'. cbn [option_map] in EM'. cbn beta in EM' |- *. rewrite EM'. cbn [rbind].
  destruct (mv_lt _ _ _ _ _ _ EM HW) as [LM BM]; [apply HA|].
  destruct (stats_rows fsqrt K priors mv minfo HA HO HK LM BM Hne HD Hs Hf EI) as (mi' & E' & Smi). rewrite E'. cbn [rbind].
  destruct method.
  - rewrite EL in EC. rewrite EI in EC. injection EC as <-. exists mi'. auto.
  - destruct Smi as (_ & _ & _ & Sp & _).
    destruct (consensus_stats_ok fsqrt t M K mv priors HA HO HK LM BM Hne HD Hs) as (i1 & E1 & G1 & _). rewrite E1 in EI. assert (i1 = minfo) by congruence. subst i1.
    destruct G1 as (_ & _ & _ & _ & _ & _ & [D1 _] & _).
    rewrite (best_rows (post (c_post minfo)) _ mv D1 LM Sp). rewrite <- EL. apply stats_rows; auto.
Qed.

(** ** Annotator statistics *)
Lemma select_combine {A B} (m : list bool) (a : list A) (b : list B) : length a = length m -> length b = length m ->
  combine (select m a) (select m b) = select m (combine a b).
Proof.
  rewrite !select_filter. revert a b. induction m as [|x m IH]; intros [|u a] [|v b] La Lb; try discriminate; [reflexivity|]. cbn [combine filter fst].
  simpl in La, Lb. destruct x; cbn [map snd combine]; rewrite IH by lia; reflexivity.
Qed.
Lemma mean_opt_perm l l' : Permutation l l' -> same_value (mean_opt l) (mean_opt l').
Proof.
  intros H. destruct l as [|a l], l' as [|b l']; cbn [mean_opt same_value]; [exact I| | |].
  - apply Permutation_nil in H. discriminate.
  - symmetry in H. apply Permutation_nil in H. discriminate.
  - now apply qmean_perm.
Qed.
Lemma mean_opt_F2 l l' : Forall2 Qeq l l' -> same_value (mean_opt l) (mean_opt l').
Proof. intros H. pose proof (qmean_F2 _ _ H). destruct H; cbn [mean_opt same_value]; auto. Qed.
Lemma oq_trans a b c : same_value a b -> same_value b c -> same_value a c.
Proof. destruct a, b, c; cbn; try tauto. apply Qeq_trans. Qed.
Lemma labelled_rows j c : length c = length t -> Permutation (labelled_by j t' (pick 0%nat order c)) (labelled_by j t c).
Proof.
  intros L. unfold labelled_by. apply Permutation_flat_map. rewrite pick_combine by auto. apply pick_perm. rewrite combine_length, L, Nat.min_id. exact Ho.
Qed.
Lemma quality_rows c pp pp' mw mw' aw aw' j : length c = length t -> length pp = length t -> same_rows pp' (pick [] order pp) -> mw == mw' -> Forall2 Qeq aw aw' ->
  same_value (annotator_quality t' (pick 0%nat order c) pp' mw aw j) (annotator_quality t c pp mw' aw' j).
Proof.
  intros Lc Lp HP Hm Hw. unfold annotator_quality. cbv zeta.
  set (g := fun rp : list (option nat) * list Q => match nth j (fst rp) None with Some l => [nth l (snd rp) 0] | None => [] end).
  assert (E1 : same_value (mean_opt (flat_map g (combine t' pp'))) (mean_opt (flat_map g (combine t pp)))).
  { apply oq_trans with (mean_opt (flat_map g (combine t' (pick [] order pp)))).
    - apply mean_opt_F2. revert HP. unfold same_rows. generalize t' (pick [] order pp). clear. intros u v HP. revert u. induction HP as [|a b v v' Hab _ IH]; intros [|r u]; cbn [combine flat_map]; try constructor.
      apply Forall2_app; [|apply IH]. unfold g. cbn [fst snd]. destruct (nth j r None); constructor; [|constructor]. now apply F2_nth_Q.
    - apply mean_opt_perm, Permutation_flat_map. rewrite pick_combine by auto. apply pick_perm. rewrite combine_length, Lp, Nat.min_id. exact Ho. }
  assert (E2 : same_value (annotator_agreement (select (multi t') t') (select (multi t') (pick 0%nat order c)) j) (annotator_agreement (select (multi t) t) (select (multi t) c) j)).
  { unfold annotator_agreement. apply mean_opt_perm, Permutation_map. unfold labelled_by. apply Permutation_flat_map.
    rewrite !select_combine by (rewrite multi_length, ?pick_length; auto). rewrite pick_combine by auto. apply select_rows. rewrite combine_length. lia. }
  assert (E3 : qmean (map (fun r => Qnat (num_annotations r)) t') == qmean (map (fun r => Qnat (num_annotations r)) t)) by (apply qmean_perm, Permutation_map, t'_perm).
  destruct (mean_opt (flat_map g (combine t' pp'))), (mean_opt (flat_map g (combine t pp))); cbn in E1; try contradiction; [|exact I].
  destruct (annotator_agreement (select (multi t') t') _ j), (annotator_agreement (select (multi t) t) _ j); cbn in E2; try contradiction; [|exact I].
  cbn [same_value]. rewrite E1, E2, E3, Hm, (qsum_Forall2 _ _ Hw), (F2_len _ _ _ Hw). reflexivity.
Qed.
Lemma pairs_quality j (u : table) c q : length c = length u -> length q = length u ->
  combine (labelled_by j u c) (labelled_quality j u q) =
  flat_map (fun x : list (option nat) * (nat * Q) => match nth j (fst x) None with Some l => [((l, fst (snd x)), snd (snd x))] | None => [] end) (combine u (combine c q)).
Proof.
  unfold labelled_by, labelled_quality. revert c q. induction u as [|r u IH]; intros [|x c] [|y q] Lc Lq; try discriminate; [reflexivity|]. simpl in Lc, Lq.
  cbn [combine flat_map fst snd]. destruct (nth j r None); cbn [present app combine]; rewrite IH by lia; reflexivity.
Qed.
Lemma class_quality_rows j c q q' k : length c = length t -> length q = length t -> Forall2 Qeq q' (pick 0 order q) ->
  class_quality (labelled_by j t' (pick 0%nat order c)) (labelled_quality j t' q') k == class_quality (labelled_by j t c) (labelled_quality j t q) k.
Proof.
  intros Lc Lq HQ. pose proof (F2_len _ _ _ HQ) as Lq'. rewrite pick_length in Lq'. unfold class_quality.
  rewrite !pairs_quality by (rewrite ?pick_length; auto).
  transitivity (qmean (map snd (filter (fun lq : nat * nat * Q => Nat.eqb (fst (fst lq)) k)
    (flat_map (fun x : list (option nat) * (nat * Q) => match nth j (fst x) None with Some l => [((l, fst (snd x)), snd (snd x))] | None => [] end)
       (combine t' (combine (pick 0%nat order c) (pick 0 order q))))))).
  - apply qmean_F2. revert HQ. generalize t' (pick 0%nat order c) (pick 0 order q). clear. intros u c v HQ. revert u c.
    induction HQ as [|a b v v' Hab _ IH]; intros [|r u] [|x c]; cbn [combine flat_map]; try constructor.
    rewrite !filter_app, !map_app. apply Forall2_app; [|apply IH]. cbn [fst snd]. destruct (nth j r None); cbn [filter fst snd]; [|constructor].
    destruct (Nat.eqb n k); cbn [map snd]; repeat constructor; auto.
  - apply qmean_perm, Permutation_map, perm_filter, Permutation_flat_map. rewrite pick_combine by congruence.
    rewrite (pick_combine [] (0%nat, 0)) by (rewrite combine_length; lia). apply pick_perm. rewrite !combine_length, Lc, Lq, !Nat.min_id. exact Ho.
Qed.
Lemma worst_ext pairs pairs' q q' : Permutation pairs' pairs -> (forall k, class_quality pairs' q' k == class_quality pairs q k) -> worst_class pairs' q' = worst_class pairs q.
Proof.
  intros HP HQ. unfold worst_class. cbv zeta.
  assert (EU : unique (map fst pairs') = unique (map fst pairs)).
  { apply unique_ext. intros x. split; apply Permutation_in; [|symmetry]; apply Permutation_map, HP. }
  rewrite EU. rewrite (keep_min_ext (class_accuracy pairs') (class_accuracy pairs)).
  2:{ intros k _. unfold class_accuracy. apply qmean_perm, Permutation_map, perm_filter, HP. }
  set (lowest := keep_min _ _). rewrite (keep_max_ext (fun k => Qnat (count k (map fst pairs'))) (fun k => Qnat (count k (map fst pairs)))).
  2:{ intros k _. rewrite (count_perm k _ _ (Permutation_map fst HP)). reflexivity. }
  set (frequent := keep_max _ lowest). rewrite (keep_max_ext (class_quality pairs' q') (class_quality pairs q)) by (intros k _; apply HQ). reflexivity.
Qed.
Definition same_stats (a b : annotator_row) : Prop :=
  same_value (st_quality a) (st_quality b) /\ same_value (st_agreement a) (st_agreement b) /\ st_worst a = st_worst b /\ st_num a = st_num b.
Lemma stats_full K n info info' j : good_info t M K n info -> same_consensus info' info -> same_stats (annotator_stats t' info' j) (annotator_stats t info j).
Proof.
  intros (GL & _ & GQ & _ & _ & _ & [GD _] & _) (EL & EQ & _ & EP & EM & EA). unfold annotator_stats, same_stats. cbn [st_quality st_agreement st_worst st_num].
  rewrite EL. split; [|split; [|split]].
  - apply quality_rows; auto. now apply qsum_Forall2.
  - unfold annotator_agreement. apply mean_opt_perm, Permutation_map. now apply labelled_rows.
  - apply worst_ext; [now apply labelled_rows|]. intros k. now apply class_quality_rows.
  - apply count_true_perm, Permutation_map, t'_perm.
Qed.
Lemma active_full fsqrt rnd K prior unl s u : (forall r, In r t -> length r = M) -> (2 <= K)%nat -> distributions (length t) K prior ->
  (forall x, 0 < x -> 0 < fsqrt x) -> (forall x y, x == y -> fsqrt x == fsqrt y) ->
  get_active_learning_scores fsqrt rnd t M K prior unl = Ok (s, u) ->
  exists s' u', get_active_learning_scores fsqrt (fun i => rnd (at_ i)) t' M K (pick [] order prior) unl = Ok (s', u') /\
    Forall2 Qeq s' (pick 0 order s) /\ Forall2 Qeq u' u.
Proof.
  intros HW HK HD Hs Hf H. unfold get_active_learning_scores in *.
  assert (F : forallb (fun r => Nat.eqb (num_annotations r) 1) t' = forallb (fun r => Nat.eqb (num_annotations r) 1) t).
  { apply eq_true_iff_eq. rewrite !forallb_forall. split; intros G r Hr; apply G, t'_in; auto. }
  rewrite F. 
  assert (G : forall q q' mw mw' aw aw', length q = length t -> Forall2 Qeq q' (pick 0 order q) -> mw' == mw -> Forall2 Qeq aw' aw ->
    s = map (fun qr => active_score K aw mw (qmean aw) (fst qr) (snd qr)) (combine q t) -> u = map (active_score_unlabeled K mw (qmean aw)) unl ->
    Forall2 Qeq (map (fun qr => active_score K aw' mw' (qmean aw') (fst qr) (snd qr)) (combine q' t')) (pick 0 order s) /\
    Forall2 Qeq (map (active_score_unlabeled K mw' (qmean aw')) unl) u).
  { intros q q' mw mw' aw aw' Lq HQ Hm Ha -> ->. pose proof (qmean_F2 _ _ Ha) as HA.
    assert (EW : forall r, annotation_weight aw' r == annotation_weight aw r).
    { intros r. unfold annotation_weight. apply qsum_Forall2. clear -Ha. revert r. induction Ha as [|x y a b Hxy _ IH]; intros [|o r]; cbn [combine map]; constructor; auto.
      cbn [fst snd]. destruct (present o); auto. reflexivity. }
    assert (ES : forall x y r, x == y -> active_score K aw' mw' (qmean aw') x r == active_score K aw mw (qmean aw) y r).
    { intros x y r Hxy. rewrite !active_formula. rewrite Hxy, EW, Hm, HA. reflexivity. }
    split.
    - rewrite <- (pick_in_range _ (0, [])) by (rewrite combine_length; lia). rewrite <- pick_combine by auto.
      revert HQ. generalize t' (pick 0 order q). clear - ES. intros u v HQ. revert u. induction HQ as [|a b v v' Hab _ IH]; intros [|r u]; cbn [combine map]; constructor; auto.
    - apply F2_map_same. intros x _. rewrite !unlabeled_formula. rewrite Hm, HA. reflexivity. }
  destruct (forallb (fun r => Nat.eqb (num_annotations r) 1) t) eqn:EF.
  - destruct (assert_valid_multiannotator t M _ true) as [[]|] eqn:EV; cbn [rbind] in H; [|discriminate].
    destruct (get_majority_vote_label rnd t M (Some prior) K false) as [c|] eqn:EC; cbn [rbind] in H; [|discriminate].
    pose proof HD as [LD DD].
    assert (S : forall r, In r t -> exists k, In (Some k) r).
    { rewrite forallb_forall in EF. intros r Hr. specialize (EF r Hr). apply Nat.eqb_eq in EF. rewrite num_given in EF. destruct (given r) as [|k l] eqn:E; [discriminate|]. exists k. apply in_given. rewrite E. left; auto. }
    destruct (mv_lt _ _ _ _ _ _ EC HW S) as [LC BC].
    assert (Htn : t <> []).
    { unfold assert_valid_multiannotator in EV. intros E. rewrite E in EV. simpl in EV. destruct (existsb _ (seq 0 M)); discriminate. }
    assert (Hcn : c <> []) by (intros E; rewrite E in LC; destruct t; [congruence|discriminate]).
    rewrite (valid_scores K) in H; auto; [|rewrite LC; auto]. cbn [rbind] in H.
    assert (Es : s = map (fun qr => active_score K (repeat 1 M) 1 (qmean (repeat 1 M)) (fst qr) (snd qr)) (combine (get_self_confidence c prior) t)) by congruence.
    assert (Eu : u = map (active_score_unlabeled K 1 (qmean (repeat 1 M))) unl) by congruence. clear H.
    rewrite <- valid_rows, pick_length, o_len, <- LD, EV. cbn [rbind].
    pose proof (vote_full rnd (Some prior) K false c EC) as EM'. cbn [option_map] in EM'. cbn beta in EM' |- *. rewrite EM'. cbn [rbind].
    rewrite (valid_scores K).
    2:{ rewrite pick_length, o_len, <- t'_len. apply distributions_rows. auto. }
    2:{ intros E. apply (f_equal (@length nat)) in E. rewrite pick_length, o_len in E. destruct t; [congruence|discriminate]. }
    2:{ apply pick_lt; auto. }
    cbn [rbind]. eexists. eexists. split; [reflexivity|].
    assert (Lq : length (get_self_confidence c prior) = length t) by (unfold get_self_confidence; rewrite map_length, combine_length; lia).
    apply (G (get_self_confidence c prior) _ 1 1 (repeat 1 M) (repeat 1 M)); auto; [|reflexivity|].
    + assert (E : get_self_confidence (pick 0%nat order c) (pick [] order prior) = pick 0 order (get_self_confidence c prior)).
      { unfold get_self_confidence. rewrite pick_combine by congruence. apply pick_in_range. rewrite combine_length. lia. }
      rewrite E. generalize (pick 0 order (get_self_confidence c prior)). intros l. induction l; constructor; auto. reflexivity.
    + generalize (repeat 1 M). intros l. induction l; constructor; auto. reflexivity.
  - destruct (get_label_quality_multiannotator fsqrt rnd t M K prior BestQuality) as [info|] eqn:EI; cbn [rbind] in H; [|discriminate].
    assert (Es : s = map (fun qr => active_score K (annot_weights (c_post info)) (qsum (model_weights (c_post info))) (qmean (annot_weights (c_post info))) (fst qr) (snd qr)) (combine (c_quality info) t)) by congruence.
    assert (Eu : u = map (active_score_unlabeled K (qsum (model_weights (c_post info))) (qmean (annot_weights (c_post info)))) unl) by congruence. clear H.
    unfold get_label_quality_multiannotator in *.
    assert (HDp : forall p, In p [prior] -> distributions (length t) K p) by (intros p [<-|[]]; auto).
    assert (Hne : [prior] <> []) by discriminate.
    destruct (label_quality_inv fsqrt rnd t M K [prior] prior BestQuality info HW HK Hne HDp Hs EI) as (_ & _ & (_ & _ & GQ & _) & _).
    destruct (core_full fsqrt rnd K [prior] prior BestQuality info HW HK Hne HDp Hs Hf EI) as (info' & E' & (_ & EQ & _ & _ & EM & EA)).
    cbn [map] in E'. rewrite E'. cbn [rbind]. eexists. eexists. split; [reflexivity|].
    apply (G (c_quality info) _ (qsum (model_weights (c_post info))) _ (annot_weights (c_post info)) _); auto. now apply qsum_Forall2.
Qed.
End Rows.

(** ** Ensembles; no random draw *)
Lemma average_rows (t : table) order K priors : Permutation order (seq 0 (length t)) ->
  average_priors (length (pick [] order t)) K (map (pick [] order) priors) = pick [] order (average_priors (length t) K priors).
Proof.
  intros Ho. pose proof (o_len t order Ho) as L. unfold average_priors. rewrite pick_length.
  apply (list_eq_nth _ _ []); [rewrite tab_length, pick_length; reflexivity|]. rewrite tab_length. intros i Hi.
  rewrite pick_nth by auto. rewrite !nth_tab by (auto; rewrite L in Hi; apply (at_lt t order Ho i Hi)). apply tab_ext. intros k _. f_equal. rewrite map_map. apply map_ext.
  intros p. unfold mget. rewrite pick_nth by auto. reflexivity.
Qed.
Lemma vote_any_draw t order M pp Kpp verbose mv rnd' : Permutation order (seq 0 (length t)) ->
  (forall rnd, get_majority_vote_label rnd t M pp Kpp verbose = Ok mv) ->
  get_majority_vote_label rnd' (pick [] order t) M (option_map (pick [] order) pp) Kpp verbose = Ok (pick 0%nat order mv).
Proof.
  intros Ho H. set (pos := fun e => length (fst (let fix go l := match l with [] => ([], tt) | x :: l' => if Nat.eqb x e then ([], tt) else (x :: fst (go l'), tt) end in go order))).
  assert (HND : NoDup order) by (apply (Permutation_NoDup (Permutation_sym Ho)), seq_NoDup).
  assert (HP : forall i, (i < length order)%nat -> pos (nth i order 0%nat) = i).
  { unfold pos. clear - HND. induction HND as [|x l Hx _ IH]; intros i Hi; [simpl in Hi; lia|]. destruct i as [|i]; cbn [nth fst].
    - rewrite Nat.eqb_refl. reflexivity.
    - simpl in Hi. destruct (Nat.eqb_spec x (nth i l 0%nat)) as [E|E]; [exfalso; apply Hx; rewrite E; apply nth_In; lia|]. cbn [fst length]. f_equal. apply IH. lia. }
  pose proof (vote_full t order M Ho (fun e => rnd' (pos e)) pp Kpp verbose mv (H _)) as E. rewrite <- E.
  unfold get_majority_vote_label.
  match goal with |- rbind ?x _ = _ => destruct x; cbn [rbind]; [|reflexivity] end.
  assert (EX : forall K', rmap (fun ir => draw rnd' (fst ir) (vote_of K' M (pick [] order t) (option_map (pick [] order) pp) (fst ir) (snd ir))) (combine (seq 0 (length (pick [] order t))) (pick [] order t)) =
    rmap (fun ir => draw (fun i => rnd' (pos (nth i order 0%nat))) (fst ir) (vote_of K' M (pick [] order t) (option_map (pick [] order) pp) (fst ir) (snd ir))) (combine (seq 0 (length (pick [] order t))) (pick [] order t))).
  { intros K'. apply rmap_ext_in. intros [i r] Hir. cbn [fst snd]. apply in_combine_l, in_seq in Hir. rewrite pick_length in Hir.
    destruct (vote_of _ _ _ _ _ _) as [k|[|x l]]; try reflexivity. cbn [draw]. rewrite HP by lia. reflexivity. }
  destruct (option_map (pick [] order) pp); destruct (all_given (pick [] order t)); rewrite ?EX; reflexivity.
Qed.
Lemma quality_full : forall t order, Permutation order (seq 0 (length t)) -> forall fsqrt rnd M K prior method info,
  (forall r, In r t -> length r = M) -> (2 <= K)%nat -> distributions (length t) K prior ->
  (forall x, 0 < x -> 0 < fsqrt x) -> (forall x y, x == y -> fsqrt x == fsqrt y) ->
  get_label_quality_multiannotator fsqrt rnd t M K prior method = Ok info ->
  exists info', get_label_quality_multiannotator fsqrt (fun i => rnd (nth i order 0%nat)) (pick [] order t) M K (pick [] order prior) method = Ok info' /\
    c_label info' = pick 0%nat order (c_label info) /\ Forall2 Qeq (c_quality info') (pick 0 order (c_quality info)) /\
    c_agreement info' = pick 0 order (c_agreement info) /\ same_rows (post (c_post info')) (pick [] order (post (c_post info))) /\
    Forall2 Qeq (model_weights (c_post info')) (model_weights (c_post info)) /\ Forall2 Qeq (annot_weights (c_post info')) (annot_weights (c_post info)) /\
    forall j, same_stats (annotator_stats (pick [] order t) info' j) (annotator_stats t info j).
Proof.
  intros t order Ho fsqrt rnd M K prior method info HW HK HD Hs Hf H. unfold get_label_quality_multiannotator in *.
  assert (HDp : forall p, In p [prior] -> distributions (length t) K p) by (intros p [<-|[]]; auto).
  assert (Hne : [prior] <> []) by discriminate.
  destruct (label_quality_inv fsqrt rnd t M K [prior] prior method info HW HK Hne HDp Hs H) as (_ & _ & G & _).
  destruct (core_full t order M Ho fsqrt rnd K [prior] prior method info HW HK Hne HDp Hs Hf H) as (info' & E' & SC).
  exists info'. split; [exact E'|]. pose proof SC as (A & B & C & D & E & F). repeat (split; [assumption|]). intros j. apply (stats_full t order M Ho K 1 info info' j G SC).
Qed.
Lemma quality_ensemble_full : forall t order, Permutation order (seq 0 (length t)) -> forall fsqrt rnd M K priors info,
  (forall r, In r t -> length r = M) -> (2 <= K)%nat -> priors <> [] -> (forall p, In p priors -> distributions (length t) K p) ->
  (forall x, 0 < x -> 0 < fsqrt x) -> (forall x y, x == y -> fsqrt x == fsqrt y) ->
  get_label_quality_multiannotator_ensemble fsqrt rnd t M K priors = Ok info ->
  exists info', get_label_quality_multiannotator_ensemble fsqrt (fun i => rnd (nth i order 0%nat)) (pick [] order t) M K (map (pick [] order) priors) = Ok info' /\
    c_label info' = pick 0%nat order (c_label info) /\ Forall2 Qeq (c_quality info') (pick 0 order (c_quality info)) /\
    c_agreement info' = pick 0 order (c_agreement info) /\ same_rows (post (c_post info')) (pick [] order (post (c_post info))) /\
    Forall2 Qeq (model_weights (c_post info')) (model_weights (c_post info)) /\ Forall2 Qeq (annot_weights (c_post info')) (annot_weights (c_post info)) /\
    forall j, same_stats (annotator_stats (pick [] order t) info' j) (annotator_stats t info j).
Proof.
  intros t order Ho fsqrt rnd M K priors info HW HK Hne HD Hs Hf H. unfold get_label_quality_multiannotator_ensemble in *.
  rewrite (average_rows t order K priors Ho).
  destruct (label_quality_inv fsqrt rnd t M K priors _ BestQuality info HW HK Hne HD Hs H) as (_ & _ & G & _).
  destruct (core_full t order M Ho fsqrt rnd K priors _ BestQuality info HW HK Hne HD Hs Hf H) as (info' & E' & SC).
  exists info'. split; [exact E'|]. pose proof SC as (A & B & C & D & E & F). repeat (split; [assumption|]). intros j. apply (stats_full t order M Ho K (length priors) info info' j G SC).
Qed.
