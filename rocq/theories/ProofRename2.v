(** * Lemmas about renaming the classes of multi-annotator data: votes, CROWDLAB, consensus *)
From Coq Require Import QArith Qabs List ZArith Bool Arith Lia Lqa Permutation.
From Verif Require Import Base BaseFacts ModelUtil ModelCount ModelRank ModelMultiannotator SpecCount SpecRank SpecMultiannotator SpecSymmetry SpecRows SpecRename
  ProofUtil ProofCount ProofRank ProofSymmetry ProofMultiannotator ProofReorder ProofRows ProofRename.
Import ListNotations.
Open Scope Q_scope.

Lemma combine_map2 {A B C D} (f : A -> C) (g : B -> D) a b : combine (map f a) (map g b) = map (fun p => (f (fst p), g (snd p))) (combine a b).
Proof. revert b. induction a as [|x a IH]; intros [|y b]; cbn; auto. now rewrite IH. Qed.
Lemma select_map {A B} (f : A -> B) m l : select m (map f l) = map f (select m l).
Proof.
  rewrite !select_filter. revert l. induction m as [|b m IH]; intros [|x l]; cbn; auto. destruct b; cbn; now rewrite IH.
Qed.
Lemma select_in {A} m (l : list A) x : In x (select m l) -> In x l.
Proof. rewrite select_filter. intros H. apply in_map_iff in H as ([b y] & <- & H). apply filter_In in H as [H _]. now apply in_combine_r in H. Qed.
Lemma F2_nth_in {A B} (R : A -> B -> Prop) a b i da db : Forall2 R a b -> (i < length a)%nat -> R (nth i a da) (nth i b db).
Proof. intros H. revert i. induction H; intros i Hi; [simpl in Hi; lia|]. destruct i; cbn; auto. apply IHForall2. simpl in Hi. lia. Qed.
Lemma F2_from_nth {A B} (R : A -> B -> Prop) a b da db : length a = length b -> (forall i, (i < length a)%nat -> R (nth i a da) (nth i b db)) -> Forall2 R a b.
Proof.
  revert b. induction a as [|x a IH]; intros [|y b] L H; try discriminate; constructor; [apply (H 0%nat); simpl; lia|].
  apply IH; [simpl in L; lia|]. intros i Hi. apply (H (S i)). simpl; lia.
Qed.
Lemma F2_refl (l : list Q) : Forall2 Qeq l l.
Proof. induction l; constructor; auto. reflexivity. Qed.
Lemma indicator_sum m l : qsum (map (fun c => indicator (negb (Nat.eqb c m))) l) == Qnat (length l) - Qnat (count m l).
Proof.
  unfold count. induction l as [|x l IH]; [reflexivity|]. cbn [map length count_occ]. change (qsum (?a :: ?b)) with (a + qsum b).
  replace (qsum (indicator (negb (Nat.eqb x m)) :: map (fun c => indicator (negb (Nat.eqb c m))) l)) with
    (indicator (negb (Nat.eqb x m)) + qsum (map (fun c => indicator (negb (Nat.eqb c m))) l)) by reflexivity.
  rewrite IH. destruct (Nat.eq_dec x m) as [->|N].
  - rewrite Nat.eqb_refl. cbn [negb indicator]. rewrite !Qnat_S. ring.
  - rewrite (proj2 (Nat.eqb_neq x m) N). cbn [negb indicator]. rewrite Qnat_S. ring.
Qed.

Section Rename.
Context (K M : nat) (names : list nat) (t : table) (Pn : Permutation names (seq 0 K)) (HA : annotations M K t).
Notation s := (fun k => nth k names 0%nat).
Notation rn := (map (option_map (fun l => nth l names 0%nat))).
Notation t' := (renamed_table names t).
Notation rl := (renamed_labels names).
Let Ht' := annotations_rn K M names t Pn HA.

Lemma given_rn : all_given t' = map s (all_given t).
Proof.
  unfold all_given, renamed_table. clear. generalize t as u0. induction u0 as [|r u IH]; [reflexivity|]. cbn [map flat_map]. rewrite map_app, IH. f_equal.
  unfold given. clear. induction r as [|[l|] r IH]; cbn; auto. now rewrite IH.
Qed.
Lemma t'_nth i : nth i t' [] = rn (nth i t []).
Proof. unfold renamed_table. change (@nil (option nat)) with (rn []) at 1. apply map_nth. Qed.
Lemma valid_rn pp flag : match pp with Some (_, Kp) => (K <= Kp)%nat | None => True end ->
  assert_valid_multiannotator t M pp flag = Ok tt -> assert_valid_multiannotator t' M pp flag = Ok tt.
Proof.
  intros HP. unfold assert_valid_multiannotator. rewrite given_rn.
  assert (E1 : forall f, existsb f t' = existsb (fun r => f (rn r)) t) by (intros f; unfold renamed_table; clear; induction t as [|r u IH]; cbn; auto; now rewrite IH).
  assert (E0 : forall r, existsb present (rn r) = existsb present r) by (induction r as [|o r IH]; cbn; auto; now rewrite present_rn, IH).
  rewrite E1.
  assert (Ea : existsb (fun r => negb (existsb present (rn r))) t = existsb (fun r => negb (existsb present r)) t).
  { clear - E0. induction t as [|r u IH]; cbn; auto. now rewrite E0, IH. }
  rewrite Ea.
  assert (Eb : existsb (fun j => negb (existsb (fun r => present (nth j r None)) t')) (seq 0 M) = existsb (fun j => negb (existsb (fun r => present (nth j r None)) t)) (seq 0 M)).
  { generalize (seq 0 M). induction l as [|j l IH]; cbn [existsb]; auto. rewrite IH, E1. do 2 f_equal. clear. induction t as [|r u IH]; cbn [existsb]; auto. now rewrite nth_rn, present_rn, IH. }
  rewrite Eb.
  assert (Ec : forallb (fun r => Nat.eqb (num_annotations r) 1) t' = forallb (fun r => Nat.eqb (num_annotations r) 1) t).
  { unfold renamed_table. clear. induction t as [|r u IH]; cbn [map forallb]; auto. now rewrite num_rn, IH. }
  rewrite Ec, t'_len. repeat match goal with |- (if ?b then _ else _) = _ -> _ => destruct b; [discriminate|] end.
  destruct (all_given t) as [|l ls] eqn:E; [discriminate|]. cbn [map]. destruct pp as [[n Kp]|]; [|auto]. destruct (negb _); [discriminate|].
  intros _. replace (Nat.ltb Kp _) with false; [reflexivity|]. symmetry. apply Nat.ltb_ge.
  assert (EQ : all_given t' = nth l names 0%nat :: map s ls) by (rewrite given_rn, E; reflexivity). rewrite <- EQ.
  assert (N : all_given t' <> []) by (rewrite EQ; discriminate). apply nmax_in in N.
  apply in_all_given in N as (r & Hr & Hx). pose proof (an_class _ _ _ Ht' _ _ Hr Hx). lia.
Qed.

(** ** Majority vote *)
Definition prob_rel (pp pp' : option (list (list Q))) (Kpp : nat) : Prop :=
  match pp, pp' with
  | None, None => True
  | Some p, Some p' => Kpp = K /\ length p' = length p /\ forall i k, (i < length t)%nat -> (k < K)%nat -> mget p' i (s k) == mget p i k
  | _, _ => False
  end.
Lemma vote_renamed pp pp' Kpp verbose mv rnd' : prob_rel pp pp' Kpp ->
  (forall rnd, get_majority_vote_label rnd t M pp Kpp verbose = Ok mv) ->
  get_majority_vote_label rnd' t' M pp' Kpp verbose = Ok (rl mv).
Proof.
  intros HP H. pose proof (H (fun _ => 0%nat)) as H0. destruct (gmv_inv _ _ _ _ _ _ _ H0) as [HC _]. destruct (gmv_nth _ _ _ _ _ _ _ H0) as [LM _].
  set (Kt := num_classes t pp Kpp) in *. set (Kt' := num_classes t' pp' Kpp).
  assert (HC' : forall r k, In r t' -> In (Some k) r -> (k < Kt')%nat).
  { intros r k Hr Hk. unfold Kt', num_classes. destruct pp' as [p'|], pp as [p|]; cbn in HP; try contradiction.
    - destruct HP as [-> _]. eapply (an_class _ _ _ Ht'); eauto.
    - change (labels_in t') with (all_given t'). assert (HI : In k (all_given t')) by (apply in_all_given; eauto). apply nmax_ge in HI. lia. }
  assert (HV : (if verbose then assert_valid_multiannotator t' M (match pp' with None => None | Some p => Some (length p, Kpp) end) false else Ok tt) = Ok tt).
  { unfold get_majority_vote_label in H0. destruct verbose; [|reflexivity].
    destruct (assert_valid_multiannotator t M _ false) as [[]|] eqn:E; cbn [rbind] in H0; [|discriminate]. apply valid_rn.
    - destruct pp' as [p'|], pp as [p|]; cbn in HP; try contradiction; [|exact I]. destruct HP as [-> _]. lia.
    - destruct pp' as [p'|], pp as [p|]; cbn in HP; try contradiction; [|exact E]. destruct HP as (_ & L & _). rewrite L. exact E. }
  assert (HN : Kt' <> 0%nat).
  { unfold Kt', num_classes. destruct pp' as [p'|], pp as [p|]; cbn in HP; try contradiction; [|lia].
    intros ->. unfold get_majority_vote_label in H0. match type of H0 with rbind ?x _ = _ => destruct x; cbn [rbind] in H0; [|discriminate] end.
    cbn [Nat.eqb] in H0. destruct (all_given t); discriminate. }
  assert (HE : existsb (fun l => Nat.leb Kt' l) (all_given t') = false).
  { apply not_true_is_false. intros E. apply existsb_exists in E as (x & Hx & L). apply in_all_given in Hx as (r & Hr & Hx).
    specialize (HC' r x Hr Hx). apply Nat.leb_le in L. lia. }
  assert (HR : rmap (fun ir => draw rnd' (fst ir) (vote_of Kt' M t' pp' (fst ir) (snd ir))) (combine (seq 0 (length t')) t') = Ok (rl mv)).
  { assert (G : forall l, (forall ir, In ir l -> (fst ir < length t)%nat /\ snd ir = nth (fst ir) t' []) ->
      rmap (fun ir => draw rnd' (fst ir) (vote_of Kt' M t' pp' (fst ir) (snd ir))) l = Ok (map (fun ir => s (nth (fst ir) mv 0%nat)) l)).
    { induction l as [|[i r] l IH]; intros Hl; [reflexivity|]. cbn [rmap map fst snd]. destruct (Hl _ (or_introl eq_refl)) as [Hi Hr]. cbn [fst snd] in Hi, Hr.
      rewrite t'_nth in Hr. subst r.
      assert (D : draw rnd' i (vote_of Kt' M t' pp' i (rn (nth i t []))) = Ok (s (nth i mv 0%nat))).
      { apply (draw_rel s rnd' i (vote_of Kt M t pp i (nth i t []))).
        - apply (vote_rn K M names t Pn HA Kt Kt' HC HC'); [now apply nth_In|]. destruct pp as [p|], pp' as [p'|]; cbn in HP; try contradiction; [|exact I].
          intros k Hk. now apply HP.
        - intros rnd. now apply (gmv_nth _ _ _ _ _ _ _ (H rnd)). }
      rewrite D. cbn [rbind]. rewrite IH by (intros ir Hir; apply Hl; right; auto). reflexivity. }
    rewrite G.
    - f_equal. unfold renamed_labels. transitivity (map (fun i => s (nth i mv 0%nat)) (map fst (combine (seq 0 (length t')) t'))); [rewrite map_map; reflexivity|].
      assert (EF : forall (A B : Type) (a : list A) (b : list B), length a = length b -> map fst (combine a b) = a).
      { intros A B a. induction a as [|x a IH]; intros [|y b] Hl; try discriminate; [reflexivity|]. cbn. f_equal. apply IH. simpl in Hl. lia. }
      rewrite EF by apply seq_length. rewrite t'_len, <- LM. rewrite <- (pick_seq 0%nat mv) at 2. unfold pick. rewrite map_map. reflexivity.
    - intros [i r] Hir. cbn [fst snd]. destruct (In_nth _ _ (0%nat, []) Hir) as (n & Hn & En). rewrite combine_length, seq_length, Nat.min_id in Hn.
      rewrite combine_nth in En by apply seq_length. rewrite seq_nth in En by auto. injection En as <- <-. rewrite t'_len in Hn. split; [auto|]. reflexivity. }
  unfold get_majority_vote_label. rewrite HV. cbn [rbind]. unfold Kt', num_classes in HN, HE, HR. change (labels_in t') with (all_given t') in *.
  destruct pp' as [p'|].
  - destruct (all_given t'); rewrite (proj2 (Nat.eqb_neq _ _) HN), HE; exact HR.
  - destruct (all_given t') eqn:Eg.
    + rewrite given_rn in Eg. apply map_eq_nil in Eg. destruct pp as [p|]; [destruct HP|].
      exfalso. unfold get_majority_vote_label in H0. rewrite Eg in H0. match type of H0 with rbind ?x _ = _ => destruct x; cbn [rbind] in H0; discriminate end.
    + rewrite (proj2 (Nat.eqb_neq _ _) HN), HE. exact HR.
Qed.

(** ** CROWDLAB *)
Context (Hlen : (2 <= K)%nat).
Lemma multi_rn : multi t' = multi t.
Proof. unfold multi, renamed_table. rewrite map_map. apply map_ext. intros r. now rewrite num_rn. Qed.
Lemma agreement_rn c : (forall k, In k c -> (k < K)%nat) -> agreement_with_consensus t' (rl c) = agreement_with_consensus t c.
Proof.
  intros Hc. unfold agreement_with_consensus, renamed_table, renamed_labels. rewrite combine_map2, map_map. apply map_ext_in. intros [r k] HI. cbn [fst snd].
  rewrite num_rn, (total_rn K M names t Pn HA); auto; [eapply in_combine_l; eauto|]. apply Hc. eapply in_combine_r; eauto.
Qed.
Lemma likelihood_rn c : (forall k, In k c -> (k < K)%nat) -> consensus_likelihood t' (rl c) = consensus_likelihood t c.
Proof. intros Hc. unfold consensus_likelihood. now rewrite multi_rn, agreement_rn. Qed.
Lemma single_rn j : single_annotator_agreement t' j = single_annotator_agreement t j.
Proof.
  unfold single_annotator_agreement, renamed_table. rewrite filter_map_.
  rewrite (filter_ext (fun r => present (nth j (rn r) None)) (fun r => present (nth j r None))) by (intros r; now rewrite nth_rn, present_rn).
  set (u := filter _ t). rewrite !map_map.
  rewrite (map_ext (fun r => Qnat (num_annotations (rn r) - 1)) (fun r => Qnat (num_annotations r - 1))) by (intros r; now rewrite num_rn).
  rewrite (map_ext_in (fun r => agreement_in_row j (rn r)) (agreement_in_row j)); [reflexivity|].
  intros r Hr. unfold u in Hr. apply filter_In in Hr as [Hr _]. unfold agreement_in_row. rewrite num_rn, nth_rn.
  destruct (Nat.ltb 1 (num_annotations r)); [|reflexivity]. destruct (nth j r None) as [l|] eqn:E; cbn [option_map]; [|reflexivity].
  rewrite (total_rn K M names t Pn HA); auto. apply (an_class _ _ _ HA r); auto. rewrite <- E. apply nth_In.
  destruct (le_lt_dec (length r) j) as [L|L]; [rewrite nth_overflow in E by auto; discriminate|auto].
Qed.
Lemma annotators_rn : agreement_with_annotators t' M = agreement_with_annotators t M.
Proof. unfold agreement_with_annotators. f_equal. apply tab_ext. intros j _. apply single_rn. Qed.
Lemma count_rn c k : (forall x, In x c -> (x < K)%nat) -> (k < K)%nat -> count (s k) (map s c) = count k c.
Proof.
  intros Hc Hk. unfold count. induction c as [|x c IH]; [reflexivity|]. cbn [map count_occ]. rewrite IH by (intros y Hy; apply Hc; right; auto).
  destruct (Nat.eq_dec (nth x names 0%nat) (nth k names 0%nat)) as [E|E], (Nat.eq_dec x k) as [D|D]; auto; [|subst; contradiction].
  exfalso. apply D. apply (s_inj K names Pn); auto. apply Hc. left; auto.
Qed.
Lemma class_error_rn c : (forall k, In k c -> (k < K)%nat) -> most_likely_class_error t' (rl c) K == most_likely_class_error t c K.
Proof.
  intros Hc. unfold most_likely_class_error, renamed_labels. cbv zeta. rewrite multi_rn, select_map.
  set (sub := select (multi t) c). assert (Hs : forall k, In k sub -> (k < K)%nat) by (intros k Hk; apply Hc; eapply select_in; eauto). clearbody sub.
  apply clip_lo_Proper; [reflexivity|]. unfold qmean. rewrite !map_length.
  assert (E : forall (x y n : Q), x == y -> x / n == y / n) by (intros x y n ->; reflexivity). apply E. clear E. rewrite !indicator_sum, map_length.
  set (m' := argmax (tab K (fun k => Qnat (count k (map s sub))))). set (m := argmax (tab K (fun k => Qnat (count k sub)))).
  assert (Hne : forall f : nat -> Q, tab K f <> []) by (intros f E; apply (f_equal (@length Q)) in E; rewrite tab_length in E; simpl in E; lia).
  assert (Lm : (m < K)%nat) by (rewrite <- (tab_length K (fun k => Qnat (count k sub))); apply argmax_lt, Hne).
  assert (Lm' : (m' < K)%nat) by (rewrite <- (tab_length K (fun k => Qnat (count k (map s sub)))); apply argmax_lt, Hne).
  assert (C : Qnat (count m' (map s sub)) == Qnat (count m sub)); [|rewrite C; reflexivity].
  apply Qle_antisym.
  - destruct (s_onto K names Pn m' Lm') as (k & Hk & Ek). rewrite <- Ek, count_rn by auto.
    pose proof (argmax_max (tab K (fun k => Qnat (count k sub))) k) as G. rewrite tab_length in G. specialize (G Hk). rewrite !nth_tab in G by auto. exact G.
  - rewrite <- (count_rn sub m) by auto.
    pose proof (argmax_max (tab K (fun k => Qnat (count k (map s sub)))) (s m)) as G. rewrite tab_length in G. specialize (G (s_lt K names Pn m Lm)).
    rewrite !nth_tab in G by (auto; apply (s_lt K names Pn m Lm)). exact G.
Qed.
Definition rel_row (row row' : list Q) : Prop := length row' = length row /\ forall k, (k < length row)%nat -> nth (s k) row' 0 == nth k row 0.
Lemma row_max row row' : length row = K -> rel_row row row' -> qmaximum row' == qmaximum row.
Proof.
  intros L [L' H]. symmetry. apply qmax_match.
  - intros ->. simpl in L. lia.
  - intros x Hx. apply In_nth with (d := 0) in Hx as (k & Hk & <-). exists (nth (s k) row' 0). split; [apply nth_In; rewrite L', L; apply (s_lt K names Pn); lia|symmetry; auto].
  - intros y Hy. apply In_nth with (d := 0) in Hy as (k' & Hk' & <-). rewrite L', L in Hk'. destruct (s_onto K names Pn k' Hk') as (k & Hk & <-).
    exists (nth k row 0). split; [apply nth_In; lia|symmetry; apply H; lia].
Qed.
Lemma argmax_rn row row' : length row = K -> rel_row row row' ->
  (forall i j, (i < length row)%nat -> (j < length row)%nat -> i <> j -> nth i row 0 == nth j row 0 -> exists h, (h < length row)%nat /\ nth i row 0 < nth h row 0) ->
  argmax row' = s (argmax row) /\ (argmax row < K)%nat.
Proof.
  intros L [L' H] HU. assert (N : row <> []) by (intros ->; simpl in L; lia). assert (N' : row' <> []) by (intros ->; simpl in L'; lia).
  pose proof (argmax_lt _ N) as A. pose proof (argmax_lt _ N') as A'. rewrite L' in A'. split; [|lia].
  destruct (s_onto K names Pn (argmax row')) as (k & Hk & Ek); [lia|]. rewrite <- Ek. f_equal.
  destruct (Nat.eq_dec k (argmax row)) as [|D]; auto. exfalso.
  assert (E : nth k row 0 == nth (argmax row) row 0).
  { apply Qle_antisym; [apply argmax_max; lia|]. rewrite <- (H k) by lia. rewrite Ek. rewrite <- (H (argmax row)) by lia. apply argmax_max. rewrite L', L. apply (s_lt K names Pn). lia. }
  destruct (HU k (argmax row)) as (h & Hh & Lh); auto; [lia|]. pose proof (argmax_max row h Hh). lra.
Qed.
Lemma model_weight_rn fsqrt c e e' p p' : e' == e -> (forall k, In k c -> (k < K)%nat) -> length c = length t -> length p = length t ->
  (forall row, In row p -> length row = K) -> renamed_matrix names p p' -> clear_prediction p ->
  model_weight fsqrt t' (rl c) e' p' == model_weight fsqrt t c e p.
Proof.
  intros He Hc Lc Lp HK HR HU. unfold model_weight. cbv zeta. rewrite multi_rn. pose proof (F2_len _ _ _ HR) as Lp'.
  assert (Lr : length (rl c) = length t) by (unfold renamed_labels; rewrite map_length; auto).
  rewrite !select_combine by (rewrite ?multi_length; auto; congruence).
  assert (E : map (fun pc => indicator (negb (Nat.eqb (argmax (fst pc)) (snd pc)))) (select (multi t) (combine p' (rl c))) =
              map (fun pc => indicator (negb (Nat.eqb (argmax (fst pc)) (snd pc)))) (select (multi t) (combine p c))).
  { rewrite !select_filter. generalize (multi t). revert c Hc Lc Lr HK HU. unfold renamed_labels. clear Lp Lp' He.
    assert (G : forall c m, (forall k, In k c -> (k < K)%nat) -> (forall row, In row p -> length row = K) -> clear_prediction p ->
      map (fun pc => indicator (negb (Nat.eqb (argmax (fst pc)) (snd pc)))) (map snd (filter fst (combine m (combine p' (map s c))))) =
      map (fun pc => indicator (negb (Nat.eqb (argmax (fst pc)) (snd pc)))) (map snd (filter fst (combine m (combine p c))))).
    { induction HR as [|row row' p p' Hrow _ IH]; intros c m Hc HK HU; [destruct m; reflexivity|]. destruct c as [|k c]; [destruct m; reflexivity|].
      destruct m as [|b m]; [reflexivity|]. cbn [map combine filter fst].
      assert (I : map (fun pc => indicator (negb (Nat.eqb (argmax (fst pc)) (snd pc)))) (map snd (filter fst (combine m (combine p' (map s c))))) =
                  map (fun pc => indicator (negb (Nat.eqb (argmax (fst pc)) (snd pc)))) (map snd (filter fst (combine m (combine p c))))).
      { apply IH; [intros x Hx; apply Hc; right; auto|intros x Hx; apply HK; right; auto|]. intros rw i j Hrw. apply HU. right; auto. }
      destruct b; [|exact I]. cbn [map snd fst]. rewrite I. f_equal.
      destruct (argmax_rn row row') as [E L]; [apply HK; left; auto|exact Hrow|intros i j; apply HU; left; auto|]. rewrite E.
      rewrite (s_eqb K names Pn); auto. apply Hc. left; auto. }
    intros c Hc Lc Lr HK HU m. apply G; auto. }
  rewrite E, He.
  assert (EN : map (fun r => Qnat (num_annotations r)) t' = map (fun r => Qnat (num_annotations r)) t).
  { unfold renamed_table. rewrite map_map. apply map_ext. intros r. now rewrite num_rn. }
  rewrite EN. reflexivity.
Qed.
Lemma weight_rn aw aw' r : Forall2 Qeq aw' aw -> annotation_weight aw' (rn r) == annotation_weight aw r.
Proof.
  intros H. unfold annotation_weight. apply qsum_Forall2. revert r. induction H as [|x y a b Hxy _ IH]; intros [|o r]; cbn [map combine]; constructor; auto.
  cbn [fst snd]. rewrite present_rn. destruct (present o); auto. reflexivity.
Qed.
Lemma posterior_rn cl mws mws' aw aw' priors priors' r : In r t -> Forall2 Qeq mws' mws -> Forall2 Qeq aw' aw -> (forall row, In row priors -> length row = K) -> Forall2 rel_row priors priors' ->
  rel_row (posterior_row K cl (non_consensus_likelihood K cl) mws aw priors r) (posterior_row K cl (non_consensus_likelihood K cl) mws' aw' priors' (rn r)).
Proof.
  intros Hr Hm Ha HL HP. unfold posterior_row. split; [now rewrite !tab_length|]. rewrite tab_length. intros k Hk.
  rewrite !nth_tab by (auto; apply (s_lt K names Pn); auto).
  assert (E1 : qsum (map (fun mp : Q * list Q => fst mp * nth (s k) (snd mp) 0) (combine mws' priors')) == qsum (map (fun mp : Q * list Q => fst mp * nth k (snd mp) 0) (combine mws priors))).
  { apply qsum_Forall2. clear Ha. revert priors priors' HL HP. induction Hm as [|x y a b Hxy _ IH]; intros pr pr' HL HP; [constructor|].
    destruct HP as [|p p' ps ps' H1 H2]; cbn [combine map]; constructor.
    - cbn [fst snd]. destruct H1 as [_ H1]. rewrite Hxy, H1; [reflexivity|]. rewrite (HL p); [exact Hk|left; auto].
    - apply IH; auto. intros x0 Hx0. apply HL. right; auto. }
  assert (E2 : qsum (map (vote_weight cl (non_consensus_likelihood K cl) (s k)) (combine aw' (rn r))) == qsum (map (vote_weight cl (non_consensus_likelihood K cl) k) (combine aw r))).
  { apply qsum_Forall2. assert (HB : forall l, In (Some l) r -> (l < K)%nat) by (intros l Hl; eapply (an_class _ _ _ HA); eauto).
    clear -Ha HB Pn Hk. revert r HB. induction Ha as [|x y a b Hxy _ IH]; intros [|o r] HB; cbn [combine map]; constructor.
    - unfold vote_weight. cbn [fst snd]. destruct o as [l|]; [|reflexivity]. cbn [option_map]. rewrite (s_eqb K names Pn); auto; [|apply HB; left; auto].
      destruct (Nat.eqb l k); rewrite Hxy; reflexivity.
    - apply IH. intros l Hl. apply HB. right; auto. }
  rewrite E1, E2, (weight_rn aw aw' r Ha), (qsum_Forall2 _ _ Hm). reflexivity.
Qed.
(** the posterior of the renamed data *)
Definition same_post (P' P : posterior) : Prop :=
  renamed_matrix names (post P) (post P') /\ Forall2 Qeq (model_weights P') (model_weights P) /\ Forall2 Qeq (annot_weights P') (annot_weights P).
Lemma crowdlab_rn fsqrt c priors priors' P : length c = length t -> (forall k, In k c -> (k < K)%nat) ->
  (forall p, In p priors -> length p = length t /\ (forall row, In row p -> length row = K) /\ clear_prediction p) -> Forall2 (renamed_matrix names) priors priors' ->
  crowdlab fsqrt t M K c priors = Ok P -> exists P', crowdlab fsqrt t' M K (rl c) priors' = Ok P' /\ same_post P' P.
Proof.
  intros Lc Hc Hp HR H. unfold crowdlab in *. rewrite annotators_rn, likelihood_rn by auto. pose proof (class_error_rn c Hc) as HE.
  destruct (agreement_with_annotators t M) as [a|]; [|discriminate]. injection H as <-. eexists. split; [reflexivity|].
  assert (Hm : Forall2 Qeq (map (model_weight fsqrt t' (rl c) (most_likely_class_error t' (rl c) K)) priors') (map (model_weight fsqrt t c (most_likely_class_error t c K)) priors)).
  { clear - Hp HR HE Lc Hc Pn Hlen HA. induction HR as [|p p' ps ps' H1 _ IH]; cbn [map]; constructor.
    - destruct (Hp p) as (A & B & C); [left; auto|]. now apply model_weight_rn.
    - apply IH. intros q Hq. apply Hp. right; auto. }
  assert (Hw := adjusted_F2 _ _ _ _ HE (F2_refl a)).
  split; [|split; [exact Hm|exact Hw]]. cbn [post model_weights annot_weights] in *. apply (F2_from_nth _ _ _ [] []).
  { rewrite !map_length, !combine_length, !seq_length, t'_len. reflexivity. }
  intros i Hi. rewrite map_length, combine_length, seq_length, Nat.min_id in Hi.
  rewrite !(nth_map_gen _ _ _ _ (0%nat, [])) by (rewrite combine_length, seq_length, Nat.min_id, ?t'_len; auto).
  rewrite !combine_nth by apply seq_length. rewrite !seq_nth by (rewrite ?t'_len; auto). cbn [fst snd Nat.add]. rewrite t'_nth.
  apply posterior_rn; auto; [now apply nth_In| |].
  - intros row Hrow. apply in_map_iff in Hrow as (p & <- & HI). destruct (Hp p HI) as (A & B & _). apply B, nth_In. lia.
  - clear - HR Hp Hi. induction HR as [|p p' ps ps' H1 _ IH]; cbn [map]; constructor.
    + unfold renamed_matrix in H1. refine (F2_nth_in _ _ _ i [] [] H1 _). destruct (Hp p) as (A & _); [left; auto|]. lia.
    + apply IH. intros q Hq. apply Hp. right; auto.
Qed.

(** ** Consensus *)
Lemma renamed_lt c : (forall k, In k c -> (k < K)%nat) -> forall k, In k (rl c) -> (k < K)%nat.
Proof. intros H k Hk. unfold renamed_labels in Hk. apply in_map_iff in Hk as (x & <- & Hx). apply (s_lt K names Pn). auto. Qed.
Lemma distribution_rn row row' : distribution K row -> rel_row row row' -> distribution K row'.
Proof.
  intros (L & P0 & S1) [L' H]. split; [congruence|]. split.
  - intros y Hy. apply In_nth with (d := 0) in Hy as (k' & Hk' & <-). rewrite L', L in Hk'. destruct (s_onto K names Pn k' Hk') as (k & Hk & <-).
    rewrite H by lia. apply P0, nth_In. lia.
  - rewrite <- S1. assert (E : forall l, qsum l == qsum (map (fun i => nth i l 0) (seq 0 (length l)))).
    { intros l. change (map (fun i => nth i l 0) (seq 0 (length l))) with (pick 0 (seq 0 (length l)) l). rewrite pick_seq. reflexivity. }
    rewrite (E row), (E row'), L', L. rewrite (qsum_perm _ _ (Permutation_map _ (Permutation_sym Pn))).
    assert (N : names = map s (seq 0 K)).
    { rewrite <- (pick_seq 0%nat names) at 1. rewrite (Permutation_length Pn), seq_length. reflexivity. }
    rewrite N at 1. rewrite map_map. apply qsum_Forall2, F2_map_same. intros k Hk. apply in_seq in Hk. apply H. lia.
Qed.
Lemma distributions_rn p p' : distributions (length t) K p -> renamed_matrix names p p' -> distributions (length t') K p'.
Proof.
  intros [L D] HR. pose proof (F2_len _ _ _ HR) as L'. split; [rewrite t'_len; congruence|]. intros row' Hrow'.
  apply In_nth with (d := []) in Hrow' as (i & Hi & <-). unfold renamed_matrix in HR. apply (distribution_rn (nth i p [])).
  - apply D, nth_In. lia.
  - refine (F2_nth_in _ _ _ i [] [] HR _). lia.
Qed.
Definition same_consensus (i' i : consensus_info) : Prop :=
  c_label i' = rl (c_label i) /\ Forall2 Qeq (c_quality i') (c_quality i) /\ c_agreement i' = c_agreement i /\ same_post (c_post i') (c_post i).
Lemma stats_rn fsqrt priors priors' c info : has_overlap t -> length c = length t -> (forall k, In k c -> (k < K)%nat) -> priors <> [] ->
  (forall q, In q priors -> distributions (length t) K q /\ clear_prediction q) -> Forall2 (renamed_matrix names) priors priors' -> (forall x, 0 < x -> 0 < fsqrt x) ->
  consensus_stats fsqrt t M K priors c = Ok info ->
  exists info', consensus_stats fsqrt t' M K priors' (rl c) = Ok info' /\ same_consensus info' info.
Proof.
  intros HO Lc Hc Hne HD HR Hs H.
  assert (HD1 : forall q, In q priors -> distributions (length t) K q) by (intros q Hq; now apply HD).
  assert (HD' : forall q, In q priors' -> distributions (length t') K q).
  { clear - HD HR Pn HA Hlen. induction HR as [|p p' ps ps' H1 _ IH]; intros q Hq; [destruct Hq|]. destruct Hq as [<-|Hq].
    - apply (distributions_rn p); auto. apply HD. left; auto.
    - apply IH; auto. intros x Hx. apply HD. right; auto. }
  assert (Lc' : length (rl c) = length t') by (unfold renamed_labels; rewrite map_length, t'_len; auto).
  assert (Hne' : priors' <> []) by (destruct HR; [congruence|discriminate]).
  destruct (consensus_stats_ok fsqrt t M K c priors HA HO Hlen Lc Hc Hne HD1 Hs) as (i1 & E1 & G1 & L1).
  rewrite E1 in H. assert (info = i1) by congruence. subst info. clear H.
  destruct (consensus_stats_ok fsqrt t' M K (rl c) priors' Ht' (overlap_rn names t HO) Hlen Lc' (renamed_lt c Hc) Hne' HD' Hs) as (i2 & E2 & G2 & L2).
  exists i2. split; auto.
  destruct (crowdlab_rn fsqrt c priors priors' (c_post i1) Lc Hc) as (P' & EP' & SP); auto.
  { intros p Hp. destruct (HD p Hp) as [[LD DD] HU]. split; [auto|]. split; [intros row Hrow; now apply DD|auto]. }
  { apply (stats_crowdlab _ _ _ _ _ _ _ E1). }
  pose proof (stats_crowdlab _ _ _ _ _ _ _ E2) as EP2. rewrite EP' in EP2. assert (P' = c_post i2) by congruence. subst P'.
  assert (A1 : c_agreement i1 = agreement_with_consensus t c /\ c_agreement i2 = agreement_with_consensus t' (rl c)).
  { unfold consensus_stats in E1, E2. split.
    - destruct (crowdlab fsqrt t M K c priors); [|discriminate]. cbn [rbind] in E1. destruct (get_label_quality_scores _ _ _ _ _); [|discriminate]. cbn [rbind] in E1. injection E1 as <-. reflexivity.
    - rewrite EP' in E2. cbn [rbind] in E2. destruct (get_label_quality_scores _ _ _ _ _); [|discriminate]. cbn [rbind] in E2. injection E2 as <-. reflexivity. }
  destruct A1 as [A1 A2].
  split; [congruence|]. split; [|split; [rewrite A1, A2; now apply agreement_rn|exact SP]].
  destruct G1 as (_ & _ & Q1 & _ & _ & _ & [D1 D1'] & _ & _ & _ & _ & N1). destruct G2 as (_ & _ & Q2 & _ & _ & _ & _ & _ & _ & _ & _ & N2).
  rewrite t'_len in Q2, N2. apply F2_nth_eq; [congruence|]. intros i Hi. rewrite Q2 in Hi. rewrite N2, N1 by auto. rewrite L1, L2.
  assert (EN : nth i (rl c) 0%nat = s (nth i c 0%nat)) by (unfold renamed_labels; apply (nth_map_gen s); lia). rewrite EN.
  unfold mget. destruct SP as [SP _]. unfold renamed_matrix in SP. pose proof (F2_nth_in _ _ _ i [] [] SP) as HX. destruct HX as [_ HX]; [lia|]. apply HX.
  destruct (D1' (nth i (post (c_post i1)) [])) as [LL _]; [apply nth_In; lia|]. rewrite LL. apply Hc, nth_In. lia.
Qed.
Lemma best_rn p p' mv : (forall row, In row p -> length row = K) -> renamed_matrix names p p' -> best_quality_label p' (rl mv) = rl (best_quality_label p mv).
Proof.
  unfold best_quality_label, renamed_labels. intros HL HR. revert mv HL. induction HR as [|row row' p p' H1 _ IH]; intros mv HL; [reflexivity|].
  destruct mv as [|m mv]; [reflexivity|]. cbn [map combine fst snd]. rewrite IH by (intros x Hx; apply HL; right; auto). f_equal.
  pose proof (HL row (or_introl eq_refl)) as L. destruct H1 as [L' H1]. pose proof (row_max row row' L (conj L' H1)) as HX. rewrite L', L.
  assert (HP : Permutation (filter (fun k => Qeq_bool (nth k row' 0) (qmaximum row')) (seq 0 K)) (map s (filter (fun k => Qeq_bool (nth k row 0) (qmaximum row)) (seq 0 K)))).
  { eapply perm_trans; [apply perm_filter, (Permutation_sym Pn)|].
    assert (N : names = map s (seq 0 K)).
    { rewrite <- (pick_seq 0%nat names) at 1. rewrite (Permutation_length Pn), seq_length. reflexivity. }
    rewrite N at 1. rewrite filter_map_. apply Permutation_map. erewrite filter_ext_in; [reflexivity|]. intros k Hk. apply in_seq in Hk.
    apply Qeq_bool_ext; [apply H1; lia|exact HX]. }
  destruct (filter (fun k => Qeq_bool (nth k row 0) (qmaximum row)) (seq 0 K)) as [|a [|b l]]; cbn [map] in HP.
  - apply Permutation_sym, Permutation_nil in HP. rewrite HP. reflexivity.
  - apply Permutation_sym, Permutation_length_1_inv in HP. rewrite HP. reflexivity.
  - pose proof (Permutation_length HP) as LL. destruct (filter _ _) as [|a' [|b' l']]; try discriminate. reflexivity.
Qed.
Lemma core_rn fsqrt rnd rnd' priors priors' vp vp' method info : priors <> [] ->
  (forall q, In q priors -> distributions (length t) K q /\ clear_prediction q) -> Forall2 (renamed_matrix names) priors priors' -> (forall x, 0 < x -> 0 < fsqrt x) ->
  prob_rel (Some vp) (Some vp') K ->
  (forall r1 r2, get_majority_vote_label r1 t M (Some vp) K false = get_majority_vote_label r2 t M (Some vp) K false) ->
  label_quality_core fsqrt rnd t M K priors vp method = Ok info ->
  exists info', label_quality_core fsqrt rnd' t' M K priors' vp' method = Ok info' /\ same_consensus info' info.
Proof.
  intros Hne HD HR Hs HV HN H. assert (HW : forall r, In r t -> length r = M) by apply HA.
  assert (HD1 : forall q, In q priors -> distributions (length t) K q) by (intros q Hq; now apply HD).
  destruct (label_quality_inv fsqrt rnd t M K priors vp method info HW Hlen Hne HD1 Hs H) as (_ & HO & (GL & GC & _) & mv & minfo & EM & EI & EL & EC).
  pose proof H as H0. unfold label_quality_core in H0 |- *.
  destruct (assert_valid_multiannotator t M (Some (length vp, K)) false) as [[]|] eqn:EV; [|discriminate]. clear H0.
  assert (LV : length vp' = length vp) by apply HV. rewrite LV. rewrite (valid_rn (Some (length vp, K)) false (le_n K) EV). cbn [rbind].
  rewrite (vote_renamed (Some vp) (Some vp') K false mv rnd' HV) by (intros r; rewrite (HN r rnd); exact EM). cbn [rbind].
  destruct (mv_lt _ _ _ _ _ _ EM HW) as [LM BM]; [apply HA|].
  destruct (stats_rn fsqrt priors priors' mv minfo HO LM BM Hne HD HR Hs EI) as (mi' & E' & Smi). rewrite E'. cbn [rbind].
  destruct method.
  - rewrite EL in EC. rewrite EI in EC. injection EC as <-. exists mi'. auto.
  - destruct Smi as (_ & _ & _ & Sp & _).
    destruct (consensus_stats_ok fsqrt t M K mv priors HA HO Hlen LM BM Hne HD1 Hs) as (i1 & E1 & G1 & _). rewrite E1 in EI. assert (i1 = minfo) by congruence. subst i1.
    destruct G1 as (_ & _ & _ & _ & _ & _ & [_ D1] & _).
    rewrite (best_rn (post (c_post minfo)) _ mv) by (auto; intros row Hrow; now apply D1). rewrite <- EL. apply stats_rn with (priors := priors); auto.
Qed.
End Rename.
