(** * Lemmas about renaming the classes of multi-annotator data *)
From Coq Require Import QArith Qabs List ZArith Bool Arith Lia Lqa Permutation.
From Verif Require Import Base BaseFacts ModelUtil ModelCount ModelRank ModelMultiannotator SpecCount SpecRank SpecMultiannotator SpecSymmetry SpecRows SpecRename
  ProofUtil ProofCount ProofRank ProofSymmetry ProofMultiannotator ProofReorder ProofRows.
Import ListNotations.
Open Scope Q_scope.

Lemma qmax_match (a b : list Q) : a <> [] -> (forall x, In x a -> exists y, In y b /\ x == y) -> (forall y, In y b -> exists x, In x a /\ x == y) ->
  qmaximum a == qmaximum b.
Proof.
  intros Ha H1 H2. assert (Hb : b <> []).
  { destruct a as [|x a]; [congruence|]. destruct (H1 x (or_introl eq_refl)) as (y & Hy & _). destruct b; [destruct Hy|discriminate]. }
  apply Qle_antisym.
  - destruct (H1 _ (qmaximum_in a Ha)) as (y & Hy & ->). now apply qmaximum_ge.
  - destruct (H2 _ (qmaximum_in b Hb)) as (x & Hx & <-). now apply qmaximum_ge.
Qed.
Lemma qmin_match (a b : list Q) : a <> [] -> (forall x, In x a -> exists y, In y b /\ x == y) -> (forall y, In y b -> exists x, In x a /\ x == y) ->
  qminimum a == qminimum b.
Proof.
  intros Ha H1 H2. assert (Hb : b <> []).
  { destruct a as [|x a]; [congruence|]. destruct (H1 x (or_introl eq_refl)) as (y & Hy & _). destruct b; [destruct Hy|discriminate]. }
  apply Qle_antisym.
  - destruct (H2 _ (qminimum_in b Hb)) as (x & Hx & <-). now apply qminimum_le.
  - destruct (H1 _ (qminimum_in a Ha)) as (y & Hy & ->). now apply qminimum_le.
Qed.
Lemma filter_map_ {A B} (f : A -> B) p l : filter p (map f l) = map f (filter (fun x => p (f x)) l).
Proof. induction l as [|x l IH]; [reflexivity|]. cbn [map filter]. destruct (p (f x)); cbn [map]; now rewrite IH. Qed.
Lemma Qeq_bool_ext a b c d : a == b -> c == d -> Qeq_bool a c = Qeq_bool b d.
Proof. intros H1 H2. apply eq_true_iff_eq. rewrite !Qeq_bool_iff, H1, H2. reflexivity. Qed.

Section Keep.
Context (s : nat -> nat).
Lemma keep_max_rel f f' c c' : Permutation c' (map s c) -> (forall k, In k c -> f' (s k) == f k) ->
  Permutation (keep_max f' c') (map s (keep_max f c)).
Proof.
  intros HP HF. unfold keep_max. destruct c as [|k0 c0]; [apply Permutation_sym, Permutation_nil in HP; subst; constructor|].
  set (c := k0 :: c0) in *. assert (E : qmaximum (map f' c') == qmaximum (map f c)).
  { symmetry. apply qmax_match; [discriminate| |].
    - intros x Hx. apply in_map_iff in Hx as (k & <- & Hk). exists (f' (s k)). split; [|symmetry; auto].
      apply in_map. eapply Permutation_in; [symmetry; exact HP|]. now apply in_map.
    - intros y Hy. apply in_map_iff in Hy as (k' & <- & Hk'). apply (Permutation_in _ HP) in Hk'. apply in_map_iff in Hk' as (k & <- & Hk).
      exists (f k). split; [now apply in_map|symmetry; auto]. }
  eapply perm_trans; [apply perm_filter, HP|]. rewrite filter_map_. apply Permutation_map.
  erewrite filter_ext_in; [reflexivity|]. intros k Hk. apply Qeq_bool_ext; auto.
Qed.
Lemma keep_min_rel f f' c c' : Permutation c' (map s c) -> (forall k, In k c -> f' (s k) == f k) ->
  Permutation (keep_min f' c') (map s (keep_min f c)).
Proof.
  intros HP HF. unfold keep_min. destruct c as [|k0 c0]; [apply Permutation_sym, Permutation_nil in HP; subst; constructor|].
  set (c := k0 :: c0) in *. assert (E : qminimum (map f' c') == qminimum (map f c)).
  { symmetry. apply qmin_match; [discriminate| |].
    - intros x Hx. apply in_map_iff in Hx as (k & <- & Hk). exists (f' (s k)). split; [|symmetry; auto].
      apply in_map. eapply Permutation_in; [symmetry; exact HP|]. now apply in_map.
    - intros y Hy. apply in_map_iff in Hy as (k' & <- & Hk'). apply (Permutation_in _ HP) in Hk'. apply in_map_iff in Hk' as (k & <- & Hk).
      exists (f k). split; [now apply in_map|symmetry; auto]. }
  eapply perm_trans; [apply perm_filter, HP|]. rewrite filter_map_. apply Permutation_map.
  erewrite filter_ext_in; [reflexivity|]. intros k Hk. apply Qeq_bool_ext; auto.
Qed.
Definition vrel (v v' : vote) : Prop :=
  match v, v' with Decided k, Decided k' => k' = s k | Tied c, Tied c' => Permutation c' (map s c) | _, _ => False end.
Lemma settle_rel c c' : Permutation c' (map s c) -> vrel (settle c) (settle c').
Proof.
  intros H. destruct c as [|k [|k2 c]]; cbn [map] in H.
  - apply Permutation_sym, Permutation_nil in H. subst. constructor.
  - apply Permutation_sym, Permutation_length_1_inv in H. subst. reflexivity.
  - pose proof (Permutation_length H) as L. destruct c' as [|x [|y c']]; try discriminate. exact H.
Qed.
Lemma tiebreak_rel f f' v v' : vrel v v' -> (forall c c', v = Tied c -> Permutation c' (map s c) -> Permutation (f' c') (map s (f c))) ->
  vrel (tiebreak f v) (tiebreak f' v').
Proof.
  intros H HF. destruct v as [k|c], v' as [k'|c']; cbn in H; try contradiction; cbn [tiebreak]; [exact H|]. apply settle_rel. now apply HF.
Qed.
Lemma draw_rel rnd' i v v' k : vrel v v' -> (forall rnd, draw rnd i v = Ok k) -> draw rnd' i v' = Ok (s k).
Proof.
  intros H HD. destruct v as [a|c], v' as [a'|c']; cbn in H; try contradiction.
  - specialize (HD (fun _ => 0%nat)). cbn in HD |- *. subst a'. congruence.
  - assert (A : forall x, In x c -> x = k).
    { intros x Hx. apply In_nth with (d := 0%nat) in Hx as (p & Hp & E). specialize (HD (fun _ => p)). cbn [draw] in HD.
      destruct c as [|a c]; [discriminate|]. rewrite Nat.mod_small in HD by exact Hp. congruence. }
    destruct c as [|a c]; [specialize (HD (fun _ => 0%nat)); discriminate|].
    pose proof (Permutation_length H) as L. destruct c' as [|a' c']; [discriminate|]. cbn [draw]. f_equal.
    set (p := Nat.modulo _ _). assert (Hp : (p < length (a' :: c'))%nat) by (apply Nat.mod_upper_bound; discriminate).
    pose proof (nth_In (a' :: c') 0%nat Hp) as HI. apply (Permutation_in _ H) in HI. apply in_map_iff in HI as (x & E & Hx).
    rewrite <- E. f_equal. auto.
Qed.
End Keep.

Section Rename.
Context (K M : nat) (names : list nat) (t : table) (Pn : Permutation names (seq 0 K)) (HA : annotations M K t).
Notation s := (fun k => nth k names 0%nat).
Notation rn := (map (option_map (fun l => nth l names 0%nat))).
Notation t' := (renamed_table names t).

Lemma s_lt k : (k < K)%nat -> (s k < K)%nat.
Proof. apply (name_lt K names Pn). Qed.
Lemma s_inj j k : (j < K)%nat -> (k < K)%nat -> s j = s k -> j = k.
Proof. apply (name_inj K names Pn). Qed.
Lemma s_onto i : (i < K)%nat -> exists k, (k < K)%nat /\ s k = i.
Proof. apply (name_onto K names Pn). Qed.
Lemma s_eqb j k : (j < K)%nat -> (k < K)%nat -> Nat.eqb (s j) (s k) = Nat.eqb j k.
Proof.
  intros Hj Hk. destruct (Nat.eqb_spec j k) as [->|N]; [apply Nat.eqb_refl|]. apply Nat.eqb_neq. intros E. apply N. now apply s_inj.
Qed.
Lemma t'_len : length t' = length t.
Proof. apply map_length. Qed.
Lemma row_in r : In r t' -> exists r0, In r0 t /\ r = rn r0.
Proof. intros H. apply in_map_iff in H as (r0 & <- & H). eauto. Qed.
Lemma row_out r : In r t -> In (rn r) t'.
Proof. apply in_map. Qed.
Lemma nth_rn j r : nth j (rn r) None = option_map s (nth j r None).
Proof. rewrite <- (map_nth (option_map s)). reflexivity. Qed.
Lemma is_label_rn k o : (k < K)%nat -> (forall l, o = Some l -> (l < K)%nat) -> is_label (s k) (option_map s o) = is_label k o.
Proof. intros Hk Ho. destruct o as [l|]; cbn; [|reflexivity]. apply s_eqb; auto. Qed.
Lemma present_rn o : present (option_map s o) = present o.
Proof. destruct o; reflexivity. Qed.
Lemma num_rn r : num_annotations (rn r) = num_annotations r.
Proof. unfold num_annotations. rewrite map_map. f_equal. apply map_ext. apply present_rn. Qed.
Lemma total_rn r k : In r t -> (k < K)%nat -> label_total (s k) (rn r) = label_total k r.
Proof.
  intros Hr Hk. unfold label_total. rewrite map_map. f_equal. apply map_ext_in. intros o Ho. apply is_label_rn; auto.
  intros l ->. eapply (an_class _ _ _ HA); eauto.
Qed.
Lemma in_rn r x : In (Some x) (rn r) <-> exists k, In (Some k) r /\ x = s k.
Proof.
  rewrite in_map_iff. split.
  - intros ([k|] & E & H); [|discriminate]. cbn in E. exists k. split; [auto|congruence].
  - intros (k & H & ->). exists (Some k). auto.
Qed.
Lemma annotations_rn : annotations M K t'.
Proof.
  split.
  - intros r Hr. apply row_in in Hr as (r0 & H & ->). rewrite map_length. now apply (an_width _ _ _ HA).
  - intros r Hr. apply row_in in Hr as (r0 & H & ->). destruct (an_some _ _ _ HA r0 H) as (k & Hk). exists (s k). apply in_rn. eauto.
  - intros r x Hr Hx. apply row_in in Hr as (r0 & H & ->). apply in_rn in Hx as (k & Hk & ->). apply s_lt. eapply (an_class _ _ _ HA); eauto.
Qed.
Lemma overlap_rn : has_overlap t -> has_overlap t'.
Proof.
  intros (r & i & j & Hr & Hij & (a & Ha) & (b & Hb)). exists (rn r), i, j. split; [now apply row_out|]. split; [exact Hij|].
  split; [exists (s a); rewrite nth_rn, Ha; reflexivity|exists (s b); rewrite nth_rn, Hb; reflexivity].
Qed.
Lemma plurality_rn r x : In r t -> plurality (rn r) x <-> exists k, (k < K)%nat /\ x = s k /\ plurality r k.
Proof.
  intros Hr.
  assert (B : forall k, (1 <= votes r k)%nat -> (k < K)%nat) by (intros k Hk; apply votes_in in Hk; eapply (an_class _ _ _ HA); eauto).
  assert (V : forall k, (k < K)%nat -> votes (rn r) (s k) = votes r k) by (intros k Hk; rewrite <- !label_total_votes; now apply total_rn).
  assert (Z : forall x, (1 <= votes (rn r) x)%nat -> exists k, (k < K)%nat /\ x = s k).
  { intros y Hy. apply votes_in, in_rn in Hy as (k & Hk & ->). exists k. split; [|reflexivity]. eapply (an_class _ _ _ HA); eauto. }
  split.
  - intros [H1 H2]. destruct (Z x H1) as (k & Hk & ->). exists k. split; [auto|]. split; [auto|]. split; [rewrite <- V; auto|].
    intros k'. destruct (le_lt_dec 1 (votes r k')) as [L|L]; [|lia]. rewrite <- !V by auto. apply H2.
  - intros (k & Hk & -> & H1 & H2). split; [rewrite V; auto|]. intros y. rewrite V by auto.
    destruct (le_lt_dec 1 (votes (rn r) y)) as [L|L]; [|lia]. destruct (Z y L) as (k' & Hk' & ->). rewrite V by auto. apply H2.
Qed.
Lemma modes_rel Kt Kt' r : In r t -> (forall k, In (Some k) r -> (k < Kt)%nat) -> (forall k, In (Some k) (rn r) -> (k < Kt')%nat) ->
  Permutation (modes Kt' (rn r)) (map s (modes Kt r)) /\ forall k, In k (modes Kt r) -> (k < K)%nat.
Proof.
  intros Hr H H'. pose proof (an_some _ _ _ HA r Hr) as HS.
  assert (HS' : exists k, In (Some k) (rn r)) by (destruct HS as (k & Hk); exists (s k); apply in_rn; eauto).
  assert (B : forall k, In k (modes Kt r) -> (k < K)%nat).
  { intros k Hk. apply (in_modes Kt r H HS) in Hk as [Hk _]. apply votes_in in Hk. eapply (an_class _ _ _ HA); eauto. }
  split; [|exact B]. apply NoDup_Permutation.
  - apply modes_NoDup.
  - pose proof (modes_NoDup Kt r) as N. revert B N. generalize (modes Kt r). clear - Pn. induction l as [|k l IH]; intros B N; cbn [map]; constructor.
    + inversion N as [|? ? N1 N2]; subst. intros HI. apply in_map_iff in HI as (k' & E & Hk'). apply N1.
      assert (k' = k); [|subst; auto]. apply s_inj; auto; apply B; [right|left]; auto.
    + inversion N; subst. apply IH; auto. intros k' Hk'. apply B. right; auto.
  - intros x. rewrite (in_modes Kt' (rn r) H' HS'), plurality_rn by auto. rewrite in_map_iff. split.
    + intros (k & Hk & -> & HP). exists k. split; [reflexivity|]. now apply (in_modes Kt r H HS).
    + intros (k & <- & Hk). exists k. split; [auto|]. split; [reflexivity|]. now apply (in_modes Kt r H HS) in Hk.
Qed.
Lemma freq_rn k : (k < K)%nat -> class_frequency t' (s k) = class_frequency t k.
Proof.
  intros Hk. unfold class_frequency, renamed_table. rewrite map_map. f_equal. f_equal. apply map_ext_in. intros r Hr. now apply total_rn.
Qed.

(** [Kt], [Kt']: the numbers of classes the two runs work with *)
Section Votes.
Context (Kt Kt' : nat) (HK : forall r k, In r t -> In (Some k) r -> (k < Kt)%nat) (HK' : forall r k, In r t' -> In (Some k) r -> (k < Kt')%nat).
Lemma modes_rn r : In r t -> Permutation (modes Kt' (rn r)) (map s (modes Kt r)) /\ forall k, In k (modes Kt r) -> (k < K)%nat.
Proof. intros Hr. apply modes_rel; [exact Hr|intros k; now apply HK|]. intros k. apply HK'. now apply row_out. Qed.
Lemma nontied_rn : nontied_pairs Kt' t' = map (fun p => (rn (fst p), s (snd p))) (nontied_pairs Kt t) /\
  forall p, In p (nontied_pairs Kt t) -> In (fst p) t /\ (snd p < K)%nat.
Proof.
  unfold nontied_pairs, renamed_table.
  assert (G : forall l, (forall r, In r l -> In r t) ->
    flat_map (fun r => match settle (modes Kt' r) with Decided k => [(r, k)] | Tied _ => [] end) (map rn l) =
    map (fun p => (rn (fst p), s (snd p))) (flat_map (fun r => match settle (modes Kt r) with Decided k => [(r, k)] | Tied _ => [] end) l) /\
    forall p, In p (flat_map (fun r => match settle (modes Kt r) with Decided k => [(r, k)] | Tied _ => [] end) l) -> In (fst p) t /\ (snd p < K)%nat).
  { induction l as [|r l IH]; intros Hl; [split; [reflexivity|intros p []]|]. cbn [map flat_map].
    destruct IH as [E1 E2]; [intros r' Hr'; apply Hl; right; auto|]. assert (Hr : In r t) by (apply Hl; left; auto).
    destruct (modes_rn r Hr) as [HP HB]. pose proof (settle_rel s _ _ HP) as HS. rewrite map_app, <- E1. split.
    - f_equal. destruct (settle (modes Kt r)) as [k|c], (settle (modes Kt' (rn r))) as [k'|c']; cbn in HS; try contradiction; [|reflexivity]. subst k'. reflexivity.
    - intros p Hp. apply in_app_iff in Hp as [Hp|Hp]; [|auto]. destruct (settle (modes Kt r)) as [k|c] eqn:E; [|destruct Hp]. destruct Hp as [<-|[]]. cbn [fst snd].
      split; [auto|]. apply HB. unfold settle in E. destruct (modes Kt r) as [|a [|b m]]; try discriminate. injection E as ->. left; auto. }
  apply G. auto.
Qed.
Lemma nontied_agreement : agreement_nontied M (nontied_pairs Kt' t') = agreement_nontied M (nontied_pairs Kt t).
Proof.
  destruct nontied_rn as [E B]. rewrite E. unfold agreement_nontied. apply tab_ext. intros j Hj. rewrite filter_map_. cbn [fst snd].
  rewrite (filter_ext (fun x : list (option nat) * nat => present (nth j (rn (fst x)) None)) (fun x => present (nth j (fst x) None)))
    by (intros p; rewrite nth_rn; apply present_rn).
  set (mine := filter _ _). assert (HM : forall p, In p mine -> In (fst p) t /\ (snd p < K)%nat) by (intros p Hp; apply B; unfold mine in Hp; apply filter_In in Hp; apply Hp).
  assert (EM : map (fun p : list (option nat) * nat => if is_label (snd p) (nth j (fst p) None) then 1 else 0) (map (fun p => (rn (fst p), s (snd p))) mine) =
               map (fun p : list (option nat) * nat => if is_label (snd p) (nth j (fst p) None) then 1 else 0) mine).
  { rewrite map_map. apply map_ext_in. intros p Hp. cbn [fst snd]. rewrite nth_rn. destruct (HM p Hp) as [H1 H2].
    rewrite is_label_rn; auto. intros l El. eapply (an_class _ _ _ HA); [exact H1|]. rewrite <- El. apply nth_In.
    destruct (le_lt_dec (length (fst p)) j) as [L|L]; [rewrite nth_overflow in El by auto; discriminate|auto]. }
  destruct mine as [|p m]; [reflexivity|]. cbn [map] in EM |- *. f_equal. f_equal. exact EM.
Qed.
Lemma agreeing_rn agr r c c' : In r t -> (forall k, In k c -> (k < K)%nat) -> Permutation c' (map s c) ->
  Permutation (keep_agreeing agr (rn r) c') (map s (keep_agreeing agr r c)).
Proof.
  intros Hr HB HP. destruct agr as [sc|]; [|constructor]. apply keep_max_rel; [exact HP|]. intros k Hk. unfold label_score, who_gave. rewrite map_length.
  rewrite (filter_ext_in (fun j => is_label (s k) (nth j (rn r) None)) (fun j => is_label k (nth j r None))); [reflexivity|].
  intros j Hj. rewrite nth_rn. apply is_label_rn; auto. intros l El. eapply (an_class _ _ _ HA); [exact Hr|]. rewrite <- El. apply nth_In. apply in_seq in Hj. lia.
Qed.
Lemma cands_keep f v c : (forall l, incl (f l) l) -> tiebreak f v = Tied c -> exists c0, v = Tied c0 /\ incl c c0.
Proof.
  intros Hf. destruct v as [k|c0]; cbn [tiebreak]; [discriminate|]. unfold settle. intros E. exists c0. split; [reflexivity|].
  specialize (Hf c0). destruct (f c0) as [|a [|b m]]; try discriminate; injection E as <-; auto.
Qed.
Lemma vote_rn pp pp' i r : In r t ->
  match pp, pp' with None, None => True | Some p, Some p' => forall k, (k < K)%nat -> mget p' i (s k) == mget p i k | _, _ => False end ->
  vrel s (vote_of Kt M t pp i r) (vote_of Kt' M t' pp' i (rn r)).
Proof.
  intros Hr HP. destruct (modes_rn r Hr) as [HM HB]. unfold vote_of. cbv zeta. rewrite nontied_agreement. set (agr := impute _).
  assert (incl_max : forall f l, incl (keep_max f l) l) by (intros f l x Hx; apply filter_In in Hx; apply Hx).
  assert (incl_min : forall f l, incl (keep_min f l) l) by (intros f l x Hx; apply filter_In in Hx; apply Hx).
  assert (B0 : forall c, settle (modes Kt r) = Tied c -> forall k, In k c -> (k < K)%nat).
  { unfold settle. intros c E k Hk. apply HB. destruct (modes Kt r) as [|a [|b m]]; try discriminate; injection E as <-; auto. }
  set (v1 := match pp with None => _ | Some _ => _ end). set (v1' := match pp' with None => _ | Some _ => _ end).
  assert (R1 : vrel s v1 v1' /\ forall c, v1 = Tied c -> forall k, In k c -> (k < K)%nat).
  { unfold v1, v1'. destruct pp as [p|], pp' as [p'|]; try contradiction.
    - split.
      + apply tiebreak_rel; [now apply settle_rel|]. intros c c' Ec Hc. apply keep_max_rel; [exact Hc|]. intros k Hk. apply HP. eapply B0; eauto.
      + intros c Ec k Hk. destruct (cands_keep _ _ _ (incl_max _) Ec) as (c0 & E0 & I0). eapply B0; eauto.
    - split; [now apply settle_rel|exact B0]. }
  destruct R1 as [R1 B1]. clearbody v1 v1'.
  set (v2 := tiebreak (keep_min (class_frequency t)) v1). set (v2' := tiebreak (keep_min (class_frequency t')) v1').
  assert (R2 : vrel s v2 v2' /\ forall c, v2 = Tied c -> forall k, In k c -> (k < K)%nat).
  { split.
    - apply tiebreak_rel; [exact R1|]. intros c c' Ec Hc. apply keep_min_rel; [exact Hc|]. intros k Hk. rewrite freq_rn; [reflexivity|]. eapply B1; eauto.
    - intros c Ec k Hk. destruct (cands_keep _ _ _ (incl_min _) Ec) as (c0 & E0 & I0). eapply B1; eauto. }
  destruct R2 as [R2 B2]. clearbody v2 v2'.
  apply tiebreak_rel; [exact R2|]. intros c c' Ec Hc. apply agreeing_rn; auto. eapply B2; eauto.
Qed.
End Votes.
End Rename.
