(** * Proofs for the multi-annotator properties *)
From Coq Require Import QArith Qabs List ZArith Bool Arith Lia Lqa Permutation Sorted Setoid Morphisms.
From Verif Require Import Base BaseFacts ModelUtil ModelCount ModelRank ModelMultiannotator SpecCount SpecMultiannotator
  ProofUtil ProofCount ProofNoise ProofLabels ProofRank ProofOutlier ProofMultilabel.
Import ListNotations.
Open Scope Q_scope.

(** ** Counting votes *)
Lemma label_total_votes k r : label_total k r = votes r k.
Proof.
  unfold label_total, votes. induction r as [|o r IH]; [reflexivity|].
  cbn [map count_occ]. rewrite count_true_cons, IH. destruct (entry_dec o (Some k)) as [->|E].
  - simpl. rewrite Nat.eqb_refl. reflexivity.
  - destruct o as [l|]; simpl; [|reflexivity]. destruct (Nat.eqb_spec l k); [congruence|reflexivity].
Qed.
Lemma votes_in r k : (1 <= votes r k)%nat <-> In (Some k) r.
Proof. unfold votes. rewrite (count_occ_In entry_dec). lia. Qed.
Lemma in_given l r : In l (given r) <-> In (Some l) r.
Proof.
  unfold given. rewrite in_flat_map. split.
  - intros (o & Ho & H). destruct o; simpl in H; [|tauto]. destruct H as [<-|[]]. auto.
  - intros H. exists (Some l). split; [auto|]. left; auto.
Qed.
Lemma in_all_given l t : In l (all_given t) <-> exists r, In r t /\ In (Some l) r.
Proof.
  unfold all_given. rewrite in_flat_map. split; intros (r & H1 & H2); exists r; split; auto; apply in_given; auto.
Qed.

Lemma nmax_le l n : (forall x, In x l -> (x <= n)%nat) -> (nmax l <= n)%nat.
Proof. induction l; simpl; intros H; [lia|]. apply Nat.max_lub; auto. Qed.

Lemma in_modes K r : (forall k, In (Some k) r -> (k < K)%nat) -> (exists k, In (Some k) r) ->
  forall k, In k (modes K r) <-> plurality r k.
Proof.
  intros HK (k0 & H0) k. unfold modes. rewrite filter_In, in_seq, Nat.eqb_eq.
  set (cs := tab K (fun k => label_total k r)).
  assert (Hmax : forall k', (votes r k' <= nmax cs)%nat).
  { intros k'. destruct (Nat.eq_dec (votes r k') 0) as [->|E]; [lia|].
    assert (k' < K)%nat by (apply HK, votes_in; lia). rewrite <- label_total_votes.
    apply nmax_ge. apply in_tab. exists k'. auto. }
  split.
  - intros [[_ Hk] E]. unfold cs at 1 in E. rewrite nth_tab in E by lia. rewrite label_total_votes in E.
    split; [|intros k'; rewrite E; apply Hmax]. rewrite E. specialize (Hmax k0). apply votes_in in H0. lia.
  - intros [Hk1 Hk2]. assert (k < K)%nat by (apply HK, votes_in; lia). split; [lia|].
    unfold cs at 1. rewrite nth_tab by lia. rewrite label_total_votes. apply Nat.le_antisymm; [apply Hmax|].
    apply nmax_le. intros x Hx. apply in_tab in Hx as (i & _ & ->). rewrite label_total_votes. auto.
Qed.
Lemma plurality_exists r : (exists k, In (Some k) r) -> exists k, plurality r k.
Proof.
  intros (k0 & H0). set (K := S (nmax (given r))).
  assert (HK : forall k, In (Some k) r -> (k < K)%nat) by (intros k Hk; apply in_given, nmax_ge in Hk; unfold K; lia).
  assert (Hx : (exists k, In k (modes K r))).
  { assert (Hc : tab K (fun k => label_total k r) <> []) by (unfold K; rewrite tab_S; discriminate).
    apply nmax_in in Hc. apply in_tab in Hc as (i & Hi & E). exists i. unfold modes. apply filter_In. split; [apply in_seq; lia|].
    apply Nat.eqb_eq. rewrite (nth_tab K) by auto. symmetry; exact E. }
  destruct Hx as (k & Hk). exists k. apply (in_modes K r HK (ex_intro _ k0 H0)). auto.
Qed.
Lemma modes_NoDup K r : NoDup (modes K r).
Proof. unfold modes. apply NoDup_filter, seq_NoDup. Qed.

(** ** Candidate filters *)
Lemma in_keep_max s c k : In k (keep_max s c) <-> In k c /\ forall k', In k' c -> s k' <= s k.
Proof.
  unfold keep_max. rewrite filter_In, Qeq_bool_iff. split; intros [H1 H2]; split; auto.
  - intros k' Hk'. rewrite H2. apply qmaximum_ge, in_map. auto.
  - apply Qle_antisym; [apply qmaximum_ge, in_map; auto|].
    assert (Hin : In (qmaximum (map s c)) (map s c)) by (apply qmaximum_in; destruct c; [destruct H1|discriminate]).
    apply in_map_iff in Hin as (k' & E & Hk'). rewrite <- E. auto.
Qed.
Lemma in_keep_min s c k : In k (keep_min s c) <-> In k c /\ forall k', In k' c -> s k <= s k'.
Proof.
  unfold keep_min. rewrite filter_In, Qeq_bool_iff. split; intros [H1 H2]; split; auto.
  - intros k' Hk'. rewrite H2. apply qminimum_le, in_map. auto.
  - apply Qle_antisym; [|apply qminimum_le, in_map; auto].
    assert (Hin : In (qminimum (map s c)) (map s c)) by (apply qminimum_in; destruct c; [destruct H1|discriminate]).
    apply in_map_iff in Hin as (k' & E & Hk'). rewrite <- E. auto.
Qed.
Lemma keep_max_ne s c : c <> [] -> keep_max s c <> [].
Proof.
  intros H. assert (Hin : In (qmaximum (map s c)) (map s c)) by (apply qmaximum_in; destruct c; [congruence|discriminate]).
  apply in_map_iff in Hin as (k & E & Hk). assert (In k (keep_max s c)).
  { apply filter_In. split; auto. apply Qeq_bool_iff. rewrite E. reflexivity. }
  intros E'. rewrite E' in H0. destruct H0.
Qed.
Lemma keep_min_ne s c : c <> [] -> keep_min s c <> [].
Proof.
  intros H. assert (Hin : In (qminimum (map s c)) (map s c)) by (apply qminimum_in; destruct c; [congruence|discriminate]).
  apply in_map_iff in Hin as (k & E & Hk). assert (In k (keep_min s c)).
  { apply filter_In. split; auto. apply Qeq_bool_iff. rewrite E. reflexivity. }
  intros E'. rewrite E' in H0. destruct H0.
Qed.
Lemma keep_max_single s k : keep_max s [k] = [k].
Proof. unfold keep_max. simpl. rewrite (proj2 (Qeq_bool_iff _ _) (Qeq_refl _)). reflexivity. Qed.
Lemma keep_min_single s k : keep_min s [k] = [k].
Proof. unfold keep_min. simpl. rewrite (proj2 (Qeq_bool_iff _ _) (Qeq_refl _)). reflexivity. Qed.
Lemma keep_max_NoDup s c : NoDup c -> NoDup (keep_max s c).
Proof. apply NoDup_filter. Qed.
Lemma keep_min_NoDup s c : NoDup c -> NoDup (keep_min s c).
Proof. apply NoDup_filter. Qed.

Definition cands (v : vote) : list nat := match v with Decided k => [k] | Tied c => c end.
Lemma cands_settle c : cands (settle c) = c.
Proof. destruct c as [|a [|b c]]; reflexivity. Qed.
Lemma cands_tiebreak f v : (forall k, f [k] = [k]) -> cands (tiebreak f v) = f (cands v).
Proof. intros H. destruct v as [k|c]; simpl; [auto|apply cands_settle]. Qed.

(** what a settled vote looks like: decided exactly for one candidate *)
Definition tidy (v : vote) : Prop := v = settle (cands v).
Lemma tidy_settle c : tidy (settle c).
Proof. unfold tidy. rewrite cands_settle. reflexivity. Qed.
Lemma tidy_tiebreak f v : tidy v -> tidy (tiebreak f v).
Proof. destruct v; simpl; intros; [reflexivity|apply tidy_settle]. Qed.

(** candidates before the third tie-break *)
Definition cands2 K (t : table) (pp : option (list (list Q))) i r : list nat :=
  keep_min (class_frequency t) (match pp with None => modes K r | Some p => keep_max (fun k => mget p i k) (modes K r) end).
Lemma vote_of_tied K M t pp i r : exists v2, cands v2 = cands2 K t pp i r /\ tidy v2 /\
  vote_of K M t pp i r = tiebreak (keep_agreeing (impute (agreement_nontied M (nontied_pairs K t))) r) v2.
Proof.
  unfold vote_of, cands2. eexists. split; [|split; [|reflexivity]].
  - rewrite cands_tiebreak by (apply keep_min_single). f_equal. destruct pp; [|apply cands_settle].
    rewrite cands_tiebreak by (apply keep_max_single). rewrite cands_settle. reflexivity.
  - apply tidy_tiebreak. destruct pp; [apply tidy_tiebreak|]; apply tidy_settle.
Qed.

Lemma draw_in rnd i v k : draw rnd i v = Ok k -> In k (cands v).
Proof.
  destruct v as [k'|[|a c]]; simpl; intros H; [injection H as ->; auto|discriminate|].
  injection H as <-. change (In (nth (rnd i mod S (length c)) (a :: c) 0%nat) (a :: c)). apply nth_In. apply Nat.mod_upper_bound. simpl; lia.
Qed.
Lemma draw_ok rnd i v : cands v <> [] -> exists k, draw rnd i v = Ok k.
Proof. destruct v as [k'|[|a c]]; simpl; intros H; eauto. congruence. Qed.

Lemma cands2_in K t pp i r : (forall k, In (Some k) r -> (k < K)%nat) -> (exists k, In (Some k) r) -> forall k,
  In k (cands2 K t pp i r) <->
  plurality r k /\
  (forall p, pp = Some p -> forall k', plurality r k' -> mget p i k' <= mget p i k) /\
  (forall k', plurality r k' -> (forall p, pp = Some p -> mget p i k' == mget p i k) ->
     (total_votes t k <= total_votes t k')%nat).
Proof.
  intros HK Hex k. unfold cands2. rewrite in_keep_min.
  assert (Hf : forall a b, class_frequency t a <= class_frequency t b <-> (total_votes t a <= total_votes t b)%nat).
  { intros a b. unfold class_frequency, total_votes. rewrite Qnat_le_iff.
    rewrite !(map_ext _ _ (label_total_votes _)). reflexivity. }
  destruct pp as [p|].
  - rewrite in_keep_max, (in_modes K r HK Hex). split.
    + intros [[H1 H2] H3]. split; [auto|split].
      * intros p' [= <-] k' Hk'. apply H2. apply (in_modes K r HK Hex). auto.
      * intros k' Hk' He. apply Hf. apply H3. apply in_keep_max. split; [apply (in_modes K r HK Hex); auto|].
        intros k'' Hk''. rewrite (He p eq_refl). apply H2; auto.
    + intros (H1 & H2 & H3). split.
      * split; auto. intros k' Hk'. apply (in_modes K r HK Hex) in Hk'. apply (H2 p eq_refl); auto.
      * intros k' Hk'. apply in_keep_max in Hk' as [Hk' Hm]. apply Hf. apply H3.
        { apply (in_modes K r HK Hex) in Hk'. auto. }
        intros p' [= <-]. apply Qle_antisym; [apply (H2 p eq_refl); apply (in_modes K r HK Hex) in Hk'; auto|].
        apply Hm. apply (in_modes K r HK Hex). auto.
  - rewrite (in_modes K r HK Hex). split.
    + intros [H1 H2]. split; [auto|split; [intros; discriminate|]]. intros k' Hk' _. apply Hf, H2. apply (in_modes K r HK Hex). auto.
    + intros (H1 & _ & H3). split; auto. intros k' Hk'. apply Hf, H3; [apply (in_modes K r HK Hex); auto|intros; discriminate].
Qed.
Lemma cands2_ne K t pp i r : (forall k, In (Some k) r -> (k < K)%nat) -> (exists k, In (Some k) r) -> cands2 K t pp i r <> [].
Proof.
  intros HK Hex. unfold cands2. apply keep_min_ne.
  assert (modes K r <> []).
  { destruct (plurality_exists r Hex) as (k & Hk). apply (in_modes K r HK Hex) in Hk. destruct (modes K r); [destruct Hk|discriminate]. }
  destruct pp; auto. apply keep_max_ne; auto.
Qed.

(** ** Unfolding the public function *)
Lemma gmv_inv rnd t M pp Kpp verbose mv : get_majority_vote_label rnd t M pp Kpp verbose = Ok mv ->
  (forall r k, In r t -> In (Some k) r -> (k < num_classes t pp Kpp)%nat) /\
  Forall2 (fun ir k => draw rnd (fst ir) (vote_of (num_classes t pp Kpp) M t pp (fst ir) (snd ir)) = Ok k)
          (combine (seq 0 (length t)) t) mv.
Proof.
  unfold get_majority_vote_label. intros H.
  match type of H with rbind ?x _ = _ => destruct x; cbn [rbind] in H; [|discriminate] end.
  assert (H' : (if Nat.eqb (num_classes t pp Kpp) 0 then Raise ValueError
    else if existsb (fun l => Nat.leb (num_classes t pp Kpp) l) (all_given t) then Raise IndexError
    else rmap (fun ir => draw rnd (fst ir) (vote_of (num_classes t pp Kpp) M t pp (fst ir) (snd ir)))
              (combine (seq 0 (length t)) t)) = Ok mv).
  { unfold num_classes. change (labels_in t) with (all_given t). destruct pp, (all_given t); exact H || discriminate. }
  clear H. destruct (Nat.eqb (num_classes t pp Kpp) 0); [discriminate|].
  destruct (existsb _ _) eqn:E; [discriminate|]. split.
  - intros r k Hr Hk. destruct (le_lt_dec (num_classes t pp Kpp) k) as [Hle|]; auto. exfalso.
    assert (existsb (fun l => Nat.leb (num_classes t pp Kpp) l) (all_given t) = true); [|congruence].
    apply existsb_exists. exists k. split; [apply in_all_given; eauto|apply Nat.leb_le; auto].
  - apply rmap_forall2. auto.
Qed.
Lemma gmv_tot rnd t M pp Kpp : (exists l, In l (all_given t)) ->
  (forall r k, In r t -> In (Some k) r -> (k < num_classes t pp Kpp)%nat) ->
  (forall i r, In (i, r) (combine (seq 0 (length t)) t) -> cands (vote_of (num_classes t pp Kpp) M t pp i r) <> []) ->
  exists mv, get_majority_vote_label rnd t M pp Kpp false = Ok mv.
Proof.
  intros (l & Hl) HK Hc. unfold get_majority_vote_label. cbn [rbind].
  assert (E : existsb (fun l => Nat.leb (num_classes t pp Kpp) l) (all_given t) = false).
  { apply not_true_is_false. intros E. apply existsb_exists in E as (x & Hx & Hle). apply Nat.leb_le in Hle.
    apply in_all_given in Hx as (r & Hr & Hk). specialize (HK r x Hr Hk). lia. }
  assert (E0 : Nat.eqb (num_classes t pp Kpp) 0 = false).
  { apply Nat.eqb_neq. apply in_all_given in Hl as (r & Hr & Hk). specialize (HK r l Hr Hk). lia. }
  assert (Hm : exists mv, rmap (fun ir => draw rnd (fst ir) (vote_of (num_classes t pp Kpp) M t pp (fst ir) (snd ir)))
              (combine (seq 0 (length t)) t) = Ok mv).
  { apply rmap_tot. intros [i r] Hir. apply draw_ok. apply Hc. auto. }
  unfold num_classes in *. change (labels_in t) with (all_given t) in *. destruct pp; destruct (all_given t) eqn:EA; try (destruct Hl; fail); rewrite E0, E; exact Hm.
Qed.
Lemma F2_nth {A B} (R : A -> B -> Prop) l l' : Forall2 R l l' -> forall i d d', (i < length l)%nat -> R (nth i l d) (nth i l' d').
Proof.
  induction 1; intros i d d' Hi; simpl in *; [lia|]. destruct i; auto. apply IHForall2. lia.
Qed.
Lemma F2_len {A B} (R : A -> B -> Prop) l l' : Forall2 R l l' -> length l = length l'.
Proof. induction 1; simpl; auto. Qed.
Lemma gmv_nth rnd t M pp Kpp verbose mv : get_majority_vote_label rnd t M pp Kpp verbose = Ok mv ->
  length mv = length t /\ forall i, (i < length t)%nat ->
    draw rnd i (vote_of (num_classes t pp Kpp) M t pp i (nth i t [])) = Ok (nth i mv 0%nat).
Proof.
  intros H. apply gmv_inv in H as [_ H]. pose proof (F2_len _ _ _ H) as Hl. rewrite combine_length, seq_length, Nat.min_id in Hl.
  split; [auto|]. intros i Hi.
  assert (Hi' : (i < length (combine (seq 0 (length t)) t))%nat) by (rewrite combine_length, seq_length; lia).
  pose proof (F2_nth _ _ _ H i (0%nat, []) 0%nat Hi') as G.
  rewrite combine_nth in G by (rewrite seq_length; auto). cbn [fst snd] in G. rewrite seq_nth in G by auto. exact G.
Qed.

(** ** Reliability of annotators *)
Lemma winner_some K r : (forall k, In (Some k) r -> (k < K)%nat) -> (exists k, In (Some k) r) ->
  forall k, winner K r = Some k <-> modes K r = [k].
Proof.
  intros HK Hex k. pose proof (in_modes K r HK Hex) as Hm.
  set (test := fun k => (Nat.ltb 0 (votes r k) &&
                  forallb (fun k' => Nat.eqb k' k || Nat.ltb (votes r k') (votes r k)) (seq 0 K))%bool).
  assert (Ht : forall k, test k = true <-> clear_winner r k).
  { intros k'. unfold test. rewrite andb_true_iff, Nat.ltb_lt, forallb_forall. split.
    - intros [H1 H2]. split; [lia|]. intros j Hj. destruct (Nat.eq_dec (votes r j) 0) as [->|E]; [lia|].
      assert (j < K)%nat by (apply HK, votes_in; lia). assert (Hs : In j (seq 0 K)) by (apply in_seq; lia).
      specialize (H2 j Hs). apply orb_true_iff in H2 as [H2|H2]; [apply Nat.eqb_eq in H2; congruence|apply Nat.ltb_lt in H2; auto].
    - intros [H1 H2]. split; [lia|]. intros j _. destruct (Nat.eq_dec j k') as [->|E]; [rewrite Nat.eqb_refl; auto|].
      apply orb_true_iff. right. apply Nat.ltb_lt; auto. }
  assert (Hu : forall a, clear_winner r a -> forall b, plurality r b -> b = a).
  { intros a [A1 A2] b [B1 B2]. destruct (Nat.eq_dec b a); auto. specialize (A2 b n). specialize (B2 a). lia. }
  assert (Hp : forall a, clear_winner r a -> plurality r a).
  { intros a [A1 A2]. split; auto. intros b. destruct (Nat.eq_dec b a) as [->|n]; [lia|]. specialize (A2 b n). lia. }
  unfold winner. fold test. split.
  - intros H. apply find_some in H as [H1 H2]. apply Ht in H2. pose proof (modes_NoDup K r) as ND.
    assert (Hin : In k (modes K r)) by (apply Hm, Hp; auto).
    assert (Hall : forall b, In b (modes K r) -> b = k) by (intros b Hb; apply Hu; auto; apply Hm; auto).
    destruct (modes K r) as [|a [|b l]]; [destruct Hin| |].
    + rewrite (Hall a (or_introl eq_refl)). auto.
    + exfalso. inversion ND; subst. apply H3. rewrite (Hall a (or_introl eq_refl)). rewrite (Hall b (or_intror (or_introl eq_refl))). left; auto.
  - intros H. assert (Hk : plurality r k) by (apply Hm; rewrite H; left; auto).
    assert (Hc : clear_winner r k).
    { destruct Hk as [K1 K2]. split; auto. intros b Hb. destruct (le_lt_dec (votes r k) (votes r b)) as [Hle|]; auto. exfalso.
      assert (plurality r b) by (split; [lia|]; intros c; specialize (K2 c); lia).
      apply Hm in H0. rewrite H in H0. destruct H0 as [|[]]; congruence. }
    destruct (find test (seq 0 K)) as [a|] eqn:E.
    + apply find_some in E as [_ E]. apply Ht in E. f_equal. symmetry. apply (Hu a); auto.
    + exfalso. assert (Hs : In k (seq 0 K)) by (apply in_seq; split; [lia|]; apply HK, votes_in; apply Hc).
      pose proof (find_none _ _ E k Hs) as F. apply Ht in Hc. congruence.
Qed.
Lemma winner_clear K r : (forall k, In (Some k) r -> (k < K)%nat) -> (exists k, In (Some k) r) ->
  forall k, clear_winner r k -> modes K r = [k].
Proof.
  intros HK Hex k [A1 A2]. pose proof (in_modes K r HK Hex) as Hm. pose proof (modes_NoDup K r) as ND.
  assert (Hin : In k (modes K r)). { apply Hm. split; auto. intros b. destruct (Nat.eq_dec b k) as [->|n]; [lia|]. specialize (A2 b n). lia. }
  assert (Hall : forall b, In b (modes K r) -> b = k).
  { intros b Hb. apply Hm in Hb as [_ Hb]. destruct (Nat.eq_dec b k); auto. specialize (A2 b n). specialize (Hb k). lia. }
  destruct (modes K r) as [|a [|b l]]; [destruct Hin| |].
  - rewrite (Hall a (or_introl eq_refl)). auto.
  - exfalso. inversion ND; subst. apply H1. rewrite (Hall a (or_introl eq_refl)). rewrite (Hall b (or_intror (or_introl eq_refl))). left; auto.
Qed.

Lemma seen_eq K M t j : annotations M K t ->
  seen K t j = map (fun p => if is_label (snd p) (nth j (fst p) None) then 1 else 0)
                   (filter (fun p => present (nth j (fst p) None)) (nontied_pairs K t)).
Proof.
  intros [W S C]. unfold nontied_pairs. induction t as [|r t IH]; [reflexivity|].
  cbn [seen flat_map]. rewrite filter_app, map_app, <- IH; [|intros; apply W; right; auto|intros; apply S; right; auto|intros r' k' Hr Hk; apply (C r'); [right|]; auto].
  assert (HK : forall k, In (Some k) r -> (k < K)%nat) by (intros k Hk; apply (C r); [left|]; auto).
  assert (Hex : exists k, In (Some k) r) by (apply S; left; auto).
  pose proof (winner_some K r HK Hex) as Hw.
  destruct (winner K r) as [k|] eqn:E.
  - rewrite (proj1 (Hw k) eq_refl). cbn [settle filter fst present]. destruct (nth j r None) as [l|] eqn:EN; cbn [present map fst snd app is_label]; [|reflexivity].
    rewrite EN. reflexivity.
  - destruct (modes K r) as [|a [|b l]]; [reflexivity| |reflexivity]. exfalso. specialize (Hw a). destruct Hw as [_ Hw]. specialize (Hw eq_refl). discriminate.
Qed.

Lemma is_average_unique l a b : is_average l a -> is_average l b -> a == b.
Proof.
  intros [H1 H2] [_ H3]. assert (0 < Qnat (length l)) by (apply Qnat_pos; destruct l; simpl; [congruence|lia]).
  assert (E : a * Qnat (length l) == b * Qnat (length l)) by (rewrite H2, H3; reflexivity).
  apply Qmult_inj_r in E; auto. lra.
Qed.
Lemma is_average_ext l l' a : Forall2 Qeq l l' -> is_average l a -> is_average l' a.
Proof.
  intros HF [H1 H2]. split; [intros ->; inversion HF; subst; congruence|].
  rewrite <- (F2_len _ _ _ HF). rewrite <- (qsum_Forall2 _ _ HF). auto.
Qed.

(** the imputed agreement scores *)
Lemma known_tab M (f : nat -> option Q) (rel : nat -> Q) : (forall j q, (j < M)%nat -> f j = Some q -> q == rel j) ->
  Forall2 Qeq (known (tab M f)) (map rel (filter (fun j => match f j with Some _ => true | None => false end) (seq 0 M))).
Proof.
  unfold tab, known. intros H. assert (H' : forall j q, In j (seq 0 M) -> f j = Some q -> q == rel j) by (intros j q Hj; apply in_seq in Hj; apply H; lia).
  clear H. induction (seq 0 M) as [|j l IH]; simpl; [constructor|].
  specialize (IH (fun j q Hj => H' j q (or_intror Hj))). destruct (f j) eqn:E; simpl; auto. constructor; auto. apply (H' j); [left|]; auto.
Qed.

Lemma agr_reliable K M t s : annotations M K t -> impute (agreement_nontied M (nontied_pairs K t)) = Some s ->
  length s = M /\ reliabilities K M t (fun j => nth j s 0).
Proof.
  intros HA H. unfold impute in H. destruct (known _) as [|q qs] eqn:EK in H; [discriminate|]. injection H as Hs.
  set (f := fun j => match filter (fun p => present (nth j (fst p) None)) (nontied_pairs K t) with
    | [] => None
    | _ => Some (qmean (map (fun p => if is_label (snd p) (nth j (fst p) None) then 1 else 0)
                            (filter (fun p => present (nth j (fst p) None)) (nontied_pairs K t))))
    end).
  assert (Ef : agreement_nontied M (nontied_pairs K t) = tab M f).
  { unfold agreement_nontied. apply tab_ext. intros j _. unfold f. destruct (filter _ _); reflexivity. }
  rewrite Ef in *. clear Ef.
  assert (Hseen : forall j, seen K t j <> [] -> f j = Some (qmean (seen K t j))).
  { intros j Hj. rewrite (seen_eq K M t j HA) in *. unfold f. destruct (filter _ _) eqn:EF; [simpl in Hj; congruence|]. reflexivity. }
  assert (Hunseen : forall j, seen K t j = [] -> f j = None).
  { intros j Hj. rewrite (seen_eq K M t j HA) in Hj. unfold f. apply map_eq_nil in Hj. rewrite Hj. reflexivity. }
  assert (Hlen : length s = M) by (rewrite <- Hs, map_length, tab_length; auto).
  assert (Hnth : forall j, (j < M)%nat -> nth j s 0 = match f j with Some x => x | None => qmean (q :: qs) end).
  { intros j Hj. rewrite <- Hs. rewrite (nth_map_gen _ _ _ _ None) by (rewrite tab_length; auto). rewrite nth_tab by auto. reflexivity. }
  split; auto. intros j Hj. split.
  - intros Hn. rewrite Hnth by auto. rewrite (Hseen j Hn). apply qmean_average. auto.
  - intros Hn. rewrite Hnth by auto. rewrite (Hunseen j Hn).
    apply (is_average_ext (q :: qs)); [|apply qmean_average; discriminate].
    rewrite <- EK.
    replace (filter (fun i => negb (length (seen K t i) =? 0)) (seq 0 M))
      with (filter (fun j => match f j with Some _ => true | None => false end) (seq 0 M)).
    + apply known_tab. intros i x Hi E. rewrite Hnth by auto. rewrite E. reflexivity.
    + apply filter_ext. intros i. destruct (seen K t i) eqn:E.
      * rewrite (Hunseen i E). reflexivity.
      * rewrite (Hseen i) by congruence. reflexivity.
Qed.
Lemma agr_none K M t : annotations M K t -> impute (agreement_nontied M (nontied_pairs K t)) = None ->
  forall r, In r t -> forall k, ~ clear_winner r k.
Proof.
  intros HA H r Hr k Hk. pose proof HA as [W S C]. unfold impute in H. destruct (known _) eqn:EK in H; [|discriminate].
  assert (Hm : modes K r = [k]) by (apply winner_clear; auto; intros; apply (C r); auto).
  assert (Hin : In (r, k) (nontied_pairs K t)).
  { unfold nontied_pairs. apply in_flat_map. exists r. split; auto. rewrite Hm. left; auto. }
  destruct Hk as [Hk _]. apply votes_in in Hk. destruct (In_nth _ _ None Hk) as (j & Hj & Ej). rewrite (W r Hr) in Hj.
  assert (In (agreement_nontied M (nontied_pairs K t)) [agreement_nontied M (nontied_pairs K t)]) by (left; auto).
  assert (Hn : nth j (agreement_nontied M (nontied_pairs K t)) None = None).
  { destruct (nth j (agreement_nontied M (nontied_pairs K t)) None) as [q|] eqn:E; auto. exfalso.
    assert (In q (known (agreement_nontied M (nontied_pairs K t)))); [|rewrite EK in H1; destruct H1].
    apply in_flat_map. exists (Some q). split; [|left; auto]. rewrite <- E. apply nth_In. unfold agreement_nontied. rewrite tab_length. auto. }
  unfold agreement_nontied in Hn. rewrite nth_tab in Hn by auto.
  destruct (filter (fun p => present (nth j (fst p) None)) (nontied_pairs K t)) eqn:EF; [|discriminate].
  assert (Hf : In (r, k) (filter (fun p => present (nth j (fst p) None)) (nontied_pairs K t))).
  { apply filter_In. split; auto. cbn [fst]. rewrite Ej. reflexivity. }
  rewrite EF in Hf. destruct Hf.
Qed.
Lemma reliabilities_unique K M t a b : reliabilities K M t a -> reliabilities K M t b -> forall j, (j < M)%nat -> a j == b j.
Proof.
  intros Ha Hb.
  assert (H1 : forall j, (j < M)%nat -> seen K t j <> [] -> a j == b j).
  { intros j Hj Hn. apply (is_average_unique (seen K t j)); [apply Ha|apply Hb]; auto. }
  intros j Hj. destruct (seen K t j) as [|x l] eqn:E; [|apply H1; auto; rewrite E; discriminate].
  eapply is_average_unique; [apply (proj2 (Ha j Hj) E)|].
  eapply is_average_ext; [|apply (proj2 (Hb j Hj) E)].
  assert (Hx : forall i, In i (filter (fun i => negb (length (seen K t i) =? 0)) (seq 0 M)) -> b i == a i).
  { intros i Hi. apply filter_In in Hi as [Hi Hs]. apply in_seq in Hi. symmetry. apply H1; [lia|]. intros E'. rewrite E' in Hs. discriminate. }
  induction (filter (fun i => negb (length (seen K t i) =? 0)) (seq 0 M)) as [|i l IH]; simpl; constructor; [apply Hx; left; auto|apply IH; intros; apply Hx; right; auto].
Qed.

Lemma supporters_who r k : supporters r k = who_gave k r.
Proof. unfold supporters, who_gave. apply filter_ext. intros j. destruct (nth j r None); reflexivity. Qed.
Lemma who_gave_ne r k : In (Some k) r -> who_gave k r <> [].
Proof.
  intros H. destruct (In_nth _ _ None H) as (j & Hj & E). assert (In j (who_gave k r)).
  { apply filter_In. split; [apply in_seq; lia|]. rewrite E. simpl. apply Nat.eqb_refl. }
  intros E'. rewrite E' in H0. destruct H0.
Qed.
Lemma label_score_support s r k rel : In (Some k) r -> (forall j, (j < length r)%nat -> nth j s 0 == rel j) ->
  support rel r k (label_score s r k).
Proof.
  intros Hk Hr. unfold support, label_score. rewrite supporters_who.
  eapply is_average_ext; [|apply qmean_average; unfold take_idx; intros E; apply map_eq_nil in E; apply (who_gave_ne r k Hk E)].
  unfold take_idx. assert (Hx : forall j, In j (who_gave k r) -> nth j s 0 == rel j).
  { intros j Hj. apply filter_In in Hj as [Hj _]. apply in_seq in Hj. apply Hr. lia. }
  induction (who_gave k r); simpl; constructor; [apply Hx; left; auto|apply IHl; intros; apply Hx; right; auto].
Qed.

(** ** C35 *)
Lemma an_row M K t i : annotations M K t -> (i < length t)%nat ->
  (forall k, In (Some k) (nth i t []) -> (k < K)%nat) /\ (exists k, In (Some k) (nth i t [])) /\ length (nth i t []) = M.
Proof.
  intros [W S C] Hi. assert (In (nth i t []) t) by (apply nth_In; auto). split; [|split]; auto. intros k Hk. apply (C (nth i t [])); auto.
Qed.
Lemma gmv_annotations rnd t M pp Kpp verbose mv : get_majority_vote_label rnd t M pp Kpp verbose = Ok mv ->
  (forall r, In r t -> length r = M) -> (forall r, In r t -> exists k, In (Some k) r) -> annotations M (num_classes t pp Kpp) t.
Proof. intros H W S. apply gmv_inv in H as [H _]. constructor; auto. Qed.

Lemma C35_plurality_full rnd t M pp Kpp verbose mv :
  (forall r, In r t -> length r = M) -> (forall r, In r t -> exists k, In (Some k) r) ->
  get_majority_vote_label rnd t M pp Kpp verbose = Ok mv ->
  length mv = length t /\ forall i, (i < length t)%nat -> 
    plurality (nth i t []) (nth i mv 0%nat) /\
    (forall p, pp = Some p -> forall k, plurality (nth i t []) k -> mget p i k <= mget p i (nth i mv 0%nat)) /\
    (forall k, plurality (nth i t []) k -> (forall p, pp = Some p -> mget p i k == mget p i (nth i mv 0%nat)) ->
       (total_votes t (nth i mv 0%nat) <= total_votes t k)%nat) /\
    (forall rel k s s', reliabilities (num_classes t pp Kpp) M t rel ->
       plurality (nth i t []) k -> (forall p, pp = Some p -> mget p i k == mget p i (nth i mv 0%nat)) ->
       total_votes t k = total_votes t (nth i mv 0%nat) ->
       support rel (nth i t []) k s -> support rel (nth i t []) (nth i mv 0%nat) s' -> s <= s').
Proof.
  intros W S H. pose proof (gmv_annotations _ _ _ _ _ _ _ H W S) as HA. apply gmv_nth in H as [HL H]. split; auto.
  intros i Hi. specialize (H i Hi). destruct (an_row _ _ _ i HA Hi) as (HK & Hex & HW).
  set (K := num_classes t pp Kpp) in *. set (r := nth i t []) in *. set (m := nth i mv 0%nat) in *.
  destruct (vote_of_tied K M t pp i r) as (v2 & Hc & Htd & Hv). rewrite Hv in H. clear Hv.
  assert (Hm : In m (cands2 K t pp i r) /\
     (forall s, impute (agreement_nontied M (nontied_pairs K t)) = Some s -> In m (keep_max (label_score s r) (cands2 K t pp i r))) /\
     (impute (agreement_nontied M (nontied_pairs K t)) = None -> cands2 K t pp i r = [m])).
  { destruct (impute (agreement_nontied M (nontied_pairs K t))) as [s|] eqn:EI.
    - apply draw_in in H. rewrite cands_tiebreak in H by (intros; simpl; apply keep_max_single). rewrite Hc in H. cbn [keep_agreeing] in H.
      split; [apply in_keep_max in H; tauto|split; [|discriminate]]. intros s' [= <-]. auto.
    - rewrite <- Hc. destruct v2 as [k|c]; simpl in H; [|discriminate]. injection H as ->. simpl. split; [auto|split; [discriminate|auto]]. }
  destruct Hm as (Hm1 & Hm2 & Hm3). pose proof (cands2_in K t pp i r HK Hex) as Hin.
  pose proof (proj1 (Hin m) Hm1) as (G1 & G2 & G3). split; [auto|split; [auto|split; [auto|]]].
  intros rel k s s' Hrel Hk Hpk Htk Hs Hs'.
  assert (Hck : In k (cands2 K t pp i r)).
  { apply Hin. split; auto. split.
    - intros p E k' Hk'. rewrite (Hpk p E). eapply G2; eauto.
    - intros k' Hk' He. rewrite Htk. apply G3; auto. intros p E. rewrite (He p E). apply Hpk; auto. }
  destruct (impute (agreement_nontied M (nontied_pairs K t))) as [sc|] eqn:EI.
  - destruct (agr_reliable K M t sc HA EI) as [Hl Hr].
    specialize (Hm2 sc eq_refl). apply in_keep_max in Hm2 as [_ Hm2]. specialize (Hm2 k Hck).
    assert (Hrr : forall j, (j < length r)%nat -> nth j sc 0 == rel j) by (assert (HW' : length r = M) by exact HW; rewrite HW'; apply (reliabilities_unique K M t); auto).
    assert (Hsk : s == label_score sc r k).
    { eapply is_average_unique; [apply Hs|]. apply label_score_support; auto. apply votes_in; apply Hk. }
    assert (Hsm : s' == label_score sc r m).
    { eapply is_average_unique; [apply Hs'|]. apply label_score_support; auto. apply votes_in; apply G1. }
    rewrite Hsk, Hsm. auto.
  - rewrite (Hm3 eq_refl) in Hck. destruct Hck as [->|[]]. assert (s == s') by (eapply is_average_unique; eauto). lra.
Qed.

(** with a clear winner somewhere the vote never fails and every remaining label can be drawn *)
Lemma C35_total_full rnd t M K pp r0 k0 :
  annotations M K t -> In r0 t -> clear_winner r0 k0 ->
  (exists mv, get_majority_vote_label rnd t M (Some pp) K false = Ok mv) /\
  (exists mv, get_majority_vote_label rnd t M None K false = Ok mv).
Proof.
  intros HA Hr0 Hk0.
  assert (G : forall pp', annotations M (num_classes t pp' K) t -> exists mv, get_majority_vote_label rnd t M pp' K false = Ok mv).
  { intros pp' HA'. pose proof HA' as [W S C]. apply gmv_tot; auto.
    - destruct Hk0 as [Hk _]. apply votes_in in Hk. exists k0. apply in_all_given. eauto.
    - intros i r Hir. apply in_combine_r in Hir.
      assert (HK : forall k, In (Some k) r -> (k < num_classes t pp' K)%nat) by (intros; apply (C r); auto).
      destruct (vote_of_tied (num_classes t pp' K) M t pp' i r) as (v2 & Hc & Htd & ->).
      destruct (impute _) as [s|] eqn:EI.
      + rewrite cands_tiebreak by (intros; simpl; apply keep_max_single). cbn [keep_agreeing]. apply keep_max_ne. rewrite Hc. apply cands2_ne; auto.
      + exfalso. apply (agr_none _ M t HA' EI r0 Hr0 k0 Hk0). }
  split; apply G; [exact HA|]. destruct HA as [W S C]. constructor; auto.
  intros r k Hr Hk. simpl. assert (In k (all_given t)) by (apply in_all_given; eauto). apply nmax_ge in H. change (labels_in t) with (all_given t). lia.
Qed.

Lemma C35_random_full t M pp Kpp i k :
  annotations M (num_classes t pp Kpp) t -> (i < length t)%nat ->
  (exists r0 k0, In r0 t /\ clear_winner r0 k0) ->
  plurality (nth i t []) k ->
  (forall p, pp = Some p -> forall k', plurality (nth i t []) k' -> mget p i k' <= mget p i k) ->
  (forall k', plurality (nth i t []) k' -> (forall p, pp = Some p -> mget p i k' == mget p i k) ->
     (total_votes t k <= total_votes t k')%nat) ->
  (forall rel k' s s', reliabilities (num_classes t pp Kpp) M t rel ->
     plurality (nth i t []) k' -> (forall p, pp = Some p -> mget p i k' == mget p i k) ->
     total_votes t k' = total_votes t k ->
     support rel (nth i t []) k' s' -> support rel (nth i t []) k s -> s' <= s) ->
  exists rnd mv, get_majority_vote_label rnd t M pp Kpp false = Ok mv /\ nth i mv 0%nat = k.
Proof.
  intros HA Hi (r0 & k0 & Hr0 & Hk0) H1 H2 H3 H4. destruct (an_row _ _ _ i HA Hi) as (HK & Hex & HW).
  set (K := num_classes t pp Kpp) in *. set (r := nth i t []) in *.
  pose proof (cands2_in K t pp i r HK Hex) as Hin.
  assert (Hc2 : In k (cands2 K t pp i r)) by (apply Hin; auto).
  destruct (impute (agreement_nontied M (nontied_pairs K t))) as [s|] eqn:EI; [|exfalso; apply (agr_none K M t HA EI r0 Hr0 k0 Hk0)].
  destruct (agr_reliable K M t s HA EI) as [Hl Hr].
  assert (Hc3 : In k (keep_max (label_score s r) (cands2 K t pp i r))).
  { apply in_keep_max. split; auto. intros k' Hk'. pose proof Hk' as Hk2. apply Hin in Hk' as (G1 & G2 & G3).
    assert (Hpp : forall p, pp = Some p -> mget p i k' == mget p i k) by (intros p E; apply Qle_antisym; [eapply H2|eapply G2]; eauto).
    eapply H4; eauto.
    - apply Nat.le_antisymm; [apply G3; auto; intros p E; symmetry; apply Hpp; auto|apply H3; auto].
    - apply label_score_support; [apply votes_in; apply G1|]. reflexivity.
    - apply label_score_support; [apply votes_in; apply H1|]. reflexivity. }
  destruct (vote_of_tied K M t pp i r) as (v2 & Hc & Htd & Hv). rewrite EI in Hv.
  assert (Hcv : In k (cands (vote_of K M t pp i r))).
  { rewrite Hv, cands_tiebreak by (intros; simpl; apply keep_max_single). rewrite Hc. exact Hc3. }
  destruct (In_nth _ _ 0%nat Hcv) as (j & Hj & Ej).
  exists (fun _ => j).
  assert (exists mv, get_majority_vote_label (fun _ => j) t M pp Kpp false = Ok mv) as (mv & Hmv).
  { pose proof HA as [W S C]. apply gmv_tot; auto.
    - destruct Hk0 as [Hk _]. apply votes_in in Hk. exists k0. apply in_all_given. eauto.
    - intros i' r' Hir. apply in_combine_r in Hir.
      assert (HK' : forall k, In (Some k) r' -> (k < K)%nat) by (intros; apply (C r'); auto).
      fold K. destruct (vote_of_tied K M t pp i' r') as (v2' & Hc' & Htd' & ->). rewrite EI.
      rewrite cands_tiebreak by (intros; simpl; apply keep_max_single). cbn [keep_agreeing]. apply keep_max_ne. rewrite Hc'. apply cands2_ne; auto. }
  exists mv. split; auto. apply gmv_nth in Hmv as [_ Hmv]. specialize (Hmv i Hi). fold K in Hmv. fold r in Hmv.
  destruct (vote_of K M t pp i r) as [a|[|a c]]; cbn [draw cands] in Hmv, Hcv, Hj, Ej.
  - destruct Hcv as [->|[]]. injection Hmv as ->. reflexivity.
  - destruct Hcv.
  - rewrite Nat.mod_small in Hmv by exact Hj. injection Hmv as Hmv. rewrite <- Hmv. exact Ej.
Qed.

(** ** Validation *)
Lemma num_given r : num_annotations r = length (given r).
Proof.
  unfold num_annotations, given. induction r as [|o r IH]; [reflexivity|]. cbn [map flat_map]. rewrite count_true_cons, IH, app_length.
  destruct o; reflexivity.
Qed.
Lemma present_some o : present o = true <-> exists k, o = Some k.
Proof. destruct o; simpl; split; intros H; eauto; [discriminate|]. destruct H; discriminate. Qed.
Lemma num_pos r : (exists k, In (Some k) r) -> (1 <= num_annotations r)%nat.
Proof. intros (k & Hk). rewrite num_given. apply in_given in Hk. destruct (given r); [destruct Hk|simpl; lia]. Qed.
Lemma num_two r : (2 <= num_annotations r)%nat <-> exists i j, i <> j /\ annotators_of r i /\ annotators_of r j.
Proof.
  unfold num_annotations. rewrite <- where_length. set (m := map present r).
  assert (Hw : forall i, In i (where_ m) <-> annotators_of r i).
  { intros i. rewrite in_where. unfold m, annotators_of.
    destruct (le_lt_dec (length r) i) as [H|H].
    - rewrite nth_overflow by (rewrite map_length; auto). rewrite nth_overflow by auto. split; [discriminate|intros (k & E); discriminate].
    - rewrite (nth_map_gen _ _ _ _ None) by auto. apply present_some. }
  pose proof (where_NoDup m) as ND. split.
  - intros H. destruct (where_ m) as [|a [|b l]] eqn:E; simpl in H; try lia. exists a, b. split.
    + inversion ND; subst. intros ->. apply H2. left; auto.
    + split; apply Hw; simpl; auto.
  - intros (i & j & Hij & Hi & Hj). apply Hw in Hi, Hj. destruct (where_ m) as [|a [|b l]]; simpl in *; [tauto| |lia].
    destruct Hi as [<-|[]], Hj as [<-|[]]. congruence.
Qed.

Lemma valid_inv t M n K : (forall r, In r t -> length r = M) ->
  assert_valid_multiannotator t M (Some (n, K)) false = Ok tt ->
  n = length t /\ annotations M K t /\ has_overlap t /\ every_annotator_used M t.
Proof.
  intros W H. unfold assert_valid_multiannotator in H.
  destruct (existsb (fun r => negb (existsb present r)) t) eqn:E1; [discriminate|].
  destruct (existsb _ (seq 0 M)) eqn:E2; [discriminate|].
  destruct (negb false && (M <=? 1))%bool eqn:E3; [discriminate|].
  destruct (negb false && forallb _ t)%bool eqn:E4; [discriminate|].
  destruct (all_given t) as [|l ls] eqn:E5; [discriminate|].
  destruct (negb (n =? length t)) eqn:E6; [discriminate|].
  destruct (K <? nmax (l :: ls) + 1) eqn:E7; [discriminate|]. clear H.
  apply negb_false_iff, Nat.eqb_eq in E6. split; auto.
  assert (S : forall r, In r t -> exists k, In (Some k) r).
  { intros r Hr. destruct (existsb present r) eqn:E.
    - apply existsb_exists in E as (o & Ho & Hp). apply present_some in Hp as (k & ->). eauto.
    - exfalso. assert (existsb (fun r => negb (existsb present r)) t = true); [|congruence]. apply existsb_exists. exists r. rewrite E. auto. }
  split; [constructor; auto|split].
  - intros r k Hr Hk. apply Nat.ltb_ge in E7. rewrite <- E5 in E7. assert (In k (all_given t)) by (apply in_all_given; eauto).
    apply nmax_ge in H. lia.
  - simpl in E4. assert (Hx : exists r, In r t /\ num_annotations r <> 1%nat).
    { clear -E4. induction t as [|r t IH]; [discriminate|]. simpl in E4. apply andb_false_iff in E4 as [E|E].
      - exists r. split; [left; auto|]. apply Nat.eqb_neq; auto.
      - destruct (IH E) as (r' & Hr & Hn). exists r'. split; [right|]; auto. }
    destruct Hx as (r & Hr & Hn). pose proof (num_pos r (S r Hr)). assert (H2 : (2 <= num_annotations r)%nat) by lia.
    apply num_two in H2 as (i & j & Hij & Hi & Hj). exists r, i, j. auto.
  - intros j Hj. destruct (existsb (fun r => present (nth j r None)) t) eqn:E.
    + apply existsb_exists in E as (r & Hr & Hp). apply present_some in Hp as (k & Hk). eauto.
    + exfalso. assert (existsb (fun j => negb (existsb (fun r => present (nth j r None)) t)) (seq 0 M) = true); [|congruence].
      apply existsb_exists. exists j. rewrite E. split; auto. apply in_seq; lia.
Qed.
Lemma valid_ok t M K : annotations M K t -> has_overlap t -> every_annotator_used M t ->
  assert_valid_multiannotator t M (Some (length t, K)) false = Ok tt.
Proof.
  intros [W S C] (r & i & j & Hr & Hij & Hi & Hj) HU. unfold assert_valid_multiannotator.
  assert (E1 : existsb (fun r => negb (existsb present r)) t = false).
  { apply not_true_is_false. intros E. apply existsb_exists in E as (r' & Hr' & E). apply negb_true_iff in E.
    destruct (S r' Hr') as (k & Hk). assert (existsb present r' = true); [|congruence]. apply existsb_exists. exists (Some k). auto. }
  assert (E2 : existsb (fun j => negb (existsb (fun r => present (nth j r None)) t)) (seq 0 M) = false).
  { apply not_true_is_false. intros E. apply existsb_exists in E as (j' & Hj' & E). apply negb_true_iff in E. apply in_seq in Hj'.
    destruct (HU j') as (r' & k & Hr' & Hk); [lia|]. assert (existsb (fun r => present (nth j' r None)) t = true); [|congruence].
    apply existsb_exists. exists r'. rewrite Hk. auto. }
  assert (HM : forall a, annotators_of r a -> (a < M)%nat).
  { intros a (k & Hk). rewrite <- (W r Hr). destruct (le_lt_dec (length r) a); auto. rewrite nth_overflow in Hk by auto. discriminate. }
  assert (E3 : Nat.leb M 1 = false). { apply Nat.leb_gt. apply HM in Hi, Hj. lia. }
  assert (E4 : forallb (fun r => Nat.eqb (num_annotations r) 1) t = false).
  { apply not_true_is_false. intros E. rewrite forallb_forall in E. specialize (E r Hr). apply Nat.eqb_eq in E.
    assert (2 <= num_annotations r)%nat by (apply num_two; exists i, j; auto). lia. }
  rewrite E1, E2, E3, E4. cbn [negb andb].
  destruct (all_given t) as [|l ls] eqn:E5.
  - exfalso. destruct Hi as (k & Hk). assert (In k (all_given t)); [|rewrite E5 in H; destruct H]. apply in_all_given. exists r. split; auto.
    rewrite <- Hk. apply nth_In. rewrite (W r Hr). apply HM. exists k. auto.
  - rewrite Nat.eqb_refl. cbn [negb]. rewrite <- E5. assert (E7 : Nat.ltb K (nmax (all_given t) + 1) = false).
    { apply Nat.ltb_ge. assert (Hn : all_given t <> []) by congruence. apply nmax_in in Hn. apply in_all_given in Hn as (r' & Hr' & Hk).
      specialize (C r' _ Hr' Hk). lia. }
    rewrite E7. reflexivity.
Qed.

(** ** CROWDLAB *)
Lemma label_total_le k r : (label_total k r <= num_annotations r)%nat.
Proof.
  unfold label_total, num_annotations. induction r as [|o r IH]; [auto|]. cbn [map]. rewrite !count_true_cons.
  destruct o as [l|]; simpl; [destruct (l =? k)|]; lia.
Qed.
Lemma frac_unit a b : (a <= b)%nat -> (1 <= b)%nat -> 0 <= Qnat a / Qnat b /\ Qnat a / Qnat b <= 1.
Proof.
  intros H1 H2. assert (0 < Qnat b) by (apply Qnat_pos; lia). pose proof (Qnat_nonneg a). pose proof (Qnat_le _ _ H1). split.
  - apply Qle_shift_div_l; lra.
  - apply Qle_shift_div_r; lra.
Qed.
Lemma agr_consensus_unit t c x : (forall r, In r t -> exists k, In (Some k) r) -> In x (agreement_with_consensus t c) -> 0 <= x /\ x <= 1.
Proof.
  intros S Hx. unfold agreement_with_consensus in Hx. apply in_map_iff in Hx as ([r k] & <- & H). apply in_combine_l in H.
  apply frac_unit; [apply label_total_le|apply num_pos; auto].
Qed.
Lemma select_In {A} m (l : list A) x : In x (select m l) -> In x l.
Proof.
  unfold select. intros H. apply in_map_iff in H as ([b y] & <- & H). apply filter_In in H as [H _]. apply in_combine_r in H. auto.
Qed.
Lemma multi_count t : has_overlap t -> (1 <= count_true (multi t))%nat.
Proof.
  intros (r & i & j & Hr & Hij & Hi & Hj). unfold multi. rewrite count_true_map.
  assert (In r (filter (fun r => negb (num_annotations r =? 1)) t)).
  { apply filter_In. split; auto. apply negb_true_iff, Nat.eqb_neq.
    assert (2 <= num_annotations r)%nat by (apply num_two; exists i, j; auto). lia. }
  destruct (filter _ t); [destruct H|simpl; lia].
Qed.
Lemma select_ne {A} m (l : list A) : length m = length l -> (1 <= count_true m)%nat -> select m l <> [].
Proof. intros H1 H2 E. apply (f_equal (@length A)) in E. rewrite select_length in E by auto. simpl in E. lia. Qed.
Lemma multi_length t : length (multi t) = length t.
Proof. apply map_length. Qed.
Lemma cl_unit t c : (forall r, In r t -> exists k, In (Some k) r) -> has_overlap t -> length c = length t ->
  0 <= consensus_likelihood t c /\ consensus_likelihood t c <= 1.
Proof.
  intros S HO HL. unfold consensus_likelihood. apply qmean_bounds.
  - apply select_ne; [|apply multi_count; auto]. rewrite multi_length. unfold agreement_with_consensus. rewrite map_length, combine_length. lia.
  - intros x Hx. apply select_In in Hx. eapply agr_consensus_unit; eauto.
Qed.
Lemma mlce_pos t c K : 0 < most_likely_class_error t c K.
Proof.
  unfold most_likely_class_error. eapply Qlt_le_trans; [|apply clip_lo_ge]. reflexivity.
Qed.
Lemma waverage_bounds lo hi x w : length x = length w -> (forall a, In a x -> lo <= a /\ a <= hi) -> (forall b, In b w -> 0 <= b) ->
  0 < qsum w -> lo <= waverage x w /\ waverage x w <= hi.
Proof.
  intros HL Hx Hw Hs. unfold waverage.
  assert (G : lo * qsum w <= qsum (map (fun p => fst p * snd p) (combine x w)) /\ qsum (map (fun p => fst p * snd p) (combine x w)) <= hi * qsum w).
  { clear Hs. revert w HL Hw. induction x as [|a x IH]; intros [|b w] HL Hw; simpl in HL; try discriminate; [simpl; lra|].
    destruct (IH (fun y Hy => Hx y (or_intror Hy)) w) as [I1 I2]; [lia|intros; apply Hw; right; auto|].
    destruct (Hx a (or_introl eq_refl)). pose proof (Hw b (or_introl eq_refl)). cbn [combine map fst snd]. rewrite !qsum_cons.
    set (s := qsum (map (fun p => fst p * snd p) (combine x w))) in *. split; nra. }
  split; [apply Qle_shift_div_l|apply Qle_shift_div_r]; tauto.
Qed.
Lemma row_agreement_unit j r : present (nth j r None) = true -> 0 <= agreement_in_row j r /\ agreement_in_row j r <= 1.
Proof.
  intros H. apply present_some in H as (l & E). unfold agreement_in_row. rewrite E. destruct (Nat.ltb_spec 1 (num_annotations r)); [|split; lra].
  assert (Hl : (1 <= label_total l r)%nat).
  { rewrite label_total_votes. apply votes_in. rewrite <- E. apply nth_In. destruct (le_lt_dec (length r) j); auto. rewrite nth_overflow in E by auto. discriminate. }
  pose proof (label_total_le l r).
  assert (E1 : Qnat (label_total l r) - 1 == Qnat (label_total l r - 1)).
  { replace (label_total l r) with (S (label_total l r - 1)) at 1 by lia. rewrite Qnat_S. ring. }
  rewrite E1. apply frac_unit; lia.
Qed.
Lemma single_unit t j q : single_annotator_agreement t j = Some q -> 0 <= q /\ q <= 1.
Proof.
  unfold single_annotator_agreement. destruct (Qeq_bool _ 0) eqn:E; [discriminate|]. intros [= <-]. apply waverage_bounds.
  - rewrite !map_length. auto.
  - intros a Ha. apply in_map_iff in Ha as (r & <- & Hr). apply filter_In in Hr as [_ Hr]. apply row_agreement_unit. auto.
  - intros b Hb. apply in_map_iff in Hb as (r & <- & Hr). apply Qnat_nonneg.
  - match goal with |- 0 < ?s => assert (0 <= s) by (apply qsum_map_nonneg; intros; apply Qnat_nonneg) end.
    apply Qeq_bool_neq in E. apply Qle_lteq in H as [H|H]; auto. symmetry in H. contradiction.
Qed.
Lemma single_some t j r : In r t -> annotators_of r j -> (2 <= num_annotations r)%nat -> exists q, single_annotator_agreement t j = Some q.
Proof.
  intros Hr Hj H2. unfold single_annotator_agreement. destruct (Qeq_bool _ 0) eqn:E; [|eauto]. exfalso.
  apply Qeq_bool_iff in E.
  assert (H : Qnat (num_annotations r - 1) <= qsum (map (fun r => Qnat (num_annotations r - 1)) (filter (fun r => present (nth j r None)) t))).
  { apply qsum_ge_elem; [intros y Hy; apply in_map_iff in Hy as (? & <- & _); apply Qnat_nonneg|].
    apply (in_map (fun r => Qnat (num_annotations r - 1))). apply filter_In. split; auto. apply present_some. auto. }
  assert (0 < Qnat (num_annotations r - 1)) by (apply Qnat_pos; lia). lra.
Qed.
Lemma in_known q l : In q (known l) <-> In (Some q) l.
Proof.
  unfold known. rewrite in_flat_map. split.
  - intros (o & Ho & H). destruct o; simpl in H; [|tauto]. destruct H as [<-|[]]. auto.
  - intros H. exists (Some q). split; [auto|left; auto].
Qed.
Lemma impute_bounds lo hi l s : (forall q, In (Some q) l -> lo <= q /\ q <= hi) -> impute l = Some s ->
  length s = length l /\ forall x, In x s -> lo <= x /\ x <= hi.
Proof.
  intros H E. unfold impute in E. destruct (known l) as [|q qs] eqn:EK; [discriminate|]. injection E as <-. rewrite map_length. split; auto.
  intros x Hx. apply in_map_iff in Hx as (o & <- & Ho). destruct o as [y|]; [auto|].
  apply qmean_bounds; [discriminate|]. intros y Hy. rewrite <- EK in Hy. apply in_known in Hy. auto.
Qed.
Lemma agreement_annotators_ok M K t : annotations M K t -> has_overlap t ->
  exists agr, agreement_with_annotators t M = Some agr /\ length agr = M /\ forall x, In x agr -> 0 <= x /\ x <= 1.
Proof.
  intros [W S C] (r & i & j & Hr & Hij & Hi & Hj).
  assert (H2 : (2 <= num_annotations r)%nat) by (apply num_two; exists i, j; auto).
  destruct (single_some t i r Hr Hi H2) as (q & Hq).
  assert (HiM : (i < M)%nat).
  { destruct Hi as (k & Hk). rewrite <- (W r Hr). destruct (le_lt_dec (length r) i); auto. rewrite nth_overflow in Hk by auto. discriminate. }
  unfold agreement_with_annotators. destruct (impute (tab M (single_annotator_agreement t))) as [agr|] eqn:E.
  - exists agr. split; auto. apply (impute_bounds 0 1) in E as [E1 E2]; [rewrite tab_length in E1; auto|].
    intros x Hx. apply in_tab in Hx as (a & _ & Ha). eapply single_unit. symmetry; eauto.
  - exfalso. unfold impute in E. destruct (known _) eqn:EK in E; [|discriminate].
    assert (In q (known (tab M (single_annotator_agreement t)))); [|rewrite EK in H; destruct H].
    apply in_known. apply in_tab. exists i. split; auto.
Qed.
Lemma adjusted_bounds mlce agr x : 0 < mlce -> (forall a, In a agr -> 0 <= a /\ a <= 1) -> In x (adjusted_agreement mlce agr) ->
  0 < x /\ CLIPPING_LOWER_BOUND <= x /\ x <= 1.
Proof.
  intros Hm Ha Hx. unfold adjusted_agreement in Hx. apply in_map_iff in Hx as (a & <- & Hin). destruct (Ha a Hin).
  assert (0 <= (1 - a) / mlce) by (apply Qle_shift_div_l; lra).
  unfold clip_lo. destruct (qmax_spec (1 - (1 - a) / mlce) CLIPPING_LOWER_BOUND) as [[Hq E]|[Hq E]]; rewrite E; unfold CLIPPING_LOWER_BOUND in *; repeat split; lra.
Qed.
Lemma avg_annotations_pos t : t <> [] -> (forall r, In r t -> exists k, In (Some k) r) -> 0 < qmean (map (fun r => Qnat (num_annotations r)) t).
Proof.
  intros Hne S.
  assert (Hb : 1 <= qmean (map (fun r => Qnat (num_annotations r)) t) /\ qmean (map (fun r => Qnat (num_annotations r)) t) <= qmaximum (map (fun r => Qnat (num_annotations r)) t)).
  { apply qmean_bounds; [destruct t; [congruence|discriminate]|]. intros x Hx. split; [|apply qmaximum_ge; auto].
    apply in_map_iff in Hx as (r & <- & Hr). change 1 with (Qnat 1). apply Qnat_le. apply num_pos; auto. }
  lra.
Qed.
Lemma model_weight_pos fsqrt t c mlce p : (forall x, 0 < x -> 0 < fsqrt x) -> t <> [] -> (forall r, In r t -> exists k, In (Some k) r) ->
  0 < model_weight fsqrt t c mlce p.
Proof.
  intros Hf Hne S. unfold model_weight. apply Qmult_lt_0_compat; [|apply Hf, avg_annotations_pos; auto].
  match goal with |- 0 < qmax ?a ?b => destruct (qmax_spec a b) as [[Hq E]|[Hq E]]; rewrite E end; unfold CLIPPING_LOWER_BOUND in *; lra.
Qed.

Lemma qsum_choice (l K : nat) (a b : Q) : (l < K)%nat -> qsum (tab K (fun k => if Nat.eqb l k then a else b)) == a + (Qnat K - 1) * b.
Proof.
  intros H.
  rewrite (qsum_tab_ext K _ (fun k => b + (if Nat.eqb k l then (fun _ => a - b) k else 0))).
  - unfold tab. rewrite qsum_map_plus, qsum_map_const, qsum_indicator by lia. rewrite seq_length. ring.
  - intros k _. rewrite (Nat.eqb_sym k l). destruct (Nat.eqb l k); ring.
Qed.
Lemma vote_weight_sum K cl w o : (2 <= K)%nat -> (forall l, o = Some l -> (l < K)%nat) ->
  qsum (tab K (fun k => vote_weight cl (non_consensus_likelihood K cl) k (w, o))) == if present o then w else 0.
Proof.
  intros HK Ho. assert (HQ : 1 < Qnat K) by (change 1 with (Qnat 1); apply Qnat_lt_iff; lia).
  destruct o as [l|]; unfold vote_weight; cbn [fst snd present].
  - rewrite qsum_choice by auto. unfold non_consensus_likelihood. field. lra.
  - unfold tab. rewrite qsum_map_const. ring.
Qed.
Lemma qsum_swap_tab {A} (f : A -> nat -> Q) K l :
  qsum (tab K (fun k => qsum (map (fun a => f a k) l))) == qsum (map (fun a => qsum (tab K (f a))) l).
Proof. unfold tab. symmetry. apply qsum_swap. Qed.

Lemma qsum_pos l : l <> [] -> (forall x, In x l -> 0 < x) -> 0 < qsum l.
Proof.
  destruct l as [|a l]; [congruence|]. intros _ H. rewrite qsum_cons. pose proof (H a (or_introl eq_refl)).
  assert (0 <= qsum l) by (apply qsum_nonneg; intros y Hy; apply Qlt_le_weak, H; right; auto). lra.
Qed.

Lemma posterior_row_dist K cl mws aw priors r : (2 <= K)%nat -> 0 <= cl -> cl <= 1 ->
  mws <> [] -> length priors = length mws -> (forall w, In w mws -> 0 < w) -> (forall w, In w aw -> 0 < w) ->
  (forall p, In p priors -> distribution K p) -> (forall k, In (Some k) r -> (k < K)%nat) ->
  distribution K (posterior_row K cl (non_consensus_likelihood K cl) mws aw priors r).
Proof.
  intros HK Hc0 Hc1 Hne HLm Hmw Haw Hp Hr.
  assert (HQ : 1 < Qnat K) by (change 1 with (Qnat 1); apply Qnat_lt_iff; lia).
  assert (Hncl : 0 <= non_consensus_likelihood K cl) by (unfold non_consensus_likelihood; apply Qle_shift_div_l; lra).
  assert (Hann : 0 <= annotation_weight aw r).
  { unfold annotation_weight. apply qsum_map_nonneg. intros [w o] Hw. cbn [fst snd]. destruct (present o); [|lra]. apply in_combine_l in Hw. apply Qlt_le_weak; auto. }
  assert (HT : 0 < annotation_weight aw r + qsum mws) by (pose proof (qsum_pos mws Hne Hmw); lra).
  unfold distribution, posterior_row. split; [apply tab_length|split].
  - intros x Hx. apply in_tab in Hx as (k & Hk & ->). apply Qle_shift_div_l; auto. setoid_replace (0 * (annotation_weight aw r + qsum mws)) with 0 by ring.
    assert (0 <= qsum (map (fun mp => fst mp * nth k (snd mp) 0) (combine mws priors))).
    { apply qsum_map_nonneg. intros [w p] Hwp. cbn [fst snd]. apply Qmult_le_0_compat; [apply Qlt_le_weak, Hmw; eapply in_combine_l; eauto|].
      apply in_combine_r in Hwp. destruct (Hp p Hwp) as (L & N & _). apply N, nth_In. rewrite L. auto. }
    assert (0 <= qsum (map (vote_weight cl (non_consensus_likelihood K cl) k) (combine aw r))).
    { apply qsum_map_nonneg. intros [w o] Hwo. unfold vote_weight. cbn [fst snd]. apply in_combine_l in Hwo. specialize (Haw w Hwo).
      destruct o as [l|]; [|lra]. destruct (Nat.eqb l k); apply Qmult_le_0_compat; lra. }
    lra.
  - unfold tab. rewrite qsum_map_div, qsum_map_plus.
    assert (E1 : qsum (map (fun k => qsum (map (fun mp => fst mp * nth k (snd mp) 0) (combine mws priors))) (seq 0 K)) == qsum mws).
    { rewrite (qsum_swap (fun (k : nat) (mp : Q * list Q) => fst mp * nth k (snd mp) 0)).
      rewrite (qsum_map_ext _ (fun mp : Q * list Q => fst mp)).
      - replace (map (fun mp : Q * list Q => fst mp) (combine mws priors)) with mws; [reflexivity|].
        clear -HLm. revert priors HLm. induction mws; intros [|p ps] H; simpl in *; try discriminate; auto. f_equal. apply IHmws. lia.
      - intros [w p] Hwp. cbn [fst snd]. rewrite qsum_map_scale. apply in_combine_r in Hwp. destruct (Hp p Hwp) as (L & _ & E).
        replace (map (fun k => nth k p 0) (seq 0 K)) with p; [rewrite E; ring|]. rewrite <- L. symmetry. apply (tab_nth p 0). }
    assert (E2 : qsum (map (fun k => qsum (map (vote_weight cl (non_consensus_likelihood K cl) k) (combine aw r))) (seq 0 K)) == annotation_weight aw r).
    { rewrite (qsum_swap (fun (k : nat) wo => vote_weight cl (non_consensus_likelihood K cl) k wo)). unfold annotation_weight.
      apply qsum_map_ext. intros [w o] Hwo. cbn [fst snd]. apply vote_weight_sum; auto. intros l ->. apply Hr. eapply in_combine_r; eauto. }
    rewrite E1, E2. field. lra.
Qed.

Lemma crowdlab_ok fsqrt t M K c priors : annotations M K t -> has_overlap t -> (2 <= K)%nat -> length c = length t -> priors <> [] ->
  (forall p, In p priors -> distributions (length t) K p) -> (forall x, 0 < x -> 0 < fsqrt x) ->
  exists p, crowdlab fsqrt t M K c priors = Ok p /\ distributions (length t) K (post p) /\
    length (model_weights p) = length priors /\ (forall w, In w (model_weights p) -> 0 < w) /\
    length (annot_weights p) = M /\ (forall w, In w (annot_weights p) -> 0 < w /\ w <= 1).
Proof.
  intros HA HO HK HL Hpn Hp Hf. destruct (agreement_annotators_ok M K t HA HO) as (agr & Ea & La & Ba). pose proof HA as [W S C].
  assert (Htn : t <> []) by (destruct HO as (r & _ & _ & Hr & _); intros ->; destruct Hr).
  unfold crowdlab. rewrite Ea. eexists. split; [reflexivity|]. cbn [post model_weights annot_weights].
  destruct (cl_unit t c S HO HL) as [Hc0 Hc1].
  assert (Hmw : forall w, In w (map (model_weight fsqrt t c (most_likely_class_error t c K)) priors) -> 0 < w).
  { intros w Hw. apply in_map_iff in Hw as (p & <- & _). apply model_weight_pos; auto. }
  assert (Haw : forall w, In w (adjusted_agreement (most_likely_class_error t c K) agr) -> 0 < w /\ CLIPPING_LOWER_BOUND <= w /\ w <= 1).
  { intros w Hw. eapply adjusted_bounds; [| |eauto]; [apply mlce_pos|auto]. }
  split; [|split; [|split; [|split]]]; auto.
  - split; [rewrite map_length, combine_length, seq_length; lia|]. intros rw Hrw. apply in_map_iff in Hrw as ([i r] & <- & Hir). cbn [fst snd].
    pose proof (in_combine_l _ _ _ _ Hir) as Hi. apply in_seq in Hi. apply in_combine_r in Hir.
    apply posterior_row_dist; auto.
    + destruct priors; [congruence|discriminate].
    + rewrite !map_length. auto.
    + intros w Hw. apply Haw; auto.
    + intros p Hpp. apply in_map_iff in Hpp as (q & <- & Hq). destruct (Hp q Hq) as [Lq Dq]. apply Dq, nth_In. lia.
    + intros k Hk. apply (C r); auto.
  - apply map_length.
  - unfold adjusted_agreement. rewrite map_length. auto.
  - intros w Hw. split; [|]; apply Haw in Hw; tauto.
Qed.

(** ** Consensus labels and qualities *)
Lemma dist_unit K rw x : distribution K rw -> In x rw -> 0 <= x /\ x <= 1.
Proof.
  intros (L & N & E) Hx. split; auto. rewrite <- E. apply qsum_ge_elem; auto.
Qed.
Lemma valid_scores K c p : distributions (length c) K p -> c <> [] -> (forall k, In k c -> (k < K)%nat) ->
  get_label_quality_scores c p K SelfConfidence false = Ok (get_self_confidence c p).
Proof.
  intros [HL HD] Hne Hk. unfold get_label_quality_scores, assert_valid_inputs. destruct c as [|c0 cs] eqn:Ec; [congruence|]. rewrite <- Ec in *. clear Hne.
  cbn [negb andb]. rewrite HL, Nat.eqb_refl. cbn [negb].
  assert (E1 : Nat.ltb K (nmax c + 1) = false).
  { apply Nat.ltb_ge. assert (Hn : c <> []) by (rewrite Ec; discriminate). apply nmax_in in Hn. apply Hk in Hn. lia. }
  rewrite E1.
  assert (HU : forall x, In x (concat p) -> 0 <= x /\ x <= 1).
  { intros x Hx. apply in_concat in Hx as (rw & Hr & Hx). eapply dist_unit; eauto. }
  assert (E2 : (Qltb (qminimum (concat p)) (0 - FLOATING_POINT_COMPARISON) || Qltb (1 + FLOATING_POINT_COMPARISON) (qmaximum (concat p)))%bool = false).
  { apply orb_false_iff. unfold FLOATING_POINT_COMPARISON. split; apply Qltb_false.
    - destruct (concat p) eqn:E; [simpl; lra|]. rewrite <- E in *. assert (Hn : concat p <> []) by (rewrite E; discriminate).
      apply qminimum_in in Hn. apply HU in Hn. lra.
    - destruct (concat p) eqn:E; [simpl; lra|]. rewrite <- E in *. assert (Hn : concat p <> []) by (rewrite E; discriminate).
      apply qmaximum_in in Hn. apply HU in Hn. lra. }
  rewrite E2. reflexivity.
Qed.
Lemma self_conf_in c p x : length c = length p -> In x (get_self_confidence c p) -> exists rw k, In rw p /\ In k c /\ x = nth k rw 0.
Proof.
  intros HL Hx. unfold get_self_confidence in Hx. apply in_map_iff in Hx as ([k rw] & <- & H). exists rw, k. split; [eapply in_combine_r; eauto|split; [eapply in_combine_l; eauto|auto]].
Qed.
Lemma nth_unit K rw k : distribution K rw -> 0 <= nth k rw 0 /\ nth k rw 0 <= 1.
Proof.
  intros H. destruct (le_lt_dec (length rw) k); [rewrite nth_overflow by auto; lra|]. eapply dist_unit; eauto. apply nth_In; auto.
Qed.

Definition good_info (t : table) (M K : nat) (nm : nat) (info : consensus_info) : Prop :=
  length (c_label info) = length t /\ (forall k, In k (c_label info) -> (k < K)%nat) /\
  length (c_quality info) = length t /\ (forall q, In q (c_quality info) -> 0 <= q /\ q <= 1) /\
  length (c_agreement info) = length t /\ (forall q, In q (c_agreement info) -> 0 <= q /\ q <= 1) /\
  distributions (length t) K (post (c_post info)) /\
  length (model_weights (c_post info)) = nm /\ (forall w, In w (model_weights (c_post info)) -> 0 < w) /\
  length (annot_weights (c_post info)) = M /\ (forall w, In w (annot_weights (c_post info)) -> 0 < w /\ w <= 1) /\
  (forall i, (i < length t)%nat -> nth i (c_quality info) 0 = mget (post (c_post info)) i (nth i (c_label info) 0%nat)).

Lemma consensus_stats_ok fsqrt t M K c priors : annotations M K t -> has_overlap t -> (2 <= K)%nat -> length c = length t -> (forall k, In k c -> (k < K)%nat) -> priors <> [] ->
  (forall p, In p priors -> distributions (length t) K p) -> (forall x, 0 < x -> 0 < fsqrt x) ->
  exists info, consensus_stats fsqrt t M K priors c = Ok info /\ good_info t M K (length priors) info /\ c_label info = c.
Proof.
  intros HA HO HK HL Hk Hpn Hp Hf. destruct (crowdlab_ok fsqrt t M K c priors HA HO HK HL Hpn Hp Hf) as (p & E & HD & L1 & B1 & L2 & B2).
  assert (Hcn : c <> []).
  { destruct HO as (r & _ & _ & Hr & _). intros ->. destruct t; [destruct Hr|discriminate]. }
  unfold consensus_stats. rewrite E. cbn [rbind]. rewrite (valid_scores K); auto; [|rewrite HL; auto]. cbn [rbind]. eexists. split; [reflexivity|].
  split; [|reflexivity]. destruct HD as [HD1 HD2]. unfold good_info. cbn [c_label c_quality c_agreement c_post].
  assert (LQ : length (get_self_confidence c (post p)) = length t) by (unfold get_self_confidence; rewrite map_length, combine_length; lia).
  refine (conj HL (conj Hk (conj LQ (conj _ (conj _ (conj _ (conj (conj HD1 HD2) (conj L1 (conj B1 (conj L2 (conj B2 _))))))))))).
  - intros q Hq. apply self_conf_in in Hq as (rw & k & Hr & _ & ->); [|lia]. eapply nth_unit; eauto.
  - unfold agreement_with_consensus. rewrite map_length, combine_length. lia.
  - intros q Hq. eapply agr_consensus_unit; eauto. apply HA.
  - intros i Hi. unfold get_self_confidence. rewrite (nth_map_gen _ _ _ _ (0%nat, [])) by (rewrite combine_length; lia).
    rewrite combine_nth by lia. reflexivity.
Qed.

Lemma mv_lt rnd t M p K mv : get_majority_vote_label rnd t M (Some p) K false = Ok mv -> (forall r, In r t -> length r = M) -> (forall r, In r t -> exists k, In (Some k) r) ->
  length mv = length t /\ forall k, In k mv -> (k < K)%nat.
Proof.
  intros H W S. pose proof (gmv_inv _ _ _ _ _ _ _ H) as [HC _]. destruct (C35_plurality_full rnd t M (Some p) K false mv W S H) as [HL HP]. split; auto.
  intros k Hk. destruct (In_nth _ _ 0%nat Hk) as (i & Hi & <-). rewrite HL in Hi. destruct (HP i Hi) as ((H1 & _) & _). apply votes_in in H1.
  apply (HC (nth i t [])) in H1; auto. apply nth_In; auto.
Qed.
Lemma best_quality_lt K p mv : (forall rw, In rw p -> length rw = K) -> (forall k, In k mv -> (k < K)%nat) -> forall k, In k (best_quality_label p mv) -> (k < K)%nat.
Proof.
  intros HR HM k Hk. unfold best_quality_label in Hk. apply in_map_iff in Hk as ([rw m] & <- & H). cbn [fst snd].
  pose proof (in_combine_l _ _ _ _ H) as H1. apply in_combine_r in H.
  destruct (filter _ _) as [|a [|b l]] eqn:E; auto.
  assert (Ha : In a (filter (fun k => Qeq_bool (nth k rw 0) (qmaximum rw)) (seq 0 (length rw)))) by (rewrite E; left; auto).
  apply filter_In in Ha as [Ha _]. apply in_seq in Ha. rewrite (HR rw H1) in Ha. lia.
Qed.

Lemma label_quality_inv fsqrt rnd t M K priors vp method info :
  (forall r, In r t -> length r = M) -> (2 <= K)%nat -> priors <> [] ->
  (forall p, In p priors -> distributions (length t) K p) -> (forall x, 0 < x -> 0 < fsqrt x) ->
  label_quality_core fsqrt rnd t M K priors vp method = Ok info ->
  annotations M K t /\ has_overlap t /\ good_info t M K (length priors) info /\
  exists mv minfo, get_majority_vote_label rnd t M (Some vp) K false = Ok mv /\
    consensus_stats fsqrt t M K priors mv = Ok minfo /\
    c_label info = match method with MajorityVote => mv | BestQuality => best_quality_label (post (c_post minfo)) mv end /\
    consensus_stats fsqrt t M K priors (c_label info) = Ok info.
Proof.
  intros W HK Hpn Hp Hf H. unfold label_quality_core in H.
  destruct (assert_valid_multiannotator _ _ _ _) as [[]|] eqn:EV; cbn [rbind] in H; [|discriminate].
  apply valid_inv in EV as (_ & HA & HO & HU); auto. split; auto. split; auto.
  destruct (get_majority_vote_label rnd t M (Some vp) K false) as [mv|] eqn:EM; cbn [rbind] in H; [|discriminate].
  destruct (mv_lt _ _ _ _ _ _ EM W) as [LM BM]; [apply HA|].
  destruct (consensus_stats_ok fsqrt t M K mv priors HA HO HK LM BM Hpn Hp Hf) as (minfo & E1 & G1 & Lb1).
  rewrite E1 in H. cbn [rbind] in H. destruct method.
  - injection H as <-. split; auto. exists mv, minfo. rewrite Lb1. auto.
  - pose proof G1 as (_ & _ & _ & _ & _ & _ & [D1 D2] & _).
    assert (Lq : length (best_quality_label (post (c_post minfo)) mv) = length t).
    { unfold best_quality_label. rewrite map_length, combine_length, D1, LM. lia. }
    destruct (consensus_stats_ok fsqrt t M K (best_quality_label (post (c_post minfo)) mv) priors HA HO HK Lq) as (i2 & E2 & G2 & Lb2); auto.
    { apply best_quality_lt; auto. intros rw Hr. apply D2; auto. }
    rewrite E2 in H. injection H as <-. split; auto. exists mv, minfo. rewrite Lb2. auto.
Qed.
Lemma label_quality_total fsqrt rnd t M K priors vp method r0 k0 :
  annotations M K t -> has_overlap t -> every_annotator_used M t -> In r0 t -> clear_winner r0 k0 ->
  (2 <= K)%nat -> priors <> [] -> length vp = length t ->
  (forall p, In p priors -> distributions (length t) K p) -> (forall x, 0 < x -> 0 < fsqrt x) ->
  exists info, label_quality_core fsqrt rnd t M K priors vp method = Ok info.
Proof.
  intros HA HO HU Hr0 Hk0 HK Hpn HV Hp Hf. unfold label_quality_core. rewrite HV, valid_ok by auto. cbn [rbind].
  destruct (C35_total_full rnd t M K vp r0 k0 HA Hr0 Hk0) as [(mv & EM) _]. rewrite EM. cbn [rbind].
  destruct (mv_lt _ _ _ _ _ _ EM) as [LM BM]; [apply HA|apply HA|].
  destruct (consensus_stats_ok fsqrt t M K mv priors HA HO HK LM BM Hpn Hp Hf) as (minfo & E1 & G1 & Lb1). rewrite E1. cbn [rbind].
  destruct method; [eauto|].
  pose proof G1 as (_ & _ & _ & _ & _ & _ & [D1 D2] & _).
  assert (Lq : length (best_quality_label (post (c_post minfo)) mv) = length t).
  { unfold best_quality_label. rewrite map_length, combine_length, D1, LM. lia. }
  destruct (consensus_stats_ok fsqrt t M K (best_quality_label (post (c_post minfo)) mv) priors HA HO HK Lq) as (i2 & E2 & G2 & Lb2); auto; [|eauto].
  apply best_quality_lt; auto. intros rw Hr. apply D2; auto.
Qed.

(** agreement method *)
Lemma label_total_sum K r : (forall k, In (Some k) r -> (k < K)%nat) -> qsum (tab K (fun k => Qnat (label_total k r))) == Qnat (num_annotations r).
Proof.
  intros H. induction r as [|o r IH].
  - unfold tab. change (fun k => Qnat (label_total k [])) with (fun _ : nat => Qnat 0). rewrite qsum_map_const. change (num_annotations []) with 0%nat. rewrite Qnat_0. ring.
  - assert (IH' := IH (fun k Hk => H k (or_intror Hk))). clear IH. unfold num_annotations in *. cbn [map]. rewrite count_true_cons.
    rewrite (qsum_tab_ext K _ (fun k => (if is_label k o then 1 else 0) + Qnat (label_total k r))).
    + unfold tab in *. rewrite qsum_map_plus, IH'. destruct o as [l|]; cbn [present is_label].
      * assert (l < K)%nat by (apply H; left; auto). pose proof (qsum_choice l K 1 0 H0) as E. unfold tab in E. rewrite E, Qnat_plus. change (Qnat 1) with 1. ring.
      * rewrite qsum_map_const. rewrite Nat.add_0_l. ring.
    + intros k _. unfold label_total. cbn [map]. rewrite count_true_cons. destruct (is_label k o); rewrite Qnat_plus; [change (Qnat 1) with 1|change (Qnat 0) with 0]; reflexivity.
Qed.
(** ** Active learning *)
Lemma active_formula K aw mw avg q r : active_score K aw mw avg q r ==
  (q * (annotation_weight aw r + mw) + 1 / Qnat K * avg) / (annotation_weight aw r + mw + avg).
Proof.
  unfold active_score, waverage. cbn [combine map fst snd qsum fold_right].
  setoid_replace (q * (annotation_weight aw r + mw) + (1 / Qnat K * avg + 0)) with (q * (annotation_weight aw r + mw) + 1 / Qnat K * avg) by ring.
  setoid_replace (annotation_weight aw r + mw + (avg + 0)) with (annotation_weight aw r + mw + avg) by ring. reflexivity.
Qed.
Lemma unlabeled_formula K mw avg rw : active_score_unlabeled K mw avg rw == (qmaximum rw * mw + 1 / Qnat K * avg) / (mw + avg).
Proof.
  unfold active_score_unlabeled, waverage. cbn [combine map fst snd qsum fold_right].
  setoid_replace (qmaximum rw * mw + (1 / Qnat K * avg + 0)) with (qmaximum rw * mw + 1 / Qnat K * avg) by ring.
  setoid_replace (mw + (avg + 0)) with (mw + avg) by ring. reflexivity.
Qed.
Definition blend (u a q w : Q) : Q := (q * w + u * a) / (w + a).
Lemma blend_between u a q w : 0 < a -> 0 < w -> (u <= q -> u <= blend u a q w /\ blend u a q w <= q) /\ (q <= u -> q <= blend u a q w /\ blend u a q w <= u).
Proof.
  intros Ha Hw. unfold blend. split; intros H; (split; [apply Qle_shift_div_l|apply Qle_shift_div_r]); try lra; nra.
Qed.
Lemma blend_mono u a q w q' w' : 0 < a -> 0 < w -> w <= w' -> u <= q' -> q <= q' -> blend u a q w <= blend u a q' w'.
Proof.
  intros Ha Hw Hww Hu Hq. unfold blend. apply Qle_shift_div_l; [lra|].
  setoid_replace ((q * w + u * a) / (w + a) * (w' + a)) with ((q * w + u * a) * (w' + a) / (w + a)) by (field; lra).
  apply Qle_shift_div_r; [lra|].
  assert (0 <= (q' - q) * (w * (w' + a))) by (apply Qmult_le_0_compat; [lra|apply Qmult_le_0_compat; lra]).
  assert (0 <= (q' - u) * a * (w' - w)) by (apply Qmult_le_0_compat; [apply Qmult_le_0_compat|]; lra).
  nra.
Qed.
Lemma blend_strict u a q w q' w' : 0 < a -> 0 < w -> w <= w' -> u <= q' -> q <= q' -> (q < q' \/ (w < w' /\ u < q')) -> blend u a q w < blend u a q' w'.
Proof.
  intros Ha Hw Hww Hu Hq HS. unfold blend. apply Qlt_shift_div_l; [lra|].
  setoid_replace ((q * w + u * a) / (w + a) * (w' + a)) with ((q * w + u * a) * (w' + a) / (w + a)) by (field; lra).
  apply Qlt_shift_div_r; [lra|].
  assert (G : 0 < (q' - q) * (w * (w' + a)) + (q' - u) * a * (w' - w)).
  { assert (0 <= (q' - q) * (w * (w' + a))) by (apply Qmult_le_0_compat; [lra|apply Qmult_le_0_compat; lra]).
    assert (0 <= (q' - u) * a * (w' - w)) by (apply Qmult_le_0_compat; [apply Qmult_le_0_compat|]; lra).
    destruct HS as [HS|[HS1 HS2]].
    - assert (0 < (q' - q) * (w * (w' + a))) by (apply Qmult_lt_0_compat; [lra|apply Qmult_lt_0_compat; lra]). lra.
    - assert (0 < (q' - u) * a * (w' - w)) by (apply Qmult_lt_0_compat; [apply Qmult_lt_0_compat|]; lra). lra. }
  nra.
Qed.
Lemma annotation_weight_sub aw r r' : length r = length aw -> length r' = length aw -> (forall w, In w aw -> 0 < w) ->
  (forall j, annotators_of r j -> annotators_of r' j) ->
  annotation_weight aw r <= annotation_weight aw r' /\
  ((exists j, ~ annotators_of r j /\ annotators_of r' j) -> annotation_weight aw r < annotation_weight aw r').
Proof.
  unfold annotation_weight. revert r r'. induction aw as [|w aw IH]; intros [|o r] [|o' r'] H1 H2 Hw Hs; simpl in H1, H2; try discriminate.
  - split; [simpl; lra|]. intros (j & _ & k & Hj). destruct j; discriminate.
  - cbn [combine map fst snd]. rewrite !qsum_cons.
    destruct (IH r r') as [I1 I2]; [lia|lia|intros; apply Hw; right; auto|intros j Hj; apply (Hs (S j)); auto|].
    set (s := qsum (map (fun wl : Q * option nat => if present (snd wl) then fst wl else 0) (combine aw r))) in *.
    set (s' := qsum (map (fun wl : Q * option nat => if present (snd wl) then fst wl else 0) (combine aw r'))) in *.
    pose proof (Hw w (or_introl eq_refl)) as Hw0. split.
    + destruct (present o) eqn:E; destruct (present o') eqn:E'; try lra. exfalso. apply present_some in E as (k & ->).
      destruct (Hs 0%nat) as (k' & Hk'); [exists k; reflexivity|]. simpl in Hk'. subst. discriminate.
    + intros (j & Hn & Hj). destruct j as [|j].
      * destruct Hj as (k' & Hk'). simpl in Hk'. subst o'. destruct o as [k|]; [exfalso; apply Hn; exists k; reflexivity|]. simpl. lra.
      * assert (s < s') by (apply I2; exists j; auto). destruct (present o) eqn:E; destruct (present o') eqn:E'; try lra. exfalso. apply present_some in E as (k & ->).
        destruct (Hs 0%nat) as (k' & Hk'); [exists k; reflexivity|]. simpl in Hk'. subst. discriminate.
Qed.
Lemma annotation_weight_nonneg aw r : (forall w, In w aw -> 0 < w) -> 0 <= annotation_weight aw r.
Proof.
  intros H. unfold annotation_weight. apply qsum_map_nonneg. intros [w o] Hw. cbn [fst snd]. destruct (present o); [|lra]. apply in_combine_l in Hw. apply Qlt_le_weak; auto.
Qed.

(** the quality the scores are built from *)
Definition quality_used fsqrt rnd (t : table) M K (prior : list (list Q)) (q : list Q) : Prop :=
  (exists info, get_label_quality_multiannotator fsqrt rnd t M K prior BestQuality = Ok info /\ q = c_quality info) \/
  ((forall r, In r t -> num_annotations r = 1%nat) /\ length q = length t /\
   forall i k, (i < length t)%nat -> In (Some k) (nth i t []) -> nth i q 0 = mget prior i k).

Lemma single_plurality r k m : num_annotations r = 1%nat -> In (Some k) r -> In (Some m) r -> m = k.
Proof.
  intros H Hk Hm. rewrite num_given in H. apply in_given in Hk, Hm. destruct (given r) as [|a [|b l]]; simpl in *; try discriminate.
  destruct Hk as [<-|[]], Hm as [<-|[]]. reflexivity.
Qed.

Lemma active_inv fsqrt rnd t M K prior unl s u :
  (forall r, In r t -> length r = M) -> (2 <= K)%nat -> distributions (length t) K prior -> (forall x, 0 < x -> 0 < fsqrt x) ->
  get_active_learning_scores fsqrt rnd t M K prior unl = Ok (s, u) ->
  exists q mw aw, quality_used fsqrt rnd t M K prior q /\ length q = length t /\ (forall x, In x q -> 0 <= x /\ x <= 1) /\
    0 < mw /\ length aw = M /\ (forall w, In w aw -> 0 < w) /\ 0 < qmean aw /\
    s = map (fun qr => active_score K aw mw (qmean aw) (fst qr) (snd qr)) (combine q t) /\
    u = map (active_score_unlabeled K mw (qmean aw)) unl.
Proof.
  intros W HK HD Hf H. unfold get_active_learning_scores in H.
  destruct (forallb (fun r => num_annotations r =? 1) t) eqn:EF.
  - rewrite forallb_forall in EF. assert (H1 : forall r, In r t -> num_annotations r = 1%nat) by (intros r Hr; apply Nat.eqb_eq; auto). clear EF.
    destruct (assert_valid_multiannotator _ _ _ _) as [[]|] eqn:EV; cbn [rbind] in H; [|discriminate].
    destruct (get_majority_vote_label rnd t M (Some prior) K false) as [c|] eqn:EC; cbn [rbind] in H; [|discriminate].
    assert (S : forall r, In r t -> exists k, In (Some k) r).
    { intros r Hr. specialize (H1 r Hr). rewrite num_given in H1. destruct (given r) as [|k l] eqn:E; [discriminate|]. exists k. apply in_given. rewrite E. left; auto. }
    destruct (mv_lt _ _ _ _ _ _ EC W S) as [LC BC].
    assert (Htn : t <> []).
    { unfold assert_valid_multiannotator in EV. intros ->. simpl in EV. destruct (existsb _ (seq 0 M)); discriminate. }
    assert (Hcn : c <> []) by (intros ->; destruct t; [congruence|discriminate]).
    rewrite (valid_scores K) in H; auto; [|rewrite LC; auto]. cbn [rbind] in H. injection H as <- <-.
    destruct HD as [HD1 HD2].
    assert (LQ : length (get_self_confidence c prior) = length t) by (unfold get_self_confidence; rewrite map_length, combine_length; lia).
    assert (HM : (1 <= M)%nat).
    { destruct t as [|r t']; [congruence|]. destruct (S r (or_introl eq_refl)) as (k & Hk). rewrite <- (W r (or_introl eq_refl)). destruct r; [destruct Hk|simpl; lia]. }
    exists (get_self_confidence c prior), 1, (repeat 1 M). split; [right; split; [auto|split; [auto|]]|].
    + intros i k Hi Hk. unfold get_self_confidence. rewrite (nth_map_gen _ _ _ _ (0%nat, [])) by (rewrite combine_length; lia). rewrite combine_nth by lia. cbn [fst snd].
      destruct (C35_plurality_full rnd t M (Some prior) K false c W S EC) as [_ HP]. destruct (HP i Hi) as ((Hv & _) & _). apply votes_in in Hv.
      rewrite (single_plurality (nth i t []) k (nth i c 0%nat)); auto. apply H1, nth_In; auto.
    + split; [auto|split]. { intros x Hx. apply self_conf_in in Hx as (rw & k & Hr & _ & ->); [|lia]. eapply nth_unit; eauto. }
      split; [lra|split; [apply repeat_length|split; [intros w Hw; apply repeat_spec in Hw; subst; lra|split; [|split; reflexivity]]]].
      destruct (qmean_bounds 1 1 (repeat 1 M)) as [A _]; [destruct M; [lia|discriminate]|intros x Hx; apply repeat_spec in Hx; subst; lra|lra].
  - destruct (get_label_quality_multiannotator fsqrt rnd t M K prior BestQuality) as [info|] eqn:EI; cbn [rbind] in H; [|discriminate]. injection H as <- <-.
    pose proof EI as EI'. unfold get_label_quality_multiannotator in EI'. apply label_quality_inv in EI' as (HA & HO & G & _); auto; [|discriminate|intros p [<-|[]]; auto].
    destruct G as (_ & _ & LQ & BQ & _ & _ & _ & LM & BM & LA & BA & _).
    exists (c_quality info), (qsum (model_weights (c_post info))), (annot_weights (c_post info)).
    split; [left; eauto|split; [auto|split; [auto|split; [|split; [auto|split; [intros w Hw; apply BA; auto|split; [|split; reflexivity]]]]]]].
    + apply qsum_pos; auto. destruct (model_weights (c_post info)); [discriminate|congruence].
    + assert (Hn : annot_weights (c_post info) <> []).
      { destruct HO as (r & i & j & Hr & _ & (k & Hk) & _). intros E. rewrite E in LA. simpl in LA. rewrite <- LA in W. rewrite nth_overflow in Hk by (rewrite (W r Hr); lia). discriminate. }
      unfold qmean. apply Qlt_shift_div_l; [apply Qnat_pos; destruct (annot_weights (c_post info)); [congruence|simpl; lia]|]. 
      setoid_replace (0 * Qnat (length (annot_weights (c_post info)))) with 0 by ring. apply qsum_pos; auto. intros w Hw. apply BA; auto.
Qed.

Lemma top_ge K rw : distribution K rw -> (1 <= K)%nat -> 1 / Qnat K <= qmaximum rw /\ qmaximum rw <= 1.
Proof.
  intros (L & N & E) HK. assert (HQ : 0 < Qnat K) by (apply Qnat_pos; lia). split.
  - apply Qle_shift_div_r; auto. rewrite <- E. rewrite <- (map_id rw) at 1. rewrite Qmult_comm, <- L, <- (qsum_map_const (qmaximum rw) rw).
    apply qsum_map_le. intros x Hx. apply qmaximum_ge; auto.
  - assert (Hn : rw <> []) by (destruct rw; [simpl in L; lia|discriminate]). apply qmaximum_in in Hn. eapply dist_unit; [split; [apply L|split; eauto]|auto].
Qed.

Lemma C37_full fsqrt rnd t M K prior unl s u :
  (forall r, In r t -> length r = M) -> (2 <= K)%nat -> distributions (length t) K prior ->
  (forall rw, In rw unl -> distribution K rw) -> (forall x, 0 < x -> 0 < fsqrt x) ->
  get_active_learning_scores fsqrt rnd t M K prior unl = Ok (s, u) ->
  exists q, quality_used fsqrt rnd t M K prior q /\ length s = length t /\ length u = length unl /\
   (forall i, (i < length t)%nat ->
      (1 / Qnat K <= nth i q 0 -> 1 / Qnat K <= nth i s 0 /\ nth i s 0 <= nth i q 0) /\
      (nth i q 0 <= 1 / Qnat K -> nth i q 0 <= nth i s 0 /\ nth i s 0 <= 1 / Qnat K)) /\
   (forall i i', (i < length t)%nat -> (i' < length t)%nat ->
      (forall j, annotators_of (nth i t []) j -> annotators_of (nth i' t []) j) ->
      1 / Qnat K <= nth i' q 0 -> nth i q 0 <= nth i' q 0 ->
      nth i s 0 <= nth i' s 0 /\
      (1 / Qnat K < nth i' q 0 -> (exists j, ~ annotators_of (nth i t []) j /\ annotators_of (nth i' t []) j) -> nth i s 0 < nth i' s 0)) /\
   (forall i, (i < length unl)%nat -> 1 / Qnat K <= nth i u 0 /\ nth i u 0 <= qmaximum (nth i unl [])) /\
   (forall i i', (i < length unl)%nat -> (i' < length unl)%nat ->
      (nth i u 0 <= nth i' u 0 <-> qmaximum (nth i unl []) <= qmaximum (nth i' unl []))) /\
   (forall i i', (i < length unl)%nat -> (i' < length t)%nat -> qmaximum (nth i unl []) <= nth i' q 0 -> nth i u 0 <= nth i' s 0).
Proof.
  intros W HK HD HU Hf H. destruct (active_inv _ _ _ _ _ _ _ _ _ W HK HD Hf H) as (q & mw & aw & Hq & LQ & BQ & Hmw & LA & BA & Havg & -> & ->).
  exists q. split; auto.
  assert (LS : length (map (fun qr => active_score K aw mw (qmean aw) (fst qr) (snd qr)) (combine q t)) = length t) by (rewrite map_length, combine_length; lia).
  split; auto. split; [apply map_length|].
  assert (Es : forall i, (i < length t)%nat -> nth i (map (fun qr => active_score K aw mw (qmean aw) (fst qr) (snd qr)) (combine q t)) 0 ==
     blend (1 / Qnat K) (qmean aw) (nth i q 0) (annotation_weight aw (nth i t []) + mw)).
  { intros i Hi. rewrite (nth_map_gen _ _ _ _ (0, [])) by (rewrite combine_length; lia). rewrite combine_nth by auto. cbn [fst snd].
    rewrite active_formula. reflexivity. }
  assert (Eu : forall i, (i < length unl)%nat -> nth i (map (active_score_unlabeled K mw (qmean aw)) unl) 0 == blend (1 / Qnat K) (qmean aw) (qmaximum (nth i unl [])) mw).
  { intros i Hi. rewrite (nth_map_gen _ _ _ _ []) by auto. rewrite unlabeled_formula. reflexivity. }
  assert (Hw : forall i, 0 < annotation_weight aw (nth i t []) + mw) by (intros i; pose proof (annotation_weight_nonneg aw (nth i t []) BA); lra).
  assert (HT : forall i, (i < length unl)%nat -> 1 / Qnat K <= qmaximum (nth i unl [])) by (intros i Hi; apply top_ge; [apply HU, nth_In; auto|lia]).
  split; [|split; [|split; [|split]]].
  - intros i Hi. rewrite (Es i Hi). apply blend_between; auto.
  - intros i i' Hi Hi' Hs Hge Hle. rewrite (Es i Hi), (Es i' Hi').
    destruct (annotation_weight_sub aw (nth i t []) (nth i' t [])) as [A1 A2]; auto; [rewrite LA; apply W, nth_In; auto|rewrite LA; apply W, nth_In; auto|].
    split; [apply blend_mono; auto; lra|]. intros Hgt Hj. apply blend_strict; auto; [lra|]. right. split; auto. specialize (A2 Hj). lra.
  - intros i Hi. rewrite (Eu i Hi). apply blend_between; auto.
  - intros i i' Hi Hi'. rewrite (Eu i Hi), (Eu i' Hi'). split; intros G.
    + destruct (Qlt_le_dec (qmaximum (nth i' unl [])) (qmaximum (nth i unl []))) as [Hlt|]; auto. exfalso.
      pose proof (blend_strict (1 / Qnat K) (qmean aw) (qmaximum (nth i' unl [])) mw (qmaximum (nth i unl [])) mw Havg Hmw (Qle_refl _) (HT i Hi) (Qlt_le_weak _ _ Hlt) (or_introl Hlt)). lra.
    + apply blend_mono; auto; [lra].
  - intros i i' Hi Hi' G. rewrite (Eu i Hi), (Es i' Hi'). apply blend_mono; auto; [pose proof (annotation_weight_nonneg aw (nth i' t []) BA); lra|].
    pose proof (HT i Hi). lra.
Qed.

(** ** Votes count in favour of their class (majority-vote consensus) *)
Lemma num_le_votes K r k : plurality r k -> (forall l, In (Some l) r -> (l < K)%nat) -> Qnat (num_annotations r) <= Qnat K * Qnat (votes r k).
Proof.
  intros [_ H] HK. rewrite <- (label_total_sum K r HK). unfold tab.
  replace (Qnat K) with (Qnat (length (seq 0 K))) by (rewrite seq_length; reflexivity). rewrite <- (qsum_map_const (Qnat (votes r k)) (seq 0 K)).
  apply qsum_map_le. intros l _. rewrite label_total_votes. apply Qnat_le. auto.
Qed.
Lemma cl_ge M K t c : annotations M K t -> has_overlap t -> length c = length t -> (2 <= K)%nat ->
  (forall i, (i < length t)%nat -> plurality (nth i t []) (nth i c 0%nat)) -> 1 / Qnat K <= consensus_likelihood t c.
Proof.
  intros [W S C] HO HL HK HP. unfold consensus_likelihood. apply (qmean_bounds (1 / Qnat K) 1).
  - apply select_ne; [|apply multi_count; auto]. rewrite multi_length. unfold agreement_with_consensus. rewrite map_length, combine_length. lia.
  - intros x Hx. apply select_In in Hx. split; [|eapply agr_consensus_unit; eauto].
    unfold agreement_with_consensus in Hx. apply in_map_iff in Hx as ([r k] & <- & Hrk). cbn [fst snd].
    destruct (In_nth _ _ ([], 0%nat) Hrk) as (i & Hi & E). rewrite combine_length in Hi. rewrite combine_nth in E by auto. injection E as <- <-.
    specialize (HP i ltac:(lia)). assert (Hr : In (nth i t []) t) by (apply nth_In; lia).
    pose proof (num_le_votes K _ _ HP (fun l Hl => C _ l Hr Hl)) as G. rewrite label_total_votes.
    pose proof (num_pos _ (S _ Hr)) as Hn. assert (0 < Qnat (num_annotations (nth i t []))) by (apply Qnat_pos; lia).
    assert (0 < Qnat K) by (apply Qnat_pos; lia).
    apply Qle_shift_div_l; auto. setoid_replace (1 / Qnat K * Qnat (num_annotations (nth i t []))) with (Qnat (num_annotations (nth i t [])) / Qnat K) by (field; lra).
    apply Qle_shift_div_r; auto. rewrite Qmult_comm. auto.
Qed.
Lemma vote_weight_mono aw r r' k cl ncl : (forall w, In w aw -> 0 < w) -> ncl <= cl -> length r = length r' ->
  (forall j, annotators_of r j <-> annotators_of r' j) -> (forall j, nth j r None = Some k -> nth j r' None = Some k) ->
  qsum (map (vote_weight cl ncl k) (combine aw r)) <= qsum (map (vote_weight cl ncl k) (combine aw r')) /\
  annotation_weight aw r == annotation_weight aw r'.
Proof.
  unfold annotation_weight. intros Ha Hn. revert aw Ha r'. induction r as [|o r IH]; intros aw Ha [|o' r'] HL Hs Hk; simpl in HL; try discriminate.
  - split; lra.
  - destruct aw as [|w aw]; [simpl; split; lra|]. cbn [combine map]. rewrite !qsum_cons.
    destruct (IH aw (fun w' Hw => Ha w' (or_intror Hw)) r') as [I1 I2]; [lia|intros j; apply (Hs (S j))|intros j; apply (Hk (S j))|].
    pose proof (Ha w (or_introl eq_refl)). pose proof (Hs 0%nat) as H0. pose proof (Hk 0%nat) as K0. simpl in H0, K0. unfold annotators_of in H0. simpl in H0.
    split.
    + assert (vote_weight cl ncl k (w, o) <= vote_weight cl ncl k (w, o')); [|lra]. unfold vote_weight. cbn [fst snd].
      destruct o as [l|], o' as [l'|].
      * destruct (Nat.eqb_spec l k) as [->|E]; [specialize (K0 eq_refl); injection K0 as ->; rewrite Nat.eqb_refl; lra|].
        destruct (Nat.eqb l' k); nra.
      * destruct H0 as [H0 _]. destruct H0; [eauto|discriminate].
      * destruct H0 as [_ H0]. destruct H0; [eauto|discriminate].
      * lra.
    + rewrite I2. destruct o, o'; cbn [snd fst present]; try reflexivity.
      * destruct H0 as [H0 _]. destruct H0; [eauto|discriminate].
      * destruct H0 as [_ H0]. destruct H0; [eauto|discriminate].
Qed.
Lemma crowdlab_eq fsqrt t M K c priors p : crowdlab fsqrt t M K c priors = Ok p ->
  forall i, (i < length t)%nat -> nth i (post p) [] =
    posterior_row K (consensus_likelihood t c) (non_consensus_likelihood K (consensus_likelihood t c)) (model_weights p) (annot_weights p)
      (map (fun q => nth i q []) priors) (nth i t []).
Proof.
  unfold crowdlab. destruct (agreement_with_annotators t M); [|discriminate]. intros [= <-]. intros i Hi. cbn [post model_weights annot_weights].
  rewrite (nth_map_gen _ _ _ _ (0%nat, [])) by (rewrite combine_length, seq_length; lia). rewrite combine_nth by (apply seq_length). cbn [fst snd]. rewrite seq_nth by auto. reflexivity.
Qed.
Lemma stats_crowdlab fsqrt t M K priors c info : consensus_stats fsqrt t M K priors c = Ok info -> crowdlab fsqrt t M K c priors = Ok (c_post info).
Proof.
  unfold consensus_stats. destruct (crowdlab _ _ _ _ _ _) as [p|]; cbn [rbind]; [|discriminate]. destruct (get_label_quality_scores _ _ _ _ _); cbn [rbind]; [|discriminate].
  intros [= <-]. reflexivity.
Qed.
Lemma C67_full fsqrt rnd t M K prior info i i' k :
  (forall r, In r t -> length r = M) -> (2 <= K)%nat -> distributions (length t) K prior -> (forall x, 0 < x -> 0 < fsqrt x) ->
  get_label_quality_multiannotator fsqrt rnd t M K prior MajorityVote = Ok info ->
  (i < length t)%nat -> (i' < length t)%nat -> (k < K)%nat -> nth i prior [] = nth i' prior [] ->
  (forall j, annotators_of (nth i t []) j <-> annotators_of (nth i' t []) j) ->
  (forall j, nth j (nth i t []) None = Some k -> nth j (nth i' t []) None = Some k) ->
  mget (post (c_post info)) i k <= mget (post (c_post info)) i' k.
Proof.
  intros W HK HD Hf H Hi Hi' Hk Epr Hann Hvote. unfold get_label_quality_multiannotator in H.
  apply label_quality_inv in H as (HA & HO & G & mv & minfo & EM & _ & EL & EI); auto; [|discriminate|intros p [<-|[]]; auto].
  rewrite EL in EI. apply stats_crowdlab in EI.
  destruct G as (_ & _ & _ & _ & _ & _ & _ & LM & BM & LA & BA & _).
  unfold mget. rewrite !(crowdlab_eq _ _ _ _ _ _ _ EI) by auto. unfold posterior_row. rewrite !nth_tab by auto. cbn [map]. rewrite Epr.
  pose proof HA as [_ S C].
  destruct (C35_plurality_full rnd t M (Some prior) K false mv W S EM) as [LV HP].
  assert (Hcl : 1 / Qnat K <= consensus_likelihood t mv) by (eapply cl_ge; eauto; intros a Ha; apply HP; auto).
  destruct (cl_unit t mv S HO LV) as [_ Hc1].
  assert (HQ : 1 < Qnat K) by (change 1 with (Qnat 1); apply Qnat_lt_iff; lia).
  assert (Hncl : non_consensus_likelihood K (consensus_likelihood t mv) <= consensus_likelihood t mv).
  { unfold non_consensus_likelihood. apply Qle_shift_div_r; [lra|].
    assert (1 <= consensus_likelihood t mv * Qnat K); [|lra]. setoid_replace 1 with (1 / Qnat K * Qnat K) at 1 by (field; lra). apply Qmult_le_compat_r; lra. }
  assert (Haw : forall w, In w (annot_weights (c_post info)) -> 0 < w) by (intros w Hw; apply BA; auto).
  destruct (vote_weight_mono (annot_weights (c_post info)) (nth i t []) (nth i' t []) k _ _ Haw Hncl) as [V1 V2]; auto.
  { rewrite (W (nth i t [])) by (apply nth_In; auto). rewrite (W (nth i' t [])) by (apply nth_In; auto). auto. }
  rewrite V2. assert (HT : 0 < annotation_weight (annot_weights (c_post info)) (nth i' t []) + qsum (model_weights (c_post info))).
  { pose proof (annotation_weight_nonneg _ (nth i' t []) Haw). assert (0 < qsum (model_weights (c_post info))); [|lra]. apply qsum_pos; auto. destruct (model_weights (c_post info)); [discriminate|congruence]. }
  unfold Qdiv. apply Qmult_le_compat_r; [lra|]. apply Qlt_le_weak, Qinv_lt_0_compat. auto.
Qed.

(** ** best_quality consensus *)
Lemma best_quality_nth p mv i : length p = length mv -> (i < length mv)%nat ->
  nth i (best_quality_label p mv) 0%nat =
  match filter (fun k => Qeq_bool (nth k (nth i p []) 0) (qmaximum (nth i p []))) (seq 0 (length (nth i p []))) with
  | [k] => k | _ => nth i mv 0%nat end.
Proof.
  intros HL Hi. unfold best_quality_label. rewrite (nth_map_gen _ _ _ _ ([], 0%nat)) by (rewrite combine_length; lia). rewrite combine_nth by auto. reflexivity.
Qed.
Lemma C70_full fsqrt rnd t M K prior info :
  (forall r, In r t -> length r = M) -> (2 <= K)%nat -> distributions (length t) K prior -> (forall x, 0 < x -> 0 < fsqrt x) ->
  get_label_quality_multiannotator fsqrt rnd t M K prior BestQuality = Ok info ->
  exists minfo, get_label_quality_multiannotator fsqrt rnd t M K prior MajorityVote = Ok minfo /\
  forall i, (i < length t)%nat -> 
    let best k := (k < K)%nat /\ forall k', (k' < K)%nat -> mget (post (c_post minfo)) i k' <= mget (post (c_post minfo)) i k in
    (forall k, best k -> (forall k', best k' -> k' = k) -> nth i (c_label info) 0%nat = k) /\
    (forall k k', best k -> best k' -> k <> k' -> nth i (c_label info) 0%nat = nth i (c_label minfo) 0%nat).
Proof.
  intros W HK HD Hf H. pose proof H as H0. unfold get_label_quality_multiannotator in H.
  apply label_quality_inv in H as (HA & HO & G & mv & minfo & EM & ES & EL & EI); auto; [|discriminate|intros p [<-|[]]; auto].
  exists minfo. assert (HMV : get_label_quality_multiannotator fsqrt rnd t M K prior MajorityVote = Ok minfo).
  { unfold get_label_quality_multiannotator, label_quality_core in *.
    destruct (assert_valid_multiannotator _ _ _ _); cbn [rbind] in *; [|discriminate]. rewrite EM. cbn [rbind]. rewrite ES. cbn [rbind]. reflexivity. }
  split; auto. unfold get_label_quality_multiannotator in HMV.
  apply label_quality_inv in HMV as (_ & _ & G' & mv' & minfo' & EM' & ES' & EL' & _); auto; [|discriminate|intros p [<-|[]]; auto].
  rewrite EM in EM'. injection EM' as <-. destruct G' as (LL & _ & _ & _ & _ & _ & [D1 D2] & _). rewrite EL' in LL.
  intros i Hi best. set (P := post (c_post minfo)) in *. rewrite EL, EL'. rewrite best_quality_nth by lia.
  assert (Lr : length (nth i P []) = K) by (apply D2, nth_In; lia).
  assert (Hb : forall k, In k (filter (fun k => Qeq_bool (nth k (nth i P []) 0) (qmaximum (nth i P []))) (seq 0 (length (nth i P [])))) <-> best k).
  { intros k. unfold best, mget. rewrite filter_In, in_seq, Qeq_bool_iff, Lr. split.
    - intros [Hk E]. split; [lia|]. intros k' Hk'. rewrite E. apply qmaximum_ge, nth_In. lia.
    - intros [Hk E]. split; [lia|]. apply Qle_antisym; [apply qmaximum_ge, nth_In; lia|].
      assert (Hn : nth i P [] <> []) by (destruct (nth i P []); [simpl in Lr; lia|discriminate]). apply qmaximum_in in Hn.
      destruct (In_nth _ _ 0 Hn) as (k' & Hk' & E'). rewrite <- E' at 1. apply E. lia. }
  assert (ND : NoDup (filter (fun k => Qeq_bool (nth k (nth i P []) 0) (qmaximum (nth i P []))) (seq 0 (length (nth i P []))))) by (apply NoDup_filter, seq_NoDup).
  destruct (filter _ _) as [|a [|b l]].
  - split; [intros k Hk _; apply Hb in Hk; destruct Hk|auto].
  - split; [intros k Hk _; apply Hb in Hk; destruct Hk as [->|[]]; auto|].
    intros k k' Hk Hk' Hn. apply Hb in Hk, Hk'. destruct Hk as [->|[]], Hk' as [->|[]]. congruence.
  - split; [|auto]. intros k Hk Hu. exfalso. assert (Ha : best a) by (apply Hb; left; auto). assert (Hb' : best b) by (apply Hb; right; left; auto).
    rewrite (Hu a Ha), (Hu b Hb') in ND. inversion ND; subst. apply H2. left; auto.
Qed.

(** ** Annotator statistics *)
Lemma indicator_unit b : 0 <= indicator b /\ indicator b <= 1.
Proof. destruct b; simpl; lra. Qed.
Lemma mean_opt_bounds lo hi l q : (forall x, In x l -> lo <= x /\ x <= hi) -> mean_opt l = Some q -> lo <= q /\ q <= hi.
Proof. intros H E. destruct l; [discriminate|]. injection E as <-. apply qmean_bounds; [discriminate|auto]. Qed.
Lemma annot_agreement_unit t c j q : annotator_agreement t c j = Some q -> 0 <= q /\ q <= 1.
Proof.
  apply mean_opt_bounds. intros x Hx. apply in_map_iff in Hx as ([l k] & <- & _). apply indicator_unit.
Qed.
Lemma quality_bounds w q a : 0 <= w -> w <= 1 -> 0 <= q -> q <= 1 -> 0 <= a -> a <= 1 -> 0 <= w * q + (1 - w) * a /\ w * q + (1 - w) * a <= 1.
Proof. intros. split; nra. Qed.
Lemma C68_quality_full t M K consensus pp mw aw j q :
  annotations M K t -> t <> [] -> distributions (length t) K pp -> 0 < mw -> aw <> [] -> (forall w, In w aw -> 0 < w) ->
  annotator_quality t consensus pp mw aw j = Some q -> 0 <= q /\ q <= 1.
Proof.
  intros HA Htn [D1 D2] Hmw Han Haw. unfold annotator_quality.
  set (frac := qmean (map (fun r => Qnat (num_annotations r)) t) / Qnat (length aw)).
  set (w := mw / (mw + qsum aw * frac)).
  assert (Hfrac : 0 <= frac).
  { unfold frac. apply Qle_shift_div_l; [apply Qnat_pos; destruct aw; [congruence|simpl; lia]|].
    pose proof (avg_annotations_pos t Htn (an_some _ _ _ HA)). lra. }
  assert (Hsum : 0 <= qsum aw) by (apply qsum_nonneg; intros; apply Qlt_le_weak; auto).
  assert (Hd : 0 <= qsum aw * frac) by (apply Qmult_le_0_compat; auto).
  assert (Hw : 0 <= w /\ w <= 1) by (unfold w; split; [apply Qle_shift_div_l|apply Qle_shift_div_r]; lra).
  destruct (mean_opt _) as [x|] eqn:EL; [|discriminate]. destruct (annotator_agreement _ _ j) as [a|] eqn:EA; [|discriminate]. intros [= <-].
  apply annot_agreement_unit in EA. apply (mean_opt_bounds 0 1) in EL.
  - apply quality_bounds; tauto.
  - intros y Hy. apply in_flat_map in Hy as ([r rw] & Hin & Hy). cbn [fst snd] in Hy. destruct (nth j r None); [|destruct Hy].
    destruct Hy as [<-|[]]. apply in_combine_r in Hin. eapply nth_unit; eauto.
Qed.

Lemma labelled_count t c j k : length c = length t -> length (filter (fun lc => Nat.eqb (fst lc) k) (labelled_by j t c)) = n_gave t j k.
Proof.
  unfold labelled_by, n_gave. revert c. induction t as [|r t IH]; intros [|x c] H; simpl in H; try discriminate; [reflexivity|].
  cbn [combine flat_map filter fst snd]. rewrite filter_app, app_length, IH by lia.
  destruct (nth j r None) as [l|]; cbn [filter fst].
  - destruct (entry_dec (Some l) (Some k)) as [E|E]; [injection E as ->; rewrite Nat.eqb_refl; reflexivity|].
    destruct (Nat.eqb_spec l k); [congruence|reflexivity].
  - destruct (entry_dec None (Some k)); [discriminate|reflexivity].
Qed.
Lemma labelled_right t c j k : length c = length t ->
  qsum (map agrees (filter (fun lc => Nat.eqb (fst lc) k) (labelled_by j t c))) == Qnat (n_right t c j k).
Proof.
  unfold labelled_by, n_right. revert c. induction t as [|r t IH]; intros [|x c] H; simpl in H; try discriminate; [reflexivity|].
  cbn [combine flat_map filter fst snd]. rewrite filter_app, map_app, qsum_app, IH by lia.
  destruct (nth j r None) as [l|]; cbn [filter fst].
  - destruct (entry_dec (Some l) (Some k)) as [E|E].
    + injection E as ->. rewrite Nat.eqb_refl. cbn [map qsum fold_right]. unfold agrees. cbn [fst snd]. rewrite Nat.eqb_sym. destruct (Nat.eqb x k); cbn [indicator length]; [rewrite Qnat_S|]; ring.
    + destruct (Nat.eqb_spec l k); [congruence|]. cbn [map qsum fold_right]. ring.
  - destruct (entry_dec None (Some k)); [discriminate|]. cbn [map qsum fold_right]. ring.
Qed.
Lemma labelled_fst t c j k : length c = length t -> In k (map fst (labelled_by j t c)) <-> (1 <= n_gave t j k)%nat.
Proof.
  intros H. rewrite <- (labelled_count t c j k H). split.
  - intros Hk. apply in_map_iff in Hk as (lc & <- & Hin). assert (In lc (filter (fun lc' => Nat.eqb (fst lc') (fst lc)) (labelled_by j t c))) by (apply filter_In; split; [auto|apply Nat.eqb_refl]).
    destruct (filter _ _); [destruct H0|simpl; lia].
  - intros Hk. destruct (filter _ _) as [|lc l] eqn:E; [simpl in Hk; lia|]. assert (Hin : In lc (filter (fun lc => Nat.eqb (fst lc) k) (labelled_by j t c))) by (rewrite E; left; auto).
    apply filter_In in Hin as [Hin E']. apply Nat.eqb_eq in E'. apply in_map_iff. exists lc. auto.
Qed.
Lemma labelled_nfst t c j k : length c = length t -> count k (map fst (labelled_by j t c)) = n_gave t j k.
Proof.
  intros H. rewrite <- (labelled_count t c j k H). unfold count. induction (labelled_by j t c) as [|lc l IH]; [reflexivity|].
  cbn [map count_occ filter]. destruct (Nat.eq_dec (fst lc) k) as [->|E]; [rewrite Nat.eqb_refl; simpl; f_equal; auto|].
  apply Nat.eqb_neq in E. rewrite E. auto.
Qed.
Lemma class_accuracy_eq t c j k : length c = length t -> class_accuracy (labelled_by j t c) k == Qnat (n_right t c j k) / Qnat (n_gave t j k).
Proof.
  intros H. unfold class_accuracy, qmean. rewrite (labelled_right t c j k H), map_length, (labelled_count t c j k H). reflexivity.
Qed.
Lemma class_quality_eq t c q j k : length c = length t -> length q = length t ->
  class_quality (labelled_by j t c) (labelled_quality j t q) k = qmean (qualities_given t q j k).
Proof.
  intros H1 H2. unfold class_quality. f_equal. unfold labelled_by, labelled_quality. revert c q H1 H2.
  induction t as [|r t IH]; intros [|x c] [|y q] H1 H2; simpl in H1, H2; try discriminate; [reflexivity|].
  cbn [combine flat_map filter fst snd qualities_given]. destruct (nth j r None) as [l|]; cbn [present app].
  - cbn [combine filter fst snd]. destruct (entry_dec (Some l) (Some k)) as [E|E].
    + injection E as ->. rewrite Nat.eqb_refl. cbn [map snd]. f_equal. apply IH; lia.
    + destruct (Nat.eqb_spec l k); [congruence|]. apply IH; lia.
  - destruct (entry_dec None (Some k)); [discriminate|]. apply IH; lia.
Qed.
Lemma n_right_le t c j k : length c = length t -> (n_right t c j k <= n_gave t j k)%nat.
Proof.
  unfold n_right, n_gave. revert c. induction t as [|r t IH]; intros [|x c] H; simpl in H; try discriminate; [auto|].
  cbn [combine filter fst snd]. specialize (IH c ltac:(lia)). destruct (entry_dec _ _); [destruct (x =? k); simpl; lia|auto].
Qed.

Lemma worst_in pairs quality : pairs <> [] ->
  let w := worst_class pairs quality in
  In w (unique (map fst pairs)) /\
  (forall k, In k (unique (map fst pairs)) -> class_accuracy pairs w <= class_accuracy pairs k) /\
  (forall k, In k (unique (map fst pairs)) -> class_accuracy pairs w == class_accuracy pairs k -> (count k (map fst pairs) <= count w (map fst pairs))%nat) /\
  (forall k, In k (unique (map fst pairs)) -> class_accuracy pairs w == class_accuracy pairs k -> count k (map fst pairs) = count w (map fst pairs) ->
     class_quality pairs quality k <= class_quality pairs quality w).
Proof.
  intros Hne w. set (cl := unique (map fst pairs)). set (lowest := keep_min (class_accuracy pairs) cl).
  set (fr := keep_max (fun k => Qnat (count k (map fst pairs))) lowest). set (top := keep_max (class_quality pairs quality) fr).
  assert (Hcl : cl <> []).
  { destruct pairs as [|p ps]; [congruence|]. assert (In (fst p) cl) by (apply in_unique; left; auto). destruct cl; [destruct H|discriminate]. }
  assert (Hl : lowest <> []) by (apply keep_min_ne; auto). assert (Hf : fr <> []) by (apply keep_max_ne; auto). assert (Ht : top <> []) by (apply keep_max_ne; auto).
  assert (Hw : In w top).
  { unfold w, worst_class. fold cl. fold lowest. fold fr. fold top.
    destruct lowest as [|a [|b l]] eqn:El; [congruence| |].
    - unfold top, fr. rewrite keep_max_single, keep_max_single. left; auto.
    - destruct fr as [|x [|y z]] eqn:Ef; [congruence| |].
      + unfold top. rewrite keep_max_single. left; auto.
      + destruct top; [congruence|left; auto]. }
  unfold top in Hw. apply in_keep_max in Hw as [Hw1 Hw2]. unfold fr in Hw1. apply in_keep_max in Hw1 as [Hw3 Hw4]. unfold lowest in Hw3. apply in_keep_min in Hw3 as [Hw5 Hw6].
  assert (Hlow : forall k, In k cl -> class_accuracy pairs w == class_accuracy pairs k -> In k lowest).
  { intros k Hk E. apply in_keep_min. split; auto. intros k' Hk'. rewrite <- E. auto. }
  split; [auto|split; [auto|split]].
  - intros k Hk E. apply Qnat_le_iff. apply Hw4. auto.
  - intros k Hk E EC. apply Hw2. apply in_keep_max. split; [auto|]. intros k' Hk'. cbv beta. rewrite EC. apply Hw4. auto.
Qed.
Lemma div_le a b c d : (1 <= b)%nat -> (1 <= d)%nat -> (Qnat a / Qnat b <= Qnat c / Qnat d <-> (a * d <= c * b)%nat).
Proof.
  intros Hb Hd. assert (0 < Qnat b) by (apply Qnat_pos; lia). assert (0 < Qnat d) by (apply Qnat_pos; lia).
  assert (E : forall x y, Qnat (x * y) == Qnat x * Qnat y) by (intros; unfold Qnat; rewrite Nat2Z.inj_mul, inject_Z_mult; reflexivity).
  rewrite <- Qnat_le_iff, !E. split; intros G.
  - assert (G' : Qnat a / Qnat b * (Qnat b * Qnat d) <= Qnat c / Qnat d * (Qnat b * Qnat d)) by (apply Qmult_le_compat_r; [auto|apply Qmult_le_0_compat; lra]).
    setoid_replace (Qnat a / Qnat b * (Qnat b * Qnat d)) with (Qnat a * Qnat d) in G' by (field; lra).
    setoid_replace (Qnat c / Qnat d * (Qnat b * Qnat d)) with (Qnat c * Qnat b) in G' by (field; lra). auto.
  - apply Qle_shift_div_l; auto. setoid_replace (Qnat a / Qnat b * Qnat d) with (Qnat a * Qnat d / Qnat b) by (field; lra). apply Qle_shift_div_r; auto.
Qed.
Lemma C68_worst_full t c q j : length c = length t -> length q = length t -> (exists k, (1 <= n_gave t j k)%nat) ->
  let w := worst_class (labelled_by j t c) (labelled_quality j t q) in
  (1 <= n_gave t j w)%nat /\
  (forall k, (1 <= n_gave t j k)%nat -> (n_right t c j w * n_gave t j k <= n_right t c j k * n_gave t j w)%nat) /\
  (forall k, (1 <= n_gave t j k)%nat -> (n_right t c j w * n_gave t j k = n_right t c j k * n_gave t j w)%nat -> (n_gave t j k <= n_gave t j w)%nat) /\
  (forall k a b, (1 <= n_gave t j k)%nat -> (n_right t c j w * n_gave t j k = n_right t c j k * n_gave t j w)%nat -> n_gave t j k = n_gave t j w ->
     is_average (qualities_given t q j k) a -> is_average (qualities_given t q j w) b -> a <= b).
Proof.
  intros H1 H2 (k0 & Hk0) w.
  assert (Hne : labelled_by j t c <> []).
  { apply (labelled_fst t c j k0 H1) in Hk0. intros E. rewrite E in Hk0. destruct Hk0. }
  destruct (worst_in (labelled_by j t c) (labelled_quality j t q) Hne) as (A1 & A2 & A3 & A4). fold w in A1, A2, A3, A4.
  assert (Hu : forall k, In k (unique (map fst (labelled_by j t c))) <-> (1 <= n_gave t j k)%nat) by (intros k; rewrite in_unique; apply labelled_fst; auto).
  assert (Hw : (1 <= n_gave t j w)%nat) by (apply Hu; auto).
  assert (Heq : forall k, (1 <= n_gave t j k)%nat -> (n_right t c j w * n_gave t j k = n_right t c j k * n_gave t j w)%nat ->
      class_accuracy (labelled_by j t c) w == class_accuracy (labelled_by j t c) k).
  { intros k Hk E. rewrite !class_accuracy_eq by auto. apply Qle_antisym; apply div_le; auto; lia. }
  split; [auto|split; [|split]].
  - intros k Hk. apply div_le; auto. rewrite <- !class_accuracy_eq by auto. apply A2, Hu; auto.
  - intros k Hk E. rewrite <- !(labelled_nfst t c j) by auto. apply A3; [apply Hu; auto|]. auto.
  - intros k a b Hk E EC Ha Hb. specialize (A4 k (proj2 (Hu k) Hk) (Heq k Hk E)). rewrite !(labelled_nfst t c j) in A4 by auto. specialize (A4 EC).
    rewrite !class_quality_eq in A4 by auto.
    rewrite (is_average_unique _ _ _ Ha (qmean_average _ (proj1 Ha))), (is_average_unique _ _ _ Hb (qmean_average _ (proj1 Hb))). auto.
Qed.

(** ** Order of the annotators *)
Lemma count_true_perm l l' : Permutation l l' -> count_true l = count_true l'.
Proof. induction 1; rewrite ?count_true_cons; lia. Qed.
Lemma keep_max_ext s s' c : (forall k, In k c -> s k == s' k) -> keep_max s c = keep_max s' c.
Proof.
  intros H. unfold keep_max. apply filter_ext_in. intros k Hk.
  assert (E : qmaximum (map s c) == qmaximum (map s' c)).
  { assert (Hn : forall f : nat -> Q, map f c <> []) by (intros f; destruct c; [destruct Hk|discriminate]).
    apply Qle_antisym.
    - destruct (proj1 (in_map_iff _ _ _) (qmaximum_in _ (Hn s))) as (x & <- & Hx). rewrite (H x Hx). apply qmaximum_ge, in_map; auto.
    - destruct (proj1 (in_map_iff _ _ _) (qmaximum_in _ (Hn s'))) as (x & <- & Hx). rewrite <- (H x Hx). apply qmaximum_ge, in_map; auto. }
  destruct (Qeq_bool (s k) _) eqn:E1.
  - symmetry. apply Qeq_bool_iff. apply Qeq_bool_iff in E1. rewrite <- (H k Hk), E1. auto.
  - symmetry. apply not_true_is_false. intros E2. apply Qeq_bool_iff in E2. apply Qeq_bool_neq in E1. apply E1. rewrite (H k Hk), E2. symmetry; auto.
Qed.
Section Reorder.
Variables (M : nat) (p : list nat).
Hypothesis Hp : Permutation p (seq 0 M).
Lemma p_len : length p = M.
Proof. apply Permutation_length in Hp. rewrite Hp, seq_length. auto. Qed.
Lemma p_in j : In j p <-> (j < M)%nat.
Proof. apply Permutation_seq_lt. auto. Qed.
Lemma p_nth i : (i < M)%nat -> (nth i p 0%nat < M)%nat.
Proof. intros Hi. apply p_in. apply nth_In. rewrite p_len. auto. Qed.
Lemma reorder_nth r i : (i < M)%nat -> nth i (reorder p r) None = nth (nth i p 0%nat) r None.
Proof. intros Hi. unfold reorder. rewrite (nth_map_gen _ _ _ _ 0%nat) by (rewrite p_len; auto). reflexivity. Qed.
Lemma reorder_len r : length (reorder p r) = M.
Proof. unfold reorder. rewrite map_length. apply p_len. Qed.
Lemma reorder_perm r : length r = M -> Permutation (reorder p r) r.
Proof.
  intros Hr. unfold reorder. transitivity (map (fun j => nth j r None) (seq 0 M)); [apply Permutation_map; auto|].
  rewrite <- Hr. rewrite (tab_nth r None : map _ _ = r) || (change (Permutation (tab (length r) (fun j => nth j r None)) r); rewrite tab_nth). reflexivity.
Qed.
Lemma reorder_total k r : length r = M -> label_total k (reorder p r) = label_total k r.
Proof. intros Hr. unfold label_total. apply count_true_perm, Permutation_map, reorder_perm. auto. Qed.
Lemma reorder_num r : length r = M -> num_annotations (reorder p r) = num_annotations r.
Proof. intros Hr. unfold num_annotations. apply count_true_perm, Permutation_map, reorder_perm. auto. Qed.
Lemma reorder_modes K r : length r = M -> modes K (reorder p r) = modes K r.
Proof.
  intros Hr. unfold modes. rewrite (tab_ext K (fun k => label_total k (reorder p r)) (fun k => label_total k r)) by (intros; apply reorder_total; auto). reflexivity.
Qed.
Variable t : table.
Hypothesis HW : forall r, In r t -> length r = M.
Let t' := map (reorder p) t.
Lemma reorder_freq k : class_frequency t' k = class_frequency t k.
Proof. unfold class_frequency, t'. rewrite map_map. do 2 f_equal. apply map_ext_in. intros r Hr. apply reorder_total. auto. Qed.
Lemma reorder_pairs K : nontied_pairs K t' = map (fun rk => (reorder p (fst rk), snd rk)) (nontied_pairs K t).
Proof.
  unfold nontied_pairs, t'. clear t'. induction t as [|r t0 IH]; [reflexivity|]. cbn [map flat_map]. rewrite map_app, IH by (intros; apply HW; right; auto).
  rewrite reorder_modes by (apply HW; left; auto). destruct (settle (modes K r)); reflexivity.
Qed.
Lemma filter_map_comm {A B} (f : A -> B) g l : filter g (map f l) = map f (filter (fun a => g (f a)) l).
Proof. induction l; simpl; auto. destruct (g (f a)); simpl; f_equal; auto. Qed.
Lemma take_perm_list {A} (l : list A) d : length l = M -> Permutation (map (fun i => nth i l d) p) l.
Proof.
  intros Hl. transitivity (map (fun j => nth j l d) (seq 0 M)); [apply Permutation_map; auto|].
  change (Permutation (tab M (fun j => nth j l d)) l). rewrite <- Hl, tab_nth. reflexivity.
Qed.
Lemma tab_reorder {A} (f g : nat -> A) : (forall i, (i < M)%nat -> g i = f (nth i p 0%nat)) -> tab M g = map f p.
Proof.
  intros H. rewrite (tab_ext M g (fun i => f (nth i p 0%nat)) H). transitivity (map f (tab M (fun i => nth i p 0%nat))); [unfold tab; rewrite map_map; reflexivity|]. rewrite <- p_len, tab_nth. reflexivity.
Qed.
Lemma known_perm l l' : Permutation l l' -> Permutation (known l) (known l').
Proof. intros H. unfold known. apply Permutation_flat_map. auto. Qed.
Lemma qmean_perm a b : Permutation a b -> qmean a == qmean b.
Proof. intros H. unfold qmean. rewrite (qsum_perm _ _ H), (Permutation_length H). reflexivity. Qed.
Lemma impute_reorder (f g : nat -> option Q) : (forall i, (i < M)%nat -> g i = f (nth i p 0%nat)) ->
  (impute (tab M f) = None /\ impute (tab M g) = None) \/
  exists s s', impute (tab M f) = Some s /\ impute (tab M g) = Some s' /\ length s = M /\ length s' = M /\
    forall i, (i < M)%nat -> nth i s' 0 == nth (nth i p 0%nat) s 0.
Proof.
  intros H. assert (HP : Permutation (known (tab M g)) (known (tab M f))).
  { apply known_perm. rewrite (tab_reorder f g H). apply Permutation_map. auto. }
  unfold impute. destruct (known (tab M f)) as [|q qs] eqn:Ef.
  - apply Permutation_sym, Permutation_nil in HP. rewrite HP. left; auto.
  - destruct (known (tab M g)) as [|q' qs'] eqn:Eg; [apply Permutation_nil in HP; discriminate|]. right.
    eexists. eexists. split; [reflexivity|]. split; [reflexivity|]. rewrite !map_length, !tab_length. split; [auto|split; [auto|]].
    intros i Hi. pose proof (p_nth i Hi). rewrite !(nth_map_gen _ _ _ _ None) by (rewrite tab_length; auto). rewrite !nth_tab by auto.
    rewrite (H i Hi). destruct (f (nth i p 0%nat)); [reflexivity|]. apply qmean_perm. auto.
Qed.
Lemma who_gave_perm r k : length r = M -> Permutation (map (fun i => nth i p 0%nat) (who_gave k (reorder p r))) (who_gave k r).
Proof.
  intros Hr. assert (NDp : NoDup p) by (eapply Permutation_NoDup; [symmetry; apply Hp|apply seq_NoDup]).
  apply NoDup_Permutation.
  - assert (Hinj : forall a b, (a < M)%nat -> (b < M)%nat -> nth a p 0%nat = nth b p 0%nat -> a = b).
    { intros a b Ha Hb E. pose proof p_len. apply (proj1 (NoDup_nth p 0%nat) NDp a b); try lia. }
    assert (Hlt : forall i, In i (who_gave k (reorder p r)) -> (i < M)%nat).
    { intros i Hi. apply filter_In in Hi as [Hi _]. apply in_seq in Hi. rewrite reorder_len in Hi. lia. }
    assert (ND : NoDup (who_gave k (reorder p r))) by (apply NoDup_filter, seq_NoDup).
    revert Hlt ND. induction (who_gave k (reorder p r)) as [|a l IH]; intros Hlt ND; simpl; constructor.
    + intros Hin. apply in_map_iff in Hin as (b & E & Hb). inversion ND; subst. apply H1. rewrite (Hinj a b); auto; apply Hlt; [left|right]; auto.
    + inversion ND; subst. apply IH; auto. intros i Hi. apply Hlt; right; auto.
  - apply NoDup_filter, seq_NoDup.
  - intros j. rewrite in_map_iff. unfold who_gave. split.
    + intros (i & <- & Hi). apply filter_In in Hi as [Hi HL]. apply in_seq in Hi. rewrite reorder_len in Hi. rewrite reorder_nth in HL by lia.
      apply filter_In. split; auto. apply in_seq. rewrite Hr. split; [lia|]. apply p_nth. lia.
    + intros Hj. apply filter_In in Hj as [Hj HL]. apply in_seq in Hj. assert (Hjp : In j p) by (apply p_in; lia).
      destruct (In_nth _ _ 0%nat Hjp) as (i & Hi & E). rewrite p_len in Hi. exists i. split; auto. apply filter_In. split; [apply in_seq; rewrite reorder_len; lia|].
      rewrite reorder_nth, E; auto.
Qed.
Lemma label_score_reorder s s' r k : length r = M -> (forall i, (i < M)%nat -> nth i s' 0 == nth (nth i p 0%nat) s 0) ->
  label_score s' (reorder p r) k == label_score s r k.
Proof.
  intros Hr Hs. unfold label_score. transitivity (qmean (take_idx 0 s (map (fun i => nth i p 0%nat) (who_gave k (reorder p r))))).
  - unfold take_idx. rewrite map_map. unfold qmean. rewrite !map_length.
    assert (E : qsum (map (fun i => nth i s' 0) (who_gave k (reorder p r))) == qsum (map (fun x => nth (nth x p 0%nat) s 0) (who_gave k (reorder p r)))).
    { apply qsum_map_ext. intros i Hi. apply filter_In in Hi as [Hi _]. apply in_seq in Hi. rewrite reorder_len in Hi. apply Hs. lia. }
    rewrite E. reflexivity.
  - apply qmean_perm. unfold take_idx. apply Permutation_map, who_gave_perm. auto.
Qed.
Lemma keep_min_ext_eq s s' c : (forall k, s k = s' k) -> keep_min s c = keep_min s' c.
Proof. intros H. unfold keep_min. rewrite (map_ext _ _ H). apply filter_ext. intros k. rewrite H. reflexivity. Qed.
Lemma tiebreak_ext f g v : (forall c, f c = g c) -> tiebreak f v = tiebreak g v.
Proof. intros H. destruct v; simpl; auto. rewrite H. auto. Qed.
Lemma vote_reorder K pp i r : In r t -> vote_of K M t' pp i (reorder p r) = vote_of K M t pp i r.
Proof.
  intros Hr. unfold vote_of. rewrite reorder_modes by auto.
  assert (E2 : forall v, tiebreak (keep_min (class_frequency t')) v = tiebreak (keep_min (class_frequency t)) v).
  { intros v. apply tiebreak_ext. intros c. apply keep_min_ext_eq. apply reorder_freq. }
  rewrite E2. set (v2 := tiebreak (keep_min (class_frequency t)) _). apply tiebreak_ext. intros c.
  pose (f := fun j => let mine := filter (fun q => present (nth j (fst q) None)) (nontied_pairs K t) in
      match mine with [] => None | _ => Some (qmean (map (fun q => if is_label (snd q) (nth j (fst q) None) then 1 else 0) mine)) end).
  pose (g := fun j => let mine := filter (fun q => present (nth j (fst q) None)) (nontied_pairs K t') in
      match mine with [] => None | _ => Some (qmean (map (fun q => if is_label (snd q) (nth j (fst q) None) then 1 else 0) mine)) end).
  assert (Hfg : forall i, (i < M)%nat -> g i = f (nth i p 0%nat)).
  { intros j Hj. unfold f, g. rewrite reorder_pairs, filter_map_comm. cbn [fst snd].
    rewrite (filter_ext (fun a => present (nth j (reorder p (fst a)) None)) (fun a => present (nth (nth j p 0%nat) (fst a) None))) by (intros a; rewrite reorder_nth by auto; reflexivity).
    set (mine := filter (fun a => present (nth (nth j p 0%nat) (fst a) None)) (nontied_pairs K t)). cbv zeta.
    assert (Em : map (fun q : list (option nat) * nat => if is_label (snd q) (nth j (fst q) None) then 1 else 0) (map (fun rk => (reorder p (fst rk), snd rk)) mine) =
                 map (fun q => if is_label (snd q) (nth (nth j p 0%nat) (fst q) None) then 1 else 0) mine).
    { rewrite map_map. apply map_ext. intros a. cbn [fst snd]. rewrite reorder_nth by auto. reflexivity. }
    rewrite Em. destruct mine; reflexivity. }
  unfold agreement_nontied. fold f. fold g.
  destruct (impute_reorder f g Hfg) as [[E1 E3]|(s & s' & E1 & E3 & _ & _ & Hs)]; change (impute (tab M f)) with (impute (tab M f)); rewrite E1, E3; cbn [keep_agreeing]; auto.
  apply keep_max_ext. intros k _. apply label_score_reorder; auto.
Qed.
End Reorder.

Lemma given_perm r r' : Permutation r r' -> Permutation (given r) (given r').
Proof. apply Permutation_flat_map. Qed.
Lemma nmax_ext l l' : (forall x, In x l <-> In x l') -> nmax l = nmax l'.
Proof. intros H. apply Nat.le_antisymm; apply nmax_le; intros x Hx; apply nmax_ge, H; auto. Qed.
Lemma all_given_reorder M p (t : table) : Permutation p (seq 0 M) -> (forall r, In r t -> length r = M) ->
  forall x, In x (all_given (map (reorder p) t)) <-> In x (all_given t).
Proof.
  intros Hp HW x. rewrite !in_all_given. split.
  - intros (r & Hr & Hx). apply in_map_iff in Hr as (r0 & <- & Hr). exists r0. split; auto. eapply Permutation_in; [apply (reorder_perm M p Hp)|]; auto.
  - intros (r & Hr & Hx). exists (reorder p r). split; [apply in_map; auto|]. eapply Permutation_in; [apply Permutation_sym, (reorder_perm M p Hp)|]; auto.
Qed.
Lemma existsb_ext_in {A} (f : A -> bool) l l' : (forall x, In x l <-> In x l') -> existsb f l = existsb f l'.
Proof.
  intros H. destruct (existsb f l) eqn:E.
  - apply existsb_exists in E as (x & Hx & Ef). symmetry. apply existsb_exists. exists x. split; auto. apply H; auto.
  - symmetry. apply not_true_is_false. intros E'. apply existsb_exists in E' as (x & Hx & Ef). assert (existsb f l = true); [|congruence]. apply existsb_exists. exists x. split; auto. apply H; auto.
Qed.
Lemma combine_map_r {A B C} (f : B -> C) (l : list A) l' : combine l (map f l') = map (fun ab => (fst ab, f (snd ab))) (combine l l').
Proof. revert l'. induction l; intros [|b l']; simpl; auto. f_equal. auto. Qed.
Lemma rmap_map {A B C} (f : B -> res C) (g : A -> B) l : rmap f (map g l) = rmap (fun a => f (g a)) l.
Proof. induction l; simpl; auto. rewrite IHl. reflexivity. Qed.
Lemma rmap_ext_in {A B} (f g : A -> res B) l : (forall a, In a l -> f a = g a) -> rmap f l = rmap g l.
Proof. induction l; simpl; intros H; auto. rewrite H by auto. rewrite IHl by auto. reflexivity. Qed.
Lemma C69_vote_full rnd t M p pp Kpp : Permutation p (seq 0 M) -> (forall r, In r t -> length r = M) ->
  get_majority_vote_label rnd (map (reorder p) t) M pp Kpp false = get_majority_vote_label rnd t M pp Kpp false.
Proof.
  intros Hp HW. unfold get_majority_vote_label. cbn [rbind]. pose proof (all_given_reorder M p t Hp HW) as HG.
  assert (En : nmax (all_given (map (reorder p) t)) = nmax (all_given t)) by (apply nmax_ext; auto).
  assert (Ex : forall K, existsb (fun l => Nat.leb K l) (all_given (map (reorder p) t)) = existsb (fun l => Nat.leb K l) (all_given t)) by (intros; apply existsb_ext_in; auto).
  assert (Er : forall K, rmap (fun ir => draw rnd (fst ir) (vote_of K M (map (reorder p) t) pp (fst ir) (snd ir))) (combine (seq 0 (length (map (reorder p) t))) (map (reorder p) t)) =
      rmap (fun ir => draw rnd (fst ir) (vote_of K M t pp (fst ir) (snd ir))) (combine (seq 0 (length t)) t)).
  { intros K. rewrite map_length, combine_map_r, rmap_map. apply rmap_ext_in. intros [i r] Hir. cbn [fst snd]. rewrite vote_reorder; auto. apply in_combine_r in Hir; auto. }
  destruct pp as [q|].
  - rewrite Er, Ex. destruct (all_given t), (all_given (map (reorder p) t)); reflexivity.
  - destruct (all_given t) as [|a l] eqn:E1; destruct (all_given (map (reorder p) t)) as [|b l'] eqn:E2; auto.
    + exfalso. apply (HG b). left; auto.
    + exfalso. apply (proj2 (HG a)). left; auto.
    + rewrite En, Ex, Er. reflexivity.
Qed.

(** *** The whole pipeline under a reordering of the annotators *)
Lemma combine_tab_nth {A B} (a : list A) (b : list B) da db n : length a = n -> length b = n ->
  combine a b = tab n (fun j => (nth j a da, nth j b db)).
Proof.
  intros Ha Hb. apply (list_eq_nth _ _ (da, db)).
  - rewrite combine_length, tab_length. lia.
  - intros i Hi. rewrite combine_length in Hi. rewrite nth_tab by lia. apply combine_nth. lia.
Qed.
Lemma F2_map_same {A B} (R : B -> B -> Prop) (f g : A -> B) l : (forall a, In a l -> R (g a) (f a)) -> Forall2 R (map g l) (map f l).
Proof. induction l; simpl; intros H; constructor; auto. Qed.
Section ReorderSum.
Variables (M : nat) (p : list nat).
Hypothesis Hp : Permutation p (seq 0 M).
Lemma qsum_reorder (F : Q -> option nat -> Q) aw aw' r : (forall a b o, a == b -> F a o == F b o) ->
  length aw = M -> length aw' = M -> length r = M -> (forall i, (i < M)%nat -> nth i aw' 0 == nth (nth i p 0%nat) aw 0) ->
  qsum (map (fun wl => F (fst wl) (snd wl)) (combine aw' (reorder p r))) == qsum (map (fun wl => F (fst wl) (snd wl)) (combine aw r)).
Proof.
  intros HF H1 H2 H3 H. rewrite (combine_tab_nth aw' (reorder p r) 0 None M), (combine_tab_nth aw r 0 None M); auto using reorder_len.
  unfold tab. rewrite !map_map. cbn [fst snd].
  transitivity (qsum (map (fun i => F (nth (nth i p 0%nat) aw 0) (nth (nth i p 0%nat) r None)) (seq 0 M))).
  - apply qsum_map_ext. intros i Hi. apply in_seq in Hi. rewrite (reorder_nth M p Hp) by lia. apply HF. apply H. lia.
  - assert (E : map (fun i => F (nth (nth i p 0%nat) aw 0) (nth (nth i p 0%nat) r None)) (seq 0 M) = map (fun j => F (nth j aw 0) (nth j r None)) p).
    { apply (tab_reorder M p Hp (fun j => F (nth j aw 0) (nth j r None))). auto. }
    rewrite E. apply qsum_perm, Permutation_map. auto.
Qed.
Variable t : table.
Hypothesis HW : forall r, In r t -> length r = M.
Let t' := map (reorder p) t.
Lemma multi_reorder : multi t' = multi t.
Proof. unfold multi, t'. rewrite map_map. apply map_ext_in. intros r Hr. rewrite (reorder_num M p Hp) by auto. reflexivity. Qed.
Lemma combine_map_l {A B C} (f : A -> C) (l : list A) (l' : list B) : combine (map f l) l' = map (fun ab => (f (fst ab), snd ab)) (combine l l').
Proof. revert l'. induction l; intros [|b l']; simpl; auto. f_equal. auto. Qed.
Lemma agreement_reorder c : agreement_with_consensus t' c = agreement_with_consensus t c.
Proof.
  unfold agreement_with_consensus, t'. rewrite combine_map_l, map_map. apply map_ext_in. intros [r k] Hr. cbn [fst snd].
  apply in_combine_l in Hr. rewrite (reorder_num M p Hp), (reorder_total M p Hp) by auto. reflexivity.
Qed.
Lemma single_reorder i : (i < M)%nat -> single_annotator_agreement t' i = single_annotator_agreement t (nth i p 0%nat).
Proof.
  intros Hi. unfold single_annotator_agreement, t'. rewrite filter_map_comm.
  rewrite (filter_ext (fun a => present (nth i (reorder p a) None)) (fun r => present (nth (nth i p 0%nat) r None))) by (intros a; rewrite (reorder_nth M p Hp) by auto; reflexivity).
  set (rows := filter (fun r => present (nth (nth i p 0%nat) r None)) t). cbv zeta.
  assert (Hrows : forall r, In r rows -> length r = M) by (intros r Hr; apply filter_In in Hr as [Hr _]; auto).
  assert (E1 : map (fun r => Qnat (num_annotations r - 1)) (map (reorder p) rows) = map (fun r => Qnat (num_annotations r - 1)) rows).
  { rewrite map_map. apply map_ext_in. intros r Hr. rewrite (reorder_num M p Hp) by auto. reflexivity. }
  assert (E2 : map (agreement_in_row i) (map (reorder p) rows) = map (agreement_in_row (nth i p 0%nat)) rows).
  { rewrite map_map. apply map_ext_in. intros r Hr. unfold agreement_in_row. rewrite (reorder_num M p Hp), (reorder_nth M p Hp) by auto.
    destruct (nth (nth i p 0%nat) r None); [|reflexivity]. rewrite (reorder_total M p Hp) by auto. reflexivity. }
  rewrite E1, E2. reflexivity.
Qed.
Lemma model_weight_reorder fsqrt c e q : model_weight fsqrt t' c e q = model_weight fsqrt t c e q.
Proof.
  unfold model_weight. rewrite multi_reorder. do 3 f_equal. unfold t'. rewrite map_map. apply map_ext_in. intros r Hr. rewrite (reorder_num M p Hp) by auto. reflexivity.
Qed.
Lemma crowdlab_reorder fsqrt K c priors P : crowdlab fsqrt t M K c priors = Ok P ->
  exists P', crowdlab fsqrt t' M K c priors = Ok P' /\ same_rows (post P') (post P) /\ model_weights P' = model_weights P /\
    (forall i, (i < M)%nat -> nth i (annot_weights P') 0 == nth (nth i p 0%nat) (annot_weights P) 0).
Proof.
  unfold crowdlab, agreement_with_annotators. intros H.
  assert (Ecl : consensus_likelihood t' c = consensus_likelihood t c).
  { unfold consensus_likelihood. rewrite multi_reorder, agreement_reorder. reflexivity. }
  assert (Eml : most_likely_class_error t' c K = most_likely_class_error t c K).
  { unfold most_likely_class_error. rewrite multi_reorder. reflexivity. }
  destruct (impute_reorder M p Hp (single_annotator_agreement t) (single_annotator_agreement t') single_reorder) as [[E1 E2]|(s & s' & E1 & E2 & L1 & L2 & Hs)].
  - rewrite E1 in H. discriminate.
  - rewrite E1 in H. rewrite E2. injection H as <-. eexists. split; [reflexivity|]. cbn [post model_weights annot_weights]. rewrite Ecl, Eml.
    set (cl := consensus_likelihood t c). set (e := most_likely_class_error t c K).
    assert (Em : map (model_weight fsqrt t' c e) priors = map (model_weight fsqrt t c e) priors) by (apply map_ext; intros; apply model_weight_reorder).
    assert (Ha : forall i, (i < M)%nat -> nth i (adjusted_agreement e s') 0 == nth (nth i p 0%nat) (adjusted_agreement e s) 0).
    { intros i Hi. unfold adjusted_agreement. pose proof (p_nth M p Hp i Hi). rewrite !(nth_map_gen _ _ _ _ 0) by lia.
      rewrite (Hs i Hi). reflexivity. }
    split; [|split; [exact Em|exact Ha]].
    rewrite Em. unfold same_rows, t'. rewrite map_length, combine_map_r, map_map. apply F2_map_same. intros [i r] Hir. cbn [fst snd].
    apply in_combine_r in Hir. unfold posterior_row, tab. apply F2_map_same. intros k _.
    assert (La : length (adjusted_agreement e s) = M) by (unfold adjusted_agreement; rewrite map_length; auto).
    assert (La' : length (adjusted_agreement e s') = M) by (unfold adjusted_agreement; rewrite map_length; auto).
    assert (Ev : qsum (map (vote_weight cl (non_consensus_likelihood K cl) k) (combine (adjusted_agreement e s') (reorder p r))) ==
                 qsum (map (vote_weight cl (non_consensus_likelihood K cl) k) (combine (adjusted_agreement e s) r))).
    { rewrite (map_ext (vote_weight cl (non_consensus_likelihood K cl) k) (fun wl => (fun a o => vote_weight cl (non_consensus_likelihood K cl) k (a, o)) (fst wl) (snd wl))) by (intros [a o]; reflexivity).
      apply (qsum_reorder (fun a o => vote_weight cl (non_consensus_likelihood K cl) k (a, o))); auto.
      intros a b o Hab. unfold vote_weight. cbn [fst snd]. destruct o as [l|]; [|reflexivity]. destruct (Nat.eqb l k); rewrite Hab; reflexivity. }
    assert (Ew : annotation_weight (adjusted_agreement e s') (reorder p r) == annotation_weight (adjusted_agreement e s) r).
    { unfold annotation_weight. apply (qsum_reorder (fun a o => if present o then a else 0)); auto. intros a b o Hab. destruct (present o); auto; reflexivity. }
    rewrite Ev, Ew. reflexivity.
Qed.
End ReorderSum.

Lemma best_label_ext p p' mv : same_rows p' p -> best_quality_label p' mv = best_quality_label p mv.
Proof.
  intros H. unfold best_quality_label. revert mv. induction H as [|a b p' p Hab H IH]; intros mv; [reflexivity|]. destruct mv as [|k mv]; [reflexivity|].
  cbn [combine map fst snd]. f_equal; [|apply IH].
  assert (E : filter (fun k => Qeq_bool (nth k a 0) (qmaximum a)) (seq 0 (length a)) = filter (fun k => Qeq_bool (nth k b 0) (qmaximum b)) (seq 0 (length b))).
  { rewrite (F2_len _ _ _ Hab). apply filter_ext_in. intros k' Hk. apply in_seq in Hk.
    assert (E1 : nth k' a 0 == nth k' b 0) by (apply (F2_nth _ _ _ Hab); rewrite (F2_len _ _ _ Hab); lia).
    assert (Hb : b <> []) by (destruct b; [simpl in Hk; lia|discriminate]). assert (Ha : a <> []) by (destruct a; [inversion Hab; subst; simpl in Hk; lia|discriminate]).
    assert (E2 : qmaximum a == qmaximum b).
    { apply Qle_antisym.
      - destruct (In_nth _ _ 0 (qmaximum_in _ Ha)) as (i & Hi & Ei). rewrite <- Ei. rewrite (F2_nth _ _ _ Hab i 0 0 Hi). apply qmaximum_ge, nth_In. rewrite <- (F2_len _ _ _ Hab); auto.
      - destruct (In_nth _ _ 0 (qmaximum_in _ Hb)) as (i & Hi & Ei). rewrite <- Ei. rewrite <- (F2_len _ _ _ Hab) in Hi. rewrite <- (F2_nth _ _ _ Hab i 0 0 Hi). apply qmaximum_ge, nth_In; auto. }
    destruct (Qeq_bool (nth k' a 0) (qmaximum a)) eqn:Q1.
    - symmetry. apply Qeq_bool_iff. apply Qeq_bool_iff in Q1. rewrite <- E1, <- E2. auto.
    - symmetry. apply not_true_is_false. intros Q2. apply Qeq_bool_iff in Q2. apply Qeq_bool_neq in Q1. apply Q1. rewrite E1, E2. auto. }
  rewrite E. reflexivity.
Qed.

Section ReorderAll.
Variables (M : nat) (p : list nat).
Hypothesis Hp : Permutation p (seq 0 M).
Variable t : table.
Hypothesis HW : forall r, In r t -> length r = M.
Let t' := map (reorder p) t.
Lemma annotations_reorder K : annotations M K t -> annotations M K t'.
Proof.
  intros [W S C]. unfold t'. split.
  - intros r Hr. apply in_map_iff in Hr as (r0 & <- & Hr). apply (reorder_len M p Hp).
  - intros r Hr. apply in_map_iff in Hr as (r0 & <- & Hr). destruct (S r0 Hr) as (k & Hk). exists k. eapply Permutation_in; [apply Permutation_sym, (reorder_perm M p Hp); auto|auto].
  - intros r k Hr Hk. apply in_map_iff in Hr as (r0 & <- & Hr). apply (C r0 k Hr). eapply Permutation_in; [apply (reorder_perm M p Hp); auto|auto].
Qed.
Lemma p_onto j : (j < M)%nat -> exists i, (i < M)%nat /\ nth i p 0%nat = j.
Proof. intros Hj. apply (p_in M p Hp) in Hj. destruct (In_nth _ _ 0%nat Hj) as (i & Hi & E). rewrite (p_len M p Hp) in Hi. eauto. Qed.
Lemma used_reorder : every_annotator_used M t -> every_annotator_used M t'.
Proof.
  intros H j Hj. destruct (H _ (p_nth M p Hp j Hj)) as (r & k & Hr & E). exists (reorder p r), k. split; [apply in_map; auto|]. rewrite (reorder_nth M p Hp); auto.
Qed.
Lemma overlap_reorder : has_overlap t -> has_overlap t'.
Proof.
  intros (r & i & j & Hr & Hij & (k & Hi) & (k' & Hj)).
  assert (Li : (i < M)%nat) by (rewrite <- (HW r Hr); destruct (le_lt_dec (length r) i); auto; rewrite nth_overflow in Hi by auto; discriminate).
  assert (Lj : (j < M)%nat) by (rewrite <- (HW r Hr); destruct (le_lt_dec (length r) j); auto; rewrite nth_overflow in Hj by auto; discriminate).
  destruct (p_onto i Li) as (a & La & Ea). destruct (p_onto j Lj) as (b & Lb & Eb).
  exists (reorder p r), a, b. split; [apply in_map; auto|]. split; [intros ->; congruence|].
  split; [exists k|exists k']; rewrite (reorder_nth M p Hp) by auto; congruence.
Qed.
Lemma valid_reorder n K : assert_valid_multiannotator t M (Some (n, K)) false = Ok tt -> assert_valid_multiannotator t' M (Some (n, K)) false = Ok tt.
Proof.
  intros H. destruct (valid_inv t M n K HW H) as (-> & HA & HO & HU). replace (length t) with (length t') by (unfold t'; apply map_length).
  apply valid_ok; auto using annotations_reorder, overlap_reorder, used_reorder.
Qed.
(** the fields of two results agree, the annotator weights up to the reordering *)
Definition same_info (i' i : consensus_info) : Prop :=
  c_label i' = c_label i /\ Forall2 Qeq (c_quality i') (c_quality i) /\ c_agreement i' = c_agreement i /\
  same_rows (post (c_post i')) (post (c_post i)) /\ model_weights (c_post i') = model_weights (c_post i) /\
  forall j, (j < M)%nat -> nth j (annot_weights (c_post i')) 0 == nth (nth j p 0%nat) (annot_weights (c_post i)) 0.
Lemma stats_reorder fsqrt K priors c info : annotations M K t -> has_overlap t -> (2 <= K)%nat -> length c = length t -> (forall k, In k c -> (k < K)%nat) -> priors <> [] ->
  (forall q, In q priors -> distributions (length t) K q) -> (forall x, 0 < x -> 0 < fsqrt x) ->
  consensus_stats fsqrt t M K priors c = Ok info ->
  exists info', consensus_stats fsqrt t' M K priors c = Ok info' /\ same_info info' info.
Proof.
  intros HA HO HK Lc Hc Hne HD Hs H.
  assert (Lt : length t' = length t) by (unfold t'; apply map_length).
  assert (HD' : forall q, In q priors -> distributions (length t') K q) by (rewrite Lt; auto).
  assert (Lc' : length c = length t') by (rewrite Lt; auto).
  destruct (consensus_stats_ok fsqrt t M K c priors HA HO HK Lc Hc Hne HD Hs) as (i1 & E1 & G1 & L1).
  rewrite E1 in H. injection H as <-.
  destruct (consensus_stats_ok fsqrt t' M K c priors (annotations_reorder K HA) (overlap_reorder HO) HK Lc' Hc Hne HD' Hs) as (i2 & E2 & G2 & L2).
  exists i2. split; auto.
  unfold consensus_stats in E1, E2.
  destruct (crowdlab fsqrt t M K c priors) as [P|] eqn:EP; [|discriminate].
  destruct (crowdlab_reorder M p Hp t HW fsqrt K c priors P EP) as (P' & EP' & S1 & S2 & S3). fold t' in EP'. rewrite EP' in E2. cbn [rbind] in E1, E2.
  destruct (get_label_quality_scores c (post P) K SelfConfidence false) as [q|] eqn:Eq; [|discriminate].
  destruct (get_label_quality_scores c (post P') K SelfConfidence false) as [q'|] eqn:Eq'; [|discriminate].
  cbn [rbind] in E1, E2. injection E1 as <-. injection E2 as <-. unfold same_info. cbn [c_label c_quality c_agreement c_post].
  split; [auto|]. split; [|split; [apply (agreement_reorder M p Hp); auto|auto]].
  destruct G1 as (_ & _ & Q1 & _ & _ & _ & D1 & _ & _ & _ & _ & N1). destruct G2 as (_ & _ & Q2 & _ & _ & _ & D2 & _ & _ & _ & _ & N2).
  cbn [c_label c_quality c_agreement c_post] in *. rewrite Lt in *.
  assert (G : forall a b : list Q, length a = length b -> (forall i, (i < length a)%nat -> nth i a 0 == nth i b 0) -> Forall2 Qeq a b).
  { intros a. induction a as [|x a IH]; intros [|y b] Hl Hn; try discriminate; constructor.
    - apply (Hn 0%nat). simpl; lia.
    - apply IH; [simpl in Hl; lia|]. intros i Hi. apply (Hn (S i)). simpl; lia. }
  apply G; [congruence|]. intros i Hi. rewrite Q2 in Hi. rewrite N1, N2 by auto. unfold mget.
  assert (Hrow : Forall2 Qeq (nth i (post P') []) (nth i (post P) [])) by (apply (F2_nth _ _ _ S1); destruct D2 as [D2 _]; rewrite D2; auto).
  apply (F2_nth _ _ _ Hrow). destruct D2 as [D2 D2']. destruct (D2' (nth i (post P') [])) as [HL _]; [apply nth_In; rewrite D2; auto|].
  rewrite HL. apply Hc, nth_In. congruence.
Qed.
Lemma C69_full fsqrt rnd K priors vp method info : (2 <= K)%nat -> priors <> [] ->
  (forall q, In q priors -> distributions (length t) K q) -> (forall x, 0 < x -> 0 < fsqrt x) ->
  label_quality_core fsqrt rnd t M K priors vp method = Ok info ->
  exists info', label_quality_core fsqrt rnd t' M K priors vp method = Ok info' /\ same_info info' info.
Proof.
  intros HK Hne HD Hs H.
  destruct (label_quality_inv fsqrt rnd t M K priors vp method info HW HK Hne HD Hs H) as (HA & HO & (GL & GC & _) & mv & minfo & EM & EI & EL & EC).
  pose proof H as H0. unfold label_quality_core in H0 |- *.
  destruct (assert_valid_multiannotator t M (Some (length vp, K)) false) as [[]|] eqn:EV; [|discriminate]. rewrite (valid_reorder _ _ EV). cbn [rbind].
  unfold t' at 1. rewrite (C69_vote_full rnd t M p (Some vp) K Hp HW), EM. cbn [rbind].
  destruct (C35_plurality_full rnd t M (Some vp) K false mv HW (an_some _ _ _ HA) EM) as [LV HP].
  assert (Hmv : forall k, In k mv -> (k < K)%nat).
  { intros k Hk. destruct (In_nth _ _ 0%nat Hk) as (i & Hi & <-). rewrite LV in Hi. destruct (HP i Hi) as ((Hv & _) & _). apply votes_in in Hv.
    apply (an_class _ _ _ HA (nth i t [])); auto. apply nth_In; auto. }
  destruct (stats_reorder fsqrt K priors mv minfo HA HO HK LV Hmv Hne HD Hs EI) as (mi' & E' & Smi). rewrite E'. cbn [rbind].
  destruct method.
  - rewrite EL in EC. rewrite EI in EC. injection EC as <-. exists mi'. auto.
  - destruct Smi as (_ & _ & _ & Sp & _). rewrite (best_label_ext _ _ mv Sp). rewrite <- EL.
    apply (stats_reorder fsqrt K priors (c_label info) info); auto.
Qed.
End ReorderAll.

(** ** The statistics of one annotator on the result of the pipeline *)
Lemma labelled_len t c j : length c = length t -> length (labelled_by j t c) = n_labelled t j.
Proof.
  unfold labelled_by, n_labelled. revert c. induction t as [|r t IH]; intros [|x c] H; simpl in H; try discriminate; [reflexivity|].
  cbn [combine flat_map filter fst snd]. rewrite app_length, IH by lia. destruct (nth j r None); reflexivity.
Qed.
Lemma labelled_agree t c j : length c = length t -> qsum (map agrees (labelled_by j t c)) == Qnat (n_agree t c j).
Proof.
  unfold labelled_by, n_agree. revert c. induction t as [|r t IH]; intros [|x c] H; simpl in H; try discriminate; [reflexivity|].
  cbn [combine flat_map filter fst snd]. rewrite map_app, qsum_app, IH by lia. destruct (nth j r None) as [l|]; cbn [map qsum fold_right].
  - unfold agrees. cbn [fst snd]. destruct (entry_dec (Some l) (Some x)) as [E|E].
    + injection E as ->. rewrite Nat.eqb_refl. cbn [indicator length]. rewrite Qnat_S. ring.
    + destruct (Nat.eqb_spec l x); [congruence|]. cbn [indicator]. ring.
  - destruct (entry_dec None (Some x)); [discriminate|]. ring.
Qed.
Lemma C68_full fsqrt rnd t M K prior method info j :
  (forall r, In r t -> length r = M) -> (2 <= K)%nat -> distributions (length t) K prior -> (forall x, 0 < x -> 0 < fsqrt x) ->
  get_label_quality_multiannotator fsqrt rnd t M K prior method = Ok info -> (j < M)%nat ->
  let st := annotator_stats t info j in let c := c_label info in let w := st_worst st in
  st_num st = n_labelled t j /\ (1 <= st_num st)%nat /\
  (exists a, st_agreement st = Some a /\ a == Qnat (n_agree t c j) / Qnat (n_labelled t j)) /\
  (forall q, st_quality st = Some q -> 0 <= q /\ q <= 1) /\
  (1 <= n_gave t j w)%nat /\
  (forall k, (1 <= n_gave t j k)%nat -> (n_right t c j w * n_gave t j k <= n_right t c j k * n_gave t j w)%nat) /\
  (forall k, (1 <= n_gave t j k)%nat -> (n_right t c j w * n_gave t j k = n_right t c j k * n_gave t j w)%nat -> (n_gave t j k <= n_gave t j w)%nat) /\
  (forall k a b, (1 <= n_gave t j k)%nat -> (n_right t c j w * n_gave t j k = n_right t c j k * n_gave t j w)%nat -> n_gave t j k = n_gave t j w ->
     is_average (qualities_given t (c_quality info) j k) a -> is_average (qualities_given t (c_quality info) j w) b -> a <= b).
Proof.
  intros HW HK HD Hs H Hj st c w.
  assert (HDp : forall p, In p [prior] -> distributions (length t) K p) by (intros p [<-|[]]; auto).
  assert (Hne : [prior] <> []) by discriminate.
  assert (HU : every_annotator_used M t).
  { unfold get_label_quality_multiannotator, label_quality_core in H. destruct (assert_valid_multiannotator t M (Some (length prior, K)) false) as [[]|] eqn:E; [|discriminate].
    eapply valid_inv; eauto. }
  destruct (label_quality_inv fsqrt rnd t M K [prior] prior method info HW HK Hne HDp Hs H) as (HA & HO & (GL & GC & GQ & GQ' & _ & _ & GD & GM & GM' & GA & GA' & _) & _).
  destruct (HU j Hj) as (r & k & Hr & Hk).
  assert (Hg : exists k, (1 <= n_gave t j k)%nat).
  { exists k. unfold n_gave. assert (Hin : In r (filter (fun r => if entry_dec (nth j r None) (Some k) then true else false) t)).
    { apply filter_In. split; auto. rewrite Hk. destruct (entry_dec (Some k) (Some k)); congruence. }
    destruct (filter _ _); [destruct Hin|simpl; lia]. }
  assert (Hn : st_num st = n_labelled t j).
  { unfold st, annotator_stats. cbn [st_num]. clear. unfold n_labelled. induction t as [|r t IH]; [reflexivity|]. cbn [map filter]. rewrite count_true_cons, IH.
    destruct (nth j r None); cbn [present length]; lia. }
  assert (H1 : (1 <= n_labelled t j)%nat).
  { unfold n_labelled. assert (Hin : In r (filter (fun r => match nth j r None with Some _ => true | None => false end) t)) by (apply filter_In; rewrite Hk; auto).
    destruct (filter _ _); [destruct Hin|simpl; lia]. }
  split; [exact Hn|]. split; [lia|]. split; [|split].
  - unfold st, annotator_stats. cbn [st_agreement]. unfold annotator_agreement. assert (L := labelled_len t (c_label info) j GL). assert (A := labelled_agree t (c_label info) j GL).
    unfold mean_opt. destruct (map agrees (labelled_by j t (c_label info))) eqn:E; [apply (f_equal (@length _)) in E; rewrite map_length in E; simpl in E; lia|].
    eexists. split; [reflexivity|]. rewrite <- E. unfold qmean. rewrite E, A, <- E, map_length, L. reflexivity.
  - intros q. unfold st, annotator_stats. cbn [st_quality]. apply (C68_quality_full t M K); auto.
    + intros ->. destruct Hr.
    + cbn [length] in GM. destruct (model_weights (c_post info)) as [|m [|]] eqn:E; try discriminate GM. simpl. specialize (GM' m (or_introl eq_refl)). lra.
    + intros E. rewrite E in GA. simpl in GA. lia.
    + intros x Hx. apply GA'. auto.
  - exact (C68_worst_full t (c_label info) (c_quality info) j GL GQ Hg).
Qed.
Lemma average_priors_length N K priors : length (average_priors N K priors) = N.
Proof. apply tab_length. Qed.
Lemma C69_ensemble_full M p : Permutation p (seq 0 M) -> forall t, (forall r, In r t -> length r = M) ->
  forall fsqrt rnd K priors info, (2 <= K)%nat -> priors <> [] -> (forall q, In q priors -> distributions (length t) K q) -> (forall x, 0 < x -> 0 < fsqrt x) ->
  get_label_quality_multiannotator_ensemble fsqrt rnd t M K priors = Ok info ->
  exists info', get_label_quality_multiannotator_ensemble fsqrt rnd (map (reorder p) t) M K priors = Ok info' /\ same_info M p info' info.
Proof.
  intros Hp t HW fsqrt rnd K priors info HK Hne HD Hs H. unfold get_label_quality_multiannotator_ensemble in *. rewrite map_length.
  eapply C69_full; eauto.
Qed.
