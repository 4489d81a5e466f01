(** * Proofs about consensus by agreement *)
From Coq Require Import QArith List ZArith Bool Arith Lia Lqa Sorted.
From Verif Require Import Base BaseFacts ModelUtil ModelCount ModelRank ModelMultiannotator ModelAgreement SpecCount SpecMultiannotator
     SpecAgreement ProofUtil ProofCount ProofMultiannotator ProofOutlier.
Import ListNotations.
Open Scope Q_scope.

Definition position (ty : label_type) (r : row) (k : nat) : nat := match ty with Integers => k | Floats => rank_among r k end.

Lemma n_given_num r : n_given r = num_annotations r.
Proof. unfold n_given, num_annotations. induction r as [|[k|] r IH]; cbn [filter map length]; rewrite ?count_true_cons; cbn [present]; auto; rewrite IH; reflexivity. Qed.
Lemma count_given k r : count k (given r) = votes r k.
Proof.
  unfold count, votes. induction r as [|[l|] r IH]; [reflexivity| |].
  - cbn [given flat_map]. change (flat_map _ r) with (given r). cbn [app count_occ]. destruct (Nat.eq_dec l k) as [N|N], (entry_dec (Some l) (Some k)) as [E|E]; try congruence; rewrite IH; reflexivity.
  - cbn [given flat_map app]. change (flat_map _ r) with (given r). cbn [count_occ]. destruct (entry_dec None (Some k)); [discriminate|auto].
Qed.
Lemma given_ne r k : In (Some k) r -> given r <> [].
Proof. intros H. apply in_given in H. destruct (given r); [destruct H|discriminate]. Qed.

Lemma filter_seq_split p k n : (k < n)%nat -> p k = true ->
  exists rest, filter p (seq 0 n) = filter p (seq 0 k) ++ k :: rest.
Proof.
  intros Hk Hp. replace n with (k + (1 + (n - k - 1)))%nat by lia. rewrite seq_app, filter_app, Nat.add_0_l. cbn [Nat.add seq filter]. rewrite Hp. eauto.
Qed.

Lemma used_below r k : rank_among r k = length (filter (fun v => mem v (given r)) (seq 0 k)).
Proof.
  unfold rank_among. f_equal. apply filter_ext. intros l. apply eq_true_iff_eq. rewrite Nat.ltb_lt, mem_iff, in_given, <- votes_in. lia.
Qed.
Lemma unique_nth r k : In (Some k) r -> nth (rank_among r k) (unique (given r)) 0%nat = k /\ (rank_among r k < length (unique (given r)))%nat.
Proof.
  intros H. apply in_given in H. assert (Hm := nmax_ge _ _ H). unfold unique.
  destruct (filter_seq_split (fun v => mem v (given r)) k (S (nmax (given r)))) as (rest & E); [lia|apply mem_iff; auto|].
  rewrite E, used_below. rewrite app_nth2, Nat.sub_diag by lia. split; [reflexivity|]. rewrite app_length. cbn [length]. lia.
Qed.

Lemma unique_le r K : (forall k, In (Some k) r -> (k < K)%nat) -> (length (unique (given r)) <= K)%nat.
Proof.
  intros H. rewrite <- (seq_length K 0). apply NoDup_incl_length; [apply unique_NoDup|]. intros x Hx. apply in_unique, in_given, H in Hx. apply in_seq. lia.
Qed.

Lemma counts_spec ty r K : (forall k, In (Some k) r -> (k < K)%nat) -> (exists k, In (Some k) r) ->
  exists c, value_counts_as ty (given r) K = Ok c /\ length c = K /\
    (forall k, In (Some k) r -> (position ty r k < K)%nat /\ nth (position ty r k) c 0%nat = votes r k) /\
    (forall j, (j < K)%nat -> (1 <= nth j c 0)%nat -> exists k, In (Some k) r /\ j = position ty r k) /\
    (forall k k', In (Some k) r -> In (Some k') r -> position ty r k = position ty r k' -> k = k').
Proof.
  intros HK (k0 & H0). destruct ty; cbn [value_counts_as position].
  - rewrite value_counts_ok; [|apply (given_ne r k0); auto|intros l Hl; apply HK, in_given; auto]. eexists. split; [reflexivity|].
    rewrite tab_length. split; [auto|]. split; [|split].
    + intros k Hk. split; [auto|]. rewrite nth_tab by auto. rewrite n_labelled_count. apply count_given.
    + intros j Hj. rewrite nth_tab by auto. rewrite n_labelled_count, count_given. intros H. apply votes_in in H. eauto.
    + auto.
  - pose proof (unique_le r K HK) as HL. rewrite map_length. destruct (Nat.ltb_spec K (length (unique (given r)))); [lia|].
    eexists. split; [reflexivity|]. rewrite app_length, map_length, repeat_length. split; [lia|]. split; [|split].
    + intros k Hk. destruct (unique_nth r k Hk) as (E & L). split; [lia|]. rewrite app_nth1 by (rewrite map_length; auto).
      rewrite (nth_map_gen _ _ _ _ 0%nat) by auto. rewrite E. apply count_given.
    + intros j Hj Hp. destruct (le_lt_dec (length (unique (given r))) j) as [Hl|Hl].
      { rewrite app_nth2 in Hp by (rewrite map_length; auto). rewrite nth_repeat in Hp. lia. }
      assert (Hu : In (nth j (unique (given r)) 0%nat) (unique (given r))) by (apply nth_In; auto).
      apply in_unique, in_given in Hu. exists (nth j (unique (given r)) 0%nat). split; [auto|].
      destruct (unique_nth r _ Hu) as (E & L). pose proof (unique_NoDup (given r)) as ND.
      rewrite (NoDup_nth _ 0%nat) in ND. symmetry. apply ND; auto.
    + intros k k' Hk Hk' E. destruct (unique_nth r k Hk) as (E1 & _). destruct (unique_nth r k' Hk') as (E2 & _). congruence.
Qed.

Definition post_row (r : row) (c : list nat) : list Q := map (fun n => Qnat n / Qnat (num_annotations r)) c.

Lemma posterior_spec ty M K t : annotations M K t ->
  exists p, agreement_posterior ty t K = Ok p /\ length p = length t /\
    forall i, (i < length t)%nat -> exists c, value_counts_as ty (given (nth i t [])) K = Ok c /\ nth i p [] = post_row (nth i t []) c.
Proof.
  intros [W S C]. unfold agreement_posterior.
  assert (G : forall l : list row, (forall r, In r l -> In r t) ->
     exists p, rmap (fun r => do c <- value_counts_as ty (given r) K ; Ok (map (fun n => Qnat n / Qnat (num_annotations r)) c)) l = Ok p /\
       length p = length l /\ forall i, (i < length l)%nat -> exists c, value_counts_as ty (given (nth i l [])) K = Ok c /\ nth i p [] = post_row (nth i l []) c).
  { induction l as [|r l IH]; intros Hl.
    - exists []. split; [reflexivity|]. split; [auto|]. intros i Hi. simpl in Hi. lia.
    - destruct IH as (p & E & L & H); [intros; apply Hl; right; auto|].
      destruct (counts_spec ty r K) as (c & Ec & _); [intros k Hk; apply (C r k); auto; apply Hl; left; auto|apply S, Hl; left; auto|].
      exists (post_row r c :: p). cbn [rmap]. rewrite Ec. cbn [rbind]. rewrite E. cbn [rbind]. split; [reflexivity|]. split; [simpl; lia|].
      intros [|i] Hi; [exists c; auto|]. cbn [nth]. apply H. simpl in Hi. lia. }
  apply G. auto.
Qed.

Lemma clear_or_not r : (exists k, In (Some k) r) -> (exists k, clear_winner r k) \/ (forall k, ~ clear_winner r k).
Proof.
  intros H. destruct (plurality_exists r H) as (k & P1 & P2).
  destruct (existsb (fun l => negb (Nat.eqb l k) && Nat.leb (votes r k) (votes r l))%bool (given r)) eqn:E.
  - right. intros k' (C1 & C2). apply existsb_exists in E as (l & Hl & E). apply andb_prop in E as (E1 & E2).
    apply negb_true_iff, Nat.eqb_neq in E1. apply Nat.leb_le in E2.
    destruct (Nat.eq_dec l k') as [->|N].
    + specialize (C2 k ltac:(congruence)). specialize (P2 k'). lia.
    + specialize (C2 l N). specialize (P2 k'). lia.
  - left. exists k. split; [auto|]. intros k' N. destruct (le_lt_dec (votes r k) (votes r k')); [|auto].
    exfalso. assert (Hin : In k' (given r)) by (apply in_given, votes_in; lia).
    assert (existsb (fun l => negb (Nat.eqb l k) && Nat.leb (votes r k) (votes r l))%bool (given r) = true); [|congruence].
    apply existsb_exists. exists k'. split; [auto|]. apply andb_true_intro. split; [apply negb_true_iff, Nat.eqb_neq; auto|apply Nat.leb_le; auto].
Qed.

(** the label chosen for one example *)
Definition chosen (p : list Q) (other : nat) : nat :=
  match filter (fun k => Qeq_bool (nth k p 0) (qmaximum p)) (seq 0 (length p)) with [k] => k | _ => other end.

Lemma best_positions ty r K c : (forall k, In (Some k) r -> (k < K)%nat) -> (exists k, In (Some k) r) ->
  value_counts_as ty (given r) K = Ok c ->
  forall j, In j (filter (fun k => Qeq_bool (nth k (post_row r c) 0) (qmaximum (post_row r c))) (seq 0 (length (post_row r c)))) <->
    exists k, plurality r k /\ j = position ty r k.
Proof.
  intros HK Hne Ec j. destruct (counts_spec ty r K HK Hne) as (c' & Ec' & L & P1 & P2 & P3). rewrite Ec in Ec'. injection Ec' as <-.
  pose proof (num_pos r Hne) as Hn. assert (Hq : 0 < Qnat (num_annotations r)) by (apply Qnat_pos; lia).
  assert (Lp : length (post_row r c) = K) by (unfold post_row; rewrite map_length; auto).
  assert (Np : forall i, (i < K)%nat -> nth i (post_row r c) 0 = Qnat (nth i c 0%nat) / Qnat (num_annotations r)).
  { intros i Hi. unfold post_row. rewrite (nth_map_gen _ _ _ _ 0%nat) by lia. auto. }
  assert (Ord : forall a b, Qnat a / Qnat (num_annotations r) <= Qnat b / Qnat (num_annotations r) <-> (a <= b)%nat).
  { intros a b. split.
    - intros H. destruct (le_lt_dec a b); auto. exfalso. assert (Qnat b < Qnat a) by (unfold Qnat; rewrite <- Zlt_Qlt; lia).
      assert (Qnat b / Qnat (num_annotations r) < Qnat a / Qnat (num_annotations r)); [|lra].
      unfold Qdiv. apply Qmult_lt_compat_r; auto. apply Qinv_lt_0_compat; auto.
    - intros H. unfold Qdiv. apply Qmult_le_compat_r; [apply Qnat_le; auto|]. apply Qlt_le_weak, Qinv_lt_0_compat; auto. }
  destruct (plurality_exists r Hne) as (m & M1 & M2). assert (Hm : In (Some m) r) by (apply votes_in; auto).
  destruct (P1 m Hm) as (Pm & Vm).
  assert (Top : forall i, (i < K)%nat -> (nth i c 0 <= votes r m)%nat).
  { intros i Hi. destruct (Nat.eq_dec (nth i c 0%nat) 0) as [->|N]; [lia|]. destruct (P2 i Hi ltac:(lia)) as (k & Hk & ->).
    destruct (P1 k Hk) as (_ & ->). apply M2. }
  assert (Hmax : qmaximum (post_row r c) == Qnat (votes r m) / Qnat (num_annotations r)).
  { apply Qle_antisym.
    - assert (Hne' : post_row r c <> []) by (destruct (post_row r c); [simpl in Lp; lia|discriminate]). apply qmaximum_in in Hne'.
      destruct (In_nth _ _ 0 Hne') as (i & Hi & <-). rewrite Np by lia. apply Ord, Top. lia.
    - rewrite <- Vm, <- Np by auto. apply qmaximum_ge, nth_In. lia. }
  rewrite filter_In, in_seq, Lp, Qeq_bool_iff. split.
  - intros (Hj & E). rewrite Np, Hmax in E by lia.
    assert (Ej : nth j c 0%nat = votes r m). { apply Nat.le_antisymm; apply Ord; rewrite E; apply Qle_refl. }
    destruct (P2 j ltac:(lia) ltac:(lia)) as (k & Hk & ->). destruct (P1 k Hk) as (_ & Vk). exists k. split; [|auto].
    split; [apply votes_in; auto|]. intros k'. rewrite <- Vk, Ej. apply M2.
  - intros (k & (Q1 & Q2) & ->). assert (Hk : In (Some k) r) by (apply votes_in; auto). destruct (P1 k Hk) as (Lk & Vk). split; [lia|].
    rewrite Np, Hmax by auto. rewrite Vk. replace (votes r k) with (votes r m); [reflexivity|]. apply Nat.le_antisymm; auto.
Qed.

Lemma chosen_spec ty r K c other : (forall k, In (Some k) r -> (k < K)%nat) -> (exists k, In (Some k) r) ->
  value_counts_as ty (given r) K = Ok c ->
  (forall k, clear_winner r k -> chosen (post_row r c) other = position ty r k) /\
  ((forall k, ~ clear_winner r k) -> chosen (post_row r c) other = other).
Proof.
  intros HK Hne Ec. pose proof (best_positions ty r K c HK Hne Ec) as B. destruct (counts_spec ty r K HK Hne) as (c' & _ & _ & _ & _ & Inj).
  unfold chosen. assert (ND : NoDup (filter (fun k => Qeq_bool (nth k (post_row r c) 0) (qmaximum (post_row r c))) (seq 0 (length (post_row r c)))))
    by (apply NoDup_filter, seq_NoDup).
  set (F := filter _ _) in *. split.
  - intros k (C1 & C2). assert (Pk : plurality r k).
    { split; auto. intros k'. destruct (Nat.eq_dec k' k) as [->|N]; [auto|]. specialize (C2 k' N). lia. }
    assert (Only : forall j, In j F -> j = position ty r k).
    { intros j Hj. apply B in Hj as (k' & (Q1 & Q2) & ->). destruct (Nat.eq_dec k' k) as [->|N]; [auto|]. specialize (C2 k' N). specialize (Q2 k). lia. }
    assert (Hin : In (position ty r k) F) by (apply B; eauto).
    destruct F as [|a [|b F]]; [destruct Hin|apply Only; left; auto|].
    exfalso. inversion ND; subst. apply H1. left. rewrite (Only a), (Only b); simpl; auto.
  - intros NC. destruct F as [|a [|b F]]; auto. exfalso.
    destruct (proj1 (B a) (or_introl eq_refl)) as (k & (Q1 & Q2) & ->). apply (NC k). split; auto. intros k' N.
    destruct (Nat.eq_dec (votes r k') (votes r k)) as [E|E]; [|specialize (Q2 k'); lia].
    exfalso. assert (Pk' : plurality r k') by (split; [lia|intros x; rewrite E; auto]).
    assert (Hin : In (position ty r k') [position ty r k]) by (apply B; eauto). destruct Hin as [E'|[]].
    apply N. symmetry. apply Inj; auto; apply votes_in; [|lia]. lia.
Qed.

Lemma agreement_inv rnd ty t M K prior method info : (forall r, In r t -> length r = M) ->
  label_quality_agreement rnd ty t M K prior method = Ok info ->
  annotations M K t /\ exists mv p, get_majority_vote_label rnd t M (Some prior) K false = Ok mv /\ agreement_posterior ty t K = Ok p /\
    length mv = length t /\ length p = length t /\
    a_post info = p /\
    a_label info = match method with MajorityVote => mv | BestQuality => best_quality_label p mv end /\
    a_quality info = agreement_with_consensus t (a_label info).
Proof.
  intros W H. unfold label_quality_agreement in H.
  destruct (assert_valid_multiannotator t M (Some (length prior, K)) false) as [u|] eqn:EV; cbn [rbind] in H; [|discriminate].
  assert (HA : annotations M K t) by (destruct u; destruct (valid_inv _ _ _ _ W EV) as (_ & HA & _); exact HA).
  destruct (get_majority_vote_label rnd t M (Some prior) K false) as [mv|] eqn:EM; cbn [rbind] in H; [|discriminate].
  destruct (posterior_spec ty M K t HA) as (p & Ep & Lp & _). unfold agreement_stats in H. rewrite Ep in H. cbn [rbind a_post] in H.
  destruct (C35_plurality_full rnd t M (Some prior) K false mv W (an_some _ _ _ HA) EM) as (LM & _).
  split; [auto|]. exists mv, p. destruct method; injection H as <-; cbn [a_post a_label a_quality]; auto 10.
Qed.

Lemma agreement_labels rnd ty t M K prior info : (forall r, In r t -> length r = M) ->
  label_quality_agreement rnd ty t M K prior BestQuality = Ok info ->
  length (a_label info) = length t /\ forall i, (i < length t)%nat ->
    (forall k, clear_winner (nth i t []) k -> nth i (a_label info) 0%nat = position ty (nth i t []) k) /\
    ((forall k, ~ clear_winner (nth i t []) k) -> plurality (nth i t []) (nth i (a_label info) 0%nat)).
Proof.
  intros W H. destruct (agreement_inv _ _ _ _ _ _ _ _ W H) as (HA & mv & p & EM & Ep & LM & Lp & _ & EL & _).
  split. { rewrite EL. unfold best_quality_label. rewrite map_length, combine_length. lia. }
  intros i Hi. rewrite EL, best_quality_nth by lia.
  destruct (posterior_spec ty M K t HA) as (p' & Ep' & _ & Hp). rewrite Ep in Ep'. injection Ep' as <-.
  destruct (Hp i Hi) as (c & Ec & Er). change (match filter _ _ with [k] => k | _ => _ end) with (chosen (nth i p []) (nth i mv 0%nat)).
  rewrite Er. assert (Hin : In (nth i t []) t) by (apply nth_In; auto).
  destruct (chosen_spec ty (nth i t []) K c (nth i mv 0%nat)) as (A & B); auto; [intros k Hk; eapply an_class; eauto|eapply an_some; eauto|].
  split; [exact A|]. intros NC. rewrite (B NC). apply (C35_plurality_full rnd t M (Some prior) K false mv W (an_some _ _ _ HA) EM); auto.
Qed.

Lemma clear_plurality r k : clear_winner r k -> plurality r k.
Proof. intros (C1 & C2). split; auto. intros k'. destruct (Nat.eq_dec k' k) as [->|N]; [auto|]. specialize (C2 k' N). lia. Qed.

Lemma counts_total x u : NoDup u -> (forall v, In v x -> In v u) -> nsum (map (fun v => count v x) u) = length x.
Proof.
  intros ND. induction x as [|a x IH]; intros H.
  - cbn [length]. clear. induction u; auto.
  - assert (E : forall l : list nat, NoDup l -> nsum (map (fun v => count v (a :: x)) l) = (nsum (map (fun v => count v x) l) + if in_dec Nat.eq_dec a l then 1 else 0)%nat).
    { induction l as [|b l IHl]; intros NDl; [reflexivity|]. inversion NDl; subst. cbn [map]. unfold nsum in *. cbn [fold_right]. rewrite IHl by auto.
      unfold count at 1 3. cbn [count_occ].
      destruct (Nat.eq_dec a b) as [N|N], (in_dec Nat.eq_dec a l) as [I1|I1], (in_dec Nat.eq_dec a (b :: l)) as [I2|I2];
        try subst b; try (exfalso; simpl in *; tauto); try lia.
      exfalso. simpl in I2. destruct I2; auto. }
    rewrite E by auto. rewrite IH by (intros; apply H; right; auto). destruct (in_dec Nat.eq_dec a u) as [_|N]; [cbn [length]; lia|].
    exfalso. apply N, H. left; auto.
Qed.
Lemma qsum_Qnat0 l : qsum (map Qnat l) == Qnat (nsum l).
Proof. induction l as [|a l IH]; [reflexivity|]. cbn [map]. rewrite qsum_cons, IH. unfold nsum. cbn [fold_right]. rewrite Qnat_plus. reflexivity. Qed.

(** ** statements *)
Lemma quality_full rnd ty t M K prior method info : (forall r, In r t -> length r = M) ->
  label_quality_agreement rnd ty t M K prior method = Ok info ->
  length (a_label info) = length t /\ length (a_quality info) = length t /\
  forall i, (i < length t)%nat -> nth i (a_quality info) 0 == share (nth i t []) (nth i (a_label info) 0%nat).
Proof.
  intros W H. destruct (agreement_inv _ _ _ _ _ _ _ _ W H) as (HA & mv & p & EM & Ep & LM & Lp & _ & EL & EQ).
  assert (LL : length (a_label info) = length t).
  { rewrite EL. destruct method; auto. unfold best_quality_label. rewrite map_length, combine_length. lia. }
  split; [auto|]. rewrite EQ. unfold agreement_with_consensus. rewrite map_length, combine_length. split; [lia|].
  intros i Hi. rewrite (nth_map_gen _ _ _ _ ([], 0%nat)) by (rewrite combine_length; lia). rewrite combine_nth by auto. cbn [fst snd].
  unfold share. rewrite label_total_votes, n_given_num. reflexivity.
Qed.

Lemma majority_full rnd ty t M K prior info : (forall r, In r t -> length r = M) ->
  label_quality_agreement rnd ty t M K prior MajorityVote = Ok info ->
  forall i, (i < length t)%nat -> plurality (nth i t []) (nth i (a_label info) 0%nat).
Proof.
  intros W H i Hi. destruct (agreement_inv _ _ _ _ _ _ _ _ W H) as (HA & mv & p & EM & Ep & LM & Lp & _ & EL & EQ).
  rewrite EL. apply (C35_plurality_full rnd t M (Some prior) K false mv W (an_some _ _ _ HA) EM); auto.
Qed.

Lemma integers_full rnd t M K prior info : (forall r, In r t -> length r = M) ->
  label_quality_agreement rnd Integers t M K prior BestQuality = Ok info ->
  forall i, (i < length t)%nat -> plurality (nth i t []) (nth i (a_label info) 0%nat) /\
    forall k, (k < K)%nat -> mget (a_post info) i k == share (nth i t []) k.
Proof.
  intros W H i Hi. destruct (agreement_labels _ _ _ _ _ _ _ W H) as (_ & HL). destruct (HL i Hi) as (A & B).
  destruct (agreement_inv _ _ _ _ _ _ _ _ W H) as (HA & mv & p & EM & Ep & LM & Lp & EP & EL & EQ).
  assert (Hin : In (nth i t []) t) by (apply nth_In; auto). pose proof (an_some _ _ _ HA _ Hin) as Hne. split.
  - destruct (clear_or_not _ Hne) as [(k & C)|N]; [|auto]. rewrite (A k C). apply clear_plurality. auto.
  - intros k Hk. rewrite EP. destruct (posterior_spec Integers M K t HA) as (p' & Ep' & _ & Hp). rewrite Ep in Ep'. injection Ep' as <-.
    destruct (Hp i Hi) as (c & Ec & Er). unfold mget. rewrite Er. unfold share. rewrite n_given_num.
    cbn [value_counts_as] in Ec. rewrite value_counts_ok in Ec; [|destruct Hne as (k0 & H0); eapply given_ne; eauto|intros l Hl; eapply (an_class _ _ _ HA); [exact Hin|apply in_given; auto]].
    injection Ec as <-. unfold post_row. rewrite (nth_map_gen _ _ _ _ 0%nat) by (rewrite tab_length; auto). rewrite nth_tab by auto.
    rewrite n_labelled_count, count_given. reflexivity.
Qed.

Lemma no_gaps_rank r k : no_gaps r -> In (Some k) r -> rank_among r k = k.
Proof.
  intros G H. rewrite used_below. 
  assert (E : filter (fun v => mem v (given r)) (seq 0 k) = seq 0 k).
  { assert (A : forall l : list nat, (forall x, In x l -> mem x (given r) = true) -> filter (fun v => mem v (given r)) l = l).
    { induction l as [|a l IH]; intros Hl; [reflexivity|]. cbn [filter]. rewrite Hl by (left; auto). f_equal. apply IH. intros; apply Hl; right; auto. }
    apply A. intros x Hx. apply in_seq in Hx. apply mem_iff, in_given, (G k x); [auto|lia]. }
  rewrite E. apply seq_length.
Qed.

Lemma floats_full rnd t M K prior info : (forall r, In r t -> length r = M) ->
  label_quality_agreement rnd Floats t M K prior BestQuality = Ok info ->
  forall i, (i < length t)%nat ->
    (forall k, clear_winner (nth i t []) k -> nth i (a_label info) 0%nat = rank_among (nth i t []) k) /\
    ((forall k, ~ clear_winner (nth i t []) k) -> plurality (nth i t []) (nth i (a_label info) 0%nat)) /\
    (no_gaps (nth i t []) -> plurality (nth i t []) (nth i (a_label info) 0%nat)).
Proof.
  intros W H i Hi. destruct (agreement_labels _ _ _ _ _ _ _ W H) as (_ & HL). destruct (HL i Hi) as (A & B).
  destruct (agreement_inv _ _ _ _ _ _ _ _ W H) as (HA & _). split; [exact A|]. split; [exact B|]. intros G.
  assert (Hin : In (nth i t []) t) by (apply nth_In; auto).
  destruct (clear_or_not _ (an_some _ _ _ HA _ Hin)) as [(k & C)|N]; [|auto].
  rewrite (A k C). cbn [position]. rewrite no_gaps_rank; auto; [apply clear_plurality; auto|apply votes_in; apply C].
Qed.

Lemma post_full rnd ty t M K prior method info : (forall r, In r t -> length r = M) ->
  label_quality_agreement rnd ty t M K prior method = Ok info -> distributions (length t) K (a_post info).
Proof.
  intros W H. destruct (agreement_inv _ _ _ _ _ _ _ _ W H) as (HA & mv & p & EM & Ep & LM & Lp & EP & EL & EQ).
  rewrite EP. split; [auto|]. intros rw Hrw. destruct (In_nth _ _ [] Hrw) as (i & Hi & <-). rewrite Lp in Hi.
  destruct (posterior_spec ty M K t HA) as (p' & Ep' & _ & Hp). rewrite Ep in Ep'. injection Ep' as <-.
  destruct (Hp i Hi) as (c & Ec & Er). rewrite Er. assert (Hin : In (nth i t []) t) by (apply nth_In; auto).
  pose proof (an_some _ _ _ HA _ Hin) as Hne. pose proof (num_pos _ Hne) as Hn.
  destruct (counts_spec ty (nth i t []) K) as (c' & Ec' & L & _); [intros; eapply an_class; eauto|auto|]. rewrite Ec in Ec'. injection Ec' as <-.
  assert (Hq : 0 < Qnat (num_annotations (nth i t []))) by (apply Qnat_pos; lia).
  split; [unfold post_row; rewrite map_length; auto|]. split.
  - intros x Hx. apply in_map_iff in Hx as (n & <- & _). apply Qle_shift_div_l; auto. rewrite Qmult_0_l. change 0 with (Qnat 0). apply Qnat_le. lia.
  - assert (Tot : nsum c = num_annotations (nth i t [])).
    { destruct ty; cbn [value_counts_as] in Ec.
      - rewrite value_counts_ok in Ec; [|destruct Hne as (k0 & H0); eapply given_ne; eauto|intros l Hl; eapply (an_class _ _ _ HA); [exact Hin|apply in_given; auto]].
        injection Ec as <-. rewrite num_given. unfold tab.
        rewrite (map_ext _ (fun v => count v (given (nth i t [])))) by (intros v; apply n_labelled_count).
        apply counts_total; [apply seq_NoDup|]. intros v Hv. apply in_seq. apply in_given in Hv. pose proof (an_class _ _ _ HA _ v Hin Hv). lia.
      - rewrite map_length in Ec. destruct (Nat.ltb _ _); [discriminate|]. injection Ec as <-. rewrite nsum_app, num_given.
        rewrite counts_total; [|apply unique_NoDup|intros v Hv; apply in_unique; auto].
        assert (Z : forall n, nsum (repeat 0%nat n) = 0%nat) by (induction n; auto). rewrite Z. lia. }
    unfold post_row. rewrite (qsum_map_div (fun n => Qnat n)). rewrite qsum_Qnat0, Tot. field. lra.
Qed.
