(** * Reordering, renaming and repeating data *)
From Coq Require Import QArith Qabs Qround List ZArith Bool Arith Lia Lqa Sorted Permutation.
From Verif Require Import Base BaseFacts ModelUtil ModelCount ModelRank ModelPool ModelFilter SpecCount SpecFilter SpecRank SpecSymmetry ProofCount ProofFilter ProofRank ProofTotal.
Import ListNotations.
Open Scope Q_scope.

(** ** a list is the enumeration of its entries *)
Lemma pick_seq {A} (d : A) l : pick d (seq 0 (length l)) l = l.
Proof.
  apply list_eq_nth with (d := d); unfold pick; rewrite map_length, seq_length; auto.
  intros i Hi. rewrite (nth_map_gen _ _ _ _ 0%nat) by (rewrite seq_length; auto). rewrite seq_nth by auto. reflexivity.
Qed.
Lemma pick_length {A} (d : A) o l : length (pick d o l) = length o.
Proof. apply map_length. Qed.
Lemma pick_nth {A} (d : A) o l e : (e < length o)%nat -> nth e (pick d o l) d = nth (nth e o 0%nat) l d.
Proof. intros H. unfold pick. now rewrite (nth_map_gen _ _ _ _ 0%nat). Qed.

Definition own_of (k : nat) (labels : list nat) (pp : list (list Q)) (s : list nat) : list Q :=
  map (fun i => prob_of pp i k) (filter (fun i => Nat.eqb (label_of labels i) k) s).
Lemma own_pick k labels pp s : own_probs k (pick 0%nat s labels) (pick [] s pp) = own_of k labels pp s.
Proof.
  unfold own_of, pick. induction s as [|i s IH]; [reflexivity|]. cbn [map own_probs filter]. fold (label_of labels i).
  destruct (Nat.eqb (label_of labels i) k); cbn [map]; [f_equal|]; exact IH.
Qed.
Lemma own_all k labels pp : length labels = length pp -> own_probs k labels pp = own_of k labels pp (seq 0 (length labels)).
Proof. intros H. rewrite <- own_pick. now rewrite H, pick_seq, <- H, pick_seq. Qed.

Lemma average_unique l a b : is_average l a -> is_average l b -> a == b.
Proof.
  intros (N & H1) (_ & H2). assert (0 < Qnat (length l)) by (apply Qnat_pos; destruct l; cbn; [congruence|lia]).
  rewrite <- H2 in H1. apply Qmult_inj_r in H1; auto. lra.
Qed.

(** ** the thresholds depend on the averages only *)
Lemma thresholds_same K labels pp labels' pp' k k' : length labels = length pp -> length labels' = length pp' -> (k < K)%nat -> (k' < K)%nat ->
  (In k labels <-> In k' labels') ->
  (In k labels -> forall a b, is_average (own_probs k labels pp) a -> is_average (own_probs k' labels' pp') b -> a == b) ->
  nth k (get_confident_thresholds labels pp K) 0 == nth k' (get_confident_thresholds labels' pp' K) 0.
Proof.
  intros Hl Hl' Hk Hk' Hin Hav.
  destruct (thresholds_spec labels pp K k Hl Hk) as (A1 & A2). destruct (thresholds_spec labels' pp' K k' Hl' Hk') as (B1 & B2).
  destruct (in_dec Nat.eq_dec k labels) as [I|I].
  - destruct (A1 I) as (a & Ha & ->). destruct (B1 (proj1 Hin I)) as (b & Hb & ->). pose proof (Hav I a b Ha Hb) as E.
    unfold qmax. destruct (Qle_bool a _) eqn:E1, (Qle_bool b _) eqn:E2; try lra;
      rewrite ?Qle_bool_iff in *; try (rewrite <- not_true_iff_false, Qle_bool_iff in *); lra.
  - rewrite A2 by auto. rewrite B2 by tauto. reflexivity.
Qed.

(** ** the class an example counts into, up to equal thresholds *)
Lemma reaches_same thr thr' row j : length thr = length row -> length thr' = length row ->
  (forall k, (k < length row)%nat -> nth k thr 0 == nth k thr' 0) -> reaches thr row j <-> reaches thr' row j.
Proof. intros H1 H2 H. unfold reaches. split; intros (A & B); (split; [exact A|]); specialize (H j A); lra. Qed.
Lemma counted_same thr thr' row j : length thr = length row -> length thr' = length row ->
  (forall k, (k < length row)%nat -> nth k thr 0 == nth k thr' 0) -> counted_as thr row j <-> counted_as thr' row j.
Proof.
  intros H1 H2 H. pose proof (fun i => reaches_same thr thr' row i H1 H2 H) as R. unfold counted_as. split.
  - intros [(A & B)|((a & b & N & A & B) & M)]; [left|right].
    + split; [now apply R|]. intros i Hi. apply B. now apply R.
    + split; [|exact M]. exists a, b. rewrite <- !R. auto.
  - intros [(A & B)|((a & b & N & A & B) & M)]; [left|right].
    + split; [now apply R|]. intros i Hi. apply B. now apply R.
    + split; [|exact M]. exists a, b. rewrite !R. auto.
Qed.

Lemma mask_ext (m m' : list bool) : length m = length m' -> (forall e, (e < length m)%nat -> flagged m e <-> flagged m' e) -> m = m'.
Proof.
  intros L H. apply list_eq_nth with (d := false); auto. intros e He. specialize (H e He). unfold flagged in H.
  destruct (nth e m false), (nth e m' false); auto; [symmetry|]; now apply H.
Qed.

(** ** choosing examples by number *)
Section Picked.
Variables (K : nat) (labels : list nat) (pp : list (list Q)) (order : list nat).
Hypothesis Hd : dataset K labels pp.
Hypothesis Ho : forall i, In i order -> (i < length labels)%nat.
Hypothesis Hne : order <> [].
Let L' := pick 0%nat order labels.
Let P' := pick [] order pp.

Lemma picked_at e : (e < length order)%nat -> (nth e order 0%nat < length labels)%nat.
Proof. intros H. apply Ho, nth_In, H. Qed.
Lemma picked_label e : (e < length order)%nat -> label_of L' e = label_of labels (nth e order 0%nat).
Proof. intros H. unfold label_of, L'. now apply pick_nth. Qed.
Lemma picked_row e : (e < length order)%nat -> row_of P' e = row_of pp (nth e order 0%nat).
Proof. intros H. unfold row_of, P'. now apply pick_nth. Qed.
Lemma picked_prob e k : (e < length order)%nat -> prob_of P' e k = prob_of pp (nth e order 0%nat) k.
Proof. intros H. change (nth k (row_of P' e) 0 = nth k (row_of pp (nth e order 0%nat)) 0). now rewrite picked_row. Qed.
Lemma picked_dataset : dataset K L' P'.
Proof.
  pose proof Hd as [Hlen Hn Hlab Hrow Hprob]. unfold L', P'. constructor.
  - now rewrite !pick_length.
  - unfold pick. destruct order; [congruence|discriminate].
  - intros l Hl. unfold pick in Hl. apply in_map_iff in Hl as (i & <- & Hi). apply Hlab, nth_In. auto.
  - intros r Hr. unfold pick in Hr. apply in_map_iff in Hr as (i & <- & Hi). apply Hrow, nth_In. rewrite <- Hlen. auto.
  - intros r x Hr. unfold pick in Hr. apply in_map_iff in Hr as (i & <- & Hi). apply Hprob, nth_In. rewrite <- Hlen. auto.
Qed.
Lemma picked_beaten e : (e < length order)%nat -> clearly_beaten L' P' e <-> clearly_beaten labels pp (nth e order 0%nat).
Proof.
  intros H. unfold clearly_beaten. rewrite picked_row, picked_label by auto.
  split; intros (j & A & B); exists j; (split; [exact A|]); rewrite ?picked_prob in * by auto; exact B.
Qed.
Hypothesis Hthr : forall k, (k < K)%nat ->
  nth k (get_confident_thresholds L' P' K) 0 == nth k (get_confident_thresholds labels pp K) 0.
Lemma picked_counted e j : (e < length order)%nat ->
  counted_as (get_confident_thresholds L' P' K) (row_of P' e) j <-> counted_as (get_confident_thresholds labels pp K) (row_of pp (nth e order 0%nat)) j.
Proof.
  intros He. rewrite picked_row by auto.
  assert (LR : length (row_of pp (nth e order 0%nat)) = K).
  { apply Hd. apply nth_In. rewrite <- (ds_len _ _ _ Hd). now apply picked_at. }
  apply counted_same; rewrite ?thresholds_length; auto. intros k Hk. apply Hthr. now rewrite <- LR.
Qed.
Lemma picked_cl : cl_mask L' P' K = pick false order (cl_mask labels pp K).
Proof.
  assert (LM : forall l p, dataset K l p -> length (cl_mask l p K) = length l).
  { intros l p D. unfold cl_mask. rewrite clear_where_length; rewrite mask_of_length; auto. rewrite reduce_length; auto. apply D. }
  apply mask_ext.
  - rewrite LM by apply picked_dataset. unfold L'. now rewrite !pick_length.
  - rewrite LM by apply picked_dataset. unfold L'. rewrite pick_length. fold L'. intros e He. unfold flagged at 2. rewrite pick_nth by auto.
    fold (flagged (cl_mask labels pp K) (nth e order 0%nat)).
    rewrite (cl_flagged_iff K L' P' e picked_dataset), (cl_flagged_iff K labels pp _ Hd), picked_beaten, picked_label by auto.
    assert (length L' = length order) as -> by apply pick_length. pose proof (picked_at e He).
    split; intros (_ & (j & A & B) & C); (split; [auto|]); (split; [|exact C]); exists j; (split; [|exact B]); now apply picked_counted.
Qed.
End Picked.

Lemma picked_two order labels : (forall i, (i < length labels)%nat -> In i order) -> two_classes labels -> two_classes (pick 0%nat order labels).
Proof.
  intros H (a & b & Ha & Hb & N). exists a, b. assert (I : forall x, In x labels -> In x (pick 0%nat order labels)).
  { intros x Hx. apply In_nth with (d := 0%nat) in Hx as (i & Hi & <-). unfold pick. apply in_map_iff. exists i. auto. }
  auto.
Qed.

(** the two filters that do not sort *)
Lemma picked_find K labels pp order srt o flt : dataset K labels pp -> two_classes labels -> argsort_ok srt ->
  (forall i, In i order <-> (i < length labels)%nat) ->
  (forall k, (k < K)%nat -> nth k (get_confident_thresholds (pick 0%nat order labels) (pick [] order pp) K) 0 == nth k (get_confident_thresholds labels pp K) 0) ->
  num_to_remove_per_class o = None -> (1 <= n_jobs o)%nat -> flt = ConfidentLearning \/ flt = PredictedNeqGiven ->
  exists m, find_label_issues srt labels pp K flt o = Ok m /\ length m = length labels /\
    find_label_issues srt (pick 0%nat order labels) (pick [] order pp) K flt o = Ok (pick false order m).
Proof.
  intros Hd H2 Hs Ho Hthr Hn Hj Hf.
  assert (Ho1 : forall i, In i order -> (i < length labels)%nat) by (intros i; apply Ho).
  assert (Hne : order <> []).
  { intros E. destruct labels as [|x l]; [now apply (ds_ne _ _ _ Hd)|]. assert (I : In 0%nat order) by (apply Ho; cbn; lia). rewrite E in I. destruct I. }
  pose proof (picked_dataset K labels pp order Hd Ho1 Hne) as Hd'.
  assert (H2' : two_classes (pick 0%nat order labels)) by (apply picked_two; auto; intros i Hi; now apply Ho).
  destruct Hf as [->| ->].
  - exists (cl_mask labels pp K). rewrite !find_cl_eq by auto. split; [reflexivity|]. split.
    + eapply find_length; [apply Hd|]. apply (find_cl_eq srt K labels pp o); auto.
    + f_equal. now apply picked_cl.
  - destruct (find_pneq_ok srt labels pp K o Hs Hd H2 Hn Hj) as (m & Hm). destruct (find_pneq_ok srt _ _ K o Hs Hd' H2' Hn Hj) as (m' & Hm').
    pose proof (find_length _ _ _ _ _ _ _ (ds_len _ _ _ Hd) Hm) as Lm. pose proof (find_length _ _ _ _ _ _ _ (ds_len _ _ _ Hd') Hm') as Lm'.
    exists m. split; [exact Hm|]. split; [exact Lm|]. rewrite Hm'. f_equal. rewrite pick_length in Lm'.
    apply mask_ext; [now rewrite pick_length|]. rewrite Lm'. intros e He. unfold flagged at 2. rewrite pick_nth by auto. fold (flagged m (nth e order 0%nat)).
    rewrite (find_pneq srt _ _ K o m' Hd' Hm' e), (find_pneq srt _ _ K o m Hd Hm), pick_length.
    rewrite (picked_beaten labels pp order e He). pose proof (picked_at labels order Ho1 e He). tauto.
Qed.

(** ** reordered data *)
Lemma average_perm l l' a b : Permutation l l' -> is_average l a -> is_average l' b -> a == b.
Proof.
  intros P A (N & B). apply (average_unique l a b A). split; [intros ->; apply Permutation_nil in P; auto|].
  rewrite (Permutation_length P), (qsum_perm _ _ P). exact B.
Qed.
Lemma own_perm k labels pp order : Permutation order (seq 0 (length labels)) -> length labels = length pp ->
  Permutation (own_probs k (pick 0%nat order labels) (pick [] order pp)) (own_probs k labels pp).
Proof.
  intros P L. rewrite own_pick, (own_all k labels pp L). unfold own_of. apply Permutation_map. revert P. generalize (seq 0 (length labels)). intros s P.
  induction P; cbn [filter]; repeat match goal with |- context [if ?b then _ else _] => destruct b end; auto using perm_swap, perm_skip, Permutation_refl.
  now rewrite IHP1.
Qed.
Lemma order_in order n : Permutation order (seq 0 n) -> forall i, In i order <-> (i < n)%nat.
Proof. apply Permutation_seq_lt. Qed.
Lemma order_labels order labels : Permutation order (seq 0 (length labels)) -> Permutation (pick 0%nat order labels) labels.
Proof. intros P. transitivity (pick 0%nat (seq 0 (length labels)) labels); [apply Permutation_map, P|rewrite pick_seq; reflexivity]. Qed.

(** ** the lowest elements of a set without ties *)
Lemma lowest_unique (f : nat -> Q) (U : nat -> Prop) A B : NoDup A -> NoDup B -> length A = length B ->
  (forall x, In x A -> U x) -> (forall x, In x B -> U x) ->
  (forall x y, In x A -> U y -> ~ In y A -> f x <= f y) -> (forall x y, In x B -> U y -> ~ In y B -> f x <= f y) ->
  (forall x y, U x -> U y -> f x == f y -> x = y) -> forall x, In x A <-> In x B.
Proof.
  assert (G : forall A B, NoDup A -> NoDup B -> length A = length B -> (forall x, In x A -> U x) -> (forall x, In x B -> U x) ->
    (forall x y, In x A -> U y -> ~ In y A -> f x <= f y) -> (forall x y, In x B -> U y -> ~ In y B -> f x <= f y) ->
    (forall x y, U x -> U y -> f x == f y -> x = y) -> forall x, In x A -> In x B).
  { clear. intros A B NA NB L UA UB LA LB Inj x Hx. destruct (in_dec Nat.eq_dec x B) as [I|I]; [exact I|exfalso].
    assert (E : exists y, In y B /\ ~ In y A).
    { destruct (Forall_Exists_dec (fun y => In y A) (fun y => in_dec Nat.eq_dec y A) B) as [H|H].
      - exfalso. apply I. refine (NoDup_length_incl (l := B) (l' := A) NB _ _ x Hx); [lia|]. intros y Hy. rewrite Forall_forall in H. auto.
      - apply Exists_exists in H as (y & Hy & Ny). eauto. }
    destruct E as (y & Hy & Ny). assert (x = y); [|subst; auto]. apply Inj; auto. specialize (LA x y Hx (UB y Hy) Ny). specialize (LB y x Hy (UA x Hx) I). lra. }
  intros. split; eapply G; eauto.
Qed.
Definition members (k : nat) (labels : list nat) (mask : list bool) : list nat :=
  filter (fun e => (Nat.eqb (label_of labels e) k && nth e mask false)%bool) (seq 0 (length labels)).
Lemma filter_seq_map {X} (p : X -> bool) l d : length (filter p l) = length (filter (fun e => p (nth e l d)) (seq 0 (length l))).
Proof.
  induction l as [|x l IH]; [reflexivity|]. set (q := fun e => p (nth e (x :: l) d)). cbn [length seq filter]. rewrite <- seq_shift. change (q 0%nat) with (p x).
  assert (E : forall s, length (filter q (map S s)) = length (filter (fun e => p (nth e l d)) s)).
  { induction s as [|i s IHs]; [reflexivity|]. cbn [map filter]. change (q (S i)) with (p (nth i l d)). destruct (p (nth i l d)); cbn [length]; rewrite IHs; reflexivity. }
  destruct (p x); cbn [length]; rewrite E, IH; reflexivity.
Qed.
Lemma members_spec k labels mask : length labels = length mask ->
  NoDup (members k labels mask) /\ length (members k labels mask) = n_flagged k labels mask /\
  forall e, In e (members k labels mask) <-> (e < length labels)%nat /\ label_of labels e = k /\ flagged mask e.
Proof.
  intros L. unfold members. split; [apply NoDup_filter, seq_NoDup|]. split.
  - transitivity (length (filter (fun lb => (Nat.eqb (fst lb) k && snd lb)%bool) (combine labels mask))).
    + rewrite (filter_seq_map _ (combine labels mask) (0%nat, false)). rewrite combine_length, <- L, Nat.min_id.
      f_equal. apply filter_ext. intros e. rewrite combine_nth by auto. reflexivity.
    + revert mask L. induction labels as [|l labels IH]; intros [|b mask] L; try discriminate; [reflexivity|]. cbn. injection L as L. specialize (IH mask L).
      destruct (Nat.eqb l k), b; cbn; rewrite IH; reflexivity.
  - intros e. rewrite filter_In, in_seq, andb_true_iff, Nat.eqb_eq. unfold flagged. intuition lia.
Qed.

Lemma count_true_order a b : Permutation a b -> count_true a = count_true b.
Proof.
  intros PM. unfold count_true. induction PM as [|x l l' _ IH|x y l|l l' l'' _ IH1 _ IH2]; [reflexivity| | |congruence].
  - destruct x; cbn; lia.
  - destruct x, y; reflexivity.
Qed.
Section Reordered.
Variables (K : nat) (labels : list nat) (pp : list (list Q)) (order : list nat).
Hypothesis Hd : dataset K labels pp.
Hypothesis P : Permutation order (seq 0 (length labels)).
Let L' := pick 0%nat order labels.
Let P' := pick [] order pp.
Let Lo : length order = length labels.
Proof. rewrite (Permutation_length P). apply seq_length. Qed.
Let Hin : forall i, In i order <-> (i < length labels)%nat.
Proof. exact (order_in order _ P). Qed.
Let Ho : forall i, In i order -> (i < length labels)%nat.
Proof. intros i. apply Hin. Qed.
Let Hne : order <> [].
Proof. intros E. apply (ds_ne _ _ _ Hd). destruct labels; auto. rewrite E in Lo. discriminate. Qed.
Let Hd' : dataset K L' P'.
Proof. exact (picked_dataset K labels pp order Hd Ho Hne). Qed.
Let LL : length L' = length labels.
Proof. unfold L'. rewrite pick_length. exact Lo. Qed.
Let at_ e := nth e order 0%nat.
Let Hat e : (e < length labels)%nat -> (at_ e < length labels)%nat.
Proof. intros He. apply Ho, nth_In. lia. Qed.
Let at_inj e e' : (e < length labels)%nat -> (e' < length labels)%nat -> at_ e = at_ e' -> e = e'.
Proof.
  intros He He' E. assert (N : NoDup order) by (eapply Permutation_NoDup; [symmetry; exact P|apply seq_NoDup]).
  apply (proj1 (NoDup_nth order 0%nat) N); auto; lia.
Qed.
Let at_onto i : (i < length labels)%nat -> exists e, (e < length labels)%nat /\ at_ e = i.
Proof. intros Hi. apply Hin in Hi. apply In_nth with (d := 0%nat) in Hi as (e & He & E). exists e. split; [lia|exact E]. Qed.

Lemma order_thresholds k : (k < K)%nat ->
  nth k (get_confident_thresholds L' P' K) 0 == nth k (get_confident_thresholds labels pp K) 0.
Proof.
  intros Hk. apply thresholds_same; auto; [apply Hd'|apply Hd| |].
  - split; apply Permutation_in; [|symmetry]; apply order_labels; auto.
  - intros _ a b. apply average_perm. apply own_perm; [exact P|apply Hd].
Qed.

(** counts are unchanged *)
Lemma holds_for_order Pr Pr' n n' : (forall e, (e < length labels)%nat -> Pr' e <-> Pr (at_ e)) ->
  holds_for (length labels) Pr n -> holds_for (length L') Pr' n' -> n = n'.
Proof.
  intros H (idx & N & <- & I) (idx' & N' & <- & I'). rewrite LL in I'. rewrite <- (map_length at_ idx').
  apply NoDup_same_length; auto.
  - clear - N' I' at_inj. induction idx' as [|x l IH]; [constructor|]. cbn. apply NoDup_cons_iff in N' as (Nx & Nl).
    assert (A : forall l0, incl l0 (x :: l) -> ~ In x l0 -> ~ In (at_ x) (map at_ l0)).
    { intros l0 Il Nx0 C. apply in_map_iff in C as (y & E & Hy). assert (y = x); [|subst; auto].
      apply at_inj; auto; [apply (I' y), Il, Hy|apply (I' x); now left]. }
    constructor; [apply A; [intros z Hz; now right|exact Nx]|].
    revert Nl. assert (B : incl l (x :: l)) by (intros z Hz; now right). revert B. clear IH A Nx.
    generalize l at 1 3 4. intros l0. induction l0 as [|y l0 IH]; intros B N; [constructor|]. apply NoDup_cons_iff in N as (Ny & Nl). cbn. constructor.
    + intros C. apply in_map_iff in C as (z & E & Hz). assert (z = y); [|subst; auto].
      apply at_inj; auto; [apply (I' z), B; now right|apply (I' y), B; now left].
    + apply IH; auto. intros z Hz. apply B. now right.
  - intros i. rewrite I, in_map_iff. split.
    + intros (Hi & Pi). destruct (at_onto i Hi) as (e & He & E). exists e. split; [exact E|]. apply I'. split; [exact He|]. apply H; [exact He|]. now rewrite E.
    + intros (e & <- & He). apply I' in He as (He & Pe). split; [auto|]. now apply H.
Qed.
Lemma order_joint : confident_joint_uncalibrated L' P' K (get_confident_thresholds L' P' K) =
  confident_joint_uncalibrated labels pp K (get_confident_thresholds labels pp K).
Proof.
  assert (A : forall l p, length (confident_joint_uncalibrated l p K (get_confident_thresholds l p K)) = K).
  { intros. unfold confident_joint_uncalibrated. apply tab_length. }
  assert (B : forall l p i, (i < K)%nat -> length (nth i (confident_joint_uncalibrated l p K (get_confident_thresholds l p K)) []) = K).
  { intros l p i Hi. unfold confident_joint_uncalibrated. rewrite nth_tab by auto. apply tab_length. }
  apply list_eq_nth with (d := []); [now rewrite !A|]. rewrite A. intros i Hi.
  apply list_eq_nth with (d := 0%Z); [now rewrite !B|]. rewrite B by auto. intros j Hj.
  destruct (confident_joint_cell L' P' (get_confident_thresholds L' P' K) K i j) as (n' & H1' & H2'); auto; [apply Hd'|apply thresholds_length|apply Hd'|].
  destruct (confident_joint_cell labels pp (get_confident_thresholds labels pp K) K i j) as (n & H1 & H2); auto; [apply Hd|apply thresholds_length|apply Hd|].
  unfold zget in H2, H2'. rewrite H2, H2'. assert (n = n') as ->; [|reflexivity].
  refine (holds_for_order _ _ n n' _ H1 H1'). intros e He. cbv beta.
  pose proof (picked_label labels order e ltac:(lia)) as E1. pose proof (picked_counted K labels pp order Hd Ho order_thresholds e j ltac:(lia)) as E2.
  unfold label_of in E1. unfold row_of in E2. fold L' in E1. fold L' P' in E2. rewrite E1, E2. reflexivity.
Qed.
Lemma order_counts : value_counts L' K = value_counts labels K.
Proof.
  rewrite !value_counts_ok; [|apply Hd|apply Hd|apply Hd'|apply Hd']. f_equal. apply list_eq_nth with (d := 0%nat); [now rewrite !tab_length|].
  rewrite tab_length. intros k Hk. rewrite !nth_tab by auto. rewrite !n_labelled_count.
  pose proof (order_labels order labels P) as PL. fold L' in PL. unfold count. apply (Permutation_count_occ Nat.eq_dec). exact PL.
Qed.

(** ** the same examples are pruned *)
Lemma at_NoDup l : NoDup l -> (forall x, In x l -> (x < length labels)%nat) -> NoDup (map at_ l).
Proof.
  induction l as [|x l IH]; intros N H; [constructor|]. apply NoDup_cons_iff in N as (Nx & Nl). cbn. constructor.
  - intros C. apply in_map_iff in C as (y & E & Hy). assert (y = x); [|subst; auto]. apply at_inj; auto; apply H; [now right|now left].
  - apply IH; auto. intros y Hy. apply H. now right.
Qed.
Lemma order_n_labelled k : n_labelled k L' = n_labelled k labels.
Proof. rewrite !n_labelled_count. unfold count. apply (Permutation_count_occ Nat.eq_dec). apply order_labels, P. Qed.
Lemma order_label e : (e < length labels)%nat -> label_of L' e = label_of labels (at_ e).
Proof. intros He. apply picked_label. lia. Qed.
Lemma order_prob e k : (e < length labels)%nat -> prob_of P' e k = prob_of pp (at_ e) k.
Proof. intros He. apply picked_prob. lia. Qed.

Lemma order_by_class srt pcm o M M' : argsort_ok srt -> no_ties PruneByClass labels pp K ->
  by_class_mask srt labels pp K pcm o = Ok M -> by_class_mask srt L' P' K pcm o = Ok M' ->
  forall e, (e < length labels)%nat -> flagged M' e <-> flagged M (at_ e).
Proof.
  intros Hs Nt HM HM' e He.
  destruct (by_class_spec _ _ _ _ _ _ _ Hs Hd HM) as (LM & C1 & C2 & C3). destruct (by_class_spec _ _ _ _ _ _ _ Hs Hd' HM') as (LM' & C1' & C2' & C3').
  set (k := label_of labels (at_ e)).
  assert (Hk : (k < K)%nat) by (apply Hd, nth_In, Hat, He).
  pose proof (members_spec k labels M (eq_sym LM)) as (A1 & A2 & A3). pose proof (members_spec k L' M' (eq_sym LM')) as (B1 & B2 & B3). rewrite LL in B3, C3'.
  assert (E : forall x, In x (members k labels M) <-> In x (map at_ (members k L' M'))).
  { apply lowest_unique with (f := fun x => prob_of pp x k) (U := fun x => (x < length labels)%nat /\ label_of labels x = k).
    - exact A1.
    - apply at_NoDup; [exact B1|]. intros x Hx. now apply B3 in Hx.
    - rewrite map_length, A2, B2. destruct (Nat.lt_ge_cases (n_labelled k labels) 2) as [H|H].
      + rewrite C2, C2'; auto. now rewrite order_n_labelled.
      + rewrite C1, C1'; rewrite ?order_n_labelled; auto.
    - intros x Hx. apply A3 in Hx. tauto.
    - intros x Hx. apply in_map_iff in Hx as (y & <- & Hy). apply B3 in Hy as (Hy & El & _). split; [auto|]. now rewrite <- order_label.
    - intros x y Hx (Hy & Ey) Ny. apply A3 in Hx as (Hx & Ex & Fx). specialize (C3 x y Hx Hy). rewrite Ex, Ey in C3. apply C3; auto.
      intros Fy. apply Ny, A3. auto.
    - intros x y Hx (Hy & Ey) Ny. apply in_map_iff in Hx as (x' & <- & Hx). destruct (at_onto y Hy) as (y' & Hy' & <-). apply B3 in Hx as (Hx & Ex & Fx).
      specialize (C3' x' y' Hx Hy'). rewrite <- order_label in Ey by auto. rewrite Ex, Ey, !order_prob in C3' by auto. apply C3'; auto.
      intros Fy. apply Ny, in_map, B3. auto.
    - intros x y (Hx & Ex) (Hy & Ey) E. apply (Nt x y Hx Hy); [congruence|]. now rewrite Ex, Ey. }
  split; intros F.
  - assert (I : In (at_ e) (members k labels M)); [|apply A3 in I; tauto]. apply E, in_map, B3. rewrite order_label by auto. auto.
  - assert (I : In (at_ e) (members k labels M)) by (apply A3; auto). apply E, in_map_iff in I as (e' & Ee & I). apply B3 in I as (He' & _ & I).
    now rewrite <- (at_inj e' e He' He Ee).
Qed.

Lemma order_by_noise srt pcm o M M' : argsort_ok srt -> no_ties PruneByNoiseRate labels pp K ->
  by_noise_rate_mask srt labels pp K pcm o = Ok M -> by_noise_rate_mask srt L' P' K pcm o = Ok M' ->
  forall e, (e < length labels)%nat -> flagged M' e <-> flagged M (at_ e).
Proof.
  intros Hs Nt HM HM' e He.
  destruct (by_noise_rate_spec _ _ _ _ _ _ _ Hs Hd HM) as (LM & C1 & C2). destruct (by_noise_rate_spec _ _ _ _ _ _ _ Hs Hd' HM') as (LM' & C1' & C2').
  set (k := label_of labels (at_ e)).
  assert (Hk : (k < K)%nat) by (apply Hd, nth_In, Hat, He).
  pose proof (members_spec k labels M (eq_sym LM)) as (A1 & A2 & A3). pose proof (members_spec k L' M' (eq_sym LM')) as (B1 & B2 & B3). rewrite LL in B3.
  specialize (C1 k Hk). specialize (C2 k Hk). specialize (C1' k Hk). specialize (C2' k Hk). rewrite order_n_labelled in C1', C2'.
  destruct (Nat.le_gt_cases (n_labelled k labels) (Nat.max 1 (min_examples_per_class o))) as [H|H].
  - rewrite C1 in A2 by auto. rewrite C1' in B2 by auto. apply length_zero_iff_nil in A2, B2. rewrite A2 in A3. rewrite B2 in B3. split; intros F; exfalso.
    + apply (proj2 (B3 e)). rewrite order_label by auto. auto.
    + apply (proj2 (A3 (at_ e))). auto.
  - destruct (C2 H) as ((T & HT & HF) & _). destruct (C2' H) as ((T' & HT' & HF') & _). rewrite LL in HF'.
    rewrite (HF (at_ e)) by auto. rewrite (HF' e) by (rewrite ?order_label; auto).
    assert (E : forall j, (j < K)%nat -> j <> k -> (0 < zget pcm j k)%Z -> forall x, In x (T j) <-> In x (map at_ (T' j))).
    { intros j Hj Hjk Hz. destruct (HT j Hj Hjk Hz) as (T1 & T2 & T3 & T4). destruct (HT' j Hj Hjk Hz) as (T1' & T2' & T3' & T4'). rewrite LL in T3', T4'.
      apply lowest_unique with (f := fun x => - (prob_of pp x j - prob_of pp x k)) (U := fun x => (x < length labels)%nat /\ label_of labels x = k).
      - exact T1.
      - apply at_NoDup; [exact T1'|]. intros x Hx. now apply T3' in Hx.
      - now rewrite map_length, T2, T2', order_n_labelled.
      - exact T3.
      - intros x Hx. apply in_map_iff in Hx as (y & <- & Hy). apply T3' in Hy as (Hy & El). split; [auto|]. now rewrite <- order_label.
      - intros x y Hx (Hy & Ey) Ny. specialize (T4 x y Hx Hy Ey Ny). lra.
      - intros x y Hx (Hy & Ey) Ny. apply in_map_iff in Hx as (x' & <- & Hx). destruct (at_onto y Hy) as (y' & Hy' & <-).
        specialize (T4' x' y' Hx Hy'). rewrite <- order_label in Ey by auto. rewrite !order_prob in T4' by (auto; now apply T3' in Hx).
        assert (~ In y' (T' j)) by (intros C; now apply Ny, in_map). specialize (T4' Ey H0). lra.
      - intros x y (Hx & Ex) (Hy & Ey) E. apply (Nt j Hj x y Hx Hy); [split; congruence|]. rewrite Ex, Ey. lra. }
    split; intros (j & Hj & Hjk & Hz & I); exists j; (split; [exact Hj|]); (split; [exact Hjk|]); (split; [exact Hz|]).
    + apply E; auto. now apply in_map.
    + apply E, in_map_iff in I as (e' & Ee & I); auto. destruct (HT' j Hj Hjk Hz) as (_ & _ & T3' & _). rewrite LL in T3'.
      rewrite <- (at_inj e' e (proj1 (T3' e' I)) He Ee). exact I.
Qed.

(** ** the search *)
Definition given_joint (srt : list Q -> list nat) (l : list nat) (p : list (list Q)) (o : options) : res (list (list Q)) :=
  match confident_joint o with Some c => Ok c | None => do r <- compute_confident_joint srt l p K None true ; Ok (zmat_to_q (fst r)) end.
Lemma order_given srt o : given_joint srt L' P' o = given_joint srt labels pp o.
Proof.
  unfold given_joint. destruct (confident_joint o); [reflexivity|]. unfold compute_confident_joint. cbv zeta. rewrite order_joint.
  unfold calibrate_confident_joint. assert (A : forall l p t, length (zmat_to_q (confident_joint_uncalibrated l p K t)) = K).
  { intros. unfold zmat_to_q, confident_joint_uncalibrated. rewrite map_length. apply tab_length. }
  rewrite A, order_counts. destruct (value_counts labels K); cbn [rbind]; [|reflexivity]. destruct (round_preserving_row_totals _ _); reflexivity.
Qed.
Lemma order_prune srt cj o : prune_counts srt L' K cj o = prune_counts srt labels K cj o.
Proof. unfold prune_counts. now rewrite order_counts. Qed.
Lemma raw_class_eq srt l p o : raw_mask srt l p K PruneByClass o =
  (do cj <- given_joint srt l p o ; do pcm <- prune_counts srt l K cj o ; by_class_mask srt l p K pcm o).
Proof. unfold raw_mask, given_joint. destruct (confident_joint o); [reflexivity|]. destruct (compute_confident_joint _ _ _ _ _ _); reflexivity. Qed.
Lemma raw_noise_eq srt l p o : raw_mask srt l p K PruneByNoiseRate o =
  (do cj <- given_joint srt l p o ; do pcm <- prune_counts srt l K cj o ; by_noise_rate_mask srt l p K pcm o).
Proof. unfold raw_mask, given_joint. destruct (confident_joint o); [reflexivity|]. destruct (compute_confident_joint _ _ _ _ _ _); reflexivity. Qed.
Lemma order_raw srt o flt r r' : argsort_ok srt -> no_ties flt labels pp K -> flt = PruneByClass \/ flt = PruneByNoiseRate ->
  raw_mask srt labels pp K flt o = Ok r -> raw_mask srt L' P' K flt o = Ok r' ->
  forall e, (e < length labels)%nat -> flagged r' e <-> flagged r (at_ e).
Proof.
  intros Hs Nt [->| ->]; rewrite ?raw_class_eq, ?raw_noise_eq, order_given.
  - destruct (given_joint srt labels pp o) as [cj|]; cbn [rbind]; [|discriminate]. rewrite order_prune.
    destruct (prune_counts srt labels K cj o) as [pcm|]; cbn [rbind]; [|discriminate]. now apply order_by_class.
  - destruct (given_joint srt labels pp o) as [cj|]; cbn [rbind]; [|discriminate]. rewrite order_prune.
    destruct (prune_counts srt labels K cj o) as [pcm|]; cbn [rbind]; [|discriminate]. now apply order_by_noise.
Qed.

Lemma order_beaten e : (e < length labels)%nat -> clearly_beaten L' P' e <-> clearly_beaten labels pp (at_ e).
Proof. intros He. apply picked_beaten. lia. Qed.
Lemma order_prune_find srt o flt m m' : argsort_ok srt -> no_ties flt labels pp K -> flt = PruneByClass \/ flt = PruneByNoiseRate ->
  find_label_issues srt labels pp K flt o = Ok m -> find_label_issues srt L' P' K flt o = Ok m' ->
  forall e, (e < length labels)%nat -> flagged m' e <-> flagged m (at_ e).
Proof.
  intros Hs Nt Hf Hm Hm' e He. assert (Hl : is_low flt = false) by (destruct Hf as [->| ->]; reflexivity).
  destruct (find_marked _ _ _ _ _ _ _ Hd Hl Hm) as (r & Hr & _ & _ & F). destruct (find_marked _ _ _ _ _ _ _ Hd' Hl Hm') as (r' & Hr' & _ & _ & F').
  rewrite LL in F'. rewrite F, F' by auto. rewrite (order_raw srt o flt r r') by auto. rewrite order_beaten by auto. reflexivity.
Qed.

Lemma order_low srt o flt m m' : argsort_ok srt -> no_ties flt labels pp K -> is_low flt = true -> two_classes labels ->
  num_to_remove_per_class o = None -> (1 <= n_jobs o)%nat ->
  find_label_issues srt labels pp K flt o = Ok m -> find_label_issues srt L' P' K flt o = Ok m' ->
  forall e, (e < length labels)%nat -> flagged m' e <-> flagged m (at_ e).
Proof.
  intros Hs Nt Hf H2 Hn Hj Hm Hm' e He.
  assert (H2' : two_classes L') by (apply picked_two; auto; intros i Hi; now apply Hin).
  destruct (low_spec srt labels pp K flt o Hs Hd H2 Hn Hj Hf) as (m0 & sc & N & Hm0 & Hsc & HN & Lm & Cm & Om). rewrite Hm in Hm0. injection Hm0 as <-.
  destruct (low_spec srt L' P' K flt o Hs Hd' H2' Hn Hj Hf) as (m0 & sc' & N' & Hm0 & Hsc' & HN' & Lm' & Cm' & Om'). rewrite Hm' in Hm0. injection Hm0 as <-.
  rewrite LL in Lm', Om'.
  assert (EN : N' = N).
  { rewrite num_label_issues_eq in HN, HN' by auto. injection HN as <-. injection HN' as <-.
    change (cl_mask L' P' K) with (cl_mask (pick 0%nat order labels) (pick [] order pp) K). rewrite (picked_cl K labels pp order Hd Ho Hne order_thresholds).
    assert (LM : length (cl_mask labels pp K) = length labels).
    { unfold cl_mask. rewrite clear_where_length; rewrite mask_of_length; auto. rewrite reduce_length; auto. apply Hd. }
    assert (PM : Permutation (pick false order (cl_mask labels pp K)) (cl_mask labels pp K)).
    { transitivity (pick false (seq 0 (length (cl_mask labels pp K))) (cl_mask labels pp K)); [|now rewrite pick_seq]. apply Permutation_map. now rewrite LM. }
    now apply count_true_order. }
  assert (Esc : forall x, (x < length labels)%nat -> nth x sc' 0 = nth (at_ x) sc 0).
  { intros x Hx. symmetry. eapply (C15_local_full K _ labels pp L' P' sc sc' (at_ x) x); eauto; try apply Hd; try apply Hd'; rewrite ?LL; auto.
    - symmetry. now apply order_label.
    - unfold P'. rewrite picked_row by lia. reflexivity. }
  assert (Inj : forall x y, (x < length labels)%nat -> (y < length labels)%nat -> nth x sc 0 == nth y sc 0 -> x = y).
  { intros x y Hx Hy E. destruct flt; try discriminate.
    - exact (Nt sc Hsc x y Hx Hy I E).
    - apply (Nt x y Hx Hy I). pose proof (scores_unfold _ _ _ _ _ _ Hsc) as U. cbn in U. injection U as <-.
      rewrite !self_conf_nth in E by (auto; apply Hd). exact E. }
  assert (E : forall x, In x (where_ m) <-> In x (map at_ (where_ m'))).
  { assert (W : forall x, In x (where_ m) <-> flagged m x) by (intros x; apply in_where). assert (W' : forall x, In x (where_ m') <-> flagged m' x) by (intros x; apply in_where).
    assert (Fl : forall x, flagged m x -> (x < length labels)%nat) by (intros x Hx; apply flagged_lt in Hx; lia).
    assert (Fl' : forall x, flagged m' x -> (x < length labels)%nat) by (intros x Hx; apply flagged_lt in Hx; lia).
    apply lowest_unique with (f := fun x => nth x sc 0) (U := fun x => (x < length labels)%nat).
    - apply where_NoDup.
    - apply at_NoDup; [apply where_NoDup|]. intros x Hx. now apply Fl', W'.
    - rewrite map_length, !where_length. congruence.
    - intros x Hx. now apply Fl, W.
    - intros x Hx. apply in_map_iff in Hx as (y & <- & Hy). now apply Hat, Fl', W'.
    - intros x y Hx Hy Ny. apply (Om x y Hy); [now apply W|]. intros C. now apply Ny, W.
    - intros x y Hx Hy Ny. apply in_map_iff in Hx as (x' & <- & Hx). destruct (at_onto y Hy) as (y' & Hy' & <-).
      rewrite <- !Esc by (auto; now apply Fl', W'). apply (Om' x' y' Hy'); [now apply W'|]. intros C. now apply Ny, in_map, W'.
    - exact Inj. }
  split; intros F.
  - apply in_where, E, in_map, in_where, F.
  - apply in_where, E, in_map_iff in F as (e' & Ee & F). apply in_where in F. rewrite <- (at_inj e' e); auto. apply flagged_lt in F. lia.
Qed.

Lemma order_full srt o flt : argsort_ok srt -> no_ties flt labels pp K -> two_classes labels ->
  num_to_remove_per_class o = None -> n_jobs o = 1%nat ->
  exists m, find_label_issues srt labels pp K flt o = Ok m /\ length m = length labels /\
    find_label_issues srt L' P' K flt o = Ok (pick false order m).
Proof.
  intros Hs Nt H2 Hn Hj.
  assert (H2' : two_classes L') by (apply picked_two; auto; intros i Hi; now apply Hin).
  destruct (find_total srt K labels pp flt o Hs Hd H2 Hn Hj) as (m & Hm & Lm). destruct (find_total srt K L' P' flt o Hs Hd' H2' Hn Hj) as (m' & Hm' & Lm').
  destruct flt eqn:Ef; try (apply picked_find; auto using order_thresholds; lia);
    exists m; (split; [exact Hm|]); (split; [exact Lm|]); rewrite Hm'; f_equal; rewrite LL in Lm'; apply mask_ext; rewrite ?pick_length; try lia; rewrite Lm';
    intros e He; unfold flagged at 2; rewrite pick_nth by lia; fold (flagged m (nth e order 0%nat)).
  - eapply order_low; eauto; try reflexivity; lia.
  - eapply order_low; eauto; try reflexivity; lia.
  - eapply order_prune_find; eauto.
  - eapply order_prune_find; eauto.
  - destruct Nt as (Nt1 & Nt2).
    pose proof (proj1 (find_both_spec srt labels pp K o m (ds_len _ _ _ Hd)) Hm) as (mc & mn & Hc & Hnn & _ & F).
    pose proof (proj1 (find_both_spec srt L' P' K o m' (ds_len _ _ _ Hd')) Hm') as (mc' & mn' & Hc' & Hn' & _ & F').
    rewrite F, F'. rewrite (order_prune_find srt o PruneByClass mc mc') by auto. rewrite (order_prune_find srt o PruneByNoiseRate mn mn') by auto. reflexivity.
Qed.
End Reordered.

(** ** renamed classes *)
Section Renamed.
Variables (K : nat) (names labels : list nat) (pp P' : list (list Q)).
Hypothesis Pn : Permutation names (seq 0 K).
Hypothesis Hd : dataset K labels pp.
Hypothesis Hr : Forall2 (renamed_row names) pp P'.
Let L' := renamed_labels names labels.
Let s k := nth k names 0%nat.

Lemma names_length : length names = K.
Proof. now rewrite (Permutation_length Pn), seq_length. Qed.
Lemma name_lt k : (k < K)%nat -> (s k < K)%nat.
Proof. intros H. apply (Permutation_seq_lt _ _ Pn). apply nth_In. now rewrite names_length. Qed.
Lemma name_inj j k : (j < K)%nat -> (k < K)%nat -> s j = s k -> j = k.
Proof.
  intros Hj Hk E. assert (N : NoDup names) by (eapply Permutation_NoDup; [symmetry; exact Pn|apply seq_NoDup]).
  rewrite NoDup_nth in N. apply (N j k); rewrite ?names_length; auto. exact E.
Qed.
Lemma name_onto i : (i < K)%nat -> exists k, (k < K)%nat /\ s k = i.
Proof.
  intros Hi. apply (Permutation_seq_lt _ _ Pn) in Hi. apply In_nth with (d := 0%nat) in Hi as (k & Hk & E). rewrite names_length in Hk. eauto.
Qed.
Lemma rows_length : length P' = length pp.
Proof. symmetry. clear - Hr. induction Hr; cbn; auto. Qed.
Lemma renamed_at e : (e < length labels)%nat -> renamed_row names (row_of pp e) (row_of P' e).
Proof.
  rewrite (ds_len _ _ _ Hd). unfold row_of. clear - Hr. revert e. induction Hr; intros [|e] He; cbn in *; try lia; auto. apply IHf; auto; lia.
Qed.
Lemma row_K e : (e < length labels)%nat -> length (row_of pp e) = K.
Proof. intros He. apply Hd, nth_In. now rewrite <- (ds_len _ _ _ Hd). Qed.
Lemma row_K' e : (e < length labels)%nat -> length (row_of P' e) = K.
Proof. intros He. rewrite (proj1 (renamed_at e He)). now apply row_K. Qed.
Lemma renamed_prob e k : (e < length labels)%nat -> (k < K)%nat -> prob_of P' e (s k) = prob_of pp e k.
Proof. intros He Hk. apply (renamed_at e He). now rewrite row_K. Qed.
Lemma renamed_label e : (e < length labels)%nat -> label_of L' e = s (label_of labels e).
Proof. intros He. unfold label_of, L', renamed_labels. now rewrite (nth_map_gen _ _ _ _ 0%nat). Qed.
Lemma label_K e : (e < length labels)%nat -> (label_of labels e < K)%nat.
Proof. intros He. apply Hd, nth_In, He. Qed.
Lemma LL' : length L' = length labels.
Proof. apply map_length. Qed.

Lemma renamed_dataset : dataset K L' P'.
Proof.
  constructor.
  - rewrite LL', rows_length. apply Hd.
  - pose proof (ds_ne _ _ _ Hd). unfold L', renamed_labels. destruct labels; [congruence|discriminate].
  - intros l Hl. apply in_map_iff in Hl as (k & <- & Hk). apply name_lt, Hd, Hk.
  - intros r Hin. apply In_nth with (d := []) in Hin as (e & He & <-). apply row_K'. rewrite (ds_len _ _ _ Hd), <- rows_length. exact He.
  - intros r x Hin Hx. apply In_nth with (d := []) in Hin as (e & He & <-). rewrite rows_length, <- (ds_len _ _ _ Hd) in He.
    change (nth e P' []) with (row_of P' e) in Hx. apply In_nth with (d := 0) in Hx as (i & Hi & <-). rewrite row_K' in Hi by auto.
    destruct (name_onto i Hi) as (k & Hk & <-). change (0 <= prob_of P' e (s k) /\ prob_of P' e (s k) <= 1). rewrite renamed_prob by auto.
    apply (ds_prob _ _ _ Hd (row_of pp e)); apply nth_In; [rewrite <- (ds_len _ _ _ Hd); auto|]. now rewrite row_K.
Qed.
Lemma renamed_in k : (k < K)%nat -> In k labels <-> In (s k) L'.
Proof.
  intros Hk. split; intros H.
  - unfold L', renamed_labels. apply in_map_iff. exists k. auto.
  - apply in_map_iff in H as (j & E & H). rewrite <- (name_inj j k); auto. now apply Hd.
Qed.
Lemma renamed_two : two_classes labels -> two_classes L'.
Proof.
  intros (a & b & Ha & Hb & N). exists (s a), (s b). split; [|split]; [apply renamed_in; auto; now apply Hd|apply renamed_in; auto; now apply Hd|].
  intros E. apply N, name_inj; auto; now apply Hd.
Qed.
Lemma renamed_own k : (k < K)%nat -> own_probs (s k) L' P' = own_probs k labels pp.
Proof.
  intros Hk. assert (Hlab : forall l, In l labels -> (l < K)%nat) by apply Hd. assert (Hrow : forall r, In r pp -> length r = K) by apply Hd.
  pose proof name_inj as Inj. unfold L', renamed_labels, s in *. clear - Hk Hlab Hrow Hr Inj. revert labels Hlab.
  induction Hr as [|r r' pp0 P0 H F0 IH]; intros [|l ls] Hlab; try reflexivity. cbn [map own_probs].
  assert (Hl : (l < K)%nat) by (apply Hlab; now left).
  rewrite IH; [|exact F0|intros x Hx; apply Hrow; now right|intros x Hx; apply Hlab; now right].
  destruct (Nat.eqb_spec l k) as [->|N].
  - rewrite Nat.eqb_refl. f_equal. apply H. now rewrite Hrow by now left.
  - destruct (Nat.eqb_spec (nth l names 0%nat) (nth k names 0%nat)) as [E|_]; [|reflexivity]. elim N. now apply Inj.
Qed.
Lemma renamed_threshold k : (k < K)%nat -> nth (s k) (get_confident_thresholds L' P' K) 0 == nth k (get_confident_thresholds labels pp K) 0.
Proof.
  intros Hk. symmetry. apply thresholds_same; auto using name_lt, renamed_in; try apply Hd; try apply renamed_dataset.
  intros _ a b A B. rewrite renamed_own in B by auto. eapply average_unique; eauto.
Qed.

Hypothesis Dec : decided labels pp.
Lemma renamed_beaten e : (e < length labels)%nat -> clearly_beaten L' P' e <-> clearly_beaten labels pp e.
Proof.
  intros He. destruct (Dec e He) as (_ & D). rewrite row_K in D by auto. unfold clearly_beaten. rewrite row_K, row_K', renamed_label by auto.
  rewrite renamed_prob by auto using label_K. split.
  - intros (i & Hi & H). destruct (name_onto i Hi) as (j & Hj & <-). exists j. split; [auto|]. left. rewrite renamed_prob in H by auto.
    destruct H as [H|(_ & H)]; [exact H|]. elim (D j Hj H).
  - intros (j & Hj & H). exists (s j). split; [now apply name_lt|]. left. rewrite renamed_prob by auto.
    destruct H as [H|(_ & H)]; [exact H|]. elim (D j Hj H).
Qed.
Lemma renamed_reaches e j : (e < length labels)%nat -> (j < K)%nat ->
  reaches (get_confident_thresholds L' P' K) (row_of P' e) (s j) <-> reaches (get_confident_thresholds labels pp K) (row_of pp e) j.
Proof.
  intros He Hj. unfold reaches. rewrite row_K, row_K' by auto. pose proof (renamed_threshold j Hj) as T. pose proof (name_lt j Hj).
  change (nth (s j) (row_of P' e) 0) with (prob_of P' e (s j)). change (nth j (row_of pp e) 0) with (prob_of pp e j). rewrite renamed_prob by auto.
  split; intros (_ & H'); (split; [auto|]); lra.
Qed.
Lemma renamed_most e j : (e < length labels)%nat -> (j < K)%nat -> most_likely (row_of P' e) (s j) <-> most_likely (row_of pp e) j.
Proof.
  intros He Hj. destruct (Dec e He) as (D & _). rewrite row_K in D by auto. unfold most_likely. rewrite row_K, row_K' by auto.
  assert (E : forall i, (i < K)%nat -> nth (s i) (row_of P' e) 0 = nth i (row_of pp e) 0) by (intros i Hi; apply (renamed_prob e i He Hi)).
  rewrite (E j Hj). change (forall i j, (i < K)%nat -> (j < K)%nat -> i <> j -> nth i (row_of pp e) 0 == nth j (row_of pp e) 0 ->
    exists h, (h < K)%nat /\ nth i (row_of pp e) 0 < nth h (row_of pp e) 0) in D.
  assert (U : (forall i, (i < K)%nat -> nth i (row_of pp e) 0 <= nth j (row_of pp e) 0) ->
              forall i, (i < K)%nat -> i <> j -> nth i (row_of pp e) 0 < nth j (row_of pp e) 0).
  { intros M i Hi N. specialize (M i Hi) as M1. destruct (Qlt_le_dec (nth i (row_of pp e) 0) (nth j (row_of pp e) 0)) as [L|L]; [exact L|exfalso].
    destruct (D i j Hi Hj N) as (h & Hh & L2); [lra|]. specialize (M h Hh). lra. }
  split; intros (_ & M & _); (split; [auto using name_lt|]).
  - assert (M' : forall i, (i < K)%nat -> nth i (row_of pp e) 0 <= nth j (row_of pp e) 0).
    { intros i Hi. rewrite <- E by auto. apply M, name_lt, Hi. }
    split; [exact M'|]. intros i Hi. apply U; auto; lia.
  - split.
    + intros i Hi. destruct (name_onto i Hi) as (k & Hk & <-). rewrite E by auto. auto.
    + intros i Hi. assert (Hi' : (i < K)%nat) by (pose proof (name_lt j Hj); lia). destruct (name_onto i Hi') as (k & Hk & <-). rewrite E by auto.
      apply U; auto. intros ->. lia.
Qed.
Lemma renamed_counted e j : (e < length labels)%nat -> (j < K)%nat ->
  counted_as (get_confident_thresholds L' P' K) (row_of P' e) (s j) <-> counted_as (get_confident_thresholds labels pp K) (row_of pp e) j.
Proof.
  intros He Hj. unfold counted_as. rewrite renamed_most, renamed_reaches by auto.
  assert (B : forall t i, reaches t (row_of P' e) i -> (i < K)%nat) by (intros t i (H & _); now rewrite row_K' in H).
  assert (B0 : forall t i, reaches t (row_of pp e) i -> (i < K)%nat) by (intros t i (H & _); now rewrite row_K in H).
  split; intros [(R & U)|((a & b & N & Ra & Rb) & M)]; [left|right|left|right]; (split; [|assumption || idtac]); try exact R.
  - intros i Hi. apply name_inj; eauto. apply U. apply renamed_reaches; eauto.
  - destruct (name_onto a (B _ _ Ra)) as (a' & Ha & <-). destruct (name_onto b (B _ _ Rb)) as (b' & Hb & <-). exists a', b'.
    rewrite renamed_reaches in Ra, Rb by auto. split; [congruence|]. auto.
  - intros i Hi. destruct (name_onto i (B _ _ Hi)) as (k & Hk & <-). f_equal. apply U. now apply renamed_reaches in Hi.
  - exists (s a), (s b). split; [intros E; apply N, name_inj; eauto|]. split; apply renamed_reaches; eauto.
Qed.
Lemma renamed_cl : cl_mask L' P' K = cl_mask labels pp K.
Proof.
  assert (LM : forall l p, dataset K l p -> length (cl_mask l p K) = length l).
  { intros l p D. unfold cl_mask. rewrite clear_where_length; rewrite mask_of_length; auto. rewrite reduce_length; auto. apply D. }
  pose proof renamed_dataset as Hd'. apply mask_ext; rewrite !LM by auto; [apply LL'|]. rewrite LL'. intros e He.
  rewrite (cl_flagged_iff K L' P' e Hd'), (cl_flagged_iff K labels pp e Hd), renamed_beaten, renamed_label, LL' by auto.
  split; intros (_ & (j & A & B) & C); (split; [exact He|]); (split; [|exact C]).
  - assert (Hj : (j < K)%nat).
    { destruct A as [((H & _) & _)|(_ & H & _)]; now rewrite row_K' in H by auto. }
    destruct (name_onto j Hj) as (k & Hk & <-). exists k. split; [now apply renamed_counted|congruence].
  - assert (Hj : (j < K)%nat).
    { destruct A as [((H & _) & _)|(_ & H & _)]; now rewrite row_K in H by auto. }
    exists (s j). split; [now apply renamed_counted|]. intros E. apply B, name_inj; auto using label_K.
Qed.
Lemma renamed_full srt o flt : argsort_ok srt -> two_classes labels -> num_to_remove_per_class o = None -> (1 <= n_jobs o)%nat ->
  flt = ConfidentLearning \/ flt = PredictedNeqGiven ->
  exists m, find_label_issues srt labels pp K flt o = Ok m /\ find_label_issues srt L' P' K flt o = Ok m /\
    num_label_issues srt L' P' K = num_label_issues srt labels pp K.
Proof.
  intros Hs H2 Hn Hj Hf. pose proof renamed_dataset as Hd'. pose proof (renamed_two H2) as H2'.
  rewrite !num_label_issues_eq by auto. rewrite renamed_cl. destruct Hf as [->| ->].
  - exists (cl_mask labels pp K). rewrite !find_cl_eq by auto. rewrite renamed_cl. auto.
  - destruct (find_pneq_ok srt labels pp K o Hs Hd H2 Hn Hj) as (m & Hm). destruct (find_pneq_ok srt _ _ K o Hs Hd' H2' Hn Hj) as (m' & Hm').
    pose proof (find_length _ _ _ _ _ _ _ (ds_len _ _ _ Hd) Hm) as Lm. pose proof (find_length _ _ _ _ _ _ _ (ds_len _ _ _ Hd') Hm') as Lm'. rewrite LL' in Lm'.
    exists m. split; [exact Hm|]. split; [|reflexivity]. rewrite Hm'. f_equal. apply mask_ext; [congruence|]. rewrite Lm'. intros e He.
    rewrite (find_pneq srt _ _ K o m' Hd' Hm' e), (find_pneq srt _ _ K o m Hd Hm e), LL', renamed_beaten by auto. reflexivity.
Qed.
Lemma best_unique row l a b : best_other row l a -> best_other row l b -> a == b.
Proof.
  intros ((i & Hi & Ni & Ei) & Ma) ((j & Hj & Nj & Ej) & Mb). specialize (Ma j Hj Nj). specialize (Mb i Hi Ni). rewrite Ei in Mb. rewrite Ej in Ma. lra.
Qed.
End Renamed.

Lemma renamed_scores K names labels pp P' method : (2 <= K)%nat -> Permutation names (seq 0 K) -> dataset K labels pp -> Forall2 (renamed_row names) pp P' ->
  exists sc sc', get_label_quality_scores labels pp K method false = Ok sc /\
    get_label_quality_scores (renamed_labels names labels) P' K method false = Ok sc' /\ length sc = length labels /\ length sc' = length labels /\
    forall e, (e < length labels)%nat -> nth e sc' 0 == nth e sc 0.
Proof.
  intros HK Pn Hd Hr. pose proof (renamed_dataset K names labels pp P' Pn Hd Hr) as Hd'.
  destruct (C15_scores_full K labels pp method Hd HK) as (sc & Hs & Ls & F). destruct (C15_scores_full K _ _ method Hd' HK) as (sc' & Hs' & Ls' & F').
  exists sc, sc'. unfold renamed_labels in Ls', F'. rewrite map_length in Ls', F'. fold (renamed_labels names labels) in F'.
  split; [exact Hs|]. split; [exact Hs'|]. split; [exact Ls|]. split; [exact Ls'|]. intros e He.
  destruct (F e He) as (_ & _ & S). destruct (F' e He) as (_ & _ & S').
  pose proof (label_K K labels pp Hd e He) as Hl. pose proof (renamed_prob K names labels pp P' Hd Hr e (label_of labels e) He Hl) as Ep.
  pose proof (renamed_label names labels e He) as El. destruct method.
  - rewrite S, S', El, Ep. reflexivity.
  - destruct S as (b & B & S & _), S' as (b' & B' & S' & _). rewrite S, S', El, Ep. rewrite El in B'.
    assert (b' == b) as ->; [|reflexivity]. apply (best_unique (row_of pp e) (label_of labels e)); [|exact B].
    destruct (renamed_at K names labels pp P' Hd Hr e He) as (_ & Er). pose proof (row_K K labels pp Hd e He) as RK. pose proof (row_K' K names labels pp P' Hd Hr e He) as RK'.
    destruct B' as ((i & Hi & Ni & Ei) & M). rewrite RK' in Hi, M. split.
    + destruct (name_onto K names Pn i Hi) as (k & Hk & <-). exists k. rewrite RK. split; [auto|]. split; [congruence|]. rewrite <- Er by (now rewrite RK). exact Ei.
    + intros j Hj Nj. rewrite <- Er by auto. apply M; [apply (name_lt K names Pn); now rewrite <- RK|]. intros E. apply Nj, (name_inj K names Pn); auto. now rewrite <- RK.
Qed.

(** ** repeated data *)
Lemma map_repeat {A B} (f : A -> B) x n : map f (repeat x n) = repeat (f x) n.
Proof. induction n as [|n IH]; cbn; congruence. Qed.
Lemma copies_pick {A} (d : A) c l : copies c l = pick d (copies c (seq 0 (length l))) l.
Proof.
  unfold copies, pick. rewrite concat_map, map_repeat. f_equal. f_equal. symmetry. apply (pick_seq d).
Qed.
Lemma copies_map {A B} (f : A -> B) c l : map f (copies c l) = copies c (map f l).
Proof. unfold copies. now rewrite concat_map, map_repeat. Qed.
Lemma copies_filter {A} (p : A -> bool) c l : filter p (copies c l) = copies c (filter p l).
Proof. unfold copies. induction c as [|c IH]; [reflexivity|]. cbn. now rewrite filter_app, IH. Qed.
Lemma copies_length {A} c (l : list A) : length (copies c l) = (c * length l)%nat.
Proof. unfold copies. induction c as [|c IH]; [reflexivity|]. cbn. now rewrite app_length, IH. Qed.
Lemma copies_qsum c l : qsum (copies c l) == Qnat c * qsum l.
Proof.
  unfold copies. induction c as [|c IH]; [cbn [repeat concat]; rewrite Qnat_0; change (qsum []) with 0; ring|]. cbn [repeat concat]. rewrite qsum_app, IH. rewrite Qnat_S. ring.
Qed.
Lemma copies_in {A} c (l : list A) x : (1 <= c)%nat -> In x (copies c l) <-> In x l.
Proof.
  intros Hc. unfold copies. rewrite in_concat. split.
  - intros (y & Hy & Hx). apply repeat_spec in Hy. now subst.
  - intros Hx. exists l. split; [|exact Hx]. destruct c; [lia|]. now left.
Qed.
Lemma copies_average c l a b : (1 <= c)%nat -> is_average l a -> is_average (copies c l) b -> b == a.
Proof.
  intros Hc A (_ & B). apply (average_unique l b a); [|exact A]. destruct A as (N & A). split; [exact N|]. rewrite copies_length, copies_qsum in B.
  assert (0 < Qnat c) by (apply Qnat_pos; lia).
  assert (E : Qnat (c * length l) == Qnat c * Qnat (length l)) by (unfold Qnat; rewrite Nat2Z.inj_mul, inject_Z_mult; reflexivity).
  rewrite E in B. assert (E2 : (b * Qnat (length l)) * Qnat c == qsum l * Qnat c) by lra. apply Qmult_inj_r in E2; lra.
Qed.
Lemma copies_count c m : count_true (copies c m) = (c * count_true m)%nat.
Proof.
  unfold copies. induction c as [|c IH]; [reflexivity|]. cbn [repeat concat]. unfold count_true in *. rewrite filter_app, app_length, IH. lia.
Qed.
Lemma copies_full K labels pp srt o flt c : (1 <= c)%nat -> dataset K labels pp -> two_classes labels -> argsort_ok srt ->
  num_to_remove_per_class o = None -> (1 <= n_jobs o)%nat -> flt = ConfidentLearning \/ flt = PredictedNeqGiven ->
  exists m n, find_label_issues srt labels pp K flt o = Ok m /\ find_label_issues srt (copies c labels) (copies c pp) K flt o = Ok (copies c m) /\
    num_label_issues srt labels pp K = Ok n /\ num_label_issues srt (copies c labels) (copies c pp) K = Ok (c * n)%nat.
Proof.
  intros Hc Hd H2 Hs Hn Hj Hf. set (order := copies c (seq 0 (length labels))).
  assert (El : copies c labels = pick 0%nat order labels) by apply copies_pick.
  assert (Ep : copies c pp = pick [] order pp) by (unfold order; rewrite (ds_len _ _ _ Hd); apply copies_pick).
  assert (Ho : forall i, In i order <-> (i < length labels)%nat) by (intros i; unfold order; rewrite copies_in by auto; rewrite in_seq; lia).
  assert (Hthr : forall k, (k < K)%nat -> nth k (get_confident_thresholds (pick 0%nat order labels) (pick [] order pp) K) 0 == nth k (get_confident_thresholds labels pp K) 0).
  { intros k Hk. apply thresholds_same; auto; try apply Hd.
    - rewrite !pick_length. reflexivity.
    - rewrite <- El. now apply copies_in.
    - intros _ a b A B. rewrite own_pick in A. rewrite (own_all k labels pp (ds_len _ _ _ Hd)) in B. unfold own_of, order in A. rewrite copies_filter, copies_map in A.
      exact (copies_average c _ b a Hc B A). }
  assert (Ho1 : forall i, In i order -> (i < length labels)%nat) by (intros i; apply Ho).
  assert (Hne : order <> []).
  { intros E. destruct labels as [|x l]; [now apply (ds_ne _ _ _ Hd)|]. assert (I : In 0%nat order) by (apply Ho; cbn; lia). rewrite E in I. destruct I. }
  destruct (picked_find K labels pp order srt o flt Hd H2 Hs Ho Hthr Hn Hj Hf) as (m & Hm & Lm & Hm').
  exists m, (count_true (cl_mask labels pp K)). rewrite El, Ep. split; [exact Hm|]. split.
  - rewrite Hm'. f_equal. unfold order. rewrite <- Lm. symmetry. apply copies_pick.
  - rewrite !num_label_issues_eq; auto.
    + split; [reflexivity|]. f_equal. rewrite (picked_cl K labels pp order Hd Ho1 Hne Hthr). rewrite <- copies_count. f_equal.
      assert (LM : length (cl_mask labels pp K) = length labels).
      { unfold cl_mask. rewrite clear_where_length; rewrite mask_of_length; auto. rewrite reduce_length; auto. apply Hd. }
      unfold order. rewrite <- LM. symmetry. apply copies_pick.
    + now apply picked_dataset.
    + apply picked_two; auto. intros i Hi. now apply Ho.
Qed.
Lemma order_number K labels pp order srt : Permutation order (seq 0 (length labels)) -> dataset K labels pp -> two_classes labels -> argsort_ok srt ->
  num_label_issues srt (pick 0%nat order labels) (pick [] order pp) K = num_label_issues srt labels pp K /\
  exists cj idx idx', compute_confident_joint srt labels pp K None true = Ok (cj, idx) /\
    compute_confident_joint srt (pick 0%nat order labels) (pick [] order pp) K None true = Ok (cj, idx').
Proof.
  intros P Hd H2 Hs. pose proof (order_in _ _ P) as Hin.
  assert (Ho : forall i, In i order -> (i < length labels)%nat) by (intros i; apply Hin).
  assert (Hne : order <> []) by (intros ->; apply Permutation_nil in P; pose proof (ds_ne _ _ _ Hd); destruct labels; [congruence|discriminate]).
  pose proof (picked_dataset K labels pp order Hd Ho Hne) as Hd'.
  assert (H2' : two_classes (pick 0%nat order labels)) by (apply picked_two; auto; intros i Hi; now apply Hin).
  pose proof (order_thresholds K labels pp order Hd P) as T. split.
  - rewrite !num_label_issues_eq by auto. f_equal. rewrite (picked_cl K labels pp order Hd Ho Hne T).
    assert (LM : length (cl_mask labels pp K) = length labels).
    { unfold cl_mask. rewrite clear_where_length; rewrite mask_of_length; auto. rewrite reduce_length; auto. apply Hd. }
    apply count_true_order. transitivity (pick false (seq 0 (length (cl_mask labels pp K))) (cl_mask labels pp K)); [|now rewrite pick_seq].
    apply Permutation_map. now rewrite LM.
  - destruct (compute_cj_calibrated_ok srt K labels pp Hs Hd) as (zm & Hz). destruct (compute_cj_calibrated_ok srt K _ _ Hs Hd') as (zm' & Hz').
    rewrite Hz, Hz'. assert (zm' = zm) as ->; [|eauto].
    revert Hz Hz'. unfold compute_confident_joint. cbv zeta. rewrite (order_joint K labels pp order Hd P).
    unfold calibrate_confident_joint. assert (A : forall l p t, length (zmat_to_q (confident_joint_uncalibrated l p K t)) = K).
    { intros. unfold zmat_to_q, confident_joint_uncalibrated. rewrite map_length. apply tab_length. }
    rewrite !A, (order_counts K labels pp order Hd P). destruct (value_counts labels K); cbn [rbind]; [|discriminate].
    destruct (round_preserving_row_totals _ _); cbn [rbind]; [|discriminate]. congruence.
Qed.
