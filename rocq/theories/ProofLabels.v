(** * Proofs about the label format conversions *)
From Coq Require Import List Bool Arith Sorted Lia.
From Verif Require Import Base BaseFacts ModelLabels SpecLabels ProofUtil ProofRank.
Import ListNotations.

(** ** C23 *)
Lemma fold_set_row : forall ls row, length (fold_left (fun row k => upd row k 1) ls row) = length row /\
  forall k, k < length row ->
  nth k (fold_left (fun row k => upd row k 1) ls row) 0 = if mem k ls then 1 else nth k row 0.
Proof.
  induction ls as [|j ls IH]; intros row; simpl; auto.
  destruct (IH (upd row j 1)) as (L & N). rewrite upd_length in *. split; auto.
  intros k Hk. rewrite N by auto. destruct (mem k ls) eqn:E; [rewrite orb_true_r; auto|]. rewrite orb_false_r.
  destruct (Nat.eqb_spec k j) as [->|Hn].
  - apply nth_upd_eq. auto.
  - apply nth_upd_neq. auto.
Qed.
Lemma onehot_row K ls : length (int2onehot_row K ls) = K /\
  forall k, k < K -> nth k (int2onehot_row K ls) 0 = if mem k ls then 1 else 0.
Proof.
  unfold int2onehot_row. destruct (fold_set_row ls (repeat 0 K)) as (L & N). rewrite repeat_length in *. split; auto.
  intros k Hk. rewrite N by auto. rewrite nth_repeat. reflexivity.
Qed.
Lemma where_row row k : In k (where_ (map (fun x => negb (Nat.eqb x 0)) row)) <-> k < length row /\ nth k row 0 <> 0.
Proof.
  rewrite in_where. destruct (Nat.lt_ge_cases k (length row)) as [H|H].
  - rewrite (nth_map_gen _ _ _ _ 0) by auto. destruct (Nat.eqb_spec (nth k row 0) 0); simpl; intuition congruence.
  - rewrite nth_overflow by (rewrite map_length; auto). split; [discriminate|lia].
Qed.

Lemma C23_lists_full : forall K labels i, i < length labels ->
  length (onehot2int (int2onehot labels K)) = length labels /\
  StronglySorted lt (nth i (onehot2int (int2onehot labels K)) []) /\
  forall k, In k (nth i (onehot2int (int2onehot labels K)) []) <-> In k (nth i labels []) /\ k < K.
Proof.
  intros K labels i Hi. unfold onehot2int, int2onehot. rewrite map_map. split; [apply map_length|].
  rewrite (nth_map_gen _ _ _ _ []) by auto. split; [apply where_sorted|].
  intros k. rewrite where_row. destruct (onehot_row K (nth i labels [])) as (L & N). rewrite L.
  destruct (Nat.lt_ge_cases k K) as [H|H]; [|lia]. rewrite N by auto.
  destruct (mem k (nth i labels [])) eqn:E; [apply mem_iff in E|apply mem_false in E]; intuition.
Qed.
Lemma C23_matrix_full : forall K m, binary_matrix K m -> int2onehot (onehot2int m) K = m.
Proof.
  intros K m H. unfold onehot2int, int2onehot. rewrite map_map. rewrite <- (map_id m) at 2. apply map_ext_in.
  intros row Hr. destruct (H row Hr) as (L & B).
  destruct (onehot_row K (where_ (map (fun x => negb (Nat.eqb x 0)) row))) as (L' & N).
  apply list_eq_nth with (d := 0); [congruence|]. intros k Hk. rewrite L' in Hk. rewrite N by auto.
  destruct (mem k _) eqn:E.
  - apply mem_iff, where_row in E as (H1 & H2). destruct (B (nth k row 0)) as [C|C]; [apply nth_In; auto| |]; congruence.
  - apply mem_false in E. rewrite where_row in E. destruct (Nat.eq_dec (nth k row 0) 0); auto. exfalso. apply E. split; auto. congruence.
Qed.

(** ** C24 *)
Section Format.
Context {A : Type} (leb : A -> A -> bool) (T : total_order leb).
Let lt_ (x y : A) : Prop := leb y x = false.

Lemma leb_refl x : leb x x = true.
Proof. destruct (to_total _ T x x); auto. Qed.
Lemma lt_trans_ x y z : lt_ x y -> lt_ y z -> lt_ x z.
Proof.
  unfold lt_. intros H1 H2. destruct (leb z x) eqn:E; auto.
  destruct (to_total _ T x y) as [H|H]; [|congruence]. rewrite (to_trans _ T _ _ _ E H) in H2. discriminate.
Qed.
Lemma insert_unique_spec x : forall l, StronglySorted lt_ l ->
  StronglySorted lt_ (insert_unique leb x l) /\ forall y, In y (insert_unique leb x l) <-> y = x \/ In y l.
Proof.
  induction l as [|y t IH]; intros Hs.
  - simpl. split; [repeat constructor|]. intuition.
  - apply StronglySorted_inv in Hs as (Hs & Hf). cbn [insert_unique].
    destruct (leb x y) eqn:E1; [destruct (leb y x) eqn:E2|].
    + assert (x = y) by (apply (to_antisym _ T); auto). subst y. split; [constructor; auto|]. simpl. intuition.
    + split; [|simpl; intuition]. constructor; [constructor; auto|]. constructor; [exact E2|].
      rewrite Forall_forall in Hf |- *. intros z Hz. apply lt_trans_ with y; auto.
    + destruct (IH Hs) as (IH1 & IH2). split.
      * constructor; auto. rewrite Forall_forall in Hf |- *. intros z Hz. apply IH2 in Hz as [->|Hz]; auto.
      * intros z. simpl. rewrite IH2. intuition.
Qed.
Lemma np_unique_spec l : StronglySorted lt_ (np_unique leb l) /\ forall y, In y (np_unique leb l) <-> In y l.
Proof.
  induction l as [|x l (IH1 & IH2)]; simpl; [split; [constructor|tauto]|].
  destruct (insert_unique_spec x _ IH1) as (H1 & H2). split; auto. intros y. rewrite H2, IH2. intuition.
Qed.
Lemma sorted_nth u d : StronglySorted lt_ u -> forall i j, i < length u -> j < length u ->
  (i <= j <-> leb (nth i u d) (nth j u d) = true).
Proof.
  intros H. assert (G : forall i j, i < j -> j < length u -> lt_ (nth i u d) (nth j u d)).
  { induction H as [|y t Hs IH Hf]; simpl; [lia|]. rewrite Forall_forall in Hf. intros [|i] [|j] Hij Hj; try lia.
    - apply Hf, nth_In. lia.
    - apply IH; lia. }
  intros i j Hi Hj. split.
  - intros Hle. destruct (Nat.eq_dec i j) as [->|Hn]; [apply leb_refl|].
    specialize (G i j ltac:(lia) Hj). unfold lt_ in G. destruct (to_total _ T (nth i u d) (nth j u d)); congruence.
  - intros Hle. destruct (Nat.le_gt_cases i j); auto. specialize (G j i H0 Hi). unfold lt_ in G. congruence.
Qed.
Lemma sorted_NoDup u : StronglySorted lt_ u -> NoDup u.
Proof.
  induction 1 as [|y t Hs IH Hf]; constructor; auto. rewrite Forall_forall in Hf. intros Hin. specialize (Hf y Hin).
  unfold lt_ in Hf. rewrite leb_refl in Hf. discriminate.
Qed.
Lemma key_eqb_iff x y : key_eqb leb x y = true <-> x = y.
Proof.
  unfold key_eqb. rewrite andb_true_iff. split; [intros (H1 & H2); apply (to_antisym _ T); auto|intros ->; auto using leb_refl].
Qed.
Lemma dict_get_spec u : NoDup u -> forall s x d, In x u -> exists i, i < length u /\ nth i u d = x /\
  dict_get leb (combine u (seq s (length u))) x = Ok (s + i).
Proof.
  induction 1 as [|y u Hn Hd IH]; intros s x d Hin; [destruct Hin|]. cbn [length seq combine dict_get].
  destruct (key_eqb leb x y) eqn:E.
  - apply key_eqb_iff in E as ->. exists 0. split; [simpl; lia|]. split; [reflexivity|]. f_equal. lia.
  - assert (x <> y) as Hxy by (intros C; apply key_eqb_iff in C; congruence).
    destruct Hin as [->|Hin]; [congruence|]. destruct (IH (S s) x d Hin) as (i & H1 & H2 & H3).
    exists (S i). split; [simpl; lia|]. split; [exact H2|]. rewrite H3. f_equal. lia.
Qed.
Lemma inv_get_combine (u : list A) d : forall s i, i < length u -> inv_get (combine (seq s (length u)) u) (s + i) = Some (nth i u d).
Proof.
  induction u as [|y u IH]; intros s i Hi; simpl in Hi; [lia|]. cbn [length seq combine inv_get].
  destruct i as [|i].
  - rewrite Nat.add_0_r, Nat.eqb_refl. reflexivity.
  - destruct (Nat.eqb_spec (s + S i) s); [lia|]. replace (s + S i) with (S s + i) by lia. rewrite IH by lia. reflexivity.
Qed.
Lemma inverse_combine (u : list A) : forall s, inverse_map (combine u s) = combine s u.
Proof. unfold inverse_map. induction u; intros [|i s]; simpl; auto. f_equal. auto. Qed.
Lemma rmap_intro {X Y} (f : X -> res Y) (g : X -> Y) l : (forall x, In x l -> f x = Ok (g x)) -> rmap f l = Ok (map g l).
Proof. induction l as [|x l IH]; simpl; intros H; auto. rewrite H by auto. cbn [rbind]. rewrite IH by (intros; apply H; auto). reflexivity. Qed.

Lemma Forall2_map_r {X Y} (R : X -> Y -> Prop) (g : X -> Y) l : (forall x, In x l -> R x (g x)) -> Forall2 R l (map g l).
Proof. induction l; simpl; intros H; constructor; auto. Qed.

(** position of a label in the sorted distinct labels *)
Definition pos_of (u : list A) (x : A) : nat := match dict_get leb (combine u (seq 0 (length u))) x with Ok i => i | Raise _ => 0 end.
Lemma pos_spec u x d : NoDup u -> In x u -> pos_of u x < length u /\ nth (pos_of u x) u d = x /\
  dict_get leb (label_map u) x = Ok (pos_of u x).
Proof.
  intros Hd Hin. destruct (dict_get_spec u Hd 0 x d Hin) as (i & H1 & H2 & H3). unfold pos_of, label_map. rewrite H3. simpl. auto.
Qed.

Lemma C24_full : forall labels,
  exists f inv names, format_labels leb labels = Ok (f, inv) /\ class_names inv names /\
    (forall x, In x names <-> In x labels) /\ length f = length labels /\
    (forall k, k < length names <-> In k f) /\
    (forall i x, nth_error labels i = Some x -> exists k, nth_error f i = Some k /\ inv_get inv k = Some x) /\
    (forall i j x y k l, nth_error labels i = Some x -> nth_error labels j = Some y ->
       nth_error f i = Some k -> nth_error f j = Some l ->
       (k <= l <-> leb x y = true) /\ (k = l <-> x = y)).
Proof.
  intros labels. set (u := np_unique leb labels). destruct (np_unique_spec labels) as (Hs & Hin). fold u in Hs, Hin.
  pose proof (sorted_NoDup u Hs) as Hd.
  exists (map (pos_of u) labels), (combine (seq 0 (length u)) u), u. split.
  { unfold format_labels. fold u. rewrite (rmap_intro _ (pos_of u)).
    - cbn [rbind]. unfold label_map. rewrite inverse_combine. reflexivity.
    - intros x Hx. apply (pos_spec u x x Hd). apply Hin. auto. }
  split; [split; auto|]. split; auto. split; [apply map_length|]. split; [|split].
  - intros k. rewrite in_map_iff. split.
    + intros Hk. destruct u as [|d0 u0] eqn:Eu; [simpl in Hk; lia|]. rewrite <- Eu in *.
      exists (nth k u d0). assert (In (nth k u d0) u) as Hi by (apply nth_In; auto). split; [|apply Hin; auto].
      destruct (pos_spec u (nth k u d0) d0 Hd Hi) as (P1 & P2 & _). apply (proj1 (NoDup_nth u d0) Hd); auto.
    + intros (x & <- & Hx). apply (pos_spec u x x Hd). apply Hin. auto.
  - intros i x Hx. exists (pos_of u x). split; [apply map_nth_error; auto|].
    destruct (pos_spec u x x Hd) as (P1 & P2 & _); [apply Hin; eapply nth_error_In; eauto|].
    pose proof (inv_get_combine u x 0 (pos_of u x) P1) as G. simpl in G. rewrite G, P2. reflexivity.
  - intros i j x y k l Hx Hy Hk Hl. rewrite (map_nth_error _ _ _ Hx) in Hk. rewrite (map_nth_error _ _ _ Hy) in Hl.
    injection Hk as <-. injection Hl as <-.
    destruct (pos_spec u x x Hd) as (P1 & P2 & _); [apply Hin; eapply nth_error_In; eauto|].
    destruct (pos_spec u y x Hd) as (Q1 & Q2 & _); [apply Hin; eapply nth_error_In; eauto|].
    split; [rewrite (sorted_nth u x Hs) by auto; rewrite P2, Q2; tauto|].
    split; [intros E; rewrite <- P2, E; auto|intros ->; auto].
Qed.
Lemma C24_multi_full : forall labels,
  exists f inv names, format_multilabels leb labels = Ok (f, inv) /\ class_names inv names /\
    (forall x, In x names <-> exists ls, In ls labels /\ In x ls) /\
    Forall2 (Forall2 (fun x k => inv_get inv k = Some x)) labels f /\
    (forall k, k < length names <-> In k (concat f)) /\
    (forall x y k l, In x names -> In y names -> inv_get inv k = Some x -> inv_get inv l = Some y -> k < length names -> l < length names ->
       (k <= l <-> leb x y = true)).
Proof.
  intros labels. set (u := np_unique leb (concat labels)). destruct (np_unique_spec (concat labels)) as (Hs & Hin). fold u in Hs, Hin.
  pose proof (sorted_NoDup u Hs) as Hd.
  exists (map (map (pos_of u)) labels), (combine (seq 0 (length u)) u), u.
  assert (Hin' : forall ls x, In ls labels -> In x ls -> In x u) by (intros; apply Hin, in_concat; eauto).
  split.
  { unfold format_multilabels. fold u. rewrite (rmap_intro _ (map (pos_of u))).
    - cbn [rbind]. unfold label_map. rewrite inverse_combine. reflexivity.
    - intros ls Hls. apply rmap_intro. intros x Hx. apply (pos_spec u x x Hd). eauto. }
  split; [split; auto|]. split; [|split; [|split]].
  - intros x. rewrite Hin, in_concat. reflexivity.
  - apply Forall2_map_r. intros ls Hls. apply Forall2_map_r. intros x Hx.
    destruct (pos_spec u x x Hd) as (P1 & P2 & _); [eauto|].
    pose proof (inv_get_combine u x 0 (pos_of u x) P1) as G. simpl in G. rewrite G, P2. reflexivity.
  - intros k. rewrite <- concat_map, in_map_iff. split.
    + intros Hk. destruct u as [|d0 u0] eqn:Eu; [simpl in Hk; lia|]. rewrite <- Eu in *.
      exists (nth k u d0). assert (In (nth k u d0) u) as Hi by (apply nth_In; auto). split; [|apply Hin; auto].
      destruct (pos_spec u (nth k u d0) d0 Hd Hi) as (P1 & P2 & _). apply (proj1 (NoDup_nth u d0) Hd); auto.
    + intros (x & <- & Hx). apply (pos_spec u x x Hd). apply Hin. auto.
  - intros x y k l Hx Hy Hk Hl Lk Ll.
    pose proof (inv_get_combine u x 0 k Lk) as G1. pose proof (inv_get_combine u x 0 l Ll) as G2. simpl in G1, G2.
    rewrite (sorted_nth u x Hs) by auto.
    assert (nth k u x = x) as -> by congruence. assert (nth l u x = y) as -> by congruence. reflexivity.
Qed.
End Format.

Lemma nat_order : total_order Nat.leb.
Proof. split; intros; rewrite ?Nat.leb_le in *; lia. Qed.
