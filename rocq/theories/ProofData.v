(** * Proofs about the dataset held by a Datalab and what it prints *)
From Coq Require Import String QArith List ZArith Bool Arith Lia.
From Verif Require Import Base BaseFacts ModelLabels SpecLabels ProofLabels ModelDatalab SpecDatalab ProofDatalab ModelData SpecData.
Import ListNotations.
Open Scope string_scope.
Open Scope list_scope.

Lemma map_snd_combine {X Y} (f : nat -> X) (u : list Y) : forall s, map snd (combine (map f (seq s (length u))) u) = u.
Proof. induction u as [|y u IH]; intros s; cbn; [reflexivity|]. now rewrite IH. Qed.
Lemma to_z_names {A} (u : list A) : map snd (to_z (combine (seq 0 (length u)) u)) = u.
Proof.
  unfold to_z. rewrite map_map. cbn [snd]. rewrite <- (map_id (seq 0 (length u))). apply (map_snd_combine (fun x => x)).
Qed.

Section Format.
Context {A : Type} (leb : A -> A -> bool) (T : total_order leb).
Lemma unique_names l : sorted_names leb (np_unique leb l) /\ (forall x, In x (np_unique leb l) <-> In x l).
Proof.
  destruct (np_unique_spec leb T l) as (Hs & Hin). split; [|exact Hin].
  intros m n x y Hm Hn.
  assert (Lm : (m < length (np_unique leb l))%nat) by (apply nth_error_Some; congruence).
  assert (Ln : (n < length (np_unique leb l))%nat) by (apply nth_error_Some; congruence).
  rewrite (sorted_nth leb T _ x Hs m n Lm Ln).
  rewrite (nth_error_nth _ _ x Hm), (nth_error_nth _ _ x Hn). tauto.
Qed.
Lemma pos_nth l x : In x l -> nth_error (np_unique leb l) (pos_of leb (np_unique leb l) x) = Some x.
Proof.
  intros Hx. destruct (np_unique_spec leb T l) as (Hs & Hin).
  destruct (pos_spec leb T _ x x (sorted_NoDup leb T _ Hs) (proj2 (Hin x) Hx)) as (P1 & P2 & _).
  rewrite (nth_error_nth' _ x P1). congruence.
Qed.
Lemma format_labels_eq l : format_labels leb l =
  Ok (map (pos_of leb (np_unique leb l)) l, combine (seq 0 (length (np_unique leb l))) (np_unique leb l)).
Proof.
  set (u := np_unique leb l). destruct (np_unique_spec leb T l) as (Hs & Hin). fold u in Hs, Hin.
  unfold format_labels. fold u. rewrite (rmap_intro _ (pos_of leb u)).
  - cbn [rbind]. unfold label_map. now rewrite inverse_combine.
  - intros x Hx. apply (pos_spec leb T u x x (sorted_NoDup leb T _ Hs)). now apply Hin.
Qed.
Lemma format_multilabels_eq l : format_multilabels leb l =
  Ok (map (map (pos_of leb (np_unique leb (concat l)))) l,
      combine (seq 0 (length (np_unique leb (concat l)))) (np_unique leb (concat l))).
Proof.
  set (u := np_unique leb (concat l)). destruct (np_unique_spec leb T (concat l)) as (Hs & Hin). fold u in Hs, Hin.
  unfold format_multilabels. fold u. rewrite (rmap_intro _ (map (pos_of leb u))).
  - cbn [rbind]. unfold label_map. now rewrite inverse_combine.
  - intros ls Hls. apply rmap_intro. intros x Hx. apply (pos_spec leb T u x x (sorted_NoDup leb T _ Hs)).
    apply Hin, in_concat. now exists ls.
Qed.
End Format.

Lemma rmap_length_ {X Y} (f : X -> res Y) x : forall y, rmap f x = Ok y -> length x = length y.
Proof.
  induction x as [|z x IH]; intros y Ey; cbn [rmap] in Ey; [now injection Ey as <-|].
  destruct (f z); cbn [rbind] in Ey; [|discriminate]. destruct (rmap f x) as [y'|]; cbn [rbind] in Ey; [|discriminate].
  injection Ey as <-. cbn. f_equal. now apply IH.
Qed.
Lemma rmap2_lengths {X Y} (f : X -> res Y) c : forall r, rmap (rmap f) c = Ok r -> Forall2 (fun a b => length a = length b) c r.
Proof.
  induction c as [|x c IH]; intros r Er; cbn [rmap] in Er; [injection Er as <-; constructor|].
  destruct (rmap f x) as [y|] eqn:Ey; cbn [rbind] in Er; [|discriminate].
  destruct (rmap (rmap f) c) as [r'|] eqn:Ec; cbn [rbind] in Er; [|discriminate].
  injection Er as <-. constructor; [now apply (rmap_length_ f)|now apply IH].
Qed.

Section Data.
Context {A : Type} (leb : A -> A -> bool) (same : A -> A -> bool).
Variable fresh : nat.
Variable exists_path : string -> bool.
Variable extension : string -> string.
Variable hub : string -> option (loaded A).
Variable read_file : string -> string -> option (list (string * column A)).
Notation make := (make_data leb fresh exists_path extension hub read_file).

Lemma make_dataset ds t name : make (GivenDataset true ds) t name =
  (do lab <- make_label leb t ds name ; Ok (Data ds (identity ds) lab)).
Proof. reflexivity. Qed.

Lemma make_classification ds k l : total_order leb -> lookup k (columns ds) = Some (Plain l) -> length l = rows ds ->
  exists d zs, make (GivenDataset true ds) Classification (Some k) = Ok d /\ contents d = ds /\
    values (labels d) = SInts zs /\ Forall2 (stands_for (label_names (labels d))) l zs /\
    sorted_names leb (label_names (labels d)) /\ (forall x, In x (label_names (labels d)) <-> In x l) /\
    (is_available (labels d) = true <-> l <> []).
Proof.
  intros T Hk Hl. rewrite make_dataset. unfold make_label. rewrite Hk. cbn [extract].
  rewrite (format_labels_eq leb T). cbn [rbind fst snd]. cbn [col_length]. rewrite Hl, Nat.eqb_refl. cbn [negb rbind].
  set (u := np_unique leb l).
  exists (Data ds (identity ds) (Label (SInts (map Z.of_nat (map (pos_of leb u) l))) (to_z (combine (seq 0 (length u)) u)) (Some k))).
  exists (map Z.of_nat (map (pos_of leb u) l)).
  split; [reflexivity|]. split; [reflexivity|]. split; [reflexivity|]. unfold label_names. cbn [labels lmap]. rewrite to_z_names.
  split; [|split; [apply (unique_names leb T)|split; [apply (unique_names leb T)|]]].
  - rewrite map_map. apply Forall2_map_r. intros x Hx. split; [lia|]. rewrite Nat2Z.id. apply (pos_nth leb T l x Hx).
  - unfold is_available. cbn [values lmap stored_length]. rewrite !map_length. unfold to_z. rewrite map_length, combine_length, seq_length, Nat.min_id.
    rewrite negb_true_iff, orb_false_iff, !Nat.eqb_neq. split.
    + intros (H & _) ->. now apply H.
    + intros H. destruct l as [|x l]; [congruence|]. split; [discriminate|].
      intros E. destruct (unique_names leb T (x :: l)) as (_ & Hin). fold u in Hin.
      apply length_zero_iff_nil in E. specialize (proj2 (Hin x) (or_introl eq_refl)). rewrite E. easy.
Qed.

Lemma make_class_label ds k names codes : lookup k (columns ds) = Some (Classes names codes) -> length codes = rows ds ->
  exists d, make (GivenDataset true ds) Classification (Some k) = Ok d /\ contents d = ds /\
    values (labels d) = SInts codes /\ label_names (labels d) = names.
Proof.
  intros Hk Hl. rewrite make_dataset. unfold make_label. rewrite Hk. cbn [extract rbind fst snd col_length]. rewrite Hl, Nat.eqb_refl.
  cbn [negb rbind]. eexists. split; [reflexivity|]. split; [reflexivity|]. split; [reflexivity|].
  unfold label_names. cbn [labels lmap]. apply map_snd_combine.
Qed.

Lemma make_regression ds k l : lookup k (columns ds) = Some (Plain l) -> length l = rows ds ->
  exists d, make (GivenDataset true ds) Regression (Some k) = Ok d /\ contents d = ds /\
    values (labels d) = SRaw l /\ label_names (labels d) = [] /\ is_available (labels d) = false.
Proof.
  intros Hk Hl. rewrite make_dataset. unfold make_label. rewrite Hk. cbn [extract rbind fst snd col_length]. rewrite Hl, Nat.eqb_refl.
  cbn [negb rbind]. eexists. split; [reflexivity|]. split; [reflexivity|]. split; [reflexivity|]. split; [reflexivity|].
  unfold is_available. cbn. now rewrite orb_true_r.
Qed.

Lemma make_multilabel ds k l : total_order leb -> lookup k (columns ds) = Some (Nested l) -> length l = rows ds ->
  exists d ns, make (GivenDataset true ds) Multilabel (Some k) = Ok d /\ contents d = ds /\
    values (labels d) = SLists ns /\ Forall2 (Forall2 (fun x n => nth_error (label_names (labels d)) n = Some x)) l ns /\
    sorted_names leb (label_names (labels d)) /\
    (forall x, In x (label_names (labels d)) <-> exists ls, In ls l /\ In x ls).
Proof.
  intros T Hk Hl. rewrite make_dataset. unfold make_label. rewrite Hk. cbn [extract].
  rewrite (format_multilabels_eq leb T). cbn [rbind fst snd]. cbn [col_length]. rewrite Hl, Nat.eqb_refl. cbn [negb rbind].
  set (u := np_unique leb (concat l)). eexists _, _.
  split; [reflexivity|]. split; [reflexivity|]. split; [reflexivity|]. unfold label_names. cbn [labels lmap]. rewrite to_z_names.
  split; [|split; [apply (unique_names leb T)|]].
  - apply Forall2_map_r. intros ls Hls. apply Forall2_map_r. intros x Hx. apply (pos_nth leb T (concat l) x). apply in_concat. now exists ls.
  - intros x. unfold u. rewrite (proj2 (unique_names leb T (concat l)) x), in_concat. reflexivity.
Qed.

Lemma make_unlabelled ds t : exists d, make (GivenDataset true ds) t None = Ok d /\ contents d = ds /\
  label_names (labels d) = [] /\ is_available (labels d) = false.
Proof. eexists. split; [reflexivity|]. now split. Qed.

(** the format does not matter *)
Lemma make_label_columns t n n' c name : make_label leb t (Dataset n c) name = make_label leb t (Dataset n' c) name.
Proof. reflexivity. Qed.
Lemma make_formats i i' c t name : holds i c -> holds i' c ->
  match make i t name, make i' t name with
  | Ok d, Ok d' => columns (contents d) = c /\ columns (contents d') = c /\ labels d = labels d'
  | Raise e, Raise e' => e = e'
  | _, _ => False
  end.
Proof.
  assert (H : forall i, holds i c -> exists n, make i t name = (do lab <- make_label leb t (Dataset 0 c) name ; Ok (Data (Dataset n c) n lab))).
  { intros j [(n & ->)|[->|[->| ->]]]; [exists n|exists fresh|exists fresh|exists fresh]; reflexivity. }
  intros Hi Hi'. destruct (H i Hi) as (n & ->), (H i' Hi') as (n' & ->).
  destruct (make_label leb t (Dataset 0 c) name); cbn [rbind]; [|reflexivity]. now repeat split.
Qed.

Lemma make_refused i t name :
  (i = GivenSplits \/ i = GivenOther \/ i = GivenDict true None \/ i = GivenList true None -> make i t name = Raise ValueError) /\
  (subclass i -> make i t name = Raise KeyError) /\
  (forall s, i = GivenString true s -> exists_path s = false -> hub s = None -> make i t name = Raise ValueError) /\
  (forall s, i = GivenString true s -> exists_path s = false -> hub s = Some Splits -> make i t name = Raise TypeError) /\
  (forall s, i = GivenString true s -> exists_path s = true -> ~ In (extension s) [".txt"; ".csv"; ".json"] -> make i t name = Raise ValueError).
Proof.
  split; [intros [->|[->|[->| ->]]]; reflexivity|].
  split; [destruct i; cbn; intros H; try contradiction; subst; reflexivity|].
  split; [|split]; intros s ->; unfold make_data, load_data, load_string; cbn [validate_data rbind].
  - intros -> ->. reflexivity.
  - intros -> ->. reflexivity.
  - intros -> H. apply smem_false in H. cbn [negb]. now rewrite H.
Qed.
Lemma make_file s c t name : exists_path s = true -> In (extension s) [".txt"; ".csv"; ".json"] -> read_file (extension s) s = Some c ->
  make (GivenString true s) t name = make (GivenDict true (Some c)) t name.
Proof.
  intros He Hx Hr. unfold make_data, load_data, load_string. rewrite He. cbn [negb]. apply smem_iff in Hx. rewrite Hx. cbn [negb]. now rewrite Hr.
Qed.

Lemma make_identity i t name d : make i t name = Ok d -> hash d = identity (contents d).
Proof.
  unfold make_data. destruct (validate_data i); cbn [rbind]; [|discriminate].
  destruct (load_data _ _ _ _ _ i) as [l|]; cbn [rbind]; [|discriminate]. destruct l as [ds|]; [|discriminate].
  destruct (make_label leb t ds name); cbn [rbind]; [|discriminate]. now intros [= <-].
Qed.

Lemma all2_refl {X} (f : X -> X -> bool) l : (forall x, In x l -> f x x = true) -> all2 f l l = true.
Proof.
  induction l as [|x l IH]; cbn; intros H; [reflexivity|]. rewrite (H x (or_introl eq_refl)). apply IH. intros y Hy. apply H. now right.
Qed.
Lemma all2_length {X} (f : X -> X -> bool) a : forall b, all2 f a b = true -> length a = length b.
Proof.
  induction a as [|x a IH]; intros [|y b] H; try discriminate; [reflexivity|]. cbn in *. apply andb_true_iff in H as (_ & H). f_equal. now apply IH.
Qed.
Lemma rectangular_iff l : rectangular l = true <-> equal_lengths l.
Proof.
  unfold rectangular, equal_lengths. destruct l as [|r l]; [cbn; tauto|]. rewrite forallb_forall. split.
  - intros H. assert (G : forall x, In x (r :: l) -> length x = length r).
    { intros x [<-|Hx]; [reflexivity|]. apply Nat.eqb_eq. now apply H. }
    intros x y Hx Hy. now rewrite (G x Hx), (G y Hy).
  - intros H x Hx. apply Nat.eqb_eq. apply H; [now right|now left].
Qed.

(** equality *)
Lemma equal_same_object i i' t t' name name' a b : make i t name = Ok a -> make i' t' name' = Ok b ->
  data_equal same a b = true -> identity (contents a) = identity (contents b) /\ hash a = hash b /\ lname (labels a) = lname (labels b).
Proof.
  intros Ha Hb. unfold data_equal. rewrite andb_true_iff, Nat.eqb_eq. intros (H & L).
  rewrite <- (make_identity _ _ _ _ Ha), <- (make_identity _ _ _ _ Hb). split; [exact H|]. split; [exact H|].
  unfold label_equal in L. rewrite !andb_true_iff in L. destruct L as ((_ & L) & _).
  destruct (lname (labels a)) as [x|], (lname (labels b)) as [y|]; cbn in L; try discriminate; [|reflexivity].
  apply String.eqb_eq in L. now subst.
Qed.

Lemma all2_eq {X} (f : X -> X -> bool) : (forall x y, f x y = true -> x = y) -> forall a b, all2 f a b = true -> a = b.
Proof.
  intros H. induction a as [|x a IH]; intros [|y b] E; cbn in E; try discriminate; [reflexivity|].
  apply andb_true_iff in E. destruct E as (E1 & E2). rewrite (H x y E1), (IH b E2). reflexivity.
Qed.
Lemma label_equal_values a b : (forall x y, same x y = true -> x = y) -> label_equal same a b = true ->
  lmap a = lmap b /\ (values a = values b \/ stored_length (values a) = 0 /\ stored_length (values b) = 0).
Proof.
  intros Hs E. unfold label_equal in E. rewrite !andb_true_iff in E. destruct E as ((E1 & _) & E3). split.
  - revert E3. apply all2_eq. intros [x1 x2] [y1 y2] E. cbn in E. apply andb_true_iff in E. destruct E as (EA & EB).
    apply Z.eqb_eq in EA. apply Hs in EB. congruence.
  - unfold array_equal in E1. destruct (values a) as [x|x|x], (values b) as [y|y|y];
      try (right; apply andb_true_iff in E1; destruct E1 as (EA & EB); apply Nat.eqb_eq in EA; apply Nat.eqb_eq in EB; split; assumption); left; f_equal.
    + revert E1. apply all2_eq. intros u v. apply Z.eqb_eq.
    + revert E1. apply all2_eq. exact Hs.
    + apply andb_true_iff in E1. destruct E1 as (_ & E1). revert E1. apply all2_eq. apply all2_eq. intros u v. apply Nat.eqb_eq.
Qed.
Lemma equal_labels a b : (forall x y, same x y = true -> x = y) -> data_equal same a b = true ->
  lmap (labels a) = lmap (labels b) /\ (values (labels a) = values (labels b) \/ stored_length (values (labels a)) = 0 /\ stored_length (values (labels b)) = 0).
Proof. intros Hs E. unfold data_equal in E. apply andb_true_iff in E. exact (label_equal_values _ _ Hs (proj2 E)). Qed.
Lemma label_equal_refl lab : (forall x, same x x = true) -> (forall l, values lab = SLists l -> equal_lengths l) -> label_equal same lab lab = true.
Proof.
  intros R H. unfold label_equal. rewrite !andb_true_iff. split; [split|].
  - unfold array_equal. destruct (values lab) as [l|l|l].
    + apply all2_refl. intros; apply Z.eqb_refl.
    + apply all2_refl. auto.
    + rewrite (proj2 (rectangular_iff l)) by (now apply H). cbn. apply all2_refl. intros x _. apply all2_refl. intros; apply Nat.eqb_refl.
  - destruct (lname lab); cbn; [apply String.eqb_refl|reflexivity].
  - apply all2_refl. intros x _. now rewrite Z.eqb_refl, R.
Qed.
Lemma equal_again ds t name a b : (forall x, same x x = true) ->
  (forall k l, t = Multilabel -> name = Some k -> lookup k (columns ds) = Some (Nested l) -> equal_lengths l) ->
  make (GivenDataset true ds) t name = Ok a -> make (GivenDataset true ds) t name = Ok b -> data_equal same a b = true.
Proof.
  intros R H Ha Hb. assert (b = a) as -> by congruence. clear Hb. unfold data_equal. rewrite Nat.eqb_refl. cbn [andb].
  apply label_equal_refl; [exact R|]. rewrite make_dataset in Ha.
  destruct (make_label leb t ds name) as [lab|] eqn:E; cbn [rbind] in Ha; [|discriminate]. injection Ha as <-. cbn [labels].
  intros l Hv. unfold make_label in E. destruct name as [k|]; [|injection E as <-; discriminate].
  destruct (lookup k (columns ds)) as [c|] eqn:Ek; [|discriminate].
  destruct (extract leb t c) as [[s m]|] eqn:Ex; cbn [rbind] in E; [|discriminate].
  destruct (negb _); [discriminate|]. injection E as <-. cbn in Hv. subst s.
  destruct t, c as [c|ns cs|c]; cbn [extract] in Ex; try discriminate Ex.
  - destruct (format_labels leb c); cbn [rbind] in Ex; discriminate.
  - destruct (Nat.eqb _ 0); discriminate.
  - destruct (Nat.eqb _ 0); discriminate.
  - destruct (Nat.eqb _ 0); [|discriminate]. injection Ex as <- <-. intros x y [].
  - destruct (Nat.eqb _ 0); [|discriminate]. injection Ex as <- <-. intros x y [].
  - specialize (H k c eq_refl eq_refl Ek). unfold format_multilabels in Ex.
    set (f := dict_get leb _) in Ex. destruct (rmap (rmap f) c) as [r|] eqn:Er; cbn [rbind fst snd] in Ex; [|discriminate]. injection Ex as <- <-.
    pose proof (rmap2_lengths f c r Er) as L.
    intros x y Hx Hy.
    assert (G : forall y, In y r -> exists z, In z c /\ length z = length y).
    { clear - L. induction L as [|a b c r Hab _ IH]; intros y Hy; [destruct Hy|]. destruct Hy as [<-|Hy]; [exists a; split; [now left|exact Hab]|].
      destruct (IH y Hy) as (z & Hz & E). exists z. split; [now right|exact E]. }
    destruct (G x Hx) as (x' & Hx' & <-), (G y Hy) as (y' & Hy' & <-). now apply H.
Qed.
End Data.

Lemma copy_not_equal {A} (leb same : A -> A -> bool) fresh fresh' exists_path extension hub read_file c t name a b : fresh <> fresh' ->
  make_data leb fresh exists_path extension hub read_file (GivenDict true (Some c)) t name = Ok a ->
  make_data leb fresh' exists_path extension hub read_file (GivenDict true (Some c)) t name = Ok b -> data_equal same a b = false.
Proof.
  intros N Ha Hb. unfold make_data in Ha, Hb. cbn [validate_data load_data rbind] in Ha, Hb.
  destruct (make_label leb t (Dataset fresh c) name); cbn [rbind] in Ha; [|discriminate].
  destruct (make_label leb t (Dataset fresh' c) name); cbn [rbind] in Hb; [|discriminate].
  injection Ha as <-. injection Hb as <-. unfold data_equal. cbn [hash identity]. apply Nat.eqb_neq in N. now rewrite N.
Qed.

(** ** what is printed *)
Section Display.
Context {V : Type}.
Lemma nsum_rows (f : frame) (l : list row) : (forall r, In r l -> r_num r = flagged (r_type r) f) ->
  nsum (map r_num l) = nsum (map (fun t => flagged t f) (map r_type l)).
Proof.
  induction l as [|r l IH]; cbn; intros H; [reflexivity|]. rewrite (H r (or_introl eq_refl)). f_equal. apply IH. intros r' Hr'. apply H. now right.
Qed.

Lemma audit_display n (stats : list (string * V)) history (show : nat -> string) : (0 < n)%nat ->
  let log := all_outcomes (init_issues n stats) history in
  let st := audit n stats history in
  well_formed_log n log ->
  (checks_run st = true <-> exists t out, In (t, Some out) log) /\
  (checks_run st = false -> issues_identified show st = "Not checked") /\
  (checks_run st = true -> exists types, NoDup types /\ (forall t, In t types <-> exists out, In (t, Some out) log) /\
     issues_identified show st = show (nsum (map (fun t => flagged t (issues st)) types))).
Proof.
  intros Hn log st W.
  pose proof (audit_one_row n stats history W) as (R1 & R2 & R3). fold st in R1, R2, R3.
  assert (T : forall t, (exists out, In (t, Some out) log) <-> In t (map r_type (issue_summary st))).
  { intros t. pose proof (audit_latest n stats history t W) as L. cbv zeta in L. fold log st in L. split.
    - intros (out & Hin).
      destruct (lastf t log) as [o|] eqn:E.
      + specialize (L (Some o)). pose proof (lastf_latest t log) as LL. rewrite E in LL. specialize (L LL).
        destruct L as (fl & sc & _ & L & _). unfold get_issue_summary in L.
        destruct (issue_summary st) as [|r0 rs] eqn:Es; [discriminate|].
        destruct (filter (fun r => String.eqb (r_type r) t) (r0 :: rs)) as [|x xs] eqn:Ef; [discriminate|].
        assert (Hx : In x (filter (fun r => String.eqb (r_type r) t) (r0 :: rs))) by (rewrite Ef; now left).
        apply filter_In in Hx as (Hx & Ht). apply String.eqb_eq in Ht. subst t. now apply in_map.
      + pose proof (lastf_latest t log) as LL. rewrite E in LL. cbn in LL. now elim (LL out).
    - intros Hin. destruct (lastf t log) as [o|] eqn:E; [exists o; now apply lastf_in|].
      pose proof (lastf_latest t log) as LL. rewrite E in LL. specialize (L None LL). cbn in L. destruct L as (L & _).
      exfalso. unfold get_issue_summary in L. apply in_map_iff in Hin as (r & Hr & Hin).
      destruct (issue_summary st) as [|r0 rs] eqn:Es; [destruct Hin|].
      destruct (filter (fun r => String.eqb (r_type r) t) (r0 :: rs)) as [|x xs] eqn:Ef; [|discriminate].
      assert (Hx : In r (filter (fun r => String.eqb (r_type r) t) (r0 :: rs))) by (apply filter_In; split; [exact Hin|now apply String.eqb_eq]).
      rewrite Ef in Hx. destruct Hx. }
  assert (C : checks_run st = true <-> exists t out, In (t, Some out) log).
  { unfold checks_run. rewrite R1. rewrite negb_true_iff, orb_false_iff, !Nat.eqb_neq. split.
    - intros (_ & H). destruct (issues st) as [|c cs] eqn:E; [now elim H|].
      destruct (audit_named n stats history W) as (_ & N). fold st log in N.
      destruct (N (fst c)) as (t & out & Hin & _); [rewrite E; now left|]. now exists t, out.
    - intros (t & out & Hin). split; [lia|]. intros E. apply length_zero_iff_nil in E.
      assert (Ht : In t (map r_type (issue_summary st))) by (apply T; now exists out).
      apply in_map_iff in Ht as (r & _ & Hr). destruct (R3 r Hr) as (fl & Hf & _). rewrite E in Hf. discriminate. }
  split; [exact C|]. unfold issues_identified. split; [now intros ->|].
  intros H. rewrite H. exists (map r_type (issue_summary st)). split; [exact R2|]. split; [intros t; symmetry; apply T|].
  f_equal. apply nsum_rows. intros r Hr. destruct (R3 r Hr) as (fl & Hf & _ & E). unfold flagged. rewrite Hf, E, map_map.
  now rewrite map_id.
Qed.

Lemma append_assoc_ (a b c : string) : ((a ++ b) ++ c = a ++ (b ++ c))%string.
Proof. induction a as [|x a IH]; cbn; [reflexivity|]. now rewrite IH. Qed.
Lemma represent_text (show : nat -> string) num t (st : data_issues V) :
  let number k := match num k (statistics st) with Some n => (", " ++ k ++ "=" ++ show n)%string | None => ""%string end in
  represent show num t st =
  ("Datalab(task=" ++ task_name t ++ ", checks_run=" ++ (if checks_run st then "True" else "False") ++ number "num_examples" ++
   match t with Regression => "" | _ => number "num_classes" end ++ ", issues_identified=" ++ issues_identified show st ++ ")")%string.
Proof.
  unfold represent, show_number, line.
  destruct t, (num "num_examples" (statistics st)), (num "num_classes" (statistics st)), (checks_run st);
    cbn [task_name filter app String.eqb Ascii.eqb Bool.eqb negb append String.concat]; repeat (rewrite append_assoc_; cbn [append]); reflexivity.
Qed.
Lemma audit_printed n (stats : list (string * V)) history (show : nat -> string) num t : (0 < n)%nat ->
  let log := all_outcomes (init_issues n stats) history in
  let st := audit n stats history in
  well_formed_log n log ->
  let number k := match num k (statistics st) with Some n => show n | None => "Unknown" end in
  let nl := String (Ascii.ascii_of_nat 10) "" in
  exists yes count, to_string show num t st =
    ("Datalab:" ++ nl ++ "Task: " ++ task_name t ++ nl ++ "Checks run: " ++ yes ++ nl ++ "Number of examples: " ++ number "num_examples" ++ nl
     ++ "Number of classes: " ++ number "num_classes" ++ nl ++ "Issues identified: " ++ count)%string /\
    ((yes = "No" /\ count = "Not checked" /\ ~ exists t out, In (t, Some out) log) \/
     (yes = "Yes" /\ exists types, types <> [] /\ NoDup types /\ (forall t, In t types <-> exists out, In (t, Some out) log) /\
        count = show (nsum (map (fun t => flagged t (issues st)) types)))).
Proof.
  intros Hn log st W number nl. destruct (audit_display n stats history show Hn W) as (D1 & D2 & D3). fold log st in D1, D2, D3.
  exists (if checks_run st then "Yes" else "No"), (issues_identified show st). split.
  - unfold to_string, line, or_unknown, newline, number, nl. cbn [String.concat]. repeat rewrite append_assoc_. reflexivity.
  - destruct (checks_run st) eqn:E.
    + right. split; [reflexivity|]. destruct (D3 eq_refl) as (types & N & H & C). exists types. split; [|now split].
      destruct (proj1 D1 eq_refl) as (t0 & out & Hin). intros ->. apply (proj2 (H t0)). now exists out.
    + left. split; [reflexivity|]. split; [now apply D2|]. intros H. apply D1 in H. discriminate.
Qed.
End Display.
