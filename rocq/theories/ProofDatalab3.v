(** * Proofs: unchanged arguments, default checks, files, image checks, spurious correlations *)
From Coq Require Import String QArith Lqa List Bool Arith Lia Permutation.
From Verif Require Import Base BaseFacts ModelChecks ModelDatalab SpecDatalab ProofUtil ProofCount ProofDatalab ProofDatalab2.
Import ListNotations.
Open Scope string_scope.
Open Scope list_scope.

Section Unchanged.
Context {V : Type}.
Implicit Types (pp f g : option V) (h : heap V).
Lemma heap_after t hl pp f g h types : fst (checks_to_run t hl pp f g h types) =
  match types with Some ts => fold_left (step t pp f g) ts h | None => h end.
Proof.
  unfold checks_to_run, get_available_issue_types, set_issue_types. destruct types as [[|e ts]|]; try reflexivity.
  cbn [fst]. now rewrite check_missing_step.
Qed.
Lemma heap_unchanged t hl pp f g h types :
  (types = None \/ exists ts, types = Some ts /\ forall name r k, In (name, r) ts -> takes t name k ->
     input t pp f g k <> None -> In k (keys (deref h r))) ->
  fst (checks_to_run t hl pp f g h types) = h.
Proof.
  rewrite heap_after. intros [->|(ts & -> & H)]; [reflexivity|]. apply steps_id. intros name r Hi k Hk.
  unfold keys in Hk. apply in_map_iff in Hk as ([k' v] & <- & Hk). apply req_in in Hk as (H1 & -> & H2).
  exact (H name r _ Hi H1 H2).
Qed.
Lemma heap_keeps t hl pp f g h types r k v : lookup k (deref h r) = Some v ->
  lookup k (deref (fst (checks_to_run t hl pp f g h types)) r) = Some v.
Proof. rewrite heap_after. destruct types; [apply steps_keep|auto]. Qed.
Lemma heap_size t hl pp f g h types : length (fst (checks_to_run t hl pp f g h types)) = length h.
Proof. rewrite heap_after. destruct types; [apply steps_length|auto]. Qed.
(** a nested dictionary that lacks an input of the call gains it, and keeps it in the following call *)
Lemma heap_stale t hl pp f g pp' f' g' h ts name r k v :
  NoDup (keys ts) -> NoDup (map snd ts) ->
  (forall e, In e ts -> (snd e < length h)%nat /\ NoDup (keys (deref h (snd e)))) ->
  (forall e, In e ts -> In (fst e) (registry t)) ->
  In (name, r) ts -> takes t name k -> input t pp f g k = Some v -> ~ In k (keys (deref h r)) ->
  let h' := fst (checks_to_run t hl pp f g h (Some ts)) in
  h' <> h /\ exists l, snd (checks_to_run t hl pp' f' g' h' (Some ts)) = Ok l /\
    forall a, In (name, a) l -> value_of k a = Some v.
Proof.
  intros Hn Hr Hb Hg Hi Ht Hv Hk. cbv zeta.
  assert (Hb' : forall e, In e ts -> (snd e < length h)%nat) by (intros e He; now destruct (Hb e He)).
  set (h' := fst (checks_to_run t hl pp f g h (Some ts))).
  assert (Hat : forall nm r', In (nm, r') ts -> deref h' r' = dict_update (deref h r') (missing t pp f g nm (deref h r'))).
  { intros nm r' H'. unfold h'. rewrite heap_after. now apply steps_at. }
  assert (Hl : lookup k (deref h' r) = Some (Some v)).
  { rewrite (Hat _ _ Hi), updated_lookup. rewrite (proj2 (lookup_none _ _) Hk).
    apply lookup_NoDup; [apply req_NoDup|]. apply req_in. rewrite Hv. repeat split; auto. discriminate. }
  split.
  - intros E. rewrite E in Hl. apply lookup_in in Hl. apply Hk. change k with (fst (k, Some v)). now apply in_map.
  - destruct (explicit_checks t hl pp' f' g' h' ts Hn Hr) as (l & El & Nl & Hval & _).
    + intros [nm r'] He. split; [unfold h'; rewrite heap_size; exact (Hb' _ He)|]. cbn [snd].
      rewrite (Hat _ _ He). apply NoDup_dict_update. exact (proj2 (Hb _ He)).
    + exact Hg.
    + exists l. split; [exact El|]. intros a Ha. destruct (Hval _ _ Ha) as (r' & Hr' & _ & Hv').
      assert (r' = r) by (apply (lookup_NoDup _ _ _ Hn) in Hr'; apply (lookup_NoDup _ _ _ Hn) in Hi; congruence). subst r'.
      destruct (Hv' k) as (H1 & _). rewrite H1.
      * unfold value_of. now rewrite Hl.
      * apply lookup_in in Hl. change k with (fst (k, Some v)). now apply in_map.
Qed.

(** ** default checks *)
Ltac names := cbn; repeat (constructor; [cbn; intuition discriminate|]); constructor.
Lemma default_checks t hl pp f g h : exists l, checks_to_run t hl pp f g h None = (h, Ok l) /\ NoDup (keys l) /\
  forall name, In name (keys l) <-> usable t pp f g name /\ (needs_labels t name -> hl = true).
Proof.
  destruct t, hl, pp as [p|], f as [f|], g as [g|];
    (eexists; split; [vm_compute; reflexivity|]; split; [names|]);
    intros name; unfold usable, needs_labels, provided; cbn [keys map fst]; split.
  all: intros H; cbn [In] in H |- *.
  all: repeat match goal with
       | H : _ \/ _ |- _ => destruct H
       | H : _ /\ _ |- _ => destruct H
       | H : False |- _ => destruct H
       | H : _ = ?x |- _ => is_var x; subst x
       | H : ?x = _ |- _ => is_var x; subst x
       end.
  all: intuition (try congruence).
Qed.
End Unchanged.

(** ** files *)
Section Files.
Context {obj byte : Type}.
Variable pickle : obj -> list byte.
Variable unpickle : list byte -> option obj.
Variables csv_issues csv_summary dataset : obj -> list byte.
Variable set_data : obj -> obj.
Variables hash_of labels_of : obj -> nat.
Notation save_states := (save_states pickle csv_issues csv_summary dataset).
Notation save := (save pickle csv_issues csv_summary dataset).
Notation load := (load unpickle set_data hash_of labels_of).

Lemma writes_last (c : list byte) : exists l, writes c = l ++ [c].
Proof.
  unfold writes. rewrite seq_S, map_app. cbn. rewrite firstn_all. eauto.
Qed.
Lemma writes_in (c x : list byte) : In x (writes c) -> x = c \/ truncation x c.
Proof.
  unfold writes. intros H. apply in_map_iff in H as (k & <- & Hk). apply in_seq in Hk.
  destruct (Nat.eq_dec k (length c)) as [->|]; [left; apply firstn_all|]. right.
  destruct (skipn k c) as [|y r] eqn:E.
  - apply (f_equal (@length _)) in E. rewrite skipn_length in E. cbn in E. lia.
  - exists y, r. rewrite <- E. symmetry. apply firstn_skipn.
Qed.
Definition saved (o : obj) : folder byte :=
  Folder (Some (pickle o)) (Some (csv_issues o)) (Some (csv_summary o)) (Some (dataset o)).
Lemma last_app {A} (l : list A) x d : last (l ++ [x]) d = x.
Proof. induction l as [|y l IH]; [reflexivity|]. cbn. destruct (l ++ [x]) eqn:E; [destruct l; discriminate|]. exact IH. Qed.
Lemma save_spec p o force : (p = None \/ force = true) -> save p o force = Ok (Some (saved o)).
Proof.
  intros H. unfold ModelDatalab.save, ModelDatalab.save_states.
  assert (E : forall l, last (l ++ map (fun c => Some (Folder (Some (pickle o)) (Some (csv_issues o)) (Some (csv_summary o)) (Some c))) (writes (dataset o))) None = Some (saved o)).
  { intros l. destruct (writes_last (dataset o)) as (l' & ->). rewrite map_app. cbn [map]. rewrite app_assoc. apply last_app. }
  destruct p as [d|], force; try (destruct H; discriminate); cbn [rbind]; rewrite !app_assoc; cbn [f_object f_issues f_summary]; now rewrite E.
Qed.
Lemma save_exists d o : save (Some d) o false = Raise FileExistsError /\ save_states (Some d) o false = Raise FileExistsError.
Proof. split; reflexivity. Qed.
Hypothesis roundtrip : forall o, unpickle (pickle o) = Some o.
Lemma load_saved p o force p' data : save p o force = Ok p' -> load p' data =
  match data with
  | None => Ok o
  | Some (hash, n) => if Nat.eqb hash (hash_of o) && Nat.eqb n (labels_of o) then Ok (set_data o) else Raise ValueError
  end.
Proof.
  intros H. assert (Hp : p = None \/ force = true) by (destruct p, force; auto; discriminate).
  rewrite (save_spec p o force Hp) in H. injection H as <-. cbn. rewrite roundtrip.
  destruct data as [[hash n]|]; [|reflexivity]. destruct (Nat.eqb hash (hash_of o)), (Nat.eqb n (labels_of o)); reflexivity.
Qed.
(** every state a crash can leave *)
Lemma crash_states p o force states s : save_states p o force = Ok states -> In s states ->
  load s None = load p None \/ load s None = Ok o \/
  (s = Some empty_folder /\ p = None) \/
  (exists d c, s = Some d /\ f_object d = Some c /\ truncation c (pickle o)).
Proof.
  intros H Hs. unfold ModelDatalab.save_states in H.
  set (d := match p with Some d => d | None => empty_folder end) in *.
  assert (E : states = [p; Some d]
        ++ map (fun c => Some (Folder (Some c) (f_issues d) (f_summary d) (f_data d))) (writes (pickle o))
        ++ map (fun c => Some (Folder (Some (pickle o)) (Some c) (f_summary d) (f_data d))) (writes (csv_issues o))
        ++ map (fun c => Some (Folder (Some (pickle o)) (Some (csv_issues o)) (Some c) (f_data d))) (writes (csv_summary o))
        ++ map (fun c => Some (Folder (Some (pickle o)) (Some (csv_issues o)) (Some (csv_summary o)) (Some c))) (writes (dataset o))).
  { destruct p, force; try discriminate; injection H as <-; reflexivity. }
  clear H. subst states. 
  assert (Hnew : forall a b c, load (Some (Folder (Some (pickle o)) a b c)) None = Ok o) by (intros; cbn; now rewrite roundtrip).
  apply in_app_or in Hs as [[<-|[<-|[]]]|Hs].
  - now left.
  - unfold d. destruct p; [now left|]. right. right. left. auto.
  - repeat apply in_app_or in Hs as [Hs|Hs]; apply in_map_iff in Hs as (c & <- & Hc).
    2-4: right; left; apply Hnew.
    apply writes_in in Hc as [->|Hc]; [right; left; apply Hnew|].
    right. right. right. eexists _, c. split; [reflexivity|]. split; [reflexivity|exact Hc].
Qed.
(** a crash that strikes while the object file is being written loses the old object *)
Lemma crash_loses d old o : load (Some d) None = Ok old -> pickle o <> [] -> (forall c, truncation c (pickle o) -> unpickle c = None) ->
  exists states s, save_states (Some d) o true = Ok states /\ In s states /\ load s None = Raise OtherError.
Proof.
  intros _ Hne Ht. eexists. exists (Some (Folder (Some []) (f_issues d) (f_summary d) (f_data d))).
  split; [reflexivity|]. split.
  - apply in_or_app. right. apply in_or_app. left. apply in_map_iff. exists []. split; [reflexivity|].
    unfold writes. apply in_map_iff. exists 0%nat. split; [reflexivity|]. apply in_seq. lia.
  - cbn. rewrite Ht; [reflexivity|]. destruct (pickle o) as [|x r]; [congruence|]. exists x, r. reflexivity.
Qed.
(** without labels the dataset can not be given again *)
Lemma reload_unlabelled p o force p' n : save p o force = Ok p' -> labels_of o = 0%nat -> (0 < n)%nat ->
  load p' (Some (hash_of o, n)) = Raise ValueError.
Proof.
  intros H Hl Hn. rewrite (load_saved _ _ _ _ _ H). rewrite Nat.eqb_refl, Hl. cbn. destruct n; [lia|reflexivity].
Qed.
End Files.

(** ** image checks *)
Section Image.
Context {V : Type}.
Lemma NoDup_filter_types (l : list row) P : NoDup (map r_type l) -> NoDup (map r_type (filter P l)).
Proof. apply NoDup_filter_map. Qed.
(** when the Imagelab lists only requested checks, the summary keeps one row per check *)
Lemma imagelab_rows (lab : imagelab V) types st st' : collect_imagelab lab types st = Ok st' ->
  NoDup (map (@r_type) (issue_summary st)) -> NoDup (map (@r_type) (i_summary lab)) ->
  (forall r, In r (i_summary lab) -> In (r_type r) types) ->
  NoDup (map (@r_type) (issue_summary st')) /\
  (forall r, ~ In (r_type r) types -> (In r (issue_summary st') <-> In r (issue_summary st))) /\
  (forall r, In (r_type r) types -> (In r (issue_summary st') <-> In r (i_summary lab) /\ (10 * r_num r <= d_rows st)%nat)).
Proof.
  intros H Hnd Hni Hreq. unfold collect_imagelab in H. destruct (negb (forallb _ _)); [discriminate|].
  destruct (rmap _ types) as [infos|]; [|discriminate]. cbn [rbind] in H. injection H as <-. cbn [issue_summary].
  set (ov := filter (fun t => smem t types) (map (@r_type) (issue_summary st))).
  assert (Hov : forall t, smem t ov = true <-> In t types /\ In t (map (@r_type) (issue_summary st))).
  { intros t. rewrite smem_iff. unfold ov. rewrite filter_In, smem_iff. tauto. }
  assert (Hkeep : forall r, In r (filter (fun r => negb (smem (r_type r) ov)) (issue_summary st)) <-> In r (issue_summary st) /\ ~ In (r_type r) types).
  { intros r. rewrite filter_In. split.
    - intros (Hi & E). split; [auto|]. intros Ht. apply negb_true_iff in E.
      assert (smem (r_type r) ov = true) by (apply Hov; split; [auto|now apply in_map]). congruence.
    - intros (Hi & Ht). split; [auto|]. apply negb_true_iff. destruct (smem (r_type r) ov) eqn:E; [|reflexivity].
      apply Hov in E. tauto. }
  assert (Hmax : forall r, Nat.leb (r_num r) (d_rows st / 10) = true <-> (10 * r_num r <= d_rows st)%nat).
  { intros r. rewrite Nat.leb_le. pose proof (Nat.div_mod (d_rows st) 10 ltac:(lia)).
    pose proof (Nat.mod_upper_bound (d_rows st) 10 ltac:(lia)). split; [lia|]. intros Hle.
    apply Nat.div_le_lower_bound; lia. }
  refine (conj _ (conj _ _)).
  - rewrite map_app. apply NoDup_app_intro.
    + now apply NoDup_filter_types.
    + now apply NoDup_filter_types.
    + intros t H1 H2. apply in_map_iff in H1 as (r1 & <- & H1). apply in_map_iff in H2 as (r2 & E & H2).
      apply Hkeep in H1 as (_ & H1). apply filter_In in H2 as (H2 & _). apply H1. rewrite <- E. auto.
  - intros r Hr. rewrite in_app_iff, Hkeep, filter_In. split; [|tauto]. intros [H1|(H1 & _)]; [tauto|].
    exfalso. apply Hr. now apply Hreq.
  - intros r Hr. rewrite in_app_iff, Hkeep, filter_In, Hmax. tauto.
Qed.
End Image.

(** ** spurious correlations *)
Open Scope Q_scope.
Lemma count_absent c l : ~ In c l -> count c l = 0%nat.
Proof. intros H. now apply count_occ_not_In. Qed.
Lemma count_present c l : (0 < count c l)%nat -> In c l.
Proof. intros H. now apply (count_occ_In Nat.eq_dec). Qed.
Lemma count_in_pos c l : In c l -> (0 < count c l)%nat.
Proof. intros H. now apply (count_occ_In Nat.eq_dec) in H. Qed.
Lemma baseline_value labels : labels <> [] -> exists c, In c labels /\
  (forall d, (count d labels <= count c labels)%nat) /\ (forall d, (d < c)%nat -> (count d labels < count c labels)%nat) /\
  baseline labels = Qnat c / Qnat (length labels).
Proof.
  intros Hne. set (l := map Qnat (bincount labels)).
  assert (Eb : bincount labels = tab (nmax labels + 1) (fun c => count c labels)) by (destruct labels; [congruence|reflexivity]).
  assert (Hl : length l = (nmax labels + 1)%nat) by (unfold l; rewrite map_length, Eb; apply tab_length).
  assert (Hl0 : l <> []) by (intros E; rewrite E in Hl; cbn in Hl; lia).
  assert (Hnth : forall d, (d < nmax labels + 1)%nat -> nth d l 0 = Qnat (count d labels)).
  { intros d Hd. unfold l. rewrite Eb, map_tab, nth_tab by lia. reflexivity. }
  destruct (argmax_spec l Hl0) as (H1 & H2 & H3). rewrite Hl in *. exists (argmax l).
  assert (Hmax : forall d, (count d labels <= count (argmax l) labels)%nat).
  { intros d. destruct (Nat.lt_ge_cases d (nmax labels + 1)) as [Hd|Hd].
    - apply Qnat_le_iff. rewrite <- !Hnth by auto. now apply H2.
    - rewrite count_absent; [lia|]. intros Hi. apply nmax_ge in Hi. lia. }
  refine (conj _ (conj Hmax (conj _ eq_refl))).
  - apply count_present. destruct labels as [|y r]; [congruence|].
    pose proof (count_in_pos y (y :: r) (or_introl eq_refl)). specialize (Hmax y). lia.
  - intros d Hd. apply Qnat_lt_iff. rewrite <- !Hnth by lia. now apply H3.
Qed.
Lemma room_range base a : base < 1 -> 0 <= a <= 1 -> 0 <= relative_room base a <= 1.
Proof.
  intros Hb Ha. unfold relative_room.
  assert (E : Qeq_bool base 1 = false).
  { destruct (Qeq_bool base 1) eqn:E; [|reflexivity]. apply Qeq_bool_iff in E. lra. }
  rewrite E. destruct (qmin_spec 1 ((1 - a) / (1 - base))) as [(H & ->)|(H & ->)].
  - lra.
  - split; [|lra]. apply Qle_shift_div_l; lra.
Qed.
Lemma baseline_lt1 labels : labels <> [] -> (forall y, In y labels -> (y < length labels)%nat) -> 0 <= baseline labels < 1.
Proof.
  intros Hne Hy. destruct (baseline_value labels Hne) as (c & Hc & _ & _ & ->). specialize (Hy c Hc).
  assert (0 < Qnat (length labels)) by (apply Qnat_pos; lia). apply Qnat_lt_iff in Hy.
  assert (0 <= Qnat c) by apply Qnat_nonneg. split; [apply Qle_shift_div_l; lra|apply Qlt_shift_div_r; lra].
Qed.
Lemma correlations_spec labels accs : labels <> [] -> (forall y, In y labels -> (y < length labels)%nat) ->
  (forall e, In e accs -> 0 <= snd e <= 1) ->
  keys (correlations accs labels) = keys accs /\
  (forall e, In e (correlations accs labels) -> 0 <= snd e <= 1) /\
  (forall p a p' a', In (p, a) accs -> In (p', a') accs -> a <= a' ->
     relative_room (baseline labels) a' <= relative_room (baseline labels) a) /\
  (forall thr p, In p (correlated_properties thr (correlations accs labels)) <->
     exists a, In (p, a) accs /\ relative_room (baseline labels) a < thr).
Proof.
  intros Hne Hy Ha. destruct (baseline_lt1 labels Hne Hy) as (H0 & H1). refine (conj _ (conj _ (conj _ _))).
  - unfold keys, correlations. rewrite map_map. reflexivity.
  - intros e He. unfold correlations in He. apply in_map_iff in He as (x & <- & Hx). cbn. apply room_range; auto.
  - intros p a p' a' Hi Hi' Hle. unfold relative_room.
    assert (E : Qeq_bool (baseline labels) 1 = false).
    { destruct (Qeq_bool (baseline labels) 1) eqn:E; [|reflexivity]. apply Qeq_bool_iff in E. lra. }
    rewrite E. assert (Hd : (1 - a') / (1 - baseline labels) <= (1 - a) / (1 - baseline labels)).
    { unfold Qdiv. apply Qmult_le_compat_r; [lra|]. apply Qlt_le_weak, Qinv_lt_0_compat. lra. }
    destruct (qmin_spec 1 ((1 - a) / (1 - baseline labels))) as [(H & ->)|(H & ->)],
             (qmin_spec 1 ((1 - a') / (1 - baseline labels))) as [(H' & ->)|(H' & ->)]; lra.
  - intros thr p. unfold correlated_properties, correlations. rewrite in_map_iff. split.
    + intros (e & <- & He). apply filter_In in He as (He & Hl). apply in_map_iff in He as ([q a] & <- & Hx). cbn in *.
      exists a. split; [auto|]. now apply Qltb_iff.
    + intros (a & Hi & Hl). exists (p, relative_room (baseline labels) a). split; [reflexivity|]. apply filter_In. split.
      * exact (in_map (fun e => (fst e, relative_room (baseline labels) (snd e))) accs _ Hi).
      * now apply Qltb_iff.
Qed.
