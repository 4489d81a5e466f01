(** * Proofs of the order invariance of object-detection scores (C145) *)
From Coq Require Import QArith Qabs Qreals Reals List ZArith Bool Arith Lia Lra Permutation Sorting.Sorted.
From Coq Require Lqa.
From Verif Require Import Base BaseFacts ModelUtil ModelEntropy ModelOutlier ModelToken ModelDetection SpecDetection SpecSymmetry SpecPictures ProofUtil
  ProofNoise ProofOutlier ProofRegRank ProofDetection ProofDetectionR ProofSymmetry ProofShuffle ProofRows.
Import ListNotations.
Open Scope Q_scope.

(** ** Permuted lists *)
Lemma ext_nth_error {A} (l l' : list A) : (forall j, nth_error l j = nth_error l' j) -> l = l'.
Proof.
  revert l'. induction l as [|x l IH]; intros [|y l'] H; auto.
  - specialize (H 0%nat). discriminate.
  - specialize (H 0%nat). discriminate.
  - pose proof (H 0%nat) as H0. injection H0 as ->. f_equal. apply IH. intros j. exact (H (S j)).
Qed.
Lemma filter_map_comm {A B} (h : A -> B) f l : filter f (map h l) = map h (filter (fun a => f (h a)) l).
Proof. induction l as [|x l IH]; [reflexivity|]. cbn [map filter]. destruct (f (h x)); cbn [map]; rewrite IH; reflexivity. Qed.
Lemma filter_perm {A} (f : A -> bool) l l' : Permutation l l' -> Permutation (filter f l) (filter f l').
Proof. induction 1; cbn [filter]; repeat match goal with |- context [f ?x] => destruct (f x) end; try constructor; eauto using Permutation_refl, Permutation_trans. Qed.
Lemma moved_filter {A B} (h : A -> B) f' f l l' : Permutation l' (map h l) -> (forall a, In a l -> f' (h a) = f a) ->
  Permutation (filter f' l') (map h (filter f l)).
Proof.
  intros P E. eapply perm_trans; [apply filter_perm; exact P|]. rewrite filter_map_comm.
  rewrite (filter_ext_in (fun a => f' (h a)) f); auto.
Qed.
Lemma moved_exists {A B} (h : A -> B) f' f l l' : Permutation l' (map h l) -> (forall a, In a l -> f' (h a) = f a) -> existsb f' l' = existsb f l.
Proof.
  intros P E. apply eq_true_iff_eq. rewrite !existsb_exists. split.
  - intros (x & H1 & H2). apply (Permutation_in _ P), in_map_iff in H1 as (a & <- & Ha). exists a. rewrite <- E by auto. auto.
  - intros (a & H1 & H2). exists (h a). rewrite E by auto. split; auto. apply (Permutation_in _ (Permutation_sym P)), in_map; auto.
Qed.
Notation top g l := (nth (argmax (map g l)) (map g l) 0).
Lemma moved_top {A B} (h : A -> B) (g' : B -> Q) (g : A -> Q) l l' : Permutation l' (map h l) -> (forall a, In a l -> g' (h a) == g a) -> l <> [] ->
  top g' l' == top g l.
Proof.
  intros P E N. assert (N' : l' <> []).
  { intros ->. apply Permutation_length in P. rewrite map_length in P. destruct l; [congruence|discriminate]. }
  destruct (argmax_nth_max [] [] eq_refl g l N) as (a & A1 & -> & A2). destruct (argmax_nth_max [] [] eq_refl g' l' N') as (b & B1 & -> & B2).
  apply Qle_antisym.
  - apply (Permutation_in _ P), in_map_iff in B1 as (c & <- & Hc). rewrite E by auto. auto.
  - rewrite <- (E a A1). apply B2. apply (Permutation_in _ (Permutation_sym P)), in_map; auto.
Qed.
Lemma moved_max {A B} (h : A -> B) (g' : B -> Q) (g : A -> Q) l l' : Permutation l' (map h l) -> (forall a, In a l -> g' (h a) == g a) -> l <> [] ->
  qmaximum (map g' l') == qmaximum (map g l).
Proof.
  intros P E N. assert (N' : l' <> []).
  { intros ->. apply Permutation_length in P. rewrite map_length in P. destruct l; [congruence|discriminate]. }
  rewrite !ProofNoise.qmaximum_argmax by (intros F; apply map_eq_nil in F; auto). apply (moved_top h); auto.
Qed.
Lemma moved_nil {A B} (h : A -> B) l l' : Permutation l' (map h l) -> l = [] <-> l' = [].
Proof. intros P. apply Permutation_length in P. rewrite map_length in P. destruct l, l'; try discriminate; split; congruence. Qed.
Lemma Qltb_same a b c d : a == c -> b == d -> Qltb a b = Qltb c d.
Proof. intros E F. apply eq_true_iff_eq. rewrite !Qltb_iff, E, F. tauto. Qed.
Lemma Qleb_same a b c d : a == c -> b == d -> Qleb a b = Qleb c d.
Proof. intros E F. apply eq_true_iff_eq. rewrite !Qleb_iff, E, F. tauto. Qed.

(** ** Box scores as functions of the box *)
Definition same_opt (x y : option Q) : Prop := match x, y with Some a, Some b => a == b | None, None => True | _, _ => False end.
Section Formula.
Variables (dist : box -> box -> Q) (alpha m : Q) (ls : image_label) (ps : list (nat * detection)).
Definition overlooked_of (hp : Q) (p : nat * detection) : option Q :=
  if Qltb (snd (snd p)) hp || existsb (fun kb => Qltb 0 (iou (snd kb) (fst (snd p)))) ls then None
  else match filter (fun kb => Nat.eqb (fst kb) (fst p)) ls with
       | [] => Some (m * (1 - snd (snd p)))
       | l => Some (top (fun kb => similarity dist alpha (snd kb) (fst (snd p))) l)
       end.
Definition badloc_of (lp : Q) (kb : nat * box) : Q :=
  match filter (fun p : nat * detection => (Qltb lp (det_prob p) && Qltb 0 (iou (snd kb) (fst (snd p))))%bool) (filter (fun p => Nat.eqb (fst p) (fst kb)) ps) with
  | [] => 1
  | l => qmaximum (map (fun p => similarity dist alpha (snd kb) (fst (snd p))) l)
  end.
Definition conflict_of (kb : nat * box) : bool :=
  existsb (fun kb' => negb (Nat.eqb (fst kb') (fst kb)) && Qleb (95 # 100) (iou (snd kb) (snd kb')))%bool ls.
Definition swap_of (hp : Q) (check : bool) (kb : nat * box) : Q :=
  if check && conflict_of kb then m else
  match filter (fun p : nat * detection => (Qltb hp (det_prob p) && negb (Nat.eqb (fst p) (fst kb)))%bool) ps with
  | [] => 1
  | l => qmax m (1 - top (fun p => similarity dist alpha (snd kb) (fst (snd p))) l)
  end.
End Formula.
Lemma conflict_iff l j kb : nth_error l j = Some kb -> has_overlap l j = conflict_of l kb.
Proof.
  intros E. assert (Hj : (j < length l)%nat) by (apply nth_error_Some; congruence).
  apply eq_true_iff_eq. rewrite (has_overlap_iff [] [] eq_refl l j Hj). unfold conflicting, conflict_of. rewrite existsb_exists.
  rewrite (nth_error_nth _ _ (0%nat, no_box) E). split.
  - intros (j' & H1 & H2 & H3 & H4). exists (nth j' l (0%nat, no_box)). split; [apply nth_In; auto|].
    apply andb_true_intro. split; [apply negb_true_iff, Nat.eqb_neq; auto|apply Qleb_iff; auto].
  - intros (x & H1 & H2). apply andb_prop in H2 as (H2 & H3). apply negb_true_iff, Nat.eqb_neq in H2. apply Qleb_iff in H3.
    apply (In_nth _ _ (0%nat, no_box)) in H1 as (j' & Hj' & <-). exists j'. split; [|split; [|split]]; auto.
    intros ->. rewrite (nth_error_nth _ _ (0%nat, no_box) E) in H2. congruence.
Qed.
Section Formulas.
Variables (dist : box -> box -> Q) (alpha : Q) (labels : list image_label) (predictions : list image_pred).
Notation amin := (min_possible_similarity dist alpha labels predictions).
Notation ia := (image_aux dist alpha labels predictions).
Notation ps i := (separate_prediction (nth i predictions [])).
Variable i : nat.
Hypothesis Hl : length labels = length predictions.
Hypothesis Hi : (i < length labels)%nat.
Lemma overlooked_map hp : overlooked_scores hp (ia i) = map (overlooked_of dist alpha amin (nth i labels []) hp) (ps i).
Proof.
  apply ext_nth_error. intros j. rewrite overlooked_nth by auto. rewrite nth_error_map, separate_nth'. destruct (nth_prediction _ _ _) as [[k d]|]; reflexivity.
Qed.
Lemma badloc_map lp : badloc_scores lp (ia i) = map (badloc_of dist alpha (ps i) lp) (nth i labels []).
Proof.
  apply ext_nth_error. intros j. rewrite nth_error_map. destruct (nth_error (nth i labels []) j) as [[k b]|] eqn:E.
  - rewrite (badloc_nth dist alpha labels predictions Hl lp i j k b Hi E). reflexivity.
  - apply nth_error_None. rewrite (badloc_len [] [] 1 eq_refl (le_n 1)). apply nth_error_None in E. exact E.
Qed.
Lemma swap_map hp check : swap_scores hp check (ia i) = map (swap_of dist alpha amin (nth i labels []) (ps i) hp check) (nth i labels []).
Proof.
  apply ext_nth_error. intros j. rewrite nth_error_map. destruct (nth_error (nth i labels []) j) as [[k b]|] eqn:E.
  - rewrite (swap_nth dist alpha labels predictions Hl hp check i j k b Hi E). rewrite (conflict_iff _ _ _ E). reflexivity.
  - apply nth_error_None. rewrite (swap_len [] [] 1 eq_refl (le_n 1)). apply nth_error_None in E. exact E.
Qed.
End Formulas.

(** ** Moved images *)
Section Moved.
Variables (dist : box -> box -> Q) (alpha : Q) (f : box -> box).
Hypothesis Hk : keeps dist f.
Variables (m m' : Q) (ls ls' : image_label) (ps ps' : list (nat * detection)).
Hypothesis Hm : m' == m.
Notation ml := (fun kb : nat * box => (fst kb, f (snd kb))).
Notation mp := (fun p : nat * detection => (fst p, (f (fst (snd p)), snd (snd p)))).
Hypothesis Pl : Permutation ls' (map ml ls).
Hypothesis Pp : Permutation ps' (map mp ps).
Lemma sim_moved a b : similarity dist alpha (f a) (f b) == similarity dist alpha a b.
Proof. unfold similarity. destruct (proj2 Hk a b) as (-> & ->). reflexivity. Qed.
Lemma overlooked_moved hp p : same_opt (overlooked_of dist alpha m' ls' hp (mp p)) (overlooked_of dist alpha m ls hp p).
Proof.
  unfold overlooked_of. cbn [fst snd].
  rewrite (moved_exists ml (fun kb => Qltb 0 (iou (snd kb) (f (fst (snd p))))) (fun kb => Qltb 0 (iou (snd kb) (fst (snd p)))) ls ls' Pl)
    by (intros; cbn [fst snd]; apply Qltb_same; [reflexivity|apply (proj2 Hk)]).
  destruct (_ || _); [exact I|].
  assert (P : Permutation (filter (fun kb => Nat.eqb (fst kb) (fst p)) ls') (map ml (filter (fun kb => Nat.eqb (fst kb) (fst p)) ls)))
    by (apply (moved_filter ml); auto).
  pose proof (moved_top ml (fun kb => similarity dist alpha (snd kb) (f (fst (snd p)))) (fun kb => similarity dist alpha (snd kb) (fst (snd p))) _ _ P
                (fun a _ => sim_moved _ _)) as T.
  destruct (filter (fun kb => Nat.eqb (fst kb) (fst p)) ls) as [|y l0].
  - rewrite (proj1 (moved_nil ml _ _ P) eq_refl). cbn [same_opt]. rewrite Hm. reflexivity.
  - destruct (filter (fun kb => Nat.eqb (fst kb) (fst p)) ls') as [|x l0']; [pose proof (proj2 (moved_nil ml _ _ P) eq_refl); discriminate|].
    cbn [same_opt]. apply T. discriminate.
Qed.
Lemma badloc_moved lp kb : badloc_of dist alpha ps' lp (ml kb) == badloc_of dist alpha ps lp kb.
Proof.
  unfold badloc_of. cbn [fst snd].
  match goal with |- match filter ?F' (filter ?G' ps') with _ => _ end == match filter ?F (filter ?G ps) with _ => _ end =>
    assert (P : Permutation (filter F' (filter G' ps')) (map mp (filter F (filter G ps)))) end.
  { apply (moved_filter mp).
    - apply (moved_filter mp); auto.
    - intros a _. cbn [fst snd]. unfold det_prob. cbn [fst snd]. f_equal. apply Qltb_same; [reflexivity|apply (proj2 Hk)]. }
  pose proof (moved_max mp (fun p => similarity dist alpha (f (snd kb)) (fst (snd p))) (fun p => similarity dist alpha (snd kb) (fst (snd p))) _ _ P
                (fun a _ => sim_moved _ _)) as T.
  destruct (filter _ (filter _ ps)) as [|y l0].
  - rewrite (proj1 (moved_nil mp _ _ P) eq_refl). reflexivity.
  - destruct (filter _ (filter _ ps')) as [|x l0']; [pose proof (proj2 (moved_nil mp _ _ P) eq_refl); discriminate|].
    apply T. discriminate.
Qed.
Lemma conflict_moved kb : conflict_of ls' (ml kb) = conflict_of ls kb.
Proof.
  unfold conflict_of. apply (moved_exists ml); auto. intros a _. cbn [fst snd]. f_equal. apply Qleb_same; [reflexivity|apply (proj2 Hk)].
Qed.
Lemma swap_moved hp check kb : swap_of dist alpha m' ls' ps' hp check (ml kb) == swap_of dist alpha m ls ps hp check kb.
Proof.
  unfold swap_of. rewrite conflict_moved. destruct (check && conflict_of ls kb); [exact Hm|]. cbn [fst snd].
  match goal with |- match filter ?F' ps' with _ => _ end == match filter ?F ps with _ => _ end =>
    assert (P : Permutation (filter F' ps') (map mp (filter F ps))) by (apply (moved_filter mp); auto) end.
  pose proof (moved_top mp (fun p => similarity dist alpha (f (snd kb)) (fst (snd p))) (fun p => similarity dist alpha (snd kb) (fst (snd p))) _ _ P
                (fun a _ => sim_moved _ _)) as T.
  destruct (filter _ ps) as [|y l0].
  - rewrite (proj1 (moved_nil mp _ _ P) eq_refl). reflexivity.
  - destruct (filter _ ps') as [|x l0']; [pose proof (proj2 (moved_nil mp _ _ P) eq_refl); discriminate|].
    apply qmax_comp; auto. rewrite T by discriminate. reflexivity.
Qed.
End Moved.

(** ** Pooled scores *)
Definition vals (l : list (option Q)) : list R := flat_map (fun o => match o with Some s => [Q2R s] | None => [] end) l.
Lemma rmaximum_ge l (x : R) : In x l -> (x <= rmaximum l)%R.
Proof.
  destruct l as [|y t]; [intros []|]. cbn [rmaximum].
  assert (G : forall t y, (y <= fold_left Rmax t y)%R /\ forall z, In z t -> (z <= fold_left Rmax t y)%R).
  { clear. induction t as [|a t IH]; intros y; simpl; [split; [lra|tauto]|]. destruct (IH (Rmax y a)) as (A & B).
    pose proof (Rmax_l y a). pose proof (Rmax_r y a). split; [lra|]. intros z [<-|Hz]; [lra|auto]. }
  destruct (G t y) as (A & B). intros [<-|H]; auto.
Qed.
Lemma rmaximum_perm l l' : Permutation l l' -> rmaximum l = rmaximum l'.
Proof.
  intros P. destruct l as [|x t]; [apply Permutation_nil in P; subst; auto|].
  assert (N : l' <> []) by (intros ->; apply Permutation_sym, Permutation_nil in P; discriminate).
  apply Rle_antisym; apply rmaximum_ge.
  - apply (Permutation_in _ P), rmaximum_spec. discriminate.
  - apply (Permutation_in _ (Permutation_sym P)), rmaximum_spec. auto.
Qed.
Lemma softmin_perm t l l' : Permutation l l' -> softmin1d t l = softmin1d t l'.
Proof.
  intros P. rewrite !softmin1d_eq. cbv zeta.
  rewrite (rmaximum_perm _ _ (Permutation_map _ (Permutation_map (fun s => (-1 * s)%R) P))).
  set (M := rmaximum _). unfold Rdiv. f_equal; [|apply (f_equal Rinv)]; apply rsum_perm, Permutation_map, P.
Qed.
Lemma valid_perm t s s' : Permutation (vals s) (vals s') -> valid_score t s = valid_score t s'.
Proof.
  unfold valid_score. fold (vals s). fold (vals s'). intros P. destruct (vals s) as [|x l].
  - apply Permutation_nil in P. rewrite P. reflexivity.
  - destruct (vals s') as [|y l']; [apply Permutation_sym, Permutation_nil in P; discriminate|]. apply softmin_perm, P.
Qed.
Lemma vals_map {A} (g : A -> option Q) l : vals (map g l) = flat_map (fun a => vals [g a]) l.
Proof. induction l as [|x l IH]; [reflexivity|]. cbn [map]. change (g x :: map g l) with ([g x] ++ map g l). unfold vals in *. rewrite flat_map_app, IH. reflexivity. Qed.
Lemma vals_same x y : same_opt x y -> vals [x] = vals [y].
Proof. destruct x, y; cbn; try tauto. intros E. rewrite (Qeq_eqR _ _ E). reflexivity. Qed.
Lemma flat_perm {A B} (g : A -> list B) l l' : Permutation l l' -> Permutation (flat_map g l) (flat_map g l').
Proof.
  induction 1; cbn [flat_map]; auto.
  - apply Permutation_app_head; auto.
  - rewrite !app_assoc. apply Permutation_app_tail, Permutation_app_comm.
  - eapply perm_trans; eauto.
Qed.
Lemma moved_vals {A B} (h : A -> B) (g' : B -> option Q) (g : A -> option Q) l l' : Permutation l' (map h l) -> (forall a, In a l -> same_opt (g' (h a)) (g a)) ->
  Permutation (vals (map g' l')) (vals (map g l)).
Proof.
  intros P E. rewrite !vals_map. eapply perm_trans; [apply flat_perm, P|].
  rewrite !flat_map_concat_map, map_map. rewrite (map_ext_in (fun x => vals [g' (h x)]) (fun a => vals [g a])); [reflexivity|].
  intros a Ha. apply vals_same, E, Ha.
Qed.

(** ** Predictions of an image *)
Lemma separate_perm_from (f : box -> box) (p p' : image_pred) :
  Forall2 (fun ds ds' => Permutation ds' (map (fun d => (f (fst d), snd d)) ds)) p p' -> forall k,
  Permutation (flat_map (fun kd => map (fun d => (fst kd, d)) (snd kd)) (combine (seq k (length p')) p'))
    (map (fun p : nat * detection => (fst p, (f (fst (snd p)), snd (snd p)))) (flat_map (fun kd => map (fun d => (fst kd, d)) (snd kd)) (combine (seq k (length p)) p))).
Proof.
  induction 1 as [|ds ds' p p' H _ IH]; intros k; [constructor|].
  rewrite (separate_from k (ds' :: p')), (separate_from k (ds :: p)). rewrite map_app. apply Permutation_app; [|apply IH].
  eapply perm_trans; [apply Permutation_map, H|]. rewrite !map_map. apply Permutation_refl.
Qed.
Lemma separate_perm f p p' : Forall2 (fun ds ds' => Permutation ds' (map (fun d => (f (fst d), snd d)) ds)) p p' ->
  Permutation (separate_prediction p') (map (fun p : nat * detection => (fst p, (f (fst (snd p)), snd (snd p)))) (separate_prediction p)).
Proof. intros H. apply separate_perm_from, H. Qed.

(** ** The whole data set *)
Lemma least_le dist alpha labels predictions labels' predictions' m m' :
  least_similarity dist alpha labels predictions m -> least_similarity dist alpha labels' predictions' m' ->
  (forall a b i k k' q, In (k, a) (nth i labels []) -> predicted (nth i predictions []) k' (b, q) ->
    exists a' b' i' q', In (k, a') (nth i' labels' []) /\ predicted (nth i' predictions' []) k' (b', q') /\ sim dist alpha a' b' == sim dist alpha a b) ->
  m' <= m.
Proof.
  intros (A1 & A2 & A3 & A4) (B1 & B2 & B3 & B4) H. destruct A4 as [E|(a & b & (i & k & k' & q & H1 & H2) & E)]; [rewrite E; exact B2|].
  destruct (H a b i k k' q H1 H2) as (a' & b' & i' & q' & C1 & C2 & C3). rewrite E, <- C3. apply B3.
  - exists i', k, k', q'. auto.
  - rewrite C3, <- E. exact A1.
Qed.
Lemma F2_in_l {A B} (R : A -> B -> Prop) l l' x : Forall2 R l l' -> In x l -> exists y, In y l' /\ R x y.
Proof. induction 1; [intros []|]; intros [->|H1]; [eexists; split; [left; reflexivity|auto]|destruct (IHForall2 H1) as (z & ? & ?); exists z; split; [right|]; auto]. Qed.
Lemma F2_in_r {A B} (R : A -> B -> Prop) l l' y : Forall2 R l l' -> In y l' -> exists x, In x l /\ R x y.
Proof. induction 1; [intros []|]; intros [->|H1]; [eexists; split; [left; reflexivity|auto]|destruct (IHForall2 H1) as (z & ? & ?); exists z; split; [right|]; auto]. Qed.

Section Data.
Variables (dist : box -> box -> Q) (K : nat) (labels labels' : list image_label) (predictions predictions' : list image_pred)
  (order : list nat) (move : nat -> box -> box).
Hypothesis Hd : forall a b, unit_interval (dist a b).
Hypothesis HD : detection_inputs K labels predictions.
Hypothesis HO : Permutation order (seq 0 (length labels)).
Hypothesis L1 : length labels' = length labels.
Hypothesis L2 : length predictions' = length labels.
Notation at_ i := (nth i order 0%nat).
Hypothesis HM : forall i, (i < length labels)%nat -> keeps dist (move i) /\
  same_picture (move i) (nth (at_ i) labels []) (nth i labels' []) (nth (at_ i) predictions []) (nth i predictions' []).
Lemma at_lt i : (i < length labels)%nat -> (at_ i < length labels)%nat.
Proof. intros Hi. assert (Lo : length order = length labels) by (rewrite (Permutation_length HO), seq_length; auto).
  assert (H : In (at_ i) (seq 0 (length labels))) by (apply (Permutation_in _ HO), nth_In; lia). apply in_seq in H. lia. Qed.
Lemma at_onto e : (e < length labels)%nat -> exists i, (i < length labels)%nat /\ at_ i = e.
Proof. intros He. assert (Lo : length order = length labels) by (rewrite (Permutation_length HO), seq_length; auto).
  assert (H : In e order) by (apply (Permutation_in _ (Permutation_sym HO)), in_seq; lia).
  apply (In_nth _ _ 0%nat) in H as (i & Hi & E). exists i. split; [lia|auto]. Qed.
Lemma new_boxes i : (i < length labels')%nat -> boxes_ok (nth i labels' []) (nth i predictions' []).
Proof.
  rewrite L1. intros Hi. destruct (HM i Hi) as ((W & _) & P & F). destruct HD as (_ & _ & _ & _ & HI). destruct (HI (at_ i) (at_lt i Hi)) as ((B1 & B2) & _). split.
  - intros kb H. apply (Permutation_in _ P), in_map_iff in H as (x & <- & Hx). cbn [snd]. apply W, B1, Hx.
  - intros ds d H1 H2. destruct (F2_in_r _ _ _ _ F H1) as (ds0 & H3 & H4). apply (Permutation_in _ H4), in_map_iff in H2. destruct H2 as (x & E & Hx). rewrite <- E.
    cbn [fst]. apply W, (B2 ds0); auto.
Qed.
Lemma new_probs i : (i < length labels')%nat -> probabilities_ok (nth i predictions' []).
Proof.
  rewrite L1. intros Hi. destruct (HM i Hi) as ((W & _) & P & F). destruct HD as (_ & _ & _ & _ & HI). destruct (HI (at_ i) (at_lt i Hi)) as (_ & B).
  intros ds d H1 H2. destruct (F2_in_r _ _ _ _ F H1) as (ds0 & H3 & H4). apply (Permutation_in _ H4), in_map_iff in H2. destruct H2 as (x & E & Hx). rewrite <- E.
  cbn [snd]. apply (B ds0); auto.
Qed.
Lemma F2_len {A B} (R : A -> B -> Prop) l l' : Forall2 R l l' -> length l = length l'.
Proof. induction 1; cbn; congruence. Qed.
Lemma new_inputs : detection_inputs K labels' predictions'.
Proof.
  destruct HD as (N & L & K0 & (S1 & S2) & HI). split; [|split; [congruence|split; [auto|split; [split|]]]].
  - intros ->. destruct labels; [congruence|discriminate].
  - intros p H. apply (In_nth _ _ []) in H as (i & Hi & <-). rewrite L2 in Hi. destruct (HM i Hi) as (_ & _ & F). rewrite <- (F2_len _ _ _ F).
    apply S1, nth_In. pose proof (at_lt i Hi). lia.
  - intros l kb H H1. apply (In_nth _ _ []) in H as (i & Hi & <-). rewrite L1 in Hi. destruct (HM i Hi) as (_ & P & _).
    apply (Permutation_in _ P), in_map_iff in H1 as (x & <- & Hx). cbn [fst]. apply (S2 (nth (at_ i) labels [])); auto. apply nth_In, at_lt, Hi.
  - intros i Hi. split; [apply new_boxes|apply new_probs]; auto.
Qed.
Lemma nth_in_lt {A} (l : list (list A)) i x : In x (nth i l []) -> (i < length l)%nat.
Proof. intros H. destruct (le_lt_dec (length l) i); auto. rewrite nth_overflow in H by auto. destruct H. Qed.
Lemma F2_nth {A B} (R : A -> B -> Prop) l l' d d' i : Forall2 R l l' -> (i < length l)%nat -> R (nth i l d) (nth i l' d').
Proof. intros H. revert i. induction H; intros [|i] Hi; cbn in *; try lia; auto. apply IHForall2. lia. Qed.
Lemma amin_same : min_possible_similarity dist ALPHA labels' predictions' == min_possible_similarity dist ALPHA labels predictions.
Proof.
  pose proof new_inputs as (N' & L' & _ & _ & HI'). destruct HD as (N & L & K0 & (S1 & S2) & HI).
  pose proof (amin_spec dist ALPHA labels predictions Hd alpha_unit L (fun i Hi => proj1 (HI i Hi))) as A.
  pose proof (amin_spec dist ALPHA labels' predictions' Hd alpha_unit L' (fun i Hi => proj1 (HI' i Hi))) as B.
  assert (SM : forall i a b, (i < length labels)%nat -> sim dist ALPHA (move i a) (move i b) == sim dist ALPHA a b).
  { intros i a b Hi. destruct (HM i Hi) as ((_ & E) & _). unfold sim. destruct (E a b) as (-> & ->). reflexivity. }
  apply Qle_antisym.
  - apply (least_le dist ALPHA labels predictions labels' predictions'); auto. intros a b e k k' q H1 H2.
    pose proof (nth_in_lt _ _ _ H1) as He. destruct (at_onto e He) as (i & Hi & <-). destruct (HM i Hi) as (_ & P & F).
    exists (move i a), (move i b), i, q. split; [|split; [|apply SM; auto]].
    + apply (Permutation_in _ (Permutation_sym P)), in_map_iff. exists (k, a). auto.
    + unfold predicted in *. pose proof (nth_in_lt _ _ _ H2) as Hk. pose proof (F2_nth _ _ _ [] [] k' F Hk) as Q. apply (Permutation_in _ (Permutation_sym Q)), in_map_iff.
      exists (b, q). auto.
  - apply (least_le dist ALPHA labels' predictions' labels predictions); auto. intros a b i k k' q H1 H2.
    pose proof (nth_in_lt _ _ _ H1) as Hi. rewrite L1 in Hi. destruct (HM i Hi) as (_ & P & F).
    apply (Permutation_in _ P), in_map_iff in H1 as ([k0 a0] & E & H1). cbn [fst snd] in E. injection E as <- <-.
    unfold predicted in *. pose proof (nth_in_lt _ _ _ H2) as Hk. rewrite <- (F2_len _ _ _ F) in Hk. pose proof (F2_nth _ _ _ [] [] k' F Hk) as Q.
    apply (Permutation_in _ Q), in_map_iff in H2 as ([b0 q0] & E & H2). cbn [fst snd] in E. injection E as <- <-.
    exists a0, b0, (at_ i), q0. split; [exact H1|split; [exact H2|]]. symmetry. apply SM; auto.
Qed.
Notation ia := (image_aux dist ALPHA labels predictions).
Notation ia' := (image_aux dist ALPHA labels' predictions').
Lemma score_same w check i : (i < length labels)%nat -> image_score w check (ia' i) = image_score w check (ia (at_ i)).
Proof.
  intros Hi. pose proof (at_lt i Hi) as He. destruct (HM i Hi) as (Kp & P & F). pose proof (separate_perm _ _ _ F) as S. pose proof amin_same as M.
  assert (L : length labels = length predictions) by apply HD. assert (L' : length labels' = length predictions') by congruence.
  assert (Hi' : (i < length labels')%nat) by lia.
  assert (E1 : forall hp, valid_score (Q2R TEMPERATURE) (overlooked_scores hp (ia' i)) = valid_score (Q2R TEMPERATURE) (overlooked_scores hp (ia (at_ i)))).
  { intros hp. apply valid_perm. rewrite !overlooked_map by auto. apply (moved_vals _ _ _ _ _ S). intros p _. apply (overlooked_moved dist ALPHA (move i)); auto. }
  assert (E2 : forall lp, valid_score (Q2R TEMPERATURE) (map Some (badloc_scores lp (ia' i))) = valid_score (Q2R TEMPERATURE) (map Some (badloc_scores lp (ia (at_ i))))).
  { intros lp. apply valid_perm. rewrite !badloc_map, !map_map by auto. apply (moved_vals _ _ _ _ _ P). intros kb _. apply (badloc_moved dist ALPHA (move i)); auto. }
  assert (E3 : forall hp, valid_score (Q2R TEMPERATURE) (map Some (swap_scores hp check (ia' i))) = valid_score (Q2R TEMPERATURE) (map Some (swap_scores hp check (ia (at_ i))))).
  { intros hp. apply valid_perm. rewrite !swap_map, !map_map by auto. apply (moved_vals _ _ _ _ _ P). intros kb _. apply (swap_moved dist ALPHA (move i)); auto. }
  unfold image_score. cbv zeta. rewrite E1, E2, E3. reflexivity.
Qed.
Lemma pick_tab {A} (d : A) (g : nat -> A) : pick d order (tab (length labels) g) = tab (length labels) (fun i => g (at_ i)).
Proof.
  assert (Lo : length order = length labels) by (rewrite (Permutation_length HO), seq_length; auto).
  unfold pick. apply (list_eq_nth _ _ d).
  - rewrite map_length, tab_length. auto.
  - intros i Hi. rewrite map_length in Hi. rewrite nth_tab by lia. rewrite (nth_map_gen _ _ _ _ 0%nat) by auto. apply nth_tab, at_lt. lia.
Qed.
Lemma scores_order w check : valid_weights w = true ->
  exists scores, detection_scores dist labels predictions w check = Ok scores /\ length scores = length labels /\
    detection_scores dist labels' predictions' w check = Ok (pick 0%R order scores).
Proof.
  intros Hw. pose proof new_inputs as (N' & L' & K0 & S' & HI'). destruct HD as (N & L & _ & S & HI).
  eexists. split; [apply (scores_eq dist labels predictions K L (fun i Hi => proj1 (HI i Hi)) (fun i Hi => proj2 (HI i Hi)) S K0 N w check Hw)|].
  split; [apply tab_length|].
  rewrite (scores_eq dist labels' predictions' K L' (fun i Hi => proj1 (HI' i Hi)) (fun i Hi => proj2 (HI' i Hi)) S' K0 N' w check Hw).
  f_equal. rewrite pick_tab, L1. apply tab_ext. intros i Hi. apply score_same, Hi.
Qed.

(** ** The mask *)
Variables (srt srt' : list Q -> list nat).
Hypothesis HA : forall k, (k < K)%nat -> mean_ap srt' labels' predictions' k == mean_ap srt labels predictions k.
Definition oval (o : option Q) : Q := match o with None => 1 | Some s => s end.
Lemma any_map {A} (F : A -> option Q) (G : A -> Q) l : any_issue (issues_per_box (map F l) (map G l)) = existsb (fun x => Qleb (oval (F x)) (G x * THRESHOLD_FACTOR)) l.
Proof.
  assert (E : any_issue (map (fun st => Qleb (match fst st with None => 1 | Some s => s end) (snd st * THRESHOLD_FACTOR)) (combine (map F l) (map G l))) =
    existsb (fun x => Qleb (oval (F x)) (G x * THRESHOLD_FACTOR)) l).
  { unfold any_issue. induction l as [|x l IH]; [reflexivity|]. cbn [map combine existsb fst snd]. fold (oval (F x)). rewrite count_true_cons.
    destruct (Qleb _ _); cbn [orb]; [|exact IH]. apply Nat.ltb_lt. lia. }
  destruct l as [|x l]; [reflexivity|]. exact E.
Qed.
Lemma any_moved {A B} (h : A -> B) F' F G' G l l' : Permutation l' (map h l) -> (forall a, In a l -> same_opt (F' (h a)) (F a)) ->
  (forall a, In a l -> G' (h a) * THRESHOLD_FACTOR == G a * THRESHOLD_FACTOR) ->
  any_issue (issues_per_box (map F' l') (map G' l')) = any_issue (issues_per_box (map F l) (map G l)).
Proof.
  intros P E1 E2. rewrite !any_map. apply (moved_exists h); auto. intros a Ha. apply Qleb_same; auto.
  specialize (E1 a Ha). destruct (F' (h a)), (F a); cbn in *; try tauto. reflexivity.
Qed.
Lemma flagged_same check i : (i < length labels)%nat -> flagged dist srt' labels' predictions' check i = flagged dist srt labels predictions check (at_ i).
Proof.
  intros Hi. pose proof (at_lt i Hi) as He. destruct (HM i Hi) as (Kp & P & F). pose proof (separate_perm _ _ _ F) as S. pose proof amin_same as M.
  assert (L : length labels = length predictions) by apply HD. assert (L' : length labels' = length predictions') by congruence.
  assert (Hi' : (i < length labels')%nat) by lia. destruct HD as (_ & _ & _ & (S1 & S2) & _).
  assert (T : forall k, (k < K)%nat -> apq srt' labels' predictions' k * THRESHOLD_FACTOR == apq srt labels predictions k * THRESHOLD_FACTOR).
  { intros k Hk. rewrite !apq_mean, HA by auto. reflexivity. }
  unfold flagged. rewrite !map_map.
  rewrite !overlooked_map, !badloc_map, !swap_map by auto. rewrite !map_map. cbn [image_aux a_preds a_labs].
  f_equal; [f_equal|].
  - apply (any_moved _ _ _ _ _ _ _ S); [intros; apply (overlooked_moved dist ALPHA (move i)); auto|]. intros [k d] H. apply T. cbn [fst].
    apply separate_predicted in H. unfold predicted in H. rewrite <- (S1 (nth (at_ i) predictions [])); [apply (nth_in_lt _ _ _ H)|apply nth_In; lia].
  - apply (any_moved _ _ _ _ _ _ _ P); [intros; apply (badloc_moved dist ALPHA (move i)); auto|]. intros kb H. apply T. cbn [fst].
    apply (S2 (nth (at_ i) labels [])); auto. apply nth_In; auto.
  - apply (any_moved _ _ _ _ _ _ _ P); [intros; apply (swap_moved dist ALPHA (move i)); auto|]. intros kb H. apply T. cbn [fst].
    apply (S2 (nth (at_ i) labels [])); auto. apply nth_In; auto.
Qed.
Lemma mask_order check : exists mask, find_label_issues_mask dist srt labels predictions check = Ok mask /\ length mask = length labels /\
    find_label_issues_mask dist srt' labels' predictions' check = Ok (pick false order mask).
Proof.
  pose proof new_inputs as (N' & L' & K0 & S' & HI'). pose proof HD as (N & L & _ & S & HI).
  eexists. split; [apply (mask_eq dist srt labels predictions K L (fun i Hi => proj1 (HI i Hi)) (fun i Hi => proj2 (HI i Hi)) S K0 N check)|].
  split; [apply tab_length|].
  rewrite (mask_eq dist srt' labels' predictions' K L' (fun i Hi => proj1 (HI' i Hi)) (fun i Hi => proj2 (HI' i Hi)) S' K0 N' check).
  f_equal. rewrite pick_tab, L1. apply tab_ext. intros i Hi. apply flagged_same, Hi.
Qed.
End Data.

(** ** The order of the images and the average precision *)
Lemma keyed_unique {A} (key : A -> Q) l : forall l', (forall x y, In x l -> In y l -> key x == key y -> x = y) -> NoDup l ->
  StronglySorted (fun x y => key x <= key y) l -> StronglySorted (fun x y => key x <= key y) l' -> Permutation l l' -> l = l'.
Proof.
  induction l as [|x l IH]; intros l' HK N S S' P; [apply Permutation_nil in P; auto|].
  destruct l' as [|y l']; [apply Permutation_sym, Permutation_nil in P; discriminate|].
  assert (x = y).
  { apply HK; [left; auto|apply (Permutation_in _ (Permutation_sym P)); left; auto|]. inversion S as [|? ? _ F]; inversion S' as [|? ? _ F']; subst.
    apply Qle_antisym.
    - assert (H : In y (x :: l)) by (apply (Permutation_in _ (Permutation_sym P)); left; auto). destruct H as [<-|H]; [apply Qle_refl|]. apply (proj1 (Forall_forall _ _) F y H).
    - assert (H : In x (y :: l')) by (apply (Permutation_in _ P); left; auto). destruct H as [<-|H]; [apply Qle_refl|]. apply (proj1 (Forall_forall _ _) F' x H). }
  subst y. f_equal. inversion S; inversion S'; inversion N; subst. apply IH; auto.
  - intros; apply HK; auto; right; auto.
  - apply Permutation_cons_inv with x; auto.
Qed.
Section Order.
Variable srt : list Q -> list nat.
Hypothesis Hs : argsort_ok srt.
Notation item := (Q * (bool * bool))%type.
Definition marks (thr : Q) (pl : list detection * list box) : list item :=
  let r := tp_fp_fn srt (fst pl) (snd pl) thr in combine (map snd (fst pl)) (combine (fst (fst r)) (snd (fst r))).
Lemma combine_fst {A B} (a : list A) (b : list B) : length a = length b -> map fst (combine a b) = a.
Proof. revert b. induction a as [|x a IH]; intros [|y b] H; try discriminate; auto. cbn. rewrite IH; auto. Qed.
Lemma combine_snd {A B} (a : list A) (b : list B) : length a = length b -> map snd (combine a b) = b.
Proof. revert b. induction a as [|x a IH]; intros [|y b] H; try discriminate; auto. cbn. rewrite IH; auto. Qed.
Lemma marks_ok thr pl : let r := tp_fp_fn srt (fst pl) (snd pl) thr in
  map fst (marks thr pl) = map snd (fst pl) /\ map (fun x => fst (snd x)) (marks thr pl) = fst (fst r) /\ map (fun x => snd (snd x)) (marks thr pl) = snd (fst r).
Proof.
  cbv zeta. unfold marks. destruct (tp_fp_fn srt (fst pl) (snd pl) thr) as [[tp fp] fn] eqn:E. cbn [fst snd].
  apply (matching_ok srt) in E as ((A & B & _) & _); auto.
  assert (C : length (map snd (fst pl)) = length (combine tp fp)) by (rewrite map_length, combine_length, A, B, Nat.min_id; auto).
  split; [apply combine_fst; auto|].
  rewrite <- !(map_map snd _ (combine (map snd (fst pl)) (combine tp fp))). rewrite (combine_snd _ _ C). split; [apply combine_fst|apply combine_snd]; congruence.
Qed.
Definition summary_of (num_gts : nat) (its : list item) : Q :=
  let tps := cumsum 0 (map (fun x => fst (snd x)) its) in
  let fps := cumsum 0 (map (fun x => snd (snd x)) its) in
  average_precision (map (fun t => Qnat t / qmax (Qnat num_gts) EPS32) tps)
    (map (fun tf => Qnat (fst tf) / qmax (Qnat (fst tf + snd tf)) EPS32) (combine tps fps)).
Definition all_marks thr labels predictions k : list item :=
  concat (map (marks thr) (combine (map (class_preds k) predictions) (map (class_labels k) labels))).
Lemma concat_map_map {A B C} (f : B -> C) (g : A -> list B) l : concat (map (fun a => map f (g a)) l) = map f (concat (map g l)).
Proof. rewrite concat_map, map_map. reflexivity. Qed.
Lemma take_map {A B} (f : A -> B) d d' l idx : (forall i, In i idx -> (i < length l)%nat) -> take_idx d (map f l) idx = map f (take_idx d' l idx).
Proof. intros H. unfold take_idx. rewrite map_map. apply map_ext_in. intros i Hi. apply nth_map_gen, H, Hi. Qed.
Lemma ap_marks thr labels predictions k : length labels = length predictions ->
  ap_class srt thr labels predictions k =
  summary_of (nsum (map (fun l => length (class_labels k l)) labels))
    (take_idx (0, (false, false)) (all_marks thr labels predictions k) (srt (map (fun x => - fst x) (all_marks thr labels predictions k)))).
Proof.
  intros L. unfold ap_class. cbv zeta. set (cp := map (class_preds k) predictions). set (cl := map (class_labels k) labels).
  assert (LC : length cp = length cl) by (unfold cp, cl; rewrite !map_length; auto).
  assert (E0 : map (fun d : detection => - snd d) (concat cp) = map (fun x => - fst x) (all_marks thr labels predictions k)).
  { unfold all_marks. fold cp cl. rewrite <- (map_map snd Qopp), <- (map_map fst Qopp). f_equal. rewrite concat_map, <- concat_map_map. f_equal.
    rewrite (map_ext (fun a => map fst (marks thr a)) (fun pl => map snd (fst pl))) by (intros; apply marks_ok).
    rewrite <- (map_map fst (map snd)), combine_fst by auto. reflexivity. }
  rewrite E0. set (its := all_marks thr labels predictions k). set (o := srt _).
  assert (HO : forall i, In i o -> (i < length its)%nat).
  { intros i Hi. destruct (Hs (map (fun x => - fst x) its)) as (P & _). apply (Permutation_in _ P), in_seq in Hi. rewrite map_length in Hi. lia. }
  rewrite !map_map.
  rewrite (map_ext (fun x : list detection * list box => fst (fst (tp_fp_fn srt (fst x) (snd x) thr))) (fun pl => map (fun x => fst (snd x)) (marks thr pl))) by (intros; symmetry; apply marks_ok).
  rewrite (map_ext (fun x : list detection * list box => snd (fst (tp_fp_fn srt (fst x) (snd x) thr))) (fun pl => map (fun x => snd (snd x)) (marks thr pl))) by (intros; symmetry; apply marks_ok).
  rewrite !concat_map_map. unfold all_marks in its. fold cp cl in its. fold its.
  rewrite !(take_map _ false (0, (false, false)) its o HO). unfold summary_of. cbv zeta. unfold cl. rewrite map_map. reflexivity.
Qed.
Lemma pairs_nth {A} (R : A -> A -> Prop) l d : ForallOrdPairs R l -> forall i j, (i < j)%nat -> (j < length l)%nat -> R (nth i l d) (nth j l d).
Proof.
  induction 1 as [|x l F _ IH]; intros i j H1 H2; [cbn in H2; lia|]. destruct j as [|j]; [lia|]. cbn in H2. destruct i as [|i]; cbn [nth].
  - apply (proj1 (Forall_forall _ _) F), nth_In. lia.
  - apply IH; lia.
Qed.
Variables (labels : list image_label) (predictions : list image_pred) (order : list nat).
Hypothesis L : length labels = length predictions.
Hypothesis HO : Permutation order (seq 0 (length labels)).
Hypothesis HD : distinct_probabilities predictions.
Lemma ap_order thr k : ap_class srt thr (pick [] order labels) (pick [] order predictions) k = ap_class srt thr labels predictions k.
Proof.
  rewrite !ap_marks by (unfold pick; rewrite ?map_length; auto).
  assert (Pl : Permutation (pick [] order labels) labels) by (apply ProofRows.pick_perm; auto).
  rewrite (nsum_perm _ _ (Permutation_map (fun l => length (class_labels k l)) Pl)). f_equal.
  set (its' := all_marks thr (pick [] order labels) (pick [] order predictions) k). set (its := all_marks thr labels predictions k).
  assert (PI : Permutation its' its).
  { unfold its', its, all_marks.
    assert (E : combine (map (class_preds k) (pick [] order predictions)) (map (class_labels k) (pick [] order labels)) =
      pick ([], []) order (combine (map (class_preds k) predictions) (map (class_labels k) labels))).
    { unfold pick. rewrite !map_map. clear - L HO. assert (G : forall i, In i order -> (i < length labels)%nat) by (intros i Hi; apply (Permutation_in _ HO), in_seq in Hi; lia).
      clear HO. induction order as [|e o IH]; [reflexivity|]. cbn [map combine]. f_equal; [|apply IH; intros; apply G; right; auto].
      assert (e < length labels)%nat by (apply G; left; auto).
      rewrite combine_nth by (rewrite !map_length; auto). rewrite !(nth_map_gen _ _ _ _ []) by lia. reflexivity. }
    rewrite E. set (pl := combine _ _). rewrite <- !flat_map_concat_map. apply flat_perm. apply ProofRows.pick_perm. unfold pl.
    rewrite combine_length, !map_length, <- L, Nat.min_id. auto. }
  assert (EK : map fst its = map snd (concat (map (fun p => nth k p []) predictions))).
  { unfold its, all_marks. rewrite <- concat_map_map.
    rewrite (map_ext (fun a => map fst (marks thr a)) (fun pl => map snd (fst pl))) by (intros; apply marks_ok).
    rewrite <- (map_map fst (map snd)), combine_fst by (rewrite !map_length; auto). rewrite concat_map. reflexivity. }
  assert (DK : forall i j, (i < length its)%nat -> (j < length its)%nat -> fst (nth i its (0, (false, false))) == fst (nth j its (0, (false, false))) -> i = j).
  { assert (LI : length its = length (concat (map (fun p : image_pred => nth k p []) predictions))) by (rewrite <- (map_length fst its), EK, map_length; auto).
    assert (N : forall i, (i < length its)%nat -> fst (nth i its (0, (false, false))) = snd (nth i (concat (map (fun p => nth k p []) predictions)) (no_box, 0))).
    { intros i Hi. rewrite <- (map_nth fst), EK. apply (nth_map_gen snd). lia. }
    assert (Q : forall i j, (i < j)%nat -> (j < length its)%nat -> ~ fst (nth i its (0, (false, false))) == fst (nth j its (0, (false, false)))).
    { intros i j H1 H2. rewrite !N by lia. apply (pairs_nth _ _ (no_box, 0) (HD k)); lia. }
    intros i j Hi Hj E. destruct (lt_eq_lt_dec i j) as [[G|G]|G]; auto; [destruct (Q i j)|destruct (Q j i)]; auto. symmetry. auto. }
  assert (TP : forall l : list item, Permutation (take_idx (0, (false, false)) l (srt (map (fun x => - fst x) l))) l).
  { intros l. apply (ProofRows.pick_perm (0, (false, false))). destruct (Hs (map (fun x => - fst x) l)) as (P & _). rewrite map_length in P. exact P. }
  assert (TS : forall l : list item, StronglySorted (fun x y => - fst x <= - fst y) (take_idx (0, (false, false)) l (srt (map (fun x => - fst x) l)))).
  { intros l. destruct (Hs (map (fun x => - fst x) l)) as (P & S). rewrite map_length in P.
    assert (G : forall i, In i (srt (map (fun x => - fst x) l)) -> (i < length l)%nat) by (intros i Hi; apply (Permutation_in _ P), in_seq in Hi; lia).
    clear P. unfold take_idx. induction S as [|i o S IH F]; [constructor|]. cbn [map]. constructor; [apply IH; intros; apply G; right; auto|].
    apply Forall_forall. intros y Hy. apply in_map_iff in Hy as (j & <- & Hj). pose proof (proj1 (Forall_forall _ _) F j Hj) as H. cbn beta in H.
    rewrite !(nth_map_gen _ _ _ _ (0, (false, false))) in H by (apply G; (left; reflexivity) || (right; exact Hj)). exact H. }
  apply (keyed_unique (fun x : item => - fst x)); auto.
  - intros x y Hx Hy E. apply (Permutation_in _ (TP its')), (Permutation_in _ PI) in Hx. apply (Permutation_in _ (TP its')), (Permutation_in _ PI) in Hy.
    apply (In_nth _ _ (0, (false, false))) in Hx as (i & Hi & <-). apply (In_nth _ _ (0, (false, false))) in Hy as (j & Hj & <-).
    f_equal. apply DK; auto. apply Qopp_comp in E. rewrite !Qopp_involutive in E. exact E.
  - apply (Permutation_NoDup (l := its)); [apply Permutation_sym; eapply perm_trans; [apply TP|exact PI]|].
    apply (NoDup_nth its (0, (false, false))). intros i j Hi Hj E. apply DK; auto. rewrite E. reflexivity.
  - eapply perm_trans; [apply TP|]. eapply perm_trans; [exact PI|]. apply Permutation_sym, TP.
Qed.
Lemma mean_ap_order k : mean_ap srt (pick [] order labels) (pick [] order predictions) k = mean_ap srt labels predictions k.
Proof. unfold mean_ap. f_equal. f_equal. apply map_ext. intros i. apply ap_order. Qed.
End Order.
Lemma keeps_id dist : keeps dist (fun b => b).
Proof. split; auto. intros. split; reflexivity. Qed.
Lemma F2_diag {A} (R : A -> A -> Prop) l : (forall x, R x x) -> Forall2 R l l.
Proof. intros H. induction l; constructor; auto. Qed.
Lemma same_picture_id l p : same_picture (fun b => b) l l p p.
Proof.
  split.
  - rewrite (map_ext _ (fun x => x)) by (intros []; reflexivity). rewrite map_id. apply Permutation_refl.
  - apply F2_diag. intros ds. rewrite (map_ext _ (fun x => x)) by (intros []; reflexivity). rewrite map_id. apply Permutation_refl.
Qed.
Lemma mask_images dist srt K labels predictions order check : (forall a b, unit_interval (dist a b)) -> argsort_ok srt ->
  detection_inputs K labels predictions -> distinct_probabilities predictions -> Permutation order (seq 0 (length labels)) ->
  exists mask, find_label_issues_mask dist srt labels predictions check = Ok mask /\ length mask = length labels /\
    find_label_issues_mask dist srt (pick [] order labels) (pick [] order predictions) check = Ok (pick false order mask).
Proof.
  intros Hd Hs HD HP HO. assert (L : length labels = length predictions) by apply HD.
  assert (Lo : length order = length labels) by (rewrite (Permutation_length HO), seq_length; auto).
  apply (mask_order dist K labels (pick [] order labels) predictions (pick [] order predictions) order (fun _ b => b)); auto; try (unfold pick; rewrite map_length; auto).
  - intros i Hi. split; [apply keeps_id|]. unfold pick. rewrite !(nth_map_gen _ _ _ _ 0%nat) by lia. apply same_picture_id.
  - intros k _. rewrite mean_ap_order by auto. reflexivity.
Qed.
Lemma keeps_shift dist dx dy : (forall a b, dist (shift dx dy a) (shift dx dy b) == dist a b) -> keeps dist (shift dx dy).
Proof.
  intros H. split.
  - intros a (W1 & W2). split; cbn [shift bx1 bx2 by1 by2]; Lqa.lra.
  - intros a b. split; [apply iou_shift|apply H].
Qed.
Lemma keeps_mirror dist W : (forall a b, dist (mirror W a) (mirror W b) == dist a b) -> keeps dist (mirror W).
Proof.
  intros H. split.
  - intros a (W1 & W2). split; cbn [mirror bx1 bx2 by1 by2]; Lqa.lra.
  - intros a b. split; [|apply H]. rewrite !iou_eq.
    assert (O : forall l h l' h', olen (W - h) (W - l) (W - h') (W - l') == olen l h l' h') by (intros; unfold olen; qcases; Lqa.lra).
    assert (I : inter (mirror W a) (mirror W b) == inter a b) by (unfold inter, mirror; cbn [bx1 bx2 by1 by2]; rewrite !O; reflexivity).
    assert (A : forall c, box_area (mirror W c) == box_area c) by (intros; unfold box_area, mirror; cbn [bx1 bx2 by1 by2]; ring).
    rewrite I, !A. reflexivity.
Qed.
