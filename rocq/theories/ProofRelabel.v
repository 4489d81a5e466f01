(** * Proofs of the independence of the numbering of the classes of object-detection data (C156) *)
From Coq Require Import QArith Qabs Qreals Reals List ZArith Bool Arith Lia Lra Permutation.
From Coq Require Lqa.
From Verif Require Import Base BaseFacts ModelUtil ModelEntropy ModelOutlier ModelToken ModelDetection SpecDetection SpecRows SpecRelabel SpecPictures
  ProofUtil ProofNoise ProofOutlier ProofRegRank ProofDetection ProofDetectionR ProofSymmetry ProofShuffle ProofRows ProofPictures.
Import ListNotations.
Open Scope Q_scope.

Lemma F2_map_in {A} (f h : A -> Q) l : (forall a, In a l -> f a == h a) -> Forall2 Qeq (map f l) (map h l).
Proof. induction l as [|x l IH]; intros H; constructor; [apply H; left; auto|apply IH; intros; apply H; right; auto]. Qed.

Lemma r_len {A B} (R : A -> B -> Prop) l l' : Forall2 R l l' -> length l = length l'.
Proof. induction 1; cbn; congruence. Qed.
Lemma r_nth {A B} (R : A -> B -> Prop) l l' d d' i : Forall2 R l l' -> (i < length l)%nat -> R (nth i l d) (nth i l' d').
Proof. intros H. revert i. induction H; intros [|i] Hi; cbn in *; try lia; auto. apply IHForall2. lia. Qed.
Lemma r_lt {A} (l : list (list A)) i x : In x (nth i l []) -> (i < length l)%nat.
Proof. intros H. destruct (le_lt_dec (length l) i); auto. rewrite nth_overflow in H by auto. destruct H. Qed.

Lemma map_tab_nth {A B} (f : A -> list B) n (h : nat -> A) i : (i < n)%nat -> nth i (map f (tab n h)) [] = f (h i).
Proof. intros Hi. unfold tab. rewrite map_map. rewrite (nth_map_gen _ _ _ _ 0%nat) by (rewrite seq_length; auto). rewrite seq_nth by auto. reflexivity. Qed.

(** ** One image *)
Section Renamed.
Variables (dist : box -> box -> Q) (alpha : Q) (g : nat -> nat) (K : nat).
Hypothesis Hg : forall a b, (a < K)%nat -> (b < K)%nat -> g a = g b -> a = b.
Variables (m m' : Q) (ls : image_label) (ps ps' : list (nat * detection)).
Hypothesis Hm : m' == m.
Notation ml := (fun kb : nat * box => (g (fst kb), snd kb)).
Notation mp := (fun p : nat * detection => (g (fst p), snd p)).
Hypothesis Kl : forall kb, In kb ls -> (fst kb < K)%nat.
Hypothesis Kp : forall p, In p ps -> (fst p < K)%nat.
Hypothesis Pp : Permutation ps' (map mp ps).
Lemma g_eqb a b : (a < K)%nat -> (b < K)%nat -> Nat.eqb (g a) (g b) = Nat.eqb a b.
Proof.
  intros Ha Hb. destruct (Nat.eqb_spec a b) as [->|N]; [apply Nat.eqb_refl|]. apply Nat.eqb_neq. intros E. apply N, Hg; auto.
Qed.
Lemma overlooked_renamed hp p : In p ps -> same_opt (overlooked_of dist alpha m' (map ml ls) hp (mp p)) (overlooked_of dist alpha m ls hp p).
Proof.
  intros Hp. unfold overlooked_of. cbn [fst snd].
  assert (P0 : Permutation (map ml ls) (map ml ls)) by apply Permutation_refl.
  rewrite (moved_exists ml (fun kb => Qltb 0 (iou (snd kb) (fst (snd p)))) (fun kb => Qltb 0 (iou (snd kb) (fst (snd p)))) ls _ P0) by reflexivity.
  destruct (_ || _); [exact I|].
  assert (P : Permutation (filter (fun kb => Nat.eqb (fst kb) (g (fst p))) (map ml ls)) (map ml (filter (fun kb => Nat.eqb (fst kb) (fst p)) ls)))
    by (apply (moved_filter ml); auto; intros a Ha; cbn [fst]; apply g_eqb; auto).
  pose proof (moved_top ml (fun kb => similarity dist alpha (snd kb) (fst (snd p))) (fun kb => similarity dist alpha (snd kb) (fst (snd p))) _ _ P
                (fun a _ => Qeq_refl _)) as T.
  destruct (filter (fun kb => Nat.eqb (fst kb) (fst p)) ls) as [|y l0].
  - rewrite (proj1 (moved_nil ml _ _ P) eq_refl). cbn [same_opt]. rewrite Hm. reflexivity.
  - destruct (filter (fun kb => Nat.eqb (fst kb) (g (fst p))) (map ml ls)) as [|x l0']; [pose proof (proj2 (moved_nil ml _ _ P) eq_refl); discriminate|].
    cbn [same_opt]. apply T. discriminate.
Qed.
Lemma badloc_renamed lp kb : In kb ls -> badloc_of dist alpha ps' lp (ml kb) == badloc_of dist alpha ps lp kb.
Proof.
  intros Hk. unfold badloc_of. cbn [fst snd].
  match goal with |- match filter ?F' (filter ?G' ps') with _ => _ end == match filter ?F (filter ?G ps) with _ => _ end =>
    assert (P : Permutation (filter F' (filter G' ps')) (map mp (filter F (filter G ps)))) end.
  { apply (moved_filter mp).
    - apply (moved_filter mp); auto. intros a Ha. cbn [fst]. apply g_eqb; auto.
    - intros a _. reflexivity. }
  pose proof (moved_max mp (fun p => similarity dist alpha (snd kb) (fst (snd p))) (fun p => similarity dist alpha (snd kb) (fst (snd p))) _ _ P
                (fun a _ => Qeq_refl _)) as T.
  destruct (filter _ (filter _ ps)) as [|y l0].
  - rewrite (proj1 (moved_nil mp _ _ P) eq_refl). reflexivity.
  - destruct (filter _ (filter _ ps')) as [|x l0']; [pose proof (proj2 (moved_nil mp _ _ P) eq_refl); discriminate|].
    apply T. discriminate.
Qed.
Lemma conflict_renamed kb : In kb ls -> conflict_of (map ml ls) (ml kb) = conflict_of ls kb.
Proof.
  intros Hk. unfold conflict_of. apply (moved_exists ml); auto. intros a Ha. cbn [fst snd]. rewrite g_eqb by auto. reflexivity.
Qed.
Lemma swap_renamed hp check kb : In kb ls -> swap_of dist alpha m' (map ml ls) ps' hp check (ml kb) == swap_of dist alpha m ls ps hp check kb.
Proof.
  intros Hk. unfold swap_of. rewrite conflict_renamed by auto. destruct (check && conflict_of ls kb); [exact Hm|]. cbn [fst snd].
  match goal with |- match filter ?F' ps' with _ => _ end == match filter ?F ps with _ => _ end =>
    assert (P : Permutation (filter F' ps') (map mp (filter F ps)))
      by (apply (moved_filter mp); auto; intros a Ha; unfold det_prob; cbn [fst snd]; rewrite g_eqb by auto; reflexivity) end.
  pose proof (moved_top mp (fun p => similarity dist alpha (snd kb) (fst (snd p))) (fun p => similarity dist alpha (snd kb) (fst (snd p))) _ _ P
                (fun a _ => Qeq_refl _)) as T.
  destruct (filter _ ps) as [|y l0].
  - rewrite (proj1 (moved_nil mp _ _ P) eq_refl). reflexivity.
  - destruct (filter _ ps') as [|x l0']; [pose proof (proj2 (moved_nil mp _ _ P) eq_refl); discriminate|].
    apply qmax_comp; auto. rewrite T by discriminate. reflexivity.
Qed.
End Renamed.

(** ** The names *)
Section Names.
Variables (names : list nat) (K : nat).
Hypothesis HN : Permutation names (seq 0 K).
Notation nm k := (nth k names 0%nat).
Lemma names_len : length names = K. Proof. rewrite (Permutation_length HN). apply seq_length. Qed.
Lemma name_lt k : (k < K)%nat -> (nm k < K)%nat.
Proof. intros H. assert (In (nm k) (seq 0 K)) as I by (apply (Permutation_in _ HN), nth_In; rewrite names_len; auto). apply in_seq in I. lia. Qed.
Lemma name_inj a b : (a < K)%nat -> (b < K)%nat -> nm a = nm b -> a = b.
Proof. intros Ha Hb. apply NoDup_nth; rewrite ?names_len; auto. apply (Permutation_NoDup (Permutation_sym HN)), seq_NoDup. Qed.
Lemma name_onto k : (k < K)%nat -> exists j, (j < K)%nat /\ nm j = k.
Proof.
  intros H. assert (In k names) as I by (apply (Permutation_in _ (Permutation_sym HN)), in_seq; lia).
  apply (In_nth _ _ 0%nat) in I as (j & Hj & E). rewrite names_len in Hj. eauto.
Qed.
Lemma names_map : names = map (fun k => nm k) (seq 0 K).
Proof. apply (list_eq_nth _ _ 0%nat); [rewrite map_length, seq_length; apply names_len|]. intros i Hi. rewrite names_len in Hi.
  rewrite (nth_map_gen _ _ _ _ 0%nat) by (rewrite seq_length; auto). rewrite seq_nth by auto. reflexivity. Qed.
Lemma separate_seq (p : image_pred) : separate_prediction p = flat_map (fun k => map (pair k) (nth k p [])) (seq 0 (length p)).
Proof.
  unfold separate_prediction. assert (G : forall p s, flat_map (fun kd : nat * list detection => map (fun d => (fst kd, d)) (snd kd)) (combine (seq s (length p)) p) =
    flat_map (fun k => map (pair k) (nth (k - s) p [])) (seq s (length p))).
  { clear. induction p as [|ds p IH]; intros s; [reflexivity|]. cbn [length seq combine flat_map fst snd]. rewrite Nat.sub_diag, IH. cbn [nth]. f_equal.
    rewrite !flat_map_concat_map. f_equal. apply map_ext_in. intros k Hk. apply in_seq in Hk. replace (k - s)%nat with (S (k - S s)) by lia. reflexivity. }
  rewrite G. rewrite !flat_map_concat_map. f_equal. apply map_ext. intros k. rewrite Nat.sub_0_r. reflexivity.
Qed.
Lemma flat_map_map {A B C} (f : B -> list C) (h : A -> B) l : flat_map f (map h l) = flat_map (fun a => f (h a)) l.
Proof. rewrite !flat_map_concat_map, map_map. reflexivity. Qed.
Lemma map_flat_map {A B C} (f : B -> C) (h : A -> list B) l : map f (flat_map h l) = flat_map (fun a => map f (h a)) l.
Proof. rewrite !flat_map_concat_map, concat_map, map_map. reflexivity. Qed.
Lemma separate_renamed (p p' : image_pred) : length p = K -> length p' = K -> (forall k, (k < K)%nat -> nth (nm k) p' [] = nth k p []) ->
  Permutation (separate_prediction p') (map (fun q : nat * detection => (nm (fst q), snd q)) (separate_prediction p)).
Proof.
  intros L L' E. rewrite !separate_seq, L, L'.
  eapply perm_trans; [apply flat_perm, Permutation_sym, HN|]. rewrite names_map at 1. rewrite flat_map_map, map_flat_map.
  rewrite !flat_map_concat_map. erewrite map_ext_in; [apply Permutation_refl|]. intros k Hk. apply in_seq in Hk. cbn beta. rewrite E by lia. rewrite map_map. reflexivity.
Qed.
Lemma class_labels_renamed (l : image_label) k : (k < K)%nat -> (forall kb, In kb l -> (fst kb < K)%nat) ->
  class_labels (nm k) (map (fun kb => (nm (fst kb), snd kb)) l) = class_labels k l.
Proof.
  intros Hk Hl. unfold class_labels. rewrite filter_map_comm, map_map. cbn [fst snd]. f_equal. apply filter_ext_in. intros kb H.
  apply (g_eqb (fun k => nm k) K name_inj); auto.
Qed.
End Names.

(** ** The data set *)
Section Data.
Variables (dist : box -> box -> Q) (K : nat) (labels : list image_label) (predictions predictions' : list image_pred) (names : list nat).
Hypothesis Hd : forall a b, unit_interval (dist a b).
Hypothesis HD : detection_inputs K labels predictions.
Hypothesis HN : Permutation names (seq 0 K).
Hypothesis HP : renamed_predictions names predictions predictions'.
Notation nm k := (nth k names 0%nat).
Notation labels' := (renamed_boxes names labels).
Notation ren := (fun kb : nat * box => (nm (fst kb), snd kb)).
Lemma len_l : length labels' = length labels. Proof. apply map_length. Qed.
Lemma len_p : length predictions' = length predictions. Proof. symmetry. apply (r_len _ _ _ HP). Qed.
Lemma nth_l i : nth i labels' [] = map ren (nth i labels []).
Proof. unfold renamed_boxes. change (@nil (nat * box)) with (map ren []) at 1. apply map_nth. Qed.
Lemma lab_lt i kb : In kb (nth i labels []) -> (fst kb < K)%nat.
Proof. intros H. destruct HD as (_ & _ & _ & (_ & S2) & _). apply (S2 (nth i labels [])); auto. apply nth_In, (r_lt _ _ _ H). Qed.
Lemma pred_len i : (i < length labels)%nat -> length (nth i predictions []) = K.
Proof. intros H. destruct HD as (_ & L & _ & (S1 & _) & _). apply S1, nth_In. lia. Qed.
Lemma pred_nth i : (i < length labels)%nat -> length (nth i predictions' []) = K /\ forall k, (k < K)%nat -> nth (nm k) (nth i predictions' []) [] = nth k (nth i predictions []) [].
Proof.
  intros H. assert (L : length labels = length predictions) by apply HD. pose proof (r_nth _ _ _ [] [] i HP ltac:(lia)) as (A & B). rewrite pred_len in A, B by auto. auto.
Qed.
Lemma sep_lt i p : (i < length labels)%nat -> In p (separate_prediction (nth i predictions [])) -> (fst p < K)%nat.
Proof. intros Hi H. destruct p as [k d]. apply separate_predicted in H. unfold predicted in H. rewrite <- (pred_len i Hi). apply (r_lt _ _ _ H). Qed.
Lemma pred_in' i ds d : (i < length labels)%nat -> In ds (nth i predictions' []) -> In d ds -> exists ds0, In ds0 (nth i predictions []) /\ In d ds0.
Proof.
  intros Hi H1 H2. destruct (pred_nth i Hi) as (A & B). apply (In_nth _ _ []) in H1 as (k & Hk & <-). rewrite A in Hk.
  destruct (name_onto names K HN k Hk) as (j & Hj & <-). rewrite B in H2 by auto. exists (nth j (nth i predictions []) []). split; auto.
  apply nth_In. rewrite pred_len; auto.
Qed.
Lemma relabel_inputs : detection_inputs K labels' predictions'.
Proof.
  destruct HD as (N & L & K0 & (S1 & S2) & HI). split; [|split; [rewrite len_l, len_p; auto|split; [auto|split; [split|]]]].
  - intros E. apply map_eq_nil in E. auto.
  - intros p H. apply (In_nth _ _ []) in H as (i & Hi & <-). rewrite len_p, <- L in Hi. apply pred_nth, Hi.
  - intros l kb H H1. apply (In_nth _ _ []) in H as (i & Hi & <-). rewrite nth_l in H1. apply in_map_iff in H1 as (x & <- & Hx). cbn [fst].
    apply (name_lt names K HN), (lab_lt i), Hx.
  - intros i Hi. rewrite len_l in Hi. destruct (HI i Hi) as ((B1 & B2) & B3). split; [split|].
    + intros kb H. rewrite nth_l in H. apply in_map_iff in H as (x & <- & Hx). cbn [snd]. apply B1, Hx.
    + intros ds d H1 H2. destruct (pred_in' i ds d Hi H1 H2) as (ds0 & A & B). apply (B2 ds0); auto.
    + intros ds d H1 H2. destruct (pred_in' i ds d Hi H1 H2) as (ds0 & A & B). apply (B3 ds0); auto.
Qed.
Lemma least_le' alpha l1 p1 l2 p2 m m' :
  least_similarity dist alpha l1 p1 m -> least_similarity dist alpha l2 p2 m' ->
  (forall a b i k k' q, In (k, a) (nth i l1 []) -> predicted (nth i p1 []) k' (b, q) ->
    exists k2 k2', In (k2, a) (nth i l2 []) /\ predicted (nth i p2 []) k2' (b, q)) ->
  m' <= m.
Proof.
  intros (A1 & A2 & A3 & A4) (B1 & B2 & B3 & B4) H. destruct A4 as [E|(a & b & (i & k & k' & q & H1 & H2) & E)]; [rewrite E; exact B2|].
  destruct (H a b i k k' q H1 H2) as (k2 & k2' & C1 & C2). rewrite E. apply B3.
  - exists i, k2, k2', q. auto.
  - rewrite <- E. exact A1.
Qed.
Lemma relabel_amin alpha : unit_interval alpha -> min_possible_similarity dist alpha labels' predictions' == min_possible_similarity dist alpha labels predictions.
Proof.
  intros Ha. pose proof relabel_inputs as (N' & L' & _ & _ & HI'). pose proof HD as (N & L & K0 & (S1 & S2) & HI).
  pose proof (amin_spec dist alpha labels predictions Hd Ha L (fun i Hi => proj1 (HI i Hi))) as A.
  pose proof (amin_spec dist alpha labels' predictions' Hd Ha L' (fun i Hi => proj1 (HI' i Hi))) as B.
  apply Qle_antisym.
  - apply (least_le' alpha labels predictions labels' predictions'); auto. intros a b i k k' q H1 H2.
    pose proof (r_lt _ _ _ H1) as Hi. destruct (pred_nth i Hi) as (_ & E). unfold predicted in *.
    pose proof (r_lt _ _ _ H2) as Hk. rewrite (pred_len i Hi) in Hk.
    exists (nm k), (nm k'). split.
    + rewrite nth_l. apply in_map_iff. exists (k, a). auto.
    + rewrite E by auto. auto.
  - apply (least_le' alpha labels' predictions' labels predictions); auto. intros a b i k k' q H1 H2.
    pose proof (r_lt _ _ _ H1) as Hi. rewrite len_l in Hi. destruct (pred_nth i Hi) as (Lp & E). unfold predicted in *.
    pose proof (r_lt _ _ _ H2) as Hk. rewrite Lp in Hk. destruct (name_onto names K HN k' Hk) as (j & Hj & <-). rewrite E in H2 by auto.
    rewrite nth_l in H1. apply in_map_iff in H1 as ([k0 a0] & F & H1). cbn [fst snd] in F. injection F as <- <-. eauto.
Qed.

(** ** Box scores *)
Section Alpha.
Variable alpha : Q.
Hypothesis Ha : unit_interval alpha.
Notation ia := (image_aux dist alpha labels predictions).
Notation ia' := (image_aux dist alpha labels' predictions').
Lemma sep_perm i : (i < length labels)%nat ->
  Permutation (separate_prediction (nth i predictions' [])) (map (fun q : nat * detection => (nm (fst q), snd q)) (separate_prediction (nth i predictions []))).
Proof. intros Hi. destruct (pred_nth i Hi) as (A & B). apply (separate_renamed names K HN); auto. apply pred_len; auto. Qed.
Lemma relabel_overlooked hp i p : (i < length labels)%nat -> In p (separate_prediction (nth i predictions [])) ->
  same_opt (overlooked_of dist alpha (min_possible_similarity dist alpha labels' predictions') (nth i labels' []) hp (nm (fst p), snd p))
    (overlooked_of dist alpha (min_possible_similarity dist alpha labels predictions) (nth i labels []) hp p).
Proof.
  intros Hi H. rewrite nth_l. eapply (overlooked_renamed dist alpha (fun k => nm k) K (name_inj names K HN)); [apply relabel_amin; auto|apply lab_lt|intros q; apply (sep_lt i q Hi)|exact H].
Qed.
Lemma relabel_badloc lp i : (i < length labels)%nat -> Forall2 Qeq (badloc_scores lp (ia' i)) (badloc_scores lp (ia i)).
Proof.
  intros Hi. pose proof relabel_inputs as (_ & L' & _). assert (L : length labels = length predictions) by apply HD.
  rewrite !badloc_map by (auto; rewrite len_l; auto). rewrite nth_l, map_map.
  assert (G : forall kb, In kb (nth i labels []) -> badloc_of dist alpha (separate_prediction (nth i predictions' [])) lp (ren kb) == badloc_of dist alpha (separate_prediction (nth i predictions [])) lp kb).
  { intros kb H. eapply (badloc_renamed dist alpha (fun k => nm k) K (name_inj names K HN) (nth i labels [])); auto; [apply lab_lt|intros q; apply (sep_lt i q Hi)|apply sep_perm; auto]. }
  apply F2_map_in, G.
Qed.
Lemma relabel_swap hp check i : (i < length labels)%nat -> Forall2 Qeq (swap_scores hp check (ia' i)) (swap_scores hp check (ia i)).
Proof.
  intros Hi. pose proof relabel_inputs as (_ & L' & _). assert (L : length labels = length predictions) by apply HD.
  rewrite !swap_map by (auto; rewrite len_l; auto). rewrite nth_l, map_map.
  assert (G : forall kb, In kb (nth i labels []) -> swap_of dist alpha (min_possible_similarity dist alpha labels' predictions') (map ren (nth i labels []))
    (separate_prediction (nth i predictions' [])) hp check (ren kb) == swap_of dist alpha (min_possible_similarity dist alpha labels predictions) (nth i labels []) (separate_prediction (nth i predictions [])) hp check kb).
  { intros kb H. eapply (swap_renamed dist alpha (fun k => nm k) K (name_inj names K HN)); auto; [apply relabel_amin; auto|apply lab_lt|intros q; apply (sep_lt i q Hi)|apply sep_perm; auto]. }
  apply F2_map_in, G.
Qed.
Lemma relabel_all_badloc lp : Forall2 (Forall2 Qeq) (compute_badloc_box_scores dist alpha lp labels' predictions') (compute_badloc_box_scores dist alpha lp labels predictions).
Proof.
  pose proof relabel_inputs as (_ & L' & _). assert (L : length labels = length predictions) by apply HD.
  unfold compute_badloc_box_scores. rewrite !aux_inputs_tab by auto. rewrite len_l. unfold tab. rewrite !map_map.
  assert (G : forall i, In i (seq 0 (length labels)) -> (i < length labels)%nat) by (intros i H; apply in_seq in H; lia).
  induction (seq 0 (length labels)) as [|i l IH]; constructor; [apply relabel_badloc, G; left; auto|apply IH; intros; apply G; right; auto].
Qed.
Lemma relabel_all_swap hp check : Forall2 (Forall2 Qeq) (compute_swap_box_scores dist alpha hp check labels' predictions') (compute_swap_box_scores dist alpha hp check labels predictions).
Proof.
  pose proof relabel_inputs as (_ & L' & _). assert (L : length labels = length predictions) by apply HD.
  unfold compute_swap_box_scores. rewrite !aux_inputs_tab by auto. rewrite len_l. unfold tab. rewrite !map_map.
  assert (G : forall i, In i (seq 0 (length labels)) -> (i < length labels)%nat) by (intros i H; apply in_seq in H; lia).
  induction (seq 0 (length labels)) as [|i l IH]; constructor; [apply relabel_swap, G; left; auto|apply IH; intros; apply G; right; auto].
Qed.
Lemma relabel_each_overlooked hp i j k d : (i < length labels)%nat -> nth_prediction 0 (nth i predictions []) j = Some (k, d) ->
  exists j' s s', nth_prediction 0 (nth i predictions' []) j' = Some (nm k, d) /\
    nth_error (nth i (compute_overlooked_box_scores dist alpha hp labels predictions) []) j = Some s /\
    nth_error (nth i (compute_overlooked_box_scores dist alpha hp labels' predictions') []) j' = Some s' /\ same_value s' s.
Proof.
  intros Hi E. pose proof relabel_inputs as (_ & L' & _). assert (L : length labels = length predictions) by apply HD.
  rewrite <- separate_nth' in E. pose proof (nth_error_In _ _ E) as I.
  assert (I' : In (nm k, d) (separate_prediction (nth i predictions' []))).
  { apply (Permutation_in _ (Permutation_sym (sep_perm i Hi))), in_map_iff. exists (k, d). auto. }
  apply In_nth_error in I' as (j' & E').
  unfold compute_overlooked_box_scores. rewrite !aux_inputs_tab by auto. rewrite !map_tab_nth by (rewrite ?len_l; auto).
  rewrite !overlooked_map by (rewrite ?len_l; auto). do 3 eexists. split; [rewrite <- separate_nth'; exact E'|].
  split; [rewrite nth_error_map, E; reflexivity|]. split; [rewrite nth_error_map, E'; reflexivity|].
  apply (relabel_overlooked hp i (k, d) Hi I).
Qed.
Lemma relabel_overlooked_count hp i : (i < length labels)%nat ->
  length (nth i (compute_overlooked_box_scores dist alpha hp labels' predictions') []) = length (nth i (compute_overlooked_box_scores dist alpha hp labels predictions) []).
Proof.
  intros Hi. pose proof relabel_inputs as (_ & L' & _). assert (L : length labels = length predictions) by apply HD.
  unfold compute_overlooked_box_scores. rewrite !aux_inputs_tab by auto. rewrite !map_tab_nth by (rewrite ?len_l; auto).
  rewrite !overlooked_map by (rewrite ?len_l; auto). rewrite !map_length, (Permutation_length (sep_perm i Hi)), map_length. reflexivity.
Qed.
End Alpha.

(** ** Image scores *)
Notation ia := (image_aux dist ALPHA labels predictions).
Notation ia' := (image_aux dist ALPHA labels' predictions').
Lemma vals_eq l l' : Forall2 Qeq l l' -> vals (map Some l) = vals (map Some l').
Proof. induction 1 as [|x y l l' E _ IH]; [reflexivity|]. cbn [map vals flat_map]. rewrite (Qeq_eqR _ _ E). unfold vals in IH. cbn [app]. rewrite IH. reflexivity. Qed.
Lemma relabel_score w check i : (i < length labels)%nat -> image_score w check (ia' i) = image_score w check (ia i).
Proof.
  intros Hi. pose proof relabel_inputs as (_ & L' & _). assert (L : length labels = length predictions) by apply HD.
  unfold image_score. cbv zeta.
  rewrite (valid_perm (Q2R TEMPERATURE) (map Some (badloc_scores _ (ia' i))) (map Some (badloc_scores LOW_PROBABILITY_THRESHOLD (ia i))))
    by (rewrite (vals_eq _ _ (relabel_badloc ALPHA _ i Hi)); apply Permutation_refl).
  rewrite (valid_perm (Q2R TEMPERATURE) (map Some (swap_scores _ check (ia' i))) (map Some (swap_scores HIGH_PROBABILITY_THRESHOLD check (ia i))))
    by (rewrite (vals_eq _ _ (relabel_swap ALPHA alpha_unit _ check i Hi)); apply Permutation_refl).
  rewrite (valid_perm (Q2R TEMPERATURE) (overlooked_scores _ (ia' i)) (overlooked_scores HIGH_PROBABILITY_THRESHOLD (ia i))); [reflexivity|].
  rewrite !overlooked_map by (rewrite ?len_l; auto). apply (moved_vals _ _ _ _ _ (sep_perm i Hi)). intros p Hp. apply (relabel_overlooked ALPHA alpha_unit); auto.
Qed.
Lemma relabel_scores w check : valid_weights w = true ->
  detection_scores dist labels' predictions' w check = detection_scores dist labels predictions w check.
Proof.
  intros Hw. pose proof relabel_inputs as (N' & L' & K0 & S' & HI'). pose proof HD as (N & L & _ & S & HI).
  rewrite (scores_eq dist labels predictions K L (fun i Hi => proj1 (HI i Hi)) (fun i Hi => proj2 (HI i Hi)) S K0 N w check Hw).
  rewrite (scores_eq dist labels' predictions' K L' (fun i Hi => proj1 (HI' i Hi)) (fun i Hi => proj2 (HI' i Hi)) S' K0 N' w check Hw).
  f_equal. rewrite len_l. apply tab_ext. intros i Hi. apply relabel_score, Hi.
Qed.

(** ** Average precision and the flagged images *)
Variable srt : list Q -> list nat.
Lemma relabel_ap thr k : (k < K)%nat -> ap_class srt thr labels' predictions' (nm k) = ap_class srt thr labels predictions k.
Proof.
  intros Hk. unfold ap_class. cbv zeta.
  assert (E1 : map (class_labels (nm k)) labels' = map (class_labels k) labels).
  { unfold renamed_boxes. rewrite map_map. apply map_ext_in. intros l Hl. apply (class_labels_renamed names K HN); auto.
    destruct HD as (_ & _ & _ & (_ & S2) & _). intros kb. apply S2, Hl. }
  assert (E2 : map (class_preds (nm k)) predictions' = map (class_preds k) predictions).
  { apply (list_eq_nth _ _ []); [rewrite !map_length; apply len_p|]. intros i Hi. rewrite map_length, len_p in Hi.
    rewrite !(nth_map_gen _ _ _ _ []) by (rewrite ?len_p; auto). apply pred_nth; auto. destruct HD as (_ & L & _). lia. }
  rewrite E1, E2. reflexivity.
Qed.
Lemma relabel_mean_ap k : (k < K)%nat -> mean_ap srt labels' predictions' (nm k) = mean_ap srt labels predictions k.
Proof. intros Hk. unfold mean_ap. f_equal. f_equal. apply map_ext. intros i. apply relabel_ap, Hk. Qed.
Lemma relabel_apq k : (k < K)%nat -> apq srt labels' predictions' (nm k) = apq srt labels predictions k.
Proof. intros Hk. unfold apq. f_equal. f_equal. apply map_ext. intros thr. apply relabel_ap, Hk. Qed.
Lemma relabel_per_class : exists v v', per_class_ap srt labels predictions = Ok v /\ per_class_ap srt labels' predictions' = Ok v' /\
  length v = K /\ length v' = K /\ forall k, (k < K)%nat -> nth (nm k) v' 0 = nth k v 0.
Proof.
  pose proof relabel_inputs as (N' & L' & K0 & S' & HI'). pose proof HD as (N & L & _ & S & HI).
  exists (tab K (apq srt labels predictions)), (tab K (apq srt labels' predictions')).
  split; [apply per_class_ok; auto; intros i Hi; apply HI, Hi|]. split; [apply per_class_ok; auto; intros i Hi; apply HI', Hi|].
  split; [apply tab_length|]. split; [apply tab_length|]. intros k Hk. rewrite !nth_tab by (auto; apply (name_lt names K HN); auto). apply relabel_apq, Hk.
Qed.
Lemma any_moved' {A B} (h : A -> B) F' F G' G l l' : Permutation l' (map h l) -> (forall a, In a l -> same_opt (F' (h a)) (F a)) ->
  (forall a, In a l -> G' (h a) = G a) ->
  any_issue (issues_per_box (map F' l') (map G' l')) = any_issue (issues_per_box (map F l) (map G l)).
Proof.
  intros P E1 E2. assert (AM : forall X (F : X -> option Q) (G : X -> Q) l,
    any_issue (issues_per_box (map F l) (map G l)) = existsb (fun x => Qleb (oval (F x)) (G x * THRESHOLD_FACTOR)) l).
  { clear. intros X F G l.
    assert (E : any_issue (map (fun st => Qleb (match fst st with None => 1 | Some s => s end) (snd st * THRESHOLD_FACTOR)) (combine (map F l) (map G l))) =
      existsb (fun x => Qleb (oval (F x)) (G x * THRESHOLD_FACTOR)) l).
    { unfold any_issue. induction l as [|x l IH]; [reflexivity|]. cbn [map combine existsb fst snd]. fold (oval (F x)). rewrite count_true_cons.
      destruct (Qleb _ _); cbn [orb]; [|exact IH]. apply Nat.ltb_lt. lia. }
    destruct l as [|x l]; [reflexivity|]. exact E. }
  rewrite !AM. apply (moved_exists h); auto. intros a H. rewrite E2 by auto. apply Qleb_same; [|reflexivity].
  specialize (E1 a H). destruct (F' (h a)), (F a); cbn in *; try tauto. reflexivity.
Qed.
Lemma relabel_flagged check i : (i < length labels)%nat -> flagged dist srt labels' predictions' check i = flagged dist srt labels predictions check i.
Proof.
  intros Hi. pose proof relabel_inputs as (_ & L' & _). assert (L : length labels = length predictions) by apply HD.
  unfold flagged. rewrite !map_map.
  rewrite !overlooked_map, !badloc_map, !swap_map by (auto; rewrite ?len_l; auto). rewrite !map_map. cbn [image_aux a_preds a_labs].
  assert (P : Permutation (nth i labels' []) (map ren (nth i labels []))) by (rewrite nth_l; apply Permutation_refl).
  f_equal; [f_equal|].
  - apply (any_moved' _ _ _ _ _ _ _ (sep_perm i Hi)); [intros p Hp; apply (relabel_overlooked ALPHA alpha_unit); auto|]. intros p Hp. apply relabel_apq, (sep_lt i p Hi Hp).
  - apply (any_moved' _ _ _ _ _ _ _ P); [|intros kb H; apply relabel_apq, (lab_lt i kb H)].
    intros kb H. eapply (badloc_renamed dist ALPHA (fun k => nm k) K (name_inj names K HN) (nth i labels [])); auto; [apply lab_lt|intros q; apply (sep_lt i q Hi)|apply sep_perm; auto].
  - apply (any_moved' _ _ _ _ _ _ _ P); [|intros kb H; apply relabel_apq, (lab_lt i kb H)].
    intros kb H. rewrite nth_l. eapply (swap_renamed dist ALPHA (fun k => nm k) K (name_inj names K HN)); auto; [apply relabel_amin, alpha_unit|apply lab_lt|intros q; apply (sep_lt i q Hi)|apply sep_perm; auto].
Qed.
Lemma relabel_mask check : find_label_issues_mask dist srt labels' predictions' check = find_label_issues_mask dist srt labels predictions check.
Proof.
  pose proof relabel_inputs as (N' & L' & K0 & S' & HI'). pose proof HD as (N & L & _ & S & HI).
  rewrite (mask_eq dist srt labels predictions K L (fun i Hi => proj1 (HI i Hi)) (fun i Hi => proj2 (HI i Hi)) S K0 N check).
  rewrite (mask_eq dist srt labels' predictions' K L' (fun i Hi => proj1 (HI' i Hi)) (fun i Hi => proj2 (HI' i Hi)) S' K0 N' check).
  f_equal. rewrite len_l. apply tab_ext. intros i Hi. apply relabel_flagged, Hi.
Qed.
End Data.
Lemma relabel_ranked dist K labels predictions predictions' names srt srtR check : (forall a b, unit_interval (dist a b)) ->
  detection_inputs K labels predictions -> Permutation names (seq 0 K) -> renamed_predictions names predictions predictions' ->
  find_label_issues_ranked dist srt srtR (renamed_boxes names labels) predictions' check = find_label_issues_ranked dist srt srtR labels predictions check.
Proof.
  intros Hd HD HN HP. unfold find_label_issues_ranked. rewrite (relabel_mask dist K labels predictions predictions' names) by auto.
  rewrite (relabel_scores dist K labels predictions predictions' names) by auto. reflexivity.
Qed.
