(** * The numbering of the classes: tokens and pixels *)
From Coq Require Import QArith List ZArith Bool Arith Lia Lqa Sorted Permutation.
From Verif Require Import Base BaseFacts ModelUtil ModelCount ModelRank ModelPool ModelFilter ModelBatched ModelToken ModelSegmentation SpecCount SpecFilter SpecRank SpecBatched SpecToken SpecSegmentation
  SpecSymmetry SpecRename SpecNumbering
  ProofUtil ProofCount ProofFilter ProofRank ProofIdeal ProofSymmetry ProofRows ProofRename ProofRename2 ProofToken ProofSegmentation ProofNumbering ProofNumbering4.
Import ListNotations.
Open Scope Q_scope.

Lemma sorted_same {A} (R : A -> A -> Prop) : forall a b, NoDup a -> NoDup b -> (forall x, In x a <-> In x b) -> StronglySorted R a -> StronglySorted R b ->
  (forall x y, In x a -> In y a -> R x y -> R y x -> x = y) -> a = b.
Proof.
  induction a as [|x a IH]; intros b Na Nb E Sa Sb U.
  - destruct b as [|y b]; [reflexivity|]. exfalso. apply (proj2 (E y)). now left.
  - destruct b as [|y b]; [exfalso; apply (proj1 (E x)); now left|].
    apply StronglySorted_inv in Sa as (Sa & Fa). apply StronglySorted_inv in Sb as (Sb & Fb). rewrite Forall_forall in Fa, Fb.
    inversion Na as [|? ? N1 N2]. inversion Nb as [|? ? N3 N4]. subst.
    assert (x = y) as <-.
    { destruct (proj1 (E x) (or_introl eq_refl)) as [->|I]; [reflexivity|]. destruct (proj2 (E y) (or_introl eq_refl)) as [->|J]; [reflexivity|].
      apply U; [now left|now right|now apply Fa|now apply Fb]. }
    f_equal. apply IH; auto.
    + intros z. split; intros I.
      * destruct (proj1 (E z) (or_intror I)) as [->|J]; [contradiction|exact J].
      * destruct (proj2 (E z) (or_intror I)) as [->|J]; [contradiction|exact J].
    + intros u v Hu Hv. apply U; now right.
Qed.

Lemma qmin_F2 (a b : list Q) : Forall2 Qeq a b -> qminimum a == qminimum b.
Proof.
  intros H. destruct H as [|x y a b E H]; [reflexivity|].
  apply qmin_match; [discriminate| |].
  - intros z Hz. destruct Hz as [<-|Hz]; [exists y; split; [now left|exact E]|]. clear - H Hz. induction H as [|u v a b E H IH]; [destruct Hz|].
    destruct Hz as [<-|Hz]; [exists v; split; [right; now left|exact E]|]. destruct (IH Hz) as (w & [W|W] & Z); exists w; split; auto; [now left|right; now right].
  - intros z Hz. destruct Hz as [<-|Hz]; [exists x; split; [now left|exact E]|]. clear - H Hz. induction H as [|u v a b E H IH]; [destruct Hz|].
    destruct Hz as [<-|Hz]; [exists u; split; [right; now left|exact E]|]. destruct (IH Hz) as (w & [W|W] & Z); exists w; split; auto; [now left|right; now right].
Qed.
Section Tokens.
Variables (K : nat) (names : list nat).
Hypothesis Pn : Permutation names (seq 0 K).
Variables (labels : list (list nat)) (pps pps' : list (list (list Q))).
Let L' := map (renamed_labels names) labels.
Hypothesis Hr : Forall2 (Forall2 (renamed_row names)) pps pps'.
Hypothesis Hd : dataset K (concat labels) (concat pps).

Lemma concat_labels_renamed : concat L' = renamed_labels names (concat labels).
Proof. unfold L', renamed_labels. now rewrite concat_map. Qed.
Lemma lens_renamed : map (@length nat) L' = map (@length nat) labels.
Proof. unfold L'. rewrite map_map. apply map_ext. intros x. apply map_length. Qed.
Lemma concat_rows_renamed : Forall2 (renamed_row names) (concat pps) (concat pps').
Proof. revert Hr. clear. intros H. induction H as [|a b p p' H F IH]; [constructor|]. cbn [concat]. apply Forall2_app; [exact H|exact IH]. Qed.
Lemma flat_dataset' : dataset K (concat L') (concat pps').
Proof. rewrite concat_labels_renamed. exact (renamed_dataset K names (concat labels) (concat pps) (concat pps') Pn Hd concat_rows_renamed). Qed.

Lemma position_unique ij ij' : in_text (map (@length nat) labels) ij -> in_text (map (@length nat) labels) ij' ->
  position (map (@length nat) labels) ij = position (map (@length nat) labels) ij' -> ij = ij'.
Proof. apply position_inj. Qed.
Lemma position_bound ij : in_text (map (@length nat) labels) ij -> (position (map (@length nat) labels) ij < length (concat labels))%nat.
Proof. intros H. rewrite ProofToken.concat_length. apply position_lt. exact H. Qed.

Lemma token_issues_renamed srt rank_by flt o : argsort_ok srt -> (2 <= K)%nat -> decided (concat labels) (concat pps) -> two_classes (concat labels) ->
  num_to_remove_per_class o = None -> (1 <= n_jobs o)%nat -> flt = ConfidentLearning \/ flt = PredictedNeqGiven ->
  exists issues issues', token_find_label_issues srt labels pps K rank_by None flt o = Ok issues /\
    token_find_label_issues srt L' pps' K rank_by None flt o = Ok issues' /\ Permutation issues' issues /\
    (distinct_scores K (concat labels) (concat pps) rank_by -> issues' = issues).
Proof.
  intros Hs HK Dec H2 Ho Hj Hf. pose proof concat_rows_renamed as HR. pose proof flat_dataset' as Hd'.
  destruct (renamed_full K names (concat labels) (concat pps) (concat pps') Pn Hd HR Dec srt o flt Hs H2 Ho Hj Hf) as (m & M1 & M2 & _).
  assert (H2' : two_classes (concat L')) by (rewrite concat_labels_renamed; exact (renamed_two K names (concat labels) (concat pps) Pn Hd H2)).
  rewrite <- concat_labels_renamed in M2.
  destruct (C30_find_full srt K labels pps rank_by flt o m Hs Hd H2 M1) as (is1 & sc & E1 & S1 & N1 & I1 & O1).
  destruct (C30_find_full srt K L' pps' rank_by flt o m Hs Hd' H2' M2) as (is2 & sc' & E2 & S2 & N2 & I2 & O2).
  rewrite lens_renamed in I2, O2. exists is1, is2. split; [exact E1|]. split; [exact E2|]. split.
  - apply NoDup_Permutation; auto. intros x. rewrite I1, I2. reflexivity.
  - intros D. destruct (scores_any_renamed K names Pn (concat labels) (concat pps) (concat pps') rank_by false sc HK Hd HR S1) as (sc2 & S3 & Q).
    rewrite <- concat_labels_renamed, S2 in S3. injection S3 as <-.
    assert (Qn : forall e, nth e sc' 0 == nth e sc 0) by (intros e; apply F2_nth_Q; exact Q).
    symmetry. eapply (sorted_same _ is1 is2 N1 N2); [intros x; now rewrite I1, I2|exact O1| |].
    + clear - O2 Qn. induction O2 as [|x l O IH F]; constructor; auto. rewrite Forall_forall in *. intros y Hy. rewrite <- !Qn. auto.
    + intros x y Hx Hy A B. apply I1 in Hx as (Hx & _), Hy as (Hy & _). apply position_unique; auto. cbn beta in A, B. apply (D sc); [exact S1|now apply position_bound|now apply position_bound|]. apply Qle_antisym; [exact A|exact B].
Qed.
Lemma token_low_memory_renamed srt srt' rank_by js js' flt flt' o o' issues issues' : argsort_ok srt -> argsort_ok srt' -> (2 <= K)%nat -> decided (concat labels) (concat pps) ->
  own_prob_floor (concat labels) (concat pps) -> distinct_scores K (concat labels) (concat pps) rank_by ->
  token_find_label_issues srt labels pps K rank_by (Some js) flt o = Ok issues ->
  token_find_label_issues srt' L' pps' K rank_by (Some js') flt' o' = Ok issues' -> issues' = issues.
Proof.
  intros Hs Hs' HK Dec Hfl D E E'. pose proof concat_rows_renamed as HR.
  assert (X : exists m, find_label_issues_batched srt (concat labels) (concat pps) K (2 * 5000)%nat rank_by false false js = Ok m).
  { unfold token_find_label_issues, token_issues, find_label_issues_batched_indices in E. destruct (find_label_issues_batched _ _ _ _ _ _ _ _ _) as [m|]; [eauto|discriminate]. }
  assert (X' : exists m, find_label_issues_batched srt' (concat L') (concat pps') K (2 * 5000)%nat rank_by false false js' = Ok m).
  { unfold token_find_label_issues, token_issues, find_label_issues_batched_indices in E'. destruct (find_label_issues_batched _ _ _ _ _ _ _ _ _) as [m|]; [eauto|discriminate]. }
  destruct X as (m & X), X' as (m' & X').
  assert (m' = m) as ->.
  { rewrite concat_labels_renamed in X'. exact (batched_renamed K names Pn (concat labels) (concat pps) (concat pps') Hd HR Dec srt srt' _ _ rank_by js js' m m' Hs Hs' HK Hfl D X X'). }
  destruct (C30_low_memory_full srt K labels pps rank_by js flt o m X) as (i1 & E1 & N1 & I1 & O1).
  destruct (C30_low_memory_full srt' K L' pps' rank_by js' flt' o' m X') as (i2 & E2 & N2 & I2 & O2).
  rewrite E in E1. injection E1 as <-. rewrite E' in E2. injection E2 as <-. rewrite lens_renamed in I2, O2.
  symmetry. eapply (sorted_same _ issues issues' N1 N2); [intros x; now rewrite I1, I2|exact O1|exact O2|]. intros x y _ _ A B. exfalso. cbn beta in A, B. lia.
Qed.
Lemma nested_F2 (lens : list nat) : forall a b : list Q, Forall2 Qeq a b -> Forall2 (Forall2 Qeq) (nested_list a lens) (nested_list b lens).
Proof.
  induction lens as [|n t IH]; intros a b H; [constructor|]. cbn [nested_list]. constructor; [now apply ProofBatched.Forall2_firstn|]. apply IH. now apply ProofBatched.Forall2_skipn.
Qed.
Lemma token_scores_renamed method ss ts : (2 <= K)%nat -> token_get_label_quality_scores labels pps K method = Ok (ss, ts) ->
  exists ss' ts', token_get_label_quality_scores L' pps' K method = Ok (ss', ts') /\ Forall2 Qeq ss' ss /\ Forall2 (Forall2 Qeq) ts' ts.
Proof.
  intros HK E. unfold token_get_label_quality_scores in *. destruct (get_label_quality_scores (concat labels) (concat pps) K method false) as [sc|e] eqn:S1; [|discriminate]. cbn [rbind] in E.
  destruct (scores_any_renamed K names Pn (concat labels) (concat pps) (concat pps') method false sc HK Hd concat_rows_renamed S1) as (sc' & S2 & Q).
  rewrite concat_labels_renamed, S2, lens_renamed. cbn [rbind]. pose proof (nested_F2 (map (@length nat) labels) sc' sc Q) as N.
  destruct (rmap min_sentence (nested_list sc (map (@length nat) labels))) as [x|e] eqn:R; [|discriminate]. cbn [rbind] in E. injection E as <- <-.
  assert (G : exists x', rmap min_sentence (nested_list sc' (map (@length nat) labels)) = Ok x' /\ Forall2 Qeq x' x).
  { revert x R. induction N as [|a b p q H N IH]; intros x R; cbn [rmap] in *.
    - injection R as <-. exists []. split; [reflexivity|constructor].
    - destruct H as [|u v a b Huv H]; [discriminate|]. cbn [min_sentence rbind] in *.
      destruct (rmap min_sentence q) as [y|]; [|discriminate]. cbn [rbind] in R. injection R as <-. destruct (IH y eq_refl) as (y' & -> & F). cbn [rbind]. eexists. split; [reflexivity|].
      constructor; [|exact F]. apply (qmin_F2 (u :: a) (v :: b)). now constructor. }
  destruct G as (x' & -> & F). cbn [rbind]. eexists. eexists. split; [reflexivity|]. auto.
Qed.
End Tokens.

(** ** pixels *)
Lemma flat_map_in_ext {A B} (f g : A -> list B) l : (forall x, In x l -> f x = g x) -> flat_map f l = flat_map g l.
Proof. intros H. rewrite !flat_map_concat_map. f_equal. now apply map_ext_in. Qed.
Lemma map_flat_map {A B C} (h : B -> C) (f : A -> list B) l : map h (flat_map f l) = flat_map (fun x => map h (f x)) l.
Proof. induction l as [|x l IH]; [reflexivity|]. cbn [flat_map]. now rewrite map_app, IH. Qed.
Lemma F2_flat {A B} (R : B -> B -> Prop) (f g : A -> list B) l : (forall x, In x l -> Forall2 R (f x) (g x)) -> Forall2 R (flat_map f l) (flat_map g l).
Proof. induction l as [|x l IH]; intros H; [constructor|]. cbn [flat_map]. apply Forall2_app; [apply H; now left|apply IH; intros y Hy; apply H; now right]. Qed.
Lemma F2_maps {A B} (R : B -> B -> Prop) (f g : A -> B) l : (forall x, In x l -> R (f x) (g x)) -> Forall2 R (map f l) (map g l).
Proof. induction l as [|x l IH]; intros H; constructor; [apply H; now left|apply IH; intros y Hy; apply H; now right]. Qed.

Section Pixels.
Variables (labels labels' : arr3 nat) (pp pp' : arr4) (names : list nat).
Hypothesis Pn : Permutation names (seq 0 (tK pp)).
Hypothesis HL : renamed_images names labels labels'.
Hypothesis HP : renamed_pixels names pp pp'.
Hypothesis S1 : sN labels = tN pp.
Hypothesis S2 : sH labels = tH pp.
Hypothesis S3 : sW labels = tW pp.
Hypothesis Hd : dataset (tK pp) (all_labels labels) (all_rows pp).
Hypothesis Hc : clear_pixels pp.
Hypothesis HK : (2 <= tK pp)%nat.
Let s k := nth k names 0%nat.

Lemma all_labels_renamed : all_labels labels' = renamed_labels names (all_labels labels).
Proof.
  destruct HL as (A & B & C & E). unfold renamed_labels, all_labels. rewrite A, B, C, map_flat_map. apply flat_map_in_ext. intros n Hn. apply in_seq in Hn.
  rewrite map_flat_map. apply flat_map_in_ext. intros i Hi. apply in_seq in Hi. rewrite map_map. apply map_ext_in. intros j Hj. apply in_seq in Hj. apply E. unfold in_image. lia.
Qed.
Lemma all_rows_renamed : Forall2 (renamed_row names) (all_rows pp) (all_rows pp').
Proof.
  destruct HP as (A & B & C & D & E). unfold all_rows. rewrite A, B, C, D. apply F2_flat. intros n Hn. apply in_seq in Hn. apply F2_flat. intros i Hi. apply in_seq in Hi.
  apply F2_maps. intros j Hj. apply in_seq in Hj. split; [now rewrite !map_length|]. rewrite map_length, seq_length. intros k Hk.
  pose proof (name_lt (tK pp) names Pn k Hk) as Hs.
  rewrite (nth_map_gen _ _ _ _ 0%nat) by now rewrite seq_length. rewrite (nth_map_gen _ _ _ _ 0%nat) by now rewrite seq_length. rewrite !seq_nth by auto. cbn [Nat.add]. apply E; lia.
Qed.
Lemma all_dataset' : dataset (tK pp') (all_labels labels') (all_rows pp').
Proof. rewrite all_labels_renamed. destruct HP as (_ & -> & _). exact (renamed_dataset _ names _ _ _ Pn Hd all_rows_renamed). Qed.
Lemma total_pixels : length (all_labels labels) = (sN labels * (sH labels * sW labels))%nat.
Proof. rewrite all_labels_flat, flat_length, seq_length. reflexivity. Qed.
Lemma pixel_of p : (p < sN labels * (sH labels * sW labels))%nat -> exists n i j, in_image labels n i j /\ p = pixel_index (sH labels) (sW labels) n i j.
Proof.
  intros H. set (h := sH labels) in *. set (w := sW labels) in *. assert (w <> 0)%nat by (intros ->; nia). assert (h * w <> 0)%nat by (intros E; rewrite E in H; lia).
  exists (p / (h * w))%nat, ((p mod (h * w)) / w)%nat, ((p mod (h * w)) mod w)%nat. split.
  - split; [|split].
    + apply Nat.div_lt_upper_bound; [auto|]. lia.
    + apply Nat.div_lt_upper_bound; [auto|]. pose proof (Nat.mod_upper_bound p (h * w)). fold h. lia.
    + now apply Nat.mod_upper_bound.
  - unfold pixel_index. pose proof (Nat.div_mod p (h * w)). pose proof (Nat.div_mod (p mod (h * w)) w). lia.
Qed.
Lemma row_in_clear row : In row (all_rows pp) -> length row = tK pp /\ (forall i j, (i < length row)%nat -> (j < length row)%nat -> i <> j -> nth i row 0 == nth j row 0 -> exists h, (h < length row)%nat /\ nth i row 0 < nth h row 0).
Proof.
  intros H. unfold all_rows in H. apply in_flat_map in H as (n & Hn & H). apply in_flat_map in H as (i & Hi & H). apply in_map_iff in H as (j & <- & Hj).
  apply in_seq in Hn, Hi, Hj. rewrite map_length, seq_length. split; [reflexivity|]. intros k1 k2 A B N.
  assert (E : forall k, (k < tK pp)%nat -> nth k (map (fun k => at4 pp n k i j) (seq 0 (tK pp))) 0 = at4 pp n k i j).
  { intros k Hk. rewrite (nth_map_gen _ _ _ _ 0%nat) by now rewrite seq_length. now rewrite seq_nth. }
  rewrite !E by auto. intros Z. destruct (Hc n i j k1 k2) as (h & Hh & L); try lia; auto. exists h. rewrite E by auto. auto.
Qed.
Lemma pixel_argmax p : (p < length (all_labels labels))%nat ->
  argmax (nth p (all_rows pp') []) = s (argmax (nth p (all_rows pp) [])) /\ (argmax (nth p (all_rows pp) []) < tK pp)%nat.
Proof.
  intros Hp. pose proof Hd as [Hlen Hne _ _ _]. assert (I : In (nth p (all_rows pp) []) (all_rows pp)) by (apply nth_In; lia).
  destruct (row_in_clear _ I) as (L & U). eapply (argmax_rn (tK pp) names Pn HK); [exact L| |exact U].
  pose proof all_rows_renamed as F. clear - F. revert p. induction F as [|a b l l' H F IH]; intros [|p]; cbn [nth]; auto; try (split; [reflexivity|intros k Hk; cbn in Hk; lia]).
  destruct H as (H1 & H2). split; [exact H1|]. intros k Hk. now rewrite (H2 k Hk).
Qed.

Lemma pixel_other p : (p < length (all_labels labels))%nat ->
  SpecSegmentation.confidently_other (all_labels labels') (all_rows pp') (nth p (all_labels labels') 0%nat) (nth p (all_rows pp') []) <->
  SpecSegmentation.confidently_other (all_labels labels) (all_rows pp) (nth p (all_labels labels) 0%nat) (nth p (all_rows pp) []).
Proof.
  intros Hp. unfold SpecSegmentation.confidently_other. destruct (pixel_argmax p Hp) as (-> & Hk). pose proof all_rows_renamed as HR.
  rewrite all_labels_renamed. pose proof Hd as [Hlen Hne Hlab Hrow _].
  assert (EL : nth p (renamed_labels names (all_labels labels)) 0%nat = s (nth p (all_labels labels) 0%nat)) by (unfold renamed_labels; now rewrite (nth_map_gen _ _ _ _ 0%nat)).
  rewrite EL. set (k := argmax (nth p (all_rows pp) [])) in *.
  pose proof (own_renamed (tK pp) names Pn _ _ _ k Hlab Hrow HR Hk) as O. pose proof (in_renamed (tK pp) names Pn _ k Hlab Hk) as I.
  change (own_probs (s k) (renamed_labels names (all_labels labels)) (all_rows pp') = own_probs k (all_labels labels) (all_rows pp)) in O.
  change (In k (all_labels labels) <-> In (s k) (renamed_labels names (all_labels labels))) in I. rewrite O, <- I.
  assert (V : nth (s k) (nth p (all_rows pp') []) 0 = nth k (nth p (all_rows pp) []) 0).
  { clearbody k. pose proof (renamed_prob (tK pp) names _ _ _ Hd HR p k Hp Hk) as V. exact V. }
  rewrite V. assert (N : s k <> s (nth p (all_labels labels) 0%nat) <-> k <> nth p (all_labels labels) 0%nat).
  { split; [congruence|]. intros N E. apply N. apply (name_inj (tK pp) names Pn); auto. apply Hlab. now apply nth_In. }
  rewrite N. reflexivity.
Qed.
Lemma ranked_renamed srt srt' bsz bsz' js js' r r' : argsort_ok srt -> argsort_ok srt' -> (0 < sH labels)%nat -> (0 < sW labels)%nat ->
  own_prob_floor (all_labels labels) (all_rows pp) -> distinct_pixels labels pp ->
  ranked_label_issues srt labels pp bsz js = Ok r -> ranked_label_issues srt' labels' pp' bsz' js' = Ok r' -> forall p, In p r' <-> In p r.
Proof.
  intros Hs Hs' Hh Hw Hfl Hdi E E'. pose proof all_rows_renamed as HR. pose proof all_dataset' as Hd'. pose proof HL as (A1 & A2 & A3 & A4). pose proof HP as (B1 & B2 & B3 & B4 & B5).
  assert (Hfl' : own_prob_floor (all_labels labels') (all_rows pp')) by (rewrite all_labels_renamed; exact (floor_renamed (tK pp) names _ _ _ Hd HR Hfl)).
  destruct (C32_ranked_full srt labels pp bsz js r Hs S1 S2 S3 Hh Hw Hd Hfl E) as (N1 & I1 & _ & L1 & c1 & M1 & T1 & Q1).
  destruct (C32_ranked_full srt' labels' pp' bsz' js' r' Hs') as (N2 & I2 & _ & L2 & c2 & M2 & T2 & Q2); try congruence; try lia; auto.
  set (conf := fun p => nth (nth p (all_labels labels) 0%nat) (nth p (all_rows pp) []) 0).
  assert (F : forall p, (p < sN labels * (sH labels * sW labels))%nat -> nth (nth p (all_labels labels') 0%nat) (nth p (all_rows pp') []) 0 = conf p).
  { intros p Hp. rewrite <- total_pixels in Hp. rewrite all_labels_renamed.
    pose proof (renamed_label names (all_labels labels) p Hp) as X. unfold label_of in X. rewrite X.
    apply (renamed_prob (tK pp) names _ _ _ Hd HR p _ Hp). apply Hd. now apply nth_In. }
  rewrite A1, A2, A3 in *.
  apply (lowest_unique conf (fun p => (p < sN labels * (sH labels * sW labels))%nat)); auto.
  - rewrite T1, T2. apply Permutation_length. apply NoDup_Permutation; auto. intros p. rewrite Q1, Q2. split; intros (U & V); split; auto; apply pixel_other; auto; now rewrite total_pixels.
  - intros x y Hx Hy Ny. rewrite <- (F x), <- (F y); auto.
  - intros x y Hx Hy Z. destruct (pixel_of x Hx) as (n & i & j & P1 & ->), (pixel_of y Hy) as (n' & i' & j' & P2 & ->). unfold conf in Z.
    destruct (pixel_content labels pp n i j S1 S2 S3 P1) as (C1 & C2 & C3), (pixel_content labels pp n' i' j' S1 S2 S3 P2) as (D1 & D2 & D3).
    rewrite C2, D2 in Z. assert (G : (at3 labels n i j < tK pp)%nat) by (apply Hd; rewrite <- C2; now apply nth_In). assert (G' : (at3 labels n' i' j' < tK pp)%nat) by (apply Hd; rewrite <- D2; now apply nth_In).
    rewrite C3, D3 in Z by auto. injection (Hdi n i j n' i' j' P1 P2 Z) as -> -> ->. reflexivity.
Qed.
Lemma predicted_renamed n i j : in_image labels n i j -> predicted_class pp' n i j (at3 labels' n i j) <-> predicted_class pp n i j (at3 labels n i j).
Proof.
  intros H. destruct HL as (A1 & A2 & A3 & A4). destruct HP as (B1 & B2 & B3 & B4 & B5). rewrite (A4 n i j H).
  assert (H' := H). destruct H' as (H1 & H2 & H3). set (c := at3 labels n i j).
  assert (Hk : (c < tK pp)%nat). { destruct (pixel_content labels pp n i j S1 S2 S3 H) as (C1 & C2 & _). apply Hd. unfold c. rewrite <- C2. now apply nth_In. }
  assert (V : forall k, (k < tK pp)%nat -> at4 pp' n (s k) i j = at4 pp n k i j) by (intros k Hk'; apply B5; lia). change (nth c names 0%nat) with (s c).
  unfold predicted_class. rewrite B2, V by auto. split; intros (P & M & _).
  - assert (G : forall k, (k < tK pp)%nat -> at4 pp n k i j <= at4 pp n c i j) by (intros k Hk'; rewrite <- (V k Hk'); apply M; apply (name_lt (tK pp) names Pn k Hk')).
    split; [auto|]. split; [auto|]. intros k Lk. destruct (Qlt_le_dec (at4 pp n k i j) (at4 pp n c i j)) as [Z|Z]; auto. exfalso.
    assert (X : at4 pp n k i j == at4 pp n c i j) by (apply Qle_antisym; [apply G; lia|exact Z]).
    destruct (Hc n i j k c) as (h & Hh & L); try lia; auto. pose proof (G h Hh). lra.
  - split; [apply (name_lt (tK pp) names Pn c Hk)|]. split.
    + intros k Hk'. destruct (name_onto (tK pp) names Pn k Hk') as (k0 & K0 & <-). change (nth k0 names 0%nat) with (s k0). rewrite V by auto. auto.
    + intros k Lk. assert (Hk' : (k < tK pp)%nat) by (pose proof (name_lt (tK pp) names Pn c Hk); unfold s in Lk; lia).
      destruct (name_onto (tK pp) names Pn k Hk') as (k0 & K0 & <-). change (nth k0 names 0%nat) with (s k0) in *. rewrite V by auto.
      destruct (Qlt_le_dec (at4 pp n k0 i j) (at4 pp n c i j)) as [Z|Z]; auto. exfalso.
      assert (X : at4 pp n k0 i j == at4 pp n c i j) by (apply Qle_antisym; [now apply M|exact Z]).
      destruct (Hc n i j k0 c) as (h & Hh & L); try lia; auto; [intros ->; lia|]. pose proof (M h Hh). lra.
Qed.
Lemma segmentation_renamed srt srt' b b' js js' issues issues' : argsort_ok srt -> argsort_ok srt' -> (0 < sH labels)%nat -> (0 < sW labels)%nat ->
  own_prob_floor (all_labels labels) (all_rows pp) -> distinct_pixels labels pp ->
  seg_find_label_issues srt labels pp b js 1 = Ok issues -> seg_find_label_issues srt' labels' pp' b' js' 1 = Ok issues' -> same_array issues' issues.
Proof.
  intros Hs Hs' Hh Hw Hfl Hdi E E'. pose proof HL as (A1 & A2 & A3 & A4). pose proof HP as (B1 & B2 & B3 & B4 & B5).
  assert (K0 : (0 < tK pp)%nat). { pose proof Hd as [_ Hne Hlab _ _]. destruct (all_labels labels) as [|l t]; [congruence|]. specialize (Hlab l (or_introl eq_refl)). lia. }
  destruct (C32_flagged_pred srt labels pp b js 1 issues K0 E) as (sl & sp & r & z & V1 & V2 & V3 & V4 & V5 & V6 & V7 & V8).
  destruct (C32_flagged_pred srt' labels' pp' b' js' 1 issues') as (sl' & sp' & r' & z' & W1 & W2 & W3 & W4 & W5 & W6 & W7 & W8); [lia|exact E'|].
  cbn in V3, W3. injection V3 as <- <-. injection W3 as <- <-. pose proof (ranked_renamed srt srt' z z' js js' r r' Hs Hs' Hh Hw Hfl Hdi V4 W4) as R.
  split; [congruence|]. split; [congruence|]. split; [congruence|]. intros n i j (P1 & P2 & P3).
  assert (P : in_image labels n i j) by (unfold in_image; lia). assert (P' : in_image labels' n i j) by (unfold in_image; lia).
  apply eq_true_iff_eq. rewrite (V8 n i j P), (W8 n i j P'), A2, A3, R, predicted_renamed by auto. reflexivity.
Qed.
Lemma pixel_scores_renamed sc : seg_pixel_scores labels pp = Ok sc -> exists sc', seg_pixel_scores labels' pp' = Ok sc' /\ same_array sc' sc.
Proof.
  intros E. pose proof HL as (A1 & A2 & A3 & A4). pose proof HP as (B1 & B2 & B3 & B4 & B5). unfold seg_pixel_scores, check_input in *. rewrite A1, A2, A3, B1, B3, B4 in *.
  destruct (Nat.eqb (sN labels) (tN pp) && Nat.eqb (sH labels) (tH pp) && Nat.eqb (sW labels) (tW pp))%bool; [|discriminate]. cbn [rbind] in *. injection E as <-. eexists. split; [reflexivity|]. split; [reflexivity|]. split; [reflexivity|]. split; [reflexivity|].
  cbn [sN sH sW at3]. intros n i j (H1 & H2 & H3). cbn [sN sH sW] in *. assert (P : in_image labels n i j) by (unfold in_image; lia). rewrite (A4 n i j P).
  apply B5; try lia. destruct (pixel_content labels pp n i j S1 S2 S3 P) as (C1 & C2 & _). apply Hd. rewrite <- C2. now apply nth_In.
Qed.
End Pixels.
