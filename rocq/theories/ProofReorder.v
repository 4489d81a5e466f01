(** * Lemmas about reordering multi-label examples, classes and sentences *)
From Coq Require Import String QArith Qabs List Sorted ZArith Bool Arith Lia Lqa Permutation.
From Verif Require Import Base BaseFacts ModelUtil ModelCount ModelRank ModelFilter ModelMultilabel ModelToken ModelPool ModelBatched SpecCount SpecFilter SpecRank
  SpecMultilabel SpecToken SpecBatched SpecBatchFlags SpecSymmetry SpecReorder
  ProofUtil ProofCount ProofFilter ProofRank ProofTotal ProofSymmetry ProofMultilabel ProofToken ProofBatchFlags.
Import ListNotations.
Open Scope Q_scope.

Lemma pick_map {A B} (f : A -> B) d d' order l : (forall i, In i order -> (i < length l)%nat) ->
  map f (pick d order l) = pick d' order (map f l).
Proof.
  intros H. unfold pick. rewrite map_map. apply map_ext_in. intros i Hi. symmetry. apply nth_map_gen. now apply H.
Qed.

(** ** multi-label *)
Section ML.
Variables (K : nat) (labels : list (list nat)) (pp : list (list Q)) (order : list nat).
Hypothesis Hd : ml_dataset K labels pp.
Hypothesis Ho : Permutation order (seq 0 (length labels)).

Lemma ord_lt i : In i order -> (i < length labels)%nat.
Proof. intros H. apply (Permutation_in _ Ho) in H. apply in_seq in H. lia. Qed.
Lemma ord_len : length order = length labels.
Proof. rewrite (Permutation_length Ho). apply seq_length. Qed.
Lemma ml_picked : ml_dataset K (pick [] order labels) (pick [] order pp).
Proof.
  destruct Hd as [D1 D2 D3 D4 D5]. split.
  - now rewrite !pick_length.
  - intros C. pose proof (f_equal (@length _) C) as E. rewrite pick_length, ord_len in E. destruct labels; [now apply D2|discriminate].
  - intros l k Hl Hk. unfold pick in Hl. apply in_map_iff in Hl as (i & <- & Hi). apply (D3 (nth i labels [])); auto. apply nth_In, ord_lt, Hi.
  - intros r Hr. unfold pick in Hr. apply in_map_iff in Hr as (i & <- & Hi). apply D4, nth_In. rewrite <- D1. apply ord_lt, Hi.
  - intros r x Hr Hx. unfold pick in Hr. apply in_map_iff in Hr as (i & <- & Hi). apply (D5 (nth i pp [])); auto. apply nth_In. rewrite <- D1. apply ord_lt, Hi.
Qed.
Lemma bin_labels_picked c : (c < K)%nat -> binary_labels (pick [] order labels) K c = pick 0%nat order (binary_labels labels K c).
Proof.
  intros Hc. apply list_eq_nth with (d := 0%nat); rewrite binary_length, !pick_length; [reflexivity|]. intros e He.
  rewrite pick_nth by auto. assert (Hi : (nth e order 0 < length labels)%nat) by (apply ord_lt, nth_In, He).
  rewrite !binary_label_nth by (auto; rewrite pick_length; auto). rewrite pick_nth by auto. reflexivity.
Qed.
Lemma bin_probs_picked c : binary_probs (pick [] order pp) c = pick [] order (binary_probs pp c).
Proof.
  rewrite !binary_probs_eq. apply pick_map. intros i Hi. rewrite <- (ml_len _ _ _ Hd). now apply ord_lt.
Qed.
End ML.

Lemma C138_examples_full : forall srt K labels pp order o flt, argsort_ok srt -> ml_dataset K labels pp ->
  Permutation order (seq 0 (length labels)) -> (forall c, (c < K)%nat -> mixed labels c) ->
  flt <> LowNormalizedMargin -> flt <> LowSelfConfidence -> ml_no_ties flt labels pp K ->
  ml_num_to_remove o = None -> ml_n_jobs o = 1%nat ->
  exists m, ml_find_label_issues srt labels pp K flt o None = Ok m /\ length m = length labels /\
    ml_find_label_issues srt (pick [] order labels) (pick [] order pp) K flt o None = Ok (pick false order m).
Proof.
  intros srt K labels pp order o flt Hs Hd Ho Hm N1 N2 Nt Hn Hj.
  assert (Hl : is_low flt = false) by (destruct flt; auto; congruence).
  assert (G : forall c, (c < K)%nat -> exists mc,
     find_label_issues srt (binary_labels labels K c) (binary_probs pp c) 2 flt (class_options o c) = Ok mc /\
     (length mc = length labels /\
      find_label_issues srt (binary_labels (pick [] order labels) K c) (binary_probs (pick [] order pp) c) 2 flt (class_options o c) = Ok (pick false order mc))).
  { intros c Hc. rewrite (bin_labels_picked K labels order Ho c Hc), (bin_probs_picked K labels pp order Hd Ho c).
    destruct (order_full 2 (binary_labels labels K c) (binary_probs pp c) order (binary_dataset K labels pp c Hd Hc)) with (srt := srt) (o := class_options o c) (flt := flt)
      as (mc & E & L & E'); auto.
    - now rewrite binary_length.
    - apply (Nt c); auto. now apply binary_ovr.
    - now apply binary_two, Hm.
    - now apply class_options_none.
    - exists mc. rewrite binary_length in L. auto. }
  destruct (per_class_ok srt labels pp K flt o _ G) as (cols & E & L & F).
  exists (any_class (length labels) cols). unfold ml_find_label_issues. rewrite Hl. cbn [andb]. rewrite E. cbn [rbind].
  split; [reflexivity|]. split; [apply any_class_length|].
  assert (G' : forall c, (c < K)%nat -> exists mc,
     find_label_issues srt (binary_labels (pick [] order labels) K c) (binary_probs (pick [] order pp) c) 2 flt (class_options o c) = Ok mc /\
     mc = pick false order (nth c cols [])).
  { intros c Hc. destruct (F c Hc) as (_ & _ & E'). now exists (pick false order (nth c cols [])). }
  destruct (per_class_ok srt (pick [] order labels) (pick [] order pp) K flt o _ G') as (cols' & E' & L' & F'). rewrite E'. cbn [rbind]. f_equal.
  apply mask_ext; rewrite any_class_length, !pick_length; [reflexivity|]. intros e He. unfold flagged at 2. rewrite pick_nth by auto.
  fold (flagged (any_class (length labels) cols) (nth e order 0%nat)). rewrite !any_class_flag.
  assert (Hi : (nth e order 0 < length labels)%nat) by (apply (ord_lt labels order Ho), nth_In, He).
  split; intros (_ & m & Hin & Hf); (split; [auto; now rewrite pick_length|]).
  - apply (in_nth_range m []) in Hin as (c & Hc & <-). destruct (F' c ltac:(lia)) as (_ & Ec). exists (nth c cols []). split; [apply nth_In; lia|].
    rewrite Ec in Hf. unfold flagged in Hf. now rewrite pick_nth in Hf.
  - apply (in_nth_range m []) in Hin as (c & Hc & <-). destruct (F' c ltac:(lia)) as (_ & Ec). exists (nth c cols' []). split; [apply nth_In; lia|].
    rewrite Ec. unfold flagged. now rewrite pick_nth.
Qed.

Lemma C138_classes_full : forall srt K names labels labels' pp pp' o o' flt m m', ml_dataset K labels pp -> ml_dataset K labels' pp' ->
  Permutation names (seq 0 K) -> length labels' = length labels -> (forall e c, (c < K)%nat -> has_class labels' e (nth c names 0%nat) <-> has_class labels e c) ->
  Forall2 (renamed_row names) pp pp' -> flt <> LowNormalizedMargin -> flt <> LowSelfConfidence ->
  (forall c, (c < K)%nat -> class_options o' (nth c names 0%nat) = class_options o c) ->
  ml_find_label_issues srt labels pp K flt o None = Ok m -> ml_find_label_issues srt labels' pp' K flt o' None = Ok m' -> m' = m.
Proof.
  intros srt K names labels labels' pp pp' o o' flt m m' Hd Hd' Hp HL Hc Hr N1 N2 Hopt Hm Hm'.
  destruct (C63_mask_full srt labels pp K flt o m Hd N1 N2 Hm) as (L & F & _).
  destruct (C63_mask_full srt labels' pp' K flt o' m' Hd' N1 N2 Hm') as (L' & F' & _).
  assert (Lp : length pp' = length pp) by (rewrite <- (ml_len _ _ _ Hd), <- (ml_len _ _ _ Hd'); auto).
  assert (Pr : forall e c, (e < length pp)%nat -> (c < K)%nat -> prob_of pp' e (nth c names 0%nat) = prob_of pp e c).
  { intros e c He Hk. pose proof (proj2 (Forall2_nth _ _ _ [] [] Hr) e He) as (_ & G). apply G. rewrite (ml_row _ _ _ Hd); auto. now apply nth_In. }
  assert (Ov : forall c bl bp, (c < K)%nat -> one_vs_rest labels' pp' (nth c names 0%nat) bl bp <-> one_vs_rest labels pp c bl bp).
  { intros c bl bp Hk. unfold one_vs_rest. rewrite HL, Lp. split; intros (A & B & C & D); (split; [exact A|]); (split; [exact B|]); split.
    - intros e He. specialize (C e He). rewrite (Hc e c Hk) in C. exact C.
    - intros e He. rewrite <- !(Pr e c) by auto. now apply D.
    - intros e He. specialize (C e He). rewrite (Hc e c Hk). exact C.
    - intros e He. rewrite !(Pr e c) by auto. now apply D. }
  apply mask_ext; [congruence|]. intros e _. rewrite F, F'. split.
  - intros (c' & bl & bp & mc & Hc' & O & E & Fl).
    assert (Hi : In c' names) by (apply (Permutation_in _ (Permutation_sym Hp)), in_seq; lia).
    apply In_nth with (d := 0%nat) in Hi as (c & Hk & <-). rewrite (Permutation_length Hp), seq_length in Hk.
    exists c, bl, bp, mc. split; [exact Hk|]. split; [now apply Ov|]. split; [now rewrite <- (Hopt c Hk)|exact Fl].
  - intros (c & bl & bp & mc & Hk & O & E & Fl). exists (nth c names 0%nat), bl, bp, mc. split.
    + assert (X : In (nth c names 0%nat) (seq 0 K)) by (apply (Permutation_in _ Hp), nth_In; rewrite (Permutation_length Hp), seq_length; exact Hk).
      apply in_seq in X. lia.
    + split; [now apply Ov|]. split; [now rewrite (Hopt c Hk)|exact Fl].
Qed.

(** ** sentences *)
Definition flat_order (lens order : list nat) : list nat :=
  concat (map (fun i => seq (nsum (firstn i lens)) (nth i lens 0%nat)) order).
Lemma flat_seq lens : forall base, concat (map (fun i => seq (base + nsum (firstn i lens)) (nth i lens 0%nat)) (seq 0 (length lens))) = seq base (nsum lens).
Proof.
  induction lens as [|n t IH]; intros base; [reflexivity|]. cbn [length]. rewrite <- cons_seq, <- seq_shift. cbn [map concat nth firstn]. rewrite map_map.
  change (nsum (n :: t)) with (n + nsum t)%nat. rewrite seq_app. change (nsum []) with 0%nat. rewrite Nat.add_0_r. f_equal. rewrite <- (IH (base + n)%nat). f_equal.
  apply map_ext. intros i. change (nsum (firstn (S i) (n :: t))) with (n + nsum (firstn i t))%nat. cbn [nth]. f_equal. lia.
Qed.
Lemma flat_perm lens order : Permutation order (seq 0 (length lens)) -> Permutation (flat_order lens order) (seq 0 (nsum lens)).
Proof.
  intros H. unfold flat_order. rewrite <- (flat_seq lens 0). cbn [Nat.add]. rewrite <- !flat_map_concat_map. now apply Permutation_flat_map.
Qed.
Lemma flat_lens lens order : map (@length nat) (map (fun i => seq (nsum (firstn i lens)) (nth i lens 0%nat)) order) = pick 0%nat order lens.
Proof. rewrite map_map. unfold pick. apply map_ext. intros i. apply seq_length. Qed.
Lemma flat_nth lens order ij : in_text (pick 0%nat order lens) ij ->
  nth (position (pick 0%nat order lens) ij) (flat_order lens order) 0%nat = position lens (nth (fst ij) order 0%nat, snd ij).
Proof.
  intros H. unfold flat_order. rewrite <- (flat_lens lens order). rewrite concat_entry by (now rewrite flat_lens).
  destruct ij as (i & j). destruct H as (H1 & H2). cbn [fst snd] in *. rewrite pick_length in H1. rewrite pick_nth in H2 by auto.
  unfold entry. cbn [fst snd]. rewrite (nth_map_gen _ _ _ _ 0%nat) by auto. rewrite seq_nth by auto. reflexivity.
Qed.
Lemma flat_pick {A} (d : A) (x : list (list A)) lens order : map (@length A) x = lens -> Permutation order (seq 0 (length lens)) ->
  concat (pick [] order x) = pick d (flat_order lens order) (concat x).
Proof.
  intros E Ho.
  assert (Lt : forall i, In i order -> (i < length x)%nat).
  { intros i Hi. apply (Permutation_in _ Ho) in Hi. apply in_seq in Hi. rewrite <- E, map_length in Hi. lia. }
  assert (EL : map (@length A) (pick [] order x) = pick 0%nat order lens) by (rewrite <- E; apply pick_map; exact Lt).
  apply list_eq_nth with (d := d).
  - rewrite pick_length. unfold flat_order. rewrite !concat_length, EL, flat_lens. reflexivity.
  - intros p Hp. rewrite concat_length, EL in Hp. destruct (locate _ _ Hp) as (ij & T & <-).
    rewrite pick_nth by (unfold flat_order; rewrite concat_length, flat_lens; exact Hp). rewrite flat_nth by auto.
    rewrite <- EL at 1. rewrite concat_entry by (now rewrite EL). destruct ij as (i & j). destruct T as (T1 & T2). cbn [fst snd] in *.
    rewrite pick_length in T1. rewrite pick_nth in T2 by auto.
    rewrite <- E. rewrite concat_entry. 
    + unfold entry. cbn [fst snd]. now rewrite pick_nth.
    + split; cbn [fst snd]; [rewrite map_length; apply Lt, nth_In, T1|now rewrite E].
Qed.

Lemma C138_sentences_full : forall srt K labels pps order rank_by flt o, argsort_ok srt -> dataset K (concat labels) (concat pps) ->
  map (@length (list Q)) pps = map (@length nat) labels -> Permutation order (seq 0 (length labels)) -> two_classes (concat labels) ->
  no_ties flt (concat labels) (concat pps) K -> num_to_remove_per_class o = None -> n_jobs o = 1%nat ->
  exists issues issues', token_find_label_issues srt labels pps K rank_by None flt o = Ok issues /\
    token_find_label_issues srt (pick [] order labels) (pick [] order pps) K rank_by None flt o = Ok issues' /\
    forall i j, In (i, j) issues' <-> (i < length labels)%nat /\ In (nth i order 0%nat, j) issues.
Proof.
  intros srt K labels pps order rank_by flt o Hs Hd Hsh Ho H2 Nt Hn Hj. set (lens := map (@length nat) labels).
  assert (Ho' : Permutation order (seq 0 (length lens))) by (unfold lens; now rewrite map_length).
  assert (El : concat (pick [] order labels) = pick 0%nat (flat_order lens order) (concat labels)) by (now apply flat_pick).
  assert (Ep : concat (pick [] order pps) = pick [] (flat_order lens order) (concat pps)) by (now apply flat_pick).
  assert (Pf : Permutation (flat_order lens order) (seq 0 (length (concat labels)))) by (rewrite concat_length; now apply flat_perm).
  destruct (order_full K (concat labels) (concat pps) (flat_order lens order) Hd Pf srt o flt Hs Nt H2 Hn Hj) as (m & E & L & E').
  assert (Hd' : dataset K (concat (pick [] order labels)) (concat (pick [] order pps))).
  { rewrite El, Ep. apply (picked_dataset K (concat labels) (concat pps) (flat_order lens order)); auto.
    - intros i Hi. apply (Permutation_in _ Pf), in_seq in Hi. lia.
    - intros C. rewrite C in Pf. apply Permutation_nil in Pf. pose proof (ds_ne _ _ _ Hd) as N. destruct (concat labels); [now apply N|discriminate]. }
  assert (H2' : two_classes (concat (pick [] order labels))).
  { rewrite El. apply picked_two; auto. intros i Hi. apply (Permutation_in _ (Permutation_sym Pf)), in_seq. lia. }
  rewrite <- El, <- Ep in E'.
  destruct (C30_find_full srt K labels pps rank_by flt o m Hs Hd H2 E) as (issues & _ & Ei & _ & _ & Mi & _).
  destruct (C30_find_full srt K (pick [] order labels) (pick [] order pps) rank_by flt o _ Hs Hd' H2' E') as (issues' & _ & Ei' & _ & _ & Mi' & _).
  exists issues, issues'. split; [exact Ei|]. split; [exact Ei'|]. intros i j. rewrite Mi', Mi.
  assert (Lt : forall i, In i order -> (i < length labels)%nat).
  { intros x Hx. apply (Permutation_in _ Ho), in_seq in Hx. lia. }
  assert (EL : map (@length nat) (pick [] order labels) = pick 0%nat order lens) by (apply pick_map; exact Lt).
  assert (Lo : length order = length labels) by (rewrite (Permutation_length Ho); apply seq_length).
  rewrite EL. fold lens.
  assert (T : in_text (pick 0%nat order lens) (i, j) <-> (i < length labels)%nat /\ in_text lens (nth i order 0%nat, j)).
  { unfold in_text. cbn [fst snd]. rewrite pick_length, Lo. split.
    - intros (A & B). rewrite pick_nth in B by lia. split; [exact A|]. split; [|exact B]. unfold lens. rewrite map_length. apply Lt, nth_In. lia.
    - intros (A & B & C). split; [exact A|]. rewrite pick_nth by lia. exact C. }
  assert (Fl : in_text (pick 0%nat order lens) (i, j) ->
     flagged (pick false (flat_order lens order) m) (position (pick 0%nat order lens) (i, j)) <-> flagged m (position lens (nth i order 0%nat, j))).
  { intros Tx. unfold flagged. rewrite pick_nth.
    - rewrite (flat_nth lens order (i, j) Tx). reflexivity.
    - unfold flat_order. rewrite concat_length, flat_lens. now apply position_lt. }
  split.
  - intros (A & B). apply (Fl A) in B. apply T in A as (A1 & A2). auto.
  - intros (A1 & A2 & B). assert (A : in_text (pick 0%nat order lens) (i, j)) by (apply T; auto). split; [exact A|]. now apply Fl.
Qed.

(** ** the batched search *)
Lemma C138_batched_full : forall srt K labels pp order batch_size batch_size' method js js' m m' sc, argsort_ok srt -> dataset K labels pp -> (2 <= K)%nat ->
  own_prob_floor labels pp -> Permutation order (seq 0 (length labels)) -> get_label_quality_scores labels pp K method false = Ok sc ->
  (forall e e', (e < length labels)%nat -> (e' < length labels)%nat -> nth e sc 0 == nth e' sc 0 -> e = e') ->
  find_label_issues_batched srt labels pp K batch_size method false false js = Ok m ->
  find_label_issues_batched srt (pick 0%nat order labels) (pick [] order pp) K batch_size' method false false js' = Ok m' ->
  m' = pick false order m.
Proof.
  intros srt K labels pp order b b' method js js' m m' sc Hs Hd HK Hf Ho Hsc Inj Hm Hm'.
  assert (Lt : forall i, In i order -> (i < length labels)%nat) by (intros i Hi; now apply (proj1 (order_in order _ Ho i))).
  assert (Lo : length order = length labels) by (rewrite (Permutation_length Ho); apply seq_length).
  assert (Hne : order <> []).
  { intros C. rewrite C in Lo. apply (ds_ne _ _ _ Hd). destruct labels; [reflexivity|discriminate]. }
  assert (At : forall e, (e < length labels)%nat -> (nth e order 0 < length labels)%nat) by (intros e He; apply Lt, nth_In; lia).
  assert (Hd' : dataset K (pick 0%nat order labels) (pick [] order pp)) by (now apply picked_dataset).
  assert (Hf' : own_prob_floor (pick 0%nat order labels) (pick [] order pp)).
  { intros e He. rewrite pick_length in He. rewrite !pick_nth by auto. apply Hf, At. lia. }
  destruct (flags_full srt labels pp K b method js m Hs Hd HK Hf Hm) as (s & n & idx & Es & Hn & (N1 & N2 & N3 & N4) & Lm & F).
  destruct (flags_full srt _ _ K b' method js' m' Hs Hd' HK Hf' Hm') as (s' & n' & idx' & Es' & Hn' & (N1' & N2' & N3' & N4') & Lm' & F').
  rewrite Hsc in Es. injection Es as <-. rewrite pick_length, Lo in Lm'.
  destruct (C15_scores_full K labels pp method Hd HK) as (x & Ex & Ls & _). rewrite Hsc in Ex. injection Ex as <-.
  destruct (C15_scores_full K _ _ method Hd' HK) as (x & Ex & Ls' & _). rewrite Es' in Ex. injection Ex as <-. rewrite pick_length, Lo in Ls'.
  assert (Sc : forall e, (e < length labels)%nat -> nth e s' 0 = nth (nth e order 0%nat) sc 0).
  { intros e He. apply (C15_local_full K method _ _ _ _ s' sc e (nth e order 0%nat) (ds_len _ _ _ Hd') (ds_len _ _ _ Hd) Es' Hsc).
    - rewrite pick_length. lia.
    - now apply At.
    - apply picked_label. lia.
    - apply picked_row. lia. }
  assert (Th' : forall j t, class_threshold labels pp j t <-> class_threshold (pick 0%nat order labels) (pick [] order pp) j t).
  { intros j t. pose proof (order_labels order labels Ho) as Pl. pose proof (own_perm j labels pp order Ho (ds_len _ _ _ Hd)) as Po. unfold class_threshold.
    assert (I : In j labels <-> In j (pick 0%nat order labels)) by (split; apply Permutation_in; [symmetry|]; exact Pl).
    assert (A : is_average (own_probs j labels pp) t <-> is_average (own_probs j (pick 0%nat order labels) (pick [] order pp)) t).
    { unfold is_average. rewrite (Permutation_length Po), (qsum_perm _ _ Po). split; intros (X & Y); (split; [|exact Y]); intros C; apply X.
      - rewrite C in Po. now apply Permutation_nil.
      - rewrite C in Po. now apply Permutation_nil, Permutation_sym. }
    rewrite <- I, <- A. reflexivity. }
  assert (En : n = n').
  { refine (holds_for_order labels order Ho _ _ n n' _ Hn Hn'). intros e He. unfold confidently_other.
    rewrite (picked_row pp order e), (picked_label labels order e) by lia.
    split; intros (j & t & A & B & C & D); exists j, t; (split; [exact A|]); (split; [exact B|]); (split; [now apply Th'|]);
      rewrite (picked_prob pp order e) in * by lia; exact D. }
  subst n'. apply mask_ext; [rewrite pick_length; lia|]. intros e He. rewrite Lm' in He.
  unfold flagged at 2. rewrite pick_nth by lia. fold (flagged m (nth e order 0%nat)). rewrite F, F'. rewrite (picked_beaten labels pp order e) by lia.
  assert (Lx : forall x, In x idx' -> (x < length labels)%nat) by (intros x Hx; rewrite <- Ls'; auto).
  assert (Q : In e idx' <-> In (nth e order 0%nat) idx).
  { pose proof (lowest_unique (fun x => nth x sc 0) (fun x => (x < length labels)%nat) (map (fun x => nth x order 0%nat) idx') idx) as U.
    assert (Nd : NoDup order) by (apply (Permutation_NoDup (Permutation_sym Ho)), seq_NoDup).
    assert (Ai : forall x y, (x < length labels)%nat -> (y < length labels)%nat -> nth x order 0%nat = nth y order 0%nat -> x = y).
    { intros x y Hx Hy E. apply (proj1 (NoDup_nth order 0%nat) Nd); auto; lia. }
    assert (Mi : forall x, (x < length labels)%nat -> In (nth x order 0%nat) (map (fun x => nth x order 0%nat) idx') <-> In x idx').
    { intros x Hx. rewrite in_map_iff. split.
      - intros (y & E & Hy). apply Ai in E; auto. now subst.
      - intros H. now exists x. }
    rewrite <- (Mi e He). apply U.
    - apply (at_NoDup labels order Ho); auto.
    - exact N1.
    - rewrite map_length. lia.
    - intros x Hx. apply in_map_iff in Hx as (y & <- & Hy). apply At. auto.
    - intros x Hx. rewrite <- Ls. auto.
    - intros x y Hx Hy Ny. apply in_map_iff in Hx as (x' & <- & Hx').
      assert (I : In y order) by (now apply (proj2 (order_in order _ Ho y))). apply In_nth with (d := 0%nat) in I as (y' & Hy' & <-). rewrite Lo in Hy'.
      rewrite <- !Sc by auto. apply N4'; auto; [lia|]. intros C. apply Ny. now apply Mi.
    - intros x y Hx Hy Ny. apply N4; auto. lia.
    - exact Inj. }
  rewrite Q. reflexivity.
Qed.
