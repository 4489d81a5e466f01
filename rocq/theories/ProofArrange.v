(** * Lemmas about rearranging the pixels of segmentation data *)
From Coq Require Import QArith List ZArith Bool Arith Lia Lqa Sorted Permutation.
From Verif Require Import Base BaseFacts ModelUtil ModelCount ModelRank ModelPool ModelFilter ModelBatched ModelToken ModelSegmentation SpecCount SpecFilter SpecRank SpecBatched SpecSegmentation
  SpecSymmetry SpecNumbering SpecArrange ProofToken ProofUtil ProofCount ProofFilter ProofSymmetry ProofSegmentation ProofNumbering5.
Import ListNotations.
Open Scope Q_scope.

Lemma all_pixels_in N h w x : In x (all_pixels N h w) <-> inside N h w x.
Proof.
  destruct x as [[n i] j]. unfold all_pixels, inside. cbn [fst snd]. split.
  - intros H. apply in_flat_map in H as (n' & Hn & H). apply in_flat_map in H as (i' & Hi & H). apply in_map_iff in H as (j' & E & Hj).
    injection E as -> -> ->. apply in_seq in Hn, Hi, Hj. lia.
  - intros (A & B & C). apply in_flat_map. exists n. split; [apply in_seq; lia|]. apply in_flat_map. exists i. split; [apply in_seq; lia|].
    apply in_map_iff. exists j. split; [reflexivity|apply in_seq; lia].
Qed.
Lemma NoDup_flat {A B} (f : A -> list B) l : NoDup l -> (forall a, In a l -> NoDup (f a)) -> (forall a b x, In a l -> In b l -> In x (f a) -> In x (f b) -> a = b) -> NoDup (flat_map f l).
Proof.
  induction l as [|a l IH]; intros N F D; [constructor|]. inversion N as [|? ? N1 N2]. subst. cbn [flat_map]. apply ProofToken.NoDup_app_intro.
  - apply F. now left.
  - apply IH; auto; [intros b Hb; apply F; now right|]. intros b c x Hb Hc. apply D; now right.
  - intros x Hx Hy. apply in_flat_map in Hy as (b & Hb & Hy). apply N1. rewrite (D a b x); auto; [now left|now right].
Qed.
Lemma all_pixels_NoDup N h w : NoDup (all_pixels N h w).
Proof.
  apply NoDup_flat; [apply seq_NoDup| |].
  - intros n _. apply NoDup_flat; [apply seq_NoDup| |].
    + intros i _. apply FinFun.Injective_map_NoDup; [intros a b E; congruence|apply seq_NoDup].
    + intros a b x _ _ H1 H2. apply in_map_iff in H1 as (? & <- & _). apply in_map_iff in H2 as (? & E & _). congruence.
  - intros a b x _ _ H1 H2. apply in_flat_map in H1 as (? & _ & H1). apply in_flat_map in H2 as (? & _ & H2).
    apply in_map_iff in H1 as (? & <- & _). apply in_map_iff in H2 as (? & E & _). congruence.
Qed.
Lemma rearranged_pixels to back N h w N' h' w' : rearranges to back N h w N' h' w' ->
  Permutation (map to (all_pixels N h w)) (all_pixels N' h' w').
Proof.
  intros (A & B). apply NoDup_Permutation.
  - apply ProofNumbering.NoDup_map_inj_in; [|apply all_pixels_NoDup]. intros x y Hx Hy E. apply all_pixels_in in Hx, Hy.
    rewrite <- (proj2 (A x Hx)), <- (proj2 (A y Hy)). now rewrite E.
  - apply all_pixels_NoDup.
  - intros y. rewrite all_pixels_in. split.
    + intros H. apply in_map_iff in H as (x & <- & Hx). apply all_pixels_in in Hx. now apply A.
    + intros H. apply in_map_iff. exists (back y). split; [now apply B|]. apply all_pixels_in. now apply B.
Qed.
Lemma all_labels_pixels labels : all_labels labels = map (value_at labels) (all_pixels (sN labels) (sH labels) (sW labels)).
Proof.
  unfold all_labels, all_pixels. rewrite map_flat_map. apply flat_map_ext. intros n. rewrite map_flat_map. apply flat_map_ext. intros i.
  now rewrite map_map.
Qed.
Definition row_at (pp : arr4) (x : pixel) : list Q := map (fun k => prob_at pp k x) (seq 0 (tK pp)).
Lemma all_rows_pixels pp : all_rows pp = map (row_at pp) (all_pixels (tN pp) (tH pp) (tW pp)).
Proof.
  unfold all_rows, all_pixels. rewrite map_flat_map. apply flat_map_ext. intros n. rewrite map_flat_map. apply flat_map_ext. intros i.
  now rewrite map_map.
Qed.

(** ** what confident counting sees of a list of labelled rows *)
Lemma own_probs_filter k (l : list (nat * list Q)) : own_probs k (map fst l) (map snd l) = map (fun e => nth k (snd e) 0) (filter (fun e => Nat.eqb (fst e) k) l).
Proof.
  induction l as [|[a r] l IH]; [reflexivity|]. cbn [map own_probs filter fst snd]. destruct (Nat.eqb a k); cbn [map snd]; now rewrite IH.
Qed.
Lemma Permutation_filter_ {A} (f : A -> bool) a b : Permutation a b -> Permutation (filter f a) (filter f b).
Proof.
  intros H. induction H as [|x a b H IH|x y a|a b c H1 IH1 H2 IH2]; cbn [filter]; auto.
  - destruct (f x); auto.
  - destruct (f x), (f y); auto. apply perm_swap.
  - now transitivity (filter f b).
Qed.
Lemma average_perm a b v : Permutation a b -> is_average a v -> is_average b v.
Proof.
  intros P (N & E). split.
  - intros ->. apply N. apply Permutation_nil. now apply Permutation_sym.
  - rewrite <- (Permutation_length P), E. now apply qsum_perm.
Qed.
Lemma other_perm P P' l row : Permutation P P' ->
  SpecSegmentation.confidently_other (map fst P) (map snd P) l row -> SpecSegmentation.confidently_other (map fst P') (map snd P') l row.
Proof.
  intros H (A & B & C). split; [exact A|]. set (c := argmax row) in *.
  assert (I : In c (map fst P) <-> In c (map fst P')).
  { split; apply Permutation_in; [|apply Permutation_sym]; now apply Permutation_map. }
  split.
  - intros J. apply I in J. destruct (B J) as (v & V & L). exists v. split; [|exact L]. rewrite own_probs_filter in *. eapply average_perm; [|exact V].
    apply Permutation_map, Permutation_filter_, H.
  - intros J. apply C. intros J'. apply J. now apply I.
Qed.
Definition idx (h w : nat) (x : pixel) : nat := pixel_index h w (fst (fst x)) (snd (fst x)) (snd x).
Lemma idx_inj N h w x y : inside N h w x -> inside N h w y -> idx h w x = idx h w y -> x = y.
Proof.
  intros (A & B & C) (A' & B' & C') E. unfold idx in E. pose proof (index_round h w (fst (fst x)) (snd (fst x)) (snd x) B C) as R.
  rewrite E, index_round in R by auto. destruct x as [[? ?] ?], y as [[? ?] ?]. cbn in R. congruence.
Qed.
Lemma idx_onto N h w p : (p < N * (h * w))%nat -> exists x, inside N h w x /\ p = idx h w x.
Proof.
  intros H. assert (w <> 0)%nat by (intros ->; nia). assert (h * w <> 0)%nat by (intros E; rewrite E in H; lia).
  exists (p / (h * w), (p mod (h * w)) / w, (p mod (h * w)) mod w)%nat. split.
  - split; [|split]; cbn [fst snd].
    + apply Nat.div_lt_upper_bound; [auto|]. lia.
    + apply Nat.div_lt_upper_bound; [auto|]. pose proof (Nat.mod_upper_bound p (h * w)). lia.
    + now apply Nat.mod_upper_bound.
  - unfold idx, pixel_index. cbn [fst snd]. pose proof (Nat.div_mod p (h * w)). pose proof (Nat.div_mod (p mod (h * w)) w). lia.
Qed.
Lemma idx_lt N h w x : inside N h w x -> (idx h w x < N * (h * w))%nat.
Proof.
  destruct x as [[n i] j]. unfold inside, idx, pixel_index. cbn [fst snd]. intros (A & B & C).
  assert ((n + 1) * (h * w) <= N * (h * w))%nat by (apply Nat.mul_le_mono_r; lia). assert ((i + 1) * w <= h * w)%nat by (apply Nat.mul_le_mono_r; lia). nia.
Qed.

Lemma row_moved to back (labels : arr3 nat) pp pp' x : moved_probs to back pp pp' -> sN labels = tN pp -> sH labels = tH pp -> sW labels = tW pp ->
  inside (sN labels) (sH labels) (sW labels) x -> row_at pp' (to x) = row_at pp x.
Proof.
  intros MP S1 S2 S3 H. destruct MP as (A & _ & C). unfold row_at. rewrite A. apply map_ext_in. intros k Hk. apply in_seq in Hk. apply C; [|lia].
  now rewrite <- S1, <- S2, <- S3.
Qed.
Section Moved.
Variables (to back : pixel -> pixel) (labels labels' : arr3 nat) (pp pp' : arr4).
Hypothesis ML : moved_array to back labels labels'.
Hypothesis MP : moved_probs to back pp pp'.
Hypothesis S1 : sN labels = tN pp. Hypothesis S2 : sH labels = tH pp. Hypothesis S3 : sW labels = tW pp.
Hypothesis S1' : sN labels' = tN pp'. Hypothesis S2' : sH labels' = tH pp'. Hypothesis S3' : sW labels' = tW pp'.
Hypothesis Hd : dataset (tK pp) (all_labels labels) (all_rows pp).

Definition pairs (a : arr3 nat) (p : arr4) : list (nat * list Q) := map (fun x => (value_at a x, row_at p x)) (all_pixels (sN a) (sH a) (sW a)).
Lemma pairs_fst a p : map fst (pairs a p) = all_labels a.
Proof. rewrite all_labels_pixels. unfold pairs. rewrite map_map. reflexivity. Qed.
Lemma pairs_snd a p : sN a = tN p -> sH a = tH p -> sW a = tW p -> map snd (pairs a p) = all_rows p.
Proof. intros A B C. rewrite all_rows_pixels. unfold pairs. rewrite map_map, A, B, C. reflexivity. Qed.
Lemma pairs_moved : Permutation (pairs labels pp) (pairs labels' pp').
Proof.
  destruct ML as (R & V). unfold pairs at 2. rewrite <- (rearranged_pixels _ _ _ _ _ _ _ _ R), map_map. unfold pairs.
  erewrite map_ext_in; [reflexivity|]. intros x Hx. apply all_pixels_in in Hx. cbn beta. now rewrite V, (row_moved to back labels pp pp').
Qed.
Lemma dataset_moved : dataset (tK pp') (all_labels labels') (all_rows pp').
Proof.
  pose proof pairs_moved as P. rewrite <- (pairs_fst labels' pp'), <- (pairs_snd labels' pp') by auto. rewrite <- (pairs_fst labels pp), <- (pairs_snd labels pp) in Hd by auto.
  destruct MP as (-> & _). destruct Hd as [A B C D E]. split.
  - now rewrite !map_length.
  - intros Z. apply B. apply map_eq_nil in Z. rewrite Z in P. apply Permutation_sym, Permutation_nil in P. now rewrite P.
  - intros l Hl. apply C. eapply Permutation_in; [apply Permutation_sym, Permutation_map, P|exact Hl].
  - intros r Hr. apply D. eapply Permutation_in; [apply Permutation_sym, Permutation_map, P|exact Hr].
  - intros r x Hr. apply E. eapply Permutation_in; [apply Permutation_sym, Permutation_map, P|exact Hr].
Qed.
Lemma content a p x : sN a = tN p -> sH a = tH p -> sW a = tW p -> inside (sN a) (sH a) (sW a) x ->
  nth (idx (sH a) (sW a) x) (all_labels a) 0%nat = value_at a x /\ nth (idx (sH a) (sW a) x) (all_rows p) [] = row_at p x /\
  (idx (sH a) (sW a) x < length (all_labels a))%nat /\ length (all_labels a) = (sN a * (sH a * sW a))%nat.
Proof.
  intros A B C I. assert (L : length (all_labels a) = (sN a * (sH a * sW a))%nat) by (rewrite all_labels_flat, flat_length, seq_length; reflexivity).
  destruct I as (I1 & I2 & I3). repeat split; auto.
  - rewrite all_labels_flat. unfold idx. rewrite flat_nth by auto. reflexivity.
  - rewrite B, C, all_rows_flat. unfold idx. rewrite flat_nth by congruence. unfold pixel_row, row_at. reflexivity.
  - rewrite L. apply idx_lt. repeat split; auto.
Qed.
Lemma floor_moved : own_prob_floor (all_labels labels) (all_rows pp) -> own_prob_floor (all_labels labels') (all_rows pp').
Proof.
  intros F e He. assert (L : length (all_labels labels') = (sN labels' * (sH labels' * sW labels'))%nat) by (rewrite all_labels_flat, flat_length, seq_length; reflexivity).
  rewrite L in He. destruct (idx_onto _ _ _ _ He) as (y & I & ->). destruct (content labels' pp' y S1' S2' S3' I) as (-> & -> & _).
  destruct ML as ((R1 & R2) & V). destruct (R2 y I) as (J & <-). rewrite V, (row_moved to back labels pp pp') by auto.
  destruct (content labels pp (back y) S1 S2 S3 J) as (<- & <- & Q & _). now apply F.
Qed.
Lemma conf_content a p x : sN a = tN p -> sH a = tH p -> sW a = tW p -> inside (sN a) (sH a) (sW a) x -> (value_at a x < tK p)%nat ->
  nth (nth (idx (sH a) (sW a) x) (all_labels a) 0%nat) (nth (idx (sH a) (sW a) x) (all_rows p) []) 0 = prob_at p (value_at a x) x.
Proof.
  intros A B C I K. destruct (content a p x A B C I) as (-> & -> & _). unfold row_at. rewrite (nth_map_gen _ _ _ _ 0%nat) by now rewrite seq_length.
  now rewrite seq_nth.
Qed.
Lemma label_lt x : inside (sN labels) (sH labels) (sW labels) x -> (value_at labels x < tK pp)%nat.
Proof. intros I. destruct (content labels pp x S1 S2 S3 I) as (E & _ & L & _). apply Hd. rewrite <- E. now apply nth_In. Qed.

Lemma ranked_moved srt srt' bsz bsz' js js' r r' : argsort_ok srt -> argsort_ok srt' ->
  own_prob_floor (all_labels labels) (all_rows pp) -> distinct_pixels labels pp ->
  ranked_label_issues srt labels pp bsz js = Ok r -> ranked_label_issues srt' labels' pp' bsz' js' = Ok r' ->
  forall x, inside (sN labels) (sH labels) (sW labels) x -> (In (idx (sH labels') (sW labels') (to x)) r' <-> In (idx (sH labels) (sW labels) x) r).
Proof.
  intros Hs Hs' Hfl Hdi E E'. pose proof dataset_moved as Hd'. pose proof (floor_moved Hfl) as Hfl'. pose proof ML as ((R1 & R2) & V).
  assert (pos : (0 < sH labels)%nat /\ (0 < sW labels)%nat /\ (0 < sH labels')%nat /\ (0 < sW labels')%nat).
  { destruct Hd as [_ B _ _ _]. destruct Hd' as [_ B' _ _ _]. rewrite all_labels_pixels in B, B'.
    destruct (all_pixels (sN labels) (sH labels) (sW labels)) as [|x l] eqn:X; [exfalso; now apply B|].
    destruct (all_pixels (sN labels') (sH labels') (sW labels')) as [|x' l'] eqn:X'; [exfalso; now apply B'|].
    assert (I : inside (sN labels) (sH labels) (sW labels) x) by (apply all_pixels_in; rewrite X; now left).
    assert (I' : inside (sN labels') (sH labels') (sW labels') x') by (apply all_pixels_in; rewrite X'; now left).
    unfold inside in *. lia. }
  destruct pos as (Hh & Hw & Hh' & Hw').
  destruct (C32_ranked_full srt labels pp bsz js r Hs S1 S2 S3 Hh Hw Hd Hfl E) as (N1 & I1 & _ & L1 & c1 & M1 & T1 & Q1).
  destruct (C32_ranked_full srt' labels' pp' bsz' js' r' Hs' S1' S2' S3' Hh' Hw' Hd' Hfl' E') as (N2 & I2 & _ & L2 & c2 & M2 & T2 & Q2).
  set (h := sH labels) in *. set (w := sW labels) in *. set (h' := sH labels') in *. set (w' := sW labels') in *.
  set (g := fun p => idx h' w' (to (indexes_from_ranked h w p))).
  assert (G : forall x, inside (sN labels) h w x -> g (idx h w x) = idx h' w' (to x)).
  { intros x (A & B & C). unfold g, idx at 2. rewrite index_round by auto. destruct x as [[? ?] ?]. reflexivity. }
  assert (Ginj : forall p q, (p < sN labels * (h * w))%nat -> (q < sN labels * (h * w))%nat -> g p = g q -> p = q).
  { intros p q Hp Hq Z. destruct (idx_onto _ _ _ _ Hp) as (x & X & ->), (idx_onto _ _ _ _ Hq) as (y & Y & ->). rewrite !G in Z by auto.
    apply (idx_inj (sN labels')) in Z; [|now apply R1|now apply R1]. rewrite <- (proj2 (R1 x X)), <- (proj2 (R1 y Y)). now rewrite Z. }
  assert (Glt : forall p, (p < sN labels * (h * w))%nat -> (g p < sN labels' * (h' * w'))%nat).
  { intros p Hp. destruct (idx_onto _ _ _ _ Hp) as (x & X & ->). rewrite G by auto. apply idx_lt. now apply R1. }
  assert (Gonto : forall q, (q < sN labels' * (h' * w'))%nat -> exists p, (p < sN labels * (h * w))%nat /\ g p = q).
  { intros q Hq. destruct (idx_onto _ _ _ _ Hq) as (y & Y & ->). destruct (R2 y Y) as (J & K). exists (idx h w (back y)). split; [now apply idx_lt|].
    rewrite G by auto. now rewrite K. }
  assert (Main : forall q, In q r' <-> In q (map g r)).
  { set (conf' := fun q => nth (nth q (all_labels labels') 0%nat) (nth q (all_rows pp') []) 0).
    assert (F : forall p, (p < sN labels * (h * w))%nat -> conf' (g p) = nth (nth p (all_labels labels) 0%nat) (nth p (all_rows pp) []) 0).
    { intros p Hp. destruct (idx_onto _ _ _ _ Hp) as (x & X & ->). rewrite G by auto. unfold conf'. destruct (R1 x X) as (X' & _).
      destruct (content labels' pp' (to x) S1' S2' S3' X') as (A & B & _). fold h' w' in A, B. rewrite A, B, V, (row_moved to back labels pp pp') by auto.
      destruct (content labels pp x S1 S2 S3 X) as (A' & B' & _). fold h w in A', B'. now rewrite A', B'. }
    apply (lowest_unique conf' (fun q => (q < sN labels' * (h' * w'))%nat)); auto.
    - apply ProofNumbering.NoDup_map_inj_in; auto.
    - rewrite map_length, T1, T2. rewrite <- (map_length g c1). apply Permutation_length. apply NoDup_Permutation; [auto| |].
      + apply ProofNumbering.NoDup_map_inj_in; auto. intros a b Ha Hb. apply Ginj; [now apply Q1|now apply Q1].
      + intros q. rewrite in_map_iff. rewrite Q2.
        assert (X : forall x, inside (sN labels) h w x -> SpecSegmentation.confidently_other (all_labels labels') (all_rows pp') (nth (idx h' w' (to x)) (all_labels labels') 0%nat) (nth (idx h' w' (to x)) (all_rows pp') []) <->
           SpecSegmentation.confidently_other (all_labels labels) (all_rows pp) (nth (idx h w x) (all_labels labels) 0%nat) (nth (idx h w x) (all_rows pp) [])).
        { intros x X. destruct (R1 x X) as (X' & _). destruct (content labels' pp' (to x) S1' S2' S3' X') as (A & B & _). fold h' w' in A, B. rewrite A, B, V, (row_moved to back labels pp pp') by auto.
          destruct (content labels pp x S1 S2 S3 X) as (A' & B' & _). fold h w in A', B'. rewrite A', B'.
          rewrite <- (pairs_fst labels' pp'), <- (pairs_snd labels' pp'), <- (pairs_fst labels pp), <- (pairs_snd labels pp) by auto.
          pose proof pairs_moved. split; apply other_perm; auto. now apply Permutation_sym. }
        split.
        * intros (Hq & O). destruct (idx_onto _ _ _ _ Hq) as (y & Y & ->). destruct (R2 y Y) as (J & K). exists (idx h w (back y)). split; [rewrite G by auto; now rewrite K|].
          apply Q1. split; [now apply idx_lt|]. apply X; auto. now rewrite K.
        * intros (p & <- & Hp). apply Q1 in Hp as (Hp & O). split; [now apply Glt|]. destruct (idx_onto _ _ _ _ Hp) as (x & Xi & ->). rewrite G by auto. now apply X.
    - intros q Hq. apply in_map_iff in Hq as (p & <- & Hp). auto.
    - intros a b Ha Hb Nb. apply in_map_iff in Ha as (p & <- & Hp). destruct (Gonto b Hb) as (q & Hq & <-). rewrite !F by auto. apply L1; auto.
      intros I. apply Nb. now apply in_map.
    - intros a b Ha Hb Z. destruct (Gonto a Ha) as (p & Hp & <-), (Gonto b Hb) as (q & Hq & <-). rewrite !F in Z by auto. f_equal.
      destruct (idx_onto _ _ _ _ Hp) as (x & X & ->), (idx_onto _ _ _ _ Hq) as (y & Y & ->).
      unfold h, w in Z. rewrite !(conf_content labels pp) in Z by (auto using label_lt). destruct x as [[n i] j], y as [[n' i'] j'].
      now injection (Hdi n i j n' i' j' X Y Z) as -> -> ->. }
  intros x X. rewrite Main, in_map_iff. split.
  - intros (p & Z & Hp). rewrite <- (G x X) in Z. apply Ginj in Z; [now subst|auto|now apply idx_lt].
  - intros I. exists (idx h w x). auto.
Qed.
End Moved.

Lemma shapes srt labels pp b js f issues : seg_find_label_issues srt labels pp b js f = Ok issues ->
  sN labels = tN pp /\ sH labels = tH pp /\ sW labels = tW pp.
Proof.
  unfold seg_find_label_issues, check_input. destruct (valid_batch_size b); [|discriminate]. cbn [rbind].
  destruct (Nat.eqb (sN labels) (tN pp)) eqn:A; [|discriminate]. destruct (Nat.eqb (sH labels) (tH pp)) eqn:B; [|discriminate].
  destruct (Nat.eqb (sW labels) (tW pp)) eqn:C; [|discriminate]. apply Nat.eqb_eq in A, B, C. auto.
Qed.
Lemma predicted_same pp pp' x y c : tK pp' = tK pp -> (forall k, (k < tK pp)%nat -> prob_at pp' k y = prob_at pp k x) ->
  predicted_class pp (fst (fst x)) (snd (fst x)) (snd x) c -> predicted_class pp' (fst (fst y)) (snd (fst y)) (snd y) c.
Proof.
  intros E H (A & B & C). unfold prob_at in H. unfold predicted_class. rewrite E. split; [exact A|]. split.
  - intros k Hk. rewrite !H by auto. auto.
  - intros k Hk. rewrite !H by lia. auto.
Qed.
Lemma has_classes labels pp : dataset (tK pp) (all_labels labels) (all_rows pp) -> (0 < tK pp)%nat.
Proof. intros [_ B C _ _]. destruct (all_labels labels) as [|l t]; [congruence|]. specialize (C l (or_introl eq_refl)). lia. Qed.

Lemma issues_moved to back labels labels' pp pp' srt srt' b b' js js' issues issues' : argsort_ok srt -> argsort_ok srt' ->
  moved_array to back labels labels' -> moved_probs to back pp pp' ->
  dataset (tK pp) (all_labels labels) (all_rows pp) -> own_prob_floor (all_labels labels) (all_rows pp) -> distinct_pixels labels pp ->
  seg_find_label_issues srt labels pp b js 1 = Ok issues -> seg_find_label_issues srt' labels' pp' b' js' 1 = Ok issues' ->
  moved_array to back issues issues'.
Proof.
  intros Hs Hs' ML MP Hd Hfl Hdi E E'. destruct (shapes _ _ _ _ _ _ _ E) as (S1 & S2 & S3), (shapes _ _ _ _ _ _ _ E') as (S1' & S2' & S3').
  pose proof (has_classes _ _ Hd) as K0. assert (K0' : (0 < tK pp')%nat) by (destruct MP as (-> & _); exact K0).
  destruct (C32_flagged_pred srt labels pp b js 1 issues K0 E) as (sl & sp & r & z & V1 & V2 & V3 & V4 & V5 & V6 & V7 & V8).
  destruct (C32_flagged_pred srt' labels' pp' b' js' 1 issues' K0' E') as (sl' & sp' & r' & z' & W1 & W2 & W3 & W4 & W5 & W6 & W7 & W8).
  cbn in V3, W3. injection V3 as <- <-. injection W3 as <- <-.
  pose proof (ranked_moved to back labels labels' pp pp' ML MP S1 S2 S3 S1' S2' S3' Hd srt srt' z z' js js' r r' Hs Hs' Hfl Hdi V4 W4) as R.
  pose proof ML as (RR & V). split; [rewrite V5, V6, V7, W5, W6, W7; exact RR|]. rewrite V5, V6, V7. intros x X. destruct (proj1 RR x X) as (X' & _).
  apply eq_true_iff_eq. unfold value_at. rewrite (V8 _ _ _ X), (W8 _ _ _ X'), !Nat.div_1_r. specialize (R x X). unfold idx in R. rewrite R.
  specialize (V x X). unfold value_at in V. rewrite V.
  assert (P : forall k, (k < tK pp)%nat -> prob_at pp' k (to x) = prob_at pp k x).
  { intros k Hk. apply MP; [now rewrite <- S1, <- S2, <- S3|exact Hk]. }
  assert (EK : tK pp' = tK pp) by apply MP.
  split; intros (A & B); split; auto; intros C; apply B.
  - eapply predicted_same; [exact EK|exact P|exact C].
  - eapply predicted_same; [symmetry; exact EK| |exact C]. intros k Hk. symmetry. apply P. now rewrite <- EK.
Qed.
Lemma scores_moved to back labels labels' pp pp' sc sc' : moved_array to back labels labels' -> moved_probs to back pp pp' ->
  (forall x, inside (sN labels) (sH labels) (sW labels) x -> (value_at labels x < tK pp)%nat) ->
  seg_pixel_scores labels pp = Ok sc -> seg_pixel_scores labels' pp' = Ok sc' -> moved_array to back sc sc'.
Proof.
  intros (_ & ML) (EK & RR & MP) H E E'. unfold seg_pixel_scores, check_input in *.
  destruct (Nat.eqb (sN labels) (tN pp)) eqn:A; [|discriminate]. destruct (Nat.eqb (sH labels) (tH pp)) eqn:B; [|discriminate].
  destruct (Nat.eqb (sW labels) (tW pp)) eqn:C; [|discriminate]. apply Nat.eqb_eq in A, B, C.
  destruct (Nat.eqb (sN labels') (tN pp') && Nat.eqb (sH labels') (tH pp') && Nat.eqb (sW labels') (tW pp'))%bool; [|discriminate].
  cbn [andb rbind] in *. injection E as <-. injection E' as <-. split; [exact RR|]. cbn [sN sH sW]. intros x X. unfold value_at. cbn [at3].
  rewrite A, B, C in *. specialize (ML x X). unfold value_at in ML. rewrite ML. apply (MP x _ X). now apply H.
Qed.

(** ** whole images, also with downsampling *)
Lemma qmean_ext l l' : l = l' -> qmean l = qmean l'. Proof. now intros ->. Qed.
Lemma block_ext f g g' i j : (forall a b, (a < f)%nat -> (b < f)%nat -> g (i * f + a)%nat (j * f + b)%nat = g' (i * f + a)%nat (j * f + b)%nat) -> block f g i j = block f g' i j.
Proof.
  intros H. unfold block. f_equal. f_equal. apply map_ext_in. intros a Ha. apply map_ext_in. intros b Hb. apply in_seq in Ha, Hb. apply H; lia.
Qed.
Lemma rearranges_shuffled order inverse N h w N' h' w' : (0 < h)%nat -> (0 < w)%nat ->
  rearranges (shuffled order) (shuffled inverse) N h w N' h w -> rearranges (shuffled order) (shuffled inverse) N h' w' N' h' w'.
Proof.
  intros Hh Hw (A & B). unfold rearranges, shuffled, inside in *. cbn [fst snd] in *. split.
  - intros x (X1 & X2 & X3). destruct (A (fst (fst x), 0, 0)%nat) as ((P & _) & Q); [cbn; lia|]. cbn [fst snd] in P, Q. injection Q as Q. split; [auto|].
    rewrite Q. now destruct x as [[? ?] ?].
  - intros x (X1 & X2 & X3). destruct (B (fst (fst x), 0, 0)%nat) as ((P & _) & Q); [cbn; lia|]. cbn [fst snd] in P, Q. injection Q as Q. split; [auto|].
    rewrite Q. now destruct x as [[? ?] ?].
Qed.
Lemma small_moved order inverse labels labels' pp pp' f sl sp sl' sp' :
  moved_array (shuffled order) (shuffled inverse) labels labels' -> moved_probs (shuffled order) (shuffled inverse) pp pp' ->
  sN labels = tN pp -> sH labels = tH pp -> sW labels = tW pp -> tH pp' = tH pp -> tW pp' = tW pp -> (0 < tH pp)%nat -> (0 < tW pp)%nat ->
  downsample_arrays labels pp f = Ok (sl, sp) -> downsample_arrays labels' pp' f = Ok (sl', sp') ->
  moved_array (shuffled order) (shuffled inverse) sl sl' /\ moved_probs (shuffled order) (shuffled inverse) sp sp'.
Proof.
  intros ML MP S1 S2 S3 T2 T3 Hh Hw D D'. unfold downsample_arrays in *. destruct (Nat.eqb f 1); [injection D as <- <-; injection D' as <- <-; auto|].
  destruct (Nat.eqb f 0) eqn:F0; [discriminate|]. apply Nat.eqb_neq in F0. rewrite T2, T3 in D'.
  destruct (Nat.eqb (tH pp mod f) 0) eqn:MH; [|discriminate]. destruct (Nat.eqb (tW pp mod f) 0) eqn:MW; [|discriminate].
  apply Nat.eqb_eq in MH, MW. cbn [negb orb] in *. injection D as <- <-. injection D' as <- <-.
  destruct ML as (RL & VL). destruct MP as (EK & RP & VP). rewrite T2, T3 in RP.
  assert (Big : forall n i j a b, (n < tN pp)%nat -> (i < tH pp / f)%nat -> (j < tW pp / f)%nat -> (a < f)%nat -> (b < f)%nat -> inside (tN pp) (tH pp) (tW pp) (n, i * f + a, j * f + b)%nat).
  { intros n i j a b Hn Hi Hj Ha Hb. pose proof (Nat.div_mod (tH pp) f F0) as X. pose proof (Nat.div_mod (tW pp) f F0) as Y. rewrite MH in X. rewrite MW in Y. unfold inside. cbn [fst snd].
    split; [auto|]. assert ((i + 1) * f <= tH pp / f * f)%nat by (apply Nat.mul_le_mono_r; lia). assert ((j + 1) * f <= tW pp / f * f)%nat by (apply Nat.mul_le_mono_r; lia). nia. }
  assert (BP : forall n i j k, (n < tN pp)%nat -> (i < tH pp / f)%nat -> (j < tW pp / f)%nat -> (k < tK pp)%nat ->
     block f (fun i' j' => at4 pp' (nth n order 0%nat) k i' j') i j = block f (fun i' j' => at4 pp n k i' j') i j).
  { intros n i j k Hn Hi Hj Hk. apply block_ext. intros a b Ha Hb. exact (VP _ k (Big n i j a b Hn Hi Hj Ha Hb) Hk). }
  split.
  - split; [exact (rearranges_shuffled _ _ _ _ _ _ _ _ Hh Hw RP)|]. cbn [sN sH sW]. intros [[n i] j] (X1 & X2 & X3). unfold value_at, shuffled. cbn [fst snd at3] in *.
    f_equal. f_equal. apply block_ext. intros a b Ha Hb. f_equal. pose proof (Big n i j a b X1 X2 X3 Ha Hb) as I. rewrite <- S1, <- S2, <- S3 in I. exact (VL _ I).
  - split; [exact EK|]. split; [exact (rearranges_shuffled _ _ _ _ _ _ _ _ Hh Hw RP)|]. cbn [tN tH tW tK]. intros [[n i] j] k (X1 & X2 & X3) Hk. unfold prob_at, shuffled. cbn [fst snd at4] in *.
    rewrite EK. rewrite BP by auto. f_equal. f_equal. unfold tab. apply map_ext_in. intros k' Hk'. apply in_seq in Hk'. apply BP; auto; lia.
Qed.
Lemma issues_shuffled order inverse labels labels' pp pp' f srt srt' b b' js js' sl sp issues issues' : argsort_ok srt -> argsort_ok srt' ->
  moved_array (shuffled order) (shuffled inverse) labels labels' -> moved_probs (shuffled order) (shuffled inverse) pp pp' ->
  sH labels' = sH labels -> sW labels' = sW labels -> (0 < f)%nat -> downsample_arrays labels pp f = Ok (sl, sp) ->
  dataset (tK sp) (all_labels sl) (all_rows sp) -> own_prob_floor (all_labels sl) (all_rows sp) -> distinct_pixels sl sp ->
  seg_find_label_issues srt labels pp b js f = Ok issues -> seg_find_label_issues srt' labels' pp' b' js' f = Ok issues' ->
  moved_array (shuffled order) (shuffled inverse) issues issues'.
Proof.
  intros Hs Hs' ML MP H2 H3 F0 D Hd Hfl Hdi E E'. destruct (shapes _ _ _ _ _ _ _ E) as (S1 & S2 & S3), (shapes _ _ _ _ _ _ _ E') as (S1' & S2' & S3').
  assert (KK : tK sp = tK pp /\ tN sp = tN pp /\ sN sl = sN labels /\ tH sp = (sH labels / f)%nat /\ tW sp = (sW labels / f)%nat /\ sH sl = (sH labels / f)%nat /\ sW sl = (sW labels / f)%nat).
  { unfold downsample_arrays in D. destruct (Nat.eqb f 1) eqn:F1.
    - apply Nat.eqb_eq in F1. subst f. injection D as <- <-. rewrite !Nat.div_1_r. auto 10.
    - destruct (Nat.eqb f 0); [discriminate|]. destruct (_ || _)%bool; [discriminate|]. injection D as <- <-. cbn. rewrite S1, S2, S3. auto 10. }
  destruct KK as (KK & KN & LN & KH & KW & LH & LW).
  pose proof (has_classes _ _ Hd) as K0. rewrite KK in K0. assert (K0' : (0 < tK pp')%nat) by (destruct MP as (-> & _); exact K0).
  destruct (C32_flagged_pred srt labels pp b js f issues K0 E) as (sl0 & sp0 & r & z & V1 & V2 & V3 & V4 & V5 & V6 & V7 & V8).
  destruct (C32_flagged_pred srt' labels' pp' b' js' f issues' K0' E') as (sl' & sp' & r' & z' & W1 & W2 & W3 & W4 & W5 & W6 & W7 & W8).
  rewrite D in V3. injection V3 as <- <-.
  assert (Hpos : (0 < sH labels / f)%nat /\ (0 < sW labels / f)%nat).
  { destruct Hd as [_ B _ _ _]. rewrite all_labels_pixels, LH, LW in B. destruct (all_pixels (sN sl) (sH labels / f) (sW labels / f)) as [|x l] eqn:X; [exfalso; now apply B|].
    assert (I : inside (sN sl) (sH labels / f) (sW labels / f) x) by (apply all_pixels_in; rewrite X; now left). unfold inside in I. lia. }
  assert (Hh : (0 < tH pp)%nat) by (rewrite <- S2; destruct (sH labels); [rewrite Nat.div_0_l in Hpos; lia|lia]).
  assert (Hw : (0 < tW pp)%nat) by (rewrite <- S3; destruct (sW labels); [rewrite Nat.div_0_l in Hpos; lia|lia]).
  destruct (small_moved order inverse labels labels' pp pp' f sl sp sl' sp' ML MP S1 S2 S3) as (SL & SP); auto; try congruence.
  assert (KK' : tN sp' = sN sl' /\ tH sp' = (sH labels' / f)%nat /\ tW sp' = (sW labels' / f)%nat /\ sH sl' = (sH labels' / f)%nat /\ sW sl' = (sW labels' / f)%nat).
  { clear - W3 S1' S2' S3'. unfold downsample_arrays in W3. destruct (Nat.eqb f 1) eqn:F1.
    - apply Nat.eqb_eq in F1. subst f. injection W3 as <- <-. rewrite !Nat.div_1_r. auto 10.
    - destruct (Nat.eqb f 0); [discriminate|]. destruct (_ || _)%bool; [discriminate|]. injection W3 as <- <-. cbn. rewrite S2', S3'. auto 10. }
  destruct KK' as (KN' & KH' & KW' & LH' & LW').
  assert (R := ranked_moved (shuffled order) (shuffled inverse) sl sl' sp sp' SL SP ltac:(congruence) ltac:(congruence) ltac:(congruence) ltac:(congruence) ltac:(congruence) ltac:(congruence) Hd srt srt' z z' js js' r r' Hs Hs' Hfl Hdi V4 W4).
  pose proof ML as (RR & V). split; [rewrite V5, V6, V7, W5, W6, W7; exact RR|]. rewrite V5, V6, V7. intros x X. destruct (proj1 RR x X) as (X' & _).
  apply eq_true_iff_eq. unfold value_at. rewrite (V8 _ _ _ X), (W8 _ _ _ X').
  assert (Y : inside (sN sl) (sH sl) (sW sl) (fst (fst x), snd (fst x) / f, snd x / f)%nat).
  { destruct X as (X1 & X2 & X3). unfold inside. cbn [fst snd]. rewrite LN, LH, LW. split; [auto|].
    assert (M : (sH labels mod f = 0)%nat /\ (sW labels mod f = 0)%nat).
    { unfold downsample_arrays in D. destruct (Nat.eqb f 1) eqn:F1; [apply Nat.eqb_eq in F1; subst f; rewrite !Nat.mod_1_r; auto|].
      destruct (Nat.eqb f 0); [discriminate|]. rewrite <- S2, <- S3 in D. destruct (Nat.eqb (sH labels mod f) 0) eqn:A; [|discriminate]. destruct (Nat.eqb (sW labels mod f) 0) eqn:B; [|discriminate].
      apply Nat.eqb_eq in A, B. auto. }
    destruct M as (M1 & M2). assert (Fn : f <> 0%nat) by lia. pose proof (Nat.div_mod (sH labels) f Fn) as Z1. pose proof (Nat.div_mod (sW labels) f Fn) as Z2.
    split; apply Nat.div_lt_upper_bound; lia. }
  specialize (R _ Y). unfold idx, shuffled in R. cbn [fst snd] in R. rewrite LH', LW', LH, LW in R. unfold shuffled at 1 2 3. cbn [fst snd]. rewrite R.
  specialize (V x X). unfold value_at in V. rewrite V.
  assert (P : forall k, (k < tK pp)%nat -> prob_at pp' k (shuffled order x) = prob_at pp k x).
  { intros k Hk. apply MP; [now rewrite <- S1, <- S2, <- S3|exact Hk]. }
  assert (EK : tK pp' = tK pp) by apply MP.
  split; intros (A & B); split; auto; intros C; apply B.
  - eapply predicted_same; [exact EK|exact P|exact C].
  - eapply predicted_same; [symmetry; exact EK| |exact C]. intros k Hk. symmetry. apply P. now rewrite <- EK.
Qed.

(** ** image scores, summaries *)
Lemma image_count_shuffled order inverse (a a' : arr3 bool) n : moved_array (shuffled order) (shuffled inverse) a a' -> sH a' = sH a -> sW a' = sW a -> (n < sN a)%nat ->
  SpecToken.how_many (fun ij => at3 a' (nth n order 0%nat) (fst ij) (snd ij)) (image_pixels (sH a') (sW a')) =
  SpecToken.how_many (fun ij => at3 a n (fst ij) (snd ij)) (image_pixels (sH a) (sW a)).
Proof.
  intros (_ & V) -> -> Hn. unfold SpecToken.how_many. f_equal. apply filter_ext_in. intros [i j] H. unfold image_pixels in H.
  apply in_flat_map in H as (i' & Hi & H). apply in_map_iff in H as (j' & E & Hj). injection E as -> ->. apply in_seq in Hi, Hj. cbn [fst snd].
  apply (V (n, i, j)). unfold inside. cbn [fst snd]. lia.
Qed.
Lemma image_scores_shuffled order inverse labels labels' pp pp' f srt srt' b b' js js' sl sp sc sc' : argsort_ok srt -> argsort_ok srt' ->
  moved_array (shuffled order) (shuffled inverse) labels labels' -> moved_probs (shuffled order) (shuffled inverse) pp pp' ->
  sH labels' = sH labels -> sW labels' = sW labels -> (0 < f)%nat -> downsample_arrays labels pp f = Ok (sl, sp) ->
  dataset (tK sp) (all_labels sl) (all_rows sp) -> own_prob_floor (all_labels sl) (all_rows sp) -> distinct_pixels sl sp ->
  num_pixel_issues_scores srt labels pp b js f = Ok sc -> num_pixel_issues_scores srt' labels' pp' b' js' f = Ok sc' ->
  length sc' = length sc /\ forall n, (n < length sc)%nat -> nth (nth n order 0%nat) sc' 0 == nth n sc 0.
Proof.
  intros Hs Hs' ML MP H2 H3 F0 D Hd Hfl Hdi E E'.
  assert (X : exists issues, seg_find_label_issues srt labels pp b js f = Ok issues) by (unfold num_pixel_issues_scores in E; destruct (seg_find_label_issues srt labels pp b js f); [eauto|discriminate]).
  assert (X' : exists issues, seg_find_label_issues srt' labels' pp' b' js' f = Ok issues) by (unfold num_pixel_issues_scores in E'; destruct (seg_find_label_issues srt' labels' pp' b' js' f); [eauto|discriminate]).
  destruct X as (issues & X), X' as (issues' & X').
  pose proof (issues_shuffled order inverse labels labels' pp pp' f srt srt' b b' js js' sl sp issues issues' Hs Hs' ML MP H2 H3 F0 D Hd Hfl Hdi X X') as M.
  destruct (shapes _ _ _ _ _ _ _ X) as (S1 & S2 & S3).
  assert (L : sH sl = (sH labels / f)%nat /\ sW sl = (sW labels / f)%nat /\ tK sp = tK pp).
  { unfold downsample_arrays in D. destruct (Nat.eqb f 1) eqn:F1.
    - apply Nat.eqb_eq in F1. subst f. injection D as <- <-. rewrite !Nat.div_1_r. auto.
    - destruct (Nat.eqb f 0); [discriminate|]. destruct (_ || _)%bool; [discriminate|]. injection D as <- <-. cbn. rewrite S2, S3. auto. }
  destruct L as (LH & LW & LK).
  assert (Hpos : (0 < sH labels)%nat /\ (0 < sW labels)%nat).
  { pose proof Hd as [_ B _ _ _]. rewrite all_labels_pixels, LH, LW in B. destruct (all_pixels (sN sl) (sH labels / f) (sW labels / f)) as [|x l] eqn:Y; [exfalso; now apply B|].
    assert (I : inside (sN sl) (sH labels / f) (sW labels / f) x) by (apply all_pixels_in; rewrite Y; now left). unfold inside in I.
    destruct (sH labels); [rewrite Nat.div_0_l in I; lia|]. destruct (sW labels); [rewrite Nat.div_0_l in I; lia|]. lia. }
  destruct Hpos as (P1 & P2).
  destruct (C61_num_full srt labels pp b js f issues sc P1 P2 X E) as (Len & C).
  destruct (C61_num_full srt' labels' pp' b' js' f issues' sc' ltac:(lia) ltac:(lia) X' E') as (Len' & C').
  pose proof (has_classes _ _ Hd) as K0. rewrite LK in K0. assert (K0' : (0 < tK pp')%nat) by (destruct MP as (-> & _); exact K0).
  destruct (C32_flagged_pred srt labels pp b js f issues K0 X) as (_ & _ & _ & _ & _ & _ & _ & _ & V5 & V6 & V7 & _).
  destruct (C32_flagged_pred srt' labels' pp' b' js' f issues' K0' X') as (_ & _ & _ & _ & _ & _ & _ & _ & W5 & W6 & W7 & _).
  destruct ML as ((R1 & R2) & _).
  assert (B1 : forall n, (n < sN labels)%nat -> (nth n order 0 < sN labels')%nat).
  { intros n Hn. destruct (R1 (n, 0, 0)%nat) as ((A & _) & _); [unfold inside; cbn; lia|exact A]. }
  assert (B2 : forall n, (n < sN labels')%nat -> (nth n inverse 0 < sN labels)%nat /\ nth (nth n inverse 0%nat) order 0%nat = n).
  { intros n Hn. destruct (R2 (n, 0, 0)%nat) as ((A & _) & B); [unfold inside; cbn; lia|]. split; [exact A|]. unfold shuffled in B. cbn [fst snd] in B. now injection B. }
  assert (B3 : forall n, (n < sN labels)%nat -> nth (nth n order 0%nat) inverse 0%nat = n).
  { intros n Hn. destruct (R1 (n, 0, 0)%nat) as (_ & B); [unfold inside; cbn; lia|]. unfold shuffled in B. cbn [fst snd] in B. now injection B. }
  assert (NN : sN labels' = sN labels).
  { rewrite <- (seq_length (sN labels) 0), <- (seq_length (sN labels') 0), <- (map_length (fun n => nth n order 0%nat) (seq 0 (sN labels))).
    apply Permutation_length, NoDup_Permutation; [apply seq_NoDup| |].
    - apply ProofNumbering.NoDup_map_inj_in; [|apply seq_NoDup]. intros x y Hx Hy Z. apply in_seq in Hx, Hy. rewrite <- (B3 x), <- (B3 y) by lia. now rewrite Z.
    - intros n. rewrite in_map_iff. rewrite in_seq. split.
      + intros Hn. exists (nth n inverse 0%nat). destruct (B2 n) as (U & W); [lia|]. split; [exact W|apply in_seq; lia].
      + intros (m & <- & Hm). apply in_seq in Hm. specialize (B1 m). lia. }
  split; [congruence|]. intros n Hn. rewrite Len in Hn. destruct (C n Hn) as (Q & _). destruct (C' (nth n order 0%nat) (B1 n Hn)) as (Q' & _).
  assert (Cnt := image_count_shuffled order inverse issues issues' n M ltac:(congruence) ltac:(congruence) ltac:(congruence)).
  rewrite V6, V7, W6, W7 in Cnt. rewrite Cnt in Q'. rewrite H2, H3 in Q'.
  assert (Z : ~ Qnat (sH labels * sW labels) == 0). { intros Z. assert (0 < Qnat (sH labels * sW labels)) by (apply Qnat_pos; nia). lra. }
  rewrite <- Q in Q'. apply Qmult_inj_r in Q'; [lra|exact Z].
Qed.
Lemma pixel_row_at pp n i j : pixel_row pp n i j = row_at pp (n, i, j). Proof. reflexivity. Qed.
Lemma filter_moved to back c issues issues' labels labels' pp pp' : moved_array to back issues issues' -> moved_array to back labels labels' -> moved_probs to back pp pp' ->
  sN issues = sN labels -> sH issues = sH labels -> sW issues = sW labels -> sN labels = tN pp -> sH labels = tH pp -> sW labels = tW pp ->
  moved_array to back (seg_filter_by_class c issues labels pp) (seg_filter_by_class c issues' labels' pp').
Proof.
  intros (R & MI) (_ & ML) MP I1 I2 I3 S1 S2 S3. split; [exact R|]. cbn [sN sH sW seg_filter_by_class]. intros x X. unfold value_at, seg_filter_by_class. cbn [at3].
  rewrite !pixel_row_at. pose proof (MI x X) as A. rewrite I1, I2, I3 in X. pose proof (ML x X) as B. unfold value_at in A, B. rewrite A, B.
  assert (RM : row_at pp' (to x) = row_at pp x) by exact (row_moved to back labels pp pp' x MP S1 S2 S3 X).
  destruct (to x) as [[n' i'] j']. destruct x as [[n i] j]. cbn [fst snd] in *. now rewrite RM.
Qed.
Lemma how_many_perm {A} (f : A -> bool) a b : Permutation a b -> SpecToken.how_many f a = SpecToken.how_many f b.
Proof. intros H. unfold SpecToken.how_many. now apply Permutation_length, Permutation_filter_. Qed.
Lemma common_moved to back srt srt' issues issues' labels labels' pp pp' exclude top : argsort_ok srt -> argsort_ok srt' ->
  moved_array to back issues issues' -> moved_array to back labels labels' -> moved_probs to back pp pp' -> (0 < tK pp)%nat ->
  sN issues = sN labels -> sH issues = sH labels -> sW issues = sW labels -> sN labels = tN pp -> sH labels = tH pp -> sW labels = tW pp ->
  sN labels' = tN pp' -> sH labels' = tH pp' -> sW labels' = tW pp' ->
  exists rows rows', seg_common_label_issues srt issues labels pp exclude top = Ok (firstn top rows) /\
    seg_common_label_issues srt' issues' labels' pp' exclude top = Ok (firstn top rows') /\ Permutation rows rows' /\
    StronglySorted (fun a b => (snd b <= snd a)%nat) rows /\ StronglySorted (fun a b => (snd b <= snd a)%nat) rows'.
Proof.
  intros Hs Hs' MI ML MP K0 I1 I2 I3 S1 S2 S3 S1' S2' S3'. pose proof MP as (EK & _).
  destruct (C62_common_full srt issues labels pp exclude top Hs K0 S1 S2 S3) as (rows & E & N & St & C).
  destruct (C62_common_full srt' issues' labels' pp' exclude top Hs' ltac:(lia) S1' S2' S3') as (rows' & E' & N' & St' & C').
  exists rows, rows'. split; [exact E|]. split; [exact E'|]. split; [|auto]. apply NoDup_Permutation; [now apply NoDup_map_inv in N|now apply NoDup_map_inv in N'|].
  intros [[g p] k]. rewrite C, C', EK.
  match goal with |- _ /\ _ = ?a <-> _ /\ _ = ?b => assert (a = b) as ->; [|reflexivity] end.
  destruct MI as (R & VI). rewrite <- (how_many_perm _ _ _ (rearranged_pixels _ _ _ _ _ _ _ _ R)). unfold SpecToken.how_many.
  generalize (fun x => proj1 (all_pixels_in (sN issues) (sH issues) (sW issues) x)). generalize (all_pixels (sN issues) (sH issues) (sW issues)) as l.
  induction l as [|x l IH]; intros HI; [reflexivity|]. cbn [map filter]. specialize (IH (fun y Hy => HI y (or_intror Hy))).
  assert (X := HI x (or_introl eq_refl)). pose proof (VI x X) as A. rewrite I1, I2, I3 in X. destruct ML as (RL & VL). pose proof (VL x X) as B.
  assert (RM : row_at pp' (to x) = row_at pp x) by exact (row_moved to back labels pp pp' x MP S1 S2 S3 X).
  unfold value_at in A, B. destruct (to x) as [[n' i'] j']. destruct x as [[n i] j]. cbn [fst snd] in A, B. rewrite !pixel_row_at, RM, A, B.
  destruct (at3 issues n i j && Nat.eqb (at3 labels n i j) g && Nat.eqb (argmax (row_at pp (n, i, j))) p)%bool; cbn [length]; now rewrite IH.
Qed.

(** ** ways to rearrange *)
Lemma transposed_ok N h w : rearranges transposed transposed N h w N w h.
Proof. split; intros [[n i] j] (A & B & C); unfold transposed, inside in *; cbn [fst snd] in *; auto. Qed.
Lemma mirrored_ok N h w : rearranges (mirrored w) (mirrored w) N h w N h w.
Proof. split; intros [[n i] j] (A & B & C); unfold mirrored, inside in *; cbn [fst snd] in *; (split; [lia|f_equal; lia]). Qed.
Lemma cut_ok N h c w : (0 < c)%nat -> (0 < w)%nat -> rearranges (cut c w) (glued c w) N h (c * w) (N * c) h w.
Proof.
  intros Hc Hw. split; intros [[n i] j] (A & B & C); unfold cut, glued, inside in *; cbn [fst snd] in *.
  - assert (D : (j / w < c)%nat) by (apply Nat.div_lt_upper_bound; lia). split.
    + split; [nia|]. split; [auto|]. apply Nat.mod_upper_bound. lia.
    + rewrite Nat.div_add_l, (Nat.div_small (j / w)), Nat.add_0_r by lia. f_equal. replace ((n * c + j / w) mod c)%nat with (j / w)%nat by (rewrite Nat.add_comm, Nat.mod_add, (Nat.mod_small (j / w)) by lia; reflexivity).
      rewrite Nat.mul_comm. symmetry. apply Nat.div_mod. lia.
  - assert (D : (n mod c < c)%nat) by (apply Nat.mod_upper_bound; lia). split.
    + split; [apply Nat.div_lt_upper_bound; lia|]. split; [auto|]. nia.
    + rewrite Nat.div_add_l, (Nat.div_small j), Nat.add_0_r by lia. replace ((n mod c * w + j) mod w)%nat with j by (rewrite Nat.add_comm, Nat.mod_add, (Nat.mod_small j) by lia; reflexivity). f_equal. f_equal.
      rewrite Nat.mul_comm. symmetry. apply Nat.div_mod. lia.
Qed.
Lemma shuffled_ok order inverse N h w : Permutation order (seq 0 N) -> length inverse = N -> (forall n, (n < N)%nat -> nth (nth n order 0%nat) inverse 0%nat = n) ->
  rearranges (shuffled order) (shuffled inverse) N h w N h w.
Proof.
  intros P L I. assert (B : forall n, (n < N)%nat -> (nth n order 0 < N)%nat).
  { intros n Hn. assert (In (nth n order 0%nat) (seq 0 N)) as J by (eapply Permutation_in; [exact P|]; apply nth_In; rewrite (Permutation_length P), seq_length; auto). apply in_seq in J. lia. }
  assert (O : forall n, (n < N)%nat -> exists m, (m < N)%nat /\ nth m order 0%nat = n).
  { intros n Hn. assert (J : In n order) by (eapply Permutation_in; [apply Permutation_sym, P|]; apply in_seq; lia). destruct (In_nth _ _ 0%nat J) as (m & Hm & E).
    rewrite (Permutation_length P), seq_length in Hm. eauto. }
  split; intros [[n i] j] (X & Y & Z); unfold shuffled, inside in *; cbn [fst snd] in *.
  - split; [auto|]. now rewrite I.
  - destruct (O n X) as (m & Hm & <-). rewrite (I m Hm). auto.
Qed.
