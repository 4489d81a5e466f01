From Coq Require Import String QArith Qround Reals List ZArith Bool Arith Sorted Permutation Lia Lra.
From Coq Require Lqa.
From Verif Require Import Base BaseFacts ModelUtil ModelCount ModelRank ModelPool ModelFilter ModelBatched ModelEntropy
     ModelOutlier ModelToken ModelSegmentation SpecCount SpecFilter SpecRank SpecBatched SpecOutlier SpecToken SpecSegmentation
     ProofUtil ProofCount ProofPool ProofFilter ProofRank ProofBatched ProofNoise ProofOutlier ProofToken.
Import ListNotations.
Open Scope nat_scope.

(** ** Pixel positions *)
Lemma index_round h w n i j : i < h -> j < w -> indexes_from_ranked h w (pixel_index h w n i j) = (n, i, j).
Proof.
  intros Hi Hj. unfold indexes_from_ranked, pixel_index.
  assert (Hb : i * w + j < h * w) by nia.
  assert (Hr : (n * (h * w) + i * w + j) mod (h * w) = i * w + j).
  { symmetry. apply Nat.mod_unique with n; [auto|lia]. }
  assert (Hq : (n * (h * w) + i * w + j) / (h * w) = n).
  { symmetry. apply Nat.div_unique with (i * w + j); [auto|lia]. }
  rewrite Hr, Hq. f_equal; [f_equal|].
  - symmetry. apply Nat.div_unique with j; lia.
  - symmetry. apply Nat.mod_unique with i; lia.
Qed.
Lemma round_index h w p n i j : 0 < h -> 0 < w -> indexes_from_ranked h w p = (n, i, j) ->
  p = pixel_index h w n i j /\ i < h /\ j < w.
Proof.
  unfold indexes_from_ranked, pixel_index. intros Hh Hw E. injection E as <- <- <-.
  assert (Hne : h * w <> 0) by nia. assert (Hw' : w <> 0) by lia.
  pose proof (Nat.div_mod p (h * w) Hne) as E1. pose proof (Nat.mod_upper_bound p (h * w) Hne) as B1.
  set (r := p mod (h * w)) in *. pose proof (Nat.div_mod r w Hw') as E2. pose proof (Nat.mod_upper_bound r w Hw') as B2.
  split; [rewrite E1 at 1; lia|]. split; [|auto]. apply Nat.div_lt_upper_bound; auto. lia.
Qed.
Lemma in_coords h w n i j ranked : i < h -> j < w ->
  (In (n, i, j) (map (indexes_from_ranked h w) ranked) <-> In (pixel_index h w n i j) ranked).
Proof.
  intros Hi Hj. rewrite in_map_iff. split.
  - intros (p & E & Hp). apply round_index in E as (-> & _); auto; lia.
  - intros Hp. exists (pixel_index h w n i j). split; auto. apply index_round; auto.
Qed.
Lemma rows_length {A} w (g : nat -> nat -> A) : forall h s,
  length (concat (map (fun i => map (fun j => g i j) (seq 0 w)) (seq s h))) = h * w.
Proof.
  induction h as [|h IH]; intros s; [reflexivity|]. cbn [seq map concat]. rewrite app_length, map_length, seq_length, IH. reflexivity.
Qed.
Lemma flat_length {A} h w (g : nat -> nat -> nat -> A) ims : length (flat_images h w g ims) = length ims * (h * w).
Proof.
  unfold flat_images. induction ims as [|n t IH]; [reflexivity|]. cbn [map concat length]. rewrite app_length, IH.
  rewrite (rows_length w (g n)). reflexivity.
Qed.
Lemma rows_nth {A} w (g : nat -> nat -> A) d : forall h s i j, i < h -> j < w ->
  nth (i * w + j) (concat (map (fun i => map (fun j => g i j) (seq 0 w)) (seq s h))) d = g (s + i) j.
Proof.
  induction h as [|h IH]; intros s i j Hi Hj; [lia|]. cbn [seq map concat]. destruct i as [|i].
  - cbn [Nat.mul Nat.add]. rewrite app_nth1 by (rewrite map_length, seq_length; auto).
    rewrite (nth_map_gen _ _ _ _ 0) by (rewrite seq_length; auto). rewrite seq_nth by auto. f_equal. lia.
  - rewrite app_nth2 by (rewrite map_length, seq_length; nia). rewrite map_length, seq_length.
    replace (S i * w + j - w) with (i * w + j) by nia. rewrite IH by lia. f_equal. lia.
Qed.
Lemma flat_nth {A} h w (g : nat -> nat -> nat -> A) d : forall N s n i j, n < N -> i < h -> j < w ->
  nth (pixel_index h w n i j) (flat_images h w g (seq s N)) d = g (s + n) i j.
Proof.
  induction N as [|N IH]; intros s n i j Hn Hi Hj; [lia|]. unfold flat_images. cbn [seq map concat].
  assert (HL : length (concat (map (fun i => map (fun j => g s i j) (seq 0 w)) (seq 0 h))) = h * w).
  { pose proof (flat_length h w g [s]) as H. unfold flat_images in H. cbn [map concat length] in H. rewrite app_nil_r in H. lia. }
  unfold pixel_index. destruct n as [|n].
  - cbn [Nat.mul Nat.add]. rewrite app_nth1 by (rewrite HL; nia). rewrite (rows_nth w (g s)) by auto. f_equal. lia.
  - rewrite app_nth2 by (rewrite HL; nia). rewrite HL.
    replace (S n * (h * w) + i * w + j - h * w) with (pixel_index h w n i j) by (unfold pixel_index; nia).
    fold (flat_images h w g (seq (S s) N)). rewrite IH by lia. f_equal. lia.
Qed.
Lemma flat_concat {A} h w (g : nat -> nat -> nat -> A) chs :
  concat (map (flat_images h w g) chs) = flat_images h w g (concat chs).
Proof.
  induction chs as [|c t IH]; [reflexivity|]. cbn [map concat]. rewrite IH. unfold flat_images. rewrite map_app, concat_app. reflexivity.
Qed.
Lemma all_labels_flat labels : all_labels labels = flat_images (sH labels) (sW labels) (at3 labels) (seq 0 (sN labels)).
Proof. unfold all_labels, flat_images. rewrite flat_map_concat_map. f_equal. apply map_ext. intros n. apply flat_map_concat_map. Qed.
Lemma all_rows_flat pp : all_rows pp = flat_images (tH pp) (tW pp) (pixel_row pp) (seq 0 (tN pp)).
Proof. unfold all_rows, flat_images. rewrite flat_map_concat_map. f_equal. apply map_ext. intros n. apply flat_map_concat_map. Qed.

(** ** Marking *)
Definition eqb3 (x y : nat * nat * nat) : bool :=
  let '(a, b, c) := x in let '(a', b', c') := y in (Nat.eqb a a' && Nat.eqb b b' && Nat.eqb c c')%bool.
Lemma eqb3_spec x y : eqb3 x y = true <-> x = y.
Proof.
  destruct x as [[a b] c], y as [[a' b'] c']. unfold eqb3. rewrite !andb_true_iff, !Nat.eqb_eq. split.
  - intros ((-> & ->) & ->). reflexivity.
  - intros E. injection E as -> -> ->. auto.
Qed.
Definition mem3 (x : nat * nat * nat) (l : list (nat * nat * nat)) : bool := existsb (eqb3 x) l.
Lemma mem3_spec x l : mem3 x l = true <-> In x l.
Proof.
  unfold mem3. rewrite existsb_exists. split.
  - intros (y & H & E). apply eqb3_spec in E. subst. auto.
  - intros H. exists x. split; auto. apply eqb3_spec. reflexivity.
Qed.
Lemma set_all_spec v : forall xs g n i j,
  set_all v xs g n i j = if mem3 (n, i, j) xs then v else g n i j.
Proof.
  unfold set_all. induction xs as [|[[a b] c] t IH]; intros g n i j; [reflexivity|]. cbn [fold_left]. rewrite IH.
  unfold mem3. cbn [existsb]. fold (mem3 (n, i, j) t). destruct (mem3 (n, i, j) t); [rewrite orb_true_r; reflexivity|].
  rewrite orb_false_r. reflexivity.
Qed.
Lemma mem3_filter p x l : mem3 x (filter p l) = (mem3 x l && p x)%bool.
Proof.
  apply eq_true_iff_eq. rewrite andb_true_iff, !mem3_spec, filter_In. reflexivity.
Qed.
Lemma mark_fold labels pp f h w : forall bs g n i j,
  fold_left (mark_batch labels pp f h w) bs g n i j =
  if mem3 (n, i, j) (map (indexes_from_ranked h w) (concat bs))
  then (if Nat.eqb f 1 then negb (pred_matches labels pp (n, i, j)) else true) else g n i j.
Proof.
  induction bs as [|b t IH]; intros g n i j; [reflexivity|]. cbn [fold_left concat]. rewrite IH. rewrite map_app.
  assert (E : mem3 (n, i, j) (map (indexes_from_ranked h w) b ++ map (indexes_from_ranked h w) (concat t)) =
    (mem3 (n, i, j) (map (indexes_from_ranked h w) b) || mem3 (n, i, j) (map (indexes_from_ranked h w) (concat t)))%bool) by apply existsb_app.
  rewrite E. destruct (mem3 (n, i, j) (map (indexes_from_ranked h w) (concat t))); [rewrite orb_true_r; reflexivity|].
  rewrite orb_false_r. unfold mark_batch. destruct (Nat.eqb f 1).
  - rewrite set_all_spec, mem3_filter, set_all_spec.
    destruct (mem3 (n, i, j) (map (indexes_from_ranked h w) b)); cbn [andb]; [|reflexivity].
    destruct (pred_matches labels pp (n, i, j)); reflexivity.
  - rewrite set_all_spec. reflexivity.
Qed.
Definition up (f : nat) (x : nat * nat * nat) (ab : nat * nat) : nat * nat * nat :=
  let '(n, i, j) := x in (n, i * f + fst ab, j * f + snd ab).
Lemma clear_batch_spec labels pp f h w g b n i j : 0 < f ->
  clear_batch labels pp f h w g b n i j =
  if (mem3 (n, i / f, j / f) (map (indexes_from_ranked h w) b) && pred_matches labels pp (n, i, j))%bool then false else g n i j.
Proof.
  intros Hf. unfold clear_batch. set (cs := map (indexes_from_ranked h w) b).
  set (abs := concat (map (fun a => map (fun b => (a, b)) (seq 0 f)) (seq 0 f))).
  assert (Hin : forall a c, In (a, c) abs <-> a < f /\ c < f).
  { intros a c. unfold abs. rewrite in_concat. split.
    - intros (l & Hl & H). apply in_map_iff in Hl as (a' & <- & Ha). apply in_map_iff in H as (c' & E & Hc).
      injection E as -> ->. apply in_seq in Ha. apply in_seq in Hc. lia.
    - intros (Ha & Hc). exists (map (fun b => (a, b)) (seq 0 f)). split; [apply in_map_iff; exists a; split; auto; apply in_seq; lia|].
      apply in_map_iff. exists c. split; auto. apply in_seq. lia. }
  assert (HF : forall l g, fold_left (fun acc ab => set_all false (filter (pred_matches labels pp)
     (map (fun x => let '(n, i, j) := x in (n, (i * f + fst ab)%nat, (j * f + snd ab)%nat)) cs)) acc) l g n i j =
     if (existsb (fun ab => mem3 (n, i, j) (map (fun x => up f x ab) cs)) l && pred_matches labels pp (n, i, j))%bool then false else g n i j).
  { induction l as [|ab l IH]; intros g0; [reflexivity|]. cbn [fold_left existsb]. rewrite IH, set_all_spec, mem3_filter.
    change (map (fun x => let '(n0, i0, j0) := x in (n0, (i0 * f + fst ab)%nat, (j0 * f + snd ab)%nat)) cs) with (map (fun x => up f x ab) cs).
    destruct (pred_matches labels pp (n, i, j)); [|rewrite !andb_false_r; reflexivity]. rewrite !andb_true_r.
    destruct (existsb _ l); [rewrite orb_true_r; reflexivity|]. rewrite orb_false_r. reflexivity. }
  rewrite HF. clear HF.
  assert (E : existsb (fun ab => mem3 (n, i, j) (map (fun x => up f x ab) cs)) abs = mem3 (n, i / f, j / f) cs).
  { apply eq_true_iff_eq. rewrite existsb_exists, mem3_spec. split.
    - intros ((a & c) & Hac & H). apply Hin in Hac as (Ha & Hc). apply mem3_spec in H. apply in_map_iff in H as ([[n0 i0] j0] & E & H).
      unfold up in E. cbn [fst snd] in E. injection E as -> <- <-.
      replace ((i0 * f + a) / f) with i0 by (apply Nat.div_unique with a; lia).
      replace ((j0 * f + c) / f) with j0 by (apply Nat.div_unique with c; lia). auto.
    - intros H. exists (i mod f, j mod f). split; [apply Hin; split; apply Nat.mod_upper_bound; lia|].
      apply mem3_spec. apply in_map_iff. exists (n, i / f, j / f). split; auto. unfold up. cbn [fst snd].
      pose proof (Nat.div_mod i f ltac:(lia)). pose proof (Nat.div_mod j f ltac:(lia)).
      f_equal; [f_equal|]; lia. }
  rewrite E. reflexivity.
Qed.
Lemma clear_fold labels pp f h w : 0 < f -> forall bs g n i j,
  fold_left (clear_batch labels pp f h w) bs g n i j =
  if (mem3 (n, i / f, j / f) (map (indexes_from_ranked h w) (concat bs)) && pred_matches labels pp (n, i, j))%bool
  then false else g n i j.
Proof.
  intros Hf. induction bs as [|b t IH]; intros g n i j; [reflexivity|]. cbn [fold_left concat]. rewrite IH, clear_batch_spec by auto.
  rewrite map_app. unfold mem3 at 3. rewrite existsb_app. fold (mem3 (n, i / f, j / f) (map (indexes_from_ranked h w) b)).
  fold (mem3 (n, i / f, j / f) (map (indexes_from_ranked h w) (concat t))).
  destruct (mem3 (n, i / f, j / f) (map (indexes_from_ranked h w) b)), (mem3 (n, i / f, j / f) (map (indexes_from_ranked h w) (concat t))),
    (pred_matches labels pp (n, i, j)); reflexivity.
Qed.

Lemma downsample_shape labels pp f sl sp : check_input labels pp = Ok tt -> downsample_arrays labels pp f = Ok (sl, sp) ->
  0 < f /\ tN sp = sN labels /\ tK sp = tK pp /\ tH sp = tH pp / f /\ tW sp = tW pp / f /\ sN sl = tN sp /\ sH sl = tH sp /\ sW sl = tW sp /\
  tH pp / f * f = tH pp /\ tW pp / f * f = tW pp /\ sN labels = tN pp /\ sH labels = tH pp /\ sW labels = tW pp.
Proof.
  unfold check_input, downsample_arrays. destruct (Nat.eqb_spec (sN labels) (tN pp)) as [E1|]; [|discriminate].
  destruct (Nat.eqb_spec (sH labels) (tH pp)) as [E2|]; [|discriminate]. destruct (Nat.eqb_spec (sW labels) (tW pp)) as [E3|]; [|discriminate].
  intros _. destruct (Nat.eqb_spec f 1) as [->|H1].
  - intros E. injection E as <- <-. rewrite !Nat.div_1_r. repeat split; auto; lia.
  - destruct (Nat.eqb_spec f 0) as [->|H0]; [discriminate|].
    destruct (Nat.eqb_spec (tH pp mod f) 0) as [M1|]; [|discriminate]. destruct (Nat.eqb_spec (tW pp mod f) 0) as [M2|]; [|discriminate].
    cbn [negb orb]. intros E. injection E as <- <-. cbn [tN tK tH tW sN sH sW].
    pose proof (Nat.div_mod (tH pp) f H0). pose proof (Nat.div_mod (tW pp) f H0). repeat split; auto; lia.
Qed.
Lemma matches_spec labels pp n i j : pred_matches labels pp (n, i, j) = true <-> argmax (pixel_row pp n i j) = at3 labels n i j.
Proof. unfold pred_matches. apply Nat.eqb_eq. Qed.
Lemma argmax_predicted pp n i j c : 0 < tK pp -> (argmax (pixel_row pp n i j) = c <-> predicted_class pp n i j c).
Proof.
  intros HK. assert (L : length (pixel_row pp n i j) = tK pp) by apply tab_length.
  assert (Hn : forall k, k < tK pp -> nth k (pixel_row pp n i j) 0%Q = at4 pp n k i j) by (intros k Hk; unfold pixel_row; rewrite nth_tab by auto; reflexivity).
  assert (Hne : pixel_row pp n i j <> []) by (intros E; rewrite E in L; simpl in L; lia).
  split.
  - intros <-. destruct (argmax_spec _ Hne) as (A & B & C). rewrite L in A, B. split; [auto|]. split.
    + intros k Hk. specialize (B k Hk). rewrite !Hn in B by auto. auto.
    + intros k Hk. specialize (C k Hk). rewrite !Hn in C by lia. auto.
  - intros (A & B & C). apply argmax_unique. split; [rewrite L; auto|]. rewrite L. split.
    + intros k Hk. rewrite !Hn by auto. auto.
    + intros k Hk. rewrite !Hn by lia. auto.
Qed.

Lemma C32_flagged_full : forall srt labels pp batch_size js f issues,
  seg_find_label_issues srt labels pp batch_size js f = Ok issues ->
  exists sl sp ranked bsz,
    valid_batch_size batch_size = Ok bsz /\ 1 <= bsz /\
    downsample_arrays labels pp f = Ok (sl, sp) /\ ranked_label_issues srt sl sp bsz js = Ok ranked /\
    sN issues = sN labels /\ sH issues = sH labels /\ sW issues = sW labels /\
    forall n i j, in_image labels n i j ->
      (at3 issues n i j = true <->
       In (pixel_index (sH labels / f) (sW labels / f) n (i / f) (j / f)) ranked /\
       ~ (argmax (pixel_row pp n i j) = at3 labels n i j)).
Proof.
  intros srt labels pp bo js f issues. unfold seg_find_label_issues.
  destruct (valid_batch_size bo) as [bsz|] eqn:Eb; [|discriminate]. cbn [rbind].
  destruct (check_input labels pp) as [[]|] eqn:Ec; [|discriminate]. cbn [rbind].
  destruct (downsample_arrays labels pp f) as [[sl sp]|] eqn:Ed; [|discriminate]. cbn [rbind fst snd].
  destruct (ranked_label_issues srt sl sp bsz js) as [ranked|] eqn:Er; [|discriminate]. cbn [rbind].
  destruct (downsample_shape _ _ _ _ _ Ec Ed) as (Hf & D1 & D2 & D3 & D4 & D5 & D6 & D7 & D8 & D9 & D10 & D11 & D12).
  assert (Hb : 1 <= bsz).
  { unfold valid_batch_size in Eb. cbv zeta in Eb. destruct bo as [b|].
    - destruct (Nat.leb_spec b 0); [discriminate|]. injection Eb as <-. lia.
    - injection Eb as <-. lia. }
  intros E. exists sl, sp, ranked, bsz. split; [auto|]. split; [auto|]. split; [auto|]. split; [auto|].
  rewrite D3, D4 in E.
  assert (Hdiv : forall i m, i < m / f * f -> i / f < m / f).
  { intros i m Hi. apply Nat.div_lt_upper_bound; lia. }
  destruct (Nat.eqb_spec f 1) as [->|Hf1].
  - rewrite !Nat.div_1_r in *. injection E as <-. cbn [sN sH sW at3]. split; [lia|]. split; [lia|]. split; [lia|].
    intros n i j (B1 & B2 & B3). rewrite mark_fold, chunks_concat by auto. rewrite !Nat.div_1_r, D11, D12. cbn [Nat.eqb].
    rewrite <- in_coords by lia. rewrite <- mem3_spec, <- matches_spec.
    destruct (mem3 (n, i, j) (map (indexes_from_ranked (tH pp) (tW pp)) ranked)); [|intuition discriminate].
    rewrite negb_true_iff. destruct (pred_matches labels pp (n, i, j)); intuition congruence.
  - injection E as <-. cbn [sN sH sW at3]. split; [lia|]. split; [lia|]. split; [lia|].
    intros n i j (B1 & B2 & B3). rewrite clear_fold, mark_fold, chunks_concat by auto. rewrite D11, D12.
    destruct (Nat.eqb_spec f 1) as [C|_]; [congruence|].
    rewrite <- in_coords by (apply Hdiv; lia). rewrite <- mem3_spec, <- matches_spec.
    destruct (mem3 (n, i / f, j / f) (map (indexes_from_ranked (tH pp / f) (tW pp / f)) ranked)); cbn [andb]; [|intuition discriminate].
    destruct (pred_matches labels pp (n, i, j)); intuition congruence.
Qed.

(** ** Ranked pixels *)
Lemma image_batches_split labels pp bsz : sN labels = tN pp -> sH labels = tH pp -> sW labels = tW pp ->
  0 < sH labels -> 0 < sW labels ->
  is_split (all_labels labels) (all_rows pp) (image_batches labels pp bsz).
Proof.
  intros E1 E2 E3 Hh Hw. unfold image_batches. set (per := Nat.max _ 1). assert (Hp : 1 <= per) by (unfold per; lia).
  split; [|split].
  - rewrite map_map. cbn [flatten_batch fst].
    change (map (fun x => flat_images (sH labels) (sW labels) (at3 labels) x) (chunks per (seq 0 (sN labels)))) with
      (map (flat_images (sH labels) (sW labels) (at3 labels)) (chunks per (seq 0 (sN labels)))).
    rewrite flat_concat, chunks_concat by auto. symmetry. apply all_labels_flat.
  - rewrite map_map. cbn [flatten_batch snd].
    change (map (fun x => flat_images (tH pp) (tW pp) (pixel_row pp) x) (chunks per (seq 0 (sN labels)))) with
      (map (flat_images (tH pp) (tW pp) (pixel_row pp)) (chunks per (seq 0 (sN labels)))).
    rewrite flat_concat, chunks_concat by auto. rewrite E1. symmetry. apply all_rows_flat.
  - intros b Hb. apply in_map_iff in Hb as (ch & <- & Hin). cbn [flatten_batch fst snd]. rewrite !flat_length. split; [congruence|].
    intros C. apply (f_equal (@length nat)) in C. rewrite flat_length in C. cbn [length] in C.
    destruct (chunks_nonempty per _ Hp ch Hin) as (Hne & _). destruct ch; [congruence|]. cbn [length] in C. nia.
Qed.
Open Scope Q_scope.
Lemma get_issues_eq srt K c st : get_label_issues srt K c st =
  do n <- get_num_issues K c st ; Ok (find_top_issues srt (quality_scores st) (Some n)).
Proof. unfold get_label_issues, get_num_issues. destruct (Nat.ltb (examples_processed_quality st) 1); reflexivity. Qed.
Lemma sbs_fst (bs : list batch) (js : nat -> jobs) : map fst (combine bs (map js (seq 0 (length bs)))) = bs.
Proof. apply map_fst_combine. rewrite map_length, seq_length. reflexivity. Qed.

Lemma C32_ranked_full : forall srt labels pp bsz js ranked, argsort_ok srt ->
  sN labels = tN pp -> sH labels = tH pp -> sW labels = tW pp -> (0 < sH labels)%nat -> (0 < sW labels)%nat ->
  dataset (tK pp) (all_labels labels) (all_rows pp) -> own_prob_floor (all_labels labels) (all_rows pp) ->
  ranked_label_issues srt labels pp bsz js = Ok ranked ->
  let conf p := nth (nth p (all_labels labels) 0%nat) (nth p (all_rows pp) []) 0 in
  let total := (sN labels * (sH labels * sW labels))%nat in
  NoDup ranked /\ (forall p, In p ranked -> (p < total)%nat) /\
  StronglySorted (fun p q => conf p <= conf q) ranked /\
  (forall p q, In p ranked -> (q < total)%nat -> ~ In q ranked -> conf p <= conf q) /\
  exists counted, NoDup counted /\ length ranked = length counted /\
    (forall p, In p counted <-> (p < total)%nat /\
       confidently_other (all_labels labels) (all_rows pp) (nth p (all_labels labels) 0%nat) (nth p (all_rows pp) [])).
Proof.
  intros srt labels pp bsz js ranked Hs E1 E2 E3 Hh Hw Hds Hfl Hr conf total.
  pose proof (image_batches_split labels pp bsz E1 E2 E3 Hh Hw) as Hsp. pose proof Hds as [Hlen Hne Hlab _ _].
  unfold ranked_label_issues in Hr. set (bs := image_batches labels pp bsz) in *.
  destruct (inspect (tK pp) SelfConfidence false false bs (combine bs (map js (seq 0 (length bs))))) as [st|] eqn:Ei; [|discriminate].
  cbn [rbind] in Hr.
  apply (inspect_canon (tK pp) false SelfConfidence false bs _ (all_labels labels) (all_rows pp)) in Ei as (t & Et & ->);
    [|auto|auto|rewrite sbs_fst; auto|auto|intros; left; reflexivity].
  rewrite get_issues_eq in Hr. unfold get_num_issues in Hr.
  assert (Htot : length (all_labels labels) = total) by (rewrite all_labels_flat, flat_length, seq_length; reflexivity).
  assert (Hcl : length (combine (all_labels labels) (all_rows pp)) = total) by (rewrite combine_length; lia).
  change (examples_processed_quality (canon (tK pp) false SelfConfidence false t (combine (all_labels labels) (all_rows pp))))
    with (length (combine (all_labels labels) (all_rows pp))) in Hr. rewrite Hcl in Hr.
  assert (Ht0 : (1 <= total)%nat) by (rewrite <- Htot; destruct (all_labels labels); [congruence|simpl; lia]).
  destruct (Nat.ltb_spec total 1) as [C|_]; [lia|]. cbn [rbind canon quality_scores prune_count] in Hr.
  injection Hr as Hr.
  set (cnt := count_true (map (fun lr => counts_as_issue (confident_thresholds t) (fst lr) (snd lr)) (combine (all_labels labels) (all_rows pp)))) in *.
  set (sc := map (score_one (tK pp) (confident_thresholds t) SelfConfidence false) (combine (all_labels labels) (all_rows pp))) in *.
  assert (Hscl : length sc = total) by (unfold sc; rewrite map_length; auto).
  assert (Hsc : forall p, (p < total)%nat -> nth p sc 0 = conf p).
  { intros p Hp. unfold sc. rewrite (nth_map_gen _ _ _ _ (0%nat, [])) by lia. rewrite combine_nth by auto. reflexivity. }
  destruct (C17_full srt sc (Some cnt) Hs) as (A & B & C & D & F). rewrite Hr in *.
  assert (Hcount : forall p, (p < total)%nat ->
    (counts_as_issue (confident_thresholds t) (nth p (all_labels labels) 0%nat) (nth p (all_rows pp) []) = true <->
     confidently_other (all_labels labels) (all_rows pp) (nth p (all_labels labels) 0%nat) (nth p (all_rows pp) []))).
  { intros p Hp. set (row := nth p (all_rows pp) []).
    assert (Hrow : In row (all_rows pp)) by (apply nth_In; lia).
    assert (HL : length row = tK pp) by (destruct Hds; auto).
    assert (HK : (0 < tK pp)%nat).
    { assert (Hin0 : In (nth 0 (all_labels labels) 0%nat) (all_labels labels)) by (apply nth_In; lia). specialize (Hlab _ Hin0). lia. }
    assert (Hak : (argmax row < tK pp)%nat) by (rewrite <- HL; apply argmax_lt; intros E; rewrite E in HL; simpl in HL; lia).
    destruct (thr_full (tK pp) _ _ bs t Hsp Hlab Hne Et (argmax row) Hak) as (T1 & T2).
    destruct (thresholds_spec (all_labels labels) (all_rows pp) (tK pp) (argmax row) Hlen Hak) as (S1 & _).
    unfold confidently_other, counts_as_issue, confident_prediction, FLOATING_POINT_COMPARISON.
    rewrite andb_true_iff, negb_true_iff, Nat.eqb_neq, Qleb_iff.
    destruct (in_dec Nat.eq_dec (argmax row) (all_labels labels)) as [Hin|Hin].
    - destruct (T1 Hin) as (_ & T3). specialize (T3 (floor_means _ _ _ Hsp Hfl)). destruct (S1 Hin) as (avg & Hav & Eav).
      assert (Hlow : 2 # 1000000 <= avg).
      { assert (H1 : is_split (all_labels labels) (all_rows pp) [(all_labels labels, all_rows pp)]).
        { split; [|split]; [simpl; apply app_nil_r|simpl; apply app_nil_r|]. intros b [<-|[]]. auto. }
        apply (floor_means _ _ _ H1 Hfl (all_labels labels, all_rows pp) (argmax row)); simpl; auto. }
      assert (Ethr : nth (argmax row) (confident_thresholds t) 0 == avg).
      { rewrite T3, Eav. unfold CONFIDENT_THRESHOLDS_LOWER_BOUND. destruct (qmax_spec avg (2 # 1000000)) as [(M1 & ->)|(M1 & ->)]; [|reflexivity].
        apply Qle_antisym; auto. }
      rewrite Ethr. split.
      + intros (H1 & H2). split; [auto|]. split; [intros _; exists avg; auto|intros H3; contradiction].
      + intros (H1 & H2 & _). split; [|auto]. destruct (H2 Hin) as (avg' & Hav' & Hle).
        assert (avg == avg') as ->; [|auto]. destruct Hav as (N1 & V1), Hav' as (_ & V2).
        assert (Hpos : 0 < Qnat (length (own_probs (argmax row) (all_labels labels) (all_rows pp)))).
        { apply Qnat_pos. destruct (own_probs _ _ _); [congruence|simpl; lia]. }
        Lqa.nra.
    - rewrite (T2 Hin). split.
      + intros (H1 & H2). split; [auto|]. split; [intros H3; contradiction|auto].
      + intros (H1 & _ & H2). auto. }
  split; [exact B|]. split; [intros p Hp; rewrite <- Hscl; auto|]. split; [|split].
  - assert (G : forall l, (forall p, In p l -> (p < total)%nat) -> StronglySorted (fun i j => nth i sc 0 <= nth j sc 0) l ->
      StronglySorted (fun p q => conf p <= conf q) l).
    { induction l as [|p l IH]; intros Hin Hss; [constructor|]. apply StronglySorted_inv in Hss as (Hss & Hf). constructor; [apply IH; auto; intros; apply Hin; simpl; auto|].
      rewrite Forall_forall in *. intros q Hq. specialize (Hf q Hq). cbv beta in Hf. rewrite !Hsc in Hf by (apply Hin; simpl; auto). auto. }
    apply G; auto. intros p Hp. rewrite <- Hscl. auto.
  - intros p q Hp Hq Hnq. specialize (F p q Hp). rewrite Hscl in F. specialize (F Hq Hnq).
    rewrite !Hsc in F; auto. rewrite <- Hscl. auto.
  - assert (Hle : (cnt <= total)%nat).
    { unfold cnt. rewrite count_true_map, <- Hcl. apply filter_len_le. }
    set (keep := fun p => counts_as_issue (confident_thresholds t) (nth p (all_labels labels) 0%nat) (nth p (all_rows pp) [])).
    assert (Hcb : combine (all_labels labels) (all_rows pp) =
        map (fun p => (nth p (all_labels labels) 0%nat, nth p (all_rows pp) [])) (seq 0 total)).
    { apply list_eq_nth with (d := (0%nat, [])); [rewrite map_length, seq_length; auto|]. intros p Hp. rewrite Hcl in Hp.
      rewrite combine_nth by auto. rewrite (nth_map_gen _ _ _ _ 0%nat) by (rewrite seq_length; auto). rewrite seq_nth by auto. reflexivity. }
    exists (filter keep (seq 0 total)). split; [apply NoDup_filter, seq_NoDup|]. split.
    + rewrite A, Hscl, Nat.min_l by auto. unfold cnt. rewrite count_true_map.
      rewrite Hcb. rewrite <- count_true_map, map_map. rewrite <- count_true_map. reflexivity.
    + intros p. rewrite filter_In, in_seq. split.
      * intros ((_ & Hp) & Hk). split; [lia|]. apply Hcount; auto; lia.
      * intros (Hp & Hk). split; [lia|]. apply Hcount; auto.
Qed.
Lemma all_labels_size labels : all_labels labels <> [] -> (0 < sN labels /\ 0 < sH labels /\ 0 < sW labels)%nat.
Proof.
  intros H. assert (L : length (all_labels labels) = (sN labels * (sH labels * sW labels))%nat)
    by (rewrite all_labels_flat, flat_length, seq_length; reflexivity).
  destruct (all_labels labels); [congruence|]. cbn [length] in L.
  destruct (sN labels), (sH labels), (sW labels); simpl in L; try lia.
Qed.
Lemma ranked_ok srt labels pp bsz : sN labels = tN pp -> sH labels = tH pp -> sW labels = tW pp ->
  dataset (tK pp) (all_labels labels) (all_rows pp) -> (2 <= tK pp)%nat ->
  exists ranked, ranked_label_issues srt labels pp bsz (fun _ => Serial) = Ok ranked.
Proof.
  intros E1 E2 E3 Hds HK. pose proof Hds as [Hlen Hne Hlab _ _].
  destruct (all_labels_size labels Hne) as (_ & Hh & Hw).
  pose proof (image_batches_split labels pp bsz E1 E2 E3 Hh Hw) as Hsp.
  unfold ranked_label_issues. set (bs := image_batches labels pp bsz) in *.
  assert (Hrun : exists st, inspect (tK pp) SelfConfidence false false bs (combine bs (map (fun _ => Serial) (seq 0 (length bs)))) = Ok st).
  { unfold inspect. destruct (thr_run_ok (tK pp) _ _ _ Hsp Hlab) as (st & E). rewrite E. cbn [rbind]. rewrite map_const_seq.
    apply serial_run_ok; auto.
    - intros b Hb. destruct Hsp as (F1 & F2 & H). destruct (H b Hb). repeat split; auto.
      intros l Hl. apply Hlab. rewrite <- F1. apply in_concat. exists (fst b). split; auto. apply in_map; auto.
    - destruct (thr_run (tK pp) _ _ _ st Hsp Hlab E) as (_ & _ & _ & _ & _ & -> & _).
      destruct (all_labels labels); [congruence|simpl; lia]. }
  destruct Hrun as (st & E). rewrite E. cbn [rbind].
  apply (inspect_canon (tK pp) false SelfConfidence false bs _ (all_labels labels) (all_rows pp)) in E as (t & Et & ->);
    [|auto|auto|rewrite sbs_fst; auto|auto|intros; left; reflexivity].
  rewrite get_issues_eq. unfold get_num_issues.
  change (examples_processed_quality (canon (tK pp) false SelfConfidence false t (combine (all_labels labels) (all_rows pp))))
    with (length (combine (all_labels labels) (all_rows pp))).
  rewrite combine_length, <- Hlen, Nat.min_id. destruct (all_labels labels) as [|x l]; [congruence|]. cbn [length Nat.ltb Nat.leb rbind]. eauto.
Qed.
Lemma ranked_same srt labels pp b1 b2 js1 js2 r1 r2 : respects_eq srt ->
  sN labels = tN pp -> sH labels = tH pp -> sW labels = tW pp ->
  dataset (tK pp) (all_labels labels) (all_rows pp) -> own_prob_floor (all_labels labels) (all_rows pp) ->
  ranked_label_issues srt labels pp b1 js1 = Ok r1 -> ranked_label_issues srt labels pp b2 js2 = Ok r2 -> r1 = r2.
Proof.
  intros Hs E1 E2 E3 Hds Hfl. pose proof Hds as [Hlen Hne Hlab _ _].
  destruct (all_labels_size labels Hne) as (_ & Hh & Hw).
  pose proof (image_batches_split labels pp b1 E1 E2 E3 Hh Hw) as S1.
  pose proof (image_batches_split labels pp b2 E1 E2 E3 Hh Hw) as S2.
  unfold ranked_label_issues. set (bs1 := image_batches labels pp b1) in *. set (bs2 := image_batches labels pp b2) in *.
  destruct (inspect (tK pp) SelfConfidence false false bs1 _) as [st1|] eqn:I1; [|discriminate].
  destruct (inspect (tK pp) SelfConfidence false false bs2 _) as [st2|] eqn:I2; [|discriminate].
  cbn [rbind]. rewrite !get_issues_eq.
  destruct (issues_full srt (tK pp) SelfConfidence false false (all_labels labels) (all_rows pp) _ _ _ _ st1 st2 Hs Hds
     S1 (eq_ind_r (fun z => is_split _ _ z) S1 (sbs_fst bs1 js1)) S2 (eq_ind_r (fun z => is_split _ _ z) S2 (sbs_fst bs2 js2))
     (floor_means _ _ _ S1 Hfl) (floor_means _ _ _ S2 Hfl) (fun _ _ => or_introl eq_refl) I1 I2) as (EN & EQ & _).
  rewrite EN. destruct (get_num_issues (tK pp) false st2); [|discriminate]. cbn [rbind]. intros R1 R2.
  injection R1 as <-. injection R2 as <-. unfold find_top_issues. rewrite (Hs _ _ EQ). rewrite (Forall2_len _ _ _ EQ). reflexivity.
Qed.
Lemma C32_batch_full : forall srt labels pp f sl sp, respects_eq srt ->
  check_input labels pp = Ok tt -> downsample_arrays labels pp f = Ok (sl, sp) ->
  dataset (tK sp) (all_labels sl) (all_rows sp) -> (2 <= tK sp)%nat -> own_prob_floor (all_labels sl) (all_rows sp) ->
  (forall b, (1 <= b)%nat -> exists issues, seg_find_label_issues srt labels pp (Some b) (fun _ => Serial) f = Ok issues) /\
  (forall b1 b2 js1 js2 i1 i2,
     seg_find_label_issues srt labels pp b1 js1 f = Ok i1 -> seg_find_label_issues srt labels pp b2 js2 f = Ok i2 ->
     same_array i1 i2).
Proof.
  intros srt labels pp f sl sp Hs Hc Hd Hds HK Hfl.
  destruct (downsample_shape _ _ _ _ _ Hc Hd) as (Hf & D1 & D2 & D3 & D4 & D5 & D6 & D7 & _). split.
  - intros b Hb. unfold seg_find_label_issues, valid_batch_size. destruct (Nat.leb_spec b 0); [lia|]. cbn [rbind]. rewrite Hc, Hd. cbn [rbind fst snd].
    destruct (ranked_ok srt sl sp b D5 D6 D7 Hds HK) as (r & E). rewrite E. cbn [rbind]. destruct (Nat.eqb f 1); eauto.
  - intros b1 b2 js1 js2 i1 i2 H1 H2.
    destruct (C32_flagged_full _ _ _ _ _ _ _ H1) as (sl1 & sp1 & r1 & z1 & _ & _ & Ed1 & R1 & A1 & A2 & A3 & F1).
    destruct (C32_flagged_full _ _ _ _ _ _ _ H2) as (sl2 & sp2 & r2 & z2 & _ & _ & Ed2 & R2 & B1 & B2 & B3 & F2).
    rewrite Hd in Ed1, Ed2. injection Ed1 as <- <-. injection Ed2 as <- <-.
    assert (r1 = r2) by (eapply (ranked_same srt sl sp); eauto). subst r2.
    split; [congruence|]. split; [congruence|]. split; [congruence|]. intros n i j (I1 & I2 & I3).
    apply eq_true_iff_eq. rewrite F1, F2; [reflexivity| |]; repeat split; congruence.
Qed.

(** ** issues_from_scores *)
Lemma searchsorted_take scores thr : forall p, StronglySorted (fun i j => nth i scores 0 <= nth j scores 0) p ->
  let c := searchsorted (take_idx 0 scores p) thr in
  (c <= length p)%nat /\ (forall i, In i (firstn c p) -> nth i scores 0 < thr) /\
  (forall i, In i (skipn c p) -> thr <= nth i scores 0).
Proof.
  induction p as [|i t IH]; intros Hs.
  - simpl. split; [lia|]. split; intros ? [].
  - apply StronglySorted_inv in Hs as (Hs & Hf). specialize (IH Hs). cbv zeta in *.
    change (take_idx 0 scores (i :: t)) with (nth i scores 0 :: take_idx 0 scores t). cbn [searchsorted].
    destruct (Qltb (nth i scores 0) thr) eqn:E.
    + apply Qltb_iff in E. destruct IH as (A & B & C). cbn [length firstn skipn]. split; [lia|]. split; [|auto].
      intros x [<-|Hx]; auto.
    + cbn [firstn skipn length]. split; [lia|]. split; [intros ? []|].
      assert (Hi : thr <= nth i scores 0). { apply Qnot_lt_le. intros C. apply Qltb_iff in C. congruence. }
      intros x [<-|Hx]; [auto|]. rewrite Forall_forall in Hf. specialize (Hf x Hx). cbv beta in Hf. Lqa.lra.
Qed.
Lemma firstn_plus1 {A} n : forall l : list A, firstn (n + 1) l = firstn n l ++ firstn 1 (skipn n l).
Proof. induction n as [|n IH]; intros [|x l]; [reflexivity| |reflexivity|]. - reflexivity. - cbn [Nat.add]. cbn [firstn skipn app]. f_equal. apply IH. Qed.
Lemma C33_pixels_full : forall srt image_scores ps threshold, 0 <= threshold -> threshold <= 1 ->
  exists issues, seg_issues_from_scores srt image_scores (Some ps) threshold = Ok (PixelIssues issues) /\
    sN issues = sN ps /\ sH issues = sH ps /\ sW issues = sW ps /\
    forall n i j, at3 issues n i j = true <-> at3 ps n i j < threshold.
Proof.
  intros srt sc ps t H0 H1. unfold seg_issues_from_scores.
  assert (Qltb t 0 = false) as -> by (apply not_true_iff_false; rewrite Qltb_iff; Lqa.lra).
  assert (Qltb 1 t = false) as -> by (apply not_true_iff_false; rewrite Qltb_iff; Lqa.lra).
  cbn [orb]. eexists. split; [reflexivity|]. cbn [sN sH sW at3]. split; [auto|]. split; [auto|]. split; [auto|]. intros n i j. apply Qltb_iff.
Qed.
Lemma C33_images_full : forall srt scores threshold, argsort_ok srt -> 0 <= threshold -> threshold <= 1 ->
  exists issues, seg_issues_from_scores srt scores None threshold = Ok (ImageIssues issues) /\
    NoDup issues /\ (forall i, In i issues -> (i < length scores)%nat) /\
    StronglySorted (fun a b => nth a scores 0 <= nth b scores 0) issues /\
    (forall i, (i < length scores)%nat -> nth i scores 0 < threshold -> In i issues) /\
    ((forall i, (i < length scores)%nat -> nth i scores 0 < threshold) -> length issues = length scores) /\
    ((exists i, (i < length scores)%nat /\ threshold <= nth i scores 0) ->
       exists below extra, issues = below ++ [extra] /\ threshold <= nth extra scores 0 /\
         (forall i, In i below -> nth i scores 0 < threshold) /\
         (forall i, (i < length scores)%nat -> threshold <= nth i scores 0 -> nth extra scores 0 <= nth i scores 0)).
Proof.
  intros srt sc t Hs H0 H1. unfold seg_issues_from_scores.
  assert (Qltb t 0 = false) as -> by (apply not_true_iff_false; rewrite Qltb_iff; Lqa.lra).
  assert (Qltb 1 t = false) as -> by (apply not_true_iff_false; rewrite Qltb_iff; Lqa.lra).
  cbn [orb]. eexists. split; [reflexivity|]. pose proof (Hs sc) as Ha. pose proof Ha as (_ & Hss).
  set (p := srt sc) in *. destruct (searchsorted_take sc t p Hss) as (A & B & C). set (c := searchsorted (take_idx 0 sc p) t) in *.
  pose proof (argsort_in _ _ Ha) as Hin. pose proof (argsort_length _ _ Ha) as HL.
  assert (Hsplit : p = firstn c p ++ skipn c p) by (symmetry; apply firstn_skipn).
  assert (Hfc : length (firstn c p) = c) by (apply firstn_length_le; auto).
  assert (Hf1 : firstn (c + 1) p = firstn c p ++ firstn 1 (skipn c p)).
  { apply firstn_plus1. }
  split; [apply firstn_NoDup, (argsort_NoDup _ _ Ha)|]. split; [intros i Hi; apply Hin; eapply firstn_In; eauto|]. split.
  { rewrite <- (firstn_skipn (c + 1) p) in Hss. apply StronglySorted_app in Hss. tauto. }
  split.
  { intros i Hi Hlt. rewrite Hf1. apply in_or_app. left. apply Hin in Hi. rewrite Hsplit in Hi. apply in_app_or in Hi as [Hi|Hi]; auto.
    specialize (C i Hi). exfalso. Lqa.lra. }
  split.
  - intros Hall. destruct (skipn c p) as [|x s] eqn:Es.
    + assert (Hz : length (skipn c p) = 0%nat) by (rewrite Es; reflexivity). rewrite skipn_length in Hz. rewrite firstn_all2 by lia. auto.
    + exfalso. assert (Hx : In x p) by (rewrite Hsplit; apply in_or_app; right; simpl; auto).
      specialize (C x (or_introl eq_refl)). apply Hin in Hx. specialize (Hall x Hx). Lqa.lra.
  - intros (i & Hi & Hle). apply Hin in Hi as Hip. rewrite Hsplit in Hip. apply in_app_or in Hip as [Hip|Hip]; [specialize (B i Hip); exfalso; Lqa.lra|].
    destruct (skipn c p) as [|x s] eqn:Es; [destruct Hip|]. exists (firstn c p), x. split; [rewrite Hf1; reflexivity|].
    split; [apply C; simpl; auto|]. split; [auto|]. intros k Hk Hkt. apply Hin in Hk. rewrite Hsplit in Hk.
    apply in_app_or in Hk as [Hk|Hk]; [specialize (B k Hk); exfalso; Lqa.lra|]. destruct Hk as [<-|Hk]; [apply Qle_refl|].
    rewrite Hsplit in Hss. apply StronglySorted_app in Hss as (_ & Hss & _). apply StronglySorted_inv in Hss as (_ & Hf).
    rewrite Forall_forall in Hf. apply Hf. auto.
Qed.
Lemma C33_range_full : forall srt scores ps threshold, threshold < 0 \/ 1 < threshold ->
  seg_issues_from_scores srt scores ps threshold = Raise ValueError.
Proof.
  intros srt sc ps t H. unfold seg_issues_from_scores.
  assert (Qltb t 0 || Qltb 1 t = true)%bool as -> by (rewrite orb_true_iff, !Qltb_iff; auto). reflexivity.
Qed.
Lemma C33_extra_full : forall srt scores threshold, argsort_ok srt -> 0 <= threshold -> threshold <= 1 ->
  (exists i, (i < length scores)%nat /\ threshold <= nth i scores 0) ->
  exists issues i, seg_issues_from_scores srt scores None threshold = Ok (ImageIssues issues) /\
    In i issues /\ ~ nth i scores 0 < threshold.
Proof.
  intros srt sc t Hs H0 H1 Hex. destruct (C33_images_full srt sc t Hs H0 H1) as (l & E & _ & _ & _ & _ & _ & H).
  destruct (H Hex) as (b & x & -> & Hx & _). exists (b ++ [x]), x. split; auto. split; [apply in_or_app; simpl; auto|]. Lqa.lra.
Qed.

(** ** scores *)
Lemma C61_pixel_full : forall labels pp scores, seg_pixel_scores labels pp = Ok scores ->
  sN scores = sN labels /\ sH scores = sH labels /\ sW scores = sW labels /\
  (forall n i j, in_image labels n i j -> at3 scores n i j = at4 pp n (at3 labels n i j) i j) /\
  (dataset (tK pp) (all_labels labels) (all_rows pp) -> forall n i j, in_image labels n i j -> 0 <= at3 scores n i j /\ at3 scores n i j <= 1).
Proof.
  intros labels pp scores. unfold seg_pixel_scores, check_input.
  destruct (Nat.eqb_spec (sN labels) (tN pp)) as [E1|]; [|discriminate].
  destruct (Nat.eqb_spec (sH labels) (tH pp)) as [E2|]; [|discriminate]. destruct (Nat.eqb_spec (sW labels) (tW pp)) as [E3|]; [|discriminate].
  cbn [andb rbind]. intros E. injection E as <-. cbn [sN sH sW at3].
  split; [auto|]. split; [auto|]. split; [auto|]. split.
  - intros n i j _. reflexivity.
  - intros [Hlen Hne Hlab Hrow Hprob] n i j (A & B & C).
    assert (L1 : length (all_labels labels) = (sN labels * (sH labels * sW labels))%nat) by (rewrite all_labels_flat, flat_length, seq_length; reflexivity).
    assert (Hp : (pixel_index (sH labels) (sW labels) n i j < length (all_labels labels))%nat).
    { rewrite L1. unfold pixel_index. assert (i * sW labels + j < sH labels * sW labels)%nat by nia. nia. }
    assert (El : nth (pixel_index (sH labels) (sW labels) n i j) (all_labels labels) 0%nat = at3 labels n i j).
    { rewrite all_labels_flat, flat_nth by auto. f_equal. }
    assert (Er : nth (pixel_index (sH labels) (sW labels) n i j) (all_rows pp) [] = pixel_row pp n i j).
    { rewrite E2, E3. rewrite all_rows_flat, flat_nth by congruence. reflexivity. }
    assert (Hk : (at3 labels n i j < tK pp)%nat) by (apply Hlab; rewrite <- El; apply nth_In; auto).
    apply (Hprob (pixel_row pp n i j)); [rewrite <- Er; apply nth_In; lia|].
    replace (at4 pp n (at3 labels n i j) i j) with (nth (at3 labels n i j) (pixel_row pp n i j) 0) by (unfold pixel_row; rewrite nth_tab by auto; reflexivity).
    apply nth_In. unfold pixel_row. rewrite tab_length. auto.
Qed.
Lemma sum_bools (l : list bool) : qsum (map (fun b : bool => if b then 1 else 0) l) == Qnat (length (filter (fun b => b) l)).
Proof.
  induction l as [|b l IH]; [reflexivity|]. cbn [map filter]. rewrite qsum_cons, IH.
  destruct b; [cbn [length]; rewrite Qnat_S; ring|ring].
Qed.
Lemma C61_num_full : forall srt labels pp b js f issues scores, (0 < sH labels)%nat -> (0 < sW labels)%nat ->
  seg_find_label_issues srt labels pp b js f = Ok issues ->
  num_pixel_issues_scores srt labels pp b js f = Ok scores ->
  length scores = sN labels /\
  forall n, (n < sN labels)%nat ->
    (1 - nth n scores 0) * Qnat (sH labels * sW labels) ==
      Qnat (how_many (fun ij => at3 issues n (fst ij) (snd ij)) (image_pixels (sH labels) (sW labels))) /\
    0 <= nth n scores 0 /\ nth n scores 0 <= 1.
Proof.
  intros srt labels pp b js f issues scores Hh Hw Hi. unfold num_pixel_issues_scores. rewrite Hi. cbn [rbind]. intros E. injection E as <-.
  destruct (C32_flagged_full _ _ _ _ _ _ _ Hi) as (_ & _ & _ & _ & _ & _ & _ & _ & A1 & A2 & A3 & _).
  rewrite A1, A2, A3. rewrite map_length, seq_length. split; auto. intros n Hn.
  rewrite (nth_map_gen _ _ _ _ 0%nat) by (rewrite seq_length; auto). rewrite seq_nth by auto. cbn [Nat.add].
  set (l := flat_images (sH labels) (sW labels) (at3 issues) [n]).
  assert (L : length l = (sH labels * sW labels)%nat) by (unfold l; rewrite flat_length; simpl; lia).
  assert (Hpos : 0 < Qnat (sH labels * sW labels)) by (apply Qnat_pos; nia).
  assert (El : l = map (fun ij => at3 issues n (fst ij) (snd ij)) (image_pixels (sH labels) (sW labels))).
  { unfold l, flat_images, image_pixels. cbn [map concat]. rewrite app_nil_r, flat_map_concat_map, concat_map, map_map. f_equal.
    apply map_ext. intros i. rewrite map_map. reflexivity. }
  assert (Ec : length (filter (fun b => b) l) = how_many (fun ij => at3 issues n (fst ij) (snd ij)) (image_pixels (sH labels) (sW labels))).
  { rewrite El. unfold how_many. generalize (image_pixels (sH labels) (sW labels)) as q. induction q as [|x q IH]; [reflexivity|]. cbn [map filter].
    destruct (at3 issues n (fst x) (snd x)); cbn [length]; auto. }
  unfold qmean. rewrite map_length, L, sum_bools, Ec.
  assert (Hle : (how_many (fun ij => at3 issues n (fst ij) (snd ij)) (image_pixels (sH labels) (sW labels)) <= sH labels * sW labels)%nat).
  { rewrite <- Ec, <- L. apply filter_len_le. }
  apply Qnat_le in Hle. pose proof (Qnat_nonneg (how_many (fun ij => at3 issues n (fst ij) (snd ij)) (image_pixels (sH labels) (sW labels)))) as H0.
  set (k := Qnat (how_many _ _)) in *. set (m := Qnat (sH labels * sW labels)) in *.
  assert (Hq : 0 <= k / m) by (apply Qle_shift_div_l; [auto|Lqa.lra]).
  assert (Hq1 : k / m <= 1) by (apply Qle_shift_div_r; [auto|Lqa.lra]).
  split; [field; Lqa.lra|]. split; Lqa.lra.
Qed.
Lemma C61_softmin_full : forall eps t scores, (0 < eps)%R -> scores <> [] -> t <> 0%R ->
  exists v, softmin_image eps t scores = Ok v /\
    (forall lo, (forall s, In s scores -> (lo <= s)%R) -> (lo <= v)%R) /\
    (v * INR (length scores) <= rsum scores)%R.
Proof.
  intros eps t sc He Hne Ht. unfold softmin_image. destruct sc as [|x l]; [congruence|]. destruct (Req_EM_T t 0); [contradiction|].
  apply C60_softmin_full; auto.
Qed.

(** ** summaries *)
Definition cget (K : nat) (c : list (nat * list nat)) (g : nat) : list nat :=
  match find (fun e => Nat.eqb (fst e) g) c with Some e => snd e | None => repeat 0%nat K end.
Lemma find_filter_other (c : list (nat * list nat)) l g : g <> l ->
  find (fun e => Nat.eqb (fst e) g) (filter (fun e => negb (Nat.eqb (fst e) l)) c) = find (fun e => Nat.eqb (fst e) g) c.
Proof.
  intros H. induction c as [|(x & v) t IH]; [reflexivity|]. cbn [filter fst find].
  destruct (Nat.eqb_spec x l) as [->|Hx]; cbn [negb].
  - rewrite IH. destruct (Nat.eqb_spec l g); [congruence|reflexivity].
  - cbn [find fst]. rewrite IH. reflexivity.
Qed.
Lemma count_pixels_spec K exclude labels pp : forall xs c,
  (forall n i j, In (n, i, j) xs -> (argmax (pixel_row pp n i j) < K)%nat) -> (forall g, length (cget K c g) = K) ->
  (forall g, length (cget K (count_pixels K exclude labels pp xs c) g) = K) /\
  forall g p, (p < K)%nat -> nth p (cget K (count_pixels K exclude labels pp xs c) g) 0%nat =
    (nth p (cget K c g) 0 + how_many (fun x => let '(n, i, j) := x in
       (Nat.eqb (at3 labels n i j) g && Nat.eqb (argmax (pixel_row pp n i j)) p && negb (mem p exclude))%bool) xs)%nat.
Proof.
  induction xs as [|((n & i) & j) t IH]; intros c Hp Hl; [split; [auto|]; intros; unfold how_many; simpl; lia|]. cbn [count_pixels].
  set (l := at3 labels n i j). set (p0 := argmax (pixel_row pp n i j)).
  assert (Hp0 : (p0 < K)%nat) by (apply Hp; simpl; auto).
  fold (cget K c l). set (new := if mem p0 exclude then cget K c l else upd (cget K c l) p0 (S (nth p0 (cget K c l) 0%nat))).
  set (c' := (l, new) :: filter (fun e => negb (Nat.eqb (fst e) l)) c).
  assert (Hg : forall g, cget K c' g = if Nat.eqb l g then new else cget K c g).
  { intros g. unfold cget at 1, c'. cbn [find fst]. destruct (Nat.eqb_spec l g) as [->|H]; [reflexivity|].
    rewrite find_filter_other by auto. reflexivity. }
  assert (Hnew : length new = K) by (unfold new; destruct (mem p0 exclude); rewrite ?upd_length; apply Hl).
  destruct (IH c') as (A & B).
  { intros; apply Hp; simpl; auto. }
  { intros g. rewrite Hg. destruct (Nat.eqb l g); auto. }
  split; [auto|]. intros g p Hpk. rewrite B by auto. rewrite Hg. unfold how_many. cbn [filter]. fold l p0.
  destruct (Nat.eqb_spec l g) as [->|Hlg]; cbn [andb]; [|reflexivity].
  unfold new. destruct (Nat.eqb_spec p0 p) as [->|Hpp]; cbn [andb].
  - destruct (mem p exclude); cbn [negb length]; [reflexivity|]. rewrite nth_upd_eq by (rewrite Hl; auto). lia.
  - destruct (mem p0 exclude); [reflexivity|]. rewrite nth_upd_neq by auto. reflexivity.
Qed.
Lemma filter_filter_len {A} (f g : A -> bool) l : filter f (filter g l) = filter (fun x => g x && f x)%bool l.
Proof. induction l as [|x l IH]; [reflexivity|]. simpl. destruct (g x); simpl; rewrite IH; [reflexivity|auto]. Qed.
Lemma coords_pixels N h w : coords N h w = all_pixels N h w.
Proof.
  unfold coords, all_pixels, flat_images. rewrite flat_map_concat_map. f_equal. apply map_ext. intros n. symmetry. apply flat_map_concat_map.
Qed.
Lemma C62_common_full : forall srt issues labels pp exclude top, argsort_ok srt -> (0 < tK pp)%nat ->
  sN labels = tN pp -> sH labels = tH pp -> sW labels = tW pp ->
  exists rows, seg_common_label_issues srt issues labels pp exclude top = Ok (firstn top rows) /\
    NoDup (map fst rows) /\ StronglySorted (fun a b => (snd b <= snd a)%nat) rows /\
    forall g p k, In (g, p, k) rows <->
      (g < tK pp /\ p < tK pp /\ ~ In p exclude /\ 0 < k)%nat /\
      k = how_many (fun x => let '(n, i, j) := x in
        (at3 issues n i j && Nat.eqb (at3 labels n i j) g && Nat.eqb (argmax (pixel_row pp n i j)) p)%bool)
        (all_pixels (sN issues) (sH issues) (sW issues)).
Proof.
  intros srt issues labels pp exclude top Hs HK E1 E2 E3. unfold seg_common_label_issues.
  rewrite E1, E2, E3, !Nat.eqb_refl. cbn [andb negb]. set (K := tK pp) in *.
  set (xs := filter _ (coords _ _ _)). set (c := count_pixels K exclude labels pp xs []).
  assert (Hrow : forall n i j, (argmax (pixel_row pp n i j) < K)%nat).
  { intros n i j. assert (L : length (pixel_row pp n i j) = K) by apply tab_length. rewrite <- L. apply argmax_lt. intros E. rewrite E in L. simpl in L. lia. }
  destruct (count_pixels_spec K exclude labels pp xs []) as (Hlen & Hcnt).
  { intros; apply Hrow. } { intros g. unfold cget. simpl. apply repeat_length. }
  fold c in Hlen, Hcnt. set (info := concat _).
  eexists. split; [reflexivity|]. pose proof (sort_desc_perm srt (@snd (nat * nat) nat) (0, 0, 0)%nat info Hs) as HP.
  assert (Hinfo : info = concat (map (fun g => map (fun p => (g, p, nth p (cget K c g) 0%nat))
       (filter (fun p => Nat.ltb 0 (nth p (cget K c g) 0%nat)) (seq 0 K))) (seq 0 K))).
  { unfold info. f_equal. apply map_ext. intros g. unfold cget. destruct (find (fun e => Nat.eqb (fst e) g) c); [reflexivity|].
    assert (Hz : forall s n, filter (fun p => Nat.ltb 0 (nth p (repeat 0%nat K) 0%nat)) (seq s n) = []).
    { intros s n. revert s. induction n as [|n IH]; intros s; [reflexivity|]. cbn [seq filter]. rewrite nth_repeat. cbn [Nat.ltb Nat.leb]. apply IH. }
    rewrite Hz. reflexivity. }
  assert (HIn : forall g p k, In (g, p, k) info <-> (g < K /\ p < K /\ 0 < k)%nat /\ k = nth p (cget K c g) 0%nat).
  { intros g p k. rewrite Hinfo, in_concat. split.
    - intros (r & Hr & H). apply in_map_iff in Hr as (g' & <- & Hg). apply in_map_iff in H as (p' & E & Hp).
      injection E as -> -> <-. apply filter_In in Hp as (Hp & Hpos). apply Nat.ltb_lt in Hpos. apply in_seq in Hg. apply in_seq in Hp. lia.
    - intros ((Hg & Hp & Hk) & ->). eexists. split; [apply in_map_iff; exists g; split; [reflexivity|apply in_seq; lia]|].
      apply in_map_iff. exists p. split; auto. apply filter_In. split; [apply in_seq; lia|apply Nat.ltb_lt; auto]. }
  split; [|split; [apply sort_desc_sorted; auto|]].
  - eapply Permutation_NoDup; [apply Permutation_map; symmetry; exact HP|]. rewrite Hinfo, concat_map, map_map.
    apply (NoDup_concat_map (fun g => map fst (map (fun p => (g, p, nth p (cget K c g) 0%nat)) (filter (fun p => Nat.ltb 0 (nth p (cget K c g) 0%nat)) (seq 0 K)))) (@fst nat nat) (fun g => g)).
    + rewrite map_id. apply seq_NoDup.
    + intros g b _ Hb. rewrite map_map in Hb. apply in_map_iff in Hb as (p & <- & _). reflexivity.
    + intros g _. rewrite map_map. cbn [fst]. apply FinFun.Injective_map_NoDup; [|apply NoDup_filter, seq_NoDup]. intros p q E. injection E as ->. reflexivity.
  - intros g p k. assert (Hiff : In (g, p, k) (sort_desc srt snd (0, 0, 0)%nat info) <-> In (g, p, k) info).
    { split; intros H; [eapply Permutation_in; [exact HP|auto]|eapply Permutation_in; [symmetry; exact HP|auto]]. }
    rewrite Hiff, HIn.
    assert (Hval : (p < K)%nat -> nth p (cget K c g) 0%nat = if mem p exclude then 0%nat else
      how_many (fun x => let '(n, i, j) := x in
        (at3 issues n i j && Nat.eqb (at3 labels n i j) g && Nat.eqb (argmax (pixel_row pp n i j)) p)%bool)
        (all_pixels (sN issues) (sH issues) (sW issues))).
    { intros Hp. rewrite Hcnt by auto. unfold cget. cbn [find]. rewrite nth_repeat. cbn [Nat.add]. unfold how_many, xs.
      rewrite filter_filter_len, coords_pixels. destruct (mem p exclude).
      - rewrite (filter_ext _ (fun _ => false)); [|intros ((n & i) & j); cbn [negb]; rewrite !andb_false_r; reflexivity].
        generalize (all_pixels (sN issues) (sH issues) (sW issues)) as l. clear. induction l; simpl; auto.
      - f_equal. apply filter_ext. intros ((n & i) & j). cbn [negb]. rewrite andb_true_r, andb_assoc. reflexivity. }
    split.
    + intros ((Hg & Hp & Hk) & E). rewrite Hval in E by auto. destruct (mem p exclude) eqn:Em; [lia|].
      assert (~ In p exclude) by (rewrite <- mem_iff, Em; discriminate). auto.
    + intros ((Hg & Hp & Hx & Hk) & E). rewrite Hval by auto. assert (mem p exclude = false) as -> by (apply not_true_iff_false; rewrite mem_iff; auto). auto.
Qed.
Lemma C62_filter_full : forall c issues labels pp, (0 < tK pp)%nat ->
  let r := seg_filter_by_class c issues labels pp in
  sN r = sN issues /\ sH r = sH issues /\ sW r = sW issues /\
  forall n i j, at3 r n i j = true <->
    at3 issues n i j = true /\ (at3 labels n i j = c \/ predicted_class pp n i j c).
Proof.
  intros c issues labels pp HK r. unfold r, seg_filter_by_class. cbn [sN sH sW at3]. split; [auto|]. split; [auto|]. split; [auto|].
  intros n i j. rewrite orb_true_iff, !andb_true_iff, !Nat.eqb_eq, argmax_predicted by auto. tauto.
Qed.

Lemma C32_flagged_pred : forall srt labels pp batch_size js f issues, (0 < tK pp)%nat ->
  seg_find_label_issues srt labels pp batch_size js f = Ok issues ->
  exists sl sp ranked bsz,
    valid_batch_size batch_size = Ok bsz /\ (1 <= bsz)%nat /\
    downsample_arrays labels pp f = Ok (sl, sp) /\ ranked_label_issues srt sl sp bsz js = Ok ranked /\
    sN issues = sN labels /\ sH issues = sH labels /\ sW issues = sW labels /\
    forall n i j, in_image labels n i j ->
      (at3 issues n i j = true <->
       In (pixel_index (sH labels / f) (sW labels / f) n (i / f) (j / f)) ranked /\
       ~ predicted_class pp n i j (at3 labels n i j)).
Proof.
  intros srt labels pp b js f issues HK H.
  destruct (C32_flagged_full _ _ _ _ _ _ _ H) as (sl & sp & r & z & A1 & A2 & A3 & A4 & A5 & A6 & A7 & A8).
  exists sl, sp, r, z. repeat (split; [assumption|]). intros n i j Hin. rewrite (A8 n i j Hin), argmax_predicted by auto. reflexivity.
Qed.
Lemma pixel_content : forall labels pp n i j,
  sN labels = tN pp -> sH labels = tH pp -> sW labels = tW pp -> in_image labels n i j ->
  let p := pixel_index (sH labels) (sW labels) n i j in
  (p < length (all_labels labels))%nat /\ nth p (all_labels labels) 0%nat = at3 labels n i j /\
  forall k, (k < tK pp)%nat -> nth k (nth p (all_rows pp) []) 0 = at4 pp n k i j.
Proof.
  intros labels pp n i j E1 E2 E3 (A & B & C) p.
  assert (L1 : length (all_labels labels) = (sN labels * (sH labels * sW labels))%nat) by (rewrite all_labels_flat, flat_length, seq_length; reflexivity).
  split; [|split].
  - rewrite L1. unfold p, pixel_index. assert (i * sW labels + j < sH labels * sW labels)%nat by nia. nia.
  - unfold p. rewrite all_labels_flat, flat_nth by auto. f_equal.
  - intros k Hk. unfold p. rewrite E2, E3, all_rows_flat, flat_nth by congruence. unfold pixel_row. rewrite nth_tab by auto. reflexivity.
Qed.
