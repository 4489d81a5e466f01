(** * Segmentation: C32, C33, C61, C62 *)
From Coq Require Import String QArith Reals List ZArith Bool Arith Sorted Lra Lia.
From Coq Require Lqa.
From Verif Require Import Base BaseFacts ModelUtil ModelCount ModelRank ModelPool ModelFilter ModelBatched ModelEntropy
     ModelOutlier ModelToken ModelSegmentation SpecCount SpecFilter SpecRank SpecBatched SpecOutlier SpecToken SpecSegmentation
     ProofBatched ProofSegmentation ProofDownsample.
Import ListNotations.
Open Scope Q_scope.

(** ** C32 *)
(** a pixel is flagged iff its (downsampled) position is among the ranked positions and the class predicted at the
    original resolution is not the given label; for every batch size and every execution of the worker pool *)
Theorem C32_flagged_pixels : forall srt labels pp batch_size js f issues, (0 < tK pp)%nat ->
  seg_find_label_issues srt labels pp batch_size js f = Ok issues ->
  exists sl sp ranked bsz,
    valid_batch_size batch_size = Ok bsz /\ (1 <= bsz)%nat /\
    downsample_arrays labels pp f = Ok (sl, sp) /\ ranked_label_issues srt sl sp bsz js = Ok ranked /\
    sN issues = sN labels /\ sH issues = sH labels /\ sW issues = sW labels /\
    forall n i j, in_image labels n i j ->
      (at3 issues n i j = true <->
       In (pixel_index (sH labels / f) (sW labels / f) n (i / f) (j / f)) ranked /\
       ~ predicted_class pp n i j (at3 labels n i j)).
Proof. exact C32_flagged_pred. Qed.
Print Assumptions C32_flagged_pixels.

(** the flat arrays handed to the classification finder hold, at [pixel_index], the pixel's label and row *)
Theorem C32_pixel_content : forall labels pp n i j,
  sN labels = tN pp -> sH labels = tH pp -> sW labels = tW pp -> in_image labels n i j ->
  let p := pixel_index (sH labels) (sW labels) n i j in
  (p < length (all_labels labels))%nat /\ nth p (all_labels labels) 0%nat = at3 labels n i j /\
  forall k, (k < tK pp)%nat -> nth k (nth p (all_rows pp) []) 0 = at4 pp n k i j.
Proof. exact pixel_content. Qed.
Print Assumptions C32_pixel_content.

(** what downsampling by [f] does: the label of a downsampled pixel is the average label of the [f * f] pixels of its square, rounded
    to a nearest integer; its probabilities are proportional to the sums over the square and add up to 1 *)
Theorem C32_downsampling : forall labels pp f sl sp, check_input labels pp = Ok tt -> (2 <= f)%nat ->
  downsample_arrays labels pp f = Ok (sl, sp) ->
  (f * tH sp = tH pp /\ f * tW sp = tW pp)%nat /\
  forall n i j, (i < tH sp)%nat -> (j < tW sp)%nat ->
  exists square, NoDup square /\ length square = (f * f)%nat /\
    (forall a b, In (a, b) square <-> (a < tH pp)%nat /\ (b < tW pp)%nat /\ (a / f)%nat = i /\ (b / f)%nat = j) /\
    (let mean := qsum (map (fun c => Qnat (at3 labels n (fst c) (snd c))) square) / Qnat (f * f) in
     mean - (1#2) <= Qnat (at3 sl n i j) <= mean + (1#2)) /\
    ((forall k a b, 0 <= at4 pp n k a b) -> (exists k c, (k < tK pp)%nat /\ In c square /\ 0 < at4 pp n k (fst c) (snd c)) ->
     (exists total, 0 < total /\ forall k, (k < tK pp)%nat -> at4 sp n k i j * total == qsum (map (fun c => at4 pp n k (fst c) (snd c)) square)) /\
     qsum (map (fun k => at4 sp n k i j) (seq 0 (tK pp))) == 1).
Proof. exact downsample_full. Qed.
Print Assumptions C32_downsampling.

Example C32_downsampling_example :
  let labels := {| sN := 1; sH := 2; sW := 4; at3 := fun _ i j => if (Nat.eqb i 0 && Nat.eqb j 0)%bool then 0%nat else 1%nat |} in
  let pp := {| tN := 1; tK := 2; tH := 2; tW := 4; at4 := fun _ k _ j => if Nat.ltb j 2 then (if Nat.eqb k 0 then 1#4 else 3#4) else (if Nat.eqb k 0 then 1 else 0) |} in
  exists sl sp, check_input labels pp = Ok tt /\ downsample_arrays labels pp 2 = Ok (sl, sp) /\
    at3 sl 0%nat 0%nat 0%nat = 1%nat /\ at4 sp 0%nat 1%nat 0%nat 0%nat == 3#4 /\ at4 sp 0%nat 1%nat 0%nat 1%nat == 0.
Proof. cbv zeta. eexists. eexists. split; [reflexivity|]. split; [reflexivity|]. vm_compute. auto. Qed.

(** the ranked positions are the lowest self-confidence pixels, as many as there are pixels confidently predicted
    as another class *)
Theorem C32_ranked_pixels : forall srt labels pp bsz js ranked, argsort_ok srt ->
  sN labels = tN pp -> sH labels = tH pp -> sW labels = tW pp -> (0 < sH labels)%nat -> (0 < sW labels)%nat ->
  dataset (tK pp) (all_labels labels) (all_rows pp) -> own_prob_floor (all_labels labels) (all_rows pp) ->
  ranked_label_issues srt labels pp bsz js = Ok ranked ->
  let conf p := nth (nth p (all_labels labels) 0%nat) (nth p (all_rows pp) []) 0 in
  let total := (sN labels * (sH labels * sW labels))%nat in
  NoDup ranked /\ (forall p, In p ranked -> (p < total)%nat) /\
  StronglySorted (fun p q => conf p <= conf q) ranked /\
  (forall p q, In p ranked -> (q < total)%nat -> ~ In q ranked -> conf p <= conf q) /\
  exists counted, NoDup counted /\ length ranked = length counted /\
    (forall p, In p counted <-> (p < total)%nat /\
       confidently_other (all_labels labels) (all_rows pp) (nth p (all_labels labels) 0%nat) (nth p (all_rows pp) [])).
Proof. exact C32_ranked_full. Qed.
Print Assumptions C32_ranked_pixels.

Theorem C32_batch_size : forall srt labels pp f sl sp, respects_eq srt ->
  check_input labels pp = Ok tt -> downsample_arrays labels pp f = Ok (sl, sp) ->
  dataset (tK sp) (all_labels sl) (all_rows sp) -> (2 <= tK sp)%nat -> own_prob_floor (all_labels sl) (all_rows sp) ->
  (forall b, (1 <= b)%nat -> exists issues, seg_find_label_issues srt labels pp (Some b) (fun _ => Serial) f = Ok issues) /\
  (forall b1 b2 js1 js2 i1 i2,
     seg_find_label_issues srt labels pp b1 js1 f = Ok i1 -> seg_find_label_issues srt labels pp b2 js2 f = Ok i2 ->
     same_array i1 i2).
Proof. exact C32_batch_full. Qed.
Print Assumptions C32_batch_size.

(** two 2x2 images; image 1 pixel (0,1) is given 0 and predicted 1 *)
Definition ex32_labels : arr3 nat :=
  {| sN := 2; sH := 2; sW := 2; at3 := fun n i j => if (Nat.eqb n 0 && Nat.eqb i 1)%bool then 1%nat else 0%nat |}.
Definition ex32_p1 (n i j : nat) : Q :=
  if (Nat.eqb n 0 && Nat.eqb i 1)%bool then 3 # 4 else if (Nat.eqb n 1 && Nat.eqb i 0 && Nat.eqb j 1)%bool then 7 # 8 else 1 # 4.
Definition ex32_pp : arr4 :=
  {| tN := 2; tK := 2; tH := 2; tW := 2; at4 := fun n k i j => if Nat.eqb k 0 then 1 - ex32_p1 n i j else ex32_p1 n i j |}.
Definition flags (r : res (arr3 bool)) : list (nat * nat * nat) :=
  match r with
  | Ok a => filter (fun x => let '(n, i, j) := x in at3 a n i j) (all_pixels (sN a) (sH a) (sW a))
  | Raise _ => [] end.
Example C32_example :
  flags (seg_find_label_issues argsort_ins ex32_labels ex32_pp (Some 1%nat) (fun _ => Serial) 1) = [(1, 0, 1)]%nat /\
  flags (seg_find_label_issues argsort_ins ex32_labels ex32_pp None (fun _ => Serial) 1) = [(1, 0, 1)]%nat /\
  dataset (tK ex32_pp) (all_labels ex32_labels) (all_rows ex32_pp) /\
  own_prob_floor (all_labels ex32_labels) (all_rows ex32_pp).
Proof.
  split; [vm_compute; reflexivity|]. split; [vm_compute; reflexivity|]. split.
  - apply ProofFilter.dataset_b_ok. vm_compute. reflexivity.
  - intros e He. assert (Hl : length (all_labels ex32_labels) = 8%nat) by reflexivity. rewrite Hl in He.
    do 8 (destruct e as [|e]; [vm_compute; discriminate|]). lia.
Qed.

(** ** C33 *)
Theorem C33_pixels : forall srt image_scores ps threshold, 0 <= threshold -> threshold <= 1 ->
  exists issues, seg_issues_from_scores srt image_scores (Some ps) threshold = Ok (PixelIssues issues) /\
    sN issues = sN ps /\ sH issues = sH ps /\ sW issues = sW ps /\
    forall n i j, at3 issues n i j = true <-> at3 ps n i j < threshold.
Proof. exact C33_pixels_full. Qed.
Print Assumptions C33_pixels.
(** missing from the full property: nothing else may be returned.  What is returned besides the images below the
    threshold is exactly one image, the lowest-scoring of the others, whenever there is one. *)
Theorem C33_images_partial : forall srt scores threshold, argsort_ok srt -> 0 <= threshold -> threshold <= 1 ->
  exists issues, seg_issues_from_scores srt scores None threshold = Ok (ImageIssues issues) /\
    NoDup issues /\ (forall i, In i issues -> (i < length scores)%nat) /\
    StronglySorted (fun a b => nth a scores 0 <= nth b scores 0) issues /\
    (forall i, (i < length scores)%nat -> nth i scores 0 < threshold -> In i issues) /\
    ((forall i, (i < length scores)%nat -> nth i scores 0 < threshold) -> length issues = length scores) /\
    ((exists i, (i < length scores)%nat /\ threshold <= nth i scores 0) ->
       exists below extra, issues = below ++ [extra] /\ threshold <= nth extra scores 0 /\
         (forall i, In i below -> nth i scores 0 < threshold) /\
         (forall i, (i < length scores)%nat -> threshold <= nth i scores 0 -> nth extra scores 0 <= nth i scores 0)).
Proof. exact C33_images_full. Qed.
Print Assumptions C33_images_partial.
Theorem C33_images_refuted : forall srt scores threshold, argsort_ok srt -> 0 <= threshold -> threshold <= 1 ->
  (exists i, (i < length scores)%nat /\ threshold <= nth i scores 0) ->
  exists issues i, seg_issues_from_scores srt scores None threshold = Ok (ImageIssues issues) /\
    In i issues /\ ~ nth i scores 0 < threshold.
Proof. exact C33_extra_full. Qed.
Print Assumptions C33_images_refuted.
Theorem C33_range : forall srt scores ps threshold, threshold < 0 \/ 1 < threshold ->
  seg_issues_from_scores srt scores ps threshold = Raise ValueError.
Proof. exact C33_range_full. Qed.
Print Assumptions C33_range.
Example C33_example :
  seg_issues_from_scores argsort_ins [9#10; 2#10; 8#10; 1#10] None (1#2) = Ok (ImageIssues [3; 1; 2]%nat).
Proof. vm_compute. reflexivity. Qed.

(** ** C61 *)
Theorem C61_pixel_scores : forall labels pp scores, seg_pixel_scores labels pp = Ok scores ->
  sN scores = sN labels /\ sH scores = sH labels /\ sW scores = sW labels /\
  (forall n i j, in_image labels n i j -> at3 scores n i j = at4 pp n (at3 labels n i j) i j) /\
  (dataset (tK pp) (all_labels labels) (all_rows pp) -> forall n i j, in_image labels n i j -> 0 <= at3 scores n i j /\ at3 scores n i j <= 1).
Proof. exact C61_pixel_full. Qed.
Print Assumptions C61_pixel_scores.
Theorem C61_num_pixel_issues : forall srt labels pp b js f issues scores, (0 < sH labels)%nat -> (0 < sW labels)%nat ->
  seg_find_label_issues srt labels pp b js f = Ok issues ->
  num_pixel_issues_scores srt labels pp b js f = Ok scores ->
  length scores = sN labels /\
  forall n, (n < sN labels)%nat ->
    (1 - nth n scores 0) * Qnat (sH labels * sW labels) ==
      Qnat (how_many (fun ij => at3 issues n (fst ij) (snd ij)) (image_pixels (sH labels) (sW labels))) /\
    0 <= nth n scores 0 /\ nth n scores 0 <= 1.
Proof. exact C61_num_full. Qed.
Print Assumptions C61_num_pixel_issues.
Theorem C61_softmin : forall eps t scores, (0 < eps)%R -> scores <> [] -> t <> 0%R ->
  exists v, softmin_image eps t scores = Ok v /\
    (forall lo, (forall s, In s scores -> (lo <= s)%R) -> (lo <= v)%R) /\
    (v * INR (length scores) <= rsum scores)%R.
Proof. exact C61_softmin_full. Qed.
Print Assumptions C61_softmin.
Example C61_example :
  match num_pixel_issues_scores argsort_ins ex32_labels ex32_pp None (fun _ => Serial) 1 with Ok s => map Qred s | _ => [] end = [1; 3 # 4] /\
  exists s, seg_pixel_scores ex32_labels ex32_pp = Ok s /\ at3 s 1%nat 0%nat 1%nat == 1 # 8.
Proof. split; [vm_compute; reflexivity|]. eexists. split; [reflexivity|]. vm_compute. reflexivity. Qed.

(** ** C62 *)
Theorem C62_common_label_issues : forall srt issues labels pp exclude top, argsort_ok srt -> (0 < tK pp)%nat ->
  sN labels = tN pp -> sH labels = tH pp -> sW labels = tW pp ->
  exists rows, seg_common_label_issues srt issues labels pp exclude top = Ok (firstn top rows) /\
    NoDup (map fst rows) /\ StronglySorted (fun a b => (snd b <= snd a)%nat) rows /\
    forall g p k, In (g, p, k) rows <->
      (g < tK pp /\ p < tK pp /\ ~ In p exclude /\ 0 < k)%nat /\
      k = how_many (fun x => let '(n, i, j) := x in
        (at3 issues n i j && Nat.eqb (at3 labels n i j) g && Nat.eqb (argmax (pixel_row pp n i j)) p)%bool)
        (all_pixels (sN issues) (sH issues) (sW issues)).
Proof. exact C62_common_full. Qed.
Print Assumptions C62_common_label_issues.
Theorem C62_filter_by_class : forall c issues labels pp, (0 < tK pp)%nat ->
  let r := seg_filter_by_class c issues labels pp in
  sN r = sN issues /\ sH r = sH issues /\ sW r = sW issues /\
  forall n i j, at3 r n i j = true <->
    at3 issues n i j = true /\ (at3 labels n i j = c \/ predicted_class pp n i j c).
Proof. exact C62_filter_full. Qed.
Print Assumptions C62_filter_by_class.
Definition ex62_issues : arr3 bool := {| sN := 2; sH := 2; sW := 2; at3 := fun n i j => Nat.eqb n 1 |}.
Example C62_example :
  seg_common_label_issues argsort_ins ex62_issues ex32_labels ex32_pp [] 10 = Ok [(0, 0, 3); (0, 1, 1)]%nat /\
  seg_common_label_issues argsort_ins ex62_issues ex32_labels ex32_pp [0%nat] 10 = Ok [(0, 1, 1)]%nat /\
  at3 (seg_filter_by_class 1 ex62_issues ex32_labels ex32_pp) 1%nat 0%nat 1%nat = true /\
  at3 (seg_filter_by_class 1 ex62_issues ex32_labels ex32_pp) 1%nat 0%nat 0%nat = false.
Proof. repeat split; vm_compute; reflexivity. Qed.
