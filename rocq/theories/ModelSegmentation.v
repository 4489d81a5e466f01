(** * Model of cleanlab/segmentation/*.py and cleanlab/internal/segmentation_utils.py

    A numpy array of shape (N, H, W) is its shape and an index function; only indices inside the shape are
    ever read.  [pred_probs] has shape (N, K, H, W). *)
From Coq Require Import QArith Qround Reals List ZArith Bool Arith.
From Verif Require Import Base ModelUtil ModelCount ModelRank ModelPool ModelFilter ModelBatched ModelEntropy ModelOutlier ModelToken.
Import ListNotations.
Open Scope Q_scope.

Record arr3 (A : Type) := { sN : nat; sH : nat; sW : nat; at3 : nat -> nat -> nat -> A }.
Arguments sN {A}. Arguments sH {A}. Arguments sW {A}. Arguments at3 {A}.
Record arr4 := { tN : nat; tK : nat; tH : nat; tW : nat; at4 : nat -> nat -> nat -> nat -> Q }.

(** the class probabilities of one pixel: [pred_probs[n, :, i, j]]. *)
Definition pixel_row (pp : arr4) (n i j : nat) : list Q := tab (tK pp) (fun k => at4 pp n k i j).

(** segmentation_utils.py:36-58 [_check_input]. *)
Definition check_input {A} (labels : arr3 A) (pp : arr4) : res unit :=
  if (Nat.eqb (sN labels) (tN pp) && Nat.eqb (sH labels) (tH pp) && Nat.eqb (sW labels) (tW pp))%bool
  then Ok tt else Raise ValueError.

(** segmentation_utils.py:9-21 [_get_valid_optional_params]. *)
Definition valid_batch_size (b : option nat) : res nat :=
  let b := match b with None => (2 * 5000)%nat | Some b => b end in
  if Nat.leb b 0 then Raise ValueError else Ok b.

(** segmentation/filter.py:76-100 [downsample_arrays]: block means, rounded for the labels (the [astype(int)] of
    line 106 is done here) and renormalised for the probabilities. *)
Definition block (f : nat) (g : nat -> nat -> Q) (i j : nat) : Q :=
  qmean (concat (map (fun a => map (fun b => g (i * f + a)%nat (j * f + b)%nat) (seq 0 f)) (seq 0 f))).
Definition downsample_arrays (labels : arr3 nat) (pp : arr4) (f : nat) : res (arr3 nat * arr4) :=
  if Nat.eqb f 1 then Ok (labels, pp)
  else if Nat.eqb f 0 then Raise ZeroDivision
  else if (negb (Nat.eqb (tH pp mod f) 0) || negb (Nat.eqb (tW pp mod f) 0))%bool then Raise ValueError
  else
    let small n k i j := block f (fun i' j' => at4 pp n k i' j') i j in
    Ok ({| sN := tN pp; sH := tH pp / f; sW := tW pp / f;
           at3 := fun n i j => Z.to_nat (round_half_even (block f (fun i' j' => Qnat (at3 labels n i' j')) i j)) |},
        {| tN := tN pp; tK := tK pp; tH := tH pp / f; tW := tW pp / f;
           at4 := fun n k i j => small n k i j / qsum (tab (tK pp) (fun k' => small n k' i j)) |}).

(** segmentation/filter.py:102-109 [flatten_and_preprocess_masks] of the images [ims]: C order for
    the labels; one row per pixel, in the same order, for the probabilities. *)
Definition flat_images {A} (h w : nat) (g : nat -> nat -> nat -> A) (ims : list nat) : list A :=
  concat (map (fun n => concat (map (fun i => map (fun j => g n i j) (seq 0 w)) (seq 0 h))) ims).
Definition flatten_batch (labels : arr3 nat) (pp : arr4) (ims : list nat) : batch :=
  (flat_images (sH labels) (sW labels) (at3 labels) ims,
   flat_images (tH pp) (tW pp) (pixel_row pp) ims).

(** segmentation/filter.py:138-145: batches of whole images. *)
Definition image_batches (labels : arr3 nat) (pp : arr4) (batch_size : nat) : list batch :=
  let per := Nat.max (batch_size / (tK pp * tH pp * tW pp)) 1 in
  map (flatten_batch labels pp) (chunks per (seq 0 (sN labels))).

(** segmentation/filter.py:211-218 [_get_indexes_from_ranked_issues] for one index. *)
Definition indexes_from_ranked (h w p : nat) : nat * nat * nat :=
  let relative := (p mod (h * w))%nat in ((p / (h * w))%nat, (relative / w)%nat, (relative mod w)%nat).

(** [issues[n, i, j] = v]. *)
Definition set3 (issues : nat -> nat -> nat -> bool) (x : nat * nat * nat) (v : bool) : nat -> nat -> nat -> bool :=
  let '(n, i, j) := x in
  fun n' i' j' => if (Nat.eqb n' n && Nat.eqb i' i && Nat.eqb j' j)%bool then v else issues n' i' j'.
Definition set_all (v : bool) (xs : list (nat * nat * nat)) (issues : nat -> nat -> nat -> bool) :=
  fold_left (fun acc x => set3 acc x v) xs issues.

(** does the model predict the given label at this pixel? (lines 182-183, 202-204) *)
Definition pred_matches (labels : arr3 nat) (pp : arr4) (x : nat * nat * nat) : bool :=
  let '(n, i, j) := x in Nat.eqb (argmax (pixel_row pp n i j)) (at3 labels n i j).

(** lines 173-184: one batch of issues at full resolution. *)
Definition mark_batch (labels : arr3 nat) (pp : arr4) (f h w : nat) (issues : nat -> nat -> nat -> bool) (ranked : list nat) :=
  let coords := map (indexes_from_ranked h w) ranked in
  let marked := set_all true coords issues in
  if Nat.eqb f 1 then set_all false (filter (pred_matches labels pp) coords) marked else marked.
(** lines 189-206: one batch of issues after upsampling. *)
Definition clear_batch (labels : arr3 nat) (pp : arr4) (f h w : nat) (issues : nat -> nat -> nat -> bool) (ranked : list nat) :=
  let coords := map (indexes_from_ranked h w) ranked in
  fold_left (fun acc ab =>
     let pix := map (fun x => let '(n, i, j) := x in (n, (i * f + fst ab)%nat, (j * f + snd ab)%nat)) coords in
     set_all false (filter (pred_matches labels pp) pix) acc)
    (concat (map (fun a => map (fun b => (a, b)) (seq 0 f)) (seq 0 f))) issues.

(** segmentation/filter.py:112-166: the ranked flat pixel positions of the (downsampled) arrays. *)
Definition ranked_label_issues (srt : list Q -> list nat) (labels : arr3 nat) (pp : arr4) (batch_size : nat)
           (js : nat -> jobs) : res (list nat) :=
  let bs := image_batches labels pp batch_size in
  do st <- inspect (tK pp) SelfConfidence false false bs (combine bs (map js (seq 0 (length bs)))) ;
  get_label_issues srt (tK pp) false st.

(** segmentation/filter.py:14-208 [find_label_issues]. *)
Definition seg_find_label_issues (srt : list Q -> list nat) (labels : arr3 nat) (pp : arr4)
           (batch_size : option nat) (js : nat -> jobs) (f : nat) : res (arr3 bool) :=
  do bsz <- valid_batch_size batch_size ;
  do _ <- check_input labels pp ;
  do pre <- downsample_arrays labels pp f ;
  let h := tH (snd pre) in let w := tW (snd pre) in
  do ranked <- ranked_label_issues srt (fst pre) (snd pre) bsz js ;
  let marked := fold_left (mark_batch labels pp f h w) (chunks bsz ranked) (fun _ _ _ => false) in
  if Nat.eqb f 1
  then Ok {| sN := tN (snd pre); sH := h; sW := w; at3 := marked |}
  else
    let up := fun n i j => marked n (i / f)%nat (j / f)%nat in
    Ok {| sN := tN (snd pre); sH := h * f; sW := w * f;
          at3 := fold_left (clear_batch labels pp f h w) (chunks bsz ranked) up |}.

(** segmentation/rank.py:133-186 [issues_from_scores]; [np.searchsorted] (left) is the first position whose
    value is not below the threshold. *)
Fixpoint searchsorted (l : list Q) (t : Q) : nat :=
  match l with [] => 0%nat | x :: r => if Qltb x t then S (searchsorted r t) else 0%nat end.
Inductive image_or_pixel := PixelIssues (a : arr3 bool) | ImageIssues (l : list nat).
Definition seg_issues_from_scores (srt : list Q -> list nat) (image_scores : list Q) (pixel_scores : option (arr3 Q))
           (threshold : Q) : res image_or_pixel :=
  if (Qltb threshold 0 || Qltb 1 threshold)%bool then Raise ValueError
  else match pixel_scores with
  | Some ps => Ok (PixelIssues {| sN := sN ps; sH := sH ps; sW := sW ps;
                                  at3 := fun n i j => Qltb (at3 ps n i j) threshold |})
  | None =>
      let ranking := srt image_scores in
      let cutoff := searchsorted (take_idx 0 image_scores ranking) threshold in
      Ok (ImageIssues (firstn (cutoff + 1) ranking))
  end.

(** segmentation/rank.py:84-130 [get_label_quality_scores], the per-pixel scores ([np.where] then a sum over the
    classes, or fancy indexing, read the same entry). *)
Definition seg_pixel_scores (labels : arr3 nat) (pp : arr4) : res (arr3 Q) :=
  do _ <- check_input labels pp ;
  Ok {| sN := tN pp; sH := tH pp; sW := tW pp; at3 := fun n i j => at4 pp n (at3 labels n i j) i j |}.
(** segmentation/rank.py:84-100: method "num_pixel_issues". *)
Definition num_pixel_issues_scores (srt : list Q -> list nat) (labels : arr3 nat) (pp : arr4)
           (batch_size : option nat) (js : nat -> jobs) (f : nat) : res (list Q) :=
  do issues <- seg_find_label_issues srt labels pp batch_size js f ;
  Ok (map (fun n => 1 - qmean (map (fun b : bool => if b then 1 else 0)
                                 (flat_images (sH issues) (sW issues) (at3 issues) [n]))) (seq 0 (sN issues))).
(** segmentation/rank.py:189-231 with internal/multilabel_scorer.py:206-233 [softmin]: method "softmin". *)
Definition softmin_image (eps temperature : R) (pixel_scores : list R) : res R :=
  match pixel_scores with
  | [] => Raise OtherError
  | _ => if Req_EM_T temperature 0 then Raise OtherError else softmin_sentence eps temperature pixel_scores
  end.

(** segmentation/summary.py:268-308 [filter_by_class]. *)
Definition seg_filter_by_class (c : nat) (issues : arr3 bool) (labels : arr3 nat) (pp : arr4) : arr3 bool :=
  {| sN := sN issues; sH := sH issues; sW := sW issues;
     at3 := fun n i j =>
       ((at3 issues n i j && Nat.eqb (at3 labels n i j) c) ||
        (at3 issues n i j && Nat.eqb (argmax (pixel_row pp n i j)) c))%bool |}.

(** segmentation/summary.py:159-256 [common_label_issues]: rows (given, predicted, number); class names are
    class indices.  The order of the dict is never used. *)
Definition coords (N h w : nat) : list (nat * nat * nat) := flat_images h w (fun n i j => (n, i, j)) (seq 0 N).
Fixpoint count_pixels (K : nat) (exclude : list nat) (labels : arr3 nat) (pp : arr4) (xs : list (nat * nat * nat))
         (count : list (nat * list nat)) : list (nat * list nat) :=
  match xs with
  | [] => count
  | (n, i, j) :: t =>
      let l := at3 labels n i j in
      let p := argmax (pixel_row pp n i j) in
      let old := match find (fun e => Nat.eqb (fst e) l) count with Some e => snd e | None => repeat 0%nat K end in
      let new := if mem p exclude then old else upd old p (S (nth p old 0%nat)) in
      count_pixels K exclude labels pp t ((l, new) :: filter (fun e => negb (Nat.eqb (fst e) l)) count)
  end.
Definition seg_common_label_issues (srt : list Q -> list nat) (issues : arr3 bool) (labels : arr3 nat) (pp : arr4)
           (exclude : list nat) (top : nat) : res (list (nat * nat * nat)) :=
  if negb (Nat.eqb (sN labels) (tN pp) && Nat.eqb (sH labels) (tH pp) && Nat.eqb (sW labels) (tW pp))%bool
  then Raise AssertionError
  else
  let issue_coords := filter (fun x => let '(n, i, j) := x in at3 issues n i j) (coords (sN issues) (sH issues) (sW issues)) in
  let count := count_pixels (tK pp) exclude labels pp issue_coords [] in
  let info := concat (map (fun g =>
      match find (fun e => Nat.eqb (fst e) g) count with
      | None => []
      | Some e => map (fun p => (g, p, nth p (snd e) 0%nat))
                    (filter (fun p => Nat.ltb 0 (nth p (snd e) 0%nat)) (seq 0 (tK pp)))
      end) (seq 0 (tK pp))) in
  Ok (firstn top (sort_desc srt snd (0%nat, 0%nat, 0%nat) info)).
