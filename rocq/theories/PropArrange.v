(** * C155: where a pixel lies does not matter *)
From Coq Require Import QArith List ZArith Bool Arith Lia Lqa Sorted Permutation.
From Verif Require Import Base BaseFacts ModelUtil ModelCount ModelRank ModelPool ModelFilter ModelBatched ModelToken ModelSegmentation SpecCount SpecFilter SpecRank SpecBatched SpecToken SpecSegmentation
  SpecNumbering SpecArrange ProofFilter ProofSegmentation ProofArrange.
Import ListNotations.
Open Scope Q_scope.

(** without downsampling: if the pixels of a stack of images are put elsewhere, in images of any number and size, exactly the same pixels are flagged,
    whatever the batch sizes, the processes and the sorting, if no two pixels give their label the same probability *)
Theorem C155_issues : forall to back labels labels' pp pp' srt srt' b b' js js' issues issues', argsort_ok srt -> argsort_ok srt' ->
  moved_array to back labels labels' -> moved_probs to back pp pp' ->
  dataset (tK pp) (all_labels labels) (all_rows pp) -> own_prob_floor (all_labels labels) (all_rows pp) -> distinct_pixels labels pp ->
  seg_find_label_issues srt labels pp b js 1 = Ok issues -> seg_find_label_issues srt' labels' pp' b' js' 1 = Ok issues' ->
  moved_array to back issues issues'.
Proof. exact issues_moved. Qed.
Print Assumptions C155_issues.

(** so transposing or mirroring the images, changing their order and cutting them into strips change nothing *)
Theorem C155_arrangements : forall N h w,
  rearranges transposed transposed N h w N w h /\ rearranges (mirrored w) (mirrored w) N h w N h w /\
  (forall c, (0 < c)%nat -> (0 < w)%nat -> rearranges (cut c w) (glued c w) N h (c * w) (N * c) h w) /\
  (forall order inverse, Permutation order (seq 0 N) -> length inverse = N -> (forall n, (n < N)%nat -> nth (nth n order 0%nat) inverse 0%nat = n) ->
     rearranges (shuffled order) (shuffled inverse) N h w N h w).
Proof.
  intros N h w. split; [exact (transposed_ok N h w)|]. split; [exact (mirrored_ok N h w)|].
  split; [exact (fun c => cut_ok N h c w)|exact (fun order inverse => shuffled_ok order inverse N h w)].
Qed.
Print Assumptions C155_arrangements.

(** with downsampling the order of the images does not matter *)
Theorem C155_images : forall order inverse labels labels' pp pp' f srt srt' b b' js js' sl sp issues issues', argsort_ok srt -> argsort_ok srt' ->
  moved_array (shuffled order) (shuffled inverse) labels labels' -> moved_probs (shuffled order) (shuffled inverse) pp pp' ->
  sH labels' = sH labels -> sW labels' = sW labels -> (0 < f)%nat -> downsample_arrays labels pp f = Ok (sl, sp) ->
  dataset (tK sp) (all_labels sl) (all_rows sp) -> own_prob_floor (all_labels sl) (all_rows sp) -> distinct_pixels sl sp ->
  seg_find_label_issues srt labels pp b js f = Ok issues -> seg_find_label_issues srt' labels' pp' b' js' f = Ok issues' ->
  moved_array (shuffled order) (shuffled inverse) issues issues'.
Proof. exact issues_shuffled. Qed.
Print Assumptions C155_images.
(** and the scores of the images move with them *)
Theorem C155_image_scores : forall order inverse labels labels' pp pp' f srt srt' b b' js js' sl sp sc sc', argsort_ok srt -> argsort_ok srt' ->
  moved_array (shuffled order) (shuffled inverse) labels labels' -> moved_probs (shuffled order) (shuffled inverse) pp pp' ->
  sH labels' = sH labels -> sW labels' = sW labels -> (0 < f)%nat -> downsample_arrays labels pp f = Ok (sl, sp) ->
  dataset (tK sp) (all_labels sl) (all_rows sp) -> own_prob_floor (all_labels sl) (all_rows sp) -> distinct_pixels sl sp ->
  num_pixel_issues_scores srt labels pp b js f = Ok sc -> num_pixel_issues_scores srt' labels' pp' b' js' f = Ok sc' ->
  length sc' = length sc /\ forall n, (n < length sc)%nat -> nth (nth n order 0%nat) sc' 0 == nth n sc 0.
Proof. exact image_scores_shuffled. Qed.
Print Assumptions C155_image_scores.

(** the scores of the pixels, the summary of the common issues and the selection of a class move with the pixels *)
Theorem C155_pixel_scores : forall to back labels labels' pp pp' sc sc', moved_array to back labels labels' -> moved_probs to back pp pp' ->
  (forall x, inside (sN labels) (sH labels) (sW labels) x -> (value_at labels x < tK pp)%nat) ->
  seg_pixel_scores labels pp = Ok sc -> seg_pixel_scores labels' pp' = Ok sc' -> moved_array to back sc sc'.
Proof. exact scores_moved. Qed.
Print Assumptions C155_pixel_scores.
Theorem C155_common : forall to back srt srt' issues issues' labels labels' pp pp' exclude top, argsort_ok srt -> argsort_ok srt' ->
  moved_array to back issues issues' -> moved_array to back labels labels' -> moved_probs to back pp pp' -> (0 < tK pp)%nat ->
  sN issues = sN labels -> sH issues = sH labels -> sW issues = sW labels -> sN labels = tN pp -> sH labels = tH pp -> sW labels = tW pp ->
  sN labels' = tN pp' -> sH labels' = tH pp' -> sW labels' = tW pp' ->
  exists rows rows', seg_common_label_issues srt issues labels pp exclude top = Ok (firstn top rows) /\
    seg_common_label_issues srt' issues' labels' pp' exclude top = Ok (firstn top rows') /\ Permutation rows rows' /\
    StronglySorted (fun a b => (snd b <= snd a)%nat) rows /\ StronglySorted (fun a b => (snd b <= snd a)%nat) rows'.
Proof. exact common_moved. Qed.
Print Assumptions C155_common.
Theorem C155_filter : forall to back c issues issues' labels labels' pp pp', moved_array to back issues issues' -> moved_array to back labels labels' -> moved_probs to back pp pp' ->
  sN issues = sN labels -> sH issues = sH labels -> sW issues = sW labels -> sN labels = tN pp -> sH labels = tH pp -> sW labels = tW pp ->
  moved_array to back (seg_filter_by_class c issues labels pp) (seg_filter_by_class c issues' labels' pp').
Proof. exact filter_moved. Qed.
Print Assumptions C155_filter.

(** ** examples: arrays whose pixels are found where [back] tells *)
Definition carried {A} (back : pixel -> pixel) (N h w : nat) (a : arr3 A) : arr3 A := {| sN := N; sH := h; sW := w; at3 := fun n i j => value_at a (back (n, i, j)) |}.
Definition carried4 (back : pixel -> pixel) (N h w : nat) (p : arr4) : arr4 := {| tN := N; tK := tK p; tH := h; tW := w; at4 := fun n k i j => prob_at p k (back (n, i, j)) |}.
Definition flags (r : res (arr3 bool)) : list (nat * nat * nat) :=
  match r with
  | Ok a => filter (fun x => let '(n, i, j) := x in at3 a n i j) (all_pixels (sN a) (sH a) (sW a))
  | Raise _ => [] end.
(** one image of 2 by 2 pixels cut into two images of 2 by 1 *)
Definition ar_p1 : list Q := [1 # 10; 2 # 10; 7 # 10; 9 # 10].
Definition ar_labels : arr3 nat := {| sN := 1; sH := 2; sW := 2; at3 := fun _ i j => if (Nat.eqb i 1 && Nat.eqb j 0)%bool then 1%nat else 0%nat |}.
Definition ar_pp : arr4 := {| tN := 1; tK := 2; tH := 2; tW := 2; at4 := fun _ k i j => let p := nth (2 * i + j) ar_p1 0 in if Nat.eqb k 0 then 1 - p else p |}.
Definition ar_labels' := carried (glued 2 1) 2 2 1 ar_labels.
Definition ar_pp' := carried4 (glued 2 1) 2 2 1 ar_pp.
Lemma carried_ok {A} to back N h w (a : arr3 A) : rearranges to back (sN a) (sH a) (sW a) N h w -> moved_array to back a (carried back N h w a).
Proof. intros R. split; [exact R|]. intros x X. unfold carried, value_at. cbn [at3]. rewrite <- !surjective_pairing, (proj2 (proj1 R x X)). reflexivity. Qed.
Lemma carried4_ok to back N h w p : rearranges to back (tN p) (tH p) (tW p) N h w -> moved_probs to back p (carried4 back N h w p).
Proof. intros R. split; [reflexivity|]. split; [exact R|]. intros x k X _. unfold carried4, prob_at. cbn [at4]. rewrite <- !surjective_pairing, (proj2 (proj1 R x X)). reflexivity. Qed.
Example C155_example : moved_array (cut 2 1) (glued 2 1) ar_labels ar_labels' /\ moved_probs (cut 2 1) (glued 2 1) ar_pp ar_pp' /\
  dataset 2 (all_labels ar_labels) (all_rows ar_pp) /\ own_prob_floor (all_labels ar_labels) (all_rows ar_pp) /\ distinct_pixels ar_labels ar_pp /\
  flags (seg_find_label_issues argsort_ins ar_labels ar_pp None (fun _ => Serial) 1) = [(0, 1, 1)]%nat /\
  flags (seg_find_label_issues argsort_ins ar_labels' ar_pp' None (fun _ => Serial) 1) = [(1, 1, 0)]%nat.
Proof.
  split; [apply carried_ok, (cut_ok 1 2 2 1); lia|]. split; [apply carried4_ok, (cut_ok 1 2 2 1); lia|].
  split; [apply dataset_b_ok; vm_compute; reflexivity|]. split.
  { intros e He. assert (Hl : length (all_labels ar_labels) = 4%nat) by reflexivity. rewrite Hl in He. do 4 (destruct e as [|e]; [vm_compute; discriminate|]). lia. }
  split; [|split; vm_compute; reflexivity].
  intros n i j n' i' j' (A & B & C) (A' & B' & C'). cbn in A, B, C, A', B', C'. assert (n = 0 /\ n' = 0)%nat as (-> & ->) by lia.
  assert (i = 0 \/ i = 1)%nat as [->| ->] by lia; assert (j = 0 \/ j = 1)%nat as [->| ->] by lia;
  assert (i' = 0 \/ i' = 1)%nat as [->| ->] by lia; assert (j' = 0 \/ j' = 1)%nat as [->| ->] by lia; intros Z; try reflexivity; vm_compute in Z; discriminate.
Qed.

(** finding: when two pixels give their label the same probability, which of them is flagged depends on where they lie *)
Definition ti_rows : list (list Q) := [[2 # 10; 8 # 10; 0]; [2 # 10; 0; 8 # 10]; [0; 9 # 10; 1 # 10]; [1 # 4; 1 # 4; 1 # 2]].
Definition ti_labels : arr3 nat := {| sN := 1; sH := 1; sW := 4; at3 := fun _ _ j => nth j [0; 0; 1; 2]%nat 0%nat |}.
Definition ti_pp : arr4 := {| tN := 1; tK := 3; tH := 1; tW := 4; at4 := fun _ k _ j => nth k (nth j ti_rows []) 0 |}.
Theorem C155_tied_refuted : exists issues issues',
  moved_array (mirrored 4) (mirrored 4) ti_labels (carried (mirrored 4) 1 1 4 ti_labels) /\ moved_probs (mirrored 4) (mirrored 4) ti_pp (carried4 (mirrored 4) 1 1 4 ti_pp) /\
  seg_find_label_issues argsort_ins ti_labels ti_pp None (fun _ => Serial) 1 = Ok issues /\
  seg_find_label_issues argsort_ins (carried (mirrored 4) 1 1 4 ti_labels) (carried4 (mirrored 4) 1 1 4 ti_pp) None (fun _ => Serial) 1 = Ok issues' /\
  value_at issues (0, 0, 0)%nat = true /\ value_at issues' (mirrored 4 (0, 0, 0)%nat) = false.
Proof.
  do 2 eexists. split; [apply carried_ok, (mirrored_ok 1 1 4)|]. split; [apply carried4_ok, (mirrored_ok 1 1 4)|].
  split; [vm_compute; reflexivity|]. split; [vm_compute; reflexivity|]. split; vm_compute; reflexivity.
Qed.
(** finding: with downsampling it matters which pixels share a square *)
Definition sw (x : pixel) : pixel := (fst (fst x), snd (fst x), nth (snd x) [0; 2; 1; 3]%nat 0%nat).
Definition dn_labels : arr3 nat := {| sN := 1; sH := 2; sW := 4; at3 := fun _ _ _ => 0%nat |}.
Definition dn_pp : arr4 := {| tN := 1; tK := 2; tH := 2; tW := 4; at4 := fun _ k _ j => let p := if Nat.ltb j 2 then 9 # 10 else 1 # 20 in if Nat.eqb k 0 then 1 - p else p |}.
Theorem C155_downsampled_refuted :
  moved_array sw sw dn_labels (carried sw 1 2 4 dn_labels) /\ moved_probs sw sw dn_pp (carried4 sw 1 2 4 dn_pp) /\
  flags (seg_find_label_issues argsort_ins dn_labels dn_pp None (fun _ => Serial) 2) = [(0, 0, 0); (0, 0, 1); (0, 1, 0); (0, 1, 1)]%nat /\
  exists issues', seg_find_label_issues argsort_ins (carried sw 1 2 4 dn_labels) (carried4 sw 1 2 4 dn_pp) None (fun _ => Serial) 2 = Ok issues' /\
    forall n i j, in_image issues' n i j -> at3 issues' n i j = false.
Proof.
  assert (R : rearranges sw sw 1 2 4 1 2 4).
  { split; intros [[n i] j] (A & B & C); unfold sw, inside in *; cbn [fst snd] in *; assert (j = 0 \/ j = 1 \/ j = 2 \/ j = 3)%nat as [->|[->|[->| ->]]] by lia; cbn; (split; [lia|reflexivity]). }
  split; [now apply carried_ok|]. split; [now apply carried4_ok|]. split; [vm_compute; reflexivity|].
  eexists. split; [vm_compute; reflexivity|]. reflexivity.
Qed.
