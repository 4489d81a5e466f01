(** * Vocabulary for renaming the classes outside confident learning (C152) *)
From Coq Require Import QArith List Bool Arith.
From Verif Require Import Base ModelRank ModelOutlier ModelSegmentation SpecSymmetry SpecSegmentation.
Import ListNotations.
Open Scope Q_scope.

(** one number per class, renamed: class [k] becomes the [k]-th entry of [names] *)
Definition renamed_values (names : list nat) (v v' : list Q) : Prop :=
  length v' = length v /\ forall k, (k < length v)%nat -> nth (nth k names 0%nat) v' 0 == nth k v 0.

Section Calls.
Context {F : Type}.
(** two out-of-distribution estimators that differ in the numbering of the thresholds they hold *)
Definition renamed_state (names : list nat) (o o' : ood F) : Prop :=
  p_knn o' = p_knn o /\ p_k o' = p_k o /\ p_t o' = p_t o /\ p_method o' = p_method o /\ p_adjust o' = p_adjust o /\
  p_M o' = p_M o /\ p_gamma o' = p_gamma o /\ p_scaling o' = p_scaling o /\
  match p_thresholds o, p_thresholds o' with
  | Some t, Some t' => renamed_values names t t'
  | None, None => True
  | _, _ => False
  end.
(** the arguments of one call and the same with the classes renamed *)
Definition renamed_input (K : nat) (names : list nat) (i i' : input F) : Prop :=
  in_features i' = in_features i /\
  in_labels i' = option_map (renamed_labels names) (in_labels i) /\
  (forall ls l, in_labels i = Some ls -> In l ls -> (l < K)%nat) /\
  match in_pred_probs i, in_pred_probs i' with
  | Some (pp, k), Some (pp', k') => k = K /\ k' = K /\ (forall row, In row pp -> length row = K) /\ Forall2 (renamed_row names) pp pp'
  | None, None => True
  | _, _ => False
  end.
Definition renamed_call (K : nat) (names : list nat) (c c' : call F) : Prop :=
  match c, c' with
  | Fit i, Fit i' | Score i, Score i' | FitScore i, FitScore i' => renamed_input K names i i'
  | _, _ => False
  end.
End Calls.

(** one class has fewer examples than every other *)
Definition one_rarest (K : nat) (labels : list nat) : Prop :=
  exists r, (r < K)%nat /\ forall c, (c < K)%nat -> c <> r -> (count r labels < count c labels)%nat.

(** no two examples get the same label quality score *)
Definition distinct_scores (K : nat) (labels : list nat) (pp : list (list Q)) (method : score_method) : Prop :=
  forall sc e e', get_label_quality_scores labels pp K method false = Ok sc -> (e < length labels)%nat -> (e' < length labels)%nat ->
    nth e sc 0 == nth e' sc 0 -> e = e'.
(** a stack of label images and of probabilities, renamed *)
Definition renamed_images (names : list nat) (a a' : arr3 nat) : Prop :=
  sN a' = sN a /\ sH a' = sH a /\ sW a' = sW a /\
  forall n i j, in_image a n i j -> at3 a' n i j = nth (at3 a n i j) names 0%nat.
Definition renamed_pixels (names : list nat) (p p' : arr4) : Prop :=
  tN p' = tN p /\ tK p' = tK p /\ tH p' = tH p /\ tW p' = tW p /\
  forall n k i j, (n < tN p)%nat -> (k < tK p)%nat -> (i < tH p)%nat -> (j < tW p)%nat ->
    at4 p' n (nth k names 0%nat) i j = at4 p n k i j.
(** no pixel attains its largest probability twice *)
Definition clear_pixels (p : arr4) : Prop :=
  forall n i j k1 k2, (n < tN p)%nat -> (i < tH p)%nat -> (j < tW p)%nat -> (k1 < tK p)%nat -> (k2 < tK p)%nat -> k1 <> k2 ->
    at4 p n k1 i j == at4 p n k2 i j -> exists h, (h < tK p)%nat /\ at4 p n k1 i j < at4 p n h i j.
(** no two pixels give their labels the same probability *)
Definition distinct_pixels (a : arr3 nat) (p : arr4) : Prop :=
  forall n i j n' i' j', in_image a n i j -> in_image a n' i' j' ->
    at4 p n (at3 a n i j) i j == at4 p n' (at3 a n' i' j') i' j' -> (n, i, j) = (n', i', j').
