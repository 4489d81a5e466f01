(** * Vocabulary for rearranging the pixels of segmentation data (C155) *)
From Coq Require Import QArith List Bool Arith.
From Verif Require Import Base ModelSegmentation SpecSegmentation.
Import ListNotations.
Open Scope nat_scope.

(** image, row, column *)
Definition pixel : Type := nat * nat * nat.
Definition inside (N h w : nat) (x : pixel) : Prop := fst (fst x) < N /\ snd (fst x) < h /\ snd x < w.
Definition value_at {A} (a : arr3 A) (x : pixel) : A := at3 a (fst (fst x)) (snd (fst x)) (snd x).
Definition prob_at (p : arr4) (k : nat) (x : pixel) : Q := at4 p (fst (fst x)) k (snd (fst x)) (snd x).

(** [to] puts every pixel of a stack of [N] images of size [h] by [w] somewhere in a stack of [N'] images of size [h'] by [w'], and [back]
    is the way back *)
Definition rearranges (to back : pixel -> pixel) (N h w N' h' w' : nat) : Prop :=
  (forall x, inside N h w x -> inside N' h' w' (to x) /\ back (to x) = x) /\
  (forall y, inside N' h' w' y -> inside N h w (back y) /\ to (back y) = y).
(** the label images, and the class probabilities, with their pixels put elsewhere *)
Definition moved_array {A} (to back : pixel -> pixel) (a a' : arr3 A) : Prop :=
  rearranges to back (sN a) (sH a) (sW a) (sN a') (sH a') (sW a') /\
  forall x, inside (sN a) (sH a) (sW a) x -> value_at a' (to x) = value_at a x.
Definition moved_probs (to back : pixel -> pixel) (p p' : arr4) : Prop :=
  tK p' = tK p /\ rearranges to back (tN p) (tH p) (tW p) (tN p') (tH p') (tW p') /\
  forall x k, inside (tN p) (tH p) (tW p) x -> k < tK p -> prob_at p' k (to x) = prob_at p k x.

(** some ways to rearrange pixels *)
Definition transposed (x : pixel) : pixel := (fst (fst x), snd x, snd (fst x)).
Definition mirrored (w : nat) (x : pixel) : pixel := (fst (fst x), snd (fst x), w - 1 - snd x).
(** image [n] becomes image [nth n order] *)
Definition shuffled (order : list nat) (x : pixel) : pixel := (nth (fst (fst x)) order 0, snd (fst x), snd x).
(** every image is cut into [c] strips of width [w], which become images of their own *)
Definition cut (c w : nat) (x : pixel) : pixel := (fst (fst x) * c + snd x / w, snd (fst x), snd x mod w).
Definition glued (c w : nat) (x : pixel) : pixel := (fst (fst x) / c, snd (fst x), (fst (fst x) mod c) * w + snd x).
