(** * Vocabulary for label errors in training sets, texts, images and multi-label data *)
From Coq Require Import QArith List ZArith Bool Arith.
From Verif Require Import Base ModelSegmentation SpecCount SpecFilter SpecIdeal SpecMultilabel SpecSegmentation.
Import ListNotations.
Open Scope Q_scope.

(** the correctly labelled examples, in order *)
Definition correct_examples (labels tl : list nat) : list nat :=
  filter (fun e => Nat.eqb (nth e labels 0%nat) (nth e tl 0%nat)) (seq 0 (length labels)).

(** ** Images: one given and one true class per pixel *)
Definition same_shape {A} (a b : arr3 A) : Prop := sN a = sN b /\ sH a = sH b /\ sW a = sW b.
Definition wrong_pixel (labels tl : arr3 nat) (n i j : nat) : Prop :=
  in_image labels n i j /\ at3 labels n i j <> at3 tl n i j.

(** ** Multi-label data: [tl] are the classes that truly apply to each example *)
(** class [c] is missing on example [e] although it applies, or given although it does not *)
Definition misannotated (labels tl : list (list nat)) (e c : nat) : Prop :=
  (has_class labels e c /\ ~ has_class tl e c) \/ (~ has_class labels e c /\ has_class tl e c).
(** for each class, the problem of telling the examples with the class from those without has separating predictions *)
Definition ml_ideal (K : nat) (labels tl : list (list nat)) (pp : list (list Q)) : Prop :=
  length tl = length labels /\
  forall c bl btl bp, (c < K)%nat -> one_vs_rest labels pp c bl bp -> one_vs_rest tl pp c btl bp -> ideal 2 bl btl bp.
(** probability [a c] for class [c] on the examples it applies to, [b c] on the others *)
Definition ml_uniform (K : nat) (tl : list (list nat)) (pp : list (list Q)) (a b : nat -> Q) : Prop :=
  forall e c, (e < length tl)%nat -> (c < K)%nat ->
    (has_class tl e c -> prob_of pp e c == a c) /\ (~ has_class tl e c -> prob_of pp e c == b c).
