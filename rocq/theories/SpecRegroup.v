(** * Vocabulary: dividing the same tokens into sentences differently *)
From Coq Require Import List Arith.
From Verif Require Import Base SpecToken.
Import ListNotations.

(** the same text, divided into other sentences *)
Definition same_text {A} (x x' : list (list A)) : Prop := concat x' = concat x.
(** the sentences of two nested lists have the same lengths *)
Definition same_shape {A B} (x : list (list A)) (y : list (list B)) : Prop := map (@length A) x = map (@length B) y.
(** where the tokens listed are in the whole text *)
Definition positions {A} (x : list (list A)) (issues : list (nat * nat)) : list nat := map (position (map (@length A) x)) issues.
