(** * Vocabulary for ensembles of models in multi-annotator data (C143) *)
From Coq Require Import QArith List Arith.
From Verif Require Import Base ModelMultiannotator SpecMultiannotator SpecRows.
Import ListNotations.
Open Scope Q_scope.

(** model [p] predicts another class than the consensus [c] for example [i], which several annotators labelled *)
Definition contradicts (t : table) (p : list (list Q)) (c : list nat) (i : nat) : Prop :=
  (1 < num_annotations (nth i t []))%nat /\ argmax (nth i p []) <> nth i c 0%nat.

(** the same statistics of an annotator *)
Definition same_annotator (a b : annotator_row) : Prop :=
  same_value (st_quality a) (st_quality b) /\ same_value (st_agreement a) (st_agreement b) /\
  st_worst a = st_worst b /\ st_num a = st_num b.
