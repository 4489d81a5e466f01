(** * Vocabulary for the properties of ensemble active learning *)
From Coq Require Import QArith List Bool Arith.
From Verif Require Import Base SpecCount SpecMultiannotator.
Import ListNotations.
Open Scope Q_scope.

(** [after] are the matrices [before], each scaled with its own temperature; [temps] are the temperatures *)
Definition scaled {T} (scale : T -> list (list Q) -> list (list Q)) (temps : list T) (before after : list (list (list Q))) : Prop :=
  length after = length before /\ length temps = length before /\
  forall i m, nth_error before i = Some m -> exists temp, nth_error temps i = Some temp /\ nth_error after i = Some (scale temp m).
(** [temps] are the temperatures which fit the matrices best to the table [t] *)
Definition best_for {T} (best : list row -> list (list Q) -> res T) (t : list row) (temps : list T) (ms : list (list (list Q))) : Prop :=
  length temps = length ms /\ forall i m, nth_error ms i = Some m -> exists temp, nth_error temps i = Some temp /\ best t m = Ok temp.

(** [c] is the most probable class of the row, the first one if there are several *)
Definition top_class (K : nat) (rw : list Q) (c : nat) : Prop :=
  (c < K)%nat /\ (forall k, (k < K)%nat -> nth k rw 0 <= nth c rw 0) /\ (forall k, (k < c)%nat -> nth k rw 0 < nth c rw 0).
(** the most probable class of every model, for example [i] *)
Definition favourites (K : nat) (ms : list (list (list Q))) (i : nat) (fav : list nat) : Prop :=
  Forall2 (fun m c => top_class K (nth i m []) c) ms fav.
(** average of [x] with weights [w] *)
Definition weighted (x w : list Q) (a : Q) : Prop := a * qsum w == qsum (map (fun xw => fst xw * snd xw) (combine x w)).
(** temperature scaling turns matrices of distributions into matrices of distributions *)
Definition keeps_distributions {T} (scale : T -> list (list Q) -> list (list Q)) : Prop :=
  forall temp N K m, distributions N K m -> distributions N K (scale temp m).
(** total weight of the annotators who labelled the example *)
Definition weight_of_annotators (aw : list Q) (r : row) : Q :=
  qsum (map (fun j => nth j aw 0) (filter (fun j => match nth j r None with Some _ => true | None => false end) (seq 0 (length r)))).
