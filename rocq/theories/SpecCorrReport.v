(** * Vocabulary for the correlation report of an image audit (C154) *)
From Coq Require Import String Ascii QArith List Bool Arith.
From Verif Require Import Base ModelDatalab ModelImage ModelCorrReport.
Import ListNotations.
Open Scope string_scope.
Open Scope list_scope.

(** [t] is [s] without the occurrences of "_score" found from left to right *)
Inductive stripped : string -> string -> Prop :=
| Strip_nil : stripped "" ""
| Strip_word s t : stripped s t -> stripped ("_score" ++ s)%string t
| Strip_char c s t : (forall s', String c s <> ("_score" ++ s')%string) -> stripped s t -> stripped (String c s) (String c t).

(** the number in a cell; the first of the smallest, of the largest numbers of a column *)
Definition holds_number (col : list cell) (i : nat) (q : Q) : Prop :=
  exists c, nth_error col i = Some c /\ (c = CNum q \/ (c = CFlag true /\ q = 1%Q) \/ (c = CFlag false /\ q = 0%Q)).
Definition first_lowest (col : list cell) (i : nat) (q : Q) : Prop :=
  holds_number col i q /\ (forall j x, holds_number col j x -> (q <= x)%Q) /\ (forall j x, holds_number col j x -> (j < i)%nat -> (q < x)%Q).
Definition first_highest (col : list cell) (i : nat) (q : Q) : Prop :=
  holds_number col i q /\ (forall j x, holds_number col j x -> (x <= q)%Q) /\ (forall j x, holds_number col j x -> (j < i)%nat -> (x < q)%Q).

(** the properties whose score is below the threshold, in their order *)
Definition below (q : Q) (df props : list (string * Q)) : Prop :=
  exists keep, props = filter keep df /\ forall e, keep e = true <-> (snd e < q)%Q.
(** the two images shown for a property *)
Definition image_pair (f : frame) (prop : string * Q) (x : string * ((nat * Q) * (nat * Q))) : Prop :=
  stripped (fst prop) (fst x) /\
  exists col, lookup (fst prop) f = Some col /\ first_lowest col (fst (fst (snd x))) (snd (fst (snd x))) /\ first_highest col (fst (snd (snd x))) (snd (snd (snd x))).
Definition table_row (prop row : string * Q) : Prop := stripped (fst prop) (fst row) /\ snd row = snd prop.
