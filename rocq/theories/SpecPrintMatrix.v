(** * Vocabulary for C186 *)
From Coq Require Import String Ascii.
From Coq Require Import QArith List Bool Arith.
From Verif Require Import Base.
Import ListNotations.

Definition is_tab (c : ascii) : bool := Ascii.eqb c (ascii_of_nat 9).
Fixpoint no_tab (s : string) : bool := match s with EmptyString => true | String c t => (negb (is_tab c) && no_tab t)%bool end.
(** the fields of a line, as str.split('\t') gives them *)
Fixpoint fields (s : string) : list string :=
  match s with
  | EmptyString => [EmptyString]
  | String c t => if is_tab c then EmptyString :: fields t
                  else match fields t with [] => [String c EmptyString] | f :: r => String c f :: r end
  end.
Definition square (K : nat) (m : list (list Q)) : Prop := List.length m = K /\ forall r, In r m -> List.length r = K.
