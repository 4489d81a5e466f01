(** * Vocabulary for consensus by agreement *)
From Coq Require Import QArith List Bool Arith.
From Verif Require Import Base SpecMultiannotator.
Import ListNotations.
Open Scope Q_scope.

(** number of labels given to an example, and the share of them that are [k] *)
Definition n_given (r : row) : nat := length (filter (fun o => match o with Some _ => true | None => false end) r).
Definition share (r : row) (k : nat) : Q := Qnat (votes r k) / Qnat (n_given r).
(** number of different labels below [k] given to the example *)
Definition rank_among (r : row) (k : nat) : nat := length (filter (fun l => Nat.ltb 0 (votes r l)) (seq 0 k)).
(** no gaps: with a label every smaller label was given, too *)
Definition no_gaps (r : row) : Prop := forall k l, In (Some k) r -> (l < k)%nat -> In (Some l) r.
