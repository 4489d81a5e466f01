(** * Vocabulary for the report of the null check *)
From Coq Require Import List Arith.
Import ListNotations.

(** exactly [n] rows of a table have a property *)
Definition rows_having {R} (P : R -> Prop) (table : list R) (n : nat) : Prop :=
  exists where_ : list nat, NoDup where_ /\ length where_ = n /\
    forall i, In i where_ <-> exists r, nth_error table i = Some r /\ P r.
Definition all_missing {V} (r : list (option V)) : Prop := forall c, In c r -> c = None.
Definition some_missing {V} (r : list (option V)) : Prop := In None r /\ exists v, In (Some v) r.
(** a number is mentioned unless it is 0 *)
Definition mentions (note : option nat) (n : nat) : Prop := (n = 0 -> note = None) /\ (0 < n -> note = Some n).
