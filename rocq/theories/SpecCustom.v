(** * Vocabulary for the definition of custom checks *)
From Coq Require Import String List Bool Arith ZArith.
From Verif Require Import Base ModelDatalab ModelCustom.
Import ListNotations.
Open Scope string_scope.
Open Scope list_scope.

(** every level is a list of strings *)
Definition strings_only (l : levels) : Prop :=
  forall k v, In (k, v) l -> exists ks, v = Listed (map Key ks).
(** the levels are 0, 1, 2, ... in this order *)
Definition numbered (l : levels) : Prop := map fst l = map Z.of_nat (seq 0 (length l)).
(** [t] is one more than the highest level *)
Definition is_top (l : levels) (t : Z) : Prop :=
  (exists k, In k (map fst l) /\ t = (k + 1)%Z) /\ forall k, In k (map fst l) -> (k < t)%Z.
(** [s] is listed at level [k] *)
Definition listed (l : levels) (k : Z) (s : string) : Prop := exists ks, In (k, Listed ks) l /\ In (Key s) ks.
