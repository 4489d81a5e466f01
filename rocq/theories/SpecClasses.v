(** * Vocabulary for the helpers that count classes *)
From Coq Require Import List ZArith Arith Sorted.
From Verif Require Import ModelClasses.
Import ListNotations.

(** [z] is a label of an entry *)
Definition has_class (e : entry) (z : Z) : Prop := match e with One y => y = z | Many l => In z l end.
Definition used (labels : list entry) (z : Z) : Prop := exists e, In e labels /\ has_class e z.
(** all entries are single labels, all are lists, or there are both *)
Definition all_single (labels : list entry) : Prop := forall e, In e labels -> exists z, e = One z.
Definition all_lists (labels : list entry) : Prop := forall e, In e labels -> exists l, e = Many l.
(** labels that suit the option [multi_label]: all of one kind *)
Definition accepted (labels : list entry) (multi_label : option bool) : Prop :=
  all_single labels /\ multi_label <> Some true \/ all_lists labels /\ multi_label <> Some false.
(** the labels are named one to one by [names], in increasing order *)
Definition names_of (x names : list Z) : Prop := StronglySorted Z.lt names /\ forall z, In z names <-> In z x.
(** how often [z] occurs *)
Definition times (z : Z) (x : list Z) (n : nat) : Prop := count_occ Z.eq_dec x z = n.
