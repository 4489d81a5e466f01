(** * Vocabulary for the multi-annotator label formats *)
From Coq Require Import List Bool Arith Sorted.
Import ListNotations.

(** strictly increasing *)
Definition increasing {A} (leb : A -> A -> bool) (l : list A) : Prop := StronglySorted (fun x y => leb y x = false) l.
(** no annotator labels a task twice *)
Definition one_label_each {T A L} (long : list (T * A * L)) : Prop := NoDup (map fst long).
(** the label [x] occurs in the table *)
Definition occurs {A} (labels : list (list (option A))) (x : A) : Prop := exists r, In r labels /\ In (Some x) r.
(** the table entry in row [i] and column [j] *)
Definition at_cell {A} (m : list (list (option A))) (i j : nat) : option A := nth j (nth i m []) None.
