(** * Specification vocabulary for the caution about lost classes *)
From Coq Require Import QArith List Bool Arith.
From Verif Require Import Base SpecMultiannotator.
Import ListNotations.

(** some annotator gave class [c] to some example *)
Definition annotated (t : list row) (c : nat) : Prop := exists r, In r t /\ In (Some c) r.
(** [l] lists the values satisfying [P], once each *)
Definition lists (P : nat -> Prop) (l : list nat) : Prop := NoDup l /\ forall c, In c l <-> P c.
(** the classes named by the printed caution, none if nothing is printed *)
Definition named (w : option (list nat)) : list nat := match w with Some cs => cs | None => [] end.

(** ** an example: five annotators; the model is sure that the last example is of a class nobody used *)
Definition ex178_t : list row :=
  [[Some 0; Some 0; Some 0; Some 0; Some 0]; [Some 1; Some 1; Some 1; Some 1; Some 1];
   [Some 0; Some 0; Some 0; Some 0; Some 0]; [Some 2; None; None; None; None]]%nat.
Definition ex178_p : list (list Q) :=
  [[97 # 100; 1 # 100; 1 # 100; 1 # 100]; [1 # 100; 97 # 100; 1 # 100; 1 # 100]; [97 # 100; 1 # 100; 1 # 100; 1 # 100]; [0; 0; 0; 1]]%Q.
(** a square root that is exact on the numbers of the example *)
Definition ex178_sqrt (x : Q) : Q := if Qeq_bool x 4 then 2%Q else x.
(** class 2 is outvoted *)
Definition ex178_v : list row := [[Some 0; Some 0; Some 2]; [Some 1; None; Some 1]; [Some 0; Some 0; None]]%nat.
