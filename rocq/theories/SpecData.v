(** * Vocabulary for the dataset held by a Datalab and for what it prints *)
From Coq Require Import String QArith List ZArith Bool Arith.
From Verif Require Import Base ModelDatalab ModelData.
Import ListNotations.
Open Scope string_scope.
Open Scope list_scope.

(** the distinct labels in increasing order *)
Definition sorted_names {A} (leb : A -> A -> bool) (names : list A) : Prop :=
  forall m n x y, nth_error names m = Some x -> nth_error names n = Some y -> ((m <= n)%nat <-> leb x y = true).
(** number [z] stands for the label [x] *)
Definition stands_for {A} (names : list A) (x : A) (z : Z) : Prop := (0 <= z)%Z /\ nth_error names (Z.to_nat z) = Some x.

(** [i] is one of the formats holding the columns [c] *)
Definition holds {A} (i : input A) (c : list (string * column A)) : Prop :=
  (exists n, i = GivenDataset true (Dataset n c)) \/ i = GivenFrame true (Some c) \/ i = GivenDict true (Some c) \/ i = GivenList true (Some c).
(** an instance of a class derived from one of the supported classes *)
Definition subclass {A} (i : input A) : Prop :=
  match i with
  | GivenDataset b _ => b = false | GivenFrame b _ => b = false | GivenDict b _ => b = false
  | GivenList b _ => b = false | GivenString b _ => b = false | _ => False
  end.
(** the lists of labels all have the same length *)
Definition equal_lengths {A} (l : list (list A)) : Prop := forall x y, In x l -> In y l -> length x = length y.

(** the number of examples a table of issues flags for a check *)
Definition flagged (name : string) (f : frame) : nat :=
  match lookup (flag_column name) f with Some col => count_true (map (fun c => match c with CFlag b => b | _ => false end) col) | None => 0%nat end.
