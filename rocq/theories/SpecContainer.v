(** * What a container holds *)
From Coq Require Import QArith List Bool Arith.
From Verif Require Import Base ModelValid SpecValid ModelContainer.
Import ListNotations.
Open Scope Q_scope.

(** the object is a one-dimensional sequence of the values [v]: a flat list, a 1-d array, a series, or a frame of one column *)
Inductive holds : container -> list lab -> Prop :=
| holds_list v : holds (PyList (map Leaf v)) v
| holds_array v : holds (NdArray [length v] v) v
| holds_series v : holds (Series v) v
| holds_frame v : holds (Frame 1 (map (fun l => [l]) v)) v.
(** objects that exist: an array has as many entries as its shape says, every row of a frame has one entry per column *)
Definition exists_labels (y : container) : Prop :=
  match y with
  | NdArray s l => length l = fold_right Nat.mul 1%nat s
  | Frame w rows => forall r, In r rows -> length r = w
  | _ => True
  end.
Definition exists_predictions (p : pred_object) : Prop :=
  match p with PArray s l => length l = fold_right Nat.mul 1%nat s | _ => True end.
(** valid class labels for the two options *)
Definition good_labels (allow_missing allow_one : bool) (v : list lab) (cs : list nat) : Prop :=
  class_labels v cs /\ (allow_one = true \/ two_of cs) /\ (allow_missing = true \/ no_gap cs).
(** the number of examples of the features: their length, or else the first entry of their shape *)
Definition examples (x : data_object) (n : nat) : Prop := has_len x = Some n \/ (has_len x = None /\ has_shape x = Some n).
(** some way of taking the first and the last example works *)
Definition takes_ends (x : data_object) (n : nat) : Prop :=
  (is_pandas x = true /\ iloc_works x [0; n - 1]%nat = true) \/
  (is_torch_dataset x = true /\ subset_works x [0; n - 1]%nat = true) \/ getitem_works x [0; n - 1]%nat = true.
(** entries are probabilities up to 1e-6 *)
Definition near_01 (l : list Q) : Prop := forall p, In p l -> - (1 # 1000000) <= p /\ p <= 1 + (1 # 1000000).
(** a list of lists of numbers *)
Definition class_lists (y : container) (ls : list (list Q)) : Prop := y = PyList (map (fun l => Node (map (fun q => Leaf (Num q)) l)) ls).
