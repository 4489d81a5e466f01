(** * Model of the label format conversions *)
From Coq Require Import QArith List ZArith Bool Arith.
From Verif Require Import Base.
Import ListNotations.
Open Scope nat_scope.

(** cleanlab/internal/multilabel_utils.py:57-72 [int2onehot]: sklearn's MultiLabelBinarizer(classes=range(K)):
    a zero row in which the position of every known class is set (classes outside range(K) are ignored with a
    warning). *)
Definition int2onehot_row (K : nat) (ls : list nat) : list nat :=
  fold_left (fun row k => upd row k 1) ls (repeat 0 K).
Definition int2onehot (labels : list (list nat)) (K : nat) : list (list nat) := map (int2onehot_row K) labels.

(** cleanlab/internal/multilabel_utils.py:75-90 [onehot2int]: np.where(row)[0] for every row. *)
Definition onehot2int (m : list (list nat)) : list (list nat) :=
  map (fun row => where_ (map (fun x => negb (Nat.eqb x 0)) row)) m.

Section Format.
Context {A : Type} (leb : A -> A -> bool).

(** np.unique: sorted, without repetitions *)
Fixpoint insert_unique (x : A) (l : list A) : list A :=
  match l with
  | [] => [x]
  | y :: t => if leb x y then (if leb y x then l else x :: l) else y :: insert_unique x t
  end.
Definition np_unique (l : list A) : list A := fold_right insert_unique [] l.

(** a dict as an association list with keys in insertion order; equality of keys is [leb] both ways *)
Definition key_eqb (x y : A) : bool := (leb x y && leb y x)%bool.
Fixpoint dict_get (d : list (A * nat)) (x : A) : res nat :=
  match d with
  | [] => Raise KeyError
  | (y, i) :: t => if key_eqb x y then Ok i else dict_get t x
  end.
Fixpoint inv_get (d : list (nat * A)) (i : nat) : option A :=
  match d with
  | [] => None
  | (j, x) :: t => if Nat.eqb i j then Some x else inv_get t i
  end.
Definition label_map (uniq : list A) : list (A * nat) := combine uniq (seq 0 (length uniq)).
Definition inverse_map (d : list (A * nat)) : list (nat * A) := map (fun xi => (snd xi, fst xi)) d.

(** cleanlab/internal/util.py:563-585 [format_labels]; datalab/internal/data.py:341-389
    [MultiClass._extract_labels] is the same (for a label column that is not a ClassLabel feature). *)
Definition format_labels (labels : list A) : res (list nat * list (nat * A)) :=
  let d := label_map (np_unique labels) in
  do f <- rmap (dict_get d) labels ;
  Ok (f, inverse_map d).

(** cleanlab/datalab/internal/data.py:322-334 [MultiLabel._extract_labels]. *)
Definition format_multilabels (labels : list (list A)) : res (list (list nat) * list (nat * A)) :=
  let d := label_map (np_unique (concat labels)) in
  do f <- rmap (rmap (dict_get d)) labels ;
  Ok (f, inverse_map d).
End Format.
