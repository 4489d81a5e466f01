(** * Model of cleanlab/datalab/internal/issue_manager/identifier_column.py:47-131: the containers of features *)
From Coq Require Import QArith List ZArith Bool Arith.
From Verif Require Import Base ModelChecks.
Import ListNotations.
Open Scope nat_scope.

(** what becomes of a column as a numpy array: integers, or something else (only the size matters) *)
Inductive cells := Ints (values : list Z) | Others (size : nat).
Definition cells_size (c : cells) : nat := match c with Ints v => length v | Others n => n end.
(** an element of a list of features: a list or array, or anything else *)
Inductive element := ListOrArray (c : cells) | Neither.
Inductive features :=
  | IntArray (rows : list (list Z)) (ncols : nat)   (* two-dimensional numpy array of an integer type *)
  | OtherArray (nrows ncols : nat)                  (* two-dimensional numpy array of another type *)
  | DataFrame (columns : list cells)
  | Dict (columns : list cells)                     (* the values of a dict *)
  | ListOf (elements : list element)
  | OtherObject
  | NoFeatures.                                     (* None *)

(** np.array of a column; an empty list becomes an array of floats *)
Definition to_column (c : cells) : column :=
  match c with Ints [] => OtherColumn 0 | Ints v => IntColumn v | Others n => OtherColumn n end.
(** a column of a DataFrame keeps its type *)
Definition frame_column (c : cells) : column := match c with Ints v => IntColumn v | Others n => OtherColumn n end.

(** identifier_column.py:47-91 [_prepare_features]; [value[0]] of an empty dict value raises *)
Definition prepare_features (f : features) : res (list column) :=
  match f with
  | IntArray rows ncols => Ok (tab ncols (fun j => IntColumn (map (fun row => nth j row 0%Z) rows)))
  | OtherArray nrows ncols => Ok (repeat (OtherColumn nrows) ncols)
  | DataFrame cols => Ok (map frame_column cols)
  | Dict cols => if existsb (fun c => Nat.eqb (cells_size c) 0) cols then Raise IndexError else Ok (map to_column cols)
  | ListOf els =>
      if existsb (fun e => match e with Neither => true | _ => false end) els then Raise ValueError
      else Ok (map (fun e => match e with ListOrArray c => to_column c | Neither => OtherColumn 0 end) els)
  | OtherObject => Raise ValueError
  | NoFeatures => Raise ValueError
  end.
(** identifier_column.py:93-131 [find_issues] *)
Definition find_identifiers (f : features) : res (report * list nat) :=
  do cols <- prepare_features f ;
  identifier_check cols.
