(** * Model of multiannotator.convert_long_to_wide_dataset and internal/multiannotator_utils.format_multiannotator_labels *)
From Coq Require Import String QArith Qround List ZArith Bool Arith.
From Verif Require Import Base ModelLabels.
Import ListNotations.
Open Scope nat_scope.

Section Pivot.
Context {T A L : Type} (leb_t : T -> T -> bool) (leb_a : A -> A -> bool).
(** one row of the long table: task, annotator, label (None is NaN) *)
Notation row := (T * A * option L)%type.
Definition same_cell (r s : row) : bool := (key_eqb leb_t (fst (fst r)) (fst (fst s)) && key_eqb leb_a (snd (fst r)) (snd (fst s)))%bool.
Fixpoint has_duplicate (long : list row) : bool :=
  match long with [] => false | r :: t => (existsb (same_cell r) t || has_duplicate t)%bool end.
(** multiannotator.py:1063-1090: DataFrame.pivot raises ValueError when an (index, column) pair occurs twice; index and columns are sorted and cells
    without a row are NaN.  Returns (tasks, annotators, table). *)
Definition convert_long_to_wide (long : list row) : res (list T * list A * list (list (option L))) :=
  if has_duplicate long then Raise ValueError
  else
    let tasks := np_unique leb_t (map (fun r => fst (fst r)) long) in
    let annotators := np_unique leb_a (map (fun r => snd (fst r)) long) in
    Ok (tasks, annotators, map (fun t => map (fun a =>
      match find (fun r => (key_eqb leb_t t (fst (fst r)) && key_eqb leb_a a (snd (fst r)))%bool) long with Some r => snd r | None => None end) annotators) tasks).
End Pivot.

Section Format.
Context {A : Type} (leb : A -> A -> bool).
(** [{label: i for i, label in enumerate(unique_labels)}]: a repeated key keeps its place and takes the later value *)
Fixpoint dict_set (d : list (A * nat)) (x : A) (i : nat) : list (A * nat) :=
  match d with [] => [(x, i)] | (y, j) :: t => if key_eqb leb x y then (y, i) :: t else (y, j) :: dict_set t x i end.
Definition build_map (l : list A) : list (A * nat) := fold_left (fun d xi => dict_set d (fst xi) (snd xi)) (combine l (seq 0 (length l))) [].
(** a cell after [labels.replace(label_map)]: replaced, or as it was *)
Inductive cell := New (k : nat) | Old (x : A).
Definition replace (d : list (A * nat)) (x : A) : cell := match dict_get leb d x with Ok k => New k | Raise _ => Old x end.

(** internal/multiannotator_utils.py:190-232 [format_multiannotator_labels].  [is_nan] says which labels are taken for missing (the string "nan" in an
    array of strings), [cast] is astype("int") for an array of floats and the identity otherwise. *)
Definition format_multiannotator_labels (is_nan : A -> bool) (cast : A -> A) (labels : list (list (option A))) : list (list (option cell)) * list (nat * A) :=
  let present := flat_map (fun o => match o with Some l => [l] | None => [] end) (concat labels) in
  let unique_labels := map cast (np_unique leb (filter (fun l => negb (is_nan l)) present)) in
  let label_map := build_map unique_labels in
  (map (map (option_map (replace label_map))) labels, inverse_map label_map).
End Format.
Arguments New {A} k.
Arguments Old {A} x.

(** the three kinds of arrays: integers, floats ([int(x)] truncates towards zero), strings *)
Definition format_ints := format_multiannotator_labels Z.leb (fun _ => false) (fun z => z).
Definition trunc (q : Q) : Q := inject_Z (if Qle_bool 0 q then Qfloor q else Qceiling q).
Definition format_floats := format_multiannotator_labels Qle_bool (fun _ => false) trunc.
Definition format_strings := format_multiannotator_labels String.leb (fun s => String.eqb s "nan") (fun s => s).
