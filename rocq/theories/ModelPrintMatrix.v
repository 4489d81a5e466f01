(** * Model of cleanlab/internal/util.py:314-384: the printed matrices *)
From Coq Require Import String Ascii DecimalString.
From Coq Require Import QArith List Bool Arith.
From Verif Require Import Base.
Import ListNotations.

Definition TAB : string := String (ascii_of_nat 9) EmptyString.
Definition str (n : nat) : string := NilEmpty.string_of_uint (Nat.to_uint n).

(** a numpy array: one row of numbers, or a rectangular table *)
Inductive array := Vector (v : list Q) | Table (m : list (list Q)).

Fixpoint sconcat (l : list string) : string := match l with [] => EmptyString | s :: t => String.append s (sconcat t) end.

Open Scope string_scope.
(** lines 314-352 [print_square_matrix]: the lines printed, and the exception that ends it, if any.  [show] is [str] of a
    number, [rnd] rounds to the given number of places.  [matrix[i, :]] of a row that does not exist is an IndexError,
    after the lines before it were printed. *)
Definition print_square_matrix (show : Q -> string) (rnd : Q -> Q) (matrix : array) (left_name top_name title short_title : string)
  : list string * option exn :=
  let short_title := substring 0 6 short_title in
  let K := match matrix with Vector v => List.length v | Table m => List.length m end in
  let m := match matrix with Vector v => [v] | Table m => m end in
  let columns := List.length (nth 0 m []) in
  let head := [""; title ++ " of shape (" ++ str (List.length m) ++ ", " ++ str columns ++ ")";
               " " ++ short_title ++ sconcat (map (fun i => TAB ++ top_name ++ "=" ++ str i) (seq 0 K));
               sconcat (repeat (TAB ++ "---") K)] in
  let row i := left_name ++ "=" ++ str i ++ " |" ++ TAB ++ String.concat TAB (map (fun z => show (rnd z)) (nth i m [])) in
  if Nat.leb K (List.length m)
  then let trace := qsum (tab (Nat.min K columns) (fun i => mget m i i)) in
       ((head ++ map row (seq 0 K) ++ [(TAB ++ "Trace(matrix) = " ++ show (rnd trace))%string; EmptyString])%list, None)
  else ((head ++ map row (seq 0 (List.length m)))%list, Some IndexError).

(** lines 355-384 [print_noise_matrix], [print_inverse_noise_matrix], [print_joint_matrix] *)
Definition print_noise_matrix (show : Q -> string) (rnd : Q -> Q) (m : array) :=
  print_square_matrix show rnd m "s" "y" " Noise Matrix (aka Noisy Channel) P(given_label|true_label)" "p(s|y)".
Definition print_inverse_noise_matrix (show : Q -> string) (rnd : Q -> Q) (m : array) :=
  print_square_matrix show rnd m "y" "s" " Inverse Noise Matrix P(true_label|given_label)" "p(y|s)".
Definition print_joint_matrix (show : Q -> string) (rnd : Q -> Q) (m : array) :=
  print_square_matrix show rnd m "s" "y" " Joint Label Noise Distribution Matrix P(given_label, true_label)" "p(s,y)".
