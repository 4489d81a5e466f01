(** * Array vocabulary shared by all model files (numpy primitives on lists).

    Definitions only.  Floats are modelled by exact rationals [Q]; arrays by lists. *)
From Coq Require Import QArith Qabs Qround List Permutation Sorted ZArith Bool Arith.
Import ListNotations.
Open Scope Q_scope.

(** numpy [sum] of a 1-d float array. *)
Definition qsum (l : list Q) : Q := fold_right Qplus 0 l.

(** numpy [sum] of a 1-d int array. *)
Definition zsum (l : list Z) : Z := fold_right Z.add 0%Z l.

(** sum of a list of naturals (Python [sum]). *)
Definition nsum (l : list nat) : nat := fold_right Nat.add 0%nat l.

(** [x < y] and [x <= y] on floats. *)
Definition Qltb (x y : Q) : bool := negb (Qle_bool y x).
Definition Qleb (x y : Q) : bool := Qle_bool x y.

(** conversion of a count to a float. *)
Definition Qnat (n : nat) : Q := inject_Z (Z.of_nat n).

(** [np.maximum(x, y)] and [np.minimum(x, y)] / [np.clip] with one bound. *)
Definition qmax (x y : Q) : Q := if Qle_bool x y then y else x.
Definition qmin (x y : Q) : Q := if Qle_bool x y then x else y.
Definition clip_lo (lo x : Q) : Q := qmax x lo.
Definition clip (lo hi x : Q) : Q := qmin (qmax x lo) hi.

(** [[f 0, ..., f (n-1)]], i.e. [np.array([f(i) for i in range(n)])]. *)
Definition tab {A} (n : nat) (f : nat -> A) : list A := map f (seq 0 n).

(** [np.mean] of a 1-d array; only meaningful when the array is not empty. *)
Definition qmean (l : list Q) : Q := qsum l / Qnat (length l).

(** [np.argmax] of a 1-d float array: index of the first maximum. *)
Fixpoint argmax_aux (l : list Q) (i best : nat) (bv : Q) : nat :=
  match l with
  | [] => best
  | x :: t => if Qltb bv x then argmax_aux t (S i) i x else argmax_aux t (S i) best bv
  end.
Definition argmax (l : list Q) : nat :=
  match l with [] => 0%nat | x :: t => argmax_aux t 1 0 x end.

(** [np.argmin] of a 1-d float array: index of the first minimum. *)
Definition argmin (l : list Q) : nat := argmax (map Qopp l).

(** [np.argmax] of a 1-d bool array: index of the first True, 0 when there is none. *)
Fixpoint first_true_aux (l : list bool) (i : nat) : option nat :=
  match l with
  | [] => None
  | b :: t => if b then Some i else first_true_aux t (S i)
  end.
Definition argmax_bool (l : list bool) : nat :=
  match first_true_aux l 0 with Some i => i | None => 0%nat end.

(** [np.max] of a non-empty 1-d float array. *)
Definition qmaximum (l : list Q) : Q :=
  match l with [] => 0 | x :: t => fold_left qmax t x end.
(** [np.min] of a non-empty 1-d float array. *)
Definition qminimum (l : list Q) : Q :=
  match l with [] => 0 | x :: t => fold_left qmin t x end.

(** number of True entries of a bool array. *)
Definition count_true (m : list bool) : nat := length (filter (fun b => b) m).

(** [np.where(m)[0]]. *)
Definition where_ (m : list bool) : list nat :=
  filter (fun i => nth i m false) (seq 0 (length m)).

(** boolean-mask indexing [l[m]]. *)
Definition select {A} (m : list bool) (l : list A) : list A :=
  map snd (filter fst (combine m l)).

(** integer-array indexing [l[idx]]. *)
Definition take_idx {A} (d : A) (l : list A) (idx : list nat) : list A :=
  map (fun i => nth i l d) idx.

(** membership of an index in an index list. *)
Definition mem (i : nat) (l : list nat) : bool := existsb (Nat.eqb i) l.

(** [m = np.zeros(n, dtype=bool); m[idx] = True]. *)
Definition mask_of (n : nat) (idx : list nat) : list bool :=
  map (fun i => mem i idx) (seq 0 n).

(** [m[l == k] = sub]: scatter [sub] (in order) to the positions selected by a mask, keeping the
    other entries of [dst]. *)
Fixpoint scatter {A} (m : list bool) (dst sub : list A) : list A :=
  match m, dst with
  | b :: m', x :: dst' =>
      if b then match sub with
                | y :: sub' => y :: scatter m' dst' sub'
                | [] => x :: scatter m' dst' []
                end
      else x :: scatter m' dst' sub
  | _, _ => dst
  end.

(** 2-d access [m[i, j]]. *)
Definition mget (m : list (list Q)) (i j : nat) : Q := nth j (nth i m []) 0.
Definition zget (m : list (list Z)) (i j : nat) : Z := nth j (nth i m []) 0%Z.

(** column [m[:, j]]. *)
Definition col (j : nat) (m : list (list Q)) : list Q := map (fun r => nth j r 0) m.
Definition zcol (j : nat) (m : list (list Z)) : list Z := map (fun r => nth j r 0%Z) m.

(** [m.sum(axis=1)] and [m.sum(axis=0)] for a matrix with [K] columns. *)
Definition row_sums (m : list (list Q)) : list Q := map qsum m.
Definition col_sums (K : nat) (m : list (list Q)) : list Q := tab K (fun j => qsum (col j m)).

(** [m.T] for a matrix with [K] columns. *)
Definition transpose (K : nat) (m : list (list Q)) : list (list Q) := tab K (fun j => col j m).

(** matrix of ints as matrix of floats. *)
Definition zmat_to_q (m : list (list Z)) : list (list Q) := map (map inject_Z) m.

(** [np.round] / [np.rint]: round half to even. *)
Definition round_half_even (q : Q) : Z :=
  let f := Qfloor q in
  let r := q - inject_Z f in
  match Qcompare r (1 # 2) with
  | Lt => f
  | Gt => (f + 1)%Z
  | Eq => if Z.even f then f else (f + 1)%Z
  end.

(** [astype(int)]: truncation toward zero. *)
Definition truncate (q : Q) : Z :=
  if Qle_bool 0 q then Qfloor q else Qceiling q.

(** What any [argsort] (stable or not) guarantees: a permutation of the indices along which the values
    are non-decreasing. *)
Definition is_argsort (l : list Q) (p : list nat) : Prop :=
  Permutation p (seq 0 (length l)) /\
  StronglySorted (fun i j => nth i l 0 <= nth j l 0) p.

(** A sorting routine is admissible when it always returns an argsort. *)
Definition argsort_ok (srt : list Q -> list nat) : Prop := forall l, is_argsort l (srt l).

(** A concrete (stable) argsort: insertion sort of indices. *)
Fixpoint insert_idx (l : list Q) (i : nat) (p : list nat) : list nat :=
  match p with
  | [] => [i]
  | j :: t => if Qle_bool (nth i l 0) (nth j l 0) then i :: p else j :: insert_idx l i t
  end.
Definition argsort_ins (l : list Q) : list nat :=
  fold_right (insert_idx l) [] (seq 0 (length l)).

(** Python exceptions as values. *)
Inductive exn : Type :=
  | ValueError | TypeError | IndexError | KeyError | AssertionError | ZeroDivision
  | FileExistsError | FileNotFoundError | Diverges | OtherError.
Inductive res (A : Type) : Type := Ok (a : A) | Raise (e : exn).
Arguments Ok {A} a.
Arguments Raise {A} e.
Definition rbind {A B} (x : res A) (f : A -> res B) : res B :=
  match x with Ok a => f a | Raise e => Raise e end.
Fixpoint rmap {A B} (f : A -> res B) (l : list A) : res (list B) :=
  match l with
  | [] => Ok []
  | a :: t => rbind (f a) (fun b => rbind (rmap f t) (fun bs => Ok (b :: bs)))
  end.
Notation "'do' x <- e ; f" := (rbind e (fun x => f)) (at level 200, x name, e at level 100, f at level 200).

(** [l[i] = v] for a valid index (no effect otherwise). *)
Fixpoint upd {A} (l : list A) (i : nat) (v : A) : list A :=
  match l, i with
  | [], _ => []
  | _ :: t, O => v :: t
  | a :: t, S i' => a :: upd t i' v
  end.

(** largest element of a list of naturals (0 for the empty list). *)
Definition nmax (l : list nat) : nat := fold_right Nat.max 0%nat l.

(** [np.unique] of an array of non-negative ints: the sorted list of distinct values. *)
Definition unique (l : list nat) : list nat :=
  filter (fun v => mem v l) (seq 0 (S (nmax l))).

(** number of occurrences of a value. *)
Definition count (v : nat) (l : list nat) : nat := count_occ Nat.eq_dec l v.
