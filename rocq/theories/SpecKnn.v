(** * Vocabulary for the neighbour-graph properties, independent of the model's helper functions *)
From Coq Require Import QArith Qreals Reals List Bool Arith Permutation Sorted.
From Verif Require Import Base ModelKnn.
Import ListNotations.
Open Scope Q_scope.

(** examples [i] and [j] have equal feature rows *)
Definition same_features (features : list (list Q)) (i j : nat) : Prop :=
  (i < length features)%nat /\ (j < length features)%nat /\
  Forall2 Qeq (nth i features []) (nth j features []).

(** [j] is an exact duplicate of [i] *)
Definition exact_dup (features : list (list Q)) (i j : nat) : Prop := i <> j /\ same_features features i j.

(** what the library routines used guarantee *)
Definition unique_ok (features : list (list Q)) (inv : list nat) : Prop :=
  length inv = length features /\
  forall i j, (i < length features)%nat -> (j < length features)%nat ->
    (nth i inv 0%nat = nth j inv 0%nat <-> same_features features i j).
Definition set_order_ok (ord : list nat -> list nat) : Prop :=
  forall l, NoDup (ord l) /\ forall u, In u (ord l) <-> In u l.
Definition env_ok (E : env) : Prop :=
  argsort_ok (bsort E) /\ (forall f, unique_ok f (unique_inverse E f)) /\ set_order_ok (set_order E).

(** equal values keep their order *)
Definition stable_sort (srt : list Q -> list nat) : Prop :=
  forall l a b, (a < b)%nat -> (b < length (srt l))%nat ->
    nth (nth a (srt l) 0%nat) l 0 == nth (nth b (srt l) 0%nat) l 0 ->
    (nth a (srt l) 0 < nth b (srt l) 0)%nat.

(** a well-formed graph: [N] rows of [k] neighbours, without self-references or repetitions *)
Definition graph_shape (N k : nat) (g : graph) : Prop :=
  length (fst g) = N /\ length (snd g) = N /\
  (forall i, (i < N)%nat -> length (nth i (fst g) []) = k /\ length (nth i (snd g) []) = k).
Definition simple_graph (N : nat) (g : graph) : Prop :=
  forall i, (i < N)%nat -> NoDup (nth i (snd g) []) /\ ~ In i (nth i (snd g) []).
Definition valid_indices (N : nat) (g : graph) : Prop :=
  forall i j, (i < N)%nat -> In j (nth i (snd g) []) -> (j < N)%nat.

(** the [p]-th neighbour of [i] and its distance *)
Definition nbr (g : graph) (i p : nat) : nat := nth p (nth i (snd g) []) 0%nat.
Definition dst (g : graph) (i p : nat) : Q := nth p (nth i (fst g) []) 0.

(** distances never decrease along the neighbour list and are not negative *)
Definition ordered_row (d : list Q) : Prop :=
  (forall x, In x d -> 0 <= x) /\ StronglySorted Qle d.

(** the graph has an edge from [i] to [j] of length below [radius] *)
Definition close_edge (k : nat) (g : graph) (radius : Q) (i j : nat) : Prop :=
  exists p, (p < k)%nat /\ nbr g i p = j /\ dst g i p < radius.

(** the first [n] elements satisfying a predicate, in order, of a list of (distance, index) pairs *)
Definition pairs (g : graph) (i : nat) : list (Q * nat) := combine (nth i (fst g) []) (nth i (snd g) []).

(** [m] is the median of the non-empty list [l] *)
Definition is_median (l : list Q) (m : Q) : Prop :=
  exists s, Permutation s l /\ StronglySorted Qle s /\
    ((exists h, length l = (2 * h + 1)%nat /\ m == nth h s 0) \/
     (exists h, length l = (2 * h + 2)%nat /\ 2 * m == nth h s 0 + nth (S h) s 0)).

(** the search returns, for [k] smaller than the number of examples, [k] distinct other examples for each *)
Definition backend_ok (B : backend) : Prop :=
  forall k m f, (0 < k < length f)%nat ->
    graph_shape (length f) k (B k m f) /\ simple_graph (length f) (B k m f) /\ valid_indices (length f) (B k m f).

(** A sort that orders equal values backwards; every guarantee of [argsort_ok] holds for it. *)
Fixpoint insert_after (l : list Q) (i : nat) (p : list nat) : list nat :=
  match p with
  | [] => [i]
  | j :: t => if Qltb (nth i l 0) (nth j l 0) then i :: p else j :: insert_after l i t
  end.
Definition argsort_unstable (l : list Q) : list nat :=
  fold_right (insert_after l) [] (seq 0 (length l)).

(** A concrete environment: stable (or unstable) insertion sort, inverse by first equal row. *)
Fixpoint row_eqb (a b : list Q) : bool :=
  match a, b with
  | [], [] => true
  | x :: a', y :: b' => Qeq_bool x y && row_eqb a' b'
  | _, _ => false
  end.
Definition first_equal (f : list (list Q)) (r : list Q) : nat := argmax_bool (map (row_eqb r) f).
Definition concrete_env (srt : list Q -> list nat) : env :=
  Env srt (fun f => map (first_equal f) f) (nodup Nat.eq_dec).

(** a metric is requested and differs from the one of the stored graph *)
Definition metric_conflict (m stat : option metric) : Prop :=
  exists a b, m = Some a /\ stat = Some b /\ a <> b.
