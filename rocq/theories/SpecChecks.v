(** * Vocabulary for the properties of the per-dataset checks *)
From Coq Require Import QArith List Bool Arith ZArith Permutation.
From Verif Require Import Base.
Import ListNotations.
Open Scope Q_scope.

(** fraction of the examples with label [c] *)
Definition fraction (c : nat) (labels : list nat) : Q :=
  Qnat (length (filter (Nat.eqb c) labels)) / Qnat (length labels).

(** [r] is the smallest of the rarest classes among the ids [0 .. m - 1] *)
Definition rarest_class (labels : list nat) (m r : nat) : Prop :=
  (r < m)%nat /\ (forall c, (c < m)%nat -> fraction r labels <= fraction c labels) /\
  (forall c, (c < r)%nat -> fraction r labels < fraction c labels).

(** number of present cells of a row *)
Definition present {V} (r : list (option V)) : nat :=
  length (filter (fun c => match c with Some _ => true | None => false end) r).

(** the rows whose missing pattern is [p], and the patterns with something missing *)
Definition rows_with (p : list bool) (tracker : list (list bool)) : list nat :=
  filter (fun i => if list_eq_dec bool_dec (nth i tracker []) p then true else false) (seq 0 (length tracker)).
Definition nully (r : list bool) : Prop := In true r.

(** the values are all integers of an interval with at least two elements *)
Definition consecutive_run (col : list Z) : Prop :=
  exists a b : Z, (a < b)%Z /\ forall z, In z col <-> (a <= z <= b)%Z.

(** ** Underperforming group *)
(** the given-label probability of example [i] *)
Definition conf (labels : list nat) (pred_probs : list (list Q)) (i : nat) : Q :=
  nth (nth i labels 0%nat) (nth i pred_probs []) 0.
Definition members (ids : list Z) (P : Z -> bool) : list nat :=
  filter (fun i => P (nth i ids 0%Z)) (seq 0 (length ids)).
Definition mean_conf (labels : list nat) (pred_probs : list (list Q)) (E : list nat) : Q :=
  qsum (map (conf labels pred_probs) E) / Qnat (length E).
(** mean over the examples of one cluster *)
Definition cluster_conf ids labels pp (c : Z) : Q := mean_conf labels pp (members ids (Z.eqb c)).
(** a cluster that is not noise and has at least [m] examples *)
Definition kept (m : nat) (ids : list Z) (c : Z) : Prop :=
  c <> (-1)%Z /\ In c ids /\ (m <= length (members ids (Z.eqb c)))%nat.
Definition keptb (m : nat) (ids : list Z) (c : Z) : bool :=
  negb (Z.eqb c (-1)) && Nat.leb m (length (members ids (Z.eqb c))) .
(** mean over the examples of all kept clusters *)
Definition overall_conf (m : nat) ids labels pp : Q := mean_conf labels pp (members ids (keptb m ids)).
(** [set(l)] is visited in some order *)
Definition visits_all (so : list Z -> list Z) : Prop :=
  forall l, NoDup (so l) /\ forall c, In c (so l) <-> In c l.
Definition probabilities (n : nat) (labels : list nat) (pp : list (list Q)) : Prop :=
  length labels = n /\ length pp = n /\
  forall i, (i < n)%nat -> 0 <= conf labels pp i <= 1.
Definition nodup_order (l : list Z) : list Z := nodup Z.eq_dec l.
Definition rev_order (l : list Z) : list Z := rev (nodup Z.eq_dec l).

(** ** Data valuation *)
Definition agree (labels : list nat) (i a : nat) : Q :=
  if Nat.eqb (nth i labels 0%nat) (nth a labels 0%nat) then 1 else 0.
(** every example has at least [k] valid neighbours, the first [k] of them different *)
Definition neighbor_lists (n k : nat) (nb : list (list nat)) : Prop :=
  length nb = n /\
  forall a, (a < n)%nat -> (k <= length (nth a nb []))%nat /\ NoDup (firstn k (nth a nb [])) /\
    (forall j, In j (nth a nb []) -> (j < n)%nat).
(** the examples that have [i] among their [k] nearest neighbours *)
Definition admirers (k : nat) (nb : list (list nat)) (i : nat) : list nat :=
  filter (fun a => existsb (Nat.eqb i) (firstn k (nth a nb []))) (seq 0 (length nb)).
Definition kth_neighbor (k : nat) (nb : list (list nat)) (a : nat) : nat := nth (k - 1) (nth a nb []) 0%nat.

(** ** Label check from features *)
Definition distribution (row : list Q) : Prop := qsum row == 1 /\ forall x, In x row -> 0 <= x <= 1.
(** number of the examples of [E] with label [c] *)
Definition votes (labels : list nat) (E : list nat) (c : nat) : nat :=
  length (filter (fun j => Nat.eqb (nth j labels 0%nat) c) E).
