(** * Vocabulary for the multi-annotator properties (independent of the model) *)
From Coq Require Import QArith List Bool Arith Permutation.
From Verif Require Import Base SpecCount.
Import ListNotations.
Open Scope Q_scope.

(** A row of an annotation table: the entry of every annotator, [None] = not labelled. *)
Notation row := (list (option nat)).
Definition entry_dec : forall a b : option nat, {a = b} + {a <> b}.
Proof. decide equality. apply Nat.eq_dec. Defined.

(** number of annotators giving label [k] to the example; to all the examples *)
Definition votes (r : row) (k : nat) : nat := count_occ entry_dec r (Some k).
Definition total_votes (t : list row) (k : nat) : nat := nsum (map (fun r => votes r k) t).

(** [k] is a most frequent label, the only most frequent label of an example *)
Definition plurality (r : row) (k : nat) : Prop :=
  (1 <= votes r k)%nat /\ forall k', (votes r k' <= votes r k)%nat.
Definition clear_winner (r : row) (k : nat) : Prop :=
  (1 <= votes r k)%nat /\ forall k', k' <> k -> (votes r k' < votes r k)%nat.

(** A table with [M] annotators, at least one label per example and classes below [K]. *)
Record annotations (M K : nat) (t : list row) : Prop := {
  an_width : forall r, In r t -> length r = M;
  an_some : forall r, In r t -> exists k, In (Some k) r;
  an_class : forall r k, In r t -> In (Some k) r -> (k < K)%nat }.
(** every annotator labelled something, some example has several labels *)
Definition every_annotator_used (M : nat) (t : list row) : Prop :=
  forall j, (j < M)%nat -> exists r k, In r t /\ nth j r None = Some k.
Definition annotators_of (r : row) (j : nat) : Prop := exists k, nth j r None = Some k.
Definition has_overlap (t : list row) : Prop :=
  exists r i j, In r t /\ i <> j /\ annotators_of r i /\ annotators_of r j.

(** probability matrices *)
Definition distribution (K : nat) (row : list Q) : Prop :=
  length row = K /\ (forall x, In x row -> 0 <= x) /\ qsum row == 1.
Definition distributions (N K : nat) (p : list (list Q)) : Prop :=
  length p = N /\ forall row, In row p -> distribution K row.

(** Reliability of annotator [j]: over the examples with a clear winner which they labelled, the fraction
    on which they gave the winning label. *)
Definition winner (K : nat) (r : row) : option nat :=
  find (fun k => (Nat.ltb 0 (votes r k) &&
                  forallb (fun k' => Nat.eqb k' k || Nat.ltb (votes r k') (votes r k)) (seq 0 K))%bool) (seq 0 K).
Fixpoint seen (K : nat) (t : list row) (j : nat) : list Q :=
  match t with
  | [] => []
  | r :: t' =>
    match winner K r, nth j r None with
    | Some k, Some l => (if Nat.eqb l k then 1 else 0) :: seen K t' j
    | _, _ => seen K t' j
    end
  end.
(** [rel] gives the reliability of each annotator: the average of what is [seen]; annotators of whom
    nothing is seen get the average reliability of the others. *)
Definition reliabilities (K M : nat) (t : list row) (rel : nat -> Q) : Prop :=
  forall j, (j < M)%nat ->
    (seen K t j <> [] -> is_average (seen K t j) (rel j)) /\
    (seen K t j = [] -> is_average (map rel (filter (fun i => negb (Nat.eqb (length (seen K t i)) 0)) (seq 0 M))) (rel j)).
(** average reliability of the annotators who gave label [k] *)
Definition supporters (r : row) (k : nat) : list nat :=
  filter (fun j => match nth j r None with Some l => Nat.eqb l k | None => false end) (seq 0 (length r)).
Definition support (rel : nat -> Q) (r : row) (k : nat) (s : Q) : Prop := is_average (map rel (supporters r k)) s.

(** the number of classes: the width of the predicted probabilities, the largest label + 1 without them *)
Definition labels_in (t : list row) : list nat :=
  flat_map (fun r => flat_map (fun o => match o with Some k => [k] | None => [] end) r) t.
Definition num_classes (t : list row) (pp : option (list (list Q))) (Kpp : nat) : nat :=
  match pp with None => (nmax (labels_in t) + 1)%nat | Some _ => Kpp end.

(** reordering the annotators by a permutation of column numbers *)
Definition reorder (p : list nat) (r : row) : row := map (fun j => nth j r None) p.

(** examples labelled by [j]; those among them where [j] agrees with the consensus *)
Definition n_labelled (t : list row) (j : nat) : nat :=
  length (filter (fun r => match nth j r None with Some _ => true | None => false end) t).
Definition n_agree (t : list row) (c : list nat) (j : nat) : nat :=
  length (filter (fun rc => if entry_dec (nth j (fst rc) None) (Some (snd rc)) then true else false) (combine t c)).
(** examples to which annotator [j] gave the label [k]; those among them with consensus label [k] *)
Definition n_gave (t : list row) (j k : nat) : nat :=
  length (filter (fun r => if entry_dec (nth j r None) (Some k) then true else false) t).
Definition n_right (t : list row) (c : list nat) (j k : nat) : nat :=
  length (filter (fun rc => if entry_dec (nth j (fst rc) None) (Some k) then Nat.eqb (snd rc) k else false) (combine t c)).
(** consensus qualities of the examples to which [j] gave [k] *)
Fixpoint qualities_given (t : list row) (q : list Q) (j k : nat) : list Q :=
  match t, q with
  | r :: t', x :: q' => if entry_dec (nth j r None) (Some k) then x :: qualities_given t' q' j k else qualities_given t' q' j k
  | _, _ => []
  end.
(** equality of probability matrices, entry by entry *)
Definition same_rows (a b : list (list Q)) : Prop := Forall2 (Forall2 Qeq) a b.
