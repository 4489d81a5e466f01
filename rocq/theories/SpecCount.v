(** * Specification vocabulary for the counting / rounding properties (independent of the model) *)
From Coq Require Import QArith Qabs List ZArith Bool Arith.
From Verif Require Import Base.
Import ListNotations.
Open Scope Q_scope.

(** [z] is [q] rounded to the nearest integer, ties to even. *)
Definition rounds_to (q : Q) (z : Z) : Prop :=
  Qabs (q - inject_Z z) <= 1 # 2 /\ (Qabs (q - inject_Z z) == 1 # 2 -> Z.even z = true).

(** [zs] is an integer version of [xs] with the same (rounded) total, no entry moved by 1 or more. *)
Definition sum_preserving_rounding (xs : list Q) (zs : list Z) : Prop :=
  length zs = length xs /\
  rounds_to (qsum xs) (zsum zs) /\
  (forall i, (i < length xs)%nat -> Qabs (inject_Z (nth i zs 0%Z) - nth i xs 0) < 1).

(** A well-formed classification dataset: one row of [K] probabilities in [0,1] per example and one
    label below [K] per example.  (Rows need not sum to one: cleanlab does not require it.) *)
Record dataset (K : nat) (labels : list nat) (pp : list (list Q)) : Prop := {
  ds_len : length labels = length pp;
  ds_ne : labels <> [];
  ds_lab : forall l, In l labels -> (l < K)%nat;
  ds_row : forall r, In r pp -> length r = K;
  ds_prob : forall r x, In r pp -> In x r -> 0 <= x /\ x <= 1 }.

(** number of examples with given label [k]. *)
Fixpoint n_labelled (k : nat) (labels : list nat) : nat :=
  match labels with
  | [] => 0
  | l :: t => (if Nat.eqb l k then 1 else 0) + n_labelled k t
  end.

(** [a] is the average of the non-empty list [l]. *)
Definition is_average (l : list Q) (a : Q) : Prop := l <> [] /\ a * Qnat (length l) == qsum l.

(** the predicted probabilities of class [k] over the examples with given label [k] *)
Fixpoint own_probs (k : nat) (labels : list nat) (pp : list (list Q)) : list Q :=
  match labels, pp with
  | l :: ls, r :: rs => if Nat.eqb l k then nth k r 0 :: own_probs k ls rs else own_probs k ls rs
  | _, _ => []
  end.

(** The per-example rule documented in compute_confident_joint: the classes whose (tolerance-adjusted)
    threshold is reached. *)
Definition reaches (thr row : list Q) (j : nat) : Prop :=
  (j < length row)%nat /\ nth j thr 0 - (1 # 1000000) <= nth j row 0.

(** first index attaining the maximum *)
Definition most_likely (row : list Q) (j : nat) : Prop :=
  (j < length row)%nat /\
  (forall i, (i < length row)%nat -> nth i row 0 <= nth j row 0) /\
  (forall i, (i < j)%nat -> nth i row 0 < nth j row 0).

(** the class an example is confidently counted into *)
Definition counted_as (thr row : list Q) (j : nat) : Prop :=
  (reaches thr row j /\ forall i, reaches thr row i -> i = j) \/
  ((exists a b, a <> b /\ reaches thr row a /\ reaches thr row b) /\ most_likely row j).

(** "[P] holds for exactly [n] of the positions 0..len-1" *)
Definition holds_for (len : nat) (P : nat -> Prop) (n : nat) : Prop :=
  exists idx, NoDup idx /\ length idx = n /\ forall i, In i idx <-> (i < len)%nat /\ P i.

(** The for-loop given in the documentation of compute_confident_joint (docstring of
    cleanlab/count.py:539-552, described there as "100% accurate"): fold over the examples, adding one to
    one cell. *)
Definition bump (m : list (list Z)) (i j : nat) : list (list Z) :=
  map (fun ir => let '(i', r) := ir in
         map (fun jx => let '(j', x) := jx in
                if (Nat.eqb i' i && Nat.eqb j' j)%bool then (x + 1)%Z else x)
             (combine (seq 0 (length r)) r))
      (combine (seq 0 (length m)) m).
Definition documented_loop (labels : list nat) (pp : list (list Q)) (thr : list Q) (K : nat)
  : list (list Z) :=
  fold_left (fun m lr => let '(l, row) := lr in
               let bins := map (fun xt => Qle_bool (snd xt - (1 # 1000000)) (fst xt)) (combine row thr) in
               let num := length (filter (fun b => b) bins) in
               if Nat.eqb num 1 then bump m l (argmax_bool bins)
               else if Nat.ltb 1 num then bump m l (argmax row)
               else m)
            (combine labels pp) (repeat (repeat 0%Z K) K).
