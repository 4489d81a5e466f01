(** * What it means for integers to be the best rounding of given numbers (property C162) *)
From Coq Require Import QArith ZArith List.
From Verif Require Import Base.
Import ListNotations.
Open Scope Q_scope.

(** A cost of an error: a function on numbers whose increments over a unit never decrease (every convex function
    is one, such as the absolute value, the square, or the positive part). *)
Definition convex_cost (g : Q -> Q) : Prop :=
  (forall u v, u == v -> g u == g v) /\
  (forall u v, u <= v -> g (u + 1) - g u <= g (v + 1) - g v).

(** The total cost of replacing the numbers [xs] by the integers [zs]. *)
Fixpoint rounding_cost (g : Q -> Q) (xs : list Q) (zs : list Z) : Q :=
  match xs, zs with
  | x :: xs', z :: zs' => g (inject_Z z - x) + rounding_cost g xs' zs'
  | _, _ => 0
  end.

(** No integers with the same sum are cheaper, whatever the cost of an error. *)
Definition best_rounding (xs : list Q) (zs : list Z) : Prop :=
  length zs = length xs /\
  forall g ws, convex_cost g -> length ws = length xs -> zsum ws = zsum zs ->
    rounding_cost g xs zs <= rounding_cost g xs ws.
