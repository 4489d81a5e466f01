(** * Specification of C150, without reference to how the model computes *)
From Coq Require Import String QArith List ZArith Bool Arith.
From Verif Require Import Base ModelChecks ModelGroups.
Import ListNotations.
Open Scope nat_scope.

(** a graph that stores the same number (at least one) of neighbours for every example *)
Definition regular (g : list (list (nat * Q))) : Prop :=
  g <> [] /\ exists k, 1 <= k /\ forall row, In row g -> length row = k.
(** the first stored neighbour of every example and its distance *)
Definition first_neighbours (g : list (list (nat * Q))) : list nat := map (fun row => fst (hd (0, 0%Q) row)) g.
Definition first_distances (g : list (list (nat * Q))) : list Q := map (fun row => snd (hd (0, 0%Q) row)) g.
(** the same statistics of the clusters, wherever these come from *)
Definition same_statistics {V} (a b : @clustering V) : Prop :=
  n_clusters a = n_clusters b /\ all_ids a = all_ids b /\ underperforming_id a = underperforming_id b.
