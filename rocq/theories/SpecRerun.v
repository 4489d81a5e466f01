(** * Vocabulary: repeating checks *)
From Coq Require Import QArith List Bool Arith.
From Verif Require Import Base ModelKnn ModelGraph.
Import ListNotations.
Open Scope nat_scope.

(** what a check does when the graph [G] is stored: it works on it (unless it is given clusters), or fails *)
Definition outcome_on (rest : check -> args -> option (graph * nat) -> bool) (G : graph * nat) (ca : check * args)
  : res (option (graph * nat)) :=
  let used := match fst ca with Underperforming => if a_cluster_ids (snd ca) then None else Some G | _ => Some G end in
  if rest (fst ca) (snd ca) used then Ok used else Raise OtherError.
(** no check asks for more neighbours than [k] *)
Definition at_most (k : nat) (cs : list (check * args)) : Prop := forall c a, In (c, a) cs -> a_k a <= k.
(** the checks done [n] times over *)
Fixpoint again {A} (n : nat) (cs : list A) : list A := match n with O => [] | S n => cs ++ again n cs end.
