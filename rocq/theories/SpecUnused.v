(** * Vocabulary for classes that do not occur among the labels *)
From Coq Require Import QArith List Bool Arith.
From Verif Require Import Base SpecCount SpecFilter.
Import ListNotations.
Open Scope Q_scope.

(** one more column: the new class (the last one) gets probability [nth e qs] on example [e] *)
Definition with_class (pp : list (list Q)) (qs : list Q) : list (list Q) :=
  map (fun rq => fst rq ++ [snd rq]) (combine pp qs).
(** probabilities that are at most those of the given labels *)
Definition below_label (labels : list nat) (pp : list (list Q)) (qs : list Q) : Prop :=
  length qs = length labels /\
  forall e, (e < length labels)%nat -> 0 <= nth e qs 0 /\ nth e qs 0 <= prob_of pp e (label_of labels e).
