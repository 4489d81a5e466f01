(** * Vocabulary of the span classification property *)
From Coq Require Import QArith List Bool Arith.
From Verif Require Import Base SpecToken.
Import ListNotations.
Open Scope Q_scope.

(** labels 0 (outside) and 1 (inside), one probability per token, no sentence empty *)
Definition span_data (labels : list (list nat)) (probs : list (list Q)) : Prop :=
  map (@length Q) probs = map (@length nat) labels /\ (forall s, In s labels -> s <> []) /\
  (forall s l, In s labels -> In l s -> (l < 2)%nat) /\ (forall s p, In s probs -> In p s -> 0 <= p <= 1).
(** both labels occur *)
Definition both_labels (labels : list (list nat)) : Prop :=
  exists ij ij', in_text (map (@length nat) labels) ij /\ in_text (map (@length nat) labels) ij' /\ entry 0%nat labels ij = 0%nat /\ entry 0%nat labels ij' = 1%nat.
(** the probability the model gives to the label of the token *)
Definition confidence (labels : list (list nat)) (probs : list (list Q)) (ij : nat * nat) : Q :=
  if Nat.eqb (entry 0%nat labels ij) 1 then entry 0 probs ij else 1 - entry 0 probs ij.
