(** * Specification vocabulary for the batched functions (independent of the model) *)
From Coq Require Import QArith List ZArith Bool Arith.
From Verif Require Import Base SpecCount.
Import ListNotations.
Open Scope Q_scope.

(** [bs] cuts the dataset into consecutive non-empty batches *)
Definition is_split (labels : list nat) (pp : list (list Q)) (bs : list (list nat * list (list Q))) : Prop :=
  concat (map fst bs) = labels /\ concat (map snd bs) = pp /\
  forall b, In b bs -> length (fst b) = length (snd b) /\ fst b <> [].

(** in every batch, the mean self-confidence of every class present is at least 2e-6 *)
Definition means_ok (bs : list (list nat * list (list Q))) : Prop :=
  forall b k a, In b bs -> In k (fst b) -> is_average (own_probs k (fst b) (snd b)) a -> 2 # 1000000 <= a.

(** total over the batches of (number of examples of class [k]) * max(mean self-confidence, 2e-6) *)
Fixpoint floored_total (k : nat) (bs : list (list nat * list (list Q))) : Q :=
  match bs with
  | [] => 0
  | b :: t =>
      (match n_labelled k (fst b) with
       | O => 0
       | n => Qnat n * qmax (qsum (own_probs k (fst b) (snd b)) / Qnat n) (2 # 1000000)
       end) + floored_total k t
  end.

(** a sort that only looks at the values of the numbers *)
Definition respects_eq (srt : list Q -> list nat) : Prop := forall a b, Forall2 Qeq a b -> srt a = srt b.

(** every given label has predicted probability at least 2e-6 *)
Definition own_prob_floor (labels : list nat) (pp : list (list Q)) : Prop :=
  forall e, (e < length labels)%nat -> 2 # 1000000 <= nth (nth e labels 0%nat) (nth e pp []) 0.
