(** * Vocabulary of the display property *)
From Coq Require Import String QArith List ZArith Bool Arith.
From Verif Require Import Base SpecToken ModelDisplay.
Import ListNotations.
Open Scope Q_scope.

(** every issue points at a token that has a label and predictions where those are given, and every class has a name where names are given *)
Record displayable {P} (best : P -> nat) (dP : P) (issues : list (nat * nat)) (tokens : list (list string)) (labels : list (list nat)) (pred_probs : list (list P))
       (class_names : list string) : Prop := {
  d_tokens : forall ij, In ij issues -> in_text (map (@length string) tokens) ij;
  d_labels : labels <> [] -> forall ij, In ij issues -> in_text (map (@length nat) labels) ij /\ (class_names <> [] -> (entry 0%nat labels ij < length class_names)%nat);
  d_preds : pred_probs <> [] -> forall ij, In ij issues ->
    in_text (map (@length P) pred_probs) ij /\ (class_names <> [] -> (best (entry dP pred_probs ij) < length class_names)%nat) }.
(** the issue is a swap the caller asked to leave out *)
Definition left_out {P} (best : P -> nat) (dP : P) (labels : list (list nat)) (pred_probs : list (list P)) (exclude : list (nat * nat)) (ij : nat * nat) : Prop :=
  labels <> [] /\ pred_probs <> [] /\ In (entry 0%nat labels ij, best (entry dP pred_probs ij)) exclude.
(** a class by name if there are names *)
Definition as_named (class_names : list string) (k : nat) : class_shown :=
  if Nat.eqb (length class_names) 0 then ByIndex k else ByName (nth k class_names EmptyString).
(** what should be printed for an issue *)
Definition correct_entry {P} (best : P -> nat) (dP : P) (tokens : list (list string)) (labels : list (list nat)) (pred_probs : list (list P))
           (class_names : list string) (ij : nat * nat) (e : entry_shown) : Prop :=
  at_token e = ij /\ word e = entry EmptyString tokens ij /\
  given e = (if Nat.eqb (length labels) 0 then None else Some (as_named class_names (entry 0%nat labels ij))) /\
  predicted e = (if Nat.eqb (length pred_probs) 0 then None else Some (as_named class_names (best (entry dP pred_probs ij)))).
(** [l] lists, in the same order, the members of [issues] satisfying [K] *)
Inductive those {A} (K : A -> Prop) : list A -> list A -> Prop :=
| those_nil : those K [] []
| those_in : forall a l m, K a -> those K l m -> those K (a :: l) (a :: m)
| those_out : forall a l m, ~ K a -> those K l m -> those K (a :: l) m.
