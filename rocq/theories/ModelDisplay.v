(** * Model of [display_issues] of token_classification/summary.py and of experimental/span_classification.py

    What is printed is a list of entries; the sentence text itself (get_sentence, color_sentence) is left out.  [labels], [pred_probs] and
    [class_names] are absent when empty, as in the code.  [best] is [.argmax()] of one entry of a sentence's predictions. *)
From Coq Require Import String QArith List ZArith Bool Arith.
From Verif Require Import Base ModelToken.
Import ListNotations.
Open Scope Q_scope.

(** a class, printed by its number or by its name *)
Inductive class_shown := ByIndex (k : nat) | ByName (s : string).
Record entry_shown := { at_token : nat * nat; word : string; given : option class_shown; predicted : option class_shown }.

Definition name_of (class_names : list string) (k : nat) : res class_shown :=
  match class_names with
  | [] => Ok (ByIndex k)
  | _ => match nth_error class_names k with Some s => Ok (ByName s) | None => Raise IndexError end
  end.
Definition given_if {A} (l : list A) : bool := match l with [] => false | _ => true end.

(** token_classification/summary.py:96-131: one issue, [None] when it is excluded *)
Definition show_issue {P} (best : P -> nat) (tokens : list (list string)) (labels : list (list nat)) (pred_probs : list (list P))
           (exclude : list (nat * nat)) (class_names : list string) (ij : nat * nat) : res (option entry_shown) :=
  do w <- token_at tokens ij ;
  do prediction <- (if given_if pred_probs then do p <- at2 pred_probs ij ; Ok (Some (best p)) else Ok None) ;
  do label <- (if given_if labels then do l <- at2 labels ij ; Ok (Some l) else Ok None) ;
  if (match label, prediction with Some l, Some p => excluded exclude l p | _, _ => false end) then Ok None
  else
    do p <- (match prediction with Some p => do s <- name_of class_names p ; Ok (Some s) | None => Ok None end) ;
    do l <- (match label with Some l => do s <- name_of class_names l ; Ok (Some s) | None => Ok None end) ;
    Ok (Some {| at_token := ij; word := w; given := l; predicted := p |}).

(** token_classification/summary.py:95-138: the loop; [shown] entries have been printed, the test against [top] comes after printing *)
Fixpoint display_loop {A B} (show : A -> res (option B)) (top : Z) (issues : list A) (shown : nat) : res (list B) :=
  match issues with
  | [] => Ok []
  | x :: t =>
      do s <- show x ;
      match s with
      | None => display_loop show top t shown
      | Some v => if Z.eqb (Z.of_nat (S shown)) top then Ok [v] else do r <- display_loop show top t (S shown) ; Ok (v :: r)
      end
  end.

(** token_classification/summary.py:13-136 [display_issues] for issues that are pairs *)
Definition display {P} (best : P -> nat) (issues : list (nat * nat)) (tokens : list (list string)) (labels : list (list nat)) (pred_probs : list (list P))
           (exclude : list (nat * nat)) (class_names : list string) (top : Z) : res (list entry_shown) :=
  match issues with
  | [] => Raise IndexError
  | _ => display_loop (show_issue best tokens labels pred_probs exclude class_names) (Z.min top (Z.of_nat (length issues))) issues 0
  end.
Definition token_display_issues := display argmax.
(** the same for issues that are sentence numbers: the sentences printed *)
Definition token_display_sentences (issues : list nat) (tokens : list (list string)) (top : Z) : res (list (list string)) :=
  match issues with
  | [] => Raise IndexError
  | _ => display_loop (fun i => match nth_error tokens i with Some s => Ok (Some s) | None => Raise IndexError end)
           (Z.min top (Z.of_nat (length issues))) issues 0
  end.
(** experimental/span_classification.py:65-86 [display_issues]: the span probabilities are handed over as they are, so an entry is a number, and
    [.argmax()] of a numpy number is 0 *)
Definition span_display_issues := display (fun _ : Q => 0%nat).
