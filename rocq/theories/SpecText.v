(** * Vocabulary for the text helpers *)
From Coq Require Import List NArith Bool Arith.
From Verif Require Import Base ModelText.
Import ListNotations.

(** the pieces of a text with [w] between them *)
Fixpoint join (w : text) (pieces : list text) : text :=
  match pieces with [] => [] | [p] => p | p :: ps => p ++ w ++ join w ps end.
(** where the copies of [w] begin in [join w pieces], when the text begins at position [off] *)
Fixpoint joints (w : text) (off : nat) (pieces : list text) : list nat :=
  match pieces with
  | [] | [_] => []
  | p :: ps => (off + length p) :: joints w (off + length p + length w) ps
  end.

(** [w] stands at position [k] of [s] *)
Definition stands_at (w s : text) (k : nat) : Prop := exists a b, s = a ++ w ++ b /\ length a = k.
(** is the character at a position a word character *)
Definition word_at (word_char : N -> bool) (s : text) (k : nat) : bool :=
  match nth_error s k with Some c => word_char c | None => false end.
(** the characters before and after the [w] at position [k] make it a word of its own *)
Definition own_word (word_char : N -> bool) (w s : text) (k : nat) : Prop :=
  stands_at w s k /\
  (match k with O => false | S j => word_at word_char s j end) <> word_at word_char s k /\
  word_at word_char s (k + length w - 1) <> word_at word_char s (k + length w).

(** the words with a gap in front of each *)
Fixpoint lay (gaps words : list text) : text :=
  match gaps, words with g :: gaps, w :: words => g ++ w ++ lay gaps words | _, _ => [] end.

(** ** process_token: the token read from left to right *)
Definition begins (k s : text) : Prop := exists r, s = k ++ r.
Inductive rewritten (rules : list (text * text)) : text -> text -> Prop :=
  | rw_end : rewritten rules [] []
  | rw_copy c r o : (forall kv, In kv rules -> ~ begins (fst kv) (c :: r)) -> rewritten rules r o -> rewritten rules (c :: r) (c :: o)
  | rw_rule k v0 v before after before' after' r o :
      rules = before ++ (k, v0) :: after -> (forall kv, In kv before -> ~ begins (fst kv) (k ++ r)) ->
      rules = before' ++ (k, v) :: after' -> (forall kv, In kv after' -> fst kv <> k) ->
      rewritten rules r o -> rewritten rules (k ++ r) (v ++ o).
