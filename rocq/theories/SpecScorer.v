(** * Options of the multi-label scores *)
From Coq Require Import QArith String Ascii List Bool Arith.
From Verif Require Import Base ModelRank ModelDatalab ModelScorer.
Import ListNotations.
Open Scope Q_scope.

(** the same letter, capital or not; anything else must be equal *)
Definition same_letter (a b : ascii) : Prop :=
  a = b \/ exists n, (n < 26)%nat /\
    ((a = ascii_of_nat (65 + n) /\ b = ascii_of_nat (97 + n)) \/ (a = ascii_of_nat (97 + n) /\ b = ascii_of_nat (65 + n))).
Inductive same_word : string -> string -> Prop :=
| same_nil : same_word EmptyString EmptyString
| same_cons a b s t : same_letter a b -> same_word s t -> same_word (String a s) (String b t).
Definition score_name (b : base_scorer) : string :=
  match b with
  | Standard SelfConfidence => "self_confidence"
  | Standard NormalizedMargin => "normalized_margin"
  | Entropy => "confidence_weighted_entropy"
  end.
(** the dictionary asks for the moving average, by name or by function *)
Definition asks_ema (d : kwdict) : Prop :=
  lookup "method" d = Some (KStr "exponential_moving_average") \/ lookup "method" d = Some (KFun Ema).
(** [a] is the weight in the dictionary: its entry "alpha", or no weight *)
Definition weight (d : kwdict) (a : option Q) : Prop :=
  (lookup "alpha" d = None /\ a = None) \/ (lookup "alpha" d = Some KNone /\ a = None) \/ (exists q, lookup "alpha" d = Some (KNum q) /\ a = Some q).
(** no entry of a name that the functions use for themselves *)
Definition no_reserved (d : kwdict) : Prop := lookup "self" d = None /\ lookup "s" d = None.
