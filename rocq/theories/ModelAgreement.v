(** * Model of quality_method="agreement" (cleanlab/multiannotator.py)

    The label counts of an example come from [value_counts], whose result depends on the type of the array
    (internal/util.py:154-165).  A DataFrame is converted to floats (multiannotator.py:161-163) and an array with
    missing entries is one of floats; only an array without missing entries can hold integers. *)
From Coq Require Import QArith Qabs List ZArith Bool Arith.
From Verif Require Import Base ModelUtil ModelCount ModelRank ModelMultiannotator.
Import ListNotations.
Open Scope Q_scope.

Inductive label_type := Integers | Floats.

(** cleanlab/internal/util.py:113-168 [value_counts] with [num_classes=K].  Line 164: labels that are not
    integers have their counts written to the first positions. *)
Definition value_counts_as (ty : label_type) (x : list nat) (K : nat) : res (list nat) :=
  match ty with
  | Integers => value_counts x K
  | Floats =>
      let counts := map (fun v => count v x) (unique x) in
      if Nat.ltb K (length counts) then Raise ValueError
      else Ok (counts ++ repeat 0%nat (K - length counts))
  end.

(** multiannotator.py:1508-1514 *)
Definition agreement_posterior (ty : label_type) (t : table) (K : nat) : res (list (list Q)) :=
  rmap (fun r =>
    do c <- value_counts_as ty (given r) K ;
    Ok (map (fun n => Qnat n / Qnat (num_annotations r)) c)) t.

Record agreement_info := mk_agreement {
  a_label : list nat; a_quality : list Q; a_post : list (list Q)
}.
(** multiannotator.py:1093-1178 [_get_consensus_stats]; the quality is the agreement (lines 1686-1687). *)
Definition agreement_stats (ty : label_type) (t : table) (K : nat) (consensus : list nat) : res agreement_info :=
  do p <- agreement_posterior ty t K ;
  Ok (mk_agreement consensus (agreement_with_consensus t consensus) p).

(** multiannotator.py:46-348 [get_label_quality_multiannotator] with quality_method="agreement" for one consensus
    method (no temperature scaling). *)
Definition label_quality_agreement (rnd : nat -> nat) (ty : label_type) (t : table) (M K : nat) (prior : list (list Q))
           (method : consensus_method) : res agreement_info :=
  do _ <- assert_valid_multiannotator t M (Some (length prior, K)) false ;
  do mv <- get_majority_vote_label rnd t M (Some prior) K false ;
  do info <- agreement_stats ty t K mv ;
  match method with
  | MajorityVote => Ok info
  | BestQuality => agreement_stats ty t K (best_quality_label (a_post info) mv)
  end.
