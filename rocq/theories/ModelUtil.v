(** * Model of cleanlab/internal/util.py and cleanlab/internal/constants.py (numeric helpers) *)
From Coq Require Import QArith Qabs Qround List ZArith Bool Arith.
From Verif Require Import Base.
Import ListNotations.
Open Scope Q_scope.

(** cleanlab/internal/constants.py: FLOATING_POINT_COMPARISON, CLIPPING_LOWER_BOUND,
    CONFIDENT_THRESHOLDS_LOWER_BOUND, TINY_VALUE, EPSILON. *)
Definition FLOATING_POINT_COMPARISON : Q := 1 # 1000000.
Definition CLIPPING_LOWER_BOUND : Q := 1 # 1000000.
Definition CONFIDENT_THRESHOLDS_LOWER_BOUND : Q := 2 # 1000000.
Definition TINY_VALUE : Q := 1 # (10 ^ 100).
Definition EPSILON : Q := 1 # 1000000.

(** cleanlab/internal/util.py:113-168 [value_counts] with [num_classes=K] on an array of non-negative
    int labels.  Simplification: an empty int array raises (np.max of an empty array), as numpy does. *)
Definition value_counts (x : list nat) (K : nat) : res (list nat) :=
  let unique_classes := unique x in
  let counts := map (fun v => count v x) unique_classes in
  if Nat.eqb K (length unique_classes) then Ok counts
  else match unique_classes with
       | [] => Raise ValueError
       | _ => if Nat.leb K (nmax unique_classes) then Raise ValueError
              else Ok (fold_left (fun acc vc => upd acc (fst vc) (snd vc))
                                 (combine unique_classes counts) (tab K (fun _ => 0%nat)))
       end.

(** cleanlab/internal/util.py:180-191 [get_missing_classes] (with [num_classes]). *)
Definition get_missing_classes (labels : list nat) (K : nat) : list nat :=
  filter (fun k => negb (mem k (unique labels))) (seq 0 K).

(** cleanlab/internal/util.py:194-226 [round_preserving_sum].
    One unfolding of the while loop per unit of fuel; [Raise Diverges] when the fuel is exhausted.
    [srt] is numpy's argsort.  [order[::-increment]] is [rev order] for increment 1 and [order] for -1. *)
Definition add_at (increment : Z) (ints : list Z) (indices : list nat) : list Z :=
  fold_left (fun acc i => upd acc i (nth i acc 0%Z + increment)%Z) indices ints.

Fixpoint rps_loop (srt : list Q -> list nat) (fuel : nat) (floats : list Q) (orig_sum : Z)
         (ints : list Z) : res (list Z) :=
  let int_sum := zsum ints in
  if Qltb FLOATING_POINT_COMPARISON (Qabs (inject_Z (int_sum - orig_sum))) then
    match fuel with
    | O => Raise Diverges
    | S fuel' =>
        let diff := (orig_sum - int_sum)%Z in
        let increment := if Z.ltb diff 0 then (-1)%Z else 1%Z in
        let changes := Nat.min (Z.to_nat (Z.abs diff)) (length floats) in
        let order := srt (map (fun fi => fst fi - inject_Z (snd fi)) (combine floats ints)) in
        let indices := firstn changes (if Z.ltb diff 0 then order else rev order) in
        rps_loop srt fuel' floats orig_sum (add_at increment ints indices)
    end
  else Ok ints.

Definition round_preserving_sum_fuel (srt : list Q -> list nat) (fuel : nat) (floats : list Q)
  : res (list Z) :=
  rps_loop srt fuel floats (round_half_even (qsum floats)) (map round_half_even floats).

(** The loop with a generous amount of fuel (one more than the number of entries). *)
Definition round_preserving_sum (srt : list Q -> list nat) (floats : list Q) : res (list Z) :=
  round_preserving_sum_fuel srt (S (length floats)) floats.

(** cleanlab/internal/util.py:229-248 [round_preserving_row_totals]. *)
Definition round_preserving_row_totals (srt : list Q -> list nat) (m : list (list Q))
  : res (list (list Z)) := rmap (round_preserving_sum srt) m.

(** cleanlab/internal/util.py:15-46 [remove_noise_from_class]. *)
Definition remove_noise_from_class (m : list (list Q)) (cwn : nat) : list (list Q) :=
  let K := length m in
  let x := tab K (fun i => tab K (fun j =>
             if (Nat.eqb i cwn && negb (Nat.eqb j cwn))%bool then 0 else mget m i j)) in
  tab K (fun i => tab K (fun j =>
    if Nat.eqb i j then 1 - (qsum (col j x) - mget x j j) else mget x i j)).

(** cleanlab/internal/util.py:49-75 [clip_noise_rates] (K x K matrix). *)
Definition clip_noise_rates (m : list (list Q)) : list (list Q) :=
  let K := length m in
  let x := tab K (fun i => tab K (fun j =>
             if Nat.eqb i j then mget m i j else clip 0 (9999 # 10000) (mget m i j))) in
  tab K (fun i => tab K (fun j => mget x i j / clip_lo TINY_VALUE (qsum (col j x)))).

(** cleanlab/internal/util.py:78-110 [clip_values] on a 1-d array with an explicit [new_sum]. *)
Definition clip_values (x : list Q) (low high new_sum : Q) : list Q :=
  let y := map (clip low high) x in
  map (fun v => v * new_sum / clip_lo TINY_VALUE (qsum y)) y.

(** cleanlab/internal/validation.py:13-112 [assert_valid_inputs] for single-label data with
    [X=None] and an array [labels] of non-negative ints ([pred_probs] is n x K).  Dtype/ndim checks are
    not modelled. *)
Definition assert_valid_inputs (labels : list nat) (pred_probs : list (list Q)) (K : nat)
           (allow_one_class : bool) : res unit :=
  match labels with
  | [] => Raise ValueError                                     (* min of an empty array *)
  | _ =>
    if (negb allow_one_class && Nat.ltb (length (unique labels)) 2)%bool then Raise ValueError
    else if negb (Nat.eqb (length pred_probs) (length labels)) then Raise ValueError
    else if Nat.ltb K (nmax labels + 1) then Raise ValueError
    else if (Qltb (qminimum (concat pred_probs)) (0 - FLOATING_POINT_COMPARISON) ||
             Qltb (1 + FLOATING_POINT_COMPARISON) (qmaximum (concat pred_probs)))%bool
    then Raise ValueError
    else Ok tt
  end.
