(** * Model of cleanlab/internal/util.py:251-271 and 387-399 *)
From Coq Require Import QArith List ZArith Bool Arith.
From Verif Require Import Base.
Import ListNotations.
Open Scope Q_scope.

(** lines 251-271 [estimate_pu_f1] for [s] and [prob_s_eq_1] of the same length; [None] is NaN (0/0 of numpy numbers);
    without examples the builtin sums are python integers and the division raises ZeroDivisionError *)
Definition estimate_pu_f1 (s : list nat) (prob_s_eq_1 : list Q) : res (option Q) :=
  let pred := map (fun p => Qle_bool (1 # 2) p) prob_s_eq_1 in
  let true_positives := length (filter (fun sp => (Nat.eqb (fst sp) 1 && snd sp)%bool) (combine s pred)) in
  let all_positives := nsum s in
  match s with
  | [] => Raise OtherError
  | _ =>
      let frac_positive := Qnat (length (filter (fun b => b) pred)) / Qnat (length s) in
      if Qeq_bool frac_positive 0 then Ok None
      else if Nat.eqb all_positives 0 then Ok None
      else let recall := Qnat true_positives / Qnat all_positives in
           Ok (Some (recall * recall / (2 * frac_positive)))
  end.

(** [astype] to a signed integer type of [bits] bits keeps the lowest bits (two's complement) *)
Definition wrap (bits : Z) (z : Z) : Z := ((z + 2 ^ (bits - 1)) mod 2 ^ bits - 2 ^ (bits - 1))%Z.
(** lines 387-399 [compress_int_array] of an array of integers *)
Definition compress_int_array (int_array : list Z) (num_possible_values : Z) : list Z :=
  if (num_possible_values <? 32767)%Z then map (wrap 16) int_array
  else if (num_possible_values <? 2147483647)%Z then map (wrap 32) int_array
  else int_array.
