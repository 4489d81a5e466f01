(** * Model of generate_noise_matrix_from_trace (cleanlab/benchmarking/noise_generation.py:175-337) *)
From Coq Require Import QArith Qabs Qround List ZArith Bool Arith.
From Verif Require Import Base ModelUtil ModelNoise.
Import ListNotations.
Open Scope Q_scope.

(** The random draws.  [z] numbers the tries (noise_generation.py:283), [j] the columns, [n] is the dimension of
    a Dirichlet sample; [rand_rows z j cands n] is np.random.choice(cands, n, replace=False). *)
Record draws := {
  diag_dir : nat -> nat -> list Q;
  diag_rs : nat -> nat -> Q;
  balls_dir : nat -> nat -> list Q;
  balls_rs : nat -> nat -> Q;
  rates_dir : nat -> nat -> nat -> list Q;
  rates_rs : nat -> nat -> nat -> Q;
  rand_rows : nat -> nat -> list nat -> nat -> list nat;
  coin : bool }.

(** the keyword arguments *)
Record trace_options := {
  max_trace_prob : Q; min_trace_prob : Q; max_noise_rate : Q; min_noise_rate : Q;
  want_valid : bool; prior : option (list Q); frac_zero_noise_rates : Q; max_iter : nat }.

(** noise_matrix[i][j] = v *)
Definition set_cell (m : list (list Q)) (i j : nat) (v : Q) : list (list Q) := upd m i (upd (nth i m []) j v).

(** noise_generation.py:315-332: the columns that are not already [1 on the diagonal], each with its number of
    zero noise rates (the reversed stack popped from its end hands them out in order).  [noise_rates_col.pop()]
    takes the rates from the end. *)
Fixpoint fill_columns (fuel : nat) (K : nat) (o : trace_options) (d : draws) (z : nat) (diag : list Q)
         (cols : list (nat * Z)) (m : list (list Q)) : res (list (list Q)) :=
  match cols with
  | [] => Ok m
  | (j, balls) :: rest =>
      let num_noise := Z.to_nat (Z.of_nat K - 1 - balls) in
      do rates <- rand_probabilities fuel num_noise (1 - nth j diag 0) (max_noise_rate o) (min_noise_rate o)
                    (rates_dir d z j num_noise) (rates_rs d z j) ;
      let rows := rand_rows d z j (filter (fun i => negb (Nat.eqb i j)) (seq 0 K)) num_noise in
      fill_columns fuel K o d z diag rest
        (fold_left (fun m rv => set_cell m (fst rv) j (snd rv)) (combine rows (rev rates)) m)
  end.

(** noise_generation.py:284-332: one try (K > 2). *)
Definition one_try (fuel K : nat) (trace : Q) (o : trace_options) (d : draws) (z : nat) : res (list (list Q)) :=
  do diag <- rand_probabilities fuel K trace (max_trace_prob o) (min_trace_prob o) (diag_dir d z K) (diag_rs d z) ;
  let noisy := filter (fun j => negb (Qeq_bool (nth j diag 0) 1)) (seq 0 K) in
  let num_col_with_noise := length noisy in
  let zeros := (truncate (Qnat (K * (K - 1)) * frac_zero_noise_rates o)
                - Z.of_nat ((K - num_col_with_noise) * (K - 1)))%Z in
  do balls <- distribute_balls fuel (Z.to_nat (Z.max zeros 0)) num_col_with_noise (Some (K - 2)%nat) (Some 0%nat)
                (balls_dir d z num_col_with_noise) (balls_rs d z) ;
  fill_columns fuel K o d z diag (combine noisy balls)
    (tab K (fun i => tab K (fun j => if Nat.eqb i j then nth i diag 0 else 0))).

(** noise_generation.py:283-337: at most [max_iter] tries. *)
Fixpoint tries (fuel K : nat) (trace : Q) (o : trace_options) (d : draws) (left z : nat)
  : res (option (list (list Q))) :=
  match left with
  | O => Ok None
  | S left' =>
      do m <- one_try fuel K trace o d z ;
      if (negb (want_valid o) || noise_matrix_is_valid m (match prior o with Some py => py | None => [] end))%bool
      then Ok (Some m)
      else tries fuel K trace o d left' (S z)
  end.

(** noise_generation.py:242-337 *)
Definition generate_noise_matrix_from_trace (fuel K : nat) (trace : Q) (o : trace_options) (d : draws)
  : res (option (list (list Q))) :=
  if (want_valid o && Qle_bool trace 1)%bool then Raise ValueError
  else if (want_valid o && match prior o with None => true | Some _ => false end && Nat.ltb 2 K)%bool
  then Raise ValueError
  else if Nat.leb K 1 then Raise ValueError
  else if Nat.ltb (max_iter o) 1 then Ok None
  else if Nat.eqb K 2 then
    if Qle_bool (1 # 2) (frac_zero_noise_rates o)
    then Ok (Some (if coin d then [[1; 1 - (trace - 1)]; [0; trace - 1]]
                   else [[trace - 1; 0]; [1 - (trace - 1); 1]]))
    else
      do diag <- rand_probabilities fuel 2 trace 1 0 (diag_dir d 0%nat 2%nat) (diag_rs d 0%nat) ;
      Ok (Some [[nth 0 diag 0; 1 - nth 1 diag 0]; [1 - nth 0 diag 0; nth 1 diag 0]])
  else tries fuel K trace o d (max_iter o) 0.
