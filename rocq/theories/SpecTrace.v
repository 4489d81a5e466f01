(** * Specification vocabulary for noise matrices (independent of the model, except that [draws_ok] names the random draws).
    Entry (i, j) of a noise matrix is the probability of label [i] given true class [j]. *)
From Coq Require Import QArith List ZArith Bool Arith.
From Verif Require Import Base ModelTrace SpecNoise.
Import ListNotations.
Open Scope Q_scope.

Definition square (K : nat) (m : list (list Q)) : Prop := length m = K /\ forall r, In r m -> length r = K.
Definition column_sum (K : nat) (m : list (list Q)) (j : nat) : Q := qsum (map (fun i => mget m i j) (seq 0 K)).
Definition trace_of (K : nat) (m : list (list Q)) : Q := qsum (map (fun i => mget m i i) (seq 0 K)).
Definition columns_sum_to_one (K : nat) (m : list (list Q)) : Prop := forall j, (j < K)%nat -> column_sum K m j == 1.
(** overall probability of label [i] when the true classes follow [py] *)
Definition label_rate (K : nat) (m : list (list Q)) (py : list Q) (i : nat) : Q :=
  qsum (map (fun j => mget m i j * nth j py 0) (seq 0 K)).
(** number of zero entries off the diagonal in column [j], and altogether *)
Definition zeros_in_column (K : nat) (m : list (list Q)) (j : nat) : nat :=
  length (filter (fun i => negb (Nat.eqb i j) && Qeq_bool (mget m i j) 0)%bool (seq 0 K)).
Definition zero_rates (K : nat) (m : list (list Q)) : nat := nsum (map (zeros_in_column K m) (seq 0 K)).
(** number of classes with some noise *)
Definition noisy_columns (K : nat) (m : list (list Q)) : nat :=
  length (filter (fun j => negb (Qeq_bool (mget m j j) 1)) (seq 0 K)).

(** what the random number generator delivers *)
Definition draws_ok (d : draws) : Prop :=
  (forall z n, (1 <= n)%nat -> prob_vector n (diag_dir d z n)) /\
  (forall z, unit_stream (diag_rs d z)) /\
  (forall z n, (1 <= n)%nat -> prob_vector n (balls_dir d z n)) /\
  (forall z, unit_stream (balls_rs d z)) /\
  (forall z j n, (1 <= n)%nat -> prob_vector n (rates_dir d z j n)) /\
  (forall z j, unit_stream (rates_rs d z j)) /\
  (forall z, samples (rand_rows d z)).

(** a matrix as requested: columns are distributions, the diagonal has the requested total and range, the noise
    rates are in range, and at least the requested share of them is zero (every noisy class keeps one) *)
Definition as_requested (K : nat) (trace : Q) (o : trace_options) (m : list (list Q)) : Prop :=
  square K m /\ columns_sum_to_one K m /\ trace_of K m == trace /\
  (forall j, (j < K)%nat ->
     0 <= mget m j j /\ min_trace_prob o - (1 # 1000000) <= mget m j j /\ mget m j j <= max_trace_prob o + (1 # 1000000)) /\
  (forall i j, (i < K)%nat -> (j < K)%nat -> i <> j ->
     - (1 # 1000000) <= mget m i j /\ (mget m j j <= 1 -> 0 <= mget m i j) /\
     mget m i j <= max_noise_rate o + (1 # 1000000)) /\
  forall n, Qnat n <= Qnat (K * (K - 1)) * frac_zero_noise_rates o ->
    (n <= zero_rates K m \/ K * (K - 1) <= zero_rates K m + noisy_columns K m)%nat.

(** keyword arguments that can be met (the defaults can, for every trace between 1e-5 K and K) *)
Definition feasible (K : nat) (trace : Q) (o : trace_options) : Prop :=
  0 <= min_trace_prob o /\ max_trace_prob o <= 1 /\
  Qnat K * min_trace_prob o <= trace /\ trace <= Qnat K * max_trace_prob o /\
  1 - min_trace_prob o <= max_noise_rate o /\ 1 <= 2 * max_noise_rate o /\ min_noise_rate o <= 0 /\
  0 <= frac_zero_noise_rates o /\ frac_zero_noise_rates o <= 1.
