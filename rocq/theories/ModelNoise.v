(** * Model of cleanlab/benchmarking/noise_generation.py and cleanlab/data_valuation.py *)
From Coq Require Import QArith Qabs Qround List ZArith Bool Arith.
From Verif Require Import Base ModelUtil.
Import ListNotations.
Open Scope Q_scope.

(** ** generate_n_rand_probabilities_that_sum_to_m (noise_generation.py:340-429)
    Randomness: [dir] is the value of np.random.dirichlet(np.ones(n)), [rs i] the i-th np.random.rand().
    The while loops take fuel. *)

(** noise_generation.py:405-414 *)
Fixpoint lower_max (fuel : nat) (max_prob : Q) (rs : nat -> Q) (i : nat) (result : list Q)
  : res (list Q * nat) :=
  if Qltb (max_prob + FLOATING_POINT_COMPARISON) (qmaximum result) then
    match fuel with
    | O => Raise Diverges
    | S fuel' =>
        let min_val := qminimum result in
        let max_val := qmaximum result in
        let new_min := min_val + (max_val - max_prob) in
        let adjustment := (max_prob - new_min) * rs i in
        let r1 := upd result (argmin result) (new_min + adjustment) in
        let r2 := upd r1 (argmax r1) (max_prob - adjustment) in
        lower_max fuel' max_prob rs (S i) r2
    end
  else Ok (result, i).

(** noise_generation.py:416-427 *)
Fixpoint raise_min (fuel : nat) (min_prob : Q) (rs : nat -> Q) (i : nat) (result : list Q)
  : res (list Q * nat) :=
  if Qltb (qminimum result) (min_prob - FLOATING_POINT_COMPARISON) then
    match fuel with
    | O => Raise Diverges
    | S fuel' =>
        let min_val := qminimum result in
        let max_val := qmaximum result in
        let new_max := max_val - (min_prob - min_val) in
        let adjustment := (new_max - min_prob) * rs i in
        let r1 := upd result (argmax result) (new_max - adjustment) in
        let r2 := upd r1 (argmin r1) (min_prob + adjustment) in
        raise_min fuel' min_prob rs (S i) r2
    end
  else Ok (result, i).

Definition rand_probabilities (fuel n : nat) (m max_prob min_prob : Q) (dir : list Q) (rs : nat -> Q)
  : res (list Q) :=
  if Nat.eqb n 0 then Ok []
  else if Qltb (max_prob + FLOATING_POINT_COMPARISON) (m / Qnat n) then Raise ValueError
  else if Qltb ((m + FLOATING_POINT_COMPARISON) / Qnat n) min_prob then Raise ValueError
  else
    do r1 <- lower_max fuel max_prob rs 0 (map (fun d => d * m) dir) ;
    do r2 <- raise_min fuel min_prob rs (snd r1) (fst r1) ;
    Ok (fst r2).

(** ** randomly_distribute_N_balls_into_K_bins (noise_generation.py:432-486) *)
(** noise_generation.py:481-485: the correcting loops *)
Fixpoint remove_balls (fuel : nat) (N : Z) (arr : list Z) : res (list Z) :=
  if (N <? zsum arr)%Z then
    match fuel with
    | O => Raise Diverges
    | S f => let i := argmax (map inject_Z arr) in remove_balls f N (upd arr i (nth i arr 0 - 1)%Z)
    end
  else Ok arr.
Fixpoint add_balls (fuel : nat) (N : Z) (arr : list Z) : res (list Z) :=
  if (zsum arr <? N)%Z then
    match fuel with
    | O => Raise Diverges
    | S f => let i := argmin (map inject_Z arr) in add_balls f N (upd arr i (nth i arr 0 + 1)%Z)
    end
  else Ok arr.
Fixpoint fix_balls (fuel fuel2 : nat) (N : Z) (arr : list Z) : res (list Z) :=
  if (zsum arr =? N)%Z then Ok arr
  else match fuel with
       | O => Raise Diverges
       | S f => do a1 <- remove_balls fuel2 N arr ; do a2 <- add_balls fuel2 N a1 ; fix_balls f fuel2 N a2
       end.

Definition distribute_balls (fuel : nat) (N K : nat) (max_balls min_balls : option nat)
           (dir : list Q) (rs : nat -> Q) : res (list Z) :=
  if Nat.eqb N 0 then Ok (repeat 0%Z K)
  else if Nat.eqb K 0 then Raise ZeroDivision
  else
  let mx := match max_balls with None => N | Some b => Nat.min b N end in
  let mn := match min_balls with None => 0 | Some b => qmin (Qnat b) (Qnat N / Qnat K) end in
  let N' := if Qltb (Qnat mx) (Qnat N / Qnat K) then (mx * K)%nat else N in
  if Nat.eqb N' 0 then Raise ZeroDivision
  else
  do ps <- rand_probabilities fuel K 1 (Qnat mx / Qnat N') (mn / Qnat N') dir rs ;
  fix_balls fuel fuel (Z.of_nat N') (map (fun p => round_half_even (p * Qnat N')) ps).

(** ** generate_noisy_labels (noise_generation.py:93-172)
    [choice k idx size] is np.random.choice(idx, size, replace=False) in the iteration for class [k]. *)
(** labels[idx] = vals *)
Definition assign_at (labels idx vals : list nat) : list nat :=
  fold_left (fun acc iv => upd acc (fst iv) (snd iv)) (combine idx vals) labels.
(** noise_generation.py:144-150: count_joint with a zero diagonal; [py * n] is the number of examples.
    [value_counts] without num_classes counts the distinct labels in increasing order. *)
Definition count_joint (true_labels : list nat) (noise_matrix : list (list Q)) : res (list (list Z)) :=
  let K := length noise_matrix in
  let n := Qnat (length true_labels) in
  let py := map (fun v => Qnat (count v true_labels) / n) (unique true_labels) in
  if negb (Nat.eqb (length py) K) then Raise ValueError
  else Ok (tab K (fun i => tab K (fun k =>
         if Nat.eqb i k then 0%Z else truncate (mget noise_matrix i k * nth k py 0 * n)))).
(** noise_generation.py:154-164: one iteration of the loop *)
Definition flip_class (true_labels : list nat) (cj : list (list Z))
           (choice : nat -> list nat -> nat -> list nat) (labels : list nat) (k : nat) : list nat :=
  let labels_per_class := filter (fun i => negb (Z.eqb (zget cj i k) 0)) (seq 0 (length cj)) in
  let noise := flat_map (fun i => repeat i (Z.to_nat (zget cj i k))) labels_per_class in
  let idx_flip := where_ (map (fun lt => (Nat.eqb (fst lt) k && Nat.eqb (snd lt) k)%bool)
                              (combine labels true_labels)) in
  if (negb (Nat.eqb (length idx_flip) 0) && negb (Nat.eqb (length noise) 0)
      && Nat.leb (length noise) (length idx_flip))%bool
  then assign_at labels (choice k idx_flip (length noise)) noise
  else labels.
Definition generate_noisy_labels (true_labels : list nat) (noise_matrix : list (list Q))
           (choice : nat -> list nat -> nat -> list nat) : res (list nat) :=
  do cj <- count_joint true_labels noise_matrix ;
  Ok (fold_left (flip_class true_labels cj choice) (seq 0 (length noise_matrix)) true_labels).

(** noise_generation.py:15-90 [noise_matrix_is_valid] ([py] of length K, K x K matrix). *)
Definition noise_matrix_is_valid (noise_matrix : list (list Q)) (py : list Q) : bool :=
  let K := length py in
  let ps := tab K (fun i => qsum (tab K (fun j => mget noise_matrix i j * nth j py 0))) in
  let joint := tab K (fun i => tab K (fun j => mget noise_matrix i j * nth j py 0)) in
  (Qltb (Qabs (qsum (map qsum joint) - 1)) FLOATING_POINT_COMPARISON &&
   forallb (fun i => Qltb (nth i ps 0 * nth i py 0) (mget joint i i)) (seq 0 K))%bool.

(** ** data_valuation.py:14-50 [_knn_shapley_score] for one example: the row [s_alpha] *)
Definition b2q (b : bool) : Q := if b then 1 else 0.
Definition shapley_row (n : nat) (idx : list nat) (matches : list bool) (k : nat) : list Q :=
  fold_left (fun s j => upd s (nth j idx 0%nat)
                          (nth (nth (S j) idx 0%nat) s 0 + (b2q (nth j matches false) - b2q (nth (S j) matches false))))
            (rev (seq 0 (k - 1))) (repeat 0 n).
(** range(k-2, -1, -1) is empty for k <= 1; too few neighbours: IndexError; k = 0 gives nan: ZeroDivision. *)
Definition knn_shapley_score (neighbor_indices : list (list nat)) (y : list nat) (k : nat) : res (list Q) :=
  let n := length y in
  if Nat.eqb k 0 then Raise ZeroDivision
  else if existsb (fun idx => (Nat.ltb 1 k && Nat.ltb (length idx) k)%bool) (firstn n neighbor_indices) then Raise IndexError
  else
  let rows := map (fun yi => shapley_row n (snd yi) (map (fun j => Nat.eqb (nth j y 0%nat) (fst yi)) (snd yi)) k)
                  (combine y neighbor_indices) in
  Ok (tab n (fun i => qmean (map (fun row => nth i row 0 / Qnat k) rows))).
(** data_valuation.py:124-127 [data_shapley_knn] on a given graph *)
Definition data_shapley_knn (neighbor_indices : list (list nat)) (labels : list nat) (k : nat) : res (list Q) :=
  do s <- knn_shapley_score neighbor_indices labels k ; Ok (map (fun x => (1 # 2) * (x + 1)) s).
