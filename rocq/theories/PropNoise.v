(** * Properties C25-C27: synthetic noise and data valuation *)
From Coq Require Import QArith Qround List ZArith Bool Arith Lia Lqa.
From Verif Require Import Base BaseFacts ModelUtil ModelNoise SpecCount SpecNoise ProofNoise.
Import ListNotations.
Open Scope Q_scope.

(** ** C25: termination is part of the statement; [fuel] bounds the number of loop iterations *)
Theorem C25_probabilities : forall fuel n m max_prob min_prob dir rs,
  (1 <= n)%nat -> 0 <= m -> Qnat n * min_prob <= m -> m <= Qnat n * max_prob ->
  prob_vector n dir -> unit_stream rs ->
  m * Qnat n * inject_Z 1000000 < Qnat fuel ->
  exists l, rand_probabilities fuel n m max_prob min_prob dir rs = Ok l /\ length l = n /\ qsum l == m /\
    forall x, In x l -> 0 <= x /\ min_prob - (1 # 1000000) <= x /\ x <= max_prob + (1 # 1000000).
Proof. exact C25_probs_full. Qed.
Print Assumptions C25_probabilities.

Theorem C25_balls : forall fuel N K max_balls min_balls dir rs,
  let mx := match max_balls with None => N | Some b => b end in
  let mn := match min_balls with None => 0%nat | Some b => b end in
  (1 <= K)%nat -> (1 <= mx \/ N = 0)%nat -> (mn <= mx)%nat -> (K * mn <= N)%nat -> Qnat N < inject_Z 500000 ->
  prob_vector K dir -> unit_stream rs -> Qnat K * inject_Z 1000000 < Qnat fuel ->
  exists arr, distribute_balls fuel N K max_balls min_balls dir rs = Ok arr /\ length arr = K /\
    zsum arr = Z.of_nat (Nat.min N (K * mx)) /\
    forall x, In x arr -> (Z.of_nat mn <= x <= Z.of_nat mx)%Z.
Proof. exact C25_balls_full. Qed.
Print Assumptions C25_balls.

Definition ex_dir : list Q := [7 # 10; 2 # 10; 1 # 10].
Example C25_example_dir : prob_vector 3 ex_dir.
Proof.
  split; [reflexivity|]. split; [|reflexivity]. intros x [<-|[<-|[<-|[]]]]; lra.
Qed.
Example C25_example_stream : unit_stream (fun _ => 1 # 2).
Proof. intros i. lra. Qed.
Example C25_example_probs :
  match rand_probabilities 100 3 1 (1 # 2) (1 # 5) ex_dir (fun _ => 1 # 2) with
  | Ok l => map Qred l | _ => [] end = [2 # 5; 1 # 5; 2 # 5].
Proof. vm_compute. reflexivity. Qed.
Example C25_example_balls : distribute_balls 100 10 3 (Some 5%nat) (Some 2%nat) ex_dir (fun _ => 1 # 2) = Ok [4; 2; 4]%Z.
Proof. vm_compute. reflexivity. Qed.
(** balls that do not fit are dropped: ten balls, two bins of capacity two *)
Example C25_example_overflow : distribute_balls 100 10 2 (Some 2%nat) None [1 # 2; 1 # 2] (fun _ => 1 # 2) = Ok [2; 2]%Z.
Proof. vm_compute. reflexivity. Qed.

(** ** C26 *)
Theorem C26_noisy_label_counts : forall K true_labels noise_matrix choice,
  (1 <= K)%nat -> length noise_matrix = K ->
  (forall k, In k true_labels <-> (k < K)%nat) ->
  (forall i k, (i < K)%nat -> (k < K)%nat -> 0 <= mget noise_matrix i k) ->
  (forall k, (k < K)%nat -> qsum (map (fun i => mget noise_matrix i k) (seq 0 K)) <= 1) ->
  samples choice ->
  exists labels, generate_noisy_labels true_labels noise_matrix choice = Ok labels /\
    length labels = length true_labels /\
    (forall l, In l labels -> (l < K)%nat) /\
    (forall i k, (i < K)%nat -> (k < K)%nat -> i <> k ->
       Z.of_nat (n_pairs i k labels true_labels) = Qfloor (mget noise_matrix i k * Qnat (n_labelled k true_labels))).
Proof. exact C26_full. Qed.
Print Assumptions C26_noisy_label_counts.

Example C26_example_choice : samples (fun _ idx size => firstn size idx).
Proof.
  intros k idx size Hn H. split; [rewrite firstn_length; lia|]. split; [apply firstn_NoDup; auto|]. intros i. apply firstn_In.
Qed.
Definition ex_true : list nat := [0; 0; 0; 0; 1; 1; 1; 1]%nat.
Definition ex_noise : list (list Q) := [[1 # 2; 1 # 4]; [1 # 2; 3 # 4]].
Example C26_example : generate_noisy_labels ex_true ex_noise (fun _ idx size => firstn size idx) = Ok [1; 1; 0; 0; 0; 1; 1; 1]%nat.
Proof. vm_compute. reflexivity. Qed.
Example C26_example_matrix : (forall k, In k ex_true <-> (k < 2)%nat) /\
  (forall i k, (i < 2)%nat -> (k < 2)%nat -> 0 <= mget ex_noise i k) /\
  (forall k, (k < 2)%nat -> qsum (map (fun i => mget ex_noise i k) (seq 0 2)) <= 1).
Proof.
  split; [|split].
  - intros k. unfold ex_true. simpl. lia.
  - intros [|[|i]] [|[|k]] Hi Hk; try lia; cbn; lra.
  - intros [|[|k]] Hk; try lia; cbn; lra.
Qed.

(** ** C27 *)
Theorem C27_scores_in_range : forall graph y k, (1 <= k)%nat -> y <> [] -> knn_graph_ok (length y) k graph ->
  exists scores, data_shapley_knn graph y k = Ok scores /\ length scores = length y /\
    forall s, In s scores -> (1 # 2) - 1 / (2 * Qnat k) <= s /\ s <= (1 # 2) + 1 / (2 * Qnat k) /\ 0 <= s /\ s <= 1.
Proof. exact C27_range_full. Qed.
Print Assumptions C27_scores_in_range.

Theorem C27_closed_form : forall graph y k scores i, (1 <= k)%nat -> knn_graph_ok (length y) k graph ->
  (forall idx, In idx graph -> NoDup idx) -> data_shapley_knn graph y k = Ok scores -> (i < length y)%nat ->
  nth i scores 0 == (1 + total_contribution y graph k i / (Qnat k * Qnat (length y))) / 2.
Proof. exact C27_value_full. Qed.
Print Assumptions C27_closed_form.

Definition ex_graph : list (list nat) := [[1; 2]; [0; 2]; [1; 0]]%nat.
Example C27_example_graph : knn_graph_ok 3 2 ex_graph.
Proof.
  split; [reflexivity|]. intros idx [<-|[<-|[<-|[]]]]; (split; [simpl; lia|]); simpl; intuition lia.
Qed.
Example C27_example : match data_shapley_knn ex_graph [0; 0; 1]%nat 2 with Ok l => map Qred l | _ => [] end = [7 # 12; 7 # 12; 1 # 2].
Proof. vm_compute. reflexivity. Qed.
