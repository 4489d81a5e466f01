(** * Property C161: the data-valuation scores and the Shapley values they approximate *)
From Coq Require Import QArith Qabs List Bool Arith Lia Lqa Permutation.
From Verif Require Import Base BaseFacts ModelNoise SpecNoise SpecShapley ProofShapley.
Import ListNotations.
Open Scope Q_scope.

(** [shapley_value] is the Shapley value: the values of all players share out what they are worth together. *)
Theorem C161_shares players orders worth : NoDup players -> all_orders players orders ->
  (forall s s', (forall j, In j s <-> In j s') -> worth s == worth s') ->
  qsum (map (shapley_value orders worth) players) == worth players - worth [].
Proof. exact (efficiency_full players orders worth). Qed.
Print Assumptions C161_shares.

(** Every score, scaled back to [-1, 1], is within 1/k of the Shapley value of the example in k-nearest-neighbour
    classification of the data set, whatever the order of the examples beyond the k nearest. *)
Theorem C161_bound y k graph ranks orders : (1 <= k)%nat -> knn_graph_ok (length y) k graph -> (forall idx, In idx graph -> NoDup idx) ->
  rankings (length y) k graph ranks -> all_orders (seq 0 (length y)) orders ->
  forall scores j, data_shapley_knn graph y k = Ok scores -> (j < length y)%nat ->
  Qabs (2 * nth j scores 0 - 1 - shapley_value orders (knn_accuracy y k ranks) j) <= 1 / Qnat k.
Proof. exact (bound_full y k graph ranks orders). Qed.
Print Assumptions C161_bound.

(** What the score is exactly: for every example to classify, the Shapley value among its k nearest neighbours
    minus that of the k-th, and nothing for the others; averaged over the examples. *)
Theorem C161_relative y k graph ranks orders : (1 <= k)%nat -> knn_graph_ok (length y) k graph -> (forall idx, In idx graph -> NoDup idx) ->
  rankings (length y) k graph ranks -> all_orders (seq 0 (length y)) orders ->
  forall scores j, data_shapley_knn graph y k = Ok scores -> (j < length y)%nat ->
  2 * nth j scores 0 - 1 == qmean (map (fun i =>
    let value := shapley_value orders (knn_worth y k (nth i ranks []) i) in
    if mem j (firstn k (nth i ranks [])) then value j - value (nth (k - 1) (nth i ranks []) 0%nat) else 0) (seq 0 (length y))).
Proof. exact (relative_full y k graph ranks orders). Qed.
Print Assumptions C161_relative.

(** Four examples at 4, 18, 27 and 25 on a line. *)
Definition sh_labels : list nat := [0; 1; 0; 1]%nat.
Definition sh_ranks : list (list nat) := [[1; 3; 2]; [3; 2; 0]; [3; 1; 0]; [2; 1; 0]]%nat.
Definition sh_graph : list (list nat) := map (firstn 2) sh_ranks.
Example C161_example : (1 <= 2)%nat /\ knn_graph_ok 4 2 sh_graph /\ (forall idx, In idx sh_graph -> NoDup idx) /\ rankings 4 2 sh_graph sh_ranks /\
  all_orders (seq 0 4) (enum (seq 0 4)) /\ length (enum (seq 0 4)) = 24%nat /\
  (exists s, data_shapley_knn sh_graph sh_labels 2 = Ok s /\ map Qred s = [1 # 2; 1 # 2; 7 # 16; 9 # 16]) /\
  map (fun j => Qred (shapley_value (enum (seq 0 4)) (knn_accuracy sh_labels 2 sh_ranks) j)) [0; 1; 2; 3]%nat = [1 # 12; 1 # 24; 1 # 12; 1 # 24].
Proof.
  split; [lia|]. split.
  { split; [reflexivity|]. intros idx [<-|[<-|[<-|[<-|[]]]]]; (split; [cbn; lia|]); cbn; intuition lia. }
  split; [intros idx [<-|[<-|[<-|[<-|[]]]]]; repeat constructor; cbn; intuition lia|].
  split.
  { split; [reflexivity|]. intros [|[|[|[|i]]]] Hi; [| | | |lia]; (split; [|reflexivity]); apply (proj2 (Permutation_count_occ Nat.eq_dec _ _)); intros [|[|[|[|x]]]]; reflexivity. }
  split; [apply enum_all, seq_NoDup|]. split; [reflexivity|]. split; [eexists; split; vm_compute; reflexivity|]. vm_compute. reflexivity.
Qed.

(** Within the bound, scores below 1/2 need not mean a negative contribution, and an example with a lower score may
    contribute more. *)
Theorem C161_sign_refuted : exists y k graph ranks orders scores j, (1 <= k)%nat /\ knn_graph_ok (length y) k graph /\ (forall idx, In idx graph -> NoDup idx) /\
  rankings (length y) k graph ranks /\ all_orders (seq 0 (length y)) orders /\ data_shapley_knn graph y k = Ok scores /\ (j < length y)%nat /\
  nth j scores 0 < 1 # 2 /\ 0 < shapley_value orders (knn_accuracy y k ranks) j.
Proof.
  destruct C161_example as (E1 & E2 & E3 & E4 & E5 & _). exists sh_labels, 2%nat, sh_graph, sh_ranks, (enum (seq 0 4)). eexists. exists 2%nat.
  split; [exact E1|]. split; [exact E2|]. split; [exact E3|]. split; [exact E4|]. split; [exact E5|]. split; [vm_compute; reflexivity|]. split; [cbn; lia|].
  split; vm_compute; reflexivity.
Qed.
Print Assumptions C161_sign_refuted.
Theorem C161_order_refuted : exists y k graph ranks orders scores j j', (1 <= k)%nat /\ knn_graph_ok (length y) k graph /\ (forall idx, In idx graph -> NoDup idx) /\
  rankings (length y) k graph ranks /\ all_orders (seq 0 (length y)) orders /\ data_shapley_knn graph y k = Ok scores /\ (j < length y)%nat /\ (j' < length y)%nat /\
  nth j scores 0 < nth j' scores 0 /\ shapley_value orders (knn_accuracy y k ranks) j' < shapley_value orders (knn_accuracy y k ranks) j.
Proof.
  destruct C161_example as (E1 & E2 & E3 & E4 & E5 & _). exists sh_labels, 2%nat, sh_graph, sh_ranks, (enum (seq 0 4)). eexists. exists 2%nat, 3%nat.
  split; [exact E1|]. split; [exact E2|]. split; [exact E3|]. split; [exact E4|]. split; [exact E5|]. split; [vm_compute; reflexivity|]. split; [cbn; lia|]. split; [cbn; lia|].
  split; vm_compute; reflexivity.
Qed.
Print Assumptions C161_order_refuted.
