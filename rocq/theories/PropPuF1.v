(** * Property C185: two small utilities, the PU-learning score and the compressed label columns *)
From Coq Require Import QArith List ZArith Bool Arith Lia.
From Verif Require Import Base ModelPuF1 SpecPuF1 ProofPuF1.
Import ListNotations.
Open Scope Q_scope.

(** estimate_pu_f1 is precision times recall over twice the share of labelled examples *)
Theorem C185_value : forall s p, length s = length p -> (forall x, In x s -> x = 0%nat \/ x = 1%nat) -> (0 < n_pos s)%nat -> (0 < n_pred s p)%nat ->
  exists v, estimate_pu_f1 s p = Ok (Some v) /\ v == precision s p * recall s p / (2 * positive_share s).
Proof. exact pu_value. Qed.

(** times that factor it lies between the square of the F1 score and the F1 score *)
Theorem C185_f1 : forall s p v, length s = length p -> (forall x, In x s -> x = 0%nat \/ x = 1%nat) -> (0 < n_hit s p)%nat ->
  estimate_pu_f1 s p = Ok (Some v) -> f1 s p * f1 s p <= 2 * positive_share s * v /\ 2 * positive_share s * v <= f1 s p.
Proof. exact pu_f1. Qed.

Theorem C185_nan : forall s p, s <> [] -> length s = length p -> (forall x, In x s -> x = 0%nat \/ x = 1%nat) ->
  (estimate_pu_f1 s p = Ok None <-> n_pos s = 0%nat \/ n_pred s p = 0%nat).
Proof. exact pu_nan. Qed.

(** The result is not an F1 score: here it is 2 although the F1 score is 1. *)
Theorem C185_f1_refuted : exists s p v, length s = length p /\ (forall x, In x s -> x = 0%nat \/ x = 1%nat) /\
  estimate_pu_f1 s p = Ok (Some v) /\ v == 2 /\ f1 s p == 1.
Proof.
  exists [1; 0; 0; 0]%nat, [9 # 10; 1 # 10; 2 # 10; 0]. eexists. split; [reflexivity|].
  split; [intros x Hx; cbn in Hx; lia|]. split; [vm_compute; reflexivity|]. split; reflexivity.
Qed.

(** compress_int_array keeps the values: in particular those of labels 0, ..., num_possible_values-1 *)
Theorem C185_compress : forall v n, (forall z, In z v -> (- n <= z <= n)%Z) -> compress_int_array v n = v.
Proof. exact compress_keeps. Qed.

(** Values beyond the number of possible values are silently replaced by others. *)
Theorem C185_compress_refuted : exists v n, (0 < n)%Z /\ (forall z, In z v -> (0 <= z)%Z) /\ compress_int_array v n <> v /\
  exists z, In z (compress_int_array v n) /\ (z < 0)%Z.
Proof.
  exists [3; 40000]%Z, 10%Z. split; [lia|]. split; [intros z Hz; cbn in Hz; lia|]. split; [vm_compute; discriminate|].
  exists (-25536)%Z. split; [vm_compute; auto|lia].
Qed.

(** five examples, two labelled, three predicted, one of them labelled *)
Example C185_example : (exists v, estimate_pu_f1 [1; 1; 0; 0; 0]%nat [9 # 10; 1 # 10; 6 # 10; 5 # 10; 0] = Ok (Some v) /\ v == 5 # 24) /\
  precision [1; 1; 0; 0; 0]%nat [9 # 10; 1 # 10; 6 # 10; 5 # 10; 0] == 1 # 3 /\
  recall [1; 1; 0; 0; 0]%nat [9 # 10; 1 # 10; 6 # 10; 5 # 10; 0] == 1 # 2 /\
  f1 [1; 1; 0; 0; 0]%nat [9 # 10; 1 # 10; 6 # 10; 5 # 10; 0] == 2 # 5.
Proof. split; [eexists; split; [vm_compute; reflexivity|reflexivity]|]. split; [reflexivity|]. split; reflexivity. Qed.
Example C185_example_compress : compress_int_array [0; 7; 40000]%Z 50000 = [0; 7; 40000]%Z /\ compress_int_array [0; 7; -1]%Z 8 = [0; 7; -1]%Z.
Proof. split; vm_compute; reflexivity. Qed.

Print Assumptions C185_value.
Print Assumptions C185_nan.
Print Assumptions C185_f1.
Print Assumptions C185_compress.
