(** * Properties C23, C24: label formats *)
From Coq Require Import List Bool Arith Sorted Lia.
From Verif Require Import Base ModelLabels SpecLabels ProofLabels.
Import ListNotations.

(** ** C23 *)
(** classes not below K are dropped by the conversion *)
Theorem C23_lists_round_trip : forall K labels i, i < length labels ->
  length (onehot2int (int2onehot labels K)) = length labels /\
  StronglySorted lt (nth i (onehot2int (int2onehot labels K)) []) /\
  forall k, In k (nth i (onehot2int (int2onehot labels K)) []) <-> In k (nth i labels []) /\ k < K.
Proof. exact C23_lists_full. Qed.
Print Assumptions C23_lists_round_trip.

Theorem C23_matrix_round_trip : forall K m, binary_matrix K m -> int2onehot (onehot2int m) K = m.
Proof. exact C23_matrix_full. Qed.
Print Assumptions C23_matrix_round_trip.

Example C23_example_lists : onehot2int (int2onehot [[2; 0; 2]; []; [1]] 3) = [[0; 2]; []; [1]].
Proof. reflexivity. Qed.
Example C23_example_matrix : binary_matrix 3 [[1; 0; 1]; [0; 0; 0]; [0; 1; 0]].
Proof.
  intros row [<-|[<-|[<-|[]]]]; (split; [reflexivity|]); simpl; intuition.
Qed.

(** ** C24 *)
Theorem C24_format_labels : forall {A : Type} (leb : A -> A -> bool), total_order leb -> forall labels,
  exists f inv names, format_labels leb labels = Ok (f, inv) /\ class_names inv names /\
    (forall x, In x names <-> In x labels) /\ length f = length labels /\
    (forall k, k < length names <-> In k f) /\
    (forall i x, nth_error labels i = Some x -> exists k, nth_error f i = Some k /\ inv_get inv k = Some x) /\
    (forall i j x y k l, nth_error labels i = Some x -> nth_error labels j = Some y ->
       nth_error f i = Some k -> nth_error f j = Some l ->
       (k <= l <-> leb x y = true) /\ (k = l <-> x = y)).
Proof. exact @C24_full. Qed.
Print Assumptions C24_format_labels.

Theorem C24_format_multilabels : forall {A : Type} (leb : A -> A -> bool), total_order leb -> forall labels,
  exists f inv names, format_multilabels leb labels = Ok (f, inv) /\ class_names inv names /\
    (forall x, In x names <-> exists ls, In ls labels /\ In x ls) /\
    Forall2 (Forall2 (fun x k => inv_get inv k = Some x)) labels f /\
    (forall k, k < length names <-> In k (concat f)) /\
    (forall x y k l, In x names -> In y names -> inv_get inv k = Some x -> inv_get inv l = Some y -> k < length names -> l < length names ->
       (k <= l <-> leb x y = true)).
Proof. exact @C24_multi_full. Qed.
Print Assumptions C24_format_multilabels.

Example C24_example_order : total_order Nat.leb.
Proof. exact nat_order. Qed.
Example C24_example : format_labels Nat.leb [30; 10; 30; 20] = Ok ([2; 0; 2; 1], [(0, 10); (1, 20); (2, 30)]).
Proof. reflexivity. Qed.
Example C24_example_multi : format_multilabels Nat.leb [[30; 10]; []; [20]] = Ok ([[2; 0]; []; [1]], [(0, 10); (1, 20); (2, 30)]).
Proof. reflexivity. Qed.
