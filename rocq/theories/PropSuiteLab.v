(** * The models of the data checks meet the expectations of the test suite
    Inputs and expected results are copied from /repo/tests/datalab/issue_manager and /repo/tests/internal/neighbor. *)
From Coq Require Import QArith List ZArith Bool Arith.
From Verif Require Import Base ModelChecks ModelIdentifier ModelKnn SpecKnn ProofKnn.
Import ListNotations.
Open Scope Q_scope.

(** test_identifier_column.py *)
Example lab_is_sequential :
  map is_sequential
    [[1; 2; 3; 4; 5]; [1; 1; 2; 2; 3; 3; 5]; [1; 1; 3; 4; 5; 8; 10]; [0; 0; 0; 0; 0; 0; 0]; [4; 5; 5; 6; 7; 8; 9; 10];
     [1; 3; 4; 4; 5; 6; 7; -1]; [2; 1; 3; 5; 6; 4]; [-1; -3; -2; -4; 0]; []; [0; 0; 0]]%Z =
  [true; false; false; false; true; false; true; true; false; false].
Proof. vm_compute. reflexivity. Qed.
Definition lab_identifiers (rows : list (list Z)) : res (Q * list nat) :=
  do r <- find_identifiers (IntArray rows 3) ; Ok (summary (fst r), snd r).
Example lab_find_identifiers :
  map lab_identifiers
    [[[1; 2; 3]; [4; 5; 2]]; [[1; 2; 3]; [1; 3; 2]]; [[1; 2; 3]; [4; 5; 6]; [7; 8; 9]]; [[1; 2; 3]; [1; 2; 3]; [1; 2; 3]];
     [[0; 2; 3]; [-1; 5; 6]; [-2; 2; 3]]; [[1; 2; 3]; [4; 5; 6]; [7; 8; 9]; [10; 11; 12]];
     [[1; 2; 7]; [4; 3; 8]; [7; 4; 9]; [10; 5; 10]]]%Z =
  [Ok (0, [2]%nat); Ok (0, [1; 2]%nat); Ok (1, []); Ok (1, []); Ok (0, [0]%nat); Ok (1, []); Ok (0, [1; 2]%nat)].
Proof. vm_compute. reflexivity. Qed.

(** test_null.py: any values in the cells that are present *)
Example lab_null : forall x : nat,
  (do r <- null_check 3 [[None; Some x; Some x]; [None; None; None]; [Some x; Some x; Some x]; [None; Some x; Some x]] ;
   Ok (flags r, Qred (summary r))) = Ok ([false; true; false; false], 7#12).
Proof. intros x. vm_compute. reflexivity. Qed.

(** test_imbalance.py: one example of the rare class among a hundred; 47 of a hundred is no imbalance *)
Example lab_imbalance :
  (do r <- class_imbalance (1#10) 3 (2%nat :: repeat 0%nat 50 ++ repeat 1%nat 49) ;
   Ok (flags r, map Qred (scores r), Qred (summary r))) = Ok (true :: repeat false 99, (1#100) :: repeat 1 99, 1#100) /\
  (do r <- class_imbalance (1#10) 3 (repeat 0%nat 53 ++ repeat 1%nat 47) ;
   Ok (flags r, map Qred (scores r), Qred (summary r))) = Ok (repeat false 100, repeat 1 53 ++ repeat (47#100) 47, 47#100).
Proof. split; vm_compute; reflexivity. Qed.

(** test_neighbor.py [TestKNNCorrection]; the tests have the square root of 2 for [d] *)
Definition lab_points : list (list Q) := [[0; 0]; [0; 0]; [0; 0]; [1; 1]].
Example lab_knn_missing : forall d : Q,
  correct_knn_graph (concrete_env argsort_ins) lab_points 2
    ([[0; d]; [0; 0]; [0; 0]; [d; d]], [[1; 3]; [0; 2]; [0; 1]; [0; 1]]%nat) =
  ([[0; 0]; [0; 0]; [0; 0]; [d; d]], [[1; 2]; [0; 2]; [0; 1]; [0; 1]]%nat).
Proof. intros d. vm_compute. reflexivity. Qed.
Example lab_knn_order : forall d : Q,
  correct_knn_graph (concrete_env argsort_ins) lab_points 2
    ([[d; 0]; [0; 0]; [0; 0]; [d; d]], [[3; 1]; [0; 2]; [1; 0]; [0; 1]]%nat) =
  ([[0; 0]; [0; 0]; [0; 0]; [d; d]], [[1; 2]; [0; 2]; [0; 1]; [0; 1]]%nat).
Proof. intros d. vm_compute. reflexivity. Qed.
