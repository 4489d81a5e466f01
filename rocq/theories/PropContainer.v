(** * C173: the types of labels, features and predictions *)
From Coq Require Import QArith List Bool Arith Lia Lqa.
From Verif Require Import Base ModelUtil ModelValid SpecValid ModelContainer SpecContainer ProofContainer.
Import ListNotations.
Open Scope Q_scope.

(** The same labels as a list, a 1-d array, a series or a frame of one column: the outcome is the same, including the error. *)
Theorem C173_same : forall x y y' v p am ao, holds y v -> holds y' v -> assert_valid_inputs_any x y p am ao = assert_valid_inputs_any x y' p am ao.
Proof. exact same_full. Qed.
Print Assumptions C173_same.
(** Anything else is refused: TypeError for a foreign type, ValueError for a scalar, a ragged or nested list, an array that is
    not one-dimensional, or a frame with another number of columns. *)
Theorem C173_refused : forall x y p am ao, exists_labels y -> (forall v, ~ holds y v) ->
  assert_valid_inputs_any x y p am ao = Raise (match y with Foreign => TypeError | _ => ValueError end).
Proof. exact refused_full. Qed.
Print Assumptions C173_refused.
(** Without predictions: accepted exactly when the labels are valid and the features, of any type, have one example per label and
    their first and last example can be taken. *)
Theorem C173_features : forall x y am ao, exists_labels y ->
  assert_valid_inputs_any x y None am ao = Ok tt <->
  exists v cs d, holds y v /\ good_labels am ao v cs /\ x = Some d /\ examples d (length v) /\ takes_ends d (length v).
Proof. exact features_any. Qed.
Print Assumptions C173_features.
Theorem C173_feature_errors : forall x y v cs am ao, holds y v -> good_labels am ao v cs ->
  (x = None -> assert_valid_inputs_any x y None am ao = Raise ValueError) /\
  (forall d, x = Some d -> (forall n, ~ examples d n) -> assert_valid_inputs_any x y None am ao = Raise TypeError) /\
  (forall d n, x = Some d -> examples d n -> n <> length v -> assert_valid_inputs_any x y None am ao = Raise ValueError) /\
  (forall d, x = Some d -> examples d (length v) -> ~ takes_ends d (length v) -> assert_valid_inputs_any x y None am ao = Raise TypeError).
Proof. exact feature_errors. Qed.
Print Assumptions C173_feature_errors.
(** With predictions: accepted exactly when the labels are valid and the predictions are an array of two dimensions, one row per
    label, one column per class, of probabilities. *)
Theorem C173_predictions : forall x y p am ao, exists_labels y -> exists_predictions p ->
  assert_valid_inputs_any x y (Some p) am ao = Ok tt <->
  exists v cs K entries, holds y v /\ good_labels am ao v cs /\ p = PArray [length v; K] entries /\ (forall c, In c cs -> (c < K)%nat) /\ near_01 entries.
Proof. exact predictions_any. Qed.
Print Assumptions C173_predictions.
Theorem C173_prediction_errors : forall x y v cs p am ao, holds y v -> good_labels am ao v cs ->
  (p = PForeign \/ p = PGeneric -> assert_valid_inputs_any x y (Some p) am ao = Raise TypeError) /\
  (forall s l, p = PArray s l -> (length s <> 2)%nat -> s <> [] -> assert_valid_inputs_any x y (Some p) am ao = Raise ValueError).
Proof. exact predictions_type. Qed.
Print Assumptions C173_prediction_errors.
(** Multi-label data must be a list of lists; the list is used as it is. *)
Theorem C173_nested : forall y l, labels_to_list_multilabel y = Ok l <-> y = PyList (map Node l).
Proof. exact list_multi. Qed.
Print Assumptions C173_nested.
Theorem C173_nested_error : forall y e, labels_to_list_multilabel y = Raise e -> e = ValueError.
Proof. exact list_multi_errors. Qed.
Print Assumptions C173_nested_error.
(** The check of multi-label data with predictions; any other type of labels is an AssertionError. *)
Theorem C173_multilabel : forall y ls p, class_lists y ls -> exists_predictions p ->
  assert_valid_inputs_any_multilabel y p = Ok tt <->
  exists K entries, p = PArray [length ls; K] entries /\ (exists l q, In l ls /\ In q l) /\ entries <> [] /\
    (forall l q, In l ls -> In q l -> q + 1 <= Qnat K) /\ near_01 entries.
Proof. exact multi_any. Qed.
Print Assumptions C173_multilabel.
Theorem C173_multilabel_assertion : forall y n K entries, y <> Foreign -> (forall l, y <> PyList (map Node l)) -> container_len y = Ok n ->
  assert_valid_inputs_any_multilabel y (PArray [n; K] entries) = Raise AssertionError.
Proof. exact multi_assertion. Qed.
Print Assumptions C173_multilabel_assertion.
Theorem C173_multilabel_errors : forall y p,
  (y = Foreign \/ p = PForeign \/ p = PGeneric \/ (exists l, p = PArray [] l) \/ (exists l, y = NdArray [] l) \/ (exists l, y = Generic l) ->
    assert_valid_inputs_any_multilabel y p = Raise TypeError) /\
  (forall n r s l, container_len y = Ok n -> p = PArray (r :: s) l -> r <> n \/ length s <> 1%nat -> assert_valid_inputs_any_multilabel y p = Raise ValueError) /\
  (forall m K l, y = PyList (repeat (Node []) m) -> p = PArray [m; K] l -> assert_valid_inputs_any_multilabel y p = Raise ValueError).
Proof. exact multi_errors. Qed.
Print Assumptions C173_multilabel_errors.
(** Multi-label classes that are negative or not whole pass this check. *)
Theorem C173_multilabel_refuted : exists ls, class_lists (PyList [Node [Leaf (Num (-3))]; Node [Leaf (Num (1 # 2))]]) ls /\
  assert_valid_inputs_any_multilabel (PyList [Node [Leaf (Num (-3))]; Node [Leaf (Num (1 # 2))]]) (PArray [2; 2]%nat [1; 0; 0; 1]) = Ok tt.
Proof. exists [[-3]; [1 # 2]]. split; [reflexivity|vm_compute; reflexivity]. Qed.
Print Assumptions C173_multilabel_refuted.
(** With predictions the features are not looked at: features of another length are accepted. *)
Theorem C173_features_refuted : exists d y p, examples d 7 /\ holds y [Num 0; Num 1] /\ assert_valid_inputs_any (Some d) y (Some p) true false = Ok tt.
Proof.
  exists {| has_len := Some 7%nat; has_shape := None; is_pandas := false; iloc_works := fun _ => false; is_torch_dataset := false;
            subset_works := fun _ => false; getitem_works := fun _ => false |}, (Series [Num 0; Num 1]), (PArray [2; 2]%nat [1; 0; 0; 1]).
  split; [now left|]. split; [constructor|vm_compute; reflexivity].
Qed.
Print Assumptions C173_features_refuted.

(** a pandas frame of three rows, a sparse matrix (no len), a plain list (cannot be indexed by a list) *)
Definition frame3 : data_object := {| has_len := Some 3%nat; has_shape := Some 3%nat; is_pandas := true; iloc_works := forallb (fun i => Nat.ltb i 3);
  is_torch_dataset := false; subset_works := fun _ => false; getitem_works := fun _ => false |}.
Definition sparse3 : data_object := {| has_len := None; has_shape := Some 3%nat; is_pandas := false; iloc_works := fun _ => false;
  is_torch_dataset := false; subset_works := fun _ => false; getitem_works := forallb (fun i => Nat.ltb i 3) |}.
Definition list3 : data_object := {| has_len := Some 3%nat; has_shape := None; is_pandas := false; iloc_works := fun _ => false;
  is_torch_dataset := false; subset_works := fun _ => false; getitem_works := fun _ => false |}.
Example C173_example :
  assert_valid_inputs_any (Some frame3) (PyList [Leaf (Num 0); Leaf (Num 1); Leaf (Num 1)]) None true false = Ok tt /\
  assert_valid_inputs_any (Some sparse3) (Frame 1 [[Num 0]; [Num 1]; [Num 1]]) None true false = Ok tt /\
  assert_valid_inputs_any (Some list3) (Series [Num 0; Num 1; Num 1]) None true false = Raise TypeError /\
  assert_valid_inputs_any (Some frame3) (Series [Num 0; Num 1]) None true false = Raise ValueError /\
  assert_valid_inputs_any None (NdArray [3]%nat [Num 0; Num 1; Num 1]) (Some (PArray [3; 2]%nat [1; 0; 0; 1; 1; 0])) true false = Ok tt /\
  assert_valid_inputs_any None (NdArray [3; 1]%nat [Num 0; Num 1; Num 1]) (Some (PArray [3; 2]%nat [1; 0; 0; 1; 1; 0])) true false = Raise ValueError /\
  assert_valid_inputs_any None (PyList [Node [Leaf (Num 0)]; Node [Leaf (Num 1)]]) (Some (PArray [2; 2]%nat [1; 0; 0; 1])) true false = Raise ValueError /\
  assert_valid_inputs_any None (PyList [Leaf (Num 0); Node [Leaf (Num 1)]]) (Some (PArray [2; 2]%nat [1; 0; 0; 1])) true false = Raise ValueError /\
  assert_valid_inputs_any None Foreign (Some (PArray [2; 2]%nat [1; 0; 0; 1])) true false = Raise TypeError /\
  assert_valid_inputs_any None (Generic (Num 1)) None true false = Raise ValueError /\
  assert_valid_inputs_any None (Series [Num 0; Num 1]) (Some PForeign) true false = Raise TypeError /\
  assert_valid_inputs_any None (PyList [Leaf (Num 0); Leaf Str]) (Some (PArray [2; 2]%nat [1; 0; 0; 1])) true false = Raise ValueError /\
  labels_to_list_multilabel (PyList [Node []; Node [Leaf (Num 1)]]) = Ok [[]; [Leaf (Num 1)]] /\
  labels_to_list_multilabel (PyList [Node []; Leaf (Num 1)]) = Raise ValueError /\
  assert_valid_inputs_any_multilabel (PyList [Node []; Node [Leaf (Num 1)]]) (PArray [2; 2]%nat [1; 0; 0; 1]) = Ok tt /\
  assert_valid_inputs_any_multilabel (Series [Num 0; Num 1]) (PArray [2; 2]%nat [1; 0; 0; 1]) = Raise AssertionError.
Proof. repeat split; vm_compute; reflexivity. Qed.
Example C173_hypotheses : examples frame3 3 /\ takes_ends frame3 3 /\ examples sparse3 3 /\ ~ takes_ends list3 3 /\
  good_labels true false [Num 0; Num 1; Num 1] [0; 1; 1]%nat /\ exists_predictions (PArray [3; 2]%nat [1; 0; 0; 1; 1; 0]).
Proof.
  split; [now left|]. split; [left; split; reflexivity|]. split; [right; split; reflexivity|]. split.
  - intros [(H & _)|[(H & _)|H]]; discriminate.
  - split; [|reflexivity]. split; [split; [discriminate|]|split; [right; exists 0%nat, 1%nat; cbn; intuition lia|now left]].
    repeat constructor; eexists; split; reflexivity.
Qed.
