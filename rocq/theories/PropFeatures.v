(** * Splitting, lending and flattening feature data (C127) *)
From Coq Require Import List ZArith Bool Arith Lia.
From Verif Require Import Base ModelFeatures SpecFeatures ProofFeatures.
Import ListNotations.
Open Scope nat_scope.

(** The two parts of a split hold exactly the examples of their indices, in order. *)
Theorem C127_split : forall V (zero : V) plus f X w R tr ho, holds zero plus f X w R ->
  (forall i, In i tr -> i < length R) -> (forall i, In i ho -> i < length R) ->
  exists A B, train_val_split X tr ho = Ok (A, B) /\
    holds zero plus f A w (map (fun i => nth i R []) tr) /\ holds zero plus f B w (map (fun i => nth i R []) ho).
Proof. exact @split_ok. Qed.
Print Assumptions C127_split.
(** An example lent from one part to the other is added behind the examples there, unchanged. *)
Theorem C127_append : forall V (zero : V) plus f X Y w R S index, holds zero plus f X w R -> holds zero plus f Y w S -> index < length S ->
  exists Z, append_extra_datapoint X Y index = Ok Z /\ holds zero plus f Z w (R ++ [nth index S []]).
Proof. exact @append_ok. Qed.
Print Assumptions C127_append.
(** Stacking sparse matrices stacks their rows. *)
Theorem C127_sparse : forall V (zero : V) plus (a b : @csr V), well_formed a -> well_formed b -> snd (c_shape a) = snd (c_shape b) ->
  well_formed (csr_vstack a b) /\ c_shape (csr_vstack a b) = (fst (c_shape a) + fst (c_shape b), snd (c_shape a)) /\
  (forall i, i < fst (c_shape a) -> dense_row zero plus (csr_vstack a b) i = dense_row zero plus a i) /\
  (forall i, i < fst (c_shape b) -> dense_row zero plus (csr_vstack a b) (fst (c_shape a) + i) = dense_row zero plus b i).
Proof. exact @stack_rows. Qed.
Print Assumptions C127_sparse.
(** Flattening for the default classifier keeps the examples and the numbers of each in order. *)
Theorem C127_flatten : forall V (a : @array V) n h v s, shape a = n :: h :: v :: s -> n <> 0 -> length (entries a) = size (shape a) ->
  exists b, force_two_dimensions a = Ok b /\ shape b = [n; size (h :: v :: s)] /\
    forall i, i < n -> exists r r', array_row a i = Ok r /\ array_row b i = Ok r' /\ entries r' = entries r.
Proof. exact @flatten_rows. Qed.
Print Assumptions C127_flatten.
(** The labels stored with fewer bits are the labels, for every number of classes. *)
Theorem C127_compress : forall l K, (forall z, In z l -> (0 <= z < K)%Z) -> compress_int_array l K = l.
Proof. exact compress_id. Qed.
Print Assumptions C127_compress.

(** ** Examples *)
Definition sparse3 : @csr nat := Csr [4; 5; 6] [0; 2; 1] [0; 2; 2; 3] (3, 3).
Definition rows3 : list (list nat) := [[4; 0; 5]; [0; 0; 0]; [0; 6; 0]].
Example C127_hypotheses : holds 0 Nat.add Sparse (FSparse sparse3) 3 rows3 /\
  holds 0 Nat.add DenseArray (FArray (Arr [3; 3] (concat rows3))) 3 rows3 /\ holds 0 Nat.add Pandas (FPandas [7; 8; 9] rows3) 3 rows3.
Proof.
  assert (L : forall r, In r rows3 -> length r = 3) by (intros r [<-|[<-|[<-|[]]]]; reflexivity).
  split; [|split]; (split; [exact L|]); try (split; reflexivity).
  split; [|split; reflexivity]. split; [reflexivity|]. split; [reflexivity|]. split; [|split; reflexivity].
  intros [|[|[|i]]] Hi; simpl in *; lia.
Qed.
Example C127_example :
  (do p <- train_val_split (FSparse sparse3) [0; 1] [2] ; append_extra_datapoint (fst p) (snd p) 0)
    = Ok (FSparse (Csr [4; 5; 6] [0; 2; 1] [0; 2; 2; 3] (3, 3))) /\
  (do p <- train_val_split (FPandas [7; 8; 9] rows3) [0; 1] [2] ; append_extra_datapoint (fst p) (snd p) 0)
    = Ok (FPandas [0; 1; 2] rows3) /\
  force_two_dimensions (Arr [2; 2; 3] (seq 0 12)) = Ok (Arr [2; 6] (seq 0 12)).
Proof. repeat split. Qed.

(** ** Formats for which lending fails *)
(** examples with two or more axes (images): an exception, for every array *)
Theorem C127_images_refuted : forall V (a b : @array V) n m h v s index, shape a = n :: h :: v :: s -> shape b = m :: h :: v :: s -> index < m ->
  append_extra_datapoint (FArray a) (FArray b) index = Raise ValueError.
Proof. exact @append_images. Qed.
Print Assumptions C127_images_refuted.
(** one number per example *)
Theorem C127_vector_refuted : forall V (a b : @array V) n m index, shape a = [n] -> shape b = [m] -> index < m -> n <> 1 ->
  append_extra_datapoint (FArray a) (FArray b) index = Raise ValueError.
Proof. exact @append_vector. Qed.
Print Assumptions C127_vector_refuted.
(** lists cannot be split; appending to a list returns None instead of the list *)
Theorem C127_list_refuted : forall V (l : list (list V)) tr ho index, index < length l ->
  train_val_split (FList l) tr ho = Raise ValueError /\ append_extra_datapoint (FList l) (FList l) index = Ok FNone.
Proof. intros V l tr ho index H. split; [reflexivity|]. simpl. unfold nth_row. apply nth_error_Some in H. destruct (nth_error l index); [reflexivity|congruence]. Qed.
Print Assumptions C127_list_refuted.
(** a sparse matrix whose arrays have room for more entries than it has: the row below it is read from that room *)
Theorem C127_spare_room_refuted :
  let a := Csr [5; 9] [0; 1] [0; 1] (1, 2) in let b := Csr [7] [1] [0; 1] (1, 2) in
  dense_row 0 Nat.add a 0 = [5; 0] /\ dense_row 0 Nat.add b 0 = [0; 7] /\ dense_row 0 Nat.add (csr_vstack a b) 1 = [0; 9].
Proof. repeat split. Qed.
(** flattening no examples fails *)
Theorem C127_flatten_empty_refuted : forall V h v s (e : list V), force_two_dimensions (Arr (0 :: h :: v :: s) e) = Raise ValueError.
Proof. reflexivity. Qed.
(** a label outside the classes changes when stored with fewer bits *)
Theorem C127_compress_refuted : compress_int_array [40000%Z] 10 = [-25536]%Z.
Proof. reflexivity. Qed.
