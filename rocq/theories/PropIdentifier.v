(** * Property C149: identifier columns in every container of features *)
From Coq Require Import QArith List ZArith Bool Arith Permutation Lia.
From Verif Require Import Base BaseFacts ModelChecks SpecChecks ModelIdentifier SpecIdentifier ProofIdentifier.
Import ListNotations.
Open Scope nat_scope.

(** A table gives the same result as a DataFrame, as a dict of columns and as a list of columns *)
Theorem C149_containers cols : (forall c, In c cols -> cells_size c <> 0) ->
  find_identifiers (Dict cols) = find_identifiers (DataFrame cols) /\
  find_identifiers (ListOf (map ListOrArray cols)) = find_identifiers (DataFrame cols).
Proof. exact (containers cols). Qed.
Print Assumptions C149_containers.
(** ... and a table of integers also as a numpy array of rows *)
Theorem C149_array n columns : (forall c, In c columns -> length c = n) ->
  find_identifiers (IntArray (rows_of n columns) (length columns)) = find_identifiers (DataFrame (map Ints columns)).
Proof. exact (int_array n columns). Qed.
Print Assumptions C149_array.
(** A column that numbers the rows, in any order and from any start, is found *)
Theorem C149_documented columns j col : nth_error columns j = Some (Ints col) -> numbering col -> 2 <= length col ->
  exists rep ids, find_identifiers (DataFrame columns) = Ok (rep, ids) /\ In j ids /\ summary rep = 0%Q.
Proof. exact (documented columns j col). Qed.
Print Assumptions C149_documented.
(** Nothing is found in a numpy array that is not of an integer type *)
Theorem C149_other_array nrows ncols : 0 < ncols -> exists rep, find_identifiers (OtherArray nrows ncols) = Ok (rep, []) /\ summary rep = 1%Q /\
  length (flags rep) = nrows.
Proof. exact (other_array nrows ncols). Qed.
Print Assumptions C149_other_array.
(** What is not a list of lists or arrays, and no features at all, are rejected *)
Theorem C149_rejected els : In Neither els ->
  find_identifiers (ListOf els) = Raise ValueError /\ find_identifiers OtherObject = Raise ValueError /\ find_identifiers NoFeatures = Raise ValueError.
Proof.
  intros H. unfold find_identifiers. cbn [prepare_features rbind].
  assert (E : existsb (fun e => match e with Neither => true | _ => false end) els = true) by (apply existsb_exists; exists Neither; auto).
  rewrite E. auto.
Qed.
Print Assumptions C149_rejected.

(** A column of zeros and ones is reported as an identifier column although it does not number the rows *)
Theorem C149_binary_refuted : exists rep, find_identifiers (DataFrame [Ints [0; 1; 1; 0; 1]%Z]) = Ok (rep, [0]) /\ summary rep = 0%Q /\
  ~ numbering [0; 1; 1; 0; 1]%Z.
Proof.
  eexists. split; [vm_compute; reflexivity|]. split; [reflexivity|]. intros (c & P).
  assert (N : NoDup (tab 5 (fun i => c + Z.of_nat i)%Z)).
  { unfold tab. cbn [map seq]. repeat constructor; cbn; lia. }
  apply (Permutation_NoDup (Permutation_sym P)) in N. inversion N as [|? ? H _]. apply H. cbn. auto.
Qed.
Print Assumptions C149_binary_refuted.
(** A list is taken as a list of columns: the rows of a table, as lists, give another result than the array of the same rows,
    for another number of examples *)
Theorem C149_list_of_rows_refuted : exists rep rep',
  find_identifiers (IntArray [[1; 7; 9]; [2; 5; 9]]%Z 3) = Ok (rep, [0]) /\ length (flags rep) = 2 /\
  find_identifiers (ListOf [ListOrArray (Ints [1; 7; 9]%Z); ListOrArray (Ints [2; 5; 9]%Z)]) = Ok (rep', []) /\ length (flags rep') = 3.
Proof. do 2 eexists. split; [vm_compute; reflexivity|]. split; [reflexivity|]. split; [vm_compute; reflexivity|reflexivity]. Qed.
Print Assumptions C149_list_of_rows_refuted.

(** ** A concrete case *)
Example C149_example : exists rep,
  find_identifiers (DataFrame [Others 3; Ints [12; 10; 11]%Z; Ints [3; 5; 3]%Z]) = Ok (rep, [1]) /\
  find_identifiers (Dict [Others 3; Ints [12; 10; 11]%Z; Ints [3; 5; 3]%Z]) = Ok (rep, [1]) /\ numbering [12; 10; 11]%Z.
Proof.
  eexists. split; [vm_compute; reflexivity|]. split; [vm_compute; reflexivity|]. exists 10%Z. cbn.
  change [12; 10; 11]%Z with ([12]%Z ++ [10; 11]%Z). apply Permutation_app_comm.
Qed.
Example C149_example_array : exists rep,
  find_identifiers (IntArray (rows_of 3 [[12; 10; 11]; [3; 5; 3]]%Z) 2) = Ok (rep, [0]) /\ rows_of 3 [[12; 10; 11]; [3; 5; 3]]%Z = [[12; 3]; [10; 5]; [11; 3]]%Z.
Proof. eexists. split; vm_compute; reflexivity. Qed.
