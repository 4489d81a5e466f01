(** * Property C171: counting classes *)
From Coq Require Import List ZArith Bool Arith Sorted Lia.
From Verif Require Import Base BaseFacts ModelClasses SpecClasses ProofClasses.
Import ListNotations.
Open Scope nat_scope.

(** one count per class, classes without labels included *)
Theorem C171_counts x K : (forall z, In z x -> (0 <= z < Z.of_nat K)%Z) ->
  exists c, value_counts true x (Some K) = Ok c /\ length c = K /\
    (forall k, k < K -> times (Z.of_nat k) x (nth k c 0)) /\ list_sum c = length x.
Proof. exact (counts_full x K). Qed.
Print Assumptions C171_counts.

Theorem C171_counts_multi x K : (forall l z, In l x -> In z l -> (0 <= z < Z.of_nat K)%Z) ->
  exists c, value_counts_multi x (Some K) = Ok c /\ length c = K /\
    (forall k, k < K -> times (Z.of_nat k) (concat x) (nth k c 0)) /\ list_sum c = list_sum (map (@length Z) x).
Proof. exact (counts_multi_full x K). Qed.
Print Assumptions C171_counts_multi.

(** without the number of classes, one count per class that occurs *)
Theorem C171_compact integers x names : names_of x names ->
  exists c, value_counts integers x None = Ok c /\ length c = length names /\
    (forall i, i < length names -> times (nth i names 0%Z) x (nth i c 0) /\ 0 < nth i c 0) /\ list_sum c = length x.
Proof. exact (compact_full integers x names). Qed.
Print Assumptions C171_compact.

(** labels that are no numbers are counted in sorted order, followed by zeros *)
Theorem C171_words x names K : names_of x names -> match value_counts false x (Some K) with
  | Ok c => length names <= K /\ length c = K /\ (forall i, i < length names -> times (nth i names 0%Z) x (nth i c 0)) /\
      (forall i, length names <= i -> nth i c 0 = 0)
  | Raise e => e = ValueError /\ K < length names
  end.
Proof. exact (words_full x names K). Qed.
Print Assumptions C171_words.

(** a label that is no class is rejected, unless there happen to be as many different labels as classes *)
Theorem C171_outside x names K z : names_of x names -> length names <> K -> In z x -> (Z.of_nat K <= z)%Z ->
  value_counts true x (Some K) = Raise ValueError.
Proof. exact (outside_full x names K z). Qed.
Print Assumptions C171_outside.
Theorem C171_outside_refuted : ~ (forall x K c, value_counts true x (Some K) = Ok c -> forall z, In z x -> (z < Z.of_nat K)%Z) /\
  ~ (forall x K c, value_counts true x (Some K) = Ok c -> forall k, k < K -> times (Z.of_nat k) x (nth k c 0)).
Proof.
  split; intros H.
  - specialize (H [0; 2]%Z 2 [1; 1] eq_refl 2%Z ltac:(cbn; auto)). lia.
  - specialize (H [0; 2]%Z 2 [1; 1] eq_refl 1 ltac:(lia)). discriminate H.
Qed.
Print Assumptions C171_outside_refuted.
(** a negative label is counted as the class that Python finds at this index, over which its own labels win *)
Theorem C171_negative_refuted : ~ (forall x K c, value_counts true x (Some K) = Ok c -> list_sum c = length x).
Proof. intros H. specialize (H [-1; 2; 2]%Z 3 [0; 0; 2] eq_refl). discriminate H. Qed.
Print Assumptions C171_negative_refuted.

(** ... and one further below is an error of its own *)
Theorem C171_far_below x names K z : names_of x names -> length names <> K -> In z x -> (z < - Z.of_nat K)%Z ->
  (forall y, In y x -> (y < Z.of_nat K)%Z) -> value_counts true x (Some K) = Raise IndexError.
Proof. exact (below_full x names K z). Qed.
Print Assumptions C171_far_below.
Example C171_far_below_example : names_of [0; -4; 0]%Z [-4; 0]%Z /\ value_counts true [0; -4; 0]%Z (Some 3) = Raise IndexError.
Proof. split; [|reflexivity]. split; [repeat constructor|]. intros z. cbn. tauto. Qed.

(** the classes that occur, and those that do not *)
Theorem C171_unique labels m : accepted labels m ->
  exists u, get_unique_classes labels m = Ok u /\ NoDup u /\ forall z, In z u <-> used labels z.
Proof. exact (unique_full labels m). Qed.
Print Assumptions C171_unique.
Theorem C171_missing labels m K : accepted labels m -> exists r,
  get_missing_classes labels (Some K) None m = Ok r /\ get_missing_classes labels None (Some K) m = Ok r /\
  StronglySorted lt r /\ forall k, In k r <-> k < K /\ ~ used labels (Z.of_nat k).
Proof. exact (missing_full labels m K). Qed.
Print Assumptions C171_missing.
Theorem C171_missing_options labels m o : get_missing_classes labels None None m = Raise ValueError /\
  forall K, o = Some K -> get_missing_classes labels o o m = Raise ValueError.
Proof. split; [reflexivity|]. intros K ->. reflexivity. Qed.
Print Assumptions C171_missing_options.
(** labels and lists of labels side by side, as the docstring shows them, are never accepted *)
Theorem C171_mixed_refuted labels m y l : In (One y) labels -> In (Many l) labels ->
  get_unique_classes labels m = Raise TypeError.
Proof. exact (mixed_full labels m y l). Qed.
Print Assumptions C171_mixed_refuted.

(** the number of classes: from the predictions, else from the matrix, else the number of classes that occur *)
Theorem C171_number labels matrix m :
  (forall K, get_num_classes labels (Some K) matrix m = Ok K) /\
  (forall a b, matrix = Some (a, b) -> (a = b -> get_num_classes labels None matrix m = Ok a) /\
     (a <> b -> get_num_classes labels None matrix m = Raise ValueError)) /\
  (labels = None -> get_num_classes labels None None m = Raise ValueError) /\
  (forall ls, labels = Some ls -> accepted ls m -> exists u, NoDup u /\ (forall z, In z u <-> used ls z) /\
     get_num_classes labels None None m = Ok (length u)).
Proof.
  split; [reflexivity|]. split.
  { intros a b ->. cbn. split; intros H; [rewrite H, Nat.eqb_refl; reflexivity|]. destruct (Nat.eqb_spec a b); [contradiction|reflexivity]. }
  split; [intros ->; reflexivity|]. intros ls -> H. destruct (unique_full ls m H) as (u & E & Nd & Hu). exists u. split; [exact Nd|]. split; [exact Hu|].
  cbn. unfold num_unique_classes. rewrite E. reflexivity.
Qed.
Print Assumptions C171_number.
(** so labels that skip a class are not below it *)
Theorem C171_number_refuted : ~ (forall ls K, get_num_classes (Some ls) None None None = Ok K -> forall z, used ls z -> (z < Z.of_nat K)%Z).
Proof.
  intros H. specialize (H [One 0; One 2]%Z 2 eq_refl 2%Z). cut (2 < 2)%Z; [lia|apply H]. exists (One 2). split; [right; now left|reflexivity].
Qed.
Print Assumptions C171_number_refuted.

Example C171_example : value_counts true [0; 0; 1; 1; 3]%Z (Some 5) = Ok [2; 2; 0; 1; 0] /\ value_counts true [0; 0; 1; 1; 3]%Z None = Ok [2; 2; 1] /\
  value_counts true [0; 0; 1; 1; 3]%Z (Some 2) = Raise ValueError /\ value_counts false [7; 7; 5]%Z (Some 3) = Ok [1; 2; 0] /\
  value_counts_multi [[0; 1]; [1]; []]%Z (Some 3) = Ok [1; 2; 0] /\
  get_missing_classes [One 0; One 2]%Z (Some 4) None None = Ok [1; 3] /\ get_num_classes (Some [Many [0; 2]; Many []]%Z) None None None = Ok 2.
Proof. repeat split. Qed.
Example C171_hypotheses : names_of [0; 0; 1; 1; 3]%Z [0; 1; 3]%Z /\ accepted [Many [0; 2]; Many []]%Z None /\ accepted [One 0; One 2]%Z (Some false).
Proof.
  split; [split; [repeat constructor|intros z; cbn; intuition]|].
  split; [right; split; [intros e [<-|[<-|[]]]; eauto|discriminate]|left; split; [intros e [<-|[<-|[]]]; eauto|discriminate]].
Qed.
