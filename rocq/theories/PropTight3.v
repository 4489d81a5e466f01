(** * Further theorems added after trying wrong programs: C31, C54, C48, C19 *)
From Coq Require Import QArith List ZArith Bool Arith Lia.
From Verif Require Import Base BaseFacts ModelUtil ModelLatent SpecCount ProofTight4.
From Verif Require ModelToken ModelRank ModelBatched ModelLearn PropLearn.
Import ListNotations.
Open Scope Q_scope.

(** ** C31: a sentence without tokens has no score; asking for scores is an error, though its tokens could be scored *)
Theorem C31_empty_sentence : forall labels pp K method ts,
  ModelRank.get_label_quality_scores (concat labels) (concat pp) K method false = Ok ts -> In [] labels ->
  ModelToken.token_get_label_quality_scores labels pp K method = Raise ValueError.
Proof. exact empty_sentence. Qed.
Print Assumptions C31_empty_sentence.
Example C31_empty_sentence_example :
  (exists ts, ModelRank.get_label_quality_scores [0; 1]%nat [[9#10; 1#10]; [2#10; 8#10]] 2 ModelRank.SelfConfidence false = Ok ts) /\
  ModelToken.token_get_label_quality_scores [[0]; []; [1]]%nat [[[9#10; 1#10]]; []; [[2#10; 8#10]]] 2 ModelRank.SelfConfidence = Raise ValueError.
Proof. split; [eexists|]; vm_compute; reflexivity. Qed.

(** ** C54: a class for which the map has no entry is an error *)
Theorem C54_map_too_short : forall entities maps x, In x entities -> (length maps <= x)%nat -> ModelToken.mapping entities maps = Raise IndexError.
Proof. exact map_too_short. Qed.
Print Assumptions C54_map_too_short.
Example C54_map_example :
  ModelToken.mapping [0; 3]%nat [0; 1; 1]%Z = Raise IndexError /\ ModelToken.mapping [0; 2]%nat [0; 1; 1]%Z = Ok [0; 1]%Z.
Proof. split; reflexivity. Qed.

(** ** C48: integer flags with the labels in a Python list: copies of the last two examples get the labels of all *)
Theorem C48_integer_flags_list : forall srt minv js cfg A (d : A) X ds th nm im df0 w s s' tr df z,
  ModelLearn.fit srt minv js cfg d X ModelLearn.Lst ds th nm im (Some (ModelLearn.DFArg df0)) w s = (s', Ok (tr, df)) ->
  ModelLearn.d_issue df0 = Some (ModelLearn.IntCol z) -> Forall (fun z => z = 0%Z \/ z = 1%Z) z -> (2 <= length X)%nat ->
  ModelLearn.tr_X tr = map (fun z => nth (length X - 1 - Z.to_nat z) X d) z /\ ModelLearn.tr_labels tr = ModelLearn.ds_labels ds.
Proof. exact @integer_flags_list. Qed.
Print Assumptions C48_integer_flags_list.
Example C48_integer_flags_list_example : exists s' tr df,
  let table := {| ModelLearn.d_len := 7; ModelLearn.d_issue := Some (ModelLearn.IntCol [0; 0; 0; 0; 0; 0; 1]%Z); ModelLearn.d_quality := None;
                  ModelLearn.d_given := None; ModelLearn.d_predicted := None; ModelLearn.d_weight := None |} in
  PropLearn.fit1 PropLearn.X7 ModelLearn.Lst PropLearn.noisy_data None None None (Some (ModelLearn.DFArg table)) PropLearn.no_weights PropLearn.obj1
    = (s', Ok (tr, df)) /\
  ModelLearn.tr_X tr = [16; 16; 16; 16; 16; 16; 15]%nat /\ ModelLearn.tr_labels tr = [0; 0; 0; 1; 1; 1; 1]%nat.
Proof. do 3 eexists. split; [vm_compute; reflexivity|]. split; reflexivity. Qed.

(** ** C19: the class frequencies that a new object derives from a noise matrix passed to it.  If the matrix, applied to
    the frequencies [p], gives the frequencies of the given labels, the object finds [p]. *)
Theorem C19_passed_noise : forall srt minv js cfg K ds th N inv p sv kw qk s' t,
  ModelLearn.find_label_issues srt minv js cfg ds th (Some N) None sv (ModelLearn.new_object kw qk) = (s', Ok t) ->
  ModelLearn.low_memory cfg = false -> ModelLearn.kw_cj kw = None ->
  (0 < K)%nat -> (forall l, In l (ModelLearn.ds_labels ds) -> (l < K)%nat) -> (forall k, (k < K)%nat -> In k (ModelLearn.ds_labels ds)) ->
  length N = K -> length inv = K -> (forall r, In r inv -> length r = K) -> minv N = Ok inv ->
  (forall i j, (i < K)%nat -> (j < K)%nat -> qsum (tab K (fun k => mget inv i k * mget N k j)) == if Nat.eqb i j then 1 else 0) ->
  (forall k, (k < K)%nat -> qsum (tab K (fun y => mget N k y * p y)) ==
     Qnat (n_labelled k (ModelLearn.ds_labels ds)) / Qnat (length (ModelLearn.ds_labels ds))) ->
  (forall k, (k < K)%nat -> 1 # 1000000 <= p k /\ p k <= 1) -> qsum (tab K p) == 1 ->
  exists py, ModelLearn.c_py s' = Some py /\ length py = K /\ forall k, (k < K)%nat -> nth k py 0 == p k.
Proof. exact passed_noise. Qed.
Print Assumptions C19_passed_noise.
(** seven labels, three of class 0; with P(given 0 | true 0) = 3/4 and P(given 0 | true 1) = 1/4 the true frequencies
    are 5/14 and 9/14 *)
Example C19_passed_noise_example : exists s' t py,
  let N := [[3#4; 1#4]; [1#4; 3#4]] in
  PropLearn.find1 PropLearn.noisy_data None (Some N) None true PropLearn.obj1 = (s', Ok t) /\
  (3#4) * (5#14) + (1#4) * (9#14) == (3#7) /\ (1#4) * (5#14) + (3#4) * (9#14) == (4#7) /\
  ModelLearn.c_py s' = Some py /\ map Qred py = [5#14; 9#14].
Proof. do 3 eexists. split; [vm_compute; reflexivity|]. repeat split; vm_compute; reflexivity. Qed.
