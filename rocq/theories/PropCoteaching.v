(** * C100 to C102: co-teaching *)
From Coq Require Import QArith List ZArith Bool Arith Lia Lqa.
From Verif Require Import Base BaseFacts ModelUtil ModelCoteaching SpecBatchFlags SpecCoteaching ProofCoteaching.
Import ListNotations.
Open Scope Q_scope.

(** C100: each network's loss is taken over the examples on which the OTHER network has the smallest loss, and over
    int((1 - forget rate) * size of the batch) of them.  What is missing: the value returned is the average of those losses divided once more
    by the number of examples (see [C100_average_refuted]). *)
Theorem C100_exchange_partial : forall srt losses1 losses2 weights f, argsort_ok srt -> length losses2 = length losses1 -> length weights = length losses1 ->
  (forall i, (i < length losses1)%nat -> 0 < nth i weights 0) -> 0 <= f -> f <= 1 -> 1 <= (1 - f) * Qnat (length losses1) ->
  exists n idx1 idx2 r1 r2 a1 a2, loss_coteaching srt losses1 losses2 weights f = Ok (r1, r2) /\
    Qnat n <= (1 - f) * Qnat (length losses1) /\ (1 - f) * Qnat (length losses1) < Qnat n + 1 /\ length idx1 = n /\ length idx2 = n /\
    n_lowest (weigh losses1 weights) n idx1 /\ n_lowest (weigh losses2 weights) n idx2 /\
    weighted_average losses1 weights idx2 a1 /\ weighted_average losses2 weights idx1 a2 /\
    r1 * Qnat n == a1 /\ r2 * Qnat n == a2.
Proof. exact loss_full. Qed.
Print Assumptions C100_exchange_partial.

(** C100: a forget rate leaving less than one example gives no loss at all (nan). *)
Theorem C100_nothing_remembered : forall srt losses1 losses2 weights f, argsort_ok srt -> length losses2 = length losses1 -> length weights = length losses1 ->
  0 <= f -> f <= 1 -> (1 - f) * Qnat (length losses1) < 1 -> loss_coteaching srt losses1 losses2 weights f = Raise ZeroDivision.
Proof. exact loss_nothing. Qed.
Print Assumptions C100_nothing_remembered.

(** C100 as one would state it is false: with nothing forgotten, both networks having loss 1 on both examples, the loss returned is 1/2. *)
Theorem C100_average_refuted : ~ (forall srt losses1 losses2 weights, argsort_ok srt -> length losses2 = length losses1 -> length weights = length losses1 ->
  (forall i, (i < length losses1)%nat -> 0 < nth i weights 0) -> losses1 <> [] ->
  exists r1 r2, loss_coteaching srt losses1 losses2 weights 0 = Ok (r1, r2) /\
    weighted_average losses1 weights (seq 0 (length losses1)) r1 /\ weighted_average losses2 weights (seq 0 (length losses1)) r2).
Proof.
  intros H. specialize (H argsort_ins [1; 1] [1; 1] [1; 1] argsort_ins_ok eq_refl eq_refl).
  destruct H as (r1 & r2 & E & A & _); [intros [|[|i]] Hi; simpl in *; try lia; reflexivity|discriminate|].
  vm_compute in E. inversion E; subst. unfold weighted_average in A. vm_compute in A. discriminate.
Qed.
Print Assumptions C100_average_refuted.

(** the network with losses [losses1] keeps examples 1 and 3, the other one 0 and 3: half of the four examples is forgotten *)
Example C100_example : argsort_ok argsort_ins /\ loss_coteaching argsort_ins [4; 1; 3; 2] [1; 4; 3; 2] [1; 1; 1; 1] (1 # 2) =
  Ok (weighted_mean [4; 1; 3; 2] [1; 1; 1; 1] [0; 3]%nat / 2, weighted_mean [1; 4; 3; 2] [1; 1; 1; 1] [1; 3]%nat / 2).
Proof. split; [exact argsort_ins_ok|vm_compute; reflexivity]. Qed.

(** C101: with forget_rate ** exponent at most forget_rate (every exponent from one), the fraction forgotten never decreases, lies between 0 and
    the forget rate, starts at 0, reaches the powered rate at the last of the gradual epochs and is the forget rate after them. *)
Theorem C101_schedule_partial : forall epochs f powered num_gradual, (num_gradual <= epochs)%nat -> 0 <= powered -> powered <= f ->
  exists s, forget_rate_scheduler epochs f powered num_gradual = Ok s /\ length s = epochs /\
  (forall i, (i < epochs)%nat -> 0 <= nth i s 0 <= f) /\
  (forall i j, (i <= j)%nat -> (j < epochs)%nat -> nth i s 0 <= nth j s 0) /\
  ((1 <= num_gradual)%nat -> nth 0 s 0 == 0) /\ ((2 <= num_gradual)%nat -> nth (num_gradual - 1) s 0 == powered) /\
  (forall i, (num_gradual <= i)%nat -> (i < epochs)%nat -> nth i s 0 = f).
Proof. exact schedule_full. Qed.
Print Assumptions C101_schedule_partial.

(** C101: more gradual epochs than epochs is an error, not a truncated schedule. *)
Theorem C101_schedule_rejects : forall epochs f powered num_gradual, (epochs < num_gradual)%nat -> (2 <= num_gradual)%nat ->
  forget_rate_scheduler epochs f powered num_gradual = Raise ValueError.
Proof. exact schedule_rejects. Qed.
Print Assumptions C101_schedule_rejects.

(** C101 is false for exponents below one (then forget_rate ** exponent exceeds the forget rate): the fraction forgotten overshoots and falls back. *)
Theorem C101_schedule_refuted : forall epochs f powered num_gradual, (2 <= num_gradual)%nat -> (num_gradual < epochs)%nat -> f < powered ->
  exists s, forget_rate_scheduler epochs f powered num_gradual = Ok s /\ nth num_gradual s 0 < nth (num_gradual - 1) s 0.
Proof. exact schedule_drop. Qed.
Print Assumptions C101_schedule_refuted.

(** C101: the learning rate is constant up to the start of the decay, then strictly decreasing, positive throughout; the momentum is 0.9. *)
Theorem C101_learning_rate : forall lr epochs start, 0 < lr -> let alpha := fst (initialize_lr_scheduler lr epochs start) in
  length alpha = epochs /\ length (snd (initialize_lr_scheduler lr epochs start)) = epochs /\
  (forall i, (i < epochs)%nat -> 0 < nth i alpha 0 <= lr) /\
  (forall i, (i < epochs)%nat -> (i <= start)%nat -> nth i alpha 0 == lr) /\
  (forall i j, (i < j)%nat -> (j < epochs)%nat -> nth j alpha 0 <= nth i alpha 0 /\ ((start <= i)%nat -> nth j alpha 0 < nth i alpha 0)) /\
  (forall i, (i < epochs)%nat -> nth i (snd (initialize_lr_scheduler lr epochs start)) 0 == 9 # 10).
Proof. exact lr_full. Qed.
Print Assumptions C101_learning_rate.

(** forget rate 1/4 with exponent 2 over 3 of 5 epochs; with exponent 1/2 (powered rate 1/2) it overshoots *)
Example C101_example : exists s s', forget_rate_scheduler 5 (1 # 4) (1 # 16) 3 = Ok s /\ forget_rate_scheduler 5 (1 # 4) (1 # 2) 3 = Ok s' /\
  nth 1 s 0 == 1 # 32 /\ nth 4 s 0 == 1 # 4 /\ nth 2 s' 0 == 1 # 2 /\ nth 3 s' 0 == 1 # 4.
Proof. eexists. eexists. repeat split. Qed.

(** C102: evaluation gives the percentage of correct predictions over all examples, however they are batched. *)
Theorem C102_evaluate : forall batches, (concat batches <> [] -> exists r, evaluate batches = Ok r /\
    r * Qnat (length (concat batches)) == 100 * Qnat (length (filter (fun pl => Nat.eqb (fst pl) (snd pl)) (concat batches))) /\ 0 <= r <= 100) /\
  (concat batches = [] -> evaluate batches = Raise ZeroDivision).
Proof. exact evaluate_full. Qed.
Print Assumptions C102_evaluate.

(** C102: training uses every batch but a last one of fewer than 16 examples. *)
Theorem C102_batches : forall (A : Type) (l : list (list A)) (b : list A),
  ((length b < 16)%nat -> batches_used (l ++ [b]) = l) /\ ((16 <= length b)%nat -> batches_used (l ++ [b]) = l ++ [b]).
Proof. exact @batches_full. Qed.
Print Assumptions C102_batches.
(** C102: the training accuracy reported is the plain average of the accuracies of the batches used, whatever their sizes ... *)
Theorem C102_train_accuracy : forall (A : Type) (acc : list A -> Q) (l : list (list A)) (b : list A), l <> [] ->
  let used := if Nat.ltb (length b) 16 then l else l ++ [b] in
  exists r, train_accuracy acc (l ++ [b]) = Ok r /\ r * Qnat (length used) == qsum (map acc used).
Proof. exact @train_full. Qed.
Print Assumptions C102_train_accuracy.
(** ... and a training set of fewer than 16 examples is an error (division by zero) after training nothing. *)
Theorem C102_small_training_set : forall (A : Type) (acc : list A -> Q) (b : list A), (length b < 16)%nat -> train_accuracy acc [b] = Raise ZeroDivision.
Proof. exact @single_small. Qed.
Print Assumptions C102_small_training_set.
Example C102_example : exists r, evaluate [[(0, 0); (1, 0)]; [(2, 2)]]%nat = Ok r /\ r == 200 # 3.
Proof. eexists. split; [reflexivity|reflexivity]. Qed.
