(** * Model of cleanlab/experimental/coteaching.py

    Per-example losses (cross entropies of the two networks) are given; [weights] is the class weight of each example's label (all one
    without class_weights).  Networks, gradients and optimisers are not modelled. *)
From Coq Require Import QArith List ZArith Bool Arith.
From Verif Require Import Base ModelUtil.
Import ListNotations.
Open Scope Q_scope.

(** F.cross_entropy(reduction="mean") over the examples [idx] *)
Definition weighted_mean (losses weights : list Q) (idx : list nat) : Q :=
  qsum (map (fun i => nth i weights 0 * nth i losses 0) idx) / qsum (map (fun i => nth i weights 0) idx).

(** coteaching.py:22-71 [loss_coteaching]; [forget_rate] between 0 and 1.  Nothing remembered gives nan: [ZeroDivision]. *)
Definition loss_coteaching (srt : list Q -> list nat) (losses1 losses2 weights : list Q) (forget_rate : Q) : res (Q * Q) :=
  let loss_1 := map (fun lw => snd lw * fst lw) (combine losses1 weights) in
  let loss_2 := map (fun lw => snd lw * fst lw) (combine losses2 weights) in
  let ind_1_sorted := srt loss_1 in
  let ind_2_sorted := srt loss_2 in
  let remember_rate := 1 - forget_rate in
  let num_remember := Z.to_nat (truncate (remember_rate * Qnat (length loss_1))) in
  let ind_1_update := firstn num_remember ind_1_sorted in
  let ind_2_update := firstn num_remember ind_2_sorted in
  if Nat.eqb num_remember 0 then Raise ZeroDivision
  else Ok (weighted_mean losses1 weights ind_2_update / Qnat num_remember,
           weighted_mean losses2 weights ind_1_update / Qnat num_remember).

(** coteaching.py:74-83 [initialize_lr_scheduler] *)
Definition initialize_lr_scheduler (lr : Q) (epochs epoch_decay_start : nat) : list Q * list Q :=
  (map (fun i => if Nat.ltb i epoch_decay_start then lr
                 else Qnat (epochs - i) / Qnat (epochs - epoch_decay_start) * lr) (seq 0 epochs),
   map (fun i => if Nat.ltb i epoch_decay_start then 9 # 10 else 9 # 10) (seq 0 epochs)).

(** np.linspace(0, g, n) *)
Definition linspace0 (g : Q) (n : nat) : list Q := map (fun i => Qnat i * (g / Qnat (n - 1))) (seq 0 n).
(** coteaching.py:93-98 [forget_rate_scheduler]; [powered] is forget_rate ** exponent.  The slice assignment raises when the slice is
    shorter than the array assigned (an array of one entry is broadcast). *)
Definition forget_rate_scheduler (epochs : nat) (forget_rate powered : Q) (num_gradual : nat) : res (list Q) :=
  if (Nat.ltb epochs num_gradual && negb (Nat.eqb num_gradual 1))%bool then Raise ValueError
  else Ok (firstn epochs (linspace0 powered num_gradual ++ repeat forget_rate (epochs - num_gradual))).

(** coteaching.py:137-189 [train]: the batches used, and the average of the batch accuracies (0/0 raises) *)
Definition MINIMUM_BATCH_SIZE : nat := 16.
Definition batches_used {A} (batches : list (list A)) : list (list A) :=
  map snd (filter (fun ib => negb (Nat.eqb (fst ib) (length batches - 1) && Nat.ltb (length (snd ib)) MINIMUM_BATCH_SIZE)%bool)
                  (combine (seq 0 (length batches)) batches)).
Definition train_accuracy {A} (accuracy : list A -> Q) (batches : list (list A)) : res Q :=
  match batches_used batches with
  | [] => Raise ZeroDivision
  | used => Ok (qsum (map accuracy used) / Qnat (length used))
  end.

(** coteaching.py:201-227 [evaluate] for one network, given its predicted class of every example; no examples at all: division by zero *)
Definition evaluate (batches : list (list (nat * nat))) : res Q :=
  let step acc batch := let '(correct, total) := acc in
    ((correct + length (filter (fun pl => Nat.eqb (fst pl) (snd pl)) batch))%nat, (total + length batch)%nat) in
  let '(correct, total) := fold_left step batches (0%nat, 0%nat) in
  if Nat.eqb total 0 then Raise ZeroDivision else Ok (100 * Qnat correct / Qnat total).
