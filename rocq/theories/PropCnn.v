(** * The sklearn-style wrapper of a PyTorch network (C125, C126) *)
From Coq Require Import String QArith List ZArith Bool Arith Lia Permutation.
From Verif Require Import SpecCount Base ModelCnn SpecCnn ProofCnn.
Import ListNotations.
Open Scope list_scope.

(** ** C125: row r of the predictions belongs to example idx[r] *)
Theorem C125_rows : forall X W (forward : W -> X -> list Q) d o idx loader l ds,
  in_use o loader = Some l -> get_dataset d l = Ok ds -> (1 <= batch_size o)%nat -> (1 <= test_batch_size o)%nat ->
  idx <> [] -> (forall i, In i idx -> (i < length ds)%nat) -> (length idx <> length ds \/ idx = seq 0 (length ds)) ->
  exists p, predict_proba forward d o (Some idx) loader = Ok p /\ length p = length idx /\
    forall r i xy, nth_error idx r = Some i -> nth_error ds i = Some xy -> nth_error p r = Some (forward (weights o) (fst xy)).
Proof. exact @predict_rows. Qed.
Print Assumptions C125_rows.
(** without indices: one row per example, in the order of the data *)
Theorem C125_all : forall X W (forward : W -> X -> list Q) d o loader l ds,
  in_use o loader = Some l -> get_dataset d l = Ok ds -> (1 <= batch_size o)%nat -> (1 <= test_batch_size o)%nat -> ds <> [] ->
  predict_proba forward d o None loader = Ok (map (fun xy => forward (weights o) (fst xy)) ds).
Proof. exact @predict_all. Qed.
Print Assumptions C125_all.
(** [predict]: the class of largest predicted probability (the first of several) for each row of [predict_proba] *)
Theorem C125_predict : forall X W (forward : W -> X -> list Q) d o idx loader p,
  predict_proba forward d o idx loader = Ok p -> (forall r, In r p -> r <> []) ->
  exists y, predict forward d o idx loader = Ok y /\ length y = length p /\
    forall r, (r < length p)%nat -> most_likely (nth r p []) (nth r y 0%nat).
Proof. exact C125_predict_full. Qed.
Print Assumptions C125_predict.

(** the sizes of the batches do not matter *)
Theorem C125_batch_sizes : forall X W (forward : W -> X -> list Q) d o o' idx loader,
  loader_of o' = loader_of o -> weights o' = weights o ->
  (1 <= batch_size o)%nat -> (1 <= test_batch_size o)%nat -> (1 <= batch_size o')%nat -> (1 <= test_batch_size o')%nat ->
  predict_proba forward d o' idx loader = predict_proba forward d o idx loader.
Proof. exact @predict_batches. Qed.
Print Assumptions C125_batch_sizes.
(** which data are used when none are named: the test data exactly for the indices 0, 1, ... of all test examples *)
Theorem C125_unnamed : forall X W (forward : W -> X -> list Q) d o idx, loader_of o = None ->
  predict_proba forward d o None None = predict_proba forward d o None (Some "train"%string) /\
  (idx = seq 0 (length (i_test d)) -> predict_proba forward d o (Some idx) None = predict_proba forward d o (Some idx) (Some "test"%string)) /\
  (idx <> seq 0 (length (i_test d)) -> predict_proba forward d o (Some idx) None = predict_proba forward d o (Some idx) (Some "train"%string)).
Proof. exact @predict_guess. Qed.
Print Assumptions C125_unnamed.
(** no examples and unknown examples are refused *)
Theorem C125_rejects : forall X W (forward : W -> X -> list Q) d o idx loader l ds,
  in_use o loader = Some l -> get_dataset d l = Ok ds -> (1 <= batch_size o)%nat -> (1 <= test_batch_size o)%nat ->
  (idx = [] -> ds <> [] -> predict_proba forward d o (Some idx) loader = Raise OtherError) /\
  ((exists i, In i idx /\ (length ds <= i)%nat) -> length idx <> length ds -> predict_proba forward d o (Some idx) loader = Raise IndexError).
Proof. exact @predict_rejects. Qed.
Print Assumptions C125_rejects.

(** *** a dataset of four training and two test images; a network that answers with the image and its weight *)
Definition data4 : @images Q := {| i_train := [(1#10, 0%Z); (2#10, 1%Z); (3#10, 0%Z); (4#10, 1%Z)]; i_test := [(8#10, 0%Z); (9#10, 1%Z)] |}.
Definition forward1 (w x : Q) : list Q := [x; w].
Definition step1 (cw : option (list Q)) (b : list (Q * Z)) (w : Q) : Q := (w + 1)%Q.
Definition cnn1 (loader : option string) : @cnn Q := new_cnn (fun z => inject_Z z) data4 2 1 None (1#100) (1#2) true 5 None loader.
Example C125_example :
  predict_proba forward1 data4 (cnn1 None) (Some [3; 1; 3]%nat) None = Ok [[4#10; 5]; [2#10; 5]; [4#10; 5]] /\
  in_use (cnn1 None) (Some "train"%string) = Some "train"%string /\ get_dataset data4 "train" = Ok (i_train data4).
Proof. repeat split. Qed.
(** as many indices as there are examples: the predictions are in the order of the data, not of the indices *)
Theorem C125_reordered_refuted :
  predict_proba forward1 data4 (cnn1 None) (Some [3; 2; 1; 0]%nat) (Some "train"%string) = Ok [[1#10; 5]; [2#10; 5]; [3#10; 5]; [4#10; 5]] /\
  predict_proba forward1 data4 (cnn1 None) (Some [3; 3; 3; 3]%nat) (Some "train"%string) = Ok [[1#10; 5]; [2#10; 5]; [3#10; 5]; [4#10; 5]].
Proof. split; reflexivity. Qed.
(** the first training examples, as many as there are test examples: the answers are those for the test examples *)
Theorem C125_first_examples_refuted :
  predict_proba forward1 data4 (cnn1 None) (Some [0; 1]%nat) None = Ok [[8#10; 5]; [9#10; 5]] /\
  predict_proba forward1 data4 (cnn1 None) (Some [1; 0]%nat) None = Ok [[2#10; 5]; [1#10; 5]].
Proof. split; reflexivity. Qed.

(** ** C126: every epoch trains once on every example of train_idx, with the label given for it *)
Theorem C126_epochs : forall X W (step : option (list Q) -> list (X * Z) -> W -> W) K orders d o idx labels sw loader o' log,
  fit step K orders d o idx labels sw loader = Ok (o', log) ->
  (forall e, Permutation (orders e) (seq 0 (length idx))) ->
  exists ds, get_dataset d (dataset_of o loader) = Ok ds /\ length log = epochs o /\
    forall e batches, nth_error log e = Some batches ->
      (forall pre b post, batches = pre ++ b :: post -> b <> [] /\ (length b <= batch_size o)%nat /\ (post <> [] -> length b = batch_size o)) /\
      exists examples, length examples = length idx /\ Permutation (concat batches) examples /\
        forall k i, nth_error idx k = Some i -> exists x y, nth_error examples k = Some (x, y) /\
          (exists y0, nth_error ds i = Some (x, y0) /\ (labels = None -> y = y0)) /\
          (NoDup idx -> forall l, labels = Some l -> nth_error l k = Some y).
Proof. exact @fit_epochs. Qed.
Print Assumptions C126_epochs.
(** the new weights of the network come from these batches alone, in this order *)
Theorem C126_result : forall X W (step : option (list Q) -> list (X * Z) -> W -> W) K orders d o idx labels sw loader o' log,
  fit step K orders d o idx labels sw loader = Ok (o', log) ->
  exists cw, (sw = None -> cw = None) /\ (forall l w, labels = Some l -> sw = Some w -> exists c, class_weights l w = Ok c /\ cw = Some c) /\
  weights o' = fold_left (fun w b => step cw b w) (concat log) (weights o).
Proof. exact @fit_result. Qed.
Print Assumptions C126_result.
Theorem C126_completes : forall X W (step : option (list Q) -> list (X * Z) -> W -> W) K orders d o idx labels loader ds,
  get_dataset d (dataset_of o loader) = Ok ds -> (1 <= batch_size o)%nat ->
  (forall i, In i idx -> (i < length ds)%nat) -> (forall l, labels = Some l -> length l = length idx) ->
  (forall e, Permutation (orders e) (seq 0 (length idx))) ->
  exists r, fit step K orders d o idx labels None loader = Ok r.
Proof. exact @fit_completes. Qed.
Print Assumptions C126_completes.
(** sample weights: training succeeds only if every class occurs, and then a class is weighted by its first example *)
Theorem C126_class_weights : forall X W (step : option (list Q) -> list (X * Z) -> W -> W) K orders d o idx l w loader o' log,
  fit step K orders d o idx (Some l) (Some w) loader = Ok (o', log) ->
  (forall e, Permutation (orders e) (seq 0 (length idx))) -> (1 <= epochs o)%nat -> idx <> [] ->
  (forall z, In z l -> (0 <= z < Z.of_nat K)%Z) ->
  (forall c, (c < K)%nat -> In (Z.of_nat c) l) /\
  exists cw, class_weights l w = Ok cw /\ length cw = K /\
    forall c, (c < K)%nat -> exists k, nth_error l k = Some (Z.of_nat c) /\ (forall k', nth_error l k' = Some (Z.of_nat c) -> (k <= k')%nat) /\ nth_error cw c = nth_error w k.
Proof. exact @fit_weights. Qed.
Print Assumptions C126_class_weights.
(** weights that depend on the label only (as those computed by CleanLearning): the loss of a batch is the mean of its examples' losses,
    each weighted by the example's own weight [own] *)
Theorem C126_loss : forall K l w cw (outputs : list (list Q)) targets own,
  class_weights l w = Ok cw -> length w = length l -> (forall z, In z l -> (0 <= z < Z.of_nat K)%Z) -> length cw = K ->
  (forall i j a b z, nth_error l i = Some z -> nth_error l j = Some z -> nth_error w i = Some a -> nth_error w j = Some b -> a = b) ->
  length outputs = length targets -> length own = length targets ->
  (forall r t, nth_error targets r = Some t -> exists k, nth_error l k = Some (Z.of_nat t) /\ nth_error w k = nth_error own r) ->
  (nll_loss (Some cw) outputs targets == qsum (map (fun r => nth r own 0 * - nth (nth r targets 0%nat) (nth r outputs []) 0) (seq 0 (length targets))) / qsum own)%Q.
Proof. exact @loss_own_weights. Qed.
Print Assumptions C126_loss.

Definition orders1 (n : nat) (e : nat) : list nat := rev (seq 0 n).
Example C126_example : exists o',
  fit step1 2 (orders1 3) data4 (cnn1 None) [3; 0; 2]%nat (Some [1; 1; 0]%Z) (Some [4; 4; 2]) "train"
    = Ok (o', [[[(3#10, 0%Z); (1#10, 1%Z)]; [(4#10, 1%Z)]]]) /\
  class_weights [1; 1; 0]%Z [4; 4; 2] = Ok [2; 4] /\ weights o' = (5 + 1 + 1)%Q /\
  (nll_loss (Some [2; 4]) [[-1; -2]; [-3; -1]] [0; 1]%nat == (2 * 1 + 4 * 1) / (2 + 4))%Q.
Proof. eexists. repeat split. Qed.
Example C126_orders : forall e, Permutation (orders1 3 e) (seq 0 3).
Proof. intros e. apply Permutation_sym, Permutation_rev. Qed.
(** an example listed twice is trained on twice with the label given last *)
Theorem C126_repeated_refuted : exists o',
  fit step1 2 (orders1 2) data4 (cnn1 None) [3; 3]%nat (Some [0; 1]%Z) None "train" = Ok (o', [[[(4#10, 1%Z); (4#10, 1%Z)]]]).
Proof. eexists. reflexivity. Qed.
(** a class that does not occur in the labels: sample weights make training fail *)
Theorem C126_missing_class_refuted :
  fit step1 2 (orders1 2) data4 (cnn1 None) [3; 1]%nat (Some [1; 1]%Z) (Some [1; 1]) "train" = Raise OtherError.
Proof. reflexivity. Qed.
(** sample weights that differ within a class: the weights of the later examples are ignored *)
Theorem C126_own_weights_refuted : class_weights [0; 0; 1; 1]%Z [1; 5; 2; 7] = Ok [1; 2].
Proof. reflexivity. Qed.
(** a clone, as cross-validation makes it, has forgotten the data and the seed it was created with *)
Theorem C126_clone_refuted : forall X W (initial : Z -> W) (d : @images X) o,
  loader_of (clone initial d o) = None /\ seed (clone initial d o) = 1%Z /\ weights (clone initial d o) = initial 1%Z.
Proof. intros. repeat split. Qed.
Example C126_clone_example :
  predict_proba forward1 data4 (cnn1 (Some "test"%string)) None None = Ok [[8#10; 5]; [9#10; 5]] /\
  predict_proba forward1 data4 (clone (fun z => inject_Z z) data4 (cnn1 (Some "test"%string))) None None = Ok [[1#10; 1]; [2#10; 1]; [3#10; 1]; [4#10; 1]].
Proof. split; reflexivity. Qed.
