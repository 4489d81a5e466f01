(** * Model of cleanlab/experimental/mnist_pytorch.py: the sklearn-style wrapper [CNN] of a PyTorch network

    The network is an argument: [forward w x] are the predicted probabilities of one image by a network with weights [w] in evaluation
    mode (lines 352-366: forward pass, torch.cat and np.exp), [step cw batch w] the weights after one step of the optimiser on a batch.
    The two constants of the file that give the sizes of the data (lines 20-23) are taken to be the sizes of the data. Indices are
    non-negative. Printing and the choice of the device are not modelled. *)
From Coq Require Import String QArith List ZArith Bool Arith.
From Verif Require Import Base ModelPool.
Import ListNotations.
Open Scope string_scope.
Open Scope list_scope.

Section Cnn.
Context {X W : Type}.
Variable forward : W -> X -> list Q.
Variable step : option (list Q) -> list (X * Z) -> W -> W.

(** the images of a dataset with their labels *)
Record images := { i_train : list (X * Z); i_test : list (X * Z) }.
(** lines 43-80 [get_sklearn_digits_dataset] *)
Definition get_dataset (d : images) (loader : string) : res (list (X * Z)) :=
  if String.eqb loader "train" then Ok (i_train d)
  else if String.eqb loader "test" then Ok (i_test d)
  else Raise ValueError.

(** the attributes set by lines 172-208 [__init__] *)
Record cnn := { batch_size : nat; epochs : nat; log_interval : option nat; lr : Q; momentum : Q; no_cuda : bool; seed : Z;
                test_batch_size : nat; loader_of : option string; weights : W }.
(** lines 172-208: [initial seed] are the weights of a new network after torch.manual_seed *)
Definition new_cnn (initial : Z -> W) (d : images) (bs ep : nat) (li : option nat) (l m : Q) (nc : bool) (sd : Z) (tbs : option nat)
    (ld : option string) : cnn :=
  {| batch_size := bs; epochs := ep; log_interval := li; lr := l; momentum := m; no_cuda := nc; seed := sd;
     test_batch_size := match tbs with Some t => t | None => length (i_test d) end;
     loader_of := ld; weights := initial sd |}.
(** sklearn.clone(o): the constructor with the parameters returned by lines 228-238 [get_params]; the other parameters (seed, loader)
    have their defaults *)
Definition clone (initial : Z -> W) (d : images) (o : cnn) : cnn :=
  new_cnn initial d (batch_size o) (epochs o) (log_interval o) (lr o) (momentum o) (no_cuda o) 1 (Some (test_batch_size o)) None.

(** [l[idx]] *)
Definition get {A} (l : list A) (i : nat) : res A :=
  match nth_error l i with Some a => Ok a | None => Raise IndexError end.

(** lines 331-337: the data are guessed from the indices when no loader is named *)
Definition guess_loader (d : images) (idx : option (list nat)) : string :=
  match idx with
  | None => "train"
  | Some idx => if (Nat.eqb (length idx) (length (i_test d)) && forallb (fun ij => Nat.eqb (fst ij) (snd ij)) (combine idx (seq 0 (length (i_test d)))))%bool
                then "test" else "train"
  end.

(** lines 326-370 [predict_proba] *)
Definition predict_proba (d : images) (o : cnn) (idx : option (list nat)) (loader : option string) : res (list (list Q)) :=
  let loader := match loader_of o with Some l => Some l | None => loader end in
  let loader := match loader with Some l => l | None => guess_loader d idx end in
  do dataset <- get_dataset d loader ;
  do dataset <- match idx with
                | None => Ok dataset
                | Some idx => if Nat.eqb (length idx) (length dataset) then Ok dataset else rmap (get dataset) idx
                end ;
  let bs := if String.eqb loader "train" then batch_size o else test_batch_size o in
  if Nat.eqb bs 0 then Raise ValueError
  else match map (map (fun xy => forward (weights o) (fst xy))) (chunks bs dataset) with
       | [] => Raise OtherError
       | outputs => Ok (concat outputs)
       end.
(** lines 320-324 [predict] *)
Definition predict (d : images) (o : cnn) (idx : option (list nat)) (loader : option string) : res (list nat) :=
  do p <- predict_proba d o idx loader ; Ok (map argmax p).

(** position of the first occurrence; np.unique(return_index=True) *)
Fixpoint first_index (z : Z) (l : list Z) : nat :=
  match l with [] => 0 | a :: t => if Z.eqb a z then 0 else S (first_index z t) end.
Fixpoint insert_z (z : Z) (l : list Z) : list Z :=
  match l with
  | [] => [z]
  | a :: t => if (z <? a)%Z then z :: l else if Z.eqb a z then l else a :: insert_z z t
  end.
Definition unique_z (l : list Z) : list Z := fold_right insert_z [] l.
Definition class_weights (labels : list Z) (sample_weight : list Q) : res (list Q) :=
  rmap (get sample_weight) (map (fun z => first_index z labels) (unique_z labels)).

(** [sparse_labels[train_idx] = train_labels] *)
Fixpoint write {A} (l : list A) (updates : list (nat * A)) : res (list A) :=
  match updates with
  | [] => Ok l
  | (i, v) :: t => if Nat.ltb i (length l) then write (upd l i v) t else Raise IndexError
  end.

(** lines 297-318: one epoch; [order] are the positions of train_idx in the order drawn by the sampler.  F.nll_loss raises when the
    number of class weights is not the number of outputs. *)
Definition run_batch (outputs : nat) (cw : option (list Q)) (batch : list (X * Z)) (s : W * list (list (X * Z))) : res (W * list (list (X * Z))) :=
  match cw with
  | Some w => if Nat.eqb (length w) outputs then Ok (step cw batch (fst s), snd s ++ [batch]) else Raise OtherError
  | None => Ok (step cw batch (fst s), snd s ++ [batch])
  end.
Fixpoint run_all {A S} (f : A -> S -> res S) (l : list A) (s : S) : res S :=
  match l with [] => Ok s | a :: t => do s <- f a s ; run_all f t s end.
Definition epoch (outputs bs : nat) (cw : option (list Q)) (dataset : list (X * Z)) (train_idx order : list nat)
    (s : W * list (list (X * Z))) : res (W * list (list (X * Z))) :=
  do idx <- rmap (get train_idx) order ;
  do rows <- rmap (get dataset) idx ;
  run_all (run_batch outputs cw) (chunks bs rows) s.

(** lines 248-318 [fit]: the trained object and the batches it was trained on, one list per epoch *)
Definition fit (outputs : nat) (orders : nat -> list nat) (d : images) (o : cnn) (train_idx : list nat) (train_labels : option (list Z))
    (sample_weight : option (list Q)) (loader : string) : res (cnn * list (list (list (X * Z)))) :=
  let loader := match loader_of o with Some l => l | None => loader end in
  do _ <- match train_labels with
          | Some l => if Nat.eqb (length train_idx) (length l) then Ok tt else Raise ValueError
          | None => Ok tt
          end ;
  do cw <- match sample_weight, train_labels with
           | None, _ => Ok None
           | Some _, None => Raise TypeError
           | Some w, Some l => if Nat.eqb (length w) (length l) then do c <- class_weights l w ; Ok (Some c) else Raise ValueError
           end ;
  do dataset <- get_dataset d loader ;
  do dataset <- match train_labels with
                | None => Ok dataset
                | Some l => do targets <- write (repeat (-1)%Z (length (if String.eqb loader "train" then i_train d else i_test d))) (combine train_idx l) ;
                            Ok (combine (map fst dataset) targets)
                end ;
  if Nat.eqb (batch_size o) 0 then Raise ValueError
  else
    do r <- run_all (fun e s => do t <- epoch outputs (batch_size o) cw dataset train_idx (orders e) (fst s, []) ; Ok (fst t, snd s ++ [snd t]))
                    (seq 1 (epochs o)) (weights o, []) ;
    Ok ({| batch_size := batch_size o; epochs := epochs o; log_interval := log_interval o; lr := lr o; momentum := momentum o;
           no_cuda := no_cuda o; seed := seed o; test_batch_size := test_batch_size o; loader_of := loader_of o; weights := fst r |}, snd r).
End Cnn.

(** F.nll_loss(output, target, weight) for log probabilities [outputs]: the weighted mean of the examples' losses *)
Definition nll_loss (class_weight : option (list Q)) (outputs : list (list Q)) (targets : list nat) : Q :=
  let w t := match class_weight with Some w => nth t w 0 | None => 1 end in
  (qsum (map (fun ot => w (snd ot) * - nth (snd ot) (fst ot) 0) (combine outputs targets)) / qsum (map w targets))%Q.
