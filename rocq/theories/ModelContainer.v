(** * Model of how labels, features and predictions of any Python type are taken in: cleanlab/internal/validation.py

    Not modelled: the warning when both [X] and [pred_probs] are given; [np.asarray] of exotic objects (anything that is
    not one of the listed types is refused before it is converted). *)
From Coq Require Import QArith List ZArith Bool Arith.
From Verif Require Import Base ModelUtil ModelValid.
Import ListNotations.
Open Scope Q_scope.

(** a (nested) Python list *)
Inductive tree := Leaf (l : lab) | Node (ts : list tree).
(** an object passed as labels; arrays are a shape with their entries in C order, a frame is its number of columns with its rows *)
Inductive container :=
| PyList (ts : list tree)
| NdArray (shape : list nat) (entries : list lab)
| Generic (l : lab)
| Series (l : list lab)
| Frame (width : nat) (rows : list (list lab))
| Foreign.

(** the shape [np.asarray] finds in a nested list; ragged lists are refused (numpy >= 1.24) *)
Fixpoint tree_shape (t : tree) : option (list nat) :=
  match t with
  | Leaf _ => Some []
  | Node ts =>
      match ts with
      | [] => Some [0%nat]
      | t0 :: _ =>
          match tree_shape t0 with
          | None => None
          | Some s =>
              if forallb (fun t' => match tree_shape t' with Some s' => if list_eq_dec Nat.eq_dec s s' then true else false | None => false end) ts
              then Some (length ts :: s) else None
          end
      end
  end.
Fixpoint leaves (t : tree) : list lab := match t with Leaf l => [l] | Node ts => concat (map leaves ts) end.
(** one string among the entries makes all of them strings *)
Definition common_type (l : list lab) : list lab := if existsb is_str l then map (fun _ => Str) l else l.

(** validation.py:163-191 [labels_to_array], as a shape with entries *)
Definition labels_to_array (y : container) : res (list nat * list lab) :=
  match y with
  | Series l => Ok ([length l], l)
  | Frame width rows => if negb (Nat.eqb width 1) then Raise ValueError else Ok ([length (concat rows)], concat rows)
  | PyList ts => match tree_shape (Node ts) with
                 | Some s => Ok (s, common_type (leaves (Node ts)))
                 | None => Raise ValueError
                 end
  | NdArray s l => Ok (s, l)
  | Generic l => Ok ([], [l])
  | Foreign => Raise ValueError                                                     (* not reached from [assert_valid_inputs] *)
  end.
(** validation.py:194-212 [labels_to_list_multilabel] *)
Definition labels_to_list_multilabel (y : container) : res (list (list tree)) :=
  match y with
  | PyList ts =>
      if negb (forallb (fun t => match t with Node _ => true | Leaf _ => false end) ts) then Raise ValueError
      else Ok (map (fun t => match t with Node l => l | Leaf _ => [] end) ts)
  | _ => Raise ValueError
  end.

(** an object passed as features; [None], or what it answers to: [len], [.shape[0]], and the three ways of indexing by a list of positions *)
Record data_object := {
  has_len : option nat;
  has_shape : option nat;
  is_pandas : bool;
  iloc_works : list nat -> bool;
  is_torch_dataset : bool;
  subset_works : list nat -> bool;
  getitem_works : list nat -> bool }.
(** validation.py:122-160 [assert_indexing_works] with [idx=None] *)
Definition assert_indexing_works (x : data_object) (length_X : nat) : res unit :=
  let idx := [0; length_X - 1]%nat in
  let is_indexed := (is_pandas x && iloc_works x idx)%bool in
  let is_indexed := if negb is_indexed then (is_torch_dataset x && subset_works x idx)%bool else is_indexed in
  if negb is_indexed then if getitem_works x idx then Ok tt else Raise TypeError else Ok tt.

(** an object passed as predictions: an array with its shape, a numpy scalar, or something else *)
Inductive pred_object := PArray (shape : list nat) (entries : list Q) | PGeneric | PForeign.

(** validation.py:13-81 [assert_valid_inputs] for objects of any type, single-label *)
Definition check_features (x : option data_object) (n : nat) : res unit :=
  match x with
  | None => Raise ValueError
  | Some x =>
      do num_examples <- match has_len x with
                         | Some k => Ok k
                         | None => match has_shape x with Some k => Ok k | None => Raise TypeError end
                         end ;
      if negb (Nat.eqb num_examples n) then Raise ValueError else assert_indexing_works x num_examples
  end.
Definition check_predictions (p : pred_object) (n : nat) (highest_class : res Q) : res unit :=
  match p with
  | PForeign => Raise TypeError
  | PGeneric => Raise TypeError                                                     (* a scalar has no len *)
  | PArray [] _ => Raise TypeError                                                  (* neither has a 0-d array *)
  | PArray (r :: s) entries =>
      if negb (Nat.eqb r n) then Raise ValueError
      else match s with
      | [K] =>
          do h <- highest_class ;
          if Qltb (Qnat K) h then Raise ValueError
          else match entries with
          | [] => Raise ValueError                                                  (* np.min of nothing *)
          | _ => if (Qltb (qminimum entries) (0 - FLOATING_POINT_COMPARISON) ||
                     Qltb (1 + FLOATING_POINT_COMPARISON) (qmaximum entries))%bool then Raise ValueError
                 else Ok tt
          end
      | _ => Raise ValueError
      end
  end.
Definition assert_valid_inputs_any (x : option data_object) (y : container) (pred_probs : option pred_object)
           (allow_missing_classes allow_one_class : bool) : res unit :=
  do _ <- match y with Foreign => Raise TypeError | _ => Ok tt end ;
  do a <- labels_to_array y ;
  let '(shape, entries) := a in
  do _ <- (if negb (Nat.eqb (length shape) 1) then Raise ValueError
           else assert_valid_class_labels entries allow_missing_classes allow_one_class) ;
  match pred_probs with
  | None => check_features x (length entries)
  | Some p => check_predictions p (length entries) (Ok (qmaximum (map val entries) + 1))
  end.

(** len(y) of the object itself, as used when [multi_label=True] *)
Definition container_len (y : container) : res nat :=
  match y with
  | PyList ts => Ok (length ts)
  | NdArray [] _ => Raise TypeError
  | NdArray (n :: _) _ => Ok n
  | Generic _ => Raise TypeError
  | Series l => Ok (length l)
  | Frame _ rows => Ok (length rows)
  | Foreign => Raise TypeError
  end.
(** validation.py:13-81 [assert_valid_inputs] for objects of any type with [multi_label=True] and predictions; the classes of
    an example are numbers (a nested list of anything else is outside the model: it is treated like the number 0) *)
Definition class_value (t : tree) : Q := match t with Leaf l => val l | Node _ => 0 end.
Definition assert_valid_inputs_any_multilabel (y : container) (p : pred_object) : res unit :=
  do _ <- match y with Foreign => Raise TypeError | _ => Ok tt end ;
  do _ <- match p with PForeign => Raise TypeError | PGeneric => Raise TypeError | PArray [] _ => Raise TypeError | _ => Ok tt end ;
  do n <- container_len y ;
  check_predictions p n
    (match y with
     | PyList ts =>
         if negb (forallb (fun t => match t with Node _ => true | Leaf _ => false end) ts) then Raise AssertionError
         else match filter (fun l => negb (Nat.eqb (length l) 0)) (map (fun t => match t with Node l => l | Leaf _ => [] end) ts) with
              | [] => Raise ValueError
              | ne => Ok (qmaximum (map (fun l => qmaximum (map class_value l)) ne) + 1)
              end
     | _ => Raise AssertionError
     end).
