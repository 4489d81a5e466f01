(** * Model of the input checks in cleanlab/internal/validation.py

    An entry of the label array is a number or a string ([nan] is not a number here: it fails the integer test like any fraction). *)
From Coq Require Import QArith Qround List ZArith Bool Arith.
From Verif Require Import Base ModelUtil.
Import ListNotations.
Open Scope Q_scope.

Inductive lab := Num (q : Q) | Str.
Definition is_str (l : lab) : bool := match l with Str => true | Num _ => false end.
Definition val (l : lab) : Q := match l with Num q => q | Str => 0 end.
(** np.mod(y, 1) == 0 *)
Definition integral (q : Q) : bool := Qeq_bool (q - inject_Z (Qfloor q)) 0.
(** np.unique of integral values, as integers *)
Fixpoint zinsert (z : Z) (l : list Z) : list Z :=
  match l with
  | [] => [z]
  | y :: t => if Z.ltb z y then z :: y :: t else if Z.eqb z y then l else y :: zinsert z t
  end.
Definition zunique (l : list Z) : list Z := fold_right zinsert [] l.
Fixpoint zlist_eqb (a b : list Z) : bool :=
  match a, b with
  | [], [] => true
  | x :: a', y :: b' => (Z.eqb x y && zlist_eqb a' b')%bool
  | _, _ => false
  end.

(** validation.py:84-112 [assert_valid_class_labels] for a one-dimensional array *)
Definition assert_valid_class_labels (y : list lab) (allow_missing_classes allow_one_class : bool) : res unit :=
  if existsb is_str y then Raise ValueError
  else if negb (forallb (fun l => integral (val l)) y) then Raise ValueError
  else match y with
  | [] => Raise ValueError                                                          (* min of nothing *)
  | _ =>
    if Qltb (qminimum (map val y)) 0 then Raise ValueError
    else
      let unique_classes := zunique (map (fun l => Qfloor (val l)) y) in
      if (negb allow_one_class && Nat.ltb (length unique_classes) 2)%bool then Raise ValueError
      else if (negb allow_missing_classes && negb (zlist_eqb unique_classes (map Z.of_nat (seq 0 (length unique_classes)))))%bool
      then Raise TypeError
      else Ok tt
  end.

(** The features: absent, or an object with (maybe) a number of examples, which can or cannot be indexed by a list of positions. *)
Inductive features := NoX | X (num_examples : option nat) (indexable : bool).

(** validation.py:13-76 [assert_valid_inputs] with [multi_label=False]; predictions are a matrix of [K] columns *)
Definition assert_valid_inputs_full (x : features) (y : list lab) (pred_probs : option (list (list Q) * nat))
           (allow_missing_classes allow_one_class : bool) : res unit :=
  do _ <- assert_valid_class_labels y allow_missing_classes allow_one_class ;
  do _ <- (match pred_probs with
           | Some _ => Ok tt
           | None =>
               match x with
               | NoX => Raise ValueError
               | X None _ => Raise TypeError
               | X (Some n) indexable =>
                   if negb (Nat.eqb n (length y)) then Raise ValueError
                   else if negb indexable then Raise TypeError
                   else Ok tt
               end
           end) ;
  match pred_probs with
  | None => Ok tt
  | Some (rows, K) =>
      if negb (Nat.eqb (length rows) (length y)) then Raise ValueError
      else if Qltb (Qnat K) (qmaximum (map val y) + 1) then Raise ValueError
      else if (Qltb (qminimum (concat rows)) (0 - FLOATING_POINT_COMPARISON) ||
               Qltb (1 + FLOATING_POINT_COMPARISON) (qmaximum (concat rows)))%bool then Raise ValueError
      else Ok tt
  end.

(** validation.py:28-76 with [multi_label=True]: [y] a nested list *)
Definition assert_valid_inputs_multilabel (y : list (list nat)) (rows : list (list Q)) (K : nat) : res unit :=
  if negb (Nat.eqb (length rows) (length y)) then Raise ValueError
  else
    match filter (fun y_i => negb (Nat.eqb (length y_i) 0)) y with
    | [] => Raise ValueError                                                        (* max of nothing *)
    | ne =>
      if Nat.ltb K (nmax (map nmax ne) + 1) then Raise ValueError
      else if (Qltb (qminimum (concat rows)) (0 - FLOATING_POINT_COMPARISON) ||
               Qltb (1 + FLOATING_POINT_COMPARISON) (qmaximum (concat rows)))%bool then Raise ValueError
      else Ok tt
    end.
