(** * Vocabulary for the properties of Datalab's tables, arguments and files *)
From Coq Require Import String QArith List Bool Arith.
From Verif Require Import Base ModelDatalab.
Import ListNotations.
Open Scope string_scope.
Open Scope list_scope.

Section History.
Context {V : Type}.
(** what each check of a call produced, in order ([None]: it raised) *)
Fixpoint outcomes (st : data_issues V) (checks : list (check V)) : list (string * option (manager_out V)) :=
  match checks with
  | [] => []
  | c :: r => (fst c, snd c st) :: outcomes (run_check st c) r
  end.
Fixpoint all_outcomes (st : data_issues V) (history : list (list (check V))) : list (string * option (manager_out V)) :=
  match history with
  | [] => []
  | cs :: r => outcomes st cs ++ all_outcomes (find_issues st cs) r
  end.
(** the latest successful outcome of a check *)
Definition latest (t : string) (log : list (string * option (manager_out V))) (o : option (manager_out V)) : Prop :=
  match o with
  | Some out => exists a b, log = a ++ (t, Some out) :: b /\ forall out', ~ In (t, Some out') b
  | None => forall out', ~ In (t, Some out') log
  end.
(** the successful outcomes in order *)
Fixpoint successes (log : list (string * option (manager_out V))) : list (manager_out V) :=
  match log with [] => [] | (_, Some o) :: r => o :: successes r | _ :: r => successes r end.
(** a check's table has one flag column and one score column, as long as the data *)
Definition well_formed (n : nat) (t : string) (out : manager_out V) : Prop :=
  m_rows out = n /\ exists fl sc, length fl = n /\ length sc = n /\
    m_frame out = [(flag_column t, map CFlag fl); (score_column t, map CNum sc)].
Definition flags_of (t : string) (out : manager_out V) : option (list cell) := lookup (flag_column t) (m_frame out).
Definition scores_of (t : string) (out : manager_out V) : option (list cell) := lookup (score_column t) (m_frame out).
Definition well_formed_log (n : nat) (log : list (string * option (manager_out V))) : Prop :=
  forall t out, In (t, Some out) log -> well_formed n t out.
(** a check that raises whatever is stored *)
Definition failing (t : string) : check V := (t, fun _ => None).
End History.

(** the names of the built-in checks of all tasks and of the image checks *)
Definition builtin_names : list string :=
  ["outlier"; "label"; "near_duplicate"; "non_iid"; "class_imbalance"; "underperforming_group"; "data_valuation"; "null";
   "dark"; "light"; "low_information"; "odd_aspect_ratio"; "odd_size"; "grayscale"; "blurry"].

(** ** arguments *)
Definition provided {V} (o : option V) : Prop := o <> None.
(** which inputs a check can work from, written out per task *)
Definition usable {V} (t : task) (pred_probs features knn_graph : option V) (name : string) : Prop :=
  let p := provided pred_probs in let f := provided features in let g := provided knn_graph in
  (name = "null" /\ f)
  \/ (name = "near_duplicate" /\ (f \/ g))
  \/ (name = "outlier" /\ (f \/ g \/ (t = Classification /\ p)))
  \/ (name = "non_iid" /\ (f \/ g \/ (t = Classification /\ p)))
  \/ (name = "label" /\ (p \/ (t <> Multilabel /\ f)))
  \/ (name = "class_imbalance" /\ t = Classification)
  \/ (name = "underperforming_group" /\ t = Classification /\ p /\ (f \/ g)).
Definition needs_labels (t : task) (name : string) : Prop :=
  (name = "label" /\ t <> Regression) \/ (name = "class_imbalance").

(** value of an argument in a dictionary; a None value counts as absent *)
Definition value_of {V} (k : string) (a : args V) : option V :=
  match lookup k a with Some v => v | None => None end.
(** the value of an input of the call under the name that checks of this task use *)
Definition input {V} (t : task) (pred_probs features knn_graph : option V) (k : string) : option V :=
  if String.eqb k "features" then features
  else if String.eqb k "knn_graph" then knn_graph
  else if String.eqb k "pred_probs" then pred_probs
  else if String.eqb k "predictions" then match t with Regression => pred_probs | _ => None end
  else None.
(** the arguments a check takes from the inputs of the call *)
Definition takes (t : task) (name k : string) : Prop :=
  exists l, lookup name (args_table t) = Some l /\ In k l.

(** the class with the highest count (the smallest such class), used as the intended baseline *)
Definition majority_fraction (labels : list nat) (p : Q) : Prop :=
  exists c, In c labels /\ (forall d, In d labels -> (count d labels <= count c labels)%nat)
            /\ p == Qnat (count c labels) / Qnat (length labels).
(** a proper initial segment *)
Definition truncation {A} (c l : list A) : Prop := exists x r, l = c ++ x :: r.
