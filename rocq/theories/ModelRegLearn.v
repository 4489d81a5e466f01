(** * Model of cleanlab/regression/learn.py [CleanLearning]: the object between calls and its [fit] *)
From Coq Require Import QArith List ZArith Bool Arith String.
From Verif Require Import Base ModelUtil ModelCV ModelRegression.
From Verif Require ModelLearn.
Import ListNotations.
Open Scope Q_scope.

(** keyword arguments, by name; of two entries with one name the first counts *)
Definition dict := list (string * Z).
Fixpoint lookup (k : string) (d : dict) : option Z :=
  match d with [] => None | (k', v) :: d => if String.eqb k k' then Some v else lookup k d end.
(** [{**a, **b}] *)
Definition merged (a b : dict) : dict := b ++ a.
Definition has (k : string) (d : dict) : bool := match lookup k d with Some _ => true | None => false end.

(** The targets [y]: their values ([None]: nan) and how the caller holds them - a one-dimensional array or Series,
    a Python list, an (N, 1) array, or a DataFrame of one column.  Values that are not numbers are not modelled. *)
Inductive holder := Vector | PyList | Column | OneColumnFrame.
Record targets := { y_in : holder; y_values : list (option Q); y_int : bool }.
Definition value (v : option Q) : Q := match v with Some q => q | None => 0 end.
Definition y_numbers (y : targets) : list Q := map value (y_values y).
(** The features: rows in an array, or in a Python list *)
Record features (A : Type) := { x_is_list : bool; x_rows : list A }.
Arguments x_is_list {A}. Arguments x_rows {A}.

(** internal/regression_utils.py:51-69 [assert_valid_regression_inputs] (with 72-113 of that file): a single target is
    squeezed to no dimension and rejected. *)
Definition assert_valid_regression_inputs {A} (X : features A) (y : targets) : res (list A * list Q) :=
  if Nat.leb (List.length (y_values y)) 1 then Raise ValueError
  else if existsb (fun v => match v with None => true | Some _ => false end) (y_values y) then Raise ValueError
  else if negb (Nat.eqb (List.length (x_rows X)) (List.length (y_values y))) then Raise ValueError
  else Ok (x_rows X, y_numbers y).

(** A table of label issues: number of rows and the columns is_label_issue, label_quality, given_label, predicted_label *)
Record frame := {
  f_len : nat;
  f_issue : option ModelLearn.flag_col;
  f_quality : option (list Q);
  f_given : option (list (option Q));
  f_predicted : option (list Q) }.
Definition frame_of (t : issues_table) : frame :=
  {| f_len := List.length (t_is_issue t); f_issue := Some (ModelLearn.BoolCol (t_is_issue t)); f_quality := Some (t_quality t);
     f_given := Some (map Some (t_given t)); f_predicted := Some (t_predicted t) |}.

(** What [fit] accepts as [label_issues]: a DataFrame, a boolean array or Series of a shape ((N,) or (N, 1)), an array of
    another type, anything else. *)
Inductive issues_arg := Frame (f : frame) | BoolArray (column : bool) (m : list bool) | OtherArray | NoArray.

(** the entries of [given_label != y] for a column of the table: nan differs from everything *)
Definition differs (a b : option Q) : bool :=
  match a, b with Some a, Some b => negb (Qeq_bool a b) | _, _ => true end.
(** learn.py:837-871 [_process_label_issues_arg].  labels_to_array keeps an (N, 1) array as it is
    (internal/validation.py:163-191): then [given_label != y] compares every row with every target, and a boolean array of
    shape (N,) has another shape. *)
Definition process_label_issues_arg (a : issues_arg) (y : targets) : res frame :=
  let n := List.length (y_values y) in
  match a with
  | Frame f =>
      match f_issue f with
      | None => Raise ValueError
      | Some _ =>
          if negb (Nat.eqb (f_len f) n) then Raise ValueError
          else match f_given f with
               | None => Ok f
               | Some g =>
                   let wrong := match y_in y with
                                | Column => existsb (fun a => existsb (fun b => differs a b) (y_values y)) g
                                | _ => existsb (fun ab => differs (fst ab) (snd ab)) (combine g (y_values y))
                                end in
                   if wrong then Raise ValueError else Ok f
               end
      end
  | BoolArray column m =>
      let same := match y_in y with Column => column | _ => negb column end in
      if (negb same || negb (Nat.eqb (List.length m) n))%bool then Raise ValueError
      else if column then Raise ValueError                              (* pd.DataFrame: data must be 1-dimensional *)
      else Ok {| f_len := n; f_issue := Some (ModelLearn.BoolCol m); f_quality := None; f_given := Some (y_values y); f_predicted := None |}
  | OtherArray => Raise ValueError
  | NoArray => Raise ValueError
  end.

(** internal/util.py:444-452 [subset_labels]: a list is filtered by the truth of the entries of the inverted flags.
    Flags that are integers are modelled for targets in arrays and lists only (pandas would look the numbers up as row or
    column names). *)
Definition truthy (c : ModelLearn.flag_col) : list bool :=
  match c with ModelLearn.BoolCol m => map negb m | ModelLearn.IntCol z => map (fun z => negb (Z.eqb (- z - 1) 0)) z end.
Definition subset_targets (y : targets) (c : ModelLearn.flag_col) : res (list Q) :=
  let comprehension := if Nat.leb (List.length (y_values y)) (List.length (truthy c)) then Ok (select (truthy c) (y_numbers y)) else Raise TypeError in
  match y_in y with
  | PyList => comprehension
  | _ => match ModelLearn.np_subset 0 c (y_numbers y) with Ok r => Ok r | Raise _ => comprehension end
  end.
(** internal/util.py:455-468 [subset_data] *)
Definition subset_features {A} (d : A) (X : features A) (c : ModelLearn.flag_col) : res (list A) :=
  if x_is_list X then Raise TypeError else ModelLearn.subset_data d c (x_rows X).

(** one call of the [fit] of the wrapped model *)
Record training (A : Type) := { tr_X : list A; tr_y : list Q; tr_kwargs : dict; tr_weights : option (list Q) }.
Arguments tr_X {A}. Arguments tr_y {A}. Arguments tr_kwargs {A}. Arguments tr_weights {A}.

(** the keyword arguments of find_label_issues that [fit] passes on *)
Record find_kwargs := {
  k_uncertainty : option uncertainty;
  k_coarse : list Q;
  k_fine : Z;
  k_save_space : bool }.

(** the object: learn.py:128-164 [__init__]; [g_runs] counts the runs of find_label_issues (each draws its own folds),
    [g_trained] lists the completed calls of [self.model.fit] *)
Record object (A : Type) := {
  g_table : option frame;
  g_mask : option ModelLearn.flag_col;
  g_k : option Q;
  g_runs : nat;
  g_trained : list (training A) }.
Arguments g_table {A}. Arguments g_mask {A}. Arguments g_k {A}. Arguments g_runs {A}. Arguments g_trained {A}.
Definition new_object {A} : object A := {| g_table := None; g_mask := None; g_k := None; g_runs := 0; g_trained := [] |}.

Section RegLearn.
  Context {A : Type}.
  Variable d : A.
  Variable srt : list Q -> list nat.
  Variable sq ex : Q -> Q.
  Variable model : dict -> list A -> list Q -> list A -> list Q.     (** fit with keyword arguments on training data, predict *)
  Variable folds : nat -> nat -> nat -> nat -> list (list nat).      (** by run: the KFold splits of its calls *)
  Variable accepts_weights : bool.                                   (** the model's [fit] has a parameter sample_weight *)
  Variable trains : training A -> res unit.                          (** the final training may fail *)
  Variable cv_n_folds n_boot : nat.
  Variable include_aleatoric : bool.

  Variable k_left : object A -> option Q.                            (** [self.k] after a run that failed *)

  (** learn.py:362-517 [find_label_issues].  [self.k] is set before the predictions with it are made (440, 449-450), the
      table only at the end. *)
  Definition find_label_issues (X : features A) (y : targets) (kw : dict) (o : find_kwargs) (s : object A) : object A * res frame :=
    match assert_valid_regression_inputs X y with
    | Raise e => (s, Raise e)
    | Ok (rows, ys) =>
        match ModelRegression.find_label_issues d srt sq ex (model kw) (model []) (folds (g_runs s)) cv_n_folds n_boot include_aleatoric
                rows ys (y_int y) (k_uncertainty o) (k_coarse o) (k_fine o) with
        | Raise e => ({| g_table := g_table s; g_mask := g_mask s; g_k := k_left s; g_runs := S (g_runs s); g_trained := g_trained s |}, Raise e)
        | Ok (k, t) =>
            let f := frame_of t in
            ({| g_table := if k_save_space o then g_table s else Some f; g_mask := if k_save_space o then g_mask s else f_issue f;
                g_k := Some k; g_runs := S (g_runs s); g_trained := g_trained s |}, Ok f)
        end
    end.

  (** learn.py:166-306 [fit] *)
  Definition fit (X : features A) (y : targets) (label_issues : option issues_arg) (sample_weight : option (list Q)) (o : find_kwargs)
             (model_kwargs model_final_kwargs : dict) (s : object A) : object A * res unit :=
    match assert_valid_regression_inputs X y with
    | Raise e => (s, Raise e)
    | Ok _ =>
        let final := merged model_kwargs model_final_kwargs in
        if (has "sample_weight" model_kwargs || has "sample_weight" final)%bool then (s, Raise ValueError)
        else if match sample_weight with
                | Some w => (negb accepts_weights || negb (Nat.eqb (List.length w) (List.length (x_rows X))))%bool
                | None => false end then (s, Raise ValueError)
        else
          let '(s, found) := match label_issues with
                             | None => let '(s, r) := find_label_issues X y model_kwargs o s in (s, do f <- r ; Ok (Frame f))
                             | Some a => (s, Ok a)
                             end in
          match (do a <- found ; process_label_issues_arg a y) with
          | Raise e => (s, Raise e)
          | Ok f =>
              let s := {| g_table := Some f; g_mask := f_issue f; g_k := g_k s; g_runs := g_runs s; g_trained := g_trained s |} in
              match f_issue f with
              | None => (s, Raise KeyError)
              | Some c =>
                  match (do y' <- subset_targets y c ;
                         do x' <- subset_features d X c ;
                         do w' <- match sample_weight with
                                  | Some w => do w <- ModelLearn.np_subset 0 c w ; Ok (Some w)
                                  | None => Ok None end ;
                         let tr := {| tr_X := x'; tr_y := y'; tr_kwargs := final; tr_weights := w' |} in
                         do _ <- trains tr ; Ok tr) with
                  | Raise e => (s, Raise e)
                  | Ok tr => ({| g_table := g_table s; g_mask := g_mask s; g_k := g_k s; g_runs := g_runs s; g_trained := g_trained s ++ [tr] |}, Ok tt)
                  end
              end
          end
    end.

  (** learn.py:608-623 [save_space] *)
  Definition save_space (s : object A) : object A :=
    {| g_table := None; g_mask := None; g_k := None; g_runs := g_runs s; g_trained := g_trained s |}.
  (** learn.py:519-535 [get_label_issues] *)
  Definition get_label_issues (s : object A) : option frame := g_table s.
End RegLearn.
