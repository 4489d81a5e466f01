(** * C120: the dataset a Datalab holds; C121: what a Datalab prints about itself *)
From Coq Require Import String QArith List ZArith Bool Arith.
From Verif Require Import Base ModelLabels SpecLabels ProofLabels ModelDatalab SpecDatalab ModelData SpecData ProofData.
Import ListNotations.
Open Scope string_scope.
Open Scope list_scope.

(** ** C120 *)
(** the labels of a plain column are numbered 0, 1, ... in their order and every number stands for the label written in the dataset *)
Theorem C120_classification A (leb : A -> A -> bool) fresh exists_path extension hub read_file ds k l :
  total_order leb -> lookup k (columns ds) = Some (Plain l) -> length l = rows ds ->
  exists d zs, make_data leb fresh exists_path extension hub read_file (GivenDataset true ds) Classification (Some k) = Ok d /\ contents d = ds /\
    values (labels d) = SInts zs /\ Forall2 (stands_for (label_names (labels d))) l zs /\
    sorted_names leb (label_names (labels d)) /\ (forall x, In x (label_names (labels d)) <-> In x l) /\
    (is_available (labels d) = true <-> l <> []).
Proof. exact (make_classification leb fresh exists_path extension hub read_file ds k l). Qed.
Theorem C120_multilabel A (leb : A -> A -> bool) fresh exists_path extension hub read_file ds k l :
  total_order leb -> lookup k (columns ds) = Some (Nested l) -> length l = rows ds ->
  exists d ns, make_data leb fresh exists_path extension hub read_file (GivenDataset true ds) Multilabel (Some k) = Ok d /\ contents d = ds /\
    values (labels d) = SLists ns /\ Forall2 (Forall2 (fun x n => nth_error (label_names (labels d)) n = Some x)) l ns /\
    sorted_names leb (label_names (labels d)) /\
    (forall x, In x (label_names (labels d)) <-> exists ls, In ls l /\ In x ls).
Proof. exact (make_multilabel leb fresh exists_path extension hub read_file ds k l). Qed.
(** a ClassLabel column keeps its codes and all its names *)
Theorem C120_class_label A (leb : A -> A -> bool) fresh exists_path extension hub read_file ds k names codes :
  lookup k (columns ds) = Some (Classes names codes) -> length codes = rows ds ->
  exists d, make_data leb fresh exists_path extension hub read_file (GivenDataset true ds) Classification (Some k) = Ok d /\ contents d = ds /\
    values (labels d) = SInts codes /\ label_names (labels d) = names.
Proof. exact (make_class_label leb fresh exists_path extension hub read_file ds k names codes). Qed.
(** regression targets are kept as they are; the Datalab then says it has no labels *)
Theorem C120_regression A (leb : A -> A -> bool) fresh exists_path extension hub read_file ds k l :
  lookup k (columns ds) = Some (Plain l) -> length l = rows ds ->
  exists d, make_data leb fresh exists_path extension hub read_file (GivenDataset true ds) Regression (Some k) = Ok d /\ contents d = ds /\
    values (labels d) = SRaw l /\ label_names (labels d) = [] /\ is_available (labels d) = false.
Proof. exact (make_regression leb fresh exists_path extension hub read_file ds k l). Qed.
Theorem C120_unlabelled A (leb : A -> A -> bool) fresh exists_path extension hub read_file ds t :
  exists d, make_data leb fresh exists_path extension hub read_file (GivenDataset true ds) t None = Ok d /\ contents d = ds /\
    label_names (labels d) = [] /\ is_available (labels d) = false.
Proof. exact (make_unlabelled leb fresh exists_path extension hub read_file ds t). Qed.
(** the same columns give the same labels (or the same error) in every format *)
Theorem C120_formats A (leb : A -> A -> bool) fresh exists_path extension hub read_file i i' c t name : holds i c -> holds i' c ->
  match make_data leb fresh exists_path extension hub read_file i t name, make_data leb fresh exists_path extension hub read_file i' t name with
  | Ok d, Ok d' => columns (contents d) = c /\ columns (contents d') = c /\ labels d = labels d'
  | Raise e, Raise e' => e = e'
  | _, _ => False
  end.
Proof. exact (make_formats leb fresh exists_path extension hub read_file i i' c t name). Qed.
Theorem C120_file A (leb : A -> A -> bool) fresh exists_path extension hub read_file s c t name :
  exists_path s = true -> In (extension s) [".txt"; ".csv"; ".json"] -> read_file (extension s) s = Some c ->
  make_data leb fresh exists_path extension hub read_file (GivenString true s) t name =
  make_data leb fresh exists_path extension hub read_file (GivenDict true (Some c)) t name.
Proof. exact (make_file leb fresh exists_path extension hub read_file s c t name). Qed.
(** what is refused, and how. Findings: an instance of a subclass of a supported class passes the check of the types and fails with
    KeyError; the name of a dataset with several splits fails with TypeError, not with the message made for that case *)
Theorem C120_refused A (leb : A -> A -> bool) fresh exists_path extension hub read_file (i : input A) t name :
  (i = GivenSplits \/ i = GivenOther \/ i = GivenDict true None \/ i = GivenList true None ->
     make_data leb fresh exists_path extension hub read_file i t name = Raise ValueError) /\
  (subclass i -> make_data leb fresh exists_path extension hub read_file i t name = Raise KeyError) /\
  (forall s, i = GivenString true s -> exists_path s = false -> hub s = None ->
     make_data leb fresh exists_path extension hub read_file i t name = Raise ValueError) /\
  (forall s, i = GivenString true s -> exists_path s = false -> hub s = Some Splits ->
     make_data leb fresh exists_path extension hub read_file i t name = Raise TypeError) /\
  (forall s, i = GivenString true s -> exists_path s = true -> ~ In (extension s) [".txt"; ".csv"; ".json"] ->
     make_data leb fresh exists_path extension hub read_file i t name = Raise ValueError).
Proof. exact (make_refused leb fresh exists_path extension hub read_file i t name). Qed.
(** equal datasets are one and the same object, with the same hash and label column *)
Theorem C120_equal A (leb same : A -> A -> bool) fresh exists_path extension hub read_file i i' t t' name name' a b :
  make_data leb fresh exists_path extension hub read_file i t name = Ok a ->
  make_data leb fresh exists_path extension hub read_file i' t' name' = Ok b ->
  data_equal same a b = true -> identity (contents a) = identity (contents b) /\ hash a = hash b /\ lname (labels a) = lname (labels b).
Proof. exact (equal_same_object leb same fresh exists_path extension hub read_file i i' t t' name name' a b). Qed.
(** and hold the same labels under the same names (or none) *)
Theorem C120_equal_labels A (same : A -> A -> bool) a b : (forall x y, same x y = true -> x = y) -> data_equal same a b = true ->
  lmap (labels a) = lmap (labels b) /\
  (values (labels a) = values (labels b) \/ stored_length (values (labels a)) = 0 /\ stored_length (values (labels b)) = 0).
Proof. exact (equal_labels same a b). Qed.
Print Assumptions C120_equal_labels.
Theorem C120_equal_again A (leb same : A -> A -> bool) fresh exists_path extension hub read_file ds t name a b : (forall x, same x x = true) ->
  (forall k l, t = Multilabel -> name = Some k -> lookup k (columns ds) = Some (Nested l) -> equal_lengths l) ->
  make_data leb fresh exists_path extension hub read_file (GivenDataset true ds) t name = Ok a ->
  make_data leb fresh exists_path extension hub read_file (GivenDataset true ds) t name = Ok b -> data_equal same a b = true.
Proof. exact (equal_again leb same fresh exists_path extension hub read_file ds t name a b). Qed.

Definition ex_make := make_data Nat.leb 9 (fun s => negb (String.eqb s "hub/name")) (fun _ => ".parquet") (fun _ => Some (@Splits nat)) (fun _ _ => None).
Definition ex_columns : list (string * column nat) :=
  [("x", Plain [5; 6; 7]); ("y", Plain [30; 10; 30]); ("tags", Nested [[30; 10]; []; [20]]); ("class", Classes [8; 9] [1; -1; 0]%Z)]%nat.
Example C120_example : exists d, ex_make (GivenDict true (Some ex_columns)) Classification (Some "y") = Ok d /\
  values (labels d) = SInts [1; 0; 1]%Z /\ label_names (labels d) = [10; 30]%nat.
Proof. eexists. split; [reflexivity|]. now split. Qed.
Example C120_example_multilabel : exists d, ex_make (GivenDict true (Some ex_columns)) Multilabel (Some "tags") = Ok d /\
  values (labels d) = SLists [[2; 0]; []; [1]]%nat.
Proof. eexists. now split. Qed.
Example C120_example_refused : ex_make (GivenString true "hub/name") Classification None = Raise TypeError /\
  ex_make (GivenDict false (Some ex_columns)) Classification None = Raise KeyError /\
  ex_make (GivenString true "a.parquet") Classification None = Raise ValueError /\
  ex_make (GivenDict true (Some ex_columns)) Classification (Some "z") = Raise KeyError.
Proof. now repeat split. Qed.
(** a dataset without ragged labels equals itself *)
Example C120_example_equal : exists d, ex_make (GivenDataset true (Dataset 3 ex_columns)) Classification (Some "y") = Ok d /\ data_equal Nat.eqb d d = true.
Proof. eexists. now split. Qed.

(** finding: the examples of a ClassLabel column without a label keep the number -1, which stands for no class *)
Theorem C120_unlabelled_code_refuted : exists d zs, ex_make (GivenDict true (Some ex_columns)) Classification (Some "class") = Ok d /\
  values (labels d) = SInts zs /\ In (-1)%Z zs /\ forall x, ~ stands_for (label_names (labels d)) x (-1)%Z.
Proof.
  eexists _, _. split; [reflexivity|]. split; [reflexivity|]. split; [cbn; tauto|]. intros x (H & _). now elim H.
Qed.
(** finding: with different numbers of labels per example a dataset is not equal to itself *)
Theorem C120_ragged_refuted : exists d, ex_make (GivenDict true (Some ex_columns)) Multilabel (Some "tags") = Ok d /\ data_equal Nat.eqb d d = false.
Proof. eexists. now split. Qed.
(** finding: a copy is never equal, so a saved Datalab cannot be loaded with a copy of its own data (after restarting Python,
    say): [hash] looks at the identity of the object *)
Theorem C120_copy_refuted A (leb same : A -> A -> bool) fresh fresh' exists_path extension hub read_file c t name a b : fresh <> fresh' ->
  make_data leb fresh exists_path extension hub read_file (GivenDict true (Some c)) t name = Ok a ->
  make_data leb fresh' exists_path extension hub read_file (GivenDict true (Some c)) t name = Ok b -> data_equal same a b = false.
Proof. exact (copy_not_equal leb same fresh fresh' exists_path extension hub read_file c t name a b). Qed.

(** ** C121 *)
(** print(datalab) after any history of audits of a dataset that is not empty *)
Theorem C121_printed V n (stats : list (string * V)) history (show : nat -> string) num t : (0 < n)%nat ->
  let log := all_outcomes (init_issues n stats) history in
  let st := audit n stats history in
  well_formed_log n log ->
  let number k := match num k (statistics st) with Some n => show n | None => "Unknown" end in
  let nl := String (Ascii.ascii_of_nat 10) "" in
  exists yes count, to_string show num t st =
    ("Datalab:" ++ nl ++ "Task: " ++ task_name t ++ nl ++ "Checks run: " ++ yes ++ nl ++ "Number of examples: " ++ number "num_examples" ++ nl
     ++ "Number of classes: " ++ number "num_classes" ++ nl ++ "Issues identified: " ++ count)%string /\
    ((yes = "No" /\ count = "Not checked" /\ ~ exists t out, In (t, Some out) log) \/
     (yes = "Yes" /\ exists types, types <> [] /\ NoDup types /\ (forall t, In t types <-> exists out, In (t, Some out) log) /\
        count = show (nsum (map (fun t => flagged t (issues st)) types)))).
Proof. exact (audit_printed n stats history show num t). Qed.
Theorem C121_repr V (show : nat -> string) num t (st : data_issues V) :
  let number k := match num k (statistics st) with Some n => (", " ++ k ++ "=" ++ show n)%string | None => ""%string end in
  represent show num t st =
  ("Datalab(task=" ++ task_name t ++ ", checks_run=" ++ (if checks_run st then "True" else "False") ++ number "num_examples" ++
   match t with Regression => "" | _ => number "num_classes" end ++ ", issues_identified=" ++ issues_identified show st ++ ")")%string.
Proof. exact (represent_text show num t st). Qed.

Definition ex_show (n : nat) : string := match n with 0 => "0" | 1 => "1" | 2 => "2" | 3 => "3" | _ => "many" end%nat.
Definition ex_out (name : string) (fl : list bool) (sc : list Q) : manager_out nat :=
  Out (length fl) [(flag_column name, map CFlag fl); (score_column name, map CNum sc)] 0 0%nat [].
Definition ex_history : list (list (check nat)) :=
  [[("label", fun _ => Some (ex_out "label" [true; false] [0%Q; 1%Q])); ("outlier", fun _ => None)];
   [("null", fun _ => Some (ex_out "null" [true; true] [1%Q; 0%Q]))]].
Example C121_hypotheses : well_formed_log 2 (all_outcomes (init_issues 2 []) ex_history).
Proof.
  intros t out [H|[H|[H|[]]]]; try discriminate H; injection H as <- <-; (split; [reflexivity|]);
    [exists [true; false], [0%Q; 1%Q]|exists [true; true], [1%Q; 0%Q]]; now repeat split.
Qed.
Example C121_example : represent ex_show (fun k _ => if String.eqb k "num_examples" then Some 2%nat else None) Classification (audit 2 [] ex_history)
  = "Datalab(task=Classification, checks_run=True, num_examples=2, issues_identified=3)".
Proof. reflexivity. Qed.
Example C121_example_unchecked : represent ex_show (fun _ _ => None) Regression (audit (V:=nat) 2 [] [])
  = "Datalab(task=Regression, checks_run=False, issues_identified=Not checked)".
Proof. reflexivity. Qed.
(** finding: for a dataset without rows the Datalab says that no checks were run whatever was run *)
Theorem C121_empty_refuted : exists history, issue_summary (audit (V:=nat) 0 [] history) <> [] /\ checks_run (audit (V:=nat) 0 [] history) = false.
Proof. exists [[("label", fun _ => Some (ex_out "label" [] []))]]. split; [discriminate|reflexivity]. Qed.

Print Assumptions C120_classification.
Print Assumptions C120_multilabel.
Print Assumptions C120_class_label.
Print Assumptions C120_regression.
Print Assumptions C120_unlabelled.
Print Assumptions C120_formats.
Print Assumptions C120_file.
Print Assumptions C120_refused.
Print Assumptions C120_equal.
Print Assumptions C120_equal_again.
Print Assumptions C120_unlabelled_code_refuted.
Print Assumptions C120_ragged_refuted.
Print Assumptions C120_copy_refuted.
Print Assumptions C121_printed.
Print Assumptions C121_repr.
Print Assumptions C121_empty_refuted.
