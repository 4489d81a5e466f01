(** * Model of the dataset held by a Datalab: cleanlab/datalab/internal/data.py, and of what a Datalab prints about itself:
    display.py, data_issues.py:394-413 *)
From Coq Require Import String QArith List ZArith Bool Arith.
From Verif Require Import Base ModelLabels ModelDatalab.
Import ListNotations.
Open Scope string_scope.
Open Scope list_scope.

Section Data.
(** [A]: the labels in the dataset; [leb] their order (np.unique); [same]: Python's == on them (nan differs from itself) *)
Context {A : Type} (leb : A -> A -> bool) (same : A -> A -> bool).

(** A column of a Hugging Face Dataset: plain values, a ClassLabel feature (names and stored codes) or lists of values. *)
Inductive column := Plain (l : list A) | Classes (names : list A) (codes : list Z) | Nested (l : list (list A)).
Definition col_length (c : column) : nat :=
  match c with Plain l => length l | Classes _ l => length l | Nested l => length l end.
(** A Dataset object: its identity, which is what [hash] looks at (Dataset inherits object.__hash__), and its columns. *)
Record dataset := Dataset { identity : nat; columns : list (string * column) }.
Definition rows (ds : dataset) : nat := match columns ds with [] => 0%nat | (_, c) :: _ => col_length c end.

(** What a user passes; [exact] tells whether the type is that very class or a subclass of it. [None]: contents which the
    loader of the datasets package refuses. *)
Inductive input :=
| GivenDataset (exact : bool) (ds : dataset)
| GivenFrame (exact : bool) (c : option (list (string * column)))
| GivenDict (exact : bool) (c : option (list (string * column)))
| GivenList (exact : bool) (c : option (list (string * column)))
| GivenString (exact : bool) (s : string)
| GivenSplits                       (* a DatasetDict *)
| GivenOther.
(** what a loader returns: one dataset or a DatasetDict *)
Inductive loaded := One (ds : dataset) | Splits.

(** The outside world: [fresh] the identity of the next object, [exists_path], [extension] (os.path.splitext(s)[1]),
    [hub] (datasets.load_dataset; None: it raises), [read_file] (Dataset.from_text, from_csv, from_json; None: raises). *)
Variable fresh : nat.
Variable exists_path : string -> bool.
Variable extension : string -> string.
Variable hub : string -> option loaded.
Variable read_file : string -> string -> option (list (string * column)).

(** data.py:193-198 [_validate_data]; DatasetDictError and DataFormatError are ValueErrors *)
Definition validate_data (i : input) : res unit :=
  match i with GivenSplits => Raise ValueError | GivenOther => Raise ValueError | _ => Ok tt end.

(** data.py:214-235 [_load_dataset_from_string]; DatasetLoadError is a ValueError *)
Definition load_string (s : string) : res loaded :=
  if negb (exists_path s) then match hub s with Some l => Ok l | None => Raise ValueError end
  else if negb (smem (extension s) [".txt"; ".csv"; ".json"]) then Raise ValueError
  else match read_file (extension s) s with Some c => Ok (One (Dataset fresh c)) | None => Raise OtherError end.

(** data.py:156-168 [_load_data]: [dataset_factory_map[type(data)]] has no entry for subclasses. 195-207: what
    Dataset.from_dict and from_list raise becomes DatasetLoadError; errors of from_pandas are not converted. *)
Definition load_data (i : input) : res loaded :=
  match i with
  | GivenDataset true ds => Ok (One ds)
  | GivenFrame true (Some c) => Ok (One (Dataset fresh c))
  | GivenFrame true None => Raise OtherError
  | GivenDict true (Some c) | GivenList true (Some c) => Ok (One (Dataset fresh c))
  | GivenDict true None | GivenList true None => Raise ValueError
  | GivenString true s => load_string s
  | GivenSplits | GivenOther => Raise ValueError
  | _ => Raise KeyError
  end.

(** the formatted labels: integers, the values themselves, or lists of integers *)
Inductive stored := SInts (l : list Z) | SRaw (l : list A) | SLists (l : list (list nat)).
Definition stored_length (s : stored) : nat :=
  match s with SInts l => length l | SRaw l => length l | SLists l => length l end.
Record label := Label { values : stored; lmap : list (Z * A); lname : option string }.

Definition to_z (m : list (nat * A)) : list (Z * A) := map (fun e => (Z.of_nat (fst e), snd e)) m.

(** data.py:341-389 [MultiClass._extract_labels] and 322-334 [MultiLabel._extract_labels] *)
Definition extract (t : task) (c : column) : res (stored * list (Z * A)) :=
  match t, c with
  | Multilabel, Nested l => do r <- format_multilabels leb l ; Ok (SLists (fst r), to_z (snd r))
  | Multilabel, c => if Nat.eqb (col_length c) 0 then Ok (SLists [], []) else Raise ValueError
  | _, Nested l => if Nat.eqb (length l) 0 then Ok (SRaw [], []) else Raise ValueError
  | Regression, Plain l => Ok (SRaw l, [])
  | Regression, Classes _ codes => Ok (SInts codes, [])
  | Classification, Classes names codes => Ok (SInts codes, combine (map Z.of_nat (seq 0 (length names))) names)
  | Classification, Plain l => do r <- format_labels leb l ; Ok (SInts (map Z.of_nat (fst r)), to_z (snd r))
  end.

(** data.py:258-267 [Label.__init__] with 303-312 [_validate_labels]: a missing column raises KeyError in the extraction,
    before the check that would say so. *)
Definition make_label (t : task) (ds : dataset) (name : option string) : res label :=
  match name with
  | None => Ok (Label (SRaw []) [] None)
  | Some k =>
    match lookup k (columns ds) with
    | None => Raise KeyError
    | Some c =>
        do r <- extract t c ;
        if negb (Nat.eqb (col_length c) (rows ds)) then Raise AssertionError
        else Ok (Label (fst r) (snd r) (Some k))
    end
  end.

(** data.py:142-154 [Data.__init__]; hashing a DatasetDict, a dict, raises TypeError *)
Record data := Data { contents : dataset; hash : nat; labels : label }.
Definition make_data (i : input) (t : task) (name : option string) : res data :=
  do _ <- validate_data i ;
  do l <- load_data i ;
  match l with
  | Splits => Raise TypeError
  | One ds => do lab <- make_label t ds name ; Ok (Data ds (identity ds) lab)
  end.

(** data.py:287-301 *)
Definition label_names (l : label) : list A := map snd (lmap l).
Definition is_available (l : label) : bool := negb (Nat.eqb (stored_length (values l)) 0 || Nat.eqb (length (lmap l)) 0).

(** np.array_equal: lists that are not rectangular cannot be made arrays, which counts as unequal. Integers are
    never compared with raw values unless both are empty: their maps differ. *)
Definition rectangular (l : list (list nat)) : bool :=
  match l with [] => true | r :: l => forallb (fun x => Nat.eqb (length x) (length r)) l end.
Fixpoint all2 {X} (f : X -> X -> bool) (a b : list X) : bool :=
  match a, b with [], [] => true | x :: a, y :: b => f x y && all2 f a b | _, _ => false end.
Definition array_equal (a b : stored) : bool :=
  match a, b with
  | SInts x, SInts y => all2 Z.eqb x y
  | SRaw x, SRaw y => all2 same x y
  | SLists x, SLists y => rectangular x && rectangular y && all2 (all2 Nat.eqb) x y
  | x, y => Nat.eqb (stored_length x) 0 && Nat.eqb (stored_length y) 0
  end.
(** equality of two maps {0: a, 1: b, ...}, whose keys are in order *)
Definition map_equal (a b : list (Z * A)) : bool :=
  all2 (fun x y => Z.eqb (fst x) (fst y) && same (snd x) (snd y)) a b.
Definition name_equal (a b : option string) : bool :=
  match a, b with None, None => true | Some x, Some y => String.eqb x y | _, _ => false end.
(** data.py:274-280 [Label.__eq__] *)
Definition label_equal (a b : label) : bool :=
  array_equal (values a) (values b) && name_equal (lname a) (lname b) && map_equal (lmap a) (lmap b).
(** data.py:173-179 [Data.__eq__] *)
Definition data_equal (a b : data) : bool := Nat.eqb (hash a) (hash b) && label_equal (labels a) (labels b).
End Data.
Arguments column : clear implicits.
Arguments dataset : clear implicits.
Arguments input : clear implicits.
Arguments loaded : clear implicits.
Arguments label : clear implicits.
Arguments data : clear implicits.
Arguments stored : clear implicits.

(** ** display.py: print(datalab) and repr *)
Section Display.
Context {V : Type}.
Variable show : nat -> string.         (** str of an integer *)
(** "num_examples" and "num_classes" of the statistics, where present *)
Variable get_number : string -> list (string * V) -> option nat.
Definition newline : string := String (Ascii.ascii_of_nat 10) "".

(** display.py:19-34; an empty frame has no rows or no columns *)
Definition checks_run (st : data_issues V) : bool := negb (Nat.eqb (d_rows st) 0 || Nat.eqb (length (issues st)) 0).
Definition issues_identified (st : data_issues V) : string :=
  if checks_run st then show (nsum (map r_num (issue_summary st))) else "Not checked".

(** [str(task).capitalize()] *)
Definition task_name (t : task) : string :=
  match t with Classification => "Classification" | Regression => "Regression" | Multilabel => "Multilabel" end.
Definition or_unknown (o : option nat) : string := match o with Some n => show n | None => "Unknown" end.
Definition line (a b : string) : string := (a ++ b)%string.
(** display.py:55-65 [to_string] *)
Definition to_string (t : task) (st : data_issues V) : string :=
  line "Datalab:" (line newline
  (String.concat newline [line "Task: " (task_name t);
                  line "Checks run: " (if checks_run st then "Yes" else "No");
                  line "Number of examples: " (or_unknown (get_number "num_examples" (statistics st)));
                  line "Number of classes: " (or_unknown (get_number "num_classes" (statistics st)));
                  line "Issues identified: " (issues_identified st)])).
(** display.py:42-46 *)
Definition show_number (k : string) (st : data_issues V) : string :=
  match get_number k (statistics st) with Some n => line k (line "=" (show n)) | None => "" end.
(** display.py:69-109 [represent] of the three strategies *)
Definition represent (t : task) (st : data_issues V) : string :=
  let parts := [line "task=" (task_name t); line "checks_run=" (if checks_run st then "True" else "False"); show_number "num_examples" st]
               ++ match t with Regression => [] | _ => [show_number "num_classes" st] end
               ++ [line "issues_identified=" (issues_identified st)] in
  line "Datalab(" (line (String.concat ", " (filter (fun s => negb (String.eqb s "")) parts)) ")").
End Display.
