(** * Model of what Datalab shows: get_info and get_issues with the user's class names
    (cleanlab/datalab/internal/data_issues.py), the report (report.py and issue_manager.py) and the registry of
    checks (issue_manager_factory.py). *)
From Coq Require Import String QArith List Bool Arith.
From Verif Require Import Base ModelLabels ModelDatalab.
Import ListNotations.
Open Scope string_scope.
Open Scope list_scope.
Open Scope nat_scope.

Section Values.
(** [A]: the labels as the user wrote them; [W]: anything else *)
Context {A W : Type}.

(** What an info dictionary may hold: integers, names (None if a label had no name), other objects without a
    shape, lists, arrays (number of dimensions; the entries matter for one dimension only), data frames with
    their number of rows, and dictionaries with whether [json.dumps] accepts them. *)
Inductive pyval :=
| PInt (n : nat) | PName (o : option A) | POther (w : W)
| PList (l : list pyval) | PArr (ndim : nat) (l : list pyval) | PFrame (rows : nat) | PDict (json : bool).
Definition idict := list (string * pyval).

(** ** get_info: data_issues.py:73-162, 198-199 *)

(** The labels of a Datalab: formatted labels (only their number matters) and the map back to the user's. *)
Record labels := Labels { l_count : nat; l_map : list (nat * A) }.
(** data.py:296-301 [is_available] *)
Definition available (d : labels) : bool := negb (Nat.eqb (l_count d) 0 || Nat.eqb (length (l_map d)) 0).

(** [label_map.get] of one entry; anything but an integer is taken to be no key *)
Definition get_name (m : list (nat * A)) (v : pyval) : pyval :=
  match v with PInt n => PName (inv_get m n) | _ => PName None end.
(** [np.vectorize(label_map.get)(labels)] (raises for no labels), and for several labels per example
    [[list(map(label_map.get, label)) for label in labels]] (an entry that is not iterable raises) *)
Definition name_labels (t : task) (m : list (nat * A)) (v : pyval) : res pyval :=
  match t, v with
  | Classification, (PList l | PArr _ l) => match l with [] => Raise ValueError | _ => Ok (PArr 1 (map (get_name m) l)) end
  | Classification, _ => Ok (get_name m v)
  | Multilabel, (PList l | PArr _ l) =>
      do l' <- rmap (fun s => match s with PList x | PArr _ x => Ok (PList (map (get_name m) x)) | _ => Raise TypeError end) l ;
      Ok (PList l')
  | Multilabel, _ => Raise TypeError
  | Regression, v => Ok v
  end.
Definition name_key (t : task) (m : list (nat * A)) (k : string) (d : idict) : res idict :=
  match lookup k d with
  | None => Ok d
  | Some v => do v' <- name_labels t m v ; Ok (dict_set k v' d)
  end.
Definition is_named (t : task) (s : string) : bool :=
  match t with
  | Classification => String.eqb s "label" || String.eqb s "class_imbalance"
  | Regression => false
  | Multilabel => String.eqb s "label"
  end.
(** data_issues.py:98-114, 127-133, 146-162, what [get_info] does to the copied dictionary *)
Definition show_info (t : task) (d : labels) (s : string) (i : idict) : res idict :=
  if is_named t s then
    if negb (available d) then Raise ValueError
    else do i <- name_key t (l_map d) "given_label" i ;
         do i <- name_key t (l_map d) "predicted_label" i ;
         Ok (dict_set "class_names" (PList (map (fun e => PName (Some (snd e))) (l_map d))) i)
  else Ok i.

(** The info dictionaries are objects: the store holds their contents, the outer dictionary [self.info] maps
    names to locations. *)
Record store := Store { objs : list idict; top : list (string * nat) }.
(** what the caller gets hold of: the outer dictionary or the one at a location *)
Inductive handle := Outer | At (loc : nat).
(** data_issues.py:73-85 [_get_info_helper] and the [get_info] of the three strategies *)
Definition get_info (t : task) (d : labels) (name : option string) (st : store) : store * res handle :=
  match name with
  | None => (st, Ok Outer)
  | Some s =>
      match lookup s (top st) with
      | None => (st, Raise ValueError)
      | Some loc =>
          let copied := Store (objs st ++ [nth loc (objs st) []]) (top st) in
          match show_info t d s (nth loc (objs st) []) with
          | Raise e => (copied, Raise e)
          | Ok i => (Store (upd (objs copied) (length (objs st)) i) (top st), Ok (At (length (objs st))))
          end
      end
  end.
(** what the caller may do with a dictionary: [h[k] = v]; [Outer] stands for [h[s][k] = v] *)
Definition caller_write (h : handle) (s k : string) (v : pyval) (st : store) : store :=
  match h with
  | At loc => Store (upd (objs st) loc (dict_set k v (nth loc (objs st) []))) (top st)
  | Outer => match lookup s (top st) with
             | Some loc => Store (upd (objs st) loc (dict_set k v (nth loc (objs st) []))) (top st)
             | None => st
             end
  end.

(** ** get_issues with the columns taken from the info: data_issues.py:209-256 *)
Definition num_entries (v : pyval) : option nat :=
  match v with PList l | PArr _ l => Some (length l) | _ => None end.
(** [assign(k=v)]: a list must be as long as the table; other values are repeated *)
Definition assign (rows : nat) (k : string) (i : idict) : res (string * pyval) :=
  match lookup k i with
  | None => Raise KeyError
  | Some v => match num_entries v with
              | Some n => if Nat.eqb n rows then Ok (k, v) else Raise ValueError
              | None => Ok (k, v)
              end
  end.
Definition extra_columns (s : string) (i : idict) : list string :=
  if String.eqb s "label" then ["given_label"; "predicted_label"]
  else if String.eqb s "near_duplicate" then filter (fun k => smem k (keys i)) ["near_duplicate_sets"; "distance_to_nearest_neighbor"]
  else if String.eqb s "class_imbalance" then ["given_label"]
  else [].
(** the columns of the check and the added ones *)
Definition get_issues_table (t : task) (d : labels) (s : string) (st : data_issues idict)
  : res (frame * idict) :=
  do cols <- get_issues (Some s) st ;
  match lookup s (info st) with
  | None => Raise ValueError
  | Some i => do i <- show_info t d s i ;
              do extra <- rmap (fun k => assign (d_rows st) k i) (extra_columns s i) ;
              Ok (cols, extra)
  end.

(** ** The report *)

(** What is printed for an info value: [str], the first entries of a list and whether "..." follows, the shape
    line of an array, the first rows of a data frame and whether their total follows, or a JSON text. *)
Inductive shown := ShownText (v : pyval) | ShownList (l : list pyval) (dots : bool) | ShownArray (ndim : nat)
                 | ShownRows (n : nat) (total : bool) | ShownJson.
Definition is_list (v : pyval) : bool := match v with PList _ => true | _ => false end.
(** [np.array(s, dtype=object)] of a list of lists: two (or more) dimensions if all have the same length,
    otherwise one dimension whose entries are the lists *)
Definition object_array (l : list pyval) : pyval :=
  match l with
  | [] => PArr 1 []
  | x :: r => if forallb (fun y => match num_entries x, num_entries y with Some a, Some b => Nat.eqb a b | _, _ => false end) r
              then PArr 2 l else PArr 1 l
  end.
(** issue_manager.py:293-311 [truncate]; Python's recursion limit is the fuel *)
Fixpoint truncate (fuel max_len : nat) (v : pyval) : res shown :=
  match fuel with
  | O => Raise Diverges
  | S f =>
      let entries l := if forallb is_list l then truncate f max_len (object_array l)
                       else Ok (ShownList (firstn max_len l) (Nat.ltb max_len (length l))) in
      match v with
      | PArr n l => if Nat.ltb 1 n then Ok (ShownArray n) else if Nat.eqb n 0 then Ok (ShownText v) else entries l
      | PList l => entries l
      | _ => Ok (ShownText v)
      end
  end.
(** issue_manager.py:313-329, one entry *)
Definition show_entry (fuel : nat) (k : string) (v : pyval) : res (option shown) :=
  if String.eqb k "statistics" then Ok None
  else match v with
       | PDict json => if json then Ok (Some ShownJson) else Raise TypeError
       | PFrame n => Ok (Some (ShownRows (Nat.min 5 n) (Nat.ltb 5 n)))
       | v => do s <- truncate fuel 4 v ; Ok (Some s)
       end.

(** the report of one check: name, number of examples with the issue, overall score, the examples shown and
    the info shown *)
Record issue_section := Section_ { s_name : string; s_count : nat; s_score : Q; s_examples : list nat;
                                   s_info : list (string * option shown) }.
(** a report: "No issues found" or the summary table and the sections *)
Inductive report := NoIssues | Report (summary : list row) (sections : list issue_section).

(** issue_manager.py:281-288: the keys to print (a set; listed without repetition) *)
Definition info_keys (levels : list (list string)) (verbosity : nat) (columns : list string) (i : idict) : list string :=
  nodup string_dec
    (filter (fun k => negb (smem k columns))
       (concat (firstn (verbosity + 1) levels) ++ (if Nat.eqb verbosity (length levels) then keys i else []))).

(** the scores of a column *)
Definition numbers (c : list cell) : res (list Q) :=
  rmap (fun x => match x with CNum q => Ok q | _ => Raise OtherError end) c.

Section Report.
(** Oracles: pandas [sort_values(by="num_issues", ascending=False)] of the summary and the order of the rows
    in [sort_values(by=score)]. *)
Context (sort_rows : list row -> list row) (argsort : list Q -> list nat) (fuel : nat).

(** issue_manager.py:190-330 [IssueManager.report]; [levels] lists the verbosity levels 0, 1, ... of the class;
    a score that is no number is not modelled *)
Definition manager_report (levels : list (list string)) (name : string) (cols : frame) (extra : idict)
  (summary : list row) (i : idict) (num_examples verbosity : nat) : res issue_section :=
  if Nat.ltb (length levels) verbosity then Raise ValueError else
  match lookup (score_column name) cols, lookup (flag_column name) cols, summary with
  | Some sc, Some fl, r :: _ =>
      do q <- numbers sc ;
      let ks := info_keys levels verbosity (keys cols ++ keys extra) i in
      do vs <- rmap (fun k => match lookup k i with Some v => Ok (k, v) | None => Raise KeyError end) ks ;
      do sh <- rmap (fun kv => do s <- show_entry fuel (fst kv) (snd kv) ; Ok (fst kv, s)) vs ;
      Ok (Section_ name (num_true fl) (r_score r) (firstn num_examples (argsort q)) sh)
  | _, _, _ => Raise KeyError
  end.

(** adapter/constants.py:7-17 *)
Definition image_issues : list string :=
  ["dark"; "light"; "low_information"; "odd_aspect_ratio"; "odd_size"; "grayscale"; "blurry"].

(** report.py:130-140, the section of one check; [levels_of] is the registry of checks ([None]: not registered,
    from_str raises ValueError). *)
Definition check_report (t : task) (d : labels) (levels_of : string -> option (list (list string)))
  (num_examples verbosity : nat) (st : data_issues idict) (s : string) : res issue_section :=
  match levels_of s with
  | None => Raise ValueError
  | Some levels =>
      do tab <- get_issues_table t d s st ;
      do rows <- get_issue_summary (Some s) st ;
      match lookup s (info st) with
      | None => Raise ValueError
      | Some i => do i <- show_info t d s i ;
                  manager_report levels s (fst tab) (snd tab) rows i num_examples verbosity
      end
  end.
(** report.py:86-144 [get_report], 146-183 [_write_summary] and 185-195 [_get_issue_types] *)
Definition get_report (t : task) (d : labels) (levels_of : string -> option (list (list string)))
  (show_all : bool) (num_examples verbosity : nat) (st : data_issues idict) : res report :=
  let summary := issue_summary st in
  if negb (show_all || Nat.eqb (length summary) 0 || Nat.ltb 0 (list_sum (map r_num summary))) then Ok NoIssues else
  let sorted := sort_rows summary in
  let written := if show_all then sorted else filter (fun r => Nat.ltb 0 (r_num r)) sorted in
  let types := map r_type (filter (fun r => negb (smem (r_type r) image_issues) && (show_all || Nat.ltb 0 (r_num r))) sorted) in
  do sections <- rmap (check_report t d levels_of num_examples verbosity st) types ;
  Ok (Report written sections).
End Report.

(** The verbosity levels of the built-in checks (outlier.py:31-36, label.py:47-52, regression/label.py:40-45,
    multilabel/label.py:38-43, duplicate.py:32-36, noniid.py:97-101, imbalance.py:31-35,
    underperforming_group.py:52-56, data_valuation.py:78-83, null.py:29-33). *)
Definition level_table (t : task) : list (string * list (list string)) :=
  [("outlier", [[]; []; ["average_ood_score"]; []]);
   ("label", match t with
             | Classification => [[]; []; []; ["classes_by_label_quality"; "overlapping_classes"]]
             | _ => [[]; []; []; []]
             end);
   ("near_duplicate", [[]; []; ["threshold"]]);
   ("non_iid", [["p-value"]; []; []]);
   ("class_imbalance", [["Rarest Class"]; []; []]);
   ("underperforming_group", [[]; []; ["threshold"]]);
   ("data_valuation", [[]; []; []; ["average_data_valuation"]]);
   ("null", [[]; []; ["most_common_issue"]])].
Definition builtin_levels (t : task) (s : string) : option (list (list string)) :=
  if smem s (registry t) then lookup s (level_table t) else None.

(** The entries that the [collect_info] of the built-in checks always stores, those named in the verbosity
    levels with the kind of their value (numpy numbers are arrays without dimensions), and [clustering] (label.py:240-270, outlier.py:218-222,
    duplicate.py:123-132, noniid.py:227-244, imbalance.py:71-78, underperforming_group.py:237-266 and 314-330,
    data_valuation.py:150-160, null.py:141-147). *)
Inductive kind := KPlain | KFrame | KJson | KNoJson.
Definition has_kind (k : kind) (v : pyval) : bool :=
  match k, v with
  | KPlain, (PInt _ | PName _ | POther _ | PArr 0 _) => true
  | KFrame, PFrame _ => true
  | KJson, PDict true => true
  | KNoJson, PDict false => true
  | _, _ => false
  end.
Definition collected (t : task) : list (string * list (string * kind)) :=
  [("outlier", [("average_ood_score", KPlain)]);
   ("label", match t with
             | Classification => [("classes_by_label_quality", KFrame); ("overlapping_classes", KFrame)]
             | _ => []
             end);
   ("near_duplicate", [("threshold", KPlain)]);
   ("non_iid", [("p-value", KPlain)]);
   ("class_imbalance", [("Rarest Class", KPlain)]);
   ("underperforming_group", [("threshold", KPlain); ("clustering", KNoJson)]);
   ("data_valuation", [("average_data_valuation", KPlain)]);
   ("null", [("most_common_issue", KJson)])].
End Values.
Arguments pyval : clear implicits.
Arguments idict : clear implicits.
Arguments labels : clear implicits.
Arguments store : clear implicits.
Arguments shown : clear implicits.
Arguments issue_section : clear implicits.
Arguments report : clear implicits.

(** ** issue_manager_factory.py: the registry *)
Section Registry.
(** [C]: classes; [builtin t s] the class registered under a name from the start *)
Context {C : Type} (is_manager : C -> bool) (issue_name : C -> string).

(** [REGISTRY], one dictionary per task *)
Record registries := Reg { r_class : list (string * C); r_regr : list (string * C); r_multi : list (string * C) }.
Definition of_task (t : task) (r : registries) : list (string * C) :=
  match t with Classification => r_class r | Regression => r_regr r | Multilabel => r_multi r end.
(** task.py:44-76 [Task.from_str] *)
Definition parse_task (s : string) : option task :=
  if String.eqb s "classification" then Some Classification
  else if String.eqb s "regression" then Some Regression
  else if String.eqb s "multilabel" then Some Multilabel
  else None.
(** issue_manager_factory.py:140-213 [register] *)
Definition register (c : C) (task_name : string) (r : registries) : res registries :=
  if negb (is_manager c) then Raise ValueError
  else match parse_task task_name with
       | None => Raise ValueError
       | Some Classification => Ok (Reg (dict_set (issue_name c) c (r_class r)) (r_regr r) (r_multi r))
       | Some Regression => Ok (Reg (r_class r) (dict_set (issue_name c) c (r_regr r)) (r_multi r))
       | Some Multilabel => Ok (Reg (r_class r) (r_regr r) (dict_set (issue_name c) c (r_multi r)))
       end.
(** a sequence of calls, exceptions being caught *)
Definition register_all (calls : list (C * string)) (r : registries) : registries :=
  fold_left (fun r c => match register (fst c) (snd c) r with Ok r' => r' | Raise _ => r end) calls r.
(** issue_manager_factory.py:119-132 [from_str] *)
Definition from_str (s : string) (t : task) (r : registries) : res C :=
  match lookup s (of_task t r) with Some c => Ok c | None => Raise ValueError end.
(** issue_manager_factory.py:216-225 [list_possible_issue_types] *)
Definition list_possible_issue_types (t : task) (r : registries) : list string := keys (of_task t r).
End Registry.
Arguments registries : clear implicits.
