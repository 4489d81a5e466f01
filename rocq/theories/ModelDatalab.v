(** * Model of the state kept by Datalab: cleanlab/datalab/internal/data_issues.py, issue_finder.py,
    serialize.py, spurious_correlation.py and the table part of adapter/imagelab.py. *)
From Coq Require Import String QArith List Bool Arith ZArith.
From Verif Require Import Base ModelChecks.
Import ListNotations.
Open Scope string_scope.
Open Scope list_scope.

(** ** Dictionaries: association lists, the first entry of a key counts *)
Fixpoint lookup {A} (k : string) (d : list (string * A)) : option A :=
  match d with
  | [] => None
  | (k', v) :: r => if String.eqb k k' then Some v else lookup k r
  end.
Definition keys {A} (d : list (string * A)) : list string := map fst d.
Definition smem (k : string) (l : list string) : bool := existsb (String.eqb k) l.
(** [d[k] = v] *)
Fixpoint dict_set {A} (k : string) (v : A) (d : list (string * A)) : list (string * A) :=
  match d with
  | [] => [(k, v)]
  | (k', v') :: r => if String.eqb k k' then (k', v) :: r else (k', v') :: dict_set k v r
  end.
(** [d.update(e)] *)
Definition dict_update {A} (d e : list (string * A)) : list (string * A) :=
  fold_left (fun d kv => dict_set (fst kv) (snd kv) d) e d.
Definition dict_pop {A} (k : string) (d : list (string * A)) : list (string * A) :=
  filter (fun kv => negb (String.eqb k (fst kv))) d.
(** Python's [needle in hay] on strings *)
Fixpoint contains (needle hay : string) : bool :=
  prefix needle hay || match hay with EmptyString => false | String _ h => contains needle h end.

(** ** data_issues.py *)
Definition flag_column (name : string) : string := "is_" ++ name ++ "_issue".
Definition score_column (name : string) : string := name ++ "_score".

Inductive cell := CFlag (b : bool) | CNum (q : Q) | CNaN.
(** a data frame: named columns; the number of rows is kept beside it *)
Definition frame := list (string * list cell).

Section DataIssues.
(** [V]: what is stored in the info dictionaries *)
Context {V : Type}.

(** what an issue manager holds after its [find_issues]: its table, the score of its one-row summary
    (issue_manager.py:167-188), its info and the statistics inside its info *)
Record manager_out := Out { m_rows : nat; m_frame : frame; m_score : Q; m_info : V; m_stats : list (string * V) }.

Record row := Row { r_type : string; r_score : Q; r_num : nat }.
(** [statistics] is [info["statistics"]] without its health score, which has its own field ([None]: not
    computed yet or nan); a check named "statistics" is not modelled. *)
Record data_issues := DI { d_rows : nat; issues : frame; issue_summary : list row; info : list (string * V);
                           statistics : list (string * V); health_score : option Q }.

(** data_issues.py:187-196 [DataIssues.__init__] with 394-413 [get_data_statistics] *)
Definition init_issues (n : nat) (stats : list (string * V)) : data_issues := DI n [] [] [] stats None.

(** data_issues.py:306-329 [collect_statistics] *)
Definition collect_statistics (out : manager_out) (st : data_issues) : data_issues :=
  DI (d_rows st) (issues st) (issue_summary st) (info st) (dict_update (statistics st) (m_stats out)) (health_score st).

(** [DataFrame.join(how="outer")] of two frames with indices 0..n-1 and 0..m-1 *)
Definition pad (n : nat) (c : list cell) : list cell := c ++ repeat CNaN (n - length c).
Definition join (n : nat) (f : frame) (m : nat) (g : frame) : frame :=
  map (fun c => (fst c, pad (Nat.max n m) (snd c))) (f ++ g).

(** data_issues.py:331-339 [_update_issues] *)
Definition update_issues (out : manager_out) (st : data_issues) : data_issues :=
  let kept := filter (fun c => negb (smem (fst c) (keys (m_frame out)))) (issues st) in
  DI (Nat.max (d_rows st) (m_rows out)) (join (d_rows st) kept (m_rows out) (m_frame out))
     (issue_summary st) (info st) (statistics st) (health_score st).

(** sum of a Boolean column *)
Definition is_true_cell (c : cell) : bool := match c with CFlag b => b | _ => false end.
Definition num_true (col : list cell) : nat := count_true (map is_true_cell col).

(** data_issues.py:346-381 [collect_issues_from_issue_manager] with [_update_issue_info]; the second
    component tells whether it completed: a table without the flag column raises KeyError after the
    tables were changed. *)
Definition collect_issues (name : string) (out : manager_out) (st : data_issues) : data_issues * bool :=
  let st := update_issues out st in
  let summary :=
    if smem name (map r_type (issue_summary st))
    then filter (fun r => negb (String.eqb (r_type r) name)) (issue_summary st)
    else issue_summary st in
  match lookup (flag_column name) (m_frame out) with
  | None => (DI (d_rows st) (issues st) summary (info st) (statistics st) (health_score st), false)
  | Some col =>
      (DI (d_rows st) (issues st) (summary ++ [Row name (m_score out) (num_true col)])
          (dict_set name (m_info out) (info st)) (statistics st) (health_score st), true)
  end.

(** data_issues.py:386-391 [set_health_score]; the mean of no scores is nan *)
Definition set_health_score (st : data_issues) : data_issues :=
  DI (d_rows st) (issues st) (issue_summary st) (info st) (statistics st)
     (match issue_summary st with [] => None | _ => Some (qmean (map r_score (issue_summary st))) end).

(** A check: its name and what its manager's [find_issues] does, which may depend on everything stored so
    far; [None]: it raises. *)
Definition check := (string * (data_issues -> option manager_out))%type.

(** issue_finder.py:308-317, one turn of the loop *)
Definition run_check (st : data_issues) (c : check) : data_issues :=
  match snd c st with
  | None => st
  | Some out => fst (collect_issues (fst c) out (collect_statistics out st))
  end.
(** issue_finder.py:296-320 [find_issues] once the available checks are known *)
Definition find_issues (st : data_issues) (checks : list check) : data_issues :=
  match checks with
  | [] => st
  | _ => set_health_score (fold_left run_check checks st)
  end.
(** a history of calls on one Datalab *)
Definition audit (n : nat) (stats : list (string * V)) (history : list (list check)) : data_issues :=
  fold_left find_issues history (init_issues n stats).

(** data_issues.py:276-304 [get_issue_summary] *)
Definition get_issue_summary (name : option string) (st : data_issues) : res (list row) :=
  match issue_summary st with
  | [] => Raise ValueError
  | _ =>
    match name with
    | None => Ok (issue_summary st)
    | Some t =>
        match filter (fun r => String.eqb (r_type r) t) (issue_summary st) with
        | [] => Raise ValueError
        | rows => Ok rows
        end
    end
  end.

(** data_issues.py:209-256 [get_issues], the selection of the columns; the columns that the label,
    near-duplicate and class-imbalance checks add from their info are not modelled. *)
Definition get_issues (name : option string) (st : data_issues) : res frame :=
  if Nat.eqb (d_rows st) 0 || Nat.eqb (length (issues st)) 0 then Raise ValueError
  else match name with
       | None => Ok (issues st)
       | Some t =>
           match filter (fun c => contains t (fst c)) (issues st) with
           | [] => Raise ValueError
           | cols => match lookup t (info st) with None => Raise ValueError | Some _ => Ok cols end
           end
       end.

(** ** adapter/imagelab.py: what a CleanVision Imagelab holds after its own [find_issues] *)
Record imagelab := Imagelab { i_rows : nat; i_frame : frame; i_summary : list row; i_info : list (string * V) }.

(** imagelab.py:114-143 [collect_issues_from_imagelab] with [_update_issues_imagelab] and
    [filter_based_on_max_prevalence]; [max_num] is the tenth of the number of rows rounded down. A missing
    column to drop and a missing info raise KeyError. The join is modelled for equal numbers of rows. *)
Definition collect_imagelab (lab : imagelab) (types : list string) (st : data_issues) : res data_issues :=
  let overlapping := filter (fun t => smem t types) (map r_type (issue_summary st)) in
  let overwrite := map flag_column overlapping ++ map score_column overlapping in
  if negb (forallb (fun c => smem c (keys (issues st))) overwrite) then Raise KeyError else
  let kept := filter (fun c => negb (smem (fst c) overwrite)) (issues st) in
  let new := filter (fun c => negb (smem (fst c) (keys kept))) (i_frame lab) in
  let max_num := (d_rows st / 10)%nat in
  let summary := filter (fun r => negb (smem (r_type r) overlapping)) (issue_summary st)
                 ++ filter (fun r => Nat.leb (r_num r) max_num) (i_summary lab) in
  do infos <- rmap (fun t => match lookup t (i_info lab) with Some v => Ok (t, v) | None => Raise KeyError end) types ;
  Ok (DI (d_rows st) (kept ++ new) summary (dict_update (info st) infos) (statistics st) (health_score st)).
End DataIssues.
Arguments manager_out : clear implicits.
Arguments data_issues : clear implicits.
Arguments check : clear implicits.
Arguments imagelab : clear implicits.

(** ** issue_finder.py: which checks run and with which arguments *)
Inductive task := Classification | Regression | Multilabel.

(** issue_finder.py:43-70 *)
Definition args_table (t : task) : list (string * list string) :=
  match t with
  | Classification =>
    [("label", ["pred_probs"; "features"]); ("outlier", ["pred_probs"; "features"; "knn_graph"]);
     ("near_duplicate", ["features"; "knn_graph"]); ("non_iid", ["pred_probs"; "features"; "knn_graph"]);
     ("underperforming_group", ["pred_probs"; "features"; "knn_graph"; "cluster_ids"]);
     ("data_valuation", ["features"; "knn_graph"]); ("class_imbalance", []); ("null", ["features"])]
  | Regression =>
    [("label", ["features"; "predictions"]); ("outlier", ["features"; "knn_graph"]);
     ("near_duplicate", ["features"; "knn_graph"]); ("non_iid", ["features"; "knn_graph"]);
     ("data_valuation", ["features"; "knn_graph"]); ("null", ["features"])]
  | Multilabel =>
    [("label", ["pred_probs"]); ("outlier", ["features"; "knn_graph"]);
     ("near_duplicate", ["features"; "knn_graph"]); ("non_iid", ["features"; "knn_graph"]);
     ("data_valuation", ["features"; "knn_graph"]); ("null", ["features"])]
  end.
(** issue_manager_factory.py:228-267 [list_default_issue_types] *)
Definition default_issue_types (t : task) : list string :=
  match t with
  | Classification => ["null"; "label"; "outlier"; "near_duplicate"; "non_iid"; "class_imbalance"; "underperforming_group"]
  | _ => ["null"; "label"; "outlier"; "near_duplicate"; "non_iid"]
  end.
(** issue_manager_factory.py:47-74 [REGISTRY], the registered names *)
Definition registry (t : task) : list string :=
  match t with
  | Classification => ["outlier"; "label"; "near_duplicate"; "non_iid"; "class_imbalance"; "underperforming_group"; "data_valuation"; "null"]
  | _ => ["label"; "outlier"; "near_duplicate"; "non_iid"; "data_valuation"; "null"]
  end.

Section IssueTypes.
(** [V]: the values passed as arguments; Python's None is [None] *)
Context {V : Type}.
Definition args := list (string * option V).
(** The nested dictionaries are objects: [heap] holds their contents and a dictionary of issue types maps
    names to positions in the heap. *)
Definition heap := list args.
Definition deref (h : heap) (r : nat) : args := nth r h [].

Definition given (kv : string * option V) : bool := match snd kv with None => false | Some _ => true end.

(** issue_finder.py:73-162, the three [_resolve_required_args_for_*] *)
Definition resolve_required_args (t : task) (kwargs : args) : list (string * args) :=
  let args_dict := map (fun e => (fst e, map (fun a => (a, match lookup a kwargs with Some v => v | None => None end)) (snd e))) (args_table t) in
  let keep_empty k := match lookup k (args_table t) with Some [] => true | _ => false end in
  let nonempty (v : args) := match v with [] => false | _ => true end in
  let args_dict := map (fun e => (fst e, filter given (snd e)))
                       (filter (fun e => nonempty (snd e) || keep_empty (fst e)) args_dict) in
  filter (fun e => nonempty (snd e) || keep_empty (fst e)) args_dict.

(** issue_finder.py:369-378 [_check_missing_args]: updates the nested dictionaries in place *)
Definition check_missing_args (required : list (string * args)) (h : heap) (types : list (string * nat)) : heap :=
  fold_left (fun h e =>
    let req := match lookup (fst e) required with Some a => a | None => [] end in
    let missing := filter (fun kv => negb (smem (fst kv) (keys (deref h (snd e))))) req in
    upd h (snd e) (dict_update (deref h (snd e)) missing)) types h.

(** issue_finder.py:380-394 [_validate_issue_types_dict] *)
Definition validate_issue_types (types required : list (string * args)) : bool :=
  forallb (fun e => match lookup (fst e) types with
                    | None => true
                    | Some a => forallb (fun kv => smem (fst kv) (keys a)) (snd e)
                    end) required.

(** the values of [names] that are keys, in the order of [names] *)
Definition restrict {A} (names : list string) (d : list (string * A)) : list (string * A) :=
  flat_map (fun k => match lookup k d with Some v => [(k, v)] | None => [] end) names.

(** issue_finder.py:322-367 [_set_issue_types]; the new contents of the heap are returned too *)
Definition set_issue_types (t : task) (h : heap) (types : option (list (string * nat))) (required : list (string * args))
  : heap * res (list (string * args)) :=
  let h' := match types with Some ts => check_missing_args required h ts | None => h end in
  let copy := match types with
              | Some ts => map (fun e => (fst e, deref h' (snd e))) ts
              | None => restrict (default_issue_types t) required
              end in
  (h', if validate_issue_types copy required
       then Ok (map (fun e => (fst e, filter given (snd e))) copy) else Raise ValueError).

Definition has_value (k : string) (a : args) : bool :=
  match lookup k a with Some (Some _) => true | _ => false end.

(** issue_finder.py:396-489 [get_available_issue_types]. The test [self.task == "classification"] of line
    449 compares an Enum member with a string and is always false, so lines 453-463 are never run. *)
Definition get_available_issue_types (t : task) (has_labels : bool) (pred_probs features knn_graph : option V)
    (h : heap) (types : option (list (string * nat))) : heap * res (list (string * args)) :=
  let kwargs := [("pred_probs", pred_probs); ("features", features); ("knn_graph", knn_graph)]
                ++ match t, pred_probs with Regression, Some p => [("predictions", Some p)] | _, _ => [] end in
  let required := resolve_required_args t kwargs in
  let (h', r) := set_issue_types t h types required in
  (h', do copy <- r ;
       let copy := match types with None => restrict (default_issue_types t) copy | Some _ => copy end in
       let copy := if negb has_labels && match t with Regression => false | _ => true end
                   then dict_pop "label" copy else copy in
       let copy := if negb has_labels && match t with Classification => true | _ => false end
                   then dict_pop "class_imbalance" copy else copy in
       Ok (match lookup "underperforming_group" copy with
           | None => copy
           | Some a => if has_value "pred_probs" a && (has_value "features" a || has_value "knn_graph" a || has_value "cluster_ids" a)
                       then copy else dict_pop "underperforming_group" copy
           end)).

(** issue_manager_factory.py:119-137 [from_list]: an unregistered name raises before any check runs *)
Definition checks_to_run (t : task) (has_labels : bool) (pred_probs features knn_graph : option V)
    (h : heap) (types : option (list (string * nat))) : heap * res (list (string * args)) :=
  match types with
  | Some [] => (h, Ok [])                    (* datalab.py:335-339 *)
  | _ =>
    let (h', r) := get_available_issue_types t has_labels pred_probs features knn_graph h types in
    (h', do copy <- r ; if forallb (fun e => smem (fst e) (registry t)) copy then Ok copy else Raise ValueError)
  end.
End IssueTypes.
Arguments args : clear implicits.
Arguments heap : clear implicits.

(** ** serialize.py *)
Section Serialize.
(** [obj]: Datalab objects; [byte]: file contents are lists of bytes; [pickle]/[unpickle]: pickle.dump/load *)
Context {obj byte : Type}.
Variable pickle : obj -> list byte.
Variable unpickle : list byte -> option obj.
Variable csv_issues csv_summary dataset : obj -> list byte.
Variable set_data : obj -> obj.      (** the object with its dataset replaced *)

(** the files of a saved Datalab in a directory; [None]: the file does not exist *)
Record folder := Folder { f_object : option (list byte); f_issues : option (list byte);
                          f_summary : option (list byte); f_data : option (list byte) }.
Definition empty_folder : folder := Folder None None None None.
(** a path of the file system: missing or a folder *)
Definition path := option folder.

(** The states the path goes through during [serialize] (serialize.py:54-85 with 27-41), one after the other:
    opening a file for writing empties it, then its bytes arrive one by one. The last state is that of a
    completed save; a crash leaves any of them. *)
Definition writes (content : list byte) : list (list byte) := map (fun k => firstn k content) (seq 0 (S (length content))).
Definition save_states (p : path) (o : obj) (force : bool) : res (list path) :=
  match p, force with
  | Some _, false => Raise FileExistsError
  | _, _ =>
    let d := match p with Some d => d | None => empty_folder end in
    let d1 := Folder (Some (pickle o)) (f_issues d) (f_summary d) (f_data d) in
    let d2 := Folder (Some (pickle o)) (Some (csv_issues o)) (f_summary d) (f_data d) in
    let d3 := Folder (Some (pickle o)) (Some (csv_issues o)) (Some (csv_summary o)) (f_data d) in
    Ok ([p; Some d]
        ++ map (fun c => Some (Folder (Some c) (f_issues d) (f_summary d) (f_data d))) (writes (pickle o))
        ++ map (fun c => Some (Folder (f_object d1) (Some c) (f_summary d1) (f_data d1))) (writes (csv_issues o))
        ++ map (fun c => Some (Folder (f_object d2) (f_issues d2) (Some c) (f_data d2))) (writes (csv_summary o))
        ++ map (fun c => Some (Folder (f_object d3) (f_issues d3) (f_summary d3) (Some c))) (writes (dataset o)))
  end.
Definition save (p : path) (o : obj) (force : bool) : res path :=
  do states <- save_states p o force ; Ok (last states None).

(** serialize.py:87-123 [deserialize]; the pickled object carries its tables, so the csv files are not read.
    [data]: hash and length of the dataset passed by the user; [hash_of]/[labels_of]: hash of the dataset
    the object was made from and number of its labels. *)
Variable hash_of labels_of : obj -> nat.
Definition load (p : path) (data : option (nat * nat)) : res obj :=
  match p with
  | None => Raise ValueError
  | Some d =>
    match f_object d with
    | None => Raise FileNotFoundError
    | Some content =>
      match unpickle content with
      | None => Raise OtherError          (* EOFError or UnpicklingError *)
      | Some o =>
        match data with
        | None => Ok o
        | Some (hash, n) =>
            if negb (Nat.eqb hash (hash_of o)) then Raise ValueError
            else if negb (Nat.eqb n (labels_of o)) then Raise ValueError
            else Ok (set_data o)
        end
      end
    end
  end.
End Serialize.
Arguments folder : clear implicits.
Arguments path : clear implicits.

(** ** spurious_correlation.py *)
(** 48-51 [_get_baseline]: the position of the most frequent class, not its count, over the number of labels *)
Definition baseline (labels : list nat) : Q := Qnat (argmax (map Qnat (bincount labels))) / Qnat (length labels).
(** 84-113 [relative_room_for_improvement]: [numerator / denominator] *)
Definition relative_room (base accuracy : Q) : Q :=
  let denominator := if Qeq_bool base 1 then 1 - base + (1 # 100000000) else 1 - base in
  qmin 1 ((1 - accuracy) / denominator).
(** 33-46 [calculate_correlations]: [accuracy] of a classifier trained on each property (cross_val_score) *)
Definition correlations (accuracies : list (string * Q)) (labels : list nat) : list (string * Q) :=
  map (fun e => (fst e, relative_room (baseline labels) (snd e))) accuracies.
(** imagelab.py:248-252 [_get_correlated_properties] *)
Definition correlated_properties (threshold : Q) (corr : list (string * Q)) : list string :=
  map fst (filter (fun e => Qltb (snd e) threshold) corr).
