(** * Model of the per-dataset checks under cleanlab/datalab/internal/issue_manager: class imbalance,
    null values, identifier columns, underperforming group, data valuation (with
    cleanlab/data_valuation.py) and the label check computed from features. *)
From Coq Require Import QArith List Bool Arith ZArith.
From Verif Require Import Base ModelRank.
Import ListNotations.
Open Scope Q_scope.

(** What a check reports: one flag and one score per example, and the score of its summary row. *)
Record report := Report { flags : list bool; scores : list Q; summary : Q }.

(** issue_manager.py:167-188 [make_summary]: a score outside [0,1] is rejected. *)
Definition make_summary (score : Q) : res Q :=
  if Qltb score 0 || Qltb 1 score then Raise ValueError else Ok score.

(** ** imbalance.py *)

(** [np.bincount]: one entry per integer up to the largest one present *)
Definition bincount (l : list nat) : list nat :=
  match l with [] => [] | _ => tab (nmax l + 1) (fun c => count c l) end.

(** imbalance.py:41-69 [ClassImbalanceIssueManager.find_issues]; [K] is the number of class names.
    [np.argmin] of the empty array raises, and so does [1 / 0]. *)
Definition class_imbalance (threshold : Q) (K : nat) (labels : list nat) : res report :=
  match labels with
  | [] => Raise ValueError
  | _ =>
    let class_probs := map (fun c => Qnat c / Qnat (length labels)) (bincount labels) in
    let rarest := argmin class_probs in
    let p := nth rarest class_probs 0 in
    match K with
    | O => Raise ZeroDivision
    | _ =>
      let imbalance_exists := Qltb p (threshold * (1 / Qnat K)) in
      do s <- make_summary p ;
      Ok (Report (map (fun y => imbalance_exists && Nat.eqb y rarest) labels)
                 (map (fun y => if Nat.eqb y rarest then p else 1) labels) s)
    end
  end.

(** ** null.py: a table is a list of rows of [cols] cells; [None] is a missing value ([pd.isna]). *)
Section Null.
Context {V : Type}.
Definition is_missing (c : option V) : bool := match c with None => true | Some _ => false end.
Definition null_tracker (features : list (list (option V))) : list (list bool) := map (map is_missing) features.

(** null.py:35-47 [_calculate_null_issues] and 49-70 [find_issues] *)
Definition null_check (cols : nat) (features : list (list (option V))) : res report :=
  let non_null := map (fun r => (cols - count_true r)%nat) (null_tracker features) in
  let sc := map (fun c => Qnat c / Qnat cols) non_null in
  do s <- make_summary (qmean sc) ;
  Ok (Report (map (fun c => Nat.eqb c 0) non_null) sc s).

(** A missing pattern is written as a string of 0 and 1 in the code and is the list of booleans here.
    [Counter] keeps the patterns in the order of first appearance; [most_common(1)] returns the first
    one with the highest count. *)
Fixpoint beq_pattern (a b : list bool) : bool :=
  match a, b with
  | [], [] => true
  | x :: a', y :: b' => Bool.eqb x y && beq_pattern a' b'
  | _, _ => false
  end.
Definition occurrences (p : list bool) (l : list (list bool)) : nat := length (filter (beq_pattern p) l).
Definition most_common (l : list (list bool)) : list bool :=
  fold_left (fun best p => if Nat.ltb (occurrences best l) (occurrences p l) then p else best) l (hd [] l).

Record common_issue := CommonIssue { pattern : option (list bool); rows_affected : list nat; occurrence : nat }.
(** null.py:73-116 [_most_common_issue]; [pattern = None] stands for ["no_null"] *)
Definition most_common_issue (tracker : list (list bool)) : common_issue :=
  let has_null := fun r => existsb (fun b => b) r in
  if existsb has_null tracker then
    let null_rows := where_ (map has_null tracker) in
    let patterns := map (fun i => nth i tracker []) null_rows in
    let p := most_common patterns in
    CommonIssue (Some p)
      (map (fun i => nth i null_rows 0%nat) (where_ (map (fun r => beq_pattern r p) patterns)))
      (occurrences p patterns)
  else CommonIssue None [] 0.

(** null.py:118-139 [_column_impact] *)
Definition column_impact (cols : nat) (tracker : list (list bool)) : list Q :=
  tab cols (fun j => qmean (map (fun r => if nth j r false then 1 else 0) tracker)).
End Null.

(** ** identifier_column.py *)

(** [np.unique] of integers: sorted, without repetition *)
Fixpoint zinsert (x : Z) (l : list Z) : list Z :=
  match l with
  | [] => [x]
  | y :: t => if Z.eqb x y then l else if Z.ltb x y then x :: l else y :: zinsert x t
  end.
Definition zunique (l : list Z) : list Z := fold_right zinsert [] l.

Fixpoint zlist_eqb (a b : list Z) : bool :=
  match a, b with
  | [], [] => true
  | x :: a', y :: b' => Z.eqb x y && zlist_eqb a' b'
  | _, _ => false
  end.

(** identifier_column.py:28-45 [_is_sequential] *)
Definition is_sequential (arr : list Z) : bool :=
  match zunique arr with
  | [] => false
  | (min_val :: _) as unique_sorted =>
    let max_val := last unique_sorted 0%Z in
    let expected_range := tab (Z.to_nat (max_val + 1 - min_val)) (fun i => min_val + Z.of_nat i)%Z in
    if Nat.eqb (length expected_range) 1 || negb (Nat.eqb (length unique_sorted) (length expected_range))
    then false
    else zlist_eqb expected_range unique_sorted
  end.

(** One column of a table: of an integer type, or of any other type (only its size matters). *)
Inductive column := IntColumn (values : list Z) | OtherColumn (size : nat).
Definition column_size (c : column) : nat := match c with IntColumn v => length v | OtherColumn n => n end.
Definition is_identifier (c : column) : bool :=
  match c with IntColumn v => is_sequential v | OtherColumn _ => false end.

(** identifier_column.py:93-131 [find_issues]; the last component is [info["identifier_columns"]]. *)
Definition identifier_check (columns : list column) : res (report * list nat) :=
  match columns with
  | [] => Raise IndexError
  | c :: _ =>
    let mask := map is_identifier columns in
    do s <- make_summary (if existsb (fun b => b) mask then 0 else 1) ;
    Ok (Report (repeat false (column_size c)) (repeat 1 (column_size c)) s, where_ mask)
  end.

(** ** underperforming_group.py *)

(** the constants of lines 50-60: cluster -1 is noise, -2 means that no cluster is reported *)
Definition OUTLIER_CLUSTER : Z := (-1)%Z.
Definition NO_UNDERPERFORMING_CLUSTER : Z := (-2)%Z.
Definition zcount (c : Z) (l : list Z) : nat := length (filter (Z.eqb c) l).

Section Underperforming.
(** the order in which iterating [set(cluster_ids)] visits the ids *)
Context (set_order : list Z -> list Z).

(** lines 157-180; [np.bincount] rejects negative ids *)
Definition filter_cluster_ids (min_cluster_samples : nat) (cluster_ids : list Z) : res (list Z) :=
  if existsb (fun c => Z.ltb c OUTLIER_CLUSTER) cluster_ids then Raise ValueError
  else Ok (filter (fun c => Nat.leb min_cluster_samples (zcount c cluster_ids))
             (filter (fun c => negb (Z.eqb c OUTLIER_CLUSTER)) (set_order cluster_ids))).

Definition zmem (c : Z) (l : list Z) : bool := existsb (Z.eqb c) l.
(** mean self-confidence of the selected examples *)
Definition performance (mask : list bool) (labels : list nat) (pred_probs : list (list Q)) : Q :=
  qmean (get_self_confidence (select mask labels) (select mask pred_probs)).

(** the loop of lines 210-221: scores of the clusters below the mean, worst id and its ratio *)
Definition visit (mean : Q) (perf : Z -> Q) (st : list (Z * Q) * Z * Q) (c : Z) : list (Z * Q) * Z * Q :=
  let '(ids_to_score, worst_id, worst_ratio) := st in
  let p := perf c in
  if Qltb p mean then
    let r := p / mean in
    if Qltb p worst_ratio then (ids_to_score ++ [(c, r)], c, r) else (ids_to_score ++ [(c, r)], worst_id, worst_ratio)
  else st.

(** [min(unique_cluster_ids) - 1] *)
Definition zminimum (l : list Z) : Z := match l with [] => 0%Z | x :: t => fold_left Z.min t x end.

(** lines 182-227 *)
Definition get_underperforming_clusters (threshold : Q) (cluster_ids unique_ids : list Z) (labels : list nat)
  (pred_probs : list (list Q)) : list (Z * Q) * Z * Q :=
  let mean := performance (map (fun c => zmem c unique_ids) cluster_ids) labels pred_probs in
  let perf := fun c => performance (map (Z.eqb c) cluster_ids) labels pred_probs in
  let '(ids_to_score, worst_id, worst_ratio) :=
    fold_left (visit mean perf) unique_ids ([], (zminimum unique_ids - 1)%Z, 1) in
  (ids_to_score, if Qltb worst_ratio threshold then worst_id else NO_UNDERPERFORMING_CLUSTER, worst_ratio).

(** [scores[cluster_ids == id] = score] for the ids of the dictionary *)
Definition write_scores (cluster_ids : list Z) (ids_to_score : list (Z * Q)) (sc : list Q) : list Q :=
  fold_left (fun sc p => map (fun q => if Z.eqb (fst q) (fst p) then snd p else snd q) (combine cluster_ids sc))
    ids_to_score sc.

(** lines 79-133 [find_issues] with given cluster ids; line 332-345: a negative threshold becomes 0.
    The last component is the reported cluster id. *)
Definition underperforming_check (threshold : Q) (min_cluster_samples : nat) (cluster_ids : list Z)
  (labels : list nat) (pred_probs : list (list Q)) : res (report * Z) :=
  let threshold := if Qltb threshold 0 then 0 else threshold in
  do unique_ids <- filter_cluster_ids min_cluster_samples cluster_ids ;
  match unique_ids with
  | [] => Raise ValueError
  | _ =>
    let '(ids_to_score, worst_id, worst_ratio) :=
      get_underperforming_clusters threshold cluster_ids unique_ids labels pred_probs in
    do s <- make_summary worst_ratio ;
    Ok (Report (map (fun c => Z.eqb c worst_id) cluster_ids)
               (write_scores cluster_ids ids_to_score (repeat 1 (length cluster_ids))) s, worst_id)
  end.
End Underperforming.

(** ** data_valuation.py *)

(** cleanlab/data_valuation.py:43-49, the inner loop for one example [alpha]: [j] runs from [k - 2]
    down to 0, so [steps] counts the remaining values of [j]. *)
Fixpoint shapley_loop (idx : list nat) (matches : list Q) (steps : nat) (s : list Q) : list Q :=
  match steps with
  | O => s
  | S j => shapley_loop idx matches j
             (upd s (nth j idx 0%nat) (nth (nth (S j) idx 0%nat) s 0 + (nth j matches 0 - nth (S j) matches 0)))
  end.
Definition shapley_row (labels : list nat) (k : nat) (y_alpha : nat) (idx : list nat) : list Q :=
  let matches := map (fun j => if Nat.eqb (nth j labels 0%nat) y_alpha then 1 else 0) idx in
  shapley_loop idx matches (k - 1) (repeat 0 (length labels)).

(** cleanlab/data_valuation.py:39-50 [_knn_shapley_score]; too few neighbours give an IndexError *)
Definition knn_shapley_score (neighbors : list (list nat)) (labels : list nat) (k : nat) : res (list Q) :=
  if Nat.ltb 1 k && existsb (fun idx => Nat.ltb (length idx) k) neighbors then Raise IndexError
  else
    let rows := map (fun p => shapley_row labels k (fst p) (snd p)) (combine labels neighbors) in
    let rows := rows ++ repeat (repeat 0 (length labels)) (length labels - length rows) in
    Ok (tab (length labels) (fun i => qmean (map (fun r => nth i r 0 / Qnat k) rows))).

(** cleanlab/data_valuation.py:53-127 [data_shapley_knn] with a given graph *)
Definition data_shapley_knn (neighbors : list (list nat)) (labels : list nat) (k : nat) : res (list Q) :=
  do s <- knn_shapley_score neighbors labels k ;
  Ok (map (fun x => (1 # 2) * (x + 1)) s).

(** issue_manager/data_valuation.py:100-149 [find_issues]; [num_neighbors] is the width of the graph *)
Definition data_valuation_check (threshold : option Q) (k num_neighbors : nat) (neighbors : list (list nat))
  (labels : list nat) : res report :=
  let threshold := match threshold with None => 1 # 2 | Some t => t end in
  if Nat.ltb num_neighbors k then Raise ValueError
  else
    do sc <- data_shapley_knn neighbors labels k ;
    do s <- make_summary (qmean sc) ;
    Ok (Report (map (fun x => Qltb x threshold) sc) sc s).

(** ** issue_manager/label.py:137-160, predicted probabilities computed from features: [neighbors] holds
    the [k + 1] nearest neighbours of each example among all examples (itself included), as found by the
    scikit-learn classifier; classes are the distinct labels in increasing order. *)
Definition knn_predict_proba (k : nat) (neighbors : list (list nat)) (labels : list nat) : list (list Q) :=
  map (fun nb => map (fun c => Qnat (count c (map (fun j => nth j labels 0%nat) nb)) / Qnat (k + 1)) (unique labels))
    neighbors.
Definition one_hot (labels : list nat) : list (list Q) :=
  map (fun y => map (fun c => if Nat.eqb c y then 1 else 0) (unique labels)) labels.
Definition out_of_sample_pred_probs (k : nat) (neighbors : list (list nat)) (labels : list nat) : list (list Q) :=
  map (fun p => map (fun q => (fst q - 1 / Qnat (k + 1) * snd q) * Qnat (k + 1) / Qnat k) (combine (fst p) (snd p)))
    (combine (knn_predict_proba k neighbors labels) (one_hot labels)).
