(** * Model of cleanlab/internal/neighbor/knn_graph.py, of
    cleanlab/datalab/internal/issue_manager/knn_graph_helpers.py and of the near-duplicate check
    cleanlab/datalab/internal/issue_manager/duplicate.py.

    A neighbour graph with [k] neighbours per example is the pair of its [N x k] arrays of distances and
    indices ([knn_graph.data.reshape(N, -1)] and [knn_graph.indices.reshape(N, -1)] of the csr matrix). *)
From Coq Require Import QArith Qreals Reals List Bool Arith Permutation.
From Verif Require Import Base.
Import ListNotations.
Open Scope Q_scope.

Definition graph : Type := (list (list Q) * list (list nat))%type.

(** ** Exact duplicates (knn_graph.py) *)

(** Oracles: [np.argsort] of a row, the inverse array of [np.unique(features, axis=0)], and the order in
    which iterating [set(unique_inverse)] visits the values. *)
Record env := Env {
  bsort : list Q -> list nat;
  unique_inverse : list (list Q) -> list nat;
  set_order : list nat -> list nat }.

Section Correct.
Context (E : env).

(** knn_graph.py:250-290 [_compute_exact_duplicate_sets]; [unique_counts[u]] is the number of
    occurrences of [u] in the inverse array. *)
Definition exact_duplicate_sets (features : list (list Q)) : list (list nat) :=
  let inv := unique_inverse E features in
  map (fun u => where_ (map (fun v => Nat.eqb v u) inv))
      (filter (fun u => Nat.ltb 1 (count u inv)) (set_order E inv)).

(** [np.sort] of a row of indices *)
Fixpoint ninsert (x : nat) (l : list nat) : list nat :=
  match l with
  | [] => [x]
  | y :: t => if Nat.leb x y then x :: l else y :: ninsert x t
  end.
Definition nsort (l : list nat) : list nat := fold_right ninsert [] l.

(** [scipy.linalg.circulant(c)[i, j] = c[(i - j) mod n]] *)
Definition circulant (c : list nat) : list (list nat) :=
  let n := length c in
  tab n (fun i => tab n (fun j => nth ((i + n - j) mod n) c 0%nat)).
(** knn_graph.py:402-489 [_prepare_neighborhood_of_first_k_duplicates] *)
Definition prepare_neighborhood (dup : list nat) (inc : nat) : list (list nat) :=
  map (fun row => nsort (tl row)) (circulant (firstn (inc + 1) dup)).

(** [m[idx] = rows] (row assignment with an index array) *)
Definition set_rows {A} (m : list (list A)) (idx : list nat) (rows : list (list A)) : list (list A) :=
  fold_left (fun m p => upd m (fst p) (snd p)) (combine idx rows) m.
(** [m[idx]] *)
Definition get_rows {A} (m : list (list A)) (idx : list nat) : list (list A) :=
  map (fun i => nth i m []) idx.
(** [row[-c:] = vals] and [row[:c] = vals] *)
Definition set_last {A} (c : nat) (vals row : list A) : list A := firstn (length row - c) row ++ vals.
Definition set_first {A} (c : nat) (vals row : list A) : list A := vals ++ skipn c row.

(** knn_graph.py:380-383: for one row, the positions kept by
    [np.argsort(~different_point_mask, axis=1)[:, :-num_same_included]] *)
Definition true_indices (dup : list nat) (inc : nat) (row : list nat) : list nat :=
  let p := bsort E (map (fun j => if mem j dup then 1 else 0) row) in
  firstn (length p - inc) p.

(** knn_graph.py:357-397: one iteration of the loop over duplicate sets *)
Definition correct_one (k : nat) (g : graph) (dup : list nat) : graph :=
  let '(distances, indices) := g in
  let num_same := length dup in
  let inc := Nat.min (num_same - 1) k in
  let circ := prepare_neighborhood dup inc in
  if Nat.leb (k + 1) num_same then
    let indices1 := set_rows indices (firstn (k + 1) dup) circ in
    let rest := skipn (k + 1) dup in
    let indices2 := set_rows indices1 rest (map (fun _ => firstn k dup) rest) in
    (set_rows distances dup (map (fun _ => repeat 0 k) dup), indices2)
  else
    let ti := map (true_indices dup inc) (get_rows indices dup) in
    let kept_d := map (fun p => take_idx 0 (fst p) (snd p)) (combine (get_rows distances dup) ti) in
    let kept_i := map (fun p => take_idx 0%nat (fst p) (snd p)) (combine (get_rows indices dup) ti) in
    let c := (k - inc)%nat in
    let distances1 := set_rows distances dup
          (map (fun p => set_last c (fst p) (snd p)) (combine kept_d (get_rows distances dup))) in
    let indices1 := set_rows indices dup
          (map (fun p => set_last c (fst p) (snd p)) (combine kept_i (get_rows indices dup))) in
    let indices2 := set_rows indices1 dup
          (map (fun p => set_first inc (fst p) (snd p)) (combine circ (get_rows indices1 dup))) in
    let distances2 := set_rows distances1 dup
          (map (fun row => set_first inc (repeat 0 inc) row) (get_rows distances1 dup)) in
    (distances2, indices2).

(** knn_graph.py:293-399 [correct_knn_distances_and_indices_with_exact_duplicate_sets_inplace]; [k] is
    [distances.shape[1]] *)
Definition correct_with_sets (k : nat) (g : graph) (sets : list (list nat)) : graph :=
  fold_left (correct_one k) sets g.

(** knn_graph.py:492-564 [correct_knn_distances_and_indices] (the copies make it a pure function of its
    arguments) and 206-247 [correct_knn_graph] *)
Definition correct_knn_graph (features : list (list Q)) (k : nat) (g : graph) : graph :=
  correct_with_sets k g (exact_duplicate_sets features).
End Correct.

(** ** Creating a graph *)

(** the distance metrics chosen by default (neighbor/metric.py), or another one named by the user *)
Inductive metric := CosineM | EuclideanSklearn | EuclideanScipy | OtherM (name : nat).
Definition metric_eqb (a b : metric) : bool :=
  match a, b with
  | CosineM, CosineM | EuclideanSklearn, EuclideanSklearn | EuclideanScipy, EuclideanScipy => true
  | OtherM n, OtherM m => Nat.eqb n m
  | _, _ => false
  end.

(** neighbor/metric.py:74-107 [decide_default_metric] with 36-68 [decide_euclidean_metric] *)
Definition decide_default_metric (num_rows num_cols : nat) : metric :=
  if Nat.ltb 3 num_cols then CosineM
  else if Nat.ltb 100 num_rows then EuclideanSklearn else EuclideanScipy.

(** knn_graph.py:567-578 [_configure_num_neighbors] ([k = 0] counts as not given) *)
Definition configure_num_neighbors (N : nat) (k : option nat) : res nat :=
  match k with
  | Some k => if Nat.leb N k then Raise ValueError
              else Ok (if Nat.eqb k 0 then Nat.min 10 (N - 1) else k)
  | None => Ok (Nat.min 10 (N - 1))
  end.

(** The search backend: [NearestNeighbors(n_neighbors=k, metric).fit(features).kneighbors(None)]. *)
Definition backend : Type := nat -> metric -> list (list Q) -> graph.

Record feats := Feats { rows : list (list Q); ncols : nat }.

(** knn_graph.py:142-203 [create_knn_graph_and_index] with 26-70 [features_to_knn] and 73-139
    [construct_knn_graph_from_index]; returns the graph, its number of neighbours and the metric; sklearn
    rejects a number of neighbours below 1 *)
Definition create_knn_graph (E : env) (B : backend) (features : option feats) (n_neighbors : option nat)
    (m : option metric) (correct_exact_duplicates : bool) : res (graph * nat * metric) :=
  match features with
  | None => Raise ValueError
  | Some f =>
      let N := length (rows f) in
      let mt := match m with Some m => m | None => decide_default_metric N (ncols f) end in
      do k <- configure_num_neighbors N n_neighbors ;
      if Nat.eqb k 0 then Raise ValueError else
      let g := B k mt (rows f) in
      Ok ((if correct_exact_duplicates then correct_knn_graph E (rows f) k g else g), k, mt)
  end.

(** knn_graph_helpers.py:15-45 [num_neighbors_in_knn_graph], [_process_knn_graph_from_inputs]; a stored
    graph comes with its number of neighbours *)
Definition process_knn_graph_from_inputs (provided existing : option (graph * nat)) (k : nat)
  : option (graph * nat) :=
  match provided with
  | Some g => Some g
  | None => match existing with
            | Some (g, n) => if Nat.ltb n k then None else Some (g, n)
            | None => None
            end
  end.

(** knn_graph_helpers.py:48-69 [set_knn_graph]: the statistics hold the stored graph and its metric *)
Definition set_knn_graph (E : env) (B : backend) (features : option feats) (provided : option (graph * nat))
    (m : option metric) (k : nat) (stat_graph : option (graph * nat)) (stat_metric : option metric)
  : res (graph * nat * option metric) :=
  let knn_graph := process_knn_graph_from_inputs provided stat_graph k in
  let metric_changes :=
    match m with
    | None => false
    | Some mt => match stat_metric with Some old => negb (metric_eqb mt old) | None => false end
    end in
  match knn_graph, metric_changes with
  | Some (g, n), false => Ok (g, n, m)
  | _, _ =>
      match features with
      | None => Raise AssertionError
      | Some f => do r <- create_knn_graph E B (Some f) (Some k) m true ;
                  let '(g, n, mt) := r in Ok (g, n, Some mt)
      end
  end.

(** ** Near duplicates (duplicate.py) *)

Definition EPSILON : Q := 1 # 1000000.

(** duplicate.py:173-186 [_set_threshold] *)
Definition set_threshold (t : Q) : Q := if Qltb t 0 then 0 else t.

(** [np.median] of a non-empty array: middle value, or mean of the two middle values *)
Definition median (srt : list Q -> list nat) (l : list Q) : Q :=
  let s := take_idx 0 l (srt l) in
  let n := length l in
  if Nat.even n then (nth (n / 2 - 1) s 0 + nth (n / 2) s 0) / 2 else nth (n / 2) s 0.
Definition median_nn_distance (srt : list Q -> list nat) (nn_distances : list Q) : Q :=
  qmax (median srt nn_distances) EPSILON.

(** [l[a:b]] *)
Definition slice {A} (a b : nat) (l : list A) : list A := firstn (b - a) (skipn a l).
(** [np.cumsum] preceded by 0 *)
Fixpoint cumsum0 (acc : nat) (l : list nat) : list nat :=
  match l with [] => [acc] | x :: t => acc :: cumsum0 (acc + x) t end.

(** duplicate.py:98-109: the neighbours closer than the radius, first pass *)
Definition within_radius (g : graph) (radius : Q) : list (list nat) :=
  let '(distances, indices) := g in
  let mask := map (map (fun d => Qltb d radius)) distances in
  let indptr := cumsum0 0 (map count_true mask) in
  let kept := select (concat mask) (concat indices) in
  tab (length distances) (fun i => slice (nth i indptr 0%nat) (nth (S i) indptr 0%nat) kept).

(** duplicate.py:115-118: second pass; [enumerate] reads the current entry [i] of the list when it gets
    there, and the inner loop runs over the array read at that moment *)
Definition add_back (i : nat) (sets : list (list nat)) (j : nat) : list (list nat) :=
  if mem i (nth j sets []) then sets else upd sets j (nth j sets [] ++ [i]).
Definition second_pass (sets : list (list nat)) : list (list nat) :=
  fold_left (fun sets i => fold_left (add_back i) (nth i sets []) sets)
            (seq 0 (length sets)) sets.

(** duplicate.py:88-120 [_neighbors_within_radius] *)
Definition neighbors_within_radius (g : graph) (threshold median : Q) : list (list nat) :=
  second_pass (within_radius g (threshold * median)).

(** duplicate.py:189-228 [_compute_scores_with_exp_transform]; [np.isclose(d, 0)] is [|d| <= 1e-8] *)
Definition isclose0 (d : Q) : bool := Qleb (-(1 # 100000000)) d && Qleb d (1 # 100000000).
Definition exp_score (temperature d : Q) : R :=
  if isclose0 d then 0%R else (1 - exp (- Q2R temperature * Q2R d))%R.
Definition compute_scores (nn_distances : list Q) (temperature : Q) : res (list R) :=
  if Qleb temperature 0 then Raise ValueError else Ok (map (exp_score temperature) nn_distances).

Record near_dup_result := NearDup {
  nd_sets : list (list nat);
  nd_flags : list bool;
  nd_scores : list R }.

(** duplicate.py:52-86 [NearDuplicateIssueManager.find_issues] once the graph is available; the reshape of
    a graph without examples raises *)
Definition find_near_duplicates (srt : list Q -> list nat) (threshold : Q) (g : graph)
  : res near_dup_result :=
  let N := length (fst g) in
  if Nat.eqb N 0 then Raise ValueError else
  let nn := map (fun row => nth 0 row 0) (fst g) in
  let med := median_nn_distance srt nn in
  let sets := neighbors_within_radius g (set_threshold threshold) med in
  do scores <- compute_scores nn (1 / med) ;
  Ok (NearDup sets (mask_of N (concat sets)) scores).
