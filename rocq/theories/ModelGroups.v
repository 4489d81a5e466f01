(** * Model of cleanlab/datalab/internal/issue_manager/underperforming_group.py: where the clusters come from and what
      is recorded about them.  The comparison of the clusters is [underperforming_check] of ModelChecks. *)
From Coq Require Import String QArith List ZArith Bool Arith.
From Verif Require Import Base ModelChecks.
Import ListNotations.
Open Scope nat_scope.

Section Groups.
Context {V : Type}.
(** keyword arguments: a dict, its keys in order *)
Definition kwargs := list (string * V).
Fixpoint get {X} (k : string) (d : list (string * X)) : option X :=
  match d with [] => None | (k', x) :: t => if String.eqb k k' then Some x else get k t end.
(** [d[k] = v] *)
Fixpoint put {X} (k : string) (v : X) (d : list (string * X)) : list (string * X) :=
  match d with [] => [(k, v)] | (k', x) :: t => if String.eqb k k' then (k', v) :: t else (k', x) :: put k v t end.

(** [inspect.signature(DBSCAN).parameters.keys()], the clustering (on the stored distances of the graph) and the string
    "precomputed" *)
Context (valid_keys : list string) (dbscan : kwargs -> list (list (nat * Q)) -> list Z) (precomputed : V)
        (set_order : list Z -> list Z).

(** lines 135-155 [perform_clustering]; a value None is not passed on *)
Definition dbscan_params (clustering_kwargs : list (string * option V)) : kwargs :=
  put "metric" precomputed
    (flat_map (fun k => match get k clustering_kwargs with Some (Some v) => [(k, v)] | _ => [] end) valid_keys).
Definition perform_clustering (clustering_kwargs : list (string * option V)) (knn_graph : list (list (nat * Q))) : list Z :=
  dbscan (dbscan_params clustering_kwargs) knn_graph.

(** lines 246-255: [knn_graph.data.reshape(N, -1)[:, 0]] of the stored entries *)
Definition first_entries {X} (d : X) (rows : list (list X)) : res (list X) :=
  let n := length rows in let data := concat rows in let per := length data / n in
  if Nat.eqb n 0 || negb (Nat.eqb (n * per) (length data)) then Raise ValueError
  else if Nat.eqb per 0 then Raise IndexError
  else Ok (tab n (fun i => nth (i * per) data d)).

Record clustering := Clustering
  { algorithm : option string; params : kwargs; n_clusters : nat; all_ids : list Z; underperforming_id : Z }.
Record info := Info { nearest : option (list nat * list Q); clusters : clustering }.

(** lines 79-133 [find_issues] with lines 229-268 [collect_info] and 294-330 [_get_cluster_statistics].  [knn_graph] is
    the outcome of [set_knn_graph], [labels] is None when they are not an array.  The last component tells whether the
    user is warned that [clustering_kwargs] are not used. *)
Definition find_groups (threshold : Q) (min_cluster_samples : nat) (clustering_kwargs : list (string * option V))
  (labels : option (list nat)) (pred_probs : list (list Q)) (knn_graph : res (list (list (nat * Q)))) (cluster_ids : option (list Z)) :
  res (report * info * bool) :=
  match labels with
  | None => Raise TypeError
  | Some labels =>
    do start <- match cluster_ids with
                | Some ids => Ok (ids, None)
                | None => do g <- knn_graph ; Ok (perform_clustering clustering_kwargs g, Some g)
                end ;
    let ids := fst start in
    do unique_ids <- filter_cluster_ids set_order min_cluster_samples ids ;
    do found <- underperforming_check set_order threshold min_cluster_samples ids labels pred_probs ;
    do near <- match snd start with
               | None => Ok None
               | Some g => do f <- first_entries (0, 0%Q) g ; Ok (Some (map fst f, map snd f))
               end ;
    let alg := match snd start with Some _ => Some "DBSCAN"%string | None => None end in
    let par := match snd start with Some _ => [("metric"%string, precomputed)] | None => [] end in
    Ok (fst found, Info near (Clustering alg par (length unique_ids) ids (snd found)),
        match cluster_ids, clustering_kwargs with Some _, _ :: _ => true | _, _ => false end)
  end.
End Groups.
