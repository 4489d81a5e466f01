(** * Property C150: the clusters behind the underperforming-group check *)
From Coq Require Import String QArith List ZArith Bool Arith.
From Verif Require Import Base BaseFacts ModelChecks SpecChecks ModelGroups SpecGroups ProofGroups.
Import ListNotations.
Open Scope nat_scope.

(** DBSCAN receives exactly the arguments given by the user that it knows and that are not None, except that the metric is
    always "precomputed" *)
Theorem C150_arguments V valid_keys (precomputed : V) kw :
  get "metric" (dbscan_params valid_keys precomputed kw) = Some precomputed /\
  forall k v, k <> "metric"%string ->
    (get k (dbscan_params valid_keys precomputed kw) = Some v <-> In k valid_keys /\ get k kw = Some (Some v)).
Proof. exact (params_spec valid_keys precomputed kw). Qed.
Print Assumptions C150_arguments.
(** Letting the check cluster the data and handing it the clusters give the same report and statistics *)
Theorem C150_given_or_computed V valid_keys dbscan (precomputed : V) so thr m kw kw' labels pp g other rep i w : regular g ->
  find_groups valid_keys dbscan precomputed so thr m kw (Some labels) pp (Ok g) None = Ok (rep, i, w) <->
  (w = false /\ nearest i = Some (first_neighbours g, first_distances g) /\
   algorithm (clusters i) = Some "DBSCAN"%string /\ params (clusters i) = [("metric"%string, precomputed)] /\
   exists i' w', find_groups valid_keys dbscan precomputed so thr m kw' (Some labels) pp other
       (Some (dbscan (dbscan_params valid_keys precomputed kw) g)) = Ok (rep, i', w') /\
     nearest i' = None /\ algorithm (clusters i') = None /\ params (clusters i') = [] /\
     same_statistics (clusters i) (clusters i') /\ (w' = true <-> kw' <> [])).
Proof. exact (given_equals_computed valid_keys dbscan precomputed so thr m kw kw' labels pp g other rep i w). Qed.
Print Assumptions C150_given_or_computed.
(** The recorded number of clusters counts those that are not noise and have enough examples; there is at least one *)
Theorem C150_counted V valid_keys dbscan (precomputed : V) so thr m kw labels pp graph ids rep i w : visits_all so ->
  find_groups valid_keys dbscan precomputed so thr m kw labels pp graph ids = Ok (rep, i, w) ->
  exists L, NoDup L /\ (forall c, In c L <-> kept m (all_ids (clusters i)) c) /\ n_clusters (clusters i) = length L /\ L <> [].
Proof. exact (counted valid_keys dbscan precomputed so thr m kw labels pp graph ids rep i w). Qed.
Print Assumptions C150_counted.
(** Labels that are not an array are rejected before anything is computed *)
Theorem C150_labels V valid_keys dbscan (precomputed : V) so thr m kw pp graph ids :
  find_groups valid_keys dbscan precomputed so thr m kw None pp graph ids = Raise TypeError.
Proof. exact (no_array valid_keys dbscan precomputed so thr m kw pp graph ids). Qed.
Print Assumptions C150_labels.
(** The recorded parameters are not those the clustering was run with *)
Theorem C150_recorded_params_refuted V valid_keys dbscan (precomputed : V) so thr m kw labels pp g rep i w k v : regular g ->
  k <> "metric"%string -> In k valid_keys -> get k kw = Some (Some v) ->
  find_groups valid_keys dbscan precomputed so thr m kw (Some labels) pp (Ok g) None = Ok (rep, i, w) ->
  get k (dbscan_params valid_keys precomputed kw) = Some v /\ get k (params (clusters i)) = None.
Proof.
  intros R N I G E. split; [apply (proj2 (proj2 (params_spec valid_keys precomputed kw) k v N)); auto|].
  destruct (proj1 (given_equals_computed valid_keys dbscan precomputed so thr m kw kw labels pp g (Ok g) rep i w R) E) as (_ & _ & _ & P & _).
  rewrite P. cbn. destruct (String.eqb k "metric") eqn:Q; [apply String.eqb_eq in Q; contradiction|reflexivity].
Qed.
Print Assumptions C150_recorded_params_refuted.

(** ** A concrete case: with eps = 3 two clusters and one point of noise, one cluster otherwise *)
Definition ex_dbscan (p : @kwargs nat) (g : list (list (nat * Q))) : list Z :=
  match get "eps" p with Some 3 => [0; 0; 1; 1; -1]%Z | _ => [0; 0; 0; 0; 0]%Z end.
Definition ex_graph : list (list (nat * Q)) :=
  [[(1, 1 # 2); (2, 2 # 1)]; [(0, 1 # 2); (2, 3 # 1)]; [(3, 1 # 4); (0, 2 # 1)]; [(2, 1 # 4); (4, 5 # 1)]; [(3, 5 # 1); (2, 6 # 1)]].
Definition ex_keys := ["eps"; "min_samples"; "metric"]%string.
Example C150_example : exists rep i w, regular ex_graph /\
  find_groups ex_keys ex_dbscan 9 nodup_order (1 # 2) 2 [("metric", Some 4); ("eps", Some 3); ("min_samples", None); ("color", Some 1)]%string
    (Some [0; 0; 1; 1; 0]) [[9#10; 1#10]; [8#10; 2#10]; [9#10; 1#10]; [8#10; 2#10]; [1; 0]]%Q (Ok ex_graph) None = Ok (rep, i, w) /\
  flags rep = [false; false; true; true; false] /\ n_clusters (clusters i) = 2 /\ nearest i = Some ([1; 0; 3; 2; 3], [1#2; 1#2; 1#4; 1#4; 5#1]) /\
  dbscan_params ex_keys 9 [("metric", Some 4); ("eps", Some 3); ("min_samples", None); ("color", Some 1)]%string = [("eps", 3); ("metric", 9)]%string.
Proof.
  do 3 eexists. split.
  { split; [discriminate|]. exists 2. split; [auto|]. intros r H. cbn in H. repeat (destruct H as [<-|H]; [reflexivity|]). destruct H. }
  split; [vm_compute; reflexivity|]. repeat split.
Qed.
