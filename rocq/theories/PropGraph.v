(** * C122: one neighbour graph for all checks of a Datalab *)
From Coq Require Import QArith List Bool Arith Lia.
From Verif Require Import Base BaseFacts ModelKnn SpecKnn PropKnn ModelOutlierCheck ModelGraph SpecGraph ProofGraph.
Import ListNotations.

(** Over any sequence of checks (in one or several calls of [find_issues]) given the same features and metric,
    whichever of them fail: every check works on a graph of exactly these features, with at least the number of
    neighbours it asked for. *)
Theorem C122_used E B rest f mo cs i c a g : same_inputs f mo cs -> nth_error cs i = Some (c, a) ->
  nth_error (fst (run_checks E B rest cs empty_store)) i = Some (Ok (Some g)) ->
  (a_k a <= snd g)%nat /\ exists mt, built_from E B f mo (map (fun ca => a_k (snd ca)) (firstn (S i) cs)) g mt.
Proof. exact (one_graph_used E B rest f mo cs i c a g). Qed.

(** The stored graph is one of them and is stored under its own metric. *)
Theorem C122_stored E B rest f mo cs g : same_inputs f mo cs ->
  s_graph (snd (run_checks E B rest cs empty_store)) = Some g ->
  exists mt, s_metric (snd (run_checks E B rest cs empty_store)) = Some mt /\
    built_from E B f mo (map (fun ca => a_k (snd ca)) cs) g mt.
Proof. exact (one_graph_stored E B rest f mo cs g). Qed.

(** It is only ever replaced by one with more neighbours. *)
Theorem C122_grows E B rest f mo cs1 cs2 g n : same_inputs f mo (cs1 ++ cs2) ->
  s_graph (snd (run_checks E B rest cs1 empty_store)) = Some (g, n) ->
  exists g' n', s_graph (snd (run_checks E B rest (cs1 ++ cs2) empty_store)) = Some (g', n') /\
    (n <= n')%nat /\ (g' = g \/ (n < n')%nat).
Proof. exact (one_graph_grows E B rest f mo cs1 cs2 g n). Qed.

(** A graph given to every check is the one they all use, whatever was stored before. *)
Theorem C122_provided E B rest cs st i c a G u : (forall c a, In (c, a) cs -> a_graph a = Some G /\ a_metric a = None) ->
  nth_error cs i = Some (c, a) -> nth_error (fst (run_checks E B rest cs st)) i = Some (Ok u) ->
  u = Some G \/ (u = None /\ c = Underperforming /\ a_cluster_ids a = true).
Proof. exact (provided_all E B rest cs st i c a G u). Qed.

(** A given graph with at least as many neighbours stays stored when further checks are given another one. *)
Theorem C122_provided_kept E B rest cs st old G : (forall c a, In (c, a) cs -> a_graph a = Some G /\ a_metric a = None) -> s_graph st = Some old -> s_metric st = None ->
  (length (fst (fst G)) * snd G <= length (fst (fst old)) * snd old)%nat -> snd (run_checks E B rest cs st) = st.
Proof. exact (provided_kept_all E B rest cs st old G). Qed.
Print Assumptions C122_provided_kept.

(** A graph of predicted probabilities is not stored as long as no other graph is. *)
Theorem C122_pred_probs E B rest cs st : (forall c a, In (c, a) cs -> a_features a = None /\ a_graph a = None) ->
  s_graph st = None -> s_graph (snd (run_checks E B rest cs st)) = None.
Proof. exact (pred_probs_not_stored E B rest cs st). Qed.

Definition ex_env := concrete_env argsort_ins.
Definition ex_rows : feats := Feats [[0]; [1]; [3]; [5]]%Q 1.
Definition ex_probs : feats := Feats [[(1#2)]; [(1#4)]; [(3#4)]; [1]]%Q 1.
Definition all_succeed (c : check) (a : args) (g : option (graph * nat)) : bool := true.
Definition plain k : args := Args k None (Some ex_rows) None None false.

Example C122_example :
  same_inputs ex_rows None [(Outlier, plain 1); (NearDuplicate, plain 2); (NonIid, plain 1)] /\
  map (fun o => match o with Ok (Some g) => Some (snd g) | _ => None end)
    (fst (run_checks ex_env line_backend all_succeed [(Outlier, plain 1); (NearDuplicate, plain 2); (NonIid, plain 1)] empty_store))
  = [Some 1%nat; Some 2%nat; Some 2%nat].
Proof.
  split; [|vm_compute; reflexivity].
  intros c a H. cbn in H. destruct H as [H|[H|[H|[]]]]; injection H as _ <-; auto.
Qed.

(** With a stored graph, an outlier check that falls back to predicted probabilities changes the name of the metric
    but not the graph: the next check asking for that metric gets distances of another one. *)
Theorem C122_metric_refuted : exists f p k m g n g' n',
  let cs := [(NearDuplicate, Args k None (Some f) None None false);
             (Outlier, Args (S k) (Some m) None (Some p) None false);
             (NearDuplicate, Args k (Some m) (Some f) None None false)] in
  nth_error (fst (run_checks ex_env line_backend all_succeed cs empty_store)) 2 = Some (Ok (Some (g, n))) /\
  s_metric (snd (run_checks ex_env line_backend all_succeed cs empty_store)) = Some m /\
  create_knn_graph ex_env line_backend (Some f) (Some k) (Some m) true = Ok (g', n', m) /\ g <> g'.
Proof.
  exists ex_rows, ex_probs, 1%nat, (OtherM 0). do 4 eexists. cbv zeta. split; [vm_compute; reflexivity|].
  split; [vm_compute; reflexivity|]. split; [vm_compute; reflexivity|]. discriminate.
Qed.

(** A non-IID check that names another metric and has no features stores a graph of the predicted probabilities,
    which then serves the checks on the features. *)
Theorem C122_pred_probs_refuted : exists f p k m g n g' n' mt,
  let cs := [(NearDuplicate, Args k None (Some f) None None false);
             (NonIid, Args k (Some m) None (Some p) None false);
             (NearDuplicate, Args k None (Some f) None None false)] in
  nth_error (fst (run_checks ex_env line_backend all_succeed cs empty_store)) 2 = Some (Ok (Some (g, n))) /\
  create_knn_graph ex_env line_backend (Some p) (Some k) (Some m) true = Ok (g, n, m) /\
  create_knn_graph ex_env line_backend (Some f) (Some k) None true = Ok (g', n', mt) /\ g <> g'.
Proof.
  exists ex_rows, ex_probs, 1%nat, (OtherM 0). do 5 eexists. cbv zeta. split; [vm_compute; reflexivity|].
  split; [vm_compute; reflexivity|]. split; [vm_compute; reflexivity|]. discriminate.
Qed.

(** A smaller graph given to a later check replaces the larger stored one, under the metric of the old one. *)
Theorem C122_shrinks_refuted : exists f k G g mt,
  s_graph (snd (run_checks ex_env line_backend all_succeed [(NearDuplicate, Args k None (Some f) None None false)] empty_store)) = Some (g, k) /\
  s_graph (snd (run_checks ex_env line_backend all_succeed
    [(NearDuplicate, Args k None (Some f) None None false); (NearDuplicate, Args k None None None (Some (G, 1%nat)) false)] empty_store)) = Some (G, 1%nat) /\
  (1 < k)%nat /\
  s_metric (snd (run_checks ex_env line_backend all_succeed
    [(NearDuplicate, Args k None (Some f) None None false); (NearDuplicate, Args k None None None (Some (G, 1%nat)) false)] empty_store)) = Some mt /\
  mt = EuclideanScipy.
Proof.
  exists ex_rows, 2%nat, ([[7]; [7]; [7]; [7]]%Q, [[1]; [0]; [0]; [0]]%nat). do 2 eexists.
  split; [vm_compute; reflexivity|]. split; [vm_compute; reflexivity|]. split; [lia|]. split; vm_compute; reflexivity.
Qed.

(** Which examples the outlier check flags for a given [k] depends on whether a check with a larger [k] ran before. *)
Theorem C122_order_refuted : exists f a b g1 n1 g2 n2,
  same_inputs f None [(NearDuplicate, b); (Outlier, a)] /\
  nth_error (fst (run_checks ex_env line_backend all_succeed [(Outlier, a)] empty_store)) 0 = Some (Ok (Some (g1, n1))) /\
  nth_error (fst (run_checks ex_env line_backend all_succeed [(NearDuplicate, b); (Outlier, a)] empty_store)) 1 = Some (Ok (Some (g2, n2))) /\
  (do r <- threshold_and_issue_column argsort_ins (fst g1) None ; Ok (snd r)) <>
  (do r <- threshold_and_issue_column argsort_ins (fst g2) None ; Ok (snd r)).
Proof.
  exists ex_rows, (plain 1), (plain 2). do 4 eexists.
  split; [intros c a H; cbn in H; destruct H as [H|[H|[]]]; injection H as _ <-; auto|].
  split; [vm_compute; reflexivity|]. split; [vm_compute; reflexivity|]. vm_compute. discriminate.
Qed.

Print Assumptions C122_used.
Print Assumptions C122_stored.
Print Assumptions C122_grows.
Print Assumptions C122_provided.
Print Assumptions C122_pred_probs.
Print Assumptions C122_metric_refuted.
Print Assumptions C122_pred_probs_refuted.
Print Assumptions C122_shrinks_refuted.
Print Assumptions C122_order_refuted.
