(** * Model of the neighbour graph shared by the checks of a Datalab
    (cleanlab/datalab/internal/issue_manager/{outlier,duplicate,noniid,underperforming_group,data_valuation}.py
    and the loop of issue_finder.py:306-322).

    Only the graph is followed: which graph each check works on and what ends up in
    [info["statistics"]["weighted_knn_graph"]] and [info["statistics"]["knn_metric"]].  The rest of each check is
    modelled elsewhere (ModelKnn, ModelOutlierCheck, ModelNoniid, ModelChecks); here it is an oracle telling
    whether it raises. *)
From Coq Require Import QArith List Bool Arith.
From Verif Require Import Base ModelKnn.
Import ListNotations.

Inductive check := Outlier | NearDuplicate | NonIid | Underperforming | DataValuation.

(** the arguments of one check: [k] and [metric] go to the constructor, the others to [find_issues];
    [a_pred_probs]: the predicted probabilities seen as a feature array *)
Record args := Args {
  a_k : nat; a_metric : option metric;
  a_features : option feats; a_pred_probs : option feats; a_graph : option (graph * nat);
  a_cluster_ids : bool }.

(** the two entries of [info["statistics"]] *)
Record store := Store { s_graph : option (graph * nat); s_metric : option metric }.
Definition empty_store : store := Store None None.

Definition is_some {A} (o : option A) : bool := match o with Some _ => true | None => false end.
(** [self.metric != statistics.get("knn_metric", None)] *)
Definition metric_differs (a b : option metric) : bool :=
  match a, b with
  | None, None => false
  | Some x, Some y => negb (metric_eqb x y)
  | _, _ => true
  end.
(** [knn_graph.nnz] *)
Definition nnz (g : graph * nat) : nat := length (fst (fst g)) * snd g.

(** [prefer_new_graph] in outlier.py:269-277, duplicate.py:161-165, noniid.py:255-259,
    underperforming_group.py:277-285, data_valuation.py:179-183 (a missing graph is never larger; noniid.py and
    the others agree because its graph is never missing) *)
Definition prefer_new_graph (st : store) (new : option (graph * nat)) (m : option metric) : bool :=
  match s_graph st with
  | None => true
  | Some old => match new with Some g => Nat.ltb (nnz old) (nnz g) | None => false end
  end || metric_differs m (s_metric st).

(** outlier.py:259-284: the metric is written whether or not the graph is *)
Definition store_outlier (st : store) (new : option (graph * nat)) (m : option metric) : store :=
  Store (if prefer_new_graph st new m then match new with Some g => Some g | None => s_graph st end else s_graph st)
        (match m with Some _ => m | None => s_metric st end).

(** duplicate.py:154-172, noniid.py:246-267 (after the test of the skip flag), underperforming_group.py:270-292,
    data_valuation.py:172-190 *)
Definition store_other (st : store) (new : option (graph * nat)) (m : option metric) : store :=
  match new with
  | Some g => if prefer_new_graph st new m
              then Store (Some g) (match m with Some _ => m | None => s_metric st end) else st
  | None => st
  end.

Section Run.
Context (E : env) (B : backend).
(** whether everything after the choice of the graph succeeds *)
Context (rest : check -> args -> option (graph * nat) -> bool).

(** knn_graph_helpers.py:41-45 [knn_exists] *)
Definition knn_exists (a : args) (st : store) : bool :=
  is_some (process_knn_graph_from_inputs (a_graph a) (s_graph st) (a_k a)).

Definition get_graph (features : option feats) (a : args) (st : store) : res (graph * nat * option metric) :=
  set_knn_graph E B features (a_graph a) (a_metric a) (a_k a) (s_graph st) (s_metric st).

Definition finish (c : check) (a : args) (used : option (graph * nat)) (st : store) : res (option (graph * nat) * store) :=
  if rest c a used then Ok (used, st) else Raise OtherError.

(** [find_issues] of one check followed by [collect_statistics] (data_issues.py:306-329): the graph it worked on
    and the new statistics.  outlier.py:97-184 with 185-188 [_knn_graph_works]; duplicate.py:52-62; noniid.py:158-181 with
    129-156 [_determine_optional_features] and 212-225; underperforming_group.py:79-110; data_valuation.py:99-137. *)
Definition run_check (c : check) (a : args) (st : store) : res (option (graph * nat) * store) :=
  match c with
  | Outlier =>
      if is_some (a_features a) || knn_exists a st then
        do r <- get_graph (a_features a) a st ;
        let '(g, n, m) := r in finish c a (Some (g, n)) (store_outlier st (Some (g, n)) m)
      else match a_pred_probs a with
           | Some _ => finish c a None (store_outlier st None (a_metric a))
           | None => Raise ValueError
           end
  | NonIid =>
      let features := match a_features a with Some f => Some f | None => a_pred_probs a end in
      let skip := negb (knn_exists a st) && negb (is_some (a_features a)) && is_some (a_pred_probs a) in
      do r <- get_graph features a st ;
      let '(g, n, m) := r in
      finish c a (Some (g, n)) (if skip then st else store_other st (Some (g, n)) m)
  | Underperforming =>
      if a_cluster_ids a then finish c a None (store_other st None (a_metric a))
      else do r <- get_graph (a_features a) a st ;
           let '(g, n, m) := r in finish c a (Some (g, n)) (store_other st (Some (g, n)) m)
  | NearDuplicate =>
      do r <- get_graph (a_features a) a st ;
      let '(g, n, m) := r in finish c a (Some (g, n)) (store_other st (Some (g, n)) m)
  | DataValuation =>
      do r <- get_graph (a_features a) a st ;
      let '(g, n, m) := r in
      if Nat.ltb n (a_k a) then Raise ValueError
      else finish c a (Some (g, n)) (store_other st (Some (g, n)) m)
  end.

(** issue_finder.py:306-322: a check that raises is reported and changes nothing; several [find_issues] calls are
    one longer list of checks *)
Fixpoint run_checks (cs : list (check * args)) (st : store) : list (res (option (graph * nat))) * store :=
  match cs with
  | [] => ([], st)
  | (c, a) :: rest' =>
      let '(out, st1) := match run_check c a st with
                         | Ok (used, st1) => (Ok used, st1)
                         | Raise e => (Raise e, st)
                         end in
      let '(outs, st2) := run_checks rest' st1 in (out :: outs, st2)
  end.
End Run.
