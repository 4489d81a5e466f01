(** * Property C147: how tokens are divided into sentences does not matter *)
From Coq Require Import String QArith List ZArith Bool Arith.
From Verif Require Import Base BaseFacts ModelUtil ModelCount ModelRank ModelFilter ModelBatched ModelToken SpecToken SpecCount SpecRegroup ProofRegroup.
Import ListNotations.
Open Scope nat_scope.

(** The same tokens are reported, in the same order, with or without [low_memory]; nothing is reported for one division
    and an error raised for another *)
Theorem C147_issues srt labels pps labels' pps' K rank_by low flt o issues : same_text labels labels' -> same_text pps pps' ->
  token_find_label_issues srt labels pps K rank_by low flt o = Ok issues ->
  Forall (in_text (map (@length nat) labels)) issues /\
  exists issues', token_find_label_issues srt labels' pps' K rank_by low flt o = Ok issues' /\
    Forall (in_text (map (@length nat) labels')) issues' /\ positions labels' issues' = positions labels issues.
Proof. exact (find_regroup srt labels pps labels' pps' K rank_by low flt o issues). Qed.
Print Assumptions C147_issues.
Theorem C147_errors srt labels pps labels' pps' K rank_by low flt o e : same_text labels labels' -> same_text pps pps' ->
  token_find_label_issues srt labels pps K rank_by low flt o = Raise e -> token_find_label_issues srt labels' pps' K rank_by low flt o = Raise e.
Proof. exact (find_regroup_raise srt labels pps labels' pps' K rank_by low flt o e). Qed.
Print Assumptions C147_errors.

(** Every token has the same score *)
Theorem C147_scores K labels pps labels' pps' m : dataset K (concat labels) (concat pps) -> 2 <= K ->
  same_text labels labels' -> same_text pps pps' -> (forall s, In s labels -> s <> []) -> (forall s, In s labels' -> s <> []) ->
  exists ss ts ss' ts', token_get_label_quality_scores labels pps K m = Ok (ss, ts) /\
    token_get_label_quality_scores labels' pps' K m = Ok (ss', ts') /\ same_shape ts labels /\ same_shape ts' labels' /\ same_text ts ts'.
Proof. exact (scores_regroup K labels pps labels' pps' m). Qed.
Print Assumptions C147_scores.

(** The summaries of the issues are the same *)
Theorem C147_filter lower token issues issues' tokens tokens' : same_text tokens tokens' ->
  Forall (in_text (map (@length string) tokens)) issues -> Forall (in_text (map (@length string) tokens')) issues' ->
  positions tokens' issues' = positions tokens issues ->
  exists r r', filter_by_token lower token issues tokens = Ok r /\ filter_by_token lower token issues' tokens' = Ok r' /\
    positions tokens' r' = positions tokens r.
Proof. exact (filter_regroup lower token issues issues' tokens tokens'). Qed.
Print Assumptions C147_filter.
Theorem C147_common_tokens srt tokens tokens' issues issues' : same_text tokens tokens' ->
  Forall (in_text (map (@length string) tokens)) issues -> Forall (in_text (map (@length string) tokens')) issues' ->
  positions tokens' issues' = positions tokens issues -> common_tokens srt issues' tokens' = common_tokens srt issues tokens.
Proof. exact (tokens_regroup srt tokens tokens' issues issues'). Qed.
Print Assumptions C147_common_tokens.
Theorem C147_common_swaps srt exclude tokens tokens' labels labels' pps pps' issues issues' :
  same_text tokens tokens' -> same_text labels labels' -> same_text pps pps' ->
  same_shape tokens labels -> same_shape tokens pps -> same_shape tokens' labels' -> same_shape tokens' pps' ->
  hd [] pps <> [] -> hd [] pps' <> [] ->
  Forall (in_text (map (@length string) tokens)) issues -> Forall (in_text (map (@length string) tokens')) issues' ->
  positions tokens' issues' = positions tokens issues ->
  common_swaps srt issues' tokens' labels' pps' exclude = common_swaps srt issues tokens labels pps exclude.
Proof. exact (common_regroup srt exclude tokens tokens' labels labels' pps pps' issues issues'). Qed.
Print Assumptions C147_common_swaps.

(** ** A concrete case *)
Open Scope Q_scope.
Definition C147_labels : list (list nat) := [[0; 1]; [0; 1; 1; 0]]%nat.
Definition C147_labels' : list (list nat) := [[0; 1; 0]; [1]; []; [1; 0]]%nat.
Definition C147_pps : list (list (list Q)) :=
  [[[9#10; 1#10]; [2#10; 8#10]]; [[1#10; 9#10]; [1#10; 9#10]; [8#10; 2#10]; [9#10; 1#10]]].
Definition C147_pps' : list (list (list Q)) :=
  [[[9#10; 1#10]; [2#10; 8#10]; [1#10; 9#10]]; [[1#10; 9#10]]; []; [[8#10; 2#10]; [9#10; 1#10]]].
Definition C147_tokens : list (list string) := [["a"; "b"]; ["c"; "d"; "c"; "e"]]%string.
Definition C147_tokens' : list (list string) := [["a"; "b"; "c"]; ["d"]; []; ["c"; "e"]]%string.
Definition C147_options : options := {| frac_noise := 1; num_to_remove_per_class := None; min_examples_per_class := 1; confident_joint := None; n_jobs := 1; sched_c := []; sched_n := [] |}.
Example C147_example : same_text C147_labels C147_labels' /\ same_text C147_pps C147_pps' /\ same_text C147_tokens C147_tokens' /\
  token_find_label_issues argsort_ins C147_labels C147_pps 2 SelfConfidence None PruneByNoiseRate C147_options = Ok [(1, 0); (1, 2)]%nat /\
  token_find_label_issues argsort_ins C147_labels' C147_pps' 2 SelfConfidence None PruneByNoiseRate C147_options = Ok [(0, 2); (3, 0)]%nat /\
  positions C147_labels [(1, 0); (1, 2)]%nat = [2; 4]%nat /\ positions C147_labels' [(0, 2); (3, 0)]%nat = [2; 4]%nat /\
  common_tokens argsort_ins [(1, 0); (1, 2)]%nat C147_tokens = Ok [("c", 2%nat)]%string /\
  common_tokens argsort_ins [(0, 2); (3, 0)]%nat C147_tokens' = Ok [("c", 2%nat)]%string /\
  same_shape C147_tokens' C147_labels' /\ same_shape C147_tokens' C147_pps'.
Proof. repeat split; vm_compute; reflexivity. Qed.
