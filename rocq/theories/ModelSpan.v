(** * Model of cleanlab/experimental/span_classification.py *)
From Coq Require Import QArith List Bool Arith.
From Verif Require Import Base ModelUtil ModelCount ModelRank ModelFilter ModelToken.
Import ListNotations.
Open Scope Q_scope.

(** span_classification.py:101-106 [_get_pred_prob_token]: the probability of being inside a span becomes a row of two. *)
Definition get_pred_prob_token (pred_probs : list (list Q)) : list (list (list Q)) := map (map (fun p => [1 - p; p])) pred_probs.

(** span_classification.py:17-62 [find_label_issues]: the token finder with its defaults (filter.py of token_classification: ranked by
    self-confidence; prune_by_noise_rate, nothing else passed, so the process pool default n_jobs is what [o] says). *)
Definition span_options : options :=
  {| frac_noise := 1; num_to_remove_per_class := None; min_examples_per_class := 1; confident_joint := None; n_jobs := 1; sched_c := []; sched_n := [] |}.
Definition span_find_label_issues (srt : list Q -> list nat) (labels : list (list nat)) (pred_probs : list (list Q)) : res (list (nat * nat)) :=
  token_find_label_issues srt labels (get_pred_prob_token pred_probs) 2 SelfConfidence None PruneByNoiseRate span_options.

(** span_classification.py:89-98 [get_label_quality_scores], no keyword arguments. *)
Definition span_get_label_quality_scores (labels : list (list nat)) (pred_probs : list (list Q)) : res (list Q * list (list Q)) :=
  token_get_label_quality_scores labels (get_pred_prob_token pred_probs) 2 SelfConfidence.
