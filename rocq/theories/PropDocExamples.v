(** * The models compute what the docstrings of the package print
    Evidence that the definitions are the code's: every example is copied from a docstring, with the printed result. *)
From Coq Require Import String QArith List ZArith Bool Arith.
From Verif Require Import Base ModelUtil ModelCount ModelRank ModelFilter ModelMultilabel ModelMultiCV ModelToken ModelSpan.
Import ListNotations.
Open Scope Q_scope.

(** lowest terms, so that two results are compared as numbers *)
Definition red_list (r : res (list Q)) : res (list Q) := do l <- r ; Ok (map Qred l).
Definition red_rows (r : res (list (list Q))) : res (list (list Q)) := do l <- r ; Ok (map (map Qred) l).

(** multilabel_utils.py:33-38 *)
Example doc_stack_complement :
  red_rows (Ok (stack_complement [1#10; 9#10; 3#10; 8#10])) =
  red_rows (Ok [[9#10; 1#10]; [1#10; 9#10]; [7#10; 3#10]; [2#10; 8#10]]).
Proof. vm_compute. reflexivity. Qed.

(** multilabel_scorer.py:186-190 *)
Example doc_moving_average :
  red_list (rmap (exponential_moving_average argsort_ins (Some (1#2))) [[1#10; 2#10; 3#10]]) = red_list (Ok [175#1000]).
Proof. vm_compute. reflexivity. Qed.

(** multilabel_scorer.py:428-435 [aggregate]: the default forgetting factor 0.8, then 0.5 *)
Example doc_aggregate :
  red_list (rmap (exponential_moving_average argsort_ins (Some (8#10))) [[9#10; 9#10; 3#10]; [4#10; 9#10; 6#10]]) =
    red_list (Ok [42#100; 452#1000]) /\
  red_list (rmap (exponential_moving_average argsort_ins (Some (5#10))) [[9#10; 9#10; 3#10]; [4#10; 9#10; 6#10]]) =
    red_list (Ok [6#10; 575#1000]).
Proof. split; vm_compute; reflexivity. Qed.

(** multilabel_scorer.py:470-478 [get_label_quality_scores_per_class] of the scorer *)
Example doc_class_scores :
  red_rows (class_scores [[0; 1; 0]; [1; 0; 1]]%nat [[1#10; 9#10; 7#10]; [4#10; 1#10; 6#10]] 3 SelfConfidence false) =
  red_rows (Ok [[9#10; 9#10; 3#10]; [4#10; 9#10; 6#10]]).
Proof. vm_compute. reflexivity. Qed.

(** multilabel_classification/rank.py:109-113; the docstring of the per-class function (rank.py:166-170) prints this very call and
    not its own, whose result is a row for each example *)
Example doc_multilabel_scores :
  red_list (ml_label_quality_scores argsort_ins [[1]; [0; 2]]%nat [[1#10; 9#10; 1#10]; [4#10; 1#10; 9#10]] 3 SelfConfidence false
              (Some (8#10))) = red_list (Ok [9#10; 5#10]) /\
  red_rows (ml_label_quality_scores_per_class [[1]; [0; 2]]%nat [[1#10; 9#10; 1#10]; [4#10; 1#10; 9#10]] 3 SelfConfidence false) =
    red_rows (Ok [[9#10; 9#10; 9#10]; [4#10; 9#10; 9#10]]).
Proof. split; vm_compute; reflexivity. Qed.

(** multilabel_scorer.py:387-393: the normalized margin, aggregated by [np.min] *)
Example doc_margin_min :
  red_list (do rows <- class_scores [[0; 1; 0]; [1; 0; 1]]%nat [[1#10; 9#10; 1#10]; [4#10; 1#10; 9#10]] 3 NormalizedMargin false ;
            rmap min_sentence rows) = red_list (Ok [9#10; 4#10]).
Proof. vm_compute. reflexivity. Qed.

(** multilabel_scorer.py:575-584 *)
Example doc_multilabel_py :
  red_rows (Ok (multilabel_py [[0; 0]; [0; 1]; [1; 0]; [1; 1]]%nat 2)) = red_rows (Ok [[1#2; 1#2]; [1#2; 1#2]]) /\
  red_rows (Ok (multilabel_py [[0; 0]; [0; 1]; [1; 0]; [1; 0]; [1; 0]]%nat 2)) = red_rows (Ok [[4#10; 6#10]; [8#10; 2#10]]).
Proof. split; vm_compute; reflexivity. Qed.

(** token_classification/rank.py:86-100 and filter.py:70-76, on the same data *)
Definition doc_labels : list (list nat) := [[0; 0; 1]; [0; 1]]%nat.
Definition doc_probs : list (list (list Q)) :=
  [[[9#10; 1#10]; [7#10; 3#10]; [5#100; 95#100]]; [[8#10; 2#10]; [8#10; 2#10]]].
Example doc_token_scores :
  token_get_label_quality_scores doc_labels doc_probs 2 SelfConfidence =
    Ok ([7#10; 2#10], [[9#10; 7#10; 95#100]; [8#10; 2#10]]).
Proof. vm_compute. reflexivity. Qed.
Example doc_token_issues :
  token_find_label_issues argsort_ins doc_labels doc_probs 2 SelfConfidence None PruneByNoiseRate span_options = Ok [(1, 1)]%nat.
Proof. vm_compute. reflexivity. Qed.

(** token_classification/rank.py:186-210 *)
Definition doc_sentence_scores : list Q := [1#10; 3#10; 6#10; 2#10; 5#100; 9#10; 8#10; 125#10000; 5#10; 6#10].
Definition doc_token_scores_rows : list (list Q) :=
  [[9#10; 6#10]; [0; 8#10; 8#10]; [8#10; 8#10]; [1#10; 2#100; 3#10; 4#10]; [1#10; 2#10; 3#100; 4#10];
   [1#10; 2#10; 3#10; 4#100]; [1#10; 2#10; 4#10]; [3#10; 4#10]; [8#100; 2#10; 5#10; 4#10]; [1#10; 2#10; 3#10; 4#10]].
Example doc_issues_from_scores :
  token_issues_from_scores argsort_ins doc_sentence_scores [] (1#10) = Ok (SentenceIssues [7; 4]%nat) /\
  token_issues_from_scores argsort_ins doc_sentence_scores [] (5#10) = Ok (SentenceIssues [7; 4; 0; 3; 1]%nat) /\
  token_issues_from_scores argsort_ins doc_sentence_scores doc_token_scores_rows (1#10) =
    Ok (TokenIssues [(1, 0); (3, 1); (4, 2); (5, 3); (8, 0)]%nat).
Proof. split; [|split]; vm_compute; reflexivity. Qed.

(** internal/token_classification_utils.py:80-83, 154-159, 191-198 *)
Example doc_filter_sentence :
  filter_sentence ["# Headline"; "Sentence 1."; "&"; "Sentence 2."]%string None =
  (["Sentence 1."; "Sentence 2."]%string, [false; true; false; true]).
Proof. vm_compute. reflexivity. Qed.
Example doc_mapping :
  mapping [0; 1; 2; 3; 4]%nat [0; 1; 1; 2; 2]%Z = Ok [0; 1; 1; 2; 2]%Z /\
  mapping [0; 0; 4; 4; 3; 4; 0; 2]%nat [0; 1; 1; 2; 2]%Z = Ok [0; 0; 2; 2; 2; 2; 0; 1]%Z.
Proof. split; vm_compute; reflexivity. Qed.
Example doc_merge_probs :
  red_rows (merge_probs [[55#100; 125#10000; 375#10000; 1#10; 3#10]; [1#10; 8#10; 0; 75#1000; 25#1000]] 5 [0; 1; 1; 2; 2]%Z) =
  red_rows (Ok [[55#100; 5#100; 4#10]; [1#10; 8#10; 1#10]]).
Proof. vm_compute. reflexivity. Qed.

(** token_classification/summary.py:205-219, 330-338; no upper-case letter in the token looked for, so [lower] is the identity *)
Definition doc_sentences : list (list string) :=
  [["A"; "?weird"; "sentence"]; ["A"; "valid"; "sentence"]; ["An"; "sentence"; "with"; "a"; "typo"]]%string.
Example doc_common_and_filter :
  common_tokens argsort_ins [(2, 0); (0, 1)]%nat doc_sentences = Ok [("An"%string, 1%nat); ("?weird"%string, 1%nat)] /\
  filter_by_token (fun s => s) "?weird"%string [(2, 0); (0, 1)]%nat doc_sentences = Ok [(0, 1)%nat].
Proof. split; vm_compute; reflexivity. Qed.

(** experimental/span_classification.py:54-59 prints no result.  Six of the seven tokens contradict their label; the call returns
    five, as all three tokens of class 0 do and one of each class is always left *)
Example doc_span :
  span_find_label_issues argsort_ins [[0; 0; 1; 1]; [1; 1; 0]]%nat [[9#10; 9#10; 9#10; 1#10]; [1#10; 1#10; 9#10]] =
  Ok [(0, 0); (0, 1); (0, 3); (1, 0); (1, 1)]%nat.
Proof. vm_compute. reflexivity. Qed.
