(** * The models meet the expectations of the test suite of the package
    Evidence that the definitions are the code's: inputs and expected results are copied from /repo/tests. *)
From Coq Require Import String QArith Qabs NArith List ZArith Bool Arith.
From Verif Require Import Base ModelUtil ModelCount ModelRank ModelFilter ModelConfusion ModelLabels ModelPuF1 ModelMultilabel ModelMultiCV ModelToken
     ModelMultiannotator ModelSpan ModelText PropText PropDocExamples.
Import ListNotations.
Open Scope Q_scope.

(** ** tests/test_token_classification.py *)
Definition suite_words : list (list string) := [["Hello"; "World"]; ["#I"; "love"; "Cleanlab"]; ["A"]]%string.
Definition suite_sentences : list string := ["Hello World"; "#I love Cleanlab"; "A"]%string.
Definition suite_probs : list (list (list Q)) :=
  [[[9#10; 1#10; 0]; [6#10; 2#10; 2#10]]; [[1#10; 0; 9#10]; [1#10; 8#10; 1#10]; [1#10; 8#10; 1#10]]; [[1#10; 1#10; 8#10]]].
Definition suite_labels : list (list nat) := [[0; 0]; [1; 1; 1]; [2]]%nat.
Definition suite_maps : list Z := [0; 1; 0; 1]%Z.

Example suite_get_sentence :
  map (fun w => get_sentence ascii_space (map txt w)) suite_words = map txt suite_sentences /\
  get_sentence ascii_space (map txt ["Heading"; "-"; "Title"]%string) = txt "Heading - Title" /\
  get_sentence ascii_space (map txt ["Some"; "reason"; "("; "Explanation"; ")"]%string) = txt "Some reason (Explanation)".
Proof. split; [|split]; vm_compute; reflexivity. Qed.
Example suite_filter_sentence :
  filter_sentence suite_sentences None = (["Hello World"]%string, [true; false; false]) /\
  filter_sentence suite_sentences (Some (fun s => Nat.ltb 1 (String.length s))) =
    (["Hello World"; "#I love Cleanlab"]%string, [true; true; false]).
Proof. split; vm_compute; reflexivity. Qed.
Example suite_process_token :
  process_token (txt "Cleanlab") [(txt "C", txt "a")] = Ok (txt "aleanlab") /\
  process_token (txt "Cleanlab") [(txt "C", txt "a"); (txt "a", txt "C")] = Ok (txt "aleCnlCb").
Proof. split; vm_compute; reflexivity. Qed.
Example suite_mapping : rmap (fun l => mapping l suite_maps) suite_labels = Ok [[0; 0]; [1; 1; 1]; [0]]%Z.
Proof. vm_compute. reflexivity. Qed.
Example suite_merge_probs :
  map (fun p => red_rows (merge_probs p 3 suite_maps)) suite_probs =
  map (fun m => red_rows (Ok m)) [[[9#10; 1#10]; [8#10; 2#10]]; [[1; 0]; [2#10; 8#10]; [2#10; 8#10]]; [[9#10; 1#10]]].
Proof. vm_compute. reflexivity. Qed.
Example suite_merge_probs_normalized :
  map (fun p => red_rows (merge_probs p 3 [-1; 1; 0; 1]%Z)) suite_probs =
  map (fun m => red_rows (Ok m)) [[[0; 1]; [5#10; 5#10]]; [[1; 0]; [1#9; 8#9]; [1#9; 8#9]]; [[8#9; 1#9]]] /\
  map (fun p => red_rows (merge_probs p 3 [0; -1; 0; 1]%Z)) suite_probs =
  map (fun m => red_rows (Ok m)) [[[1; 0]; [1; 0]]; [[1; 0]; [1; 0]; [1; 0]]; [[1; 0]]].
Proof. split; vm_compute; reflexivity. Qed.

(** the ten cases of [test_replace_sentence]; [|] stands for the new word *)
Definition suite_replaced (sentence word : string) (parts : list string) : Prop :=
  replace_sentence ascii_word (txt sentence) (txt word) (txt "[EXPECTED]") = Ok (txt (String.concat "[EXPECTED]" parts)).
Example suite_replace_sentence :
  suite_replaced "Hello World" "World" ["Hello "; ""]%string /\
  suite_replaced "Hello World" "help" ["Hello World"]%string /\
  suite_replaced "If you and I were to meet" "I" ["If you and "; " were to meet"]%string /\
  suite_replaced "If you and I were to meet" "If you and I" [""; " were to meet"]%string /\
  suite_replaced "If you and I were to meet" "If you and I w" [""; "ere to meet"]%string /\
  suite_replaced "I think I know this" "I" [""; " think "; " know this"]%string /\
  suite_replaced "A good reason for a test" "a" ["A good reason for "; " test"]%string /\
  suite_replaced "ab ab a b ab" "ab a" ["ab "; " b ab"]%string /\
  suite_replaced "ab ab ab ab" "ab a" [""; "b "; "b"]%string /\
  suite_replaced "Alan John Percivale (A.j.p.) Taylor died" "(" ["Alan John Percivale "; "A.j.p.) Taylor died"]%string.
Proof. unfold suite_replaced. do 9 (split; [vm_compute; reflexivity|]). vm_compute. reflexivity. Qed.

Example suite_token_issues :
  token_find_label_issues argsort_ins suite_labels suite_probs 3 SelfConfidence None PruneByNoiseRate span_options = Ok [(1, 0)]%nat.
Proof. vm_compute. reflexivity. Qed.
Example suite_token_scores :
  exists token_scores,
    token_get_label_quality_scores suite_labels suite_probs 3 SelfConfidence = Ok ([6#10; 0; 8#10], token_scores) /\
    nth 0 token_scores [] = [9#10; 6#10] /\
    token_issues_from_scores argsort_ins [6#10; 0; 8#10] token_scores (1#10) = Ok (TokenIssues [(1, 0)]%nat) /\
    token_issues_from_scores argsort_ins [6#10; 0; 8#10] [] (1#10) = Ok (SentenceIssues [1]%nat).
Proof. eexists. split; [vm_compute; reflexivity|]. split; [reflexivity|]. split; vm_compute; reflexivity. Qed.

(** ** tests/test_span_classification.py *)
Example suite_span :
  span_find_label_issues argsort_ins [[0; 0; 1; 1]; [0; 0; 1]]%nat [[3#10; 2#10; 9#10; 1#10]; [1#10; 1#10; 9#10]] = Ok [(0, 3)]%nat /\
  (do s <- span_get_label_quality_scores [[0; 0; 1; 1]; [0; 0; 1]]%nat [[3#10; 2#10; 9#10; 1#10]; [1#10; 1#10; 9#10]] ;
   red_rows (Ok [fst s; nth 0 (snd s) []])) = red_rows (Ok [[1#10; 9#10]; [7#10; 8#10; 9#10; 1#10]]).
Proof. split; vm_compute; reflexivity. Qed.

(** ** tests/test_multilabel_classification.py *)
Definition suite_ml_probs : list (list Q) :=
  [[9#10; 1#10; 0; 4#10; 1#10]; [7#10; 8#10; 2#10; 3#10; 1#10]; [9#10; 8#10; 4#10; 2#10; 1#10]; [1#10; 1#10; 8#10; 3#10; 1#10];
   [4#10; 5#10; 1#10; 1#10; 1#10]; [1#10; 1#10; 2#10; 1#10; 1#10]; [8#10; 1#10; 2#10; 1#10; 1#10]].
Definition suite_ml_labels : list (list nat) := [[0]; [0; 1]; [0; 1]; [2]; [0; 2; 3]; []; []]%nat.
Example suite_ml_class_scores :
  red_rows (ml_label_quality_scores_per_class suite_ml_labels suite_ml_probs 5 SelfConfidence false) =
  red_rows (Ok [[9#10; 9#10; 1; 6#10; 9#10]; [7#10; 8#10; 8#10; 7#10; 9#10]; [9#10; 8#10; 6#10; 8#10; 9#10];
                [9#10; 9#10; 8#10; 7#10; 9#10]; [4#10; 5#10; 1#10; 1#10; 9#10]; [9#10; 9#10; 8#10; 9#10; 9#10];
                [2#10; 9#10; 8#10; 9#10; 9#10]]).
Proof. vm_compute. reflexivity. Qed.
Example suite_moving_average :
  (forall alpha, alpha = Some (1#2) \/ alpha = None ->
     red_list (rmap (exponential_moving_average argsort_ins alpha) [[1#10; 2#10; 3#10]; [4#10; 5#10; 6#10]]) =
     red_list (Ok [175#1000; 475#1000])) /\
  red_list (rmap (exponential_moving_average argsort_ins (Some 0)) [[1#10; 2#10; 3#10]]) = Ok [3#10] /\
  red_list (rmap (exponential_moving_average argsort_ins (Some 1)) [[1#10; 2#10; 3#10]]) = Ok [1#10] /\
  match exponential_moving_average argsort_ins None [6#10; 3#10; 7#10; 1#10; 9#10] with
  | Ok x => Qabs (x - (436#1000)) <= (436#1000) * (1#1000) | Raise _ => False end.
Proof. split; [intros a [-> | ->]; vm_compute; reflexivity|]. split; [vm_compute; reflexivity|]. split; [vm_compute; reflexivity|]. vm_compute. discriminate. Qed.
Example suite_multilabel_py :
  red_rows (Ok (multilabel_py [[0; 1]; [0; 0]; [1; 1]]%nat 2)) = red_rows (Ok [[2#3; 1#3]; [1#3; 2#3]]) /\
  red_rows (Ok (multilabel_py [[0; 1]; [0; 0]; [0; 1]; [0; 1]]%nat 2)) = red_rows (Ok [[1; 0]; [1#4; 3#4]]).
Proof. split; vm_compute; reflexivity. Qed.

Definition suite_ml_options : ml_options := default_options None (fun _ => ([], [])) 1.
(** probabilities, then the classes: Apple, Dog and eight rows without an issue *)
Example suite_common_multilabel_issues :
  (do rows <- common_multilabel_issues argsort_ins suite_ml_labels suite_ml_probs 5 suite_ml_options ;
   Ok (map (fun r => Qred (snd r)) rows, map (fun r : issue_row => fst (fst (fst r))) rows)) =
  Ok ([1#7; 1#7; 0; 0; 0; 0; 0; 0; 0; 0], [0; 2; 0; 1; 1; 2; 3; 3; 4; 4]%nat).
Proof. vm_compute. reflexivity. Qed.
Example suite_rank_classes :
  (do rows <- rank_classes_by_multilabel_quality argsort_ins suite_ml_labels suite_ml_probs 5 suite_ml_options ;
   Ok (map q_class rows, map q_issues rows, map q_inverse rows, map Qred (map q_noise rows), map Qred (map q_inv_noise rows),
       map Qred (map q_score rows))) =
  Ok ([2; 0; 1; 3; 4]%nat, [1; 0; 0; 0; 0]%Z, [0; 1; 0; 0; 0]%Z, [1#7; 0; 0; 0; 0], [0; 1#7; 0; 0; 0], [6#7; 1; 1; 1; 1]).
Proof. vm_compute. reflexivity. Qed.
(** the fixture [data_multilabel]: a hundred examples, the last nine with the wrong label *)
Definition suite_hundred_labels : list (list nat) := map (fun i => [Nat.modulo i 5]) (seq 0 100).
Definition suite_hundred_probs : list (list Q) :=
  map (fun i => let pos := if Nat.ltb 90 i then Nat.modulo (Nat.modulo i 5 + 2) 5 else Nat.modulo i 5 in
                map (fun k => if Nat.eqb k pos then 9#10 else 1#10) (seq 0 5)) (seq 0 100).
Example suite_overall_health :
  (do x <- overall_multilabel_health_score argsort_ins suite_hundred_labels suite_hundred_probs 5 suite_ml_options ; Ok (Qred x)) =
  Ok (91#100).
Proof. vm_compute. reflexivity. Qed.

(** ** tests/test_multiannotator.py: whatever the random numbers *)
Example suite_majority_vote : forall rnd,
  get_majority_vote_label rnd
    [[Some 1; None; None; Some 2; None]; [None; Some 1; Some 0; None; None]; [None; None; Some 0; None; None];
     [None; Some 2; None; None; None]; [Some 2; None; Some 0; Some 2; None]; [None; None; None; Some 2; Some 1]]%nat 5 None 0 true =
  Ok [1; 1; 0; 2; 2; 1]%nat.
Proof. intros rnd. vm_compute. reflexivity. Qed.

(** ** tests/test_util.py *)
Example suite_round :
  (do ints <- round_preserving_sum argsort_ins (repeat (11#10) 10) ; Ok (zsum ints, existsb (Z.eqb 2) ints)) = Ok (11%Z, true).
Proof. vm_compute. reflexivity. Qed.
Example suite_onehot : onehot2int (int2onehot [[0]; [0; 1]; [0; 1]; [2]; [0; 2; 3]]%nat 4) = [[0]; [0; 1]; [0; 1]; [2]; [0; 2; 3]]%nat.
Proof. vm_compute. reflexivity. Qed.
Example suite_missing : ModelUtil.get_missing_classes [0; 1]%nat 3 = [2]%nat.
Proof. vm_compute. reflexivity. Qed.
Example suite_confusion :
  confusion_matrix [0; 1; 1; 2; 2; 2]%nat [0; 0; 1; 1; 1; 2]%nat = Ok [[1; 0; 0]; [1; 1; 0]; [0; 2; 1]]%Z.
Proof. vm_compute. reflexivity. Qed.
Example suite_remove_noise :
  red_rows (Ok (remove_noise_from_class [[9#10; 0; 0]; [0; 7#10; 4#10]; [1#10; 3#10; 6#10]] 0)) =
  red_rows (Ok [[9#10; 0; 0]; [0; 7#10; 4#10]; [1#10; 3#10; 6#10]]).
Proof. vm_compute. reflexivity. Qed.
Example suite_pu_f1 : match estimate_pu_f1 [1; 1; 1; 0; 0; 0]%nat [1; 1; 1; 0; 0; 0] with Ok (Some f) => f == 1 | _ => False end.
Proof. vm_compute. reflexivity. Qed.
