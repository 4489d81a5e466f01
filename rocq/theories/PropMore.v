(** * Further theorems for C16, C47, C50 and C81 *)
From Coq Require Import String QArith Qabs List ZArith Bool Arith Lia.
From Verif Require Import Base BaseFacts ModelUtil ModelCount ModelRank ModelFilter ModelCV ModelDataset ModelDatalab
     SpecCount SpecFilter SpecCV SpecDataset ProofMore.
Import ListNotations.
Open Scope Q_scope.
Open Scope string_scope.

(** ** C16 *)
(** custom weights: the weighted sum, and as many weights as models are needed *)
Theorem C16_custom_weights : forall K labels pps method adjust w,
  (forall pp, In pp pps -> dataset K labels pp) -> two_classes labels ->
  (length w = length pps -> pps <> [] ->
   exists ens scores, get_label_quality_ensemble_scores labels pps K method adjust (Custom w) = Ok ens /\
     Forall2 (fun pp s => get_label_quality_scores labels pp K method adjust = Ok s) pps scores /\
     length ens = length labels /\
     forall e, (e < length labels)%nat ->
       nth e ens 0 == qsum (tab (length pps) (fun i => nth e (nth i scores []) 0 * nth i w 0))) /\
  (pps <> [] -> length w <> length pps ->
   get_label_quality_ensemble_scores labels pps K method adjust (Custom w) = Raise AssertionError) /\
  (forall weighting, get_label_quality_ensemble_scores labels [] K method adjust weighting = Raise AssertionError).
Proof. exact C16_custom_full. Qed.
Print Assumptions C16_custom_weights.

Definition ex16_pps : list (list (list Q)) :=
  [[[9#10;1#10];[2#10;8#10];[6#10;4#10]]; [[5#10;5#10];[8#10;2#10];[3#10;7#10]]].
Example C16_custom_example :
  (exists ens, get_label_quality_ensemble_scores [0;1;0]%nat ex16_pps 2 SelfConfidence false (Custom [3#4; 1#4]) = Ok ens /\
     Forall2 Qeq ens [8#10; 65#100; 525#1000]) /\
  get_label_quality_ensemble_scores [0;1;0]%nat ex16_pps 2 SelfConfidence false (Custom [1]) = Raise AssertionError.
Proof. split; [|vm_compute; reflexivity]. eexists. split; [vm_compute; reflexivity|]. repeat constructor. Qed.

(** ** C47 *)
(** the confident joint returned with the cross-validated probabilities counts by them, with the caller's
    thresholds if there are any *)
Theorem C47_joint : forall A (d : A) fit_predict so srt torch X labels folds thr cj pp,
  let K := length (unique labels) in
  estimate_confident_joint_and_cv_pred_proba d fit_predict so srt torch X labels folds thr false = Ok (cj, pp) ->
  cv_pred_probs d fit_predict so torch X labels folds = Ok pp /\
  (dataset K labels pp -> (forall t, thr = Some t -> length t = K) ->
   forall i j, (i < K)%nat -> (j < K)%nat ->
     exists n, holds_for (length labels)
         (fun e => nth e labels 0%nat = i /\
            counted_as (match thr with Some t => t | None => get_confident_thresholds labels pp K end) (nth e pp []) j) n /\
       zget cj i j = if Nat.eqb i j then Z.max 1 (Z.of_nat n) else Z.of_nat n).
Proof. exact C47_joint_full. Qed.
Print Assumptions C47_joint.

(** a classifier that returns its input as probability of class 0; high thresholds leave only one confident
    off-diagonal example *)
Definition ex47_fit (Xt : list Q) (yt : list nat) (Xh : list Q) : list (list Q) := map (fun x => [x; 1 - x]) Xh.
Example C47_joint_example :
  match estimate_confident_joint_and_cv_pred_proba 0 ex47_fit (fun l => l) argsort_ins false [9#10; 1#10; 2#10; 3#10]
          [0;0;1;1]%nat [[0;2];[1;3]]%nat (Some [8#10; 8#10]) false with
  | Ok (cj, pp) => cj = [[1;1];[0;1]]%Z /\ Forall2 (Forall2 Qeq) pp [[9#10;1#10];[1#10;9#10];[2#10;8#10];[3#10;7#10]]
  | Raise _ => False
  end.
Proof. vm_compute. split; [reflexivity|repeat constructor]. Qed.

(** ** C50 *)
(** from a confident joint alone, the numbers of overlapping examples are its own (rounded) counts *)
Theorem C50_overlap_counts : forall srt K asym a cj rows, argsort_ok srt ->
  length cj = K -> (forall r, In r cj -> length r = K) -> TINY_VALUE <= qsum (map qsum cj) ->
  in_labels a = None -> in_joint a = None -> in_num_examples a = None -> in_confident_joint a = Some cj ->
  find_overlapping_classes srt asym a = Ok rows ->
  forall r, In r rows ->
    rounds_to (if asym then mget cj (overlap_a r) (overlap_b r)
               else mget cj (overlap_a r) (overlap_b r) + mget cj (overlap_b r) (overlap_a r)) (overlap_num r).
Proof. exact C50_counts_full. Qed.
Print Assumptions C50_overlap_counts.

Example C50_overlap_counts_example :
  match find_overlapping_classes argsort_ins false
     {| in_labels := None; in_pred_probs := None; in_K := 0; in_num_examples := None; in_joint := None;
        in_confident_joint := Some [[10;3];[4;20]] |} with
  | Ok rows => map overlap_num rows = [7%Z]
  | Raise _ => False
  end.
Proof. vm_compute. reflexivity. Qed.

(** ** C81 *)
(** the columns of a repeated image check are those of the new run, all other columns stay *)
Theorem C81_columns_partial V (lab : imagelab V) types st st' : collect_imagelab lab types st = Ok st' ->
  let replaced c := exists t, In t types /\ In t (map r_type (issue_summary st)) /\ (c = flag_column t \/ c = score_column t) in
  (forall c, replaced c -> lookup c (issues st') = lookup c (i_frame lab)) /\
  (forall c, ~ replaced c -> In c (keys (issues st)) -> lookup c (issues st') = lookup c (issues st)) /\
  (forall c, ~ In c (keys (issues st)) -> lookup c (issues st') = lookup c (i_frame lab)).
Proof. exact (C81_columns_full V lab types st st'). Qed.
Print Assumptions C81_columns_partial.

(** a second run of the "dark" check replaces the column of the first *)
Definition ex81_lab (b : bool) : imagelab nat :=
  Imagelab 1 [(flag_column "dark", [CFlag b]); (score_column "dark", [CNum 1])] [Row "dark" 1 0] [("dark", 0%nat)].
Example C81_columns_example : exists st1 st2,
  collect_imagelab (ex81_lab false) ["dark"] (init_issues 1 []) = Ok st1 /\
  collect_imagelab (ex81_lab true) ["dark"] st1 = Ok st2 /\
  lookup (flag_column "dark") (issues st1) = Some [CFlag false] /\
  lookup (flag_column "dark") (issues st2) = Some [CFlag true].
Proof. do 2 eexists. split; [vm_compute; reflexivity|]. split; [vm_compute; reflexivity|]. split; vm_compute; reflexivity. Qed.
