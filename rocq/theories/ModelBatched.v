(** * Model of cleanlab/experimental/label_issues_batched.py *)
From Coq Require Import QArith Qabs Qround List ZArith Bool Arith.
From Verif Require Import Base ModelUtil ModelCount ModelRank ModelPool ModelFilter.
Import ListNotations.
Open Scope Q_scope.

(** label_issues_batched.py:313-376: attributes of a LabelInspector (store_results=True).  The counters kept
    only for estimation_method="off_diagonal_calibrated" are always present here. *)
Record inspector := {
  confident_thresholds : list Q;
  examples_per_class : list nat;
  examples_processed_thresh : nat;
  examples_processed_quality : nat;
  prune_count : nat;
  prune_counts_c : list nat;
  class_counts_c : list nat;
  normalization_c : list nat;
  quality_scores : list Q }.
Definition new_inspector (K : nat) : inspector :=
  {| confident_thresholds := repeat 0 K; examples_per_class := repeat 0%nat K;
     examples_processed_thresh := 0; examples_processed_quality := 0; prune_count := 0;
     prune_counts_c := repeat 0%nat K; class_counts_c := repeat 0%nat K; normalization_c := repeat 0%nat K;
     quality_scores := [] |}.

(** a batch: labels and predicted probabilities of the same examples *)
Definition batch := (list nat * list (list Q))%type.

(** label_issues_batched.py:744-760 [_batch_check] (the column count is [K] by construction). *)
Definition batch_check (b : batch) : res unit :=
  if negb (Nat.eqb (length (fst b)) (length (snd b))) then Raise ValueError else Ok tt.

(** label_issues_batched.py:487-516 [update_confident_thresholds]. *)
Definition update_confident_thresholds (K : nat) (st : inspector) (b : batch) : res inspector :=
  do _ <- batch_check b ;
  let batch_thresholds := get_confident_thresholds (fst b) (snd b) K in
  do batch_class_counts <- value_counts (fst b) K ;
  let thr := tab K (fun k =>
    clip_lo CONFIDENT_THRESHOLDS_LOWER_BOUND
      ((Qnat (nth k (examples_per_class st) 0%nat) * nth k (confident_thresholds st) 0
        + Qnat (nth k batch_class_counts 0%nat) * nth k batch_thresholds 0)
       / clip_lo 1 (Qnat (nth k (examples_per_class st) 0%nat + nth k batch_class_counts 0%nat)))) in
  Ok {| confident_thresholds := thr;
        examples_per_class := tab K (fun k => nth k (examples_per_class st) 0 + nth k batch_class_counts 0)%nat;
        examples_processed_thresh := examples_processed_thresh st + length (fst b);
        examples_processed_quality := examples_processed_quality st;
        prune_count := prune_count st; prune_counts_c := prune_counts_c st;
        class_counts_c := class_counts_c st; normalization_c := normalization_c st;
        quality_scores := quality_scores st |}.

(** the condition of label_issues_batched.py:607-608 / 618 / 705-706 for one row: the predicted class
    reaches its threshold minus 1e-6 (fast mode, [thorough = False]). *)
Definition confident_prediction (thr : list Q) (row : list Q) : bool :=
  Qleb (nth (argmax row) thr 0 - FLOATING_POINT_COMPARISON) (nth (argmax row) row 0).
(** contribution of one example to the count of issues. *)
Definition counts_as_issue (thr : list Q) (l : nat) (row : list Q) : bool :=
  (confident_prediction thr row && negb (Nat.eqb (argmax row) l))%bool.

(** how the counting is executed: in this process, or by a pool of forked workers with a schedule. *)
Inductive jobs := Serial | Pool (n_jobs : nat) (sched : list nat).

(** multiprocessing's [Pool(n).imap_unordered(f, args)] (chunksize 1): the results in completion order. *)
Definition imap_unordered {A B} (f : A -> B) (workers : nat) (sched : list nat) (args : list A)
  : res (list B) :=
  let s := fold_left (pool_step f) sched (pool_init workers 1 args) in
  if pool_finished s then Ok (concat (map snd (rev (done s)))) else Raise Diverges.

(** label_issues_batched.py:639-644: chunks of n // 5000 consecutive examples (of one example when n <= 5000). *)
Definition processes : nat := 5000.
Definition chunksize (n : nat) : nat := if Nat.leb n processes then 1%nat else (n / processes)%nat.

(** numpy [a[idx] += vals] for integer-array [idx]: with repeated indices only the last write remains. *)
Definition fancy_add (a : list nat) (idx : list nat) (vals : list nat) : list nat :=
  fold_left (fun acc iv => upd acc (fst iv) (nth (fst iv) a 0 + snd iv)%nat) (combine idx vals) a.
Definition b2n (b : bool) : nat := if b then 1%nat else 0%nat.

(** label_issues_batched.py:564-673 [_update_num_label_issues]; [calibrated] is
    estimation_method="off_diagonal_calibrated". *)
Definition update_num_label_issues (K : nat) (calibrated : bool) (j : jobs) (st : inspector) (b : batch)
  : res inspector :=
  if Nat.ltb (examples_processed_thresh st) 1 then Raise ValueError
  else
  let thr := confident_thresholds st in
  let with_counts pc pcs ccs nrm :=
    {| confident_thresholds := confident_thresholds st; examples_per_class := examples_per_class st;
       examples_processed_thresh := examples_processed_thresh st;
       examples_processed_quality := examples_processed_quality st;
       prune_count := pc; prune_counts_c := pcs; class_counts_c := ccs; normalization_c := nrm;
       quality_scores := quality_scores st |} in
  let rows := combine (fst b) (snd b) in
  let count_issues rs := count_true (map (fun lr => counts_as_issue thr (fst lr) (snd lr)) rs) in
  match j with
  | Serial =>
      if negb calibrated
      then Ok (with_counts (prune_count st + count_issues rows)%nat
                 (prune_counts_c st) (class_counts_c st) (normalization_c st))
      else
        do cc <- value_counts (fst b) K ;
        Ok (with_counts (prune_count st)
              (tab K (fun k => nth k (prune_counts_c st) 0 +
                 count_true (map (fun lr => (Nat.eqb (fst lr) k && counts_as_issue thr (fst lr) (snd lr))%bool) rows))%nat)
              (tab K (fun k => nth k (class_counts_c st) 0 + nth k cc 0)%nat)
              (tab K (fun k => nth k (normalization_c st) 0 +
                 count_true (map (fun lr => (Nat.eqb (fst lr) k && confident_prediction thr (snd lr))%bool) rows))%nat))
  | Pool n_jobs sched =>
      let inds := chunks (chunksize (length (fst b))) rows in
      if negb calibrated
      then
        do r <- imap_unordered count_issues n_jobs sched inds ;
        Ok (with_counts (prune_count st + nsum r)%nat
              (prune_counts_c st) (class_counts_c st) (normalization_c st))
      else
        do r <- imap_unordered (fun rs => (map fst rs,
                    (map (fun lr => confident_prediction thr (snd lr)) rs,
                     map (fun lr => counts_as_issue thr (fst lr) (snd lr)) rs))) n_jobs sched inds ;
        let acc := fold_left (fun acc res =>
             let '(pcs, ccs, nrm) := acc in
             let '(lab, (nb, pb)) := res in
             (fancy_add pcs lab (map b2n pb), fancy_add ccs lab (map (fun _ => 1%nat) lab),
              fancy_add nrm lab (map b2n nb)))
             r (prune_counts_c st, class_counts_c st, normalization_c st) in
        let '(pcs, ccs, nrm) := acc in
        Ok (with_counts (prune_count st) pcs ccs nrm)
  end.

(** rank.py [_compute_label_quality_scores] with supplied thresholds (used when adjust_pred_probs=True). *)
Definition batch_scores (labels : list nat) (pred_probs : list (list Q)) (K : nat) (thr : list Q)
           (method : score_method) (adjust : bool) : res (list Q) :=
  let pp := if adjust then subtract_confident_thresholds labels pred_probs K (Some thr) else pred_probs in
  match method with
  | SelfConfidence => Ok (get_self_confidence labels pp)
  | NormalizedMargin => if Nat.leb K 1 then Raise ValueError else Ok (get_normalized_margin labels pp)
  end.

(** label_issues_batched.py:518-562 [score_label_quality] (update_num_issues=True). *)
Definition score_label_quality (K : nat) (method : score_method) (adjust calibrated : bool) (j : jobs)
           (st : inspector) (b : batch) : res inspector :=
  do _ <- batch_check b ;
  if Nat.ltb (examples_processed_thresh st) 1 then Raise ValueError
  else
  do scores <- batch_scores (fst b) (snd b) K (confident_thresholds st) method adjust ;
  do _ <- value_counts (fst b) K ;
  do st' <- update_num_label_issues K calibrated j st b ;
  Ok {| confident_thresholds := confident_thresholds st'; examples_per_class := examples_per_class st';
        examples_processed_thresh := examples_processed_thresh st';
        examples_processed_quality := (examples_processed_quality st' + length (fst b))%nat;
        prune_count := prune_count st'; prune_counts_c := prune_counts_c st';
        class_counts_c := class_counts_c st'; normalization_c := normalization_c st';
        quality_scores := quality_scores st' ++ scores |}.

(** label_issues_batched.py:400-430 [get_num_issues] (the count in the calibrated case is a sum of
    non-negative terms, hence a natural number). *)
Definition get_num_issues (K : nat) (calibrated : bool) (st : inspector) : res nat :=
  if Nat.ltb (examples_processed_quality st) 1 then Raise ValueError
  else if calibrated
  then Ok (Z.to_nat (round_half_even (qsum (tab K (fun k =>
             Qnat (nth k (prune_counts_c st) 0%nat) * Qnat (nth k (class_counts_c st) 0%nat)
             / clip_lo CLIPPING_LOWER_BOUND (Qnat (nth k (normalization_c st) 0%nat)))))))
  else Ok (prune_count st).

(** label_issues_batched.py:452-485 [get_label_issues]. *)
Definition get_label_issues (srt : list Q -> list nat) (K : nat) (calibrated : bool) (st : inspector)
  : res (list nat) :=
  if Nat.ltb (examples_processed_quality st) 1 then Raise ValueError
  else do n <- get_num_issues K calibrated st ; Ok (find_top_issues srt (quality_scores st) (Some n)).

Fixpoint rfold {A B} (f : A -> B -> res A) (l : list B) (a : A) : res A :=
  match l with [] => Ok a | b :: t => do a' <- f a b ; rfold f t a' end.

(** The two passes of the example script / label_issues_batched.py:188-218 over given lists of batches;
    every batch of the second pass comes with the way its counting is executed. *)
Definition inspect (K : nat) (method : score_method) (adjust calibrated : bool)
           (thr_batches : list batch) (score_batches : list (batch * jobs)) : res inspector :=
  do st <- rfold (update_confident_thresholds K) thr_batches (new_inspector K) ;
  rfold (fun st bj => score_label_quality K method adjust calibrated (snd bj) st (fst bj)) score_batches st.

(** label_issues_batched.py:194-199: consecutive batches of [batch_size] (at least 1). *)
Definition split_batches (batch_size : nat) (labels : list nat) (pred_probs : list (list Q)) : list batch :=
  map (fun rs => (map fst rs, map snd rs)) (chunks batch_size (combine labels pred_probs)).

(** label_issues_batched.py:220-227: from the inspector to the returned mask / indices. *)
Definition issues_mask (srt : list Q -> list nat) (K : nat) (calibrated : bool) (labels : list nat)
           (pred_probs : list (list Q)) (st : inspector) : res (list bool) :=
  do idx <- get_label_issues srt K calibrated st ;
  Ok (clear_where (mask_of (length labels) idx) (reduce_issues pred_probs labels)).

(** label_issues_batched.py:43-227 [find_label_issues_batched]; [js i] is how batch [i] is executed. *)
Definition find_label_issues_batched (srt : list Q -> list nat) (labels : list nat) (pred_probs : list (list Q))
           (K : nat) (batch_size : nat) (method : score_method) (adjust calibrated : bool) (js : nat -> jobs)
  : res (list bool) :=
  if negb (Nat.eqb (length labels) (length pred_probs)) then Raise ValueError
  else if Nat.eqb batch_size 0 then Raise Diverges
  else
  let bs := split_batches batch_size labels pred_probs in
  do st <- inspect K method adjust calibrated bs
             (combine bs (map js (seq 0 (length bs)))) ;
  issues_mask srt K calibrated labels pred_probs st.
Definition find_label_issues_batched_indices srt labels pred_probs K batch_size method adjust calibrated js
  : res (list nat) :=
  do m <- find_label_issues_batched srt labels pred_probs K batch_size method adjust calibrated js ;
  Ok (where_ m).
