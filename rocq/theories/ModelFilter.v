(** * Model of cleanlab/filter.py (single-label part) *)
From Coq Require Import QArith Qabs Qround List ZArith Bool Arith.
From Verif Require Import Base ModelUtil ModelCount ModelRank ModelPool.
Import ListNotations.
Open Scope Q_scope.

(** cleanlab/filter.py:607-635 [_reduce_prune_counts] (K x K matrix). *)
Definition reduce_prune_counts (m : list (list Q)) (frac_noise : Q) : list (list Z) :=
  let K := length m in
  let new_mat := tab K (fun i => tab K (fun j =>
                   if Nat.eqb i j then mget m i j else mget m i j * frac_noise)) in
  let new_mat2 := tab K (fun i => tab K (fun j =>
     if Nat.eqb i j
     then mget m i i + qsum (tab K (fun r => mget m r j - mget new_mat r j))
     else mget new_mat i j)) in
  map (map truncate) new_mat2.

(** cleanlab/filter.py:539-604 [_keep_at_least_n_per_class]. *)
Definition keep_at_least_n_per_class (srt : list Q -> list nat) (m : list (list Q)) (n : nat)
           (frac_noise : Q) : res (list (list Z)) :=
  let K := length m in
  let new_diagonal := tab K (fun k => qmax (mget m k k) (Qnat n)) in
  let diff_per_col := tab K (fun k => nth k new_diagonal 0 - mget m k k) in
  let count_nonzero := fun k => length (filter (fun x => negb (Qeq_bool x 0)) (col k m)) in
  let num_noise_rates_per_col := tab K (fun k => qmax (Qnat (count_nonzero k) - 1) 1) in
  let new_mat := tab K (fun i => tab K (fun j =>
       let v := mget m i j - nth j diff_per_col 0 / nth j num_noise_rates_per_col 0 in
       let v := if Qltb v 0 then 0 else v in
       if Nat.eqb i j then nth j new_diagonal 0 else v)) in
  round_preserving_row_totals srt (zmat_to_q (reduce_prune_counts new_mat frac_noise)).

(** cleanlab/filter.py:349-356: re-planning the prune counts for [num_to_remove_per_class].  A zero
    divisor gives nan/inf in numpy, whose conversion to int is undefined: [ZeroDivision]. *)
Definition apply_num_to_remove (srt : list Q -> list nat) (pcm : list (list Z)) (label_counts : list nat)
           (ntr : list Q) : res (list (list Z)) :=
  let K := length pcm in
  let m := zmat_to_q pcm in
  let rs := map qsum m in
  let psy := tab K (fun i => tab K (fun j => mget m i j / nth j rs 0)) in
  let noise_per_s := tab K (fun i => qsum (nth i psy []) - mget psy i i) in
  if (existsb (fun x => Qeq_bool x 0) rs || existsb (fun x => Qeq_bool x 0) noise_per_s)%bool
  then Raise ZeroDivision
  else
    let tmp := tab K (fun i => tab K (fun j =>
       if Nat.eqb i j then Qnat (nth i label_counts 0%nat) - nth i ntr 0
       else mget psy i j * nth i ntr 0 / nth i noise_per_s 0)) in
    round_preserving_row_totals srt tmp.

(** cleanlab/filter.py:829-863 [_prune_by_class] with [arrays = (pred_probs[labels == k],
    prune_count_matrix[:, k])]. *)
Definition prune_by_class (srt : list Q -> list nat) (min_ex : nat)
           (arg : nat * (list (list Q) * list Z)) : list bool :=
  let '(k, (pp, pcm_col)) := arg in
  let label_counts := length pp in
  if Nat.ltb min_ex label_counts then
    let num_issues := (Z.of_nat label_counts - nth k pcm_col 0)%Z in
    if (1 <=? num_issues)%Z
    then mask_of label_counts (firstn (Z.to_nat num_issues) (srt (col k pp)))
    else mask_of label_counts []
  else mask_of label_counts [].

(** cleanlab/filter.py:867-907 [_prune_by_count]; [K = pred_probs.shape[1]]. *)
Definition prune_by_count (srt : list Q -> list nat) (min_ex K : nat)
           (arg : nat * (list (list Q) * list Z)) : list bool :=
  let '(k, (pp, pcm_col)) := arg in
  let label_counts := length pp in
  if Nat.leb label_counts min_ex then mask_of label_counts []
  else
    fold_left (fun mask j =>
      let num2prune := nth j pcm_col 0%Z in
      if (negb (Nat.eqb k j) && (0 <? num2prune)%Z)%bool
      then
        let margin := map (fun r => nth j r 0 - nth k r 0) pp in
        let order := srt (map Qopp margin) in
        map (fun bi => (fst bi || mem (snd bi) (firstn (Z.to_nat num2prune) order))%bool)
            (combine mask (seq 0 label_counts))
      else mask)
      (seq 0 K) (mask_of label_counts []).

(** cleanlab/filter.py:394-397 and 417-420: assembling the per-class masks. *)
Fixpoint assemble_masks_from (k : nat) (labels : list nat) (masks : list (list bool)) (acc : list bool)
  : list bool :=
  match masks with
  | [] => acc
  | m :: ms =>
      assemble_masks_from (S k) labels ms
        (if Nat.ltb 1 (length m) then scatter (map (fun l => Nat.eqb l k) labels) acc m else acc)
  end.
Definition assemble_masks (labels : list nat) (masks : list (list bool)) : list bool :=
  assemble_masks_from 0 labels masks (mask_of (length labels) []).

(** cleanlab/filter.py:366-375: the per-class arguments. *)
Definition class_args (labels : list nat) (pred_probs : list (list Q)) (K : nat) (pcm : list (list Z))
  : list (nat * (list (list Q) * list Z)) :=
  tab K (fun k => (k, (select (map (fun l => Nat.eqb l k) labels) pred_probs, zcol k pcm))).

(** cleanlab/filter.py:380-392 / 403-415: [n_jobs > 1] uses a process pool with
    chunksize = max(1, K // n_jobs), otherwise a list comprehension. *)
Definition run_per_class {A B} (n_jobs K : nat) (sched : list nat) (f : A -> B) (args : list A)
  : res (list B) :=
  if Nat.ltb 1 n_jobs then pool_map f n_jobs (Nat.max 1 (K / n_jobs)) sched args
  else Ok (map f args).

(** cleanlab/filter.py:638-669 [find_predicted_neq_given]. *)
Definition find_predicted_neq_given (labels : list nat) (pred_probs : list (list Q)) (K : nat)
  : res (list bool) :=
  do _ <- assert_valid_inputs labels pred_probs K false ;
  Ok (map (fun rl => negb (Nat.eqb (argmax (fst rl)) (snd rl))) (combine pred_probs labels)).

(** cleanlab/count.py:50-173 [num_label_issues] with the default estimation method, including its input
    validation. *)
Definition num_label_issues (srt : list Q -> list nat) (labels : list nat) (pred_probs : list (list Q))
           (K : nat) : res nat :=
  do _ <- assert_valid_inputs labels pred_probs K false ;
  num_label_issues_off_diagonal srt labels pred_probs K.

Inductive filter_method :=
  | LowNormalizedMargin | LowSelfConfidence | PruneByNoiseRate | PruneByClass | Both
  | ConfidentLearning | PredictedNeqGiven.

Definition is_prune (f : filter_method) : bool :=
  match f with PruneByNoiseRate | PruneByClass | Both => true | _ => false end.
Definition is_low (f : filter_method) : bool :=
  match f with LowNormalizedMargin | LowSelfConfidence => true | _ => false end.

(** Keyword arguments of find_label_issues (all but the data).  [sched_c], [sched_n]: what the process
    pool does in the by-class and the by-noise-rate step. *)
Record options := {
  frac_noise : Q;
  num_to_remove_per_class : option (list Q);
  min_examples_per_class : nat;
  confident_joint : option (list (list Q));
  n_jobs : nat;
  sched_c : list nat;
  sched_n : list nat }.

(** the same keyword arguments with another [n_jobs] and other pool behaviours. *)
Definition with_jobs (o : options) (n : nat) (sc sn : list nat) : options :=
  {| frac_noise := frac_noise o; num_to_remove_per_class := num_to_remove_per_class o;
     min_examples_per_class := min_examples_per_class o; confident_joint := confident_joint o;
     n_jobs := n; sched_c := sc; sched_n := sn |}.

(** cleanlab/filter.py:339-356: the prune-count matrix. *)
Definition prune_counts (srt : list Q -> list nat) (labels : list nat) (K : nat) (cj : list (list Q))
           (o : options) : res (list (list Z)) :=
  do label_counts <- value_counts labels K ;
  do pcm <- keep_at_least_n_per_class srt (transpose K cj) (min_examples_per_class o) (frac_noise o) ;
  match num_to_remove_per_class o with
  | None => Ok pcm
  | Some ntr => apply_num_to_remove srt pcm label_counts ntr
  end.

(** cleanlab/filter.py:379-397 and 402-420. *)
Definition by_class_mask (srt : list Q -> list nat) labels pred_probs K pcm (o : options)
  : res (list bool) :=
  do masks <- run_per_class (n_jobs o) K (sched_c o) (prune_by_class srt (min_examples_per_class o))
                            (class_args labels pred_probs K pcm) ;
  Ok (assemble_masks labels masks).
Definition by_noise_rate_mask (srt : list Q -> list nat) labels pred_probs K pcm (o : options)
  : res (list bool) :=
  do masks <- run_per_class (n_jobs o) K (sched_n o) (prune_by_count srt (min_examples_per_class o) K)
                            (class_args labels pred_probs K pcm) ;
  Ok (assemble_masks labels masks).

(** cleanlab/filter.py:57-450 [find_label_issues] with [return_indices_ranked_by=None],
    [multi_label=False]: the mask before the final removal step (lines 311-430). *)
Definition raw_mask (srt : list Q -> list nat) (labels : list nat) (pred_probs : list (list Q)) (K : nat)
           (flt : filter_method) (o : options) : res (list bool) :=
  do cj_idx <-
    (match confident_joint o, flt with
     | Some _, ConfidentLearning | None, _ =>
         do r <- compute_confident_joint srt labels pred_probs K None true ;
         Ok (zmat_to_q (fst r), snd r)
     | Some cj, _ => Ok (cj, [])
     end) ;
  match flt with
  | LowNormalizedMargin | LowSelfConfidence =>
      do scores <- get_label_quality_scores labels pred_probs K
                     (match flt with LowSelfConfidence => SelfConfidence | _ => NormalizedMargin end) false ;
      do num_errors <- num_label_issues srt labels pred_probs K ;
      Ok (mask_of (length labels) (firstn num_errors (srt scores)))
  | PruneByClass =>
      do pcm <- prune_counts srt labels K (fst cj_idx) o ;
      by_class_mask srt labels pred_probs K pcm o
  | PruneByNoiseRate =>
      do pcm <- prune_counts srt labels K (fst cj_idx) o ;
      by_noise_rate_mask srt labels pred_probs K pcm o
  | Both =>
      do pcm <- prune_counts srt labels K (fst cj_idx) o ;
      do mc <- by_class_mask srt labels pred_probs K pcm o ;
      do mn <- by_noise_rate_mask srt labels pred_probs K pcm o ;
      Ok (map (fun ab => (fst ab && snd ab)%bool) (combine mn mc))
  | ConfidentLearning => Ok (mask_of (length labels) (snd cj_idx))
  | PredictedNeqGiven => find_predicted_neq_given labels pred_probs K
  end.

(** [label_issues_mask[mask] = False] (cleanlab/filter.py:434-435, count.py:139). *)
Definition clear_where (issues mask : list bool) : list bool :=
  map (fun x => if (snd x : bool) then false else fst x) (combine issues mask).

(** cleanlab/filter.py:57-450 [find_label_issues], mask output. *)
Definition find_label_issues (srt : list Q -> list nat) (labels : list nat) (pred_probs : list (list Q))
           (K : nat) (flt : filter_method) (o : options) : res (list bool) :=
  do _ <- assert_valid_inputs labels pred_probs K (set_is_zero labels) ;
  if (negb (is_prune flt) && match num_to_remove_per_class o with Some _ => true | None => false end)%bool
  then Raise ValueError
  else if Nat.ltb (n_jobs o) 1 then Raise AssertionError
  else
    do m <- raw_mask srt labels pred_probs K flt o ;
    Ok (if is_low flt then m else clear_where m (reduce_issues pred_probs labels)).

(** cleanlab/filter.py:441-449: [return_indices_ranked_by] in {self_confidence, normalized_margin}. *)
Definition find_label_issues_ranked (srt : list Q -> list nat) (labels : list nat)
           (pred_probs : list (list Q)) (K : nat) (flt : filter_method) (o : options)
           (rank_by : score_method) (adjust : bool) : res (list nat) :=
  do m <- find_label_issues srt labels pred_probs K flt o ;
  order_label_issues srt m labels pred_probs K rank_by adjust.
