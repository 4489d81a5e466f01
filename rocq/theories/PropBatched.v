(** * Properties C21, C22: the batched label inspector *)
From Coq Require Import QArith Qabs Qround List ZArith Bool Arith Lia Lqa.
From Verif Require Import Base BaseFacts ModelUtil ModelCount ModelRank ModelPool ModelFilter ModelBatched
     SpecCount SpecBatched ProofFilter ProofBatched PropCount.
Import ListNotations.
Open Scope Q_scope.

(** ** C21 *)
Theorem C21_thresholds : forall K labels pp bs,
  is_split labels pp bs -> (forall l, In l labels -> (l < K)%nat) -> labels <> [] ->
  exists st, rfold (update_confident_thresholds K) bs (new_inspector K) = Ok st /\
  forall k, (k < K)%nat ->
  (In k labels -> nth k (confident_thresholds st) 0 * Qnat (n_labelled k labels) == floored_total k bs /\
     (means_ok bs -> nth k (confident_thresholds st) 0 == nth k (get_confident_thresholds labels pp K) 0)) /\
  (~ In k labels -> nth k (confident_thresholds st) 0 == 2 # 1000000).
Proof.
  exact (fun K labels pp bs H1 H2 H3 =>
    match thr_run_ok K bs labels pp H1 H2 with
    | ex_intro _ st E => ex_intro _ st (conj E (thr_full K labels pp bs st H1 H2 H3 E))
    end).
Qed.
Print Assumptions C21_thresholds.

(** whatever the batches used for the thresholds and for the scores, and however each batch is executed
    (calibrated counting with worker processes: batches below 10000 examples, see C22_calibrated_refuted) *)
Theorem C21_issues_independent_of_batching :
  forall srt K method adjust calibrated labels pp bs1 sbs1 bs2 sbs2 st1 st2,
  respects_eq srt -> dataset K labels pp ->
  is_split labels pp bs1 -> is_split labels pp (map fst sbs1) ->
  is_split labels pp bs2 -> is_split labels pp (map fst sbs2) ->
  means_ok bs1 -> means_ok bs2 ->
  (forall bj, In bj (sbs1 ++ sbs2) ->
     calibrated = false \/ snd bj = Serial \/ (length (fst (fst bj)) < 2 * 5000)%nat) ->
  inspect K method adjust calibrated bs1 sbs1 = Ok st1 -> inspect K method adjust calibrated bs2 sbs2 = Ok st2 ->
  get_num_issues K calibrated st1 = get_num_issues K calibrated st2 /\
  Forall2 Qeq (quality_scores st1) (quality_scores st2) /\
  issues_mask srt K calibrated labels pp st1 = issues_mask srt K calibrated labels pp st2.
Proof. exact issues_full. Qed.
Print Assumptions C21_issues_independent_of_batching.

Theorem C21_batch_size : forall srt K method adjust calibrated labels pp,
  respects_eq srt -> dataset K labels pp -> (2 <= K)%nat -> own_prob_floor labels pp ->
  exists m,
    (forall batch_size, (1 <= batch_size)%nat ->
       find_label_issues_batched srt labels pp K batch_size method adjust calibrated (fun _ => Serial) = Ok m) /\
    (forall batch_size js m', (1 <= batch_size)%nat -> calibrated = false \/ (batch_size < 2 * 5000)%nat ->
       find_label_issues_batched srt labels pp K batch_size method adjust calibrated js = Ok m' -> m' = m).
Proof. exact C21_batch_size_full. Qed.
Print Assumptions C21_batch_size.

Example respects_eq_exists : respects_eq argsort_ins.
Proof. exact argsort_ins_respects. Qed.
Definition ex_batches : list (list nat * list (list Q)) :=
  [(firstn 2 ex_labels, firstn 2 ex_pp); (skipn 2 ex_labels, skipn 2 ex_pp)].
Example C21_example_split : is_split ex_labels ex_pp ex_batches.
Proof.
  split; [reflexivity|]. split; [reflexivity|]. intros b [<-|[<-|[]]]; (split; [reflexivity|discriminate]).
Qed.
Example C21_example_floor : own_prob_floor ex_labels ex_pp.
Proof.
  intros e He. do 6 (destruct e as [|e]; [vm_compute; discriminate|]). simpl in He. lia.
Qed.
Example C21_example :
  find_label_issues_batched argsort_ins ex_labels ex_pp 3 4 SelfConfidence false false (fun _ => Serial)
  = find_label_issues_batched argsort_ins ex_labels ex_pp 3 100 SelfConfidence false false (fun _ => Pool 2 [0;1;0;1;1;0;1;0;0;1;0;1;0;0]%nat) /\
  find_label_issues_batched argsort_ins ex_labels ex_pp 3 4 SelfConfidence false false (fun _ => Serial)
  = Ok [false; false; true; false; false; true].
Proof. split; vm_compute; reflexivity. Qed.

(** without the lower bound on the batch means the flooring of each batch mean shows: the batch size matters *)
Theorem C21_floor_refuted : exists labels pp m1 m2,
  dataset 3 labels pp /\
  find_label_issues_batched argsort_ins labels pp 3 1 SelfConfidence false false (fun _ => Serial) = Ok m1 /\
  find_label_issues_batched argsort_ins labels pp 3 10 SelfConfidence false false (fun _ => Serial) = Ok m2 /\
  count_true m1 <> count_true m2.
Proof. exact C21_floor_refuted_full. Qed.
Print Assumptions C21_floor_refuted.

(** ** C22 *)
(** default counting: any number of workers, any schedule *)
Theorem C22_parallel_count : forall K st b n_jobs sched st1 st2,
  update_num_label_issues K false Serial st b = Ok st1 ->
  update_num_label_issues K false (Pool n_jobs sched) st b = Ok st2 -> st1 = st2.
Proof. exact C22_default_full. Qed.
Print Assumptions C22_parallel_count.

(** calibrated counting: only while the chunks hold one example each *)
Theorem C22_calibrated_partial : forall K st b n_jobs sched st1 st2,
  length (fst b) = length (snd b) -> fst b <> [] -> (forall l, In l (fst b) -> (l < K)%nat) ->
  length (prune_counts_c st) = K -> length (class_counts_c st) = K -> length (normalization_c st) = K ->
  (length (fst b) < 2 * 5000)%nat ->
  update_num_label_issues K true Serial st b = Ok st1 ->
  update_num_label_issues K true (Pool n_jobs sched) st b = Ok st2 -> st1 = st2.
Proof. exact C22_calibrated_full. Qed.
Print Assumptions C22_calibrated_partial.

(** with 10000 examples in a batch (the default batch size) chunks hold two examples and counts get lost *)
Theorem C22_calibrated_refuted : exists labels pp n_jobs sched st1 st2,
  dataset 2 labels pp /\ length labels = (2 * 5000)%nat /\
  inspect 2 SelfConfidence false true [(labels, pp)] [((labels, pp), Serial)] = Ok st1 /\
  inspect 2 SelfConfidence false true [(labels, pp)] [((labels, pp), Pool n_jobs sched)] = Ok st2 /\
  get_num_issues 2 true st1 = Ok (2 * 5000)%nat /\ get_num_issues 2 true st2 = Ok 5000%nat.
Proof. exact C22_refuted_full. Qed.
Print Assumptions C22_calibrated_refuted.

(** some schedule always completes, so the parallel branch is reachable *)
Example C22_example :
  (do st <- inspect 3 SelfConfidence false true ex_batches
              [(nth 0 ex_batches ([], []), Serial); (nth 1 ex_batches ([], []), Pool 3 [2;1;0;1;2;0;1;1]%nat)] ;
   get_num_issues 3 true st)
  = (do st <- inspect 3 SelfConfidence false true ex_batches (map (fun b => (b, Serial)) ex_batches) ;
     get_num_issues 3 true st) /\
  (do st <- inspect 3 SelfConfidence false true ex_batches (map (fun b => (b, Serial)) ex_batches) ;
     get_num_issues 3 true st) = Ok 2%nat.
Proof. split; vm_compute; reflexivity. Qed.
