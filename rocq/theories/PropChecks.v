(** * Per-dataset checks: class imbalance, null values, identifier columns, underperforming group,
    data valuation, label check from features *)
From Coq Require Import QArith List Bool Arith ZArith Permutation Sorted Lia Lqa.
From Verif Require Import Base BaseFacts ModelRank ModelChecks SpecChecks ProofChecks ProofChecks2.
Import ListNotations.
Open Scope Q_scope.

(** ** C42 *)
(** labels in which every class occurs (what Datalab produces from the distinct given labels) *)
Theorem C42_all_classes_present threshold K labels : (0 < K)%nat -> (forall c, In c labels <-> (c < K)%nat) ->
  exists rep, class_imbalance threshold K labels = Ok rep /\ length (flags rep) = length labels /\
    exists r, rarest_class labels K r /\ summary rep = fraction r labels /\
    forall i, (i < length labels)%nat ->
      (nth i (flags rep) false = true <-> nth i labels 0%nat = r /\ fraction r labels < threshold / Qnat K) /\
      (nth i labels 0%nat = r -> nth i (scores rep) 0 = fraction r labels) /\
      (nth i labels 0%nat <> r -> nth i (scores rep) 0 = 1).
Proof. exact (imbalance_all_classes threshold K labels). Qed.
(** any labels: only the classes up to the largest label present are considered *)
Theorem C42_rarest threshold K labels : labels <> [] -> (0 < K)%nat ->
  exists r rep, class_imbalance threshold K labels = Ok rep /\ rarest_class labels (nmax labels + 1) r /\
    length (flags rep) = length labels /\ length (scores rep) = length labels /\
    summary rep = fraction r labels /\
    forall i, (i < length labels)%nat ->
      (nth i (flags rep) false = true <-> nth i labels 0%nat = r /\ fraction r labels < threshold / Qnat K) /\
      (nth i labels 0%nat = r -> nth i (scores rep) 0 = fraction r labels) /\
      (nth i labels 0%nat <> r -> nth i (scores rep) 0 = 1).
Proof. exact (imbalance_spec threshold K labels). Qed.
(** a class without examples hides every other rare class *)
Theorem C42_absent_class threshold K labels c : (0 < K)%nat -> ~ In c labels -> (c < nmax labels)%nat ->
  exists rep, class_imbalance threshold K labels = Ok rep /\
    (forall i, nth i (flags rep) false = false) /\ (forall s, In s (scores rep) -> s = 1).
Proof. exact (imbalance_absent threshold K labels c). Qed.

(** 1 example of class 1 among 41: 1/41 < 0.1 / 2 *)
Definition ex_labels : list nat := repeat 0%nat 30 ++ [1%nat] ++ repeat 0%nat 10.
Example C42_hypotheses : forall c, In c ex_labels <-> (c < 2)%nat.
Proof.
  intros c. split; [cbn; intuition lia|]. intros H. destruct c as [|[|c]]; [cbn; tauto| |lia]. cbn. tauto.
Qed.
Example C42_example : exists rep, class_imbalance (1 # 10) 2 ex_labels = Ok rep /\ where_ (flags rep) = [30%nat] /\
  nth 30 (scores rep) 0 == 1 # 41 /\ nth 0 (scores rep) 0 = 1 /\ summary rep == 1 # 41.
Proof. eexists. split; [vm_compute; reflexivity|]. vm_compute. repeat split; reflexivity. Qed.
(** the same single example with class id 2 (id 1 unused) is not flagged *)
Example C42_example_absent : exists rep, class_imbalance (1 # 10) 3 (map (fun y => 2 * y)%nat ex_labels) = Ok rep /\ where_ (flags rep) = [].
Proof. eexists. split; [vm_compute; reflexivity|]. vm_compute. reflexivity. Qed.

(** ** C43 *)
Theorem C43_reported_partial so m ids labels pp thr : visits_all so -> probabilities (length ids) labels pp ->
  (forall c, In c ids -> (-1 <= c)%Z) -> thr <= 1 -> (exists c, kept m ids c) ->
  exists rep w, underperforming_check so thr m ids labels pp = Ok (rep, w) /\
    length (flags rep) = length ids /\ length (scores rep) = length ids /\
    (forall i, (i < length ids)%nat -> (nth i (flags rep) false = true <-> nth i ids 0%Z = w)) /\
    (forall i, (i < length ids)%nat ->
      (kept m ids (nth i ids 0%Z) /\ cluster_conf ids labels pp (nth i ids 0%Z) < overall_conf m ids labels pp ->
       nth i (scores rep) 0 = cluster_conf ids labels pp (nth i ids 0%Z) / overall_conf m ids labels pp) /\
      (~ (kept m ids (nth i ids 0%Z) /\ cluster_conf ids labels pp (nth i ids 0%Z) < overall_conf m ids labels pp) ->
       nth i (scores rep) 0 = 1)) /\
    (w = (-2)%Z \/
     kept m ids w /\ cluster_conf ids labels pp w < overall_conf m ids labels pp /\
     cluster_conf ids labels pp w / overall_conf m ids labels pp < thr /\
     summary rep = cluster_conf ids labels pp w / overall_conf m ids labels pp).
Proof. exact (fun HO HP HV => under_reported so HO m ids labels pp HP HV thr). Qed.
(** the worst cluster is found, whatever the visiting order, when the confidence of every other cluster
    is above the ratio of the worst one *)
Theorem C43_separated_partial so m ids labels pp thr c : visits_all so -> probabilities (length ids) labels pp ->
  (forall c, In c ids -> (-1 <= c)%Z) -> 0 <= thr -> kept m ids c ->
  cluster_conf ids labels pp c < overall_conf m ids labels pp ->
  (forall d, kept m ids d -> d <> c ->
     cluster_conf ids labels pp c / overall_conf m ids labels pp < cluster_conf ids labels pp d) ->
  exists rep, underperforming_check so thr m ids labels pp =
    Ok (rep, if Qltb (cluster_conf ids labels pp c / overall_conf m ids labels pp) thr then c else (-2)%Z) /\
    summary rep = cluster_conf ids labels pp c / overall_conf m ids labels pp.
Proof. exact (fun HO HP HV => under_separated so HO m ids labels pp HP HV thr c). Qed.

(** three clusters of five examples with confidences 0.03, 0.09 and 0.81: the first one has ratio
    0.03 / 0.31 < 0.1 and must be reported, but the second one, visited later, replaces it *)
Definition ex_ids : list Z := repeat 0%Z 5 ++ repeat 1%Z 5 ++ repeat 2%Z 5.
Definition ex_given : list nat := repeat 0%nat 15.
Definition ex_pp : list (list Q) := repeat [3 # 100; 97 # 100] 5 ++ repeat [9 # 100; 91 # 100] 5 ++ repeat [81 # 100; 19 # 100] 5.
Theorem C43_worst_cluster_refuted : exists so, visits_all so /\
  probabilities (length ex_ids) ex_given ex_pp /\ (forall c, In c ex_ids -> kept 5 ex_ids c) /\
  cluster_conf ex_ids ex_given ex_pp 0 / overall_conf 5 ex_ids ex_given ex_pp < 1 # 10 /\
  exists rep, underperforming_check so (1 # 10) 5 ex_ids ex_given ex_pp = Ok (rep, (-2)%Z) /\
    (forall i, nth i (flags rep) false = false) /\ summary rep == 9 # 31.
Proof.
  exists nodup_order. split.
  { intros l. split; [apply NoDup_nodup|]. intros c. apply nodup_In. }
  split.
  { split; [reflexivity|]. split; [reflexivity|]. intros i Hi.
    do 15 (destruct i as [|i]; [vm_compute; split; discriminate|]). cbn in Hi. lia. }
  split.
  { intros c I. unfold kept. split; [|split; [exact I|]]; cbn in I;
    repeat (destruct I as [<-|I]; [try discriminate; vm_compute; lia|]); destruct I. }
  split; [vm_compute; reflexivity|].
  eexists. split; [vm_compute; reflexivity|]. split; [|vm_compute; reflexivity].
  intros i. do 15 (destruct i as [|i]; [reflexivity|]). destruct i; reflexivity.
Qed.
(** visiting the clusters in the other order reports cluster 0: the outcome depends on the order *)
Example C43_example_order : exists rep, underperforming_check rev_order (1 # 10) 5 ex_ids ex_given ex_pp = Ok (rep, 0%Z) /\
  where_ (flags rep) = [0; 1; 2; 3; 4]%nat.
Proof. eexists. split; [vm_compute; reflexivity|]. vm_compute. reflexivity. Qed.
(** hypotheses of [C43_separated_partial] hold for clusters with confidences 0.03, 0.2, 0.81 *)
Definition ex_pp2 : list (list Q) := repeat [3 # 100; 97 # 100] 5 ++ repeat [20 # 100; 80 # 100] 5 ++ repeat [81 # 100; 19 # 100] 5.
Example C43_example_separated : cluster_conf ex_ids ex_given ex_pp2 0 < overall_conf 5 ex_ids ex_given ex_pp2 /\
  (forall d, kept 5 ex_ids d -> d <> 0%Z ->
     cluster_conf ex_ids ex_given ex_pp2 0 / overall_conf 5 ex_ids ex_given ex_pp2 < cluster_conf ex_ids ex_given ex_pp2 d) /\
  exists rep, underperforming_check nodup_order (1 # 10) 5 ex_ids ex_given ex_pp2 = Ok (rep, 0%Z).
Proof.
  split; [vm_compute; reflexivity|]. split.
  - intros d [_ [I _]] N. cbn in I. repeat (destruct I as [<-|I]; [try congruence; vm_compute; reflexivity|]). destruct I.
  - eexists. vm_compute. reflexivity.
Qed.
(** with a threshold above 1 and no weak cluster, the examples that belong to no cluster are flagged *)
Example C43_example_threshold_above_one : exists rep,
  underperforming_check nodup_order (3 # 2) 2 [0; 0; -1]%Z [0; 0; 0]%nat [[1 # 2]; [1 # 2]; [1]] = Ok (rep, (-1)%Z) /\
  flags rep = [false; false; true].
Proof. eexists. split; [vm_compute; reflexivity|]. reflexivity. Qed.

(** ** C51 *)
Theorem C51_null V cols (features : list (list (option V))) : (0 < cols)%nat -> features <> [] ->
  (forall r, In r features -> length r = cols) ->
  exists rep, null_check cols features = Ok rep /\
    length (flags rep) = length features /\ length (scores rep) = length features /\
    summary rep = qmean (scores rep) /\
    forall i, (i < length features)%nat ->
      (nth i (flags rep) false = true <-> forall c, In c (nth i features []) -> c = None) /\
      nth i (scores rep) 0 = Qnat (present (nth i features [])) / Qnat cols.
Proof. exact (null_spec cols features). Qed.
Theorem C51_most_common_pattern tracker r0 : In r0 tracker -> nully r0 ->
  exists p, most_common_issue tracker = CommonIssue (Some p) (rows_with p tracker) (length (rows_with p tracker)) /\
    nully p /\ rows_with p tracker <> [] /\
    forall q, nully q -> (length (rows_with q tracker) <= length (rows_with p tracker))%nat.
Proof. exact (common_some tracker r0). Qed.
Theorem C51_no_null tracker : (forall r, In r tracker -> ~ nully r) -> most_common_issue tracker = CommonIssue None [] 0.
Proof. exact (common_none tracker). Qed.
Theorem C51_column_impact cols tracker j : (j < cols)%nat ->
  nth j (column_impact cols tracker) 0 ==
    Qnat (length (filter (fun r => nth j r false) tracker)) / Qnat (length tracker).
Proof. exact (column_impact_spec cols tracker j). Qed.
Theorem C51_sequential col : is_sequential col = true <-> consecutive_run col.
Proof. exact (sequential_iff col). Qed.
Theorem C51_identifier_columns columns : columns <> [] ->
  exists rep ids, identifier_check columns = Ok (rep, ids) /\
    StronglySorted lt ids /\
    (forall j, In j ids <-> (j < length columns)%nat /\ exists v, nth j columns (OtherColumn 0) = IntColumn v /\ consecutive_run v) /\
    (summary rep = 0 <-> ids <> []) /\ (summary rep = 1 <-> ids = []) /\
    length (flags rep) = column_size (hd (OtherColumn 0) columns) /\
    length (scores rep) = column_size (hd (OtherColumn 0) columns) /\
    (forall f, In f (flags rep) -> f = false) /\ (forall s, In s (scores rep) -> s = 1).
Proof. exact (identifier_spec columns). Qed.

Definition ex_table : list (list (option nat)) := [[Some 1; None]; [None; None]; [Some 2; Some 3]; [None; Some 4]; [Some 5; None]]%nat.
Example C51_example_null : exists rep, null_check 2 ex_table = Ok rep /\ flags rep = [false; true; false; false; false] /\
  Forall2 Qeq (scores rep) [1 # 2; 0; 1; 1 # 2; 1 # 2] /\ summary rep == 1 # 2.
Proof. eexists. split; [vm_compute; reflexivity|]. split; [reflexivity|]. split; [|reflexivity]. repeat constructor. Qed.
Example C51_example_pattern : most_common_issue (null_tracker ex_table) = CommonIssue (Some [false; true]) [0; 4]%nat 2.
Proof. reflexivity. Qed.
Example C51_example_identifier : exists rep,
  identifier_check [IntColumn [7; 5; 6; 5]%Z; OtherColumn 4; IntColumn [1; 2; 3; 5]%Z; IntColumn [3; 3; 3; 3]%Z] = Ok (rep, [0%nat]) /\ summary rep = 0.
Proof. eexists. split; [vm_compute; reflexivity|reflexivity]. Qed.
Example C51_example_run : consecutive_run [7; 5; 6; 5]%Z.
Proof. exists 5%Z, 7%Z. split; [lia|]. intros z. cbn. lia. Qed.

(** ** C76 *)
Theorem C76_value labels k nb : (1 <= k)%nat -> neighbor_lists (length labels) k nb ->
  exists sc, data_shapley_knn nb labels k = Ok sc /\ length sc = length labels /\
    forall i, (i < length labels)%nat ->
      nth i sc 0 == (1 # 2) + qsum (map (fun a => agree labels i a - agree labels (kth_neighbor k nb a) a) (admirers k nb i))
                              / (2 * Qnat k * Qnat (length labels)).
Proof. exact (shapley_spec labels k nb). Qed.
Theorem C76_range labels k nb sc : (1 <= k)%nat -> neighbor_lists (length labels) k nb ->
  data_shapley_knn nb labels k = Ok sc ->
  forall x, In x sc -> (1 # 2) - 1 / (2 * Qnat k) <= x <= (1 # 2) + 1 / (2 * Qnat k).
Proof. exact (shapley_range labels k nb sc). Qed.
Theorem C76_sign labels k nb sc i : (1 <= k)%nat -> neighbor_lists (length labels) k nb ->
  data_shapley_knn nb labels k = Ok sc -> (i < length labels)%nat ->
  (admirers k nb i = [] -> nth i sc 0 == 1 # 2) /\
  ((forall a, In a (admirers k nb i) -> nth a labels 0%nat = nth i labels 0%nat) -> 1 # 2 <= nth i sc 0) /\
  ((forall a, In a (admirers k nb i) -> nth a labels 0%nat <> nth i labels 0%nat) -> nth i sc 0 <= 1 # 2) /\
  (nth i sc 0 < 1 # 2 -> exists a, In a (admirers k nb i) /\ nth a labels 0%nat <> nth i labels 0%nat /\
     nth (kth_neighbor k nb a) labels 0%nat = nth a labels 0%nat).
Proof. exact (shapley_sign labels k nb sc i). Qed.
Theorem C76_check threshold labels k w nb : (1 <= k)%nat -> labels <> [] -> neighbor_lists (length labels) k nb -> (k <= w)%nat ->
  exists rep, data_valuation_check threshold k w nb labels = Ok rep /\ data_shapley_knn nb labels k = Ok (scores rep) /\
    length (flags rep) = length labels /\ summary rep = qmean (scores rep) /\
    forall i, (i < length labels)%nat ->
      (nth i (flags rep) false = true <-> nth i (scores rep) 0 < match threshold with Some t => t | None => 1 # 2 end).
Proof. exact (valuation_check_spec threshold labels k w nb). Qed.
(** the input of the docstring example: five points on a line, labels 0 1 0 1 0, four neighbours; the
    docstring claims 0.55, 0.525, 0.55, 0.525, 0.55, which the code does not return (the value of the
    k-th neighbour starts at 0 and not at its own match) *)
Definition ex_nb : list (list nat) := [[1; 2; 3; 4]; [0; 2; 3; 4]; [1; 3; 0; 4]; [2; 4; 1; 0]; [3; 2; 1; 0]]%nat.
Example C76_hypotheses : neighbor_lists 5 4 ex_nb.
Proof.
  split; [reflexivity|]. intros a Ha. do 5 (destruct a as [|a]; [split; [cbn; lia|split; [cbn; repeat constructor; cbn; intuition lia|cbn; intuition lia]]|]). lia.
Qed.
Example C76_example : exists sc, data_shapley_knn ex_nb [0; 1; 0; 1; 0]%nat 4 = Ok sc /\
  Forall2 Qeq sc [50 # 100; 45 # 100; 50 # 100; 45 # 100; 50 # 100].
Proof. eexists. split; [vm_compute; reflexivity|]. repeat (constructor; [vm_compute; reflexivity|]). constructor. Qed.

(** ** C77 *)
Theorem C77_leave_one_out_partial k nbs labels i : (1 <= k)%nat -> length nbs = length labels -> (i < length labels)%nat ->
  let nb := nth i nbs [] in
  length nb = (k + 1)%nat -> NoDup nb -> In i nb -> (forall j, In j nb -> (j < length labels)%nat) ->
  let row := nth i (out_of_sample_pred_probs k nbs labels) [] in
  length row = length (unique labels) /\ distribution row /\
  forall c, (c < length (unique labels))%nat ->
    nth c row 0 == Qnat (votes labels (remove Nat.eq_dec i nb) (nth c (unique labels) 0%nat)) / Qnat k.
Proof. exact (oos_spec k nbs labels i). Qed.
(** an example that is not among its own [k + 1] nearest neighbours (more than [k + 1] copies of one
    point) gets the probability [-1/k] when no neighbour shares its label *)
Theorem C77_negative_probability_refuted k nbs labels i c : (1 <= k)%nat -> length nbs = length labels -> (i < length labels)%nat ->
  (c < length (unique labels))%nat -> nth c (unique labels) 0%nat = nth i labels 0%nat ->
  votes labels (nth i nbs []) (nth i labels 0%nat) = 0%nat ->
  mget (out_of_sample_pred_probs k nbs labels) i c == - (1 / Qnat k).
Proof. exact (oos_negative k nbs labels i c). Qed.
(** four copies of one point, [k = 2]: the search returns the first three of them for every copy *)
Example C77_example : Forall2 (Forall2 Qeq)
  (out_of_sample_pred_probs 2 [[0; 1; 2]; [0; 1; 2]; [0; 1; 2]; [0; 1; 2]]%nat [0; 0; 0; 1]%nat) [[1; 0]; [1; 0]; [1; 0]; [3 # 2; -1 # 2]].
Proof. repeat constructor. Qed.

Print Assumptions C42_all_classes_present.
Print Assumptions C42_rarest.
Print Assumptions C42_absent_class.
Print Assumptions C43_reported_partial.
Print Assumptions C43_separated_partial.
Print Assumptions C43_worst_cluster_refuted.
Print Assumptions C51_null.
Print Assumptions C51_most_common_pattern.
Print Assumptions C51_no_null.
Print Assumptions C51_column_impact.
Print Assumptions C51_sequential.
Print Assumptions C51_identifier_columns.
Print Assumptions C76_value.
Print Assumptions C76_range.
Print Assumptions C76_sign.
Print Assumptions C76_check.
Print Assumptions C77_leave_one_out_partial.
Print Assumptions C77_negative_probability_refuted.
