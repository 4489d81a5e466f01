(** * Properties C85 and C86: Datalab's outlier flags *)
From Coq Require Import QArith Qreals Reals List Bool Arith Permutation Sorted Lia.
From Coq Require Lra.
From Verif Require Import Base BaseFacts ModelOutlier ModelOutlierCheck SpecOutlierCheck ProofOutlierCheck.
Import ListNotations.
Open Scope Q_scope.

(** ** C85 *)
Theorem C85_flags : forall srt t mt sc threshold dist flags scores, argsort_ok srt ->
  knn_issues srt t mt sc threshold dist = Ok (flags, scores) ->
  length flags = length dist /\
  exists q1 q3, is_quantile (1 # 4) (map (mean_distance dist) (seq 0 (length dist))) q1 /\
                is_quantile (3 # 4) (map (mean_distance dist) (seq 0 (length dist))) q3 /\
    forall i, (i < length dist)%nat ->
      (flagged flags i <-> let thr := match threshold with Some t => t | None => 37037 # 100000 end in
                           0 < thr /\ q3 + (1 / thr - 1) * (q3 - q1) < mean_distance dist i).
Proof. exact C85_flags_full. Qed.
Print Assumptions C85_flags.

(** an interpolated quantile is a number determined by the list *)
Theorem C85_quantile_unique : forall l p q1 q2, p <= 1 -> is_quantile p l q1 -> is_quantile p l q2 -> q1 == q2.
Proof. exact quantile_unique. Qed.

Theorem C85_ordering : forall srt t mt sc threshold dist flags scores, argsort_ok srt -> (0 < t)%R ->
  (forall row x, In row dist -> In x row -> 0 <= x) ->
  knn_issues srt t mt sc threshold dist = Ok (flags, scores) ->
  length scores = length dist /\
  (forall i, (i < length dist)%nat -> (0 < nth i scores 0 <= 1)%R) /\
  (forall i j, (i < length dist)%nat -> (j < length dist)%nat -> mean_distance dist i <= mean_distance dist j ->
     (nth j scores 0 <= nth i scores 0)%R /\ (flagged flags i -> flagged flags j)) /\
  (forall i j, (i < length dist)%nat -> (j < length dist)%nat -> flagged flags i -> ~ flagged flags j ->
     mean_distance dist j < mean_distance dist i /\ (nth i scores 0 <= nth j scores 0)%R).
Proof. exact C85_ordering_full. Qed.
Print Assumptions C85_ordering.

Theorem C85_few : forall srt t mt sc threshold dist flags scores, argsort_ok srt ->
  knn_issues srt t mt sc threshold dist = Ok (flags, scores) -> (4 * flagged_count flags <= length dist + 2)%nat.
Proof. exact C85_few_full. Qed.
Print Assumptions C85_few.

Theorem C85_threshold : forall srt t mt sc th1 th2 dist fl1 sc1 fl2 sc2, argsort_ok srt ->
  knn_issues srt t mt sc (Some th1) dist = Ok (fl1, sc1) -> knn_issues srt t mt sc (Some th2) dist = Ok (fl2, sc2) ->
  th1 <= th2 -> sc1 = sc2 /\ (forall i, flagged fl1 i -> flagged fl2 i) /\ (th1 == 0 -> forall i, ~ flagged fl1 i).
Proof. exact C85_threshold_full. Qed.
Print Assumptions C85_threshold.

Theorem C85_unit : forall srt t mt sc threshold dist flags scores c, argsort_ok srt -> 0 < c ->
  knn_issues srt t mt sc threshold dist = Ok (flags, scores) ->
  exists scores', knn_issues srt t mt sc threshold (map (map (Qmult c)) dist) = Ok (flags, scores').
Proof. exact C85_unit_full. Qed.
Print Assumptions C85_unit.

Theorem C85_order : forall srt t mt sc threshold dist flags scores perm, argsort_ok srt ->
  Permutation perm (seq 0 (length dist)) ->
  knn_issues srt t mt sc threshold dist = Ok (flags, scores) ->
  knn_issues srt t mt sc threshold (map (fun i => nth i dist []) perm) =
    Ok (map (fun i => nth i flags false) perm, map (fun i => nth i scores 0%R) perm).
Proof. exact C85_order_full. Qed.
Print Assumptions C85_order.

(** the check fails exactly for a threshold outside [0, 1] and for every graph whose metric is "minkowski" *)
Theorem C85_outcome : forall srt t mt sc threshold dist, dist <> [] ->
  knn_issues srt t mt sc threshold dist = Raise ValueError <->
  (match threshold with Some q => ~ 0 <= q <= 1 | None => False end) \/ mt = Some (Minkowski None).
Proof. exact C85_outcome_full. Qed.
Print Assumptions C85_outcome.
Theorem C85_no_other_failure : forall srt t mt sc threshold dist e, dist <> [] -> (forall p, mt <> Some (Minkowski (Some p))) ->
  knn_issues srt t mt sc threshold dist = Raise e -> e = ValueError.
Proof. exact C85_no_other_full. Qed.

(** eight examples with one or two neighbours: the default threshold flags the last two *)
Definition ex_dist : list (list Q) := [[1; 1]; [1]; [1]; [1]; [1 # 2; 3 # 2]; [1]; [2]; [10; 12]].
Example C85_example :
  (exists c, threshold_and_issue_column argsort_ins ex_dist None = Ok c /\
     snd c = [false; false; false; false; false; false; true; true]) /\
  (exists c, threshold_and_issue_column argsort_ins ex_dist (Some (1 # 20)) = Ok c /\
     snd c = [false; false; false; false; false; false; false; true]) /\
  (exists c, threshold_and_issue_column argsort_ins ex_dist (Some 0) = Ok c /\ snd c = repeat false 8) /\
  threshold_and_issue_column argsort_ins ex_dist (Some (3 # 2)) = Raise ValueError /\
  (exists f s, knn_issues argsort_ins 1 (Some Euclidean) None None ex_dist = Ok (f, s)).
Proof.
  split; [eexists; split; [reflexivity|vm_compute; reflexivity]|].
  split; [eexists; split; [reflexivity|vm_compute; reflexivity]|].
  split; [eexists; split; [reflexivity|vm_compute; reflexivity]|].
  split; [reflexivity|]. do 2 eexists. reflexivity.
Qed.

(** ** C86 *)
Theorem C86_flags : forall sort threshold scores flags scores', sorts_R sort -> scores <> [] ->
  pred_probs_issues sort threshold scores = Ok (flags, scores') ->
  scores' = scores /\ length flags = length scores /\
  exists m, is_median_R scores m /\
    (forall i, (i < length scores)%nat ->
       (flagged flags i <-> (nth i scores 0 < Q2R (match threshold with Some t => t | None => 13 # 100 end) * m)%R)) /\
    ((forall x, In x scores -> 0 <= x)%R -> match threshold with Some t => t <= 1 | None => True end ->
       (2 * flagged_count flags <= length scores)%nat) /\
    ((forall x, In x scores -> 0 <= x)%R -> match threshold with Some t => t == 0 | None => False end ->
       flagged_count flags = 0%nat).
Proof. exact C86_flags_full. Qed.
Print Assumptions C86_flags.

Theorem C86_monotone : forall sort t1 t2 scores f1 f2 s1 s2, sorts_R sort -> (forall x, In x scores -> 0 <= x)%R ->
  pred_probs_issues sort (Some t1) scores = Ok (f1, s1) -> pred_probs_issues sort (Some t2) scores = Ok (f2, s2) -> t1 <= t2 ->
  forall i, flagged f1 i -> flagged f2 i.
Proof. exact C86_monotone_full. Qed.
Print Assumptions C86_monotone.

Theorem C86_path : forall srt sort t mt sc threshold,
  (forall d ood, find_issues srt sort t mt sc threshold (Some d) ood = find_issues srt sort t mt sc threshold (Some d) None) /\
  find_issues srt sort t mt sc threshold None None = Raise ValueError /\
  (forall e, find_issues srt sort t mt sc threshold None (Some (Raise e)) = Raise e) /\
  (forall q s, q < 0 -> find_issues srt sort t mt sc (Some q) None (Some (Ok s)) = Raise ValueError).
Proof. exact C86_path_full. Qed.
Print Assumptions C86_path.

(** a sort and four scores, one of them far below the median *)
Fixpoint ins_R (x : R) (l : list R) : list R :=
  match l with [] => [x] | y :: t => if Rle_dec x y then x :: l else y :: ins_R x t end.
Definition sort_R (l : list R) : list R := fold_right ins_R [] l.
Example C86_example_sort : sorts_R sort_R.
Proof.
  assert (P : forall x l, Permutation (ins_R x l) (x :: l)).
  { intros x l. induction l as [|y t IH]; cbn; auto. destruct (Rle_dec x y); auto. rewrite IH. apply perm_swap. }
  assert (Q : forall x l, StronglySorted Rle l -> StronglySorted Rle (ins_R x l)).
  { intros x l. induction 1 as [|y t H IH F]; cbn. { repeat constructor. }
    destruct (Rle_dec x y) as [L|L].
    - constructor. constructor; auto. constructor; auto. eapply Forall_impl; [|exact F]. intros a Ha. eapply Rle_trans; eauto.
    - constructor; auto. rewrite P. constructor; auto. apply Rlt_le, Rnot_le_lt. exact L. }
  intros l. induction l as [|x t [IH1 IH2]]; cbn; split; auto; try constructor. rewrite P. auto. 
Qed.
Example C86_example : exists m, is_median_R [/ 20; 1; / 2; 1]%R m /\ m = (3 / 4)%R.
Proof.
  exists (3 / 4)%R. split; auto. exists [/ 20; / 2; 1; 1]%R. split; [|split].
  - apply perm_skip. apply perm_swap.
  - repeat constructor; Lra.lra.
  - right. exists 1%nat. split; [reflexivity|]. cbn. Lra.lra.
Qed.
