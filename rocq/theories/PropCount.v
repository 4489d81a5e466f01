(** * Properties C01-C05: rounding, calibration, joint, confident joint, thresholds *)
From Coq Require Import QArith Qabs Qround List Sorted ZArith Bool Arith.
From Verif Require Import Base BaseFacts ModelUtil ModelCount SpecCount ProofUtil ProofCount.
Import ListNotations.
Open Scope Q_scope.

(** ** C01 *)
(** [fuel] bounds the number of iterations of the correction loop: one is always enough, so the loop
    terminates and the answer does not depend on the bound. *)
Theorem C01_round_preserving_sum : forall srt fuel xs, argsort_ok srt ->
  exists zs, round_preserving_sum_fuel srt (S fuel) xs = Ok zs /\
    length zs = length xs /\
    rounds_to (qsum xs) (zsum zs) /\
    (forall i, (i < length xs)%nat -> Qabs (inject_Z (nth i zs 0%Z) - nth i xs 0) < 1).
Proof. exact round_preserving_sum_spec. Qed.
Print Assumptions C01_round_preserving_sum.

Theorem C01_round_preserving_row_totals : forall srt m, argsort_ok srt ->
  exists zm, round_preserving_row_totals srt m = Ok zm /\ Forall2 sum_preserving_rounding m zm.
Proof. exact round_preserving_row_totals_spec. Qed.
Print Assumptions C01_round_preserving_row_totals.

(** every argsort hypothesis in this development is met by a concrete sort *)
Example argsort_exists : argsort_ok argsort_ins.
Proof. exact argsort_ins_ok. Qed.
(** entry-wise rounding gives 0+0+1 = 1 for the first vector, whose sum is 2: one entry is moved up;
    and 1+1+1+(-2) = 1 for the second, whose sum -1/2 rounds to 0: one entry is moved down. *)
Example C01_example : round_preserving_sum argsort_ins [1 # 3; 1 # 3; 4 # 3] = Ok [0; 0; 2]%Z.
Proof. vm_compute. reflexivity. Qed.
Example C01_example_neg :
  round_preserving_sum argsort_ins [2 # 3; 2 # 3; 2 # 3; - (5 # 2)] = Ok [1; 1; 1; -3]%Z.
Proof. vm_compute. reflexivity. Qed.

(** ** C02 *)
Theorem C02_calibrated_counts : forall srt K cj labels, argsort_ok srt ->
  (* a K x K matrix of non-negative numbers without an (almost) empty row for a class that occurs *)
  length cj = K -> (forall r, In r cj -> length r = K) ->
  (forall r x, In r cj -> In x r -> 0 <= x) ->
  (forall i, (i < K)%nat -> In i labels -> TINY_VALUE <= qsum (nth i cj [])) ->
  (* a label below K for at least one example *)
  labels <> [] -> (forall l, In l labels -> (l < K)%nat) ->
  exists zm, calibrate_confident_joint srt cj labels = Ok zm /\ length zm = K /\
    (forall i, (i < K)%nat -> length (nth i zm []) = K /\
       zsum (nth i zm []) = Z.of_nat (n_labelled i labels)) /\
    zsum (map zsum zm) = Z.of_nat (length labels) /\
    (forall i j, (i < K)%nat -> (j < K)%nat ->
       (0 <= zget zm i j)%Z /\
       Qabs (inject_Z (zget zm i j) - mget cj i j * Qnat (n_labelled i labels) / qsum (nth i cj [])) < 1).
Proof. exact calibrate_full_gen. Qed.
Print Assumptions C02_calibrated_counts.

(** a class (2) that never occurs, a row that must be scaled up and unevenly rounded *)
Example C02_example :
  calibrate_confident_joint argsort_ins [[2;1;0];[1;1;1];[0;0;0]] [0;0;0;0;1;1;1;1]%nat
  = Ok [[3;1;0];[1;1;2];[0;0;0]]%Z.
Proof. vm_compute. reflexivity. Qed.

(** ** C03 *)
Theorem C03_joint_is_distribution : forall srt K labels pp cj, argsort_ok srt ->
  dataset K labels pp ->
  (forall c, cj = Some c ->
     length c = K /\ (forall r, In r c -> length r = K) /\
     (forall r x, In r c -> In x r -> 0 <= x) /\
     (forall i, (i < K)%nat -> In i labels -> TINY_VALUE <= qsum (nth i c []))) ->
  exists J, estimate_joint srt labels pp K cj = Ok J /\
    length J = K /\ (forall r, In r J -> length r = K) /\
    (forall i j, (i < K)%nat -> (j < K)%nat -> 0 <= mget J i j) /\
    qsum (map qsum J) == 1 /\
    (forall i, (i < K)%nat -> qsum (nth i J []) == Qnat (n_labelled i labels) / Qnat (length labels)).
Proof. exact estimate_joint_gen. Qed.
Print Assumptions C03_joint_is_distribution.

Definition ex_labels : list nat := [0; 0; 0; 1; 1; 1]%nat.
Definition ex_pp : list (list Q) :=
  [[9#10; 1#10; 0]; [8#10; 1#10; 1#10]; [1#10; 8#10; 1#10];
   [1#10; 8#10; 1#10]; [2#10; 7#10; 1#10]; [7#10; 2#10; 1#10]].
Example ex_dataset : dataset 3 ex_labels ex_pp.
Proof.
  split; try reflexivity; try discriminate.
  - intros l H. simpl in H. repeat (destruct H as [<-|H]; [auto with arith|]). destruct H.
  - intros r H. simpl in H. repeat (destruct H as [<-|H]; [reflexivity|]). destruct H.
  - intros r x H. simpl in H.
    repeat (destruct H as [<-|H];
      [simpl; intros H; repeat (destruct H as [<-|H]; [split; discriminate|]); destruct H|]).
    destruct H.
Qed.
Example C03_example : exists J, estimate_joint argsort_ins ex_labels ex_pp 3 None = Ok J
  /\ mget J 0 1 == 1 # 6 /\ mget J 0 0 == 2 # 6 /\ mget J 2 2 == 0.
Proof. eexists. split; [vm_compute; reflexivity|]. repeat split; vm_compute; reflexivity. Qed.

(** ** C04 *)
Theorem C04_confident_joint_rule : forall srt K labels pp thr,
  dataset K labels pp -> (forall t, thr = Some t -> length t = K) ->
  let t := match thr with Some t => t | None => get_confident_thresholds labels pp K end in
  exists cj idx, compute_confident_joint srt labels pp K thr false = Ok (cj, idx) /\
  (* each cell is the number of examples counted there (diagonal: at least 1) *)
  (forall i j, (i < K)%nat -> (j < K)%nat ->
     exists n, holds_for (length labels)
                 (fun e => nth e labels 0%nat = i /\ counted_as t (nth e pp []) j) n /\
       zget cj i j = if Nat.eqb i j then Z.max 1 (Z.of_nat n) else Z.of_nat n) /\
  (* an example is counted as at most one class, which is one of the K classes *)
  (forall e j j', (e < length labels)%nat -> counted_as t (nth e pp []) j -> counted_as t (nth e pp []) j' ->
     j = j' /\ (j < K)%nat) /\
  (* the returned indices are, in increasing order, those counted off the diagonal *)
  StronglySorted lt idx /\
  (forall e, In e idx <->
     (e < length labels)%nat /\ exists j, counted_as t (nth e pp []) j /\ j <> nth e labels 0%nat).
Proof. exact compute_confident_joint_full. Qed.
Print Assumptions C04_confident_joint_rule.

Example C04_example :
  compute_confident_joint argsort_ins ex_labels ex_pp 3 None false
    = Ok ([[2;1;0];[1;2;0];[0;0;1]]%Z, [2;5]%nat).
Proof. vm_compute. reflexivity. Qed.

(** The documentation calls the class counted when several classes are reached "the confident class"
    with largest probability.  The class counted need not be one of the reached ones. *)
Theorem C04_counted_class_is_confident_refuted :
  exists thr row j, counted_as thr row j /\ ~ reaches thr row j /\ length row = length thr /\
    qsum row == 1 /\ (forall x, In x row -> 0 <= x /\ x <= 1).
Proof. exact counted_not_reached. Qed.
Print Assumptions C04_counted_class_is_confident_refuted.

(** The loop printed in the documentation as "100% accurate" is the confident joint except for the
    diagonal, which the code raises to at least 1. *)
Theorem C04_documented_loop_refuted :
  exists srt K labels pp, argsort_ok srt /\ dataset K labels pp /\
    forall cj idx, compute_confident_joint srt labels pp K None false = Ok (cj, idx) ->
      cj <> documented_loop labels pp (get_confident_thresholds labels pp K) K.
Proof. exact documented_loop_differs. Qed.
Print Assumptions C04_documented_loop_refuted.

(** ** C05 *)
Theorem C05_thresholds : forall K labels pp k, dataset K labels pp -> (k < K)%nat ->
  let t := nth k (get_confident_thresholds labels pp K) 0 in
  (In k labels ->
     exists a, is_average (own_probs k labels pp) a /\ t == qmax a (2 # 1000000) /\
       (forall lo hi, (forall x, In x (own_probs k labels pp) -> lo <= x /\ x <= hi) ->
          lo <= a /\ a <= hi)) /\
  (~ In k labels -> forall row, In row pp -> ~ reaches (get_confident_thresholds labels pp K) row k).
Proof. exact thresholds_full. Qed.
Print Assumptions C05_thresholds.

Example C05_example :
  nth 0 (get_confident_thresholds ex_labels ex_pp 3) 0 == 6 # 10 /\
  nth 1 (get_confident_thresholds ex_labels ex_pp 3) 0 == 17 # 30 /\
  nth 2 (get_confident_thresholds ex_labels ex_pp 3) 0 == 2.
Proof. repeat split; vm_compute; reflexivity. Qed.
