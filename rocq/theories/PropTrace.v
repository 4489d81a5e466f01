(** * Properties C93 and C94: learnable noise matrices and noise matrices with a given trace; C25: infeasible requests *)
From Coq Require Import QArith Qround List ZArith Bool Arith Lia Lqa.
From Verif Require Import Base BaseFacts ModelUtil ModelNoise ModelTrace SpecNoise SpecTrace ProofNoise ProofTrace.
Import ListNotations.
Open Scope Q_scope.

(** ** C25: totals that cannot be met are rejected *)
Theorem C25_rejects : forall fuel n m max_prob min_prob dir rs, (1 <= n)%nat ->
  Qnat n * (max_prob + (1 # 1000000)) < m \/ m + (1 # 1000000) < Qnat n * min_prob ->
  rand_probabilities fuel n m max_prob min_prob dir rs = Raise ValueError.
Proof. exact rand_rejects_full. Qed.
Print Assumptions C25_rejects.
Example C25_example_rejects : Qnat 3 * ((1 # 4) + (1 # 1000000)) < 1.
Proof. reflexivity. Qed.

(** ** C93: noise_matrix_is_valid.  Learnable: every class occurs, and its own label is more likely than that
    label is overall. *)
Theorem C93_valid_iff : forall K m py,
  length py = K -> (forall p, In p py -> 0 <= p) -> qsum py == 1 -> columns_sum_to_one K m ->
  noise_matrix_is_valid m py = true <->
  (forall i, (i < K)%nat -> 0 < nth i py 0 /\ label_rate K m py i < mget m i i).
Proof. exact valid_iff_full. Qed.
Print Assumptions C93_valid_iff.

Theorem C93_trace : forall K m py,
  length py = K -> (forall p, In p py -> 0 <= p) -> qsum py == 1 -> columns_sum_to_one K m ->
  noise_matrix_is_valid m py = true -> 1 < trace_of K m.
Proof. exact valid_trace_full. Qed.
Print Assumptions C93_trace.

Theorem C93_two_classes : forall m p0 p1,
  0 <= p0 -> 0 <= p1 -> p0 + p1 == 1 -> columns_sum_to_one 2 m ->
  noise_matrix_is_valid m [p0; p1] = true <-> 0 < p0 /\ 0 < p1 /\ 1 < trace_of 2 m.
Proof. exact valid_two_full. Qed.
Print Assumptions C93_two_classes.

(** a label given with the same probability whatever the true class *)
Theorem C93_uninformative : forall K m py,
  length py = K -> (forall p, In p py -> 0 <= p) -> qsum py == 1 -> columns_sum_to_one K m ->
  (exists i, (i < K)%nat /\ forall j, (j < K)%nat -> mget m i j == mget m i i) ->
  noise_matrix_is_valid m py = false.
Proof. exact uninformative_full. Qed.
Print Assumptions C93_uninformative.

Theorem C93_perfect : forall K m py,
  length py = K -> (forall p, In p py -> 0 <= p) -> qsum py == 1 ->
  (forall i j, (i < K)%nat -> (j < K)%nat -> mget m i j == if Nat.eqb i j then 1 else 0) ->
  noise_matrix_is_valid m py = true <-> (2 <= K)%nat /\ forall p, In p py -> 0 < p.
Proof. exact perfect_full. Qed.
Print Assumptions C93_perfect.

Definition ex93_py : list Q := [1 # 2; 3 # 10; 2 # 10].
Definition ex93_valid : list (list Q) := [[8#10; 1#10; 0]; [1#10; 7#10; 2#10]; [1#10; 2#10; 8#10]].
(** trace 3/2, but class 2's label is more likely for class 0 *)
Definition ex93_invalid : list (list Q) := [[4#10; 0; 1#10]; [0; 8#10; 6#10]; [6#10; 2#10; 3#10]].
Lemma ex93_columns : columns_sum_to_one 3 ex93_valid /\ columns_sum_to_one 3 ex93_invalid.
Proof. split; intros [|[|[|j]]] Hj; try lia; reflexivity. Qed.
Example C93_example :
  (forall p, In p ex93_py -> 0 <= p) /\ qsum ex93_py == 1 /\
  noise_matrix_is_valid ex93_valid ex93_py = true /\
  noise_matrix_is_valid ex93_invalid ex93_py = false /\ 1 < trace_of 3 ex93_invalid.
Proof.
  split; [intros p [<-|[<-|[<-|[]]]]; lra|]. repeat split; vm_compute; reflexivity.
Qed.
(** the boundary: one label exactly as likely for its own class as overall *)
Definition ex93_tie : list (list Q) := [[3#10; 3#10; 3#10]; [2#10; 7#10; 0]; [5#10; 0; 7#10]].
Example C93_example_tie : columns_sum_to_one 3 ex93_tie /\ 1 < trace_of 3 ex93_tie /\ noise_matrix_is_valid ex93_tie ex93_py = false.
Proof. split; [intros [|[|[|j]]] Hj; try lia; reflexivity|]. split; vm_compute; reflexivity. Qed.
(** columns that are no distributions *)
Example C93_example_total : noise_matrix_is_valid [[9#10; 0]; [0; 9#10]] [1 # 2; 1 # 2] = false.
Proof. vm_compute. reflexivity. Qed.

(** ** C94: generate_noise_matrix_from_trace *)
Theorem C94_matrix : forall fuel K trace o d py,
  draws_ok d -> (3 <= K)%nat -> feasible K trace o -> Qnat (K * (K - 1)) < inject_Z 500000 ->
  (trace + 1) * Qnat K * inject_Z 1000000 < Qnat fuel ->
  prior o = Some py -> (want_valid o = true -> 1 < trace) ->
  exists r, generate_noise_matrix_from_trace fuel K trace o d = Ok r /\
    (forall m, r = Some m -> as_requested K trace o m /\ (want_valid o = true -> noise_matrix_is_valid m py = true)) /\
    (r = None -> max_iter o = 0%nat \/ want_valid o = true).
Proof. exact generate_full. Qed.
Print Assumptions C94_matrix.

Theorem C94_two : forall fuel trace o d,
  draws_ok d -> 1 < trace -> trace <= 2 -> inject_Z 4000000 < Qnat fuel -> (1 <= max_iter o)%nat ->
  exists m, generate_noise_matrix_from_trace fuel 2 trace o d = Ok (Some m) /\
    square 2 m /\ columns_sum_to_one 2 m /\ trace_of 2 m == trace /\
    (forall i j, - (1 # 1000000) <= mget m i j /\ mget m i j <= 1 + (1 # 1000000)) /\
    ((1 # 2) <= frac_zero_noise_rates o -> (1 <= zero_rates 2 m)%nat) /\
    (forall p0 p1, 0 < p0 -> 0 < p1 -> p0 + p1 == 1 -> noise_matrix_is_valid m [p0; p1] = true).
Proof. exact generate_two_full. Qed.
Print Assumptions C94_two.

Theorem C94_rejects : forall fuel K trace o d,
  (want_valid o = true -> trace <= 1 -> generate_noise_matrix_from_trace fuel K trace o d = Raise ValueError) /\
  (want_valid o = true -> (3 <= K)%nat -> prior o = None -> generate_noise_matrix_from_trace fuel K trace o d = Raise ValueError) /\
  ((K <= 1)%nat -> generate_noise_matrix_from_trace fuel K trace o d = Raise ValueError) /\
  ((3 <= K)%nat -> (1 <= max_iter o)%nat ->
   Qnat K * (max_trace_prob o + (1 # 1000000)) < trace \/ trace + (1 # 1000000) < Qnat K * min_trace_prob o ->
   generate_noise_matrix_from_trace fuel K trace o d = Raise ValueError).
Proof. exact generate_rejects_full. Qed.
Print Assumptions C94_rejects.

(** the default keyword arguments, with a share [frac] of zero noise rates *)
Definition ex94_options (frac : Q) (valid : bool) : trace_options := {|
  max_trace_prob := 1; min_trace_prob := 1 # 100000; max_noise_rate := 99999 # 100000; min_noise_rate := 0;
  want_valid := valid; prior := Some [1 # 3; 1 # 3; 1 # 3]; frac_zero_noise_rates := frac; max_iter := 10 |}.
(** draws from the middle of the simplex *)
Definition ex94_dir (n : nat) : list Q := map (fun _ => 1 / Qnat n) (seq 0 n).
Definition ex94_draws : draws := {|
  diag_dir := fun _ n => ex94_dir n; diag_rs := fun _ _ => 1 # 2;
  balls_dir := fun _ n => ex94_dir n; balls_rs := fun _ _ => 1 # 2;
  rates_dir := fun _ _ n => ex94_dir n; rates_rs := fun _ _ _ => 1 # 2;
  rand_rows := fun _ _ cands n => firstn n cands; coin := true |}.
Example C94_example_draws : draws_ok ex94_draws.
Proof.
  assert (A : forall n, (1 <= n)%nat -> prob_vector n (ex94_dir n)).
  { intros n Hn. assert (0 < Qnat n) by (apply Qnat_pos; lia). unfold ex94_dir. split; [rewrite map_length, seq_length; auto|]. split.
    - intros x Hx. apply in_map_iff in Hx as (i & <- & _). apply Qle_shift_div_l; lra.
    - assert (G : forall s k c, qsum (map (fun _ => c) (seq s k)) == Qnat k * c).
      { intros s k c. revert s. induction k as [|k IH]; intros s; cbn [seq map]; [rewrite qsum_nil; change (Qnat 0) with 0; ring|].
        rewrite qsum_cons, IH. unfold Qnat. rewrite Nat2Z.inj_succ, <- Z.add_1_r, inject_Z_plus. ring. }
      rewrite G. field. lra. }
  assert (B : unit_stream (fun _ => 1 # 2)) by (intros i; lra).
  do 6 (split; [intros; cbn; auto|]). intros z k idx size Hn Hs. cbn [rand_rows ex94_draws]. split; [rewrite firstn_length; lia|]. split.
  - rewrite <- (firstn_skipn size idx) in Hn. clear Hs. revert Hn. generalize (skipn size idx). generalize (firstn size idx).
    induction l as [|a l IH]; intros l' H; [constructor|]. inversion H; subst. constructor; [|eapply IH; eauto].
    intros Hin. apply H2, in_or_app. auto.
  - intros i Hi. rewrite <- (firstn_skipn size idx). apply in_or_app. auto.
Qed.
Example C94_example : feasible 3 (9 # 4) (ex94_options (1 # 2) true) /\
  match generate_noise_matrix_from_trace 100 3 (9 # 4) (ex94_options (1 # 2) true) ex94_draws with
  | Ok (Some m) => map (map Qred) m | _ => [] end
  = [[3 # 4; 1 # 4; 1 # 4]; [1 # 4; 3 # 4; 0]; [0; 0; 3 # 4]].
Proof. split; [repeat split; vm_compute; discriminate|]. vm_compute. reflexivity. Qed.
Example C94_example_two :
  match generate_noise_matrix_from_trace 100 2 (3 # 2) (ex94_options (1 # 2) true) ex94_draws with
  | Ok (Some m) => map (map Qred) m | _ => [] end = [[1; 1 # 2]; [0; 1 # 2]].
Proof. vm_compute. reflexivity. Qed.

(** two classes with a share of zero noise rates: a trace above 2 is not rejected, the matrix has a negative entry *)
Example C94_two_range_refuted :
  match generate_noise_matrix_from_trace 100 2 3 (ex94_options (1 # 2) true) ex94_draws with
  | Ok (Some m) => mget m 0 1 == -1 /\ mget m 1 1 == 2 | _ => False end.
Proof. vm_compute. split; reflexivity. Qed.
(** two classes: the bounds on the diagonal are not used *)
Example C94_two_bounds_refuted : exists o, max_trace_prob o == 8 # 10 /\
  match generate_noise_matrix_from_trace 100 2 (19 # 10) o ex94_draws with
  | Ok (Some m) => mget m 0 0 == 95 # 100 | _ => False end.
Proof.
  exists {| max_trace_prob := 8 # 10; min_trace_prob := 1 # 100000; max_noise_rate := 1; min_noise_rate := 0;
            want_valid := true; prior := None; frac_zero_noise_rates := 0; max_iter := 1 |}.
  split; [reflexivity|]. vm_compute. reflexivity.
Qed.
