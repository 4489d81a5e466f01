(** * The neighbour graph and near duplicates *)
From Coq Require Import QArith Qreals Reals List Bool Arith Permutation Sorted Lia.
From Verif Require Import Base BaseFacts ModelKnn SpecKnn ProofKnn ProofKnnDup.
Import ListNotations.
Open Scope Q_scope.

(** ** C40 *)
Theorem C40_shape E features k g : env_ok E -> graph_shape (length features) k g -> simple_graph (length features) g ->
  let g' := correct_knn_graph E features k g in
  graph_shape (length features) k g' /\ simple_graph (length features) g' /\
  (valid_indices (length features) g -> valid_indices (length features) g').
Proof.
  exact (fun HE HG HS => conj (correct_shape E HE features k g HG)
    (conj (correct_simple E HE features k g HG HS) (correct_valid E features k g HE HG HS))).
Qed.
Theorem C40_unchanged E features k g i : env_ok E -> graph_shape (length features) k g -> (i < length features)%nat ->
  (forall j, ~ exact_dup features i j) ->
  let g' := correct_knn_graph E features k g in
  nth i (fst g') [] = nth i (fst g) [] /\ nth i (snd g') [] = nth i (snd g) [].
Proof. exact (fun HE HG => correct_unchanged E HE features k g HG i). Qed.
(** [O] lists the exact duplicates of [i] in increasing order *)
Theorem C40_duplicates E features k g i O : env_ok E -> graph_shape (length features) k g ->
  simple_graph (length features) g -> (i < length features)%nat ->
  StronglySorted lt O -> (forall j, In j O <-> exact_dup features i j) ->
  let g' := correct_knn_graph E features k g in
  let m := Nat.min k (length O) in
  firstn m (nth i (snd g') []) = firstn m O /\
  firstn m (nth i (fst g') []) = repeat 0 m /\
  forall p, (m <= p < k)%nat ->
    ~ exact_dup features i (nbr g' i p) /\
    exists q, (q < k)%nat /\ nbr g' i p = nbr g i q /\ dst g' i p = dst g i q.
Proof. exact (fun HE HG HS => correct_row E HE features k g HG HS i O). Qed.

(** five points on a line, the first three equal; the search missed the duplicate 2 of point 0 *)
Definition ex_features : list (list Q) := [[0]; [0]; [0]; [1]; [2]].
Definition ex_graph : graph :=
  ([[0; 1; 2]; [0; 0; 1]; [0; 0; 1]; [1; 1; 1]; [1; 2; 2]],
   [[1; 3; 4]; [0; 2; 3]; [1; 0; 3]; [4; 2; 1]; [3; 0; 1]]%nat).
Example C40_hypotheses : env_ok (concrete_env argsort_ins) /\ env_ok (concrete_env argsort_unstable) /\
  graph_shape 5 3 ex_graph /\ simple_graph 5 ex_graph /\ valid_indices 5 ex_graph /\ exact_dup ex_features 0 2.
Proof.
  refine (conj (concrete_env_ok _ argsort_ins_ok) (conj (concrete_env_ok _ argsort_unstable_ok) (conj _ (conj _ (conj _ _))))).
  - split; [reflexivity|split; [reflexivity|]]. intros i Hi.
    do 5 (destruct i as [|i]; [split; reflexivity|]). lia.
  - intros i Hi. do 5 (destruct i as [|i]; [split; [repeat constructor; simpl; intuition discriminate|simpl; intuition discriminate]|]). lia.
  - intros i j Hi. do 5 (destruct i as [|i]; [simpl; intuition lia|]). lia.
  - split; [discriminate|]. repeat split; simpl; try lia. constructor; [reflexivity|constructor].
Qed.
Example C40_example : correct_knn_graph (concrete_env argsort_ins) ex_features 3 ex_graph =
  ([[0; 0; 1]; [0; 0; 1]; [0; 0; 1]; [1; 1; 1]; [1; 2; 2]],
   [[1; 2; 3]; [0; 2; 3]; [0; 1; 3]; [4; 2; 1]; [3; 0; 1]]%nat).
Proof. vm_compute. reflexivity. Qed.
(** with [k = 1] there are more duplicates than neighbours *)
Example C40_example_many : correct_knn_graph (concrete_env argsort_ins) ex_features 1
    ([[0]; [0]; [0]; [1]; [1]], [[1]; [0]; [1]; [4]; [3]]%nat) =
    ([[0]; [0]; [0]; [1]; [1]], [[1]; [0]; [0]; [4]; [3]]%nat).
Proof. vm_compute. reflexivity. Qed.

(** ** C74 *)
Theorem C74_order_partial E features k g i O : env_ok E -> stable_sort (bsort E) ->
  graph_shape (length features) k g -> simple_graph (length features) g -> (i < length features)%nat ->
  StronglySorted lt O -> (forall j, In j O <-> exact_dup features i j) ->
  let g' := correct_knn_graph E features k g in
  let m := Nat.min k (length O) in
  skipn m (pairs g' i) = firstn (k - m) (filter (fun p => negb (mem (snd p) O)) (pairs g i)) /\
  (ordered_row (nth i (fst g) []) -> ordered_row (nth i (fst g') [])).
Proof.
  exact (fun HE Hst HG HS Hi HO1 HO2 => conj (correct_stable E HE Hst features k g HG HS i O Hi HO1 HO2)
    (correct_sorted E HE Hst features k g HG HS i Hi)).
Qed.
Example C74_stable_exists : stable_sort argsort_ins /\ argsort_ok argsort_ins.
Proof. exact (conj argsort_ins_stable argsort_ins_ok). Qed.
(** a sort that may reorder equal values, as the default of [np.argsort] does for more than 16 values,
    loses the order of the distances and drops the nearest non-duplicate *)
Theorem C74_order_refuted : exists E features k g i,
  env_ok E /\ graph_shape (length features) k g /\ simple_graph (length features) g /\ (i < length features)%nat /\
  ordered_row (nth i (fst g) []) /\
  let g' := correct_knn_graph E features k g in
  ~ ordered_row (nth i (fst g') []) /\
  (exists p, (p < k)%nat /\ ~ exact_dup features i (nbr g i p) /\ dst g i p < dst g' i (k - 1) /\
     forall q, (q < k)%nat -> nbr g' i q <> nbr g i p).
Proof.
  exists (concrete_env argsort_unstable), [[0]; [0]; [1]; [2]; [3]], 3%nat,
    ([[1; 2; 3]; [0; 1; 2]; [1; 1; 1]; [1; 1; 2]; [1; 2; 3]],
     [[2; 3; 4]; [0; 2; 3]; [0; 1; 3]; [2; 4; 0]; [3; 2; 0]]%nat), 0%nat.
  split; [exact (concrete_env_ok _ argsort_unstable_ok)|].
  split; [split; [reflexivity|split; [reflexivity|]]; intros i Hi; do 5 (destruct i as [|i]; [split; reflexivity|]); simpl in Hi; lia|].
  split; [intros i Hi; do 5 (destruct i as [|i]; [split; [repeat constructor; simpl; intuition discriminate|simpl; intuition discriminate]|]); simpl in Hi; lia|].
  split; [simpl; lia|].
  split; [split; [intros x Hx; simpl in Hx; intuition (subst; discriminate)|repeat constructor; discriminate]|].
  set (g' := correct_knn_graph _ _ _ _). vm_compute in g'. split.
  - intros (_ & H). subst g'. cbn [fst nth] in H. inversion H as [|? ? H1 H2]; subst. inversion H1 as [|? ? H3 H4]; subst.
    inversion H4 as [|? ? H5]; subst. apply H5. reflexivity.
  - exists 0%nat. split; [lia|]. split; [|split].
    + intros (_ & _ & _ & H). cbn in H. inversion H as [|? ? ? ? H1]; subst. discriminate H1.
    + reflexivity.
    + intros q Hq. subst g'. destruct q as [|[|[|q]]]; [discriminate..|lia].
Qed.

(** ** C41 *)
Theorem C41_near_duplicate_sets srt N k g t r : argsort_ok srt -> graph_shape N k g -> valid_indices N g -> (0 < N)%nat ->
  find_near_duplicates srt t g = Ok r ->
  exists q md, is_median (map (fun i => dst g i 0) (seq 0 N)) q /\ md == qmax q (1 # 1000000) /\
    length (nd_sets r) = N /\ length (nd_flags r) = N /\
    (forall i j, (i < N)%nat -> (In j (nth i (nd_sets r) []) <->
      (j < N)%nat /\ (close_edge k g (qmax t 0 * md) i j \/ close_edge k g (qmax t 0 * md) j i))) /\
    (forall i, (i < N)%nat -> NoDup (nth i (snd g) []) -> NoDup (nth i (nd_sets r) [])) /\
    (forall i, (i < N)%nat -> (nth i (nd_flags r) false = true <-> nth i (nd_sets r) [] <> [])).
Proof. exact (near_dup_spec srt N k g t r). Qed.
Theorem C41_never_raises srt g t : (0 < length (fst g))%nat -> exists r, find_near_duplicates srt t g = Ok r.
Proof. exact (near_dup_total srt g t). Qed.
Theorem C41_exact_duplicates_flagged E features k g srt t r : env_ok E -> graph_shape (length features) k g ->
  simple_graph (length features) g -> valid_indices (length features) g -> argsort_ok srt -> 0 < t -> (0 < k)%nat ->
  find_near_duplicates srt t (correct_knn_graph E features k g) = Ok r ->
  forall i O, (i < length features)%nat -> StronglySorted lt O -> (forall j, In j O <-> exact_dup features i j) -> O <> [] ->
    nth i (nd_flags r) false = true /\ nth i (nd_scores r) 0%R = 0%R /\
    (forall j, In j (firstn k O) -> In j (nth i (nd_sets r) []) /\ In i (nth j (nd_sets r) [])).
Proof. exact (fun HE HG HS HV => exact_flagged E HE features k g HG HS HV srt t r). Qed.
(** a threshold of zero (or a negative one, which is replaced by zero) flags nothing, not even exact duplicates *)
Theorem C41_zero_threshold srt N k g t r : graph_shape N k g -> valid_indices N g -> t <= 0 ->
  (forall i p, (i < N)%nat -> (p < k)%nat -> 0 <= dst g i p) -> (0 < N)%nat ->
  find_near_duplicates srt t g = Ok r -> forall i, (i < N)%nat -> nth i (nd_flags r) false = false.
Proof. exact (zero_threshold srt N k g t r). Qed.
Theorem C41_scores srt N k g t r : graph_shape N k g -> (0 < N)%nat ->
  (forall i, (i < N)%nat -> 0 <= dst g i 0) ->
  find_near_duplicates srt t g = Ok r ->
  length (nd_scores r) = N /\
  (forall i, (i < N)%nat -> 0 <= nth i (nd_scores r) 0 < 1)%R /\
  (forall i, (i < N)%nat -> (nth i (nd_scores r) 0%R = 0%R <-> dst g i 0 <= 1 # 100000000)) /\
  (forall i j, (i < N)%nat -> (j < N)%nat -> dst g i 0 <= dst g j 0 -> (nth i (nd_scores r) 0 <= nth j (nd_scores r) 0)%R) /\
  (forall i j, (i < N)%nat -> (j < N)%nat -> dst g i 0 < dst g j 0 -> 1 # 100000000 < dst g j 0 ->
     (nth i (nd_scores r) 0 < nth j (nd_scores r) 0)%R).
Proof. exact (near_dup_scores srt N k g t r). Qed.
(** one edge 0 -> 1 within the radius makes the sets of both non-empty; 2 and 3 are not flagged *)
Definition ex_near : graph := ([[1 # 10; 5]; [2; 3]; [2; 3]; [2; 3]], [[1; 2]; [2; 3]; [3; 1]; [2; 1]]%nat).
Example C41_example : exists r, find_near_duplicates argsort_ins (13 # 100) ex_near = Ok r /\
  nd_sets r = [[1]; [0]; []; []]%nat /\ nd_flags r = [true; true; false; false].
Proof. eexists. split; [cbv -[exp_score]; reflexivity|]. split; reflexivity. Qed.
Example C41_example_hyp : graph_shape 4 2 ex_near /\ valid_indices 4 ex_near.
Proof.
  split.
  - split; [reflexivity|split; [reflexivity|]]. intros i Hi. do 4 (destruct i as [|i]; [split; reflexivity|]). lia.
  - intros i j Hi. do 4 (destruct i as [|i]; [simpl; intuition lia|]). lia.
Qed.

(** ** C75 *)
Theorem C75_created E B f nk m c g n mt : env_ok E -> backend_ok B ->
  create_knn_graph E B (Some f) nk m c = Ok (g, n, mt) ->
  (0 < n < length (rows f))%nat /\
  (match nk with Some k' => (k' <> 0%nat -> n = k') /\ (k' = 0%nat -> n = Nat.min 10 (length (rows f) - 1))
   | None => n = Nat.min 10 (length (rows f) - 1) end) /\
  graph_shape (length (rows f)) n g /\ simple_graph (length (rows f)) g /\ valid_indices (length (rows f)) g /\
  (match m with Some m' => mt = m' | None => mt = decide_default_metric (length (rows f)) (ncols f) end) /\
  g = if c then correct_knn_graph E (rows f) n (B n mt (rows f)) else B n mt (rows f).
Proof. exact (create_spec E B f nk m c g n mt). Qed.
(** when no metric is requested: cosine for more than 3 columns, otherwise Euclidean *)
Theorem C75_default_metric E B f nk c g n mt : create_knn_graph E B (Some f) nk None c = Ok (g, n, mt) ->
  ((ncols f > 3)%nat -> mt = CosineM) /\
  ((ncols f <= 3)%nat -> (length (rows f) <= 100)%nat -> mt = EuclideanScipy) /\
  ((ncols f <= 3)%nat -> (length (rows f) > 100)%nat -> mt = EuclideanSklearn).
Proof. exact (create_default_metric E B f nk c g n mt). Qed.
Theorem C75_too_many_neighbors E B f nk m c :
  (exists k', nk = Some k' /\ (length (rows f) <= k')%nat) \/ (length (rows f) <= 1)%nat ->
  create_knn_graph E B (Some f) nk m c = Raise ValueError.
Proof. exact (create_raises E B f nk m c). Qed.
(** which graph a check uses; [metric_conflict]: a metric is requested and differs from the stored one *)
Theorem C75_graph_used_partial E B f provided m k sg sm g n mt :
  set_knn_graph E B f provided m k sg sm = Ok (g, n, mt) ->
  (provided = Some (g, n) /\ mt = m /\ ~ metric_conflict m sm) \/
  (provided = None /\ sg = Some (g, n) /\ (k <= n)%nat /\ mt = m /\ ~ metric_conflict m sm) \/
  (exists fe mt', f = Some fe /\ mt = Some mt' /\
     create_knn_graph E B (Some fe) (Some k) m true = Ok (g, n, mt') /\
     (metric_conflict m sm \/ (provided = None /\ forall g0 n0, sg = Some (g0, n0) -> (n0 < k)%nat))).
Proof. exact (set_graph_spec E B f provided m k sg sm g n mt). Qed.
(** a backend meeting the hypotheses: the [k] examples following in cyclic order *)
Definition cyclic_backend : backend := fun k m f =>
  (map (fun r => repeat (hd 1 r) k) f,
   map (fun i => map (fun p => ((i + S p) mod (length f))%nat) (seq 0 k)) (seq 0 (length f))).
Example C75_backend : backend_ok cyclic_backend.
Proof.
  intros k m f (Hk & Hn). unfold cyclic_backend.
  set (n := length f) in *.
  assert (forall i, (i < n)%nat -> nth i (map (fun i => map (fun p => ((i + S p) mod n)%nat) (seq 0 k)) (seq 0 n)) [] =
     map (fun p => ((i + S p) mod n)%nat) (seq 0 k)) as Hnth.
  { intros i Hi. rewrite (nth_map_gen _ _ _ _ 0%nat) by (rewrite seq_length; auto). rewrite seq_nth by auto. reflexivity. }
  assert (forall i p, (i < n)%nat -> (p < k)%nat -> (i + S p) mod n = if Nat.ltb (i + S p) n then i + S p else i + S p - n)%nat as Hm.
  { intros i p Hi Hp. destruct (Nat.ltb_spec (i + S p) n); [apply Nat.mod_small; auto|].
    replace (i + S p)%nat with (i + S p - n + 1 * n)%nat at 1 by lia. rewrite Nat.mod_add by lia. apply Nat.mod_small. lia. }
  split; [|split].
  - split; [apply map_length|]. split; [cbn [snd]; rewrite map_length, seq_length; reflexivity|].
    intros i Hi. cbn [fst snd]. rewrite Hnth by auto. rewrite map_length, seq_length.
    rewrite (nth_map_gen _ _ _ _ []) by auto. rewrite repeat_length. auto.
  - intros i Hi. cbn [snd]. rewrite Hnth by auto. split.
    + apply NoDup_map_in; [|apply seq_NoDup]. intros x y Hx Hy. apply in_seq in Hx, Hy. rewrite !Hm by lia.
      destruct (Nat.ltb_spec (i + S x) n), (Nat.ltb_spec (i + S y) n); lia.
    + intros C. apply in_map_iff in C as (p & E & Hp). apply in_seq in Hp. rewrite Hm in E by lia.
      destruct (Nat.ltb_spec (i + S p) n); lia.
  - intros i j Hi Hj. cbn [snd] in Hj. rewrite Hnth in Hj by auto. apply in_map_iff in Hj as (p & <- & _).
    apply Nat.mod_upper_bound. lia.
Qed.
(** a stored graph is used although the features of this call are others *)
Theorem C75_other_features_refuted : exists E B f f' k sg sm,
  env_ok E /\ backend_ok B /\ rows f <> rows f' /\
  (do r <- create_knn_graph E B (Some f) (Some k) None true ; Ok (fst (fst r))) <>
  (do r <- create_knn_graph E B (Some f') (Some k) None true ; Ok (fst (fst r))) /\
  set_knn_graph E B (Some f) None None k sg sm = set_knn_graph E B (Some f') None None k sg sm.
Proof.
  exists (concrete_env argsort_ins), cyclic_backend,
    (Feats [[1]; [2]] 1), (Feats [[3]; [4]] 1), 1%nat, (Some (([[1]; [1]], [[1]; [0]]%nat), 1%nat)), None.
  split; [exact (concrete_env_ok _ argsort_ins_ok)|]. split; [exact C75_backend|]. split; [discriminate|].
  split; [vm_compute; discriminate|reflexivity].
Qed.
Example C75_example : exists g, set_knn_graph (concrete_env argsort_ins) cyclic_backend (Some (Feats ex_features 1)) None None 2 None None
  = Ok (g, 2%nat, Some EuclideanScipy).
Proof. eexists. vm_compute. reflexivity. Qed.

Print Assumptions C40_shape.
Print Assumptions C40_unchanged.
Print Assumptions C40_duplicates.
Print Assumptions C74_order_partial.
Print Assumptions C74_order_refuted.
Print Assumptions C41_near_duplicate_sets.
Print Assumptions C41_never_raises.
Print Assumptions C41_exact_duplicates_flagged.
Print Assumptions C41_zero_threshold.
Print Assumptions C41_scores.
Print Assumptions C75_created.
Print Assumptions C75_default_metric.
Print Assumptions C75_too_many_neighbors.
Print Assumptions C75_graph_used_partial.
Print Assumptions C75_other_features_refuted.
