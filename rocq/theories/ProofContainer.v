(** * Proofs about containers *)
From Coq Require Import QArith List Bool Arith Lia Lqa.
From Verif Require Import Base BaseFacts ModelUtil ModelValid SpecValid ProofValid ModelContainer SpecContainer.
Import ListNotations.
Open Scope Q_scope.

Definition after (x : option data_object) (p : option pred_object) (v : list lab) : res unit :=
  match p with
  | None => check_features x (length v)
  | Some p => check_predictions p (length v) (Ok (qmaximum (map val v) + 1))
  end.
Lemma leaves_map v : concat (map leaves (map Leaf v)) = v.
Proof. induction v; cbn; congruence. Qed.
Lemma flat_shape v : tree_shape (Node (map Leaf v)) = Some [length v].
Proof.
  destruct v as [|a v]; [reflexivity|]. cbn [map tree_shape]. replace (forallb _ _) with true; [cbn; now rewrite map_length|].
  symmetry. apply forallb_forall. intros t Ht. change (In t (map Leaf (a :: v))) in Ht. apply in_map_iff in Ht as (l & <- & _). cbn.
  reflexivity.
Qed.
Lemma concat_single (v : list lab) : concat (map (fun l => [l]) v) = v.
Proof. induction v; cbn; congruence. Qed.
Lemma str_raises v am ao : existsb is_str v = true -> assert_valid_class_labels v am ao = Raise ValueError.
Proof. intros E. unfold assert_valid_class_labels. now rewrite E. Qed.
Lemma strs v : existsb is_str v = true -> existsb is_str (map (fun _ => Str) v) = true.
Proof. destruct v; [discriminate|reflexivity]. Qed.
Lemma any_holds x y v p am ao : holds y v ->
  assert_valid_inputs_any x y p am ao = do _ <- assert_valid_class_labels v am ao ; after x p v.
Proof.
  intros H. unfold assert_valid_inputs_any, labels_to_array. destruct H; cbn [rbind].
  - rewrite flat_shape. cbn [rbind length Nat.eqb negb leaves]. rewrite leaves_map. unfold common_type. destruct (existsb is_str v) eqn:E; [|reflexivity].
    rewrite (str_raises _ am ao E), (str_raises _ am ao (strs v E)). reflexivity.
  - reflexivity.
  - reflexivity.
  - cbn [Nat.eqb negb rbind length]. rewrite concat_single. reflexivity.
Qed.
Lemma shape_leaf t : tree_shape t = Some [] -> exists l, t = Leaf l.
Proof.
  destruct t as [l|[|t0 ts]]; [eauto|discriminate|]. cbn [tree_shape]. destruct (tree_shape t0); [|discriminate]. destruct (forallb _ _); discriminate.
Qed.
Lemma shape_one ts n : tree_shape (Node ts) = Some [n] -> exists v, ts = map Leaf v.
Proof.
  destruct ts as [|t0 ts]; [exists []; reflexivity|]. cbn [tree_shape]. destruct (tree_shape t0) as [s|] eqn:E0; [|discriminate].
  destruct (forallb _ _) eqn:F; [|discriminate]. intros H. injection H as _ ->. rewrite forallb_forall in F.
  assert (G : forall t, In t (t0 :: ts) -> exists l, t = Leaf l).
  { intros t Ht. apply F in Ht. destruct (tree_shape t) as [s'|] eqn:Et; [|discriminate]. destruct (list_eq_dec Nat.eq_dec [] s'); [|discriminate].
    subst s'. now apply shape_leaf. }
  clear -G. induction (t0 :: ts) as [|t l IH]; [exists []; reflexivity|]. destruct (G t (or_introl eq_refl)) as (a & ->).
  destruct (IH (fun t H => G t (or_intror H))) as (v & ->). exists (a :: v). reflexivity.
Qed.
Lemma frame_one (rows : list (list lab)) : (forall r, In r rows -> length r = 1%nat) -> exists v, rows = map (fun l => [l]) v.
Proof.
  induction rows as [|r rows IH]; intros H; [exists []; reflexivity|]. destruct (IH (fun r Hr => H r (or_intror Hr))) as (v & ->).
  pose proof (H r (or_introl eq_refl)) as L. destruct r as [|a [|]]; try discriminate. exists (a :: v). reflexivity.
Qed.
Lemma outcome y : exists_labels y -> (y = Foreign) \/ (exists v, holds y v) \/
  (~ (exists v, holds y v) /\ forall x p am ao, assert_valid_inputs_any x y p am ao = Raise ValueError).
Proof.
  intros Hy. unfold assert_valid_inputs_any, labels_to_array. destruct y as [ts|s l|l|l|w rows|]; [| | | | |now left]; right.
  - destruct (tree_shape (Node ts)) as [s|] eqn:E.
    + destruct s as [|n [|k s]].
      * right. split; [|intros; reflexivity]. intros (v & H). inversion H; subst. rewrite flat_shape in E. discriminate.
      * left. destruct (shape_one ts n E) as (v & ->). exists v. constructor.
      * right. split; [|intros; reflexivity]. intros (v & H). inversion H; subst. rewrite flat_shape in E. discriminate.
    + right. split; [|intros; reflexivity]. intros (v & H). inversion H; subst. rewrite flat_shape in E. discriminate.
  - destruct s as [|n [|k s]].
    + right. split; [|intros; reflexivity]. intros (v & H). inversion H.
    + left. cbn in Hy. rewrite Nat.mul_1_r in Hy. subst n. exists l. constructor.
    + right. split; [|intros; reflexivity]. intros (v & H). inversion H.
  - right. split; [|intros; reflexivity]. intros (v & H). inversion H.
  - left. exists l. constructor.
  - destruct (Nat.eqb_spec w 1) as [->|N].
    + left. destruct (frame_one rows Hy) as (v & ->). exists v. constructor.
    + right. split; [|intros; reflexivity]. intros (v & H). inversion H. congruence.
Qed.
Lemma same_full x y y' v p am ao : holds y v -> holds y' v -> assert_valid_inputs_any x y p am ao = assert_valid_inputs_any x y' p am ao.
Proof. intros H H'. rewrite (any_holds x y v p am ao H), (any_holds x y' v p am ao H'). reflexivity. Qed.
Lemma refused_full x y p am ao : exists_labels y -> (forall v, ~ holds y v) ->
  assert_valid_inputs_any x y p am ao = Raise (match y with Foreign => TypeError | _ => ValueError end).
Proof.
  intros Hy Hn. destruct (outcome y Hy) as [->|[(v & H)|(_ & H)]]; [reflexivity|destruct (Hn v H)|]. rewrite H. destruct y; try reflexivity.
  specialize (H x p am ao). discriminate.
Qed.
Lemma after_features x v : after x None v = Ok tt <-> exists d, x = Some d /\ examples d (length v) /\ takes_ends d (length v).
Proof.
  cbn [after]. unfold check_features. destruct x as [d|]; [|split; [discriminate|intros (d & E & _); discriminate]].
  assert (W : forall n, assert_indexing_works d n = Ok tt <-> takes_ends d n).
  { intros n. unfold assert_indexing_works, takes_ends. cbv zeta.
    destruct (is_pandas d), (iloc_works d [0; n - 1]%nat), (is_torch_dataset d), (subset_works d [0; n - 1]%nat), (getitem_works d [0; n - 1]%nat); cbn;
      intuition (try discriminate; auto). }
  unfold examples. split.
  - intros H. exists d. split; [reflexivity|]. destruct (has_len d) as [k1|].
    + cbn [rbind] in H. destruct (Nat.eqb_spec k1 (length v)) as [E|]; cbn [negb] in H; [|discriminate]. subst k1. split; [auto|now apply W].
    + destruct (has_shape d) as [k2|]; [|discriminate]. cbn [rbind] in H.
      destruct (Nat.eqb_spec k2 (length v)) as [E|]; cbn [negb] in H; [|discriminate]. subst k2. split; [auto|now apply W].
  - intros (d' & E & Hn & Ht). injection E as <-. destruct Hn as [E|(E0 & E)]; [rewrite E|rewrite E0, E]; cbn [rbind]; rewrite Nat.eqb_refl; cbn [negb]; now apply W.
Qed.
Lemma features_any x y am ao : exists_labels y ->
  assert_valid_inputs_any x y None am ao = Ok tt <->
  exists v cs d, holds y v /\ good_labels am ao v cs /\ x = Some d /\ examples d (length v) /\ takes_ends d (length v).
Proof.
  intros Hy. split.
  - intros H. destruct (outcome y Hy) as [->|[(v & Hv)|(_ & E)]]; [discriminate| |rewrite E in H; discriminate].
    rewrite (any_holds x y v None am ao Hv) in H. destruct (assert_valid_class_labels v am ao) as [[]|] eqn:E; cbn [rbind] in H; [|discriminate].
    apply labels_full in E as (cs & Hc). apply after_features in H as (d & H). exists v, cs, d. unfold good_labels. tauto.
  - intros (v & cs & d & Hv & Hc & H). rewrite (any_holds x y v None am ao Hv). rewrite (proj2 (labels_full v am ao)) by (exists cs; exact Hc).
    cbn [rbind]. apply after_features. exists d. exact H.
Qed.
Lemma entries_ne s (l : list Q) K n : length l = fold_right Nat.mul 1%nat s -> s = [n; K] -> (1 <= n)%nat -> (1 <= K)%nat -> l <> [].
Proof. intros H -> Hn HK ->. cbn in H. rewrite Nat.mul_1_r in H. symmetry in H. apply Nat.eq_mul_0 in H. lia. Qed.
Lemma predictions_any x y p am ao : exists_labels y -> exists_predictions p ->
  assert_valid_inputs_any x y (Some p) am ao = Ok tt <->
  exists v cs K entries, holds y v /\ good_labels am ao v cs /\ p = PArray [length v; K] entries /\ (forall c, In c cs -> (c < K)%nat) /\ near_01 entries.
Proof.
  intros Hy Hp. split.
  - intros H. destruct (outcome y Hy) as [->|[(v & Hv)|(_ & E)]]; [discriminate| |rewrite E in H; discriminate].
    rewrite (any_holds x y v (Some p) am ao Hv) in H. destruct (assert_valid_class_labels v am ao) as [[]|] eqn:E; cbn [rbind after] in H; [|discriminate].
    apply labels_full in E as (cs & Hc & Ho & Hm). exists v, cs. unfold check_predictions in H.
    destruct p as [[|r s] entries| |]; try discriminate. destruct (Nat.eqb_spec r (length v)) as [->|]; cbn [negb] in H; [|discriminate].
    destruct s as [|K [|]]; try discriminate. cbn [rbind] in H. destruct (Qltb (Qnat K) (qmaximum (map val v) + 1)) eqn:E1; [discriminate|].
    exists K, entries. split; [exact Hv|]. split; [repeat split; auto; apply Hc|]. split; [reflexivity|].
    split; [now apply (classes_max v cs K Hc)|]. destruct entries as [|q l]; [discriminate|].
    destruct ((_ || _)%bool) eqn:E2; [discriminate|]. exact (proj1 (range_ok (q :: l) ltac:(discriminate)) E2).
  - intros (v & cs & K & entries & Hv & Hc & -> & HK & HP). rewrite (any_holds x y v _ am ao Hv).
    rewrite (proj2 (labels_full v am ao)) by (exists cs; exact Hc). cbn [rbind after]. unfold check_predictions. rewrite Nat.eqb_refl. cbn [negb rbind].
    destruct Hc as (Hc & _). rewrite (proj2 (classes_max v cs K Hc) HK). pose proof Hc as (Hne & F).
    assert (1 <= K)%nat. { destruct cs as [|c cs]; [inversion F; subst; congruence|]. specialize (HK c (or_introl eq_refl)). lia. }
    assert (N : entries <> []) by (apply (entries_ne [length v; K] entries K (length v) Hp eq_refl); [destruct v; [congruence|cbn; lia]|lia]).
    rewrite (proj2 (range_ok entries N) HP). destruct entries; [congruence|reflexivity].
Qed.
Lemma predictions_type x y v cs p am ao : holds y v -> good_labels am ao v cs ->
  (p = PForeign \/ p = PGeneric -> assert_valid_inputs_any x y (Some p) am ao = Raise TypeError) /\
  (forall s l, p = PArray s l -> (length s <> 2)%nat -> s <> [] -> assert_valid_inputs_any x y (Some p) am ao = Raise ValueError).
Proof.
  intros Hv Hc. rewrite (any_holds x y v _ am ao Hv). rewrite (proj2 (labels_full v am ao)) by (exists cs; exact Hc). cbn [rbind after].
  split; [intros [->| ->]; reflexivity|]. intros s l -> L N. unfold check_predictions. destruct s as [|r s]; [congruence|].
  destruct (negb _); [reflexivity|]. destruct s as [|K [|]]; try reflexivity. cbn in L. lia.
Qed.
Lemma list_multi y l : labels_to_list_multilabel y = Ok l <-> y = PyList (map Node l).
Proof.
  split.
  - destruct y as [ts| | | | |]; try discriminate. cbn [labels_to_list_multilabel]. destruct (forallb _ ts) eqn:F; cbn [negb]; [|discriminate].
    intros H. injection H as <-. f_equal. rewrite map_map. rewrite forallb_forall in F. clear -F. induction ts as [|t ts IH]; [reflexivity|]. cbn [map].
    rewrite <- IH by (intros x Hx; apply F; now right). specialize (F t (or_introl eq_refl)). destruct t; [discriminate|reflexivity].
  - intros ->. cbn [labels_to_list_multilabel]. replace (forallb _ _) with true.
    + cbn [negb]. rewrite map_map. now rewrite map_id.
    + symmetry. apply forallb_forall. intros t Ht. apply in_map_iff in Ht as (x & <- & _). reflexivity.
Qed.
Lemma list_multi_errors y e : labels_to_list_multilabel y = Raise e -> e = ValueError.
Proof. destruct y; cbn [labels_to_list_multilabel]; try congruence. destruct (negb _); congruence. Qed.
Lemma nodes_true (ls : list (list Q)) :
  forallb (fun t => match t with Node _ => true | Leaf _ => false end) (map (fun l => Node (map (fun q => Leaf (Num q)) l)) ls) = true.
Proof. apply forallb_forall. intros t Ht. apply in_map_iff in Ht as (x & <- & _). reflexivity. Qed.
Lemma highest_iff (ls : list (list Q)) K :
  let ne := filter (fun l => negb (Nat.eqb (length l) 0)) (map (fun l => map (fun q => Leaf (Num q)) l) ls) in
  ne <> [] -> (Qltb (Qnat K) (qmaximum (map (fun l => qmaximum (map class_value l)) ne) + 1) = false <-> forall l q, In l ls -> In q l -> q + 1 <= Qnat K).
Proof.
  cbv zeta. set (ne := filter _ _). intros N. rewrite Qltb_false.
  assert (I : forall t, In t ne <-> exists l, In l ls /\ t = map (fun q => Leaf (Num q)) l /\ l <> []).
  { intros t. unfold ne. rewrite filter_In, in_map_iff. split.
    - intros ((l & <- & Hl) & B). exists l. split; [auto|]. split; [reflexivity|]. intros ->. discriminate.
    - intros (l & Hl & -> & Hn). split; [eauto|]. destruct l; [congruence|reflexivity]. }
  assert (V : forall l, map class_value (map (fun q => Leaf (Num q)) l) = l).
  { intros l. rewrite map_map. cbn. apply map_id. }
  split.
  - intros H l q Hl Hq. assert (It : In (map (fun q => Leaf (Num q)) l) ne) by (apply I; exists l; split; [auto|split; [reflexivity|intros ->; contradiction]]).
    pose proof (qmaximum_ge _ _ (in_map (fun l => qmaximum (map class_value l)) _ _ It)) as G. cbn beta in G. rewrite V in G.
    pose proof (qmaximum_ge l q Hq). lra.
  - intros H. assert (M : map (fun l => qmaximum (map class_value l)) ne <> []) by (destruct ne; [congruence|discriminate]).
    apply qmaximum_in, in_map_iff in M as (t & Et & Ht). rewrite <- Et. apply I in Ht as (l & Hl & -> & Hn). rewrite V. apply (H l); auto. now apply qmaximum_in.
Qed.
Lemma multi_any y ls p : class_lists y ls -> exists_predictions p ->
  assert_valid_inputs_any_multilabel y p = Ok tt <->
  exists K entries, p = PArray [length ls; K] entries /\ (exists l q, In l ls /\ In q l) /\ entries <> [] /\
    (forall l q, In l ls -> In q l -> q + 1 <= Qnat K) /\ near_01 entries.
Proof.
  intros -> Hp. unfold assert_valid_inputs_any_multilabel. cbn [rbind container_len]. rewrite nodes_true. cbn [negb]. rewrite map_map, map_length.
  pose proof (highest_iff ls) as HH. cbv zeta in HH. cbv beta iota.
  set (ne := filter (fun l => negb (Nat.eqb (length l) 0)) (map (fun l => map (fun q => Leaf (Num q)) l) ls)) in *.
  assert (NE : ne <> [] <-> exists l q, In l ls /\ In q l).
  { unfold ne. split.
    - intros H. destruct (filter _ _) as [|t r] eqn:E; [congruence|]. assert (It : In t (t :: r)) by now left. rewrite <- E in It.
      apply filter_In in It as (It & B). apply in_map_iff in It as (l & <- & Hl). destruct l as [|q l]; [discriminate|]. exists (q :: l), q. split; [auto|now left].
    - intros (l & q & Hl & Hq) E. assert (It : In (map (fun q => Leaf (Num q)) l) []); [|contradiction]. rewrite <- E. apply filter_In.
      split; [apply in_map; auto|]. destruct l; [contradiction|reflexivity]. }
  destruct p as [[|r s] entries| |]; cbn [rbind]; try (split; [discriminate|intros (K & en & E & _); discriminate]).
  unfold check_predictions. split.
  - destruct (Nat.eqb_spec r (length ls)) as [->|]; cbn [negb]; [|discriminate]. destruct s as [|K [|]]; try discriminate.
    destruct ne as [|t0 ne'] eqn:En; [discriminate|]. rewrite <- En in *. cbn [rbind]. intros H.
    assert (N : ne <> []) by (rewrite En; discriminate). destruct (Qltb (Qnat K) _) eqn:E1; [discriminate|].
    exists K, entries. split; [reflexivity|]. split; [now apply NE|]. destruct entries as [|q0 l0]; [discriminate|]. split; [discriminate|].
    split; [now apply (HH K N)|]. destruct ((_ || _)%bool) eqn:E2; [discriminate|]. exact (proj1 (range_ok (q0 :: l0) ltac:(discriminate)) E2).
  - intros (K & en & E & Hex & Hne & HK & HP). injection E as -> -> ->. rewrite Nat.eqb_refl. cbn [negb]. apply NE in Hex.
    destruct ne as [|t0 ne'] eqn:En; [congruence|]. rewrite <- En in *. cbn [rbind]. rewrite (proj2 (HH K Hex) HK).
    rewrite (proj2 (range_ok en Hne) HP). destruct en; [congruence|reflexivity].
Qed.
Lemma multi_assertion y n K entries : y <> Foreign -> (forall l, y <> PyList (map Node l)) -> container_len y = Ok n ->
  assert_valid_inputs_any_multilabel y (PArray [n; K] entries) = Raise AssertionError.
Proof.
  intros NF NN Ln. unfold assert_valid_inputs_any_multilabel. destruct y as [ts| | | | |]; try congruence; cbn [rbind]; rewrite ?Ln; cbn [rbind];
    try (cbn [check_predictions]; rewrite Nat.eqb_refl; reflexivity).
  destruct (forallb _ ts) eqn:F; [|cbn [negb check_predictions]; rewrite Nat.eqb_refl; reflexivity]. exfalso.
  apply (NN (map (fun t => match t with Node l => l | Leaf _ => [] end) ts)). apply list_multi. cbn [labels_to_list_multilabel]. rewrite F. reflexivity.
Qed.
Lemma feature_errors x y v cs am ao : holds y v -> good_labels am ao v cs ->
  (x = None -> assert_valid_inputs_any x y None am ao = Raise ValueError) /\
  (forall d, x = Some d -> (forall n, ~ examples d n) -> assert_valid_inputs_any x y None am ao = Raise TypeError) /\
  (forall d n, x = Some d -> examples d n -> n <> length v -> assert_valid_inputs_any x y None am ao = Raise ValueError) /\
  (forall d, x = Some d -> examples d (length v) -> ~ takes_ends d (length v) -> assert_valid_inputs_any x y None am ao = Raise TypeError).
Proof.
  intros Hv Hg. rewrite (any_holds x y v None am ao Hv). rewrite (proj2 (labels_full v am ao)) by (exists cs; exact Hg). cbn [rbind].
  unfold after, check_features.
  assert (N : forall d n, examples d n -> match has_len d with Some k => Ok k | None => match has_shape d with Some k => Ok k | None => Raise TypeError end end = Ok n).
  { intros d n [E|[E E']]; rewrite E; [|rewrite E']; reflexivity. }
  split; [intros ->; reflexivity|]. split; [|split].
  - intros d -> H. destruct (has_len d) as [k|] eqn:E; [exfalso; apply (H k); left; exact E|].
    destruct (has_shape d) as [k|] eqn:E'; [exfalso; apply (H k); right; split; assumption|reflexivity].
  - intros d n -> H Hn. rewrite (N d n H). cbn [rbind]. destruct (Nat.eqb_spec n (length v)); [contradiction|reflexivity].
  - intros d -> H Ht. rewrite (N d _ H). cbn [rbind]. rewrite Nat.eqb_refl. cbn [negb]. unfold assert_indexing_works. unfold takes_ends in Ht.
    destruct (is_pandas d), (iloc_works d [0; length v - 1]%nat), (is_torch_dataset d), (subset_works d [0; length v - 1]%nat), (getitem_works d [0; length v - 1]%nat);
      cbn; try reflexivity; exfalso; apply Ht; tauto.
Qed.
Lemma multi_errors y p : (y = Foreign \/ p = PForeign \/ p = PGeneric \/ (exists l, p = PArray [] l) \/ (exists l, y = NdArray [] l) \/ (exists l, y = Generic l) ->
    assert_valid_inputs_any_multilabel y p = Raise TypeError) /\
  (forall n r s l, container_len y = Ok n -> p = PArray (r :: s) l -> r <> n \/ length s <> 1%nat -> assert_valid_inputs_any_multilabel y p = Raise ValueError) /\
  (forall m K l, y = PyList (repeat (Node []) m) -> p = PArray [m; K] l -> assert_valid_inputs_any_multilabel y p = Raise ValueError).
Proof.
  split; [|split].
  - unfold assert_valid_inputs_any_multilabel. intros [->|[->|[->|[(l & ->)|[(l & ->)|(l & ->)]]]]]; try (destruct y; reflexivity); try reflexivity;
      destruct p as [[|r s] q| |]; reflexivity.
  - intros n r s l Hn -> H. unfold assert_valid_inputs_any_multilabel. destruct y; try discriminate Hn; rewrite Hn; cbn [rbind check_predictions];
      (destruct (Nat.eqb_spec r n) as [->|N]; [|reflexivity]); (destruct H as [H|H]; [congruence|]); cbn [negb];
      (destruct s as [|K [|K' s]]; [reflexivity|exfalso; apply H; reflexivity|reflexivity]).
  - intros m K l -> ->. unfold assert_valid_inputs_any_multilabel. cbn [rbind container_len]. rewrite repeat_length. cbn [check_predictions]. rewrite Nat.eqb_refl. cbn [negb].
    assert (A : forallb (fun t => match t with Node _ => true | Leaf _ => false end) (repeat (Node []) m) = true)
      by (induction m as [|m IH]; [reflexivity|exact IH]).
    rewrite A. cbn [negb].
    assert (B : filter (fun l0 : list tree => negb (Nat.eqb (length l0) 0)) (map (fun t => match t with Node l0 => l0 | Leaf _ => [] end) (repeat (Node []) m)) = [])
      by (induction m as [|m IH]; [reflexivity|exact (IH ltac:(exact A))]).
    rewrite B. reflexivity.
Qed.
