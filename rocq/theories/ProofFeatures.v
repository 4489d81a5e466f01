(** * Proofs about feature data (C127) *)
From Coq Require Import List ZArith Bool Arith Lia.
From Verif Require Import Base BaseFacts ModelFeatures SpecFeatures.
Import ListNotations.
Open Scope nat_scope.

Section Features.
Context {V : Type}.
Variable zero : V.
Variable plus : V -> V -> V.
Notation csr := (@csr V).
Notation dense_row := (dense_row zero plus).
Notation holds := (holds zero plus).

Lemma indptr_mono (m : csr) : well_formed m -> forall i j, i <= j -> j <= fst (c_shape m) -> nth i (c_indptr m) 0 <= nth j (c_indptr m) 0.
Proof.
  intros (L & Z0 & M & E & _) i j H. induction H as [|j H IH]; intros Hj; [lia|]. specialize (M j). lia.
Qed.
Lemma nnz_length (m : csr) : well_formed m -> nnz m = length (c_data m).
Proof.
  intros (L & Z0 & M & E & _). unfold nnz. rewrite <- E. clear -L.
  destruct (c_indptr m) as [|x l] using rev_ind; [simpl in L; lia|].
  rewrite last_last. rewrite app_length in L. simpl in L. rewrite app_nth2 by lia. replace (_ - length l) with 0 by lia. reflexivity.
Qed.
Lemma tl_map {A B} (f : A -> B) l : tl (map f l) = map f (tl l).
Proof. now destruct l. Qed.
Lemma nth_tl {A} (l : list A) k d : nth k (tl l) d = nth (S k) l d.
Proof. destruct l; [destruct k|]; reflexivity. Qed.

Lemma stack_ptr1 (a b : csr) i : well_formed a -> i <= fst (c_shape a) -> nth i (c_indptr (csr_vstack a b)) 0 = nth i (c_indptr a) 0.
Proof. intros (L & _) H. simpl. rewrite app_nth1 by lia. reflexivity. Qed.
Lemma stack_ptr2 (a b : csr) k : well_formed a -> well_formed b -> k <= fst (c_shape b) ->
  nth (fst (c_shape a) + k) (c_indptr (csr_vstack a b)) 0 = nth k (c_indptr b) 0 + length (c_data a).
Proof.
  intros Wa Wb H. destruct k as [|k].
  - rewrite Nat.add_0_r, stack_ptr1 by auto. destruct Wa as (_ & _ & _ & E & _), Wb as (Lb & Z0 & _). rewrite E.
    destruct (c_indptr b); simpl in *; lia.
  - simpl. pose proof (nnz_length a Wa) as N. destruct Wa as (La & _), Wb as (Lb & _).
    rewrite app_nth2 by lia. rewrite La. replace (fst (c_shape a) + S k - S (fst (c_shape a))) with k by lia.
    rewrite tl_map, N. rewrite (nth_indep _ 0 (0 + length (c_data a))).
    + rewrite (map_nth (fun p => p + length (c_data a))), nth_tl. reflexivity.
    + rewrite map_length. destruct (c_indptr b); simpl in *; lia.
Qed.
Lemma combine_app {A B} (l1 l2 : list A) : forall (m1 m2 : list B), length l1 = length m1 -> combine (l1 ++ l2) (m1 ++ m2) = combine l1 m1 ++ combine l2 m2.
Proof. induction l1; intros [|b m1] m2 H; simpl in *; try lia; auto. f_equal. apply IHl1. lia. Qed.

Lemma stack_rows (a b : csr) : well_formed a -> well_formed b -> snd (c_shape a) = snd (c_shape b) ->
  well_formed (csr_vstack a b) /\ c_shape (csr_vstack a b) = (fst (c_shape a) + fst (c_shape b), snd (c_shape a)) /\
  (forall i, i < fst (c_shape a) -> dense_row (csr_vstack a b) i = dense_row a i) /\
  (forall i, i < fst (c_shape b) -> dense_row (csr_vstack a b) (fst (c_shape a) + i) = dense_row b i).
Proof.
  intros Wa Wb Ew.
  assert (W : well_formed (csr_vstack a b)).
  { pose proof Wa as (La & Za & Ma & Ea & Ia). pose proof Wb as (Lb & Zb & Mb & Eb & Ib).
    split; [|split; [|split; [|split]]].
    - simpl. rewrite app_length, tl_map, map_length. destruct (c_indptr b); simpl in *; lia.
    - simpl. destruct (c_indptr a); simpl in *; [lia|auto].
    - intros i Hi. simpl in Hi. destruct (Nat.lt_ge_cases i (fst (c_shape a))) as [H|H].
      + rewrite !stack_ptr1 by (auto; lia). auto.
      + replace i with (fst (c_shape a) + (i - fst (c_shape a))) by lia. rewrite <- Nat.add_succ_r. rewrite !stack_ptr2 by (auto; lia).
        specialize (Mb (i - fst (c_shape a))). lia.
    - change (fst (c_shape (csr_vstack a b))) with (fst (c_shape a) + fst (c_shape b)). rewrite stack_ptr2 by auto. simpl. rewrite app_length. lia.
    - simpl. rewrite !app_length. lia. }
  split; [auto|]. split; [simpl; now rewrite Ew|].
  pose proof Wa as (La & Za & Ma & Ea & Ia). pose proof Wb as (Lb & Zb & Mb & Eb & Ib).
  assert (LC : length (combine (c_indices a) (c_data a)) = length (c_data a)) by (rewrite combine_length; lia).
  split; intros i Hi; unfold SpecFeatures.dense_row; simpl snd; rewrite ?Ew; apply map_ext; intros j; unfold entry; f_equal; unfold stored.
  - rewrite !stack_ptr1 by (auto; lia). f_equal. f_equal. simpl c_indices. simpl c_data. rewrite combine_app by auto.
    assert (H1 : nth (S i) (c_indptr a) 0 <= length (c_data a)). { rewrite <- Ea. apply indptr_mono; auto; lia. }
    pose proof (Ma i Hi). rewrite skipn_app, firstn_app. rewrite skipn_length, LC.
    replace (nth (S i) (c_indptr a) 0 - nth i (c_indptr a) 0 - (length (c_data a) - nth i (c_indptr a) 0)) with 0 by lia.
    simpl. now rewrite app_nil_r.
  - rewrite <- Nat.add_succ_r. rewrite !stack_ptr2 by (auto; lia). f_equal. f_equal. simpl c_indices. simpl c_data. rewrite combine_app by auto.
    rewrite skipn_app, LC. rewrite (skipn_all2 (combine (c_indices a) (c_data a))) by lia. simpl.
    replace (nth i (c_indptr b) 0 + length (c_data a) - length (c_data a)) with (nth i (c_indptr b) 0) by lia.
    f_equal. lia.
Qed.

Lemma combine_skipn {A B} n : forall (l : list A) (m : list B), skipn n (combine l m) = combine (skipn n l) (skipn n m).
Proof. induction n; intros [|a l] [|b m]; simpl; auto. now destruct (skipn n l). Qed.
Lemma combine_firstn' {A B} n : forall (l : list A) (m : list B), firstn n (combine l m) = combine (firstn n l) (firstn n m).
Proof. induction n; intros [|a l] [|b m]; simpl; auto. f_equal. auto. Qed.

Lemma csr_row_ok (m : csr) i : well_formed m -> i < fst (c_shape m) ->
  exists r, csr_row m i = Ok r /\ well_formed r /\ c_shape r = (1, snd (c_shape m)) /\ dense_row r 0 = dense_row m i.
Proof.
  intros W Hi. unfold csr_row. destruct (Nat.ltb_spec i (fst (c_shape m))); [|lia]. eexists. split; [reflexivity|].
  pose proof W as (L & Z0 & M & E & I).
  assert (H1 : nth (S i) (c_indptr m) 0 <= length (c_data m)). { rewrite <- E. apply indptr_mono; auto; lia. }
  pose proof (M i Hi) as Mi. split; [|split; [reflexivity|]].
  - split; [reflexivity|]. split; [reflexivity|]. simpl. split; [intros [|k] Hk; simpl; lia|]. rewrite !firstn_length, !skipn_length. lia.
  - unfold SpecFeatures.dense_row. simpl snd. apply map_ext. intros j. unfold entry. f_equal. unfold stored. cbn [c_indptr c_indices c_data nth].
    rewrite !Nat.sub_0_r. simpl skipn. rewrite <- combine_firstn', <- combine_skipn. rewrite firstn_firstn, Nat.min_id. reflexivity.
Qed.

(** ** append_extra_datapoint *)
Lemma nth_seq_map {B} (f : nat -> B) n i d : i < n -> nth i (map f (seq 0 n)) d = f i.
Proof. intros H. rewrite (nth_indep _ d (f 0)) by (rewrite map_length, seq_length; auto). rewrite map_nth, seq_nth; auto. Qed.
Lemma map_seq_ext {B} (f g : nat -> B) n : (forall i, i < n -> f i = g i) -> map f (seq 0 n) = map g (seq 0 n).
Proof. intros H. apply map_ext_in. intros i Hi. apply H. apply in_seq in Hi. lia. Qed.

Lemma concat_slice (R : list (list V)) w i : (forall r, In r R -> length r = w) -> i < length R -> firstn w (skipn (i * w) (concat R)) = nth i R [].
Proof.
  revert i. induction R as [|r R IH]; intros i H Hi; [simpl in Hi; lia|].
  assert (Hr : length r = w) by (apply H; simpl; auto). simpl concat. destruct i as [|i].
  - simpl. rewrite firstn_app, <- Hr, Nat.sub_diag, firstn_all. simpl. apply app_nil_r.
  - simpl Nat.mul. rewrite skipn_app. rewrite (skipn_all2 r) by lia. simpl app.
    replace (w + i * w - length r) with (i * w) by lia. rewrite IH; auto; [|simpl in Hi; lia]. intros; apply H; simpl; auto.
Qed.

Lemma seq_off n : forall a b, seq (a + b) n = map (fun i => a + i) (seq b n).
Proof. induction n; intros a b; simpl; auto. f_equal. rewrite <- IHn. f_equal. lia. Qed.
Lemma sparse_stack (m r : csr) R S w :
  well_formed m -> c_shape m = (length R, w) -> R = map (dense_row m) (seq 0 (length R)) ->
  well_formed r -> c_shape r = (length S, w) -> S = map (dense_row r) (seq 0 (length S)) ->
  well_formed (csr_vstack m r) /\ c_shape (csr_vstack m r) = (length (R ++ S), w) /\ R ++ S = map (dense_row (csr_vstack m r)) (seq 0 (length (R ++ S))).
Proof.
  intros Wm Sm Rm Wr Sr Rr. destruct (stack_rows m r Wm Wr) as (W & Sh & D1 & D2); [rewrite Sm, Sr; reflexivity|].
  rewrite Sm in *. rewrite Sr in *. simpl fst in *. simpl snd in *. split; [auto|]. rewrite app_length. split; [auto|].
  rewrite seq_app, map_app. f_equal.
  - rewrite Rm at 1. apply map_seq_ext. intros i Hi. now rewrite D1.
  - rewrite Rr at 1. simpl. replace (length R) with (length R + 0) at 1 by lia. rewrite seq_off, map_map. apply map_seq_ext. intros i Hi. now rewrite D2.
Qed.

Lemma csr_row_spec (m : csr) R w i : well_formed m -> c_shape m = (length R, w) -> R = map (dense_row m) (seq 0 (length R)) -> i < length R ->
  exists r, csr_row m i = Ok r /\ well_formed r /\ c_shape r = (1, w) /\ dense_row r 0 = nth i R [].
Proof.
  intros W Sh E Hi. destruct (csr_row_ok m i W) as (r & Hr & Wr & Sr & Dr); [rewrite Sh; auto|]. rewrite Sh in Sr. simpl in Sr.
  exists r. repeat split; auto; try apply Wr. rewrite Dr, E. symmetry. apply (nth_seq_map (dense_row m)). auto.
Qed.

Lemma append_ok f X Y w R S index : holds f X w R -> holds f Y w S -> index < length S ->
  exists Z, append_extra_datapoint X Y index = Ok Z /\ holds f Z w (R ++ [nth index S []]).
Proof.
  intros [LR HX] [LS HY] Hi.
  assert (Lr : length (nth index S []) = w) by (apply LS, nth_In; auto).
  assert (LA : forall r, In r (R ++ [nth index S []]) -> length r = w) by (intros r Hr; apply in_app_or in Hr as [Hr|[<-|[]]]; auto).
  destruct f, X as [a|ix rows|l|m|t|]; try contradiction; destruct Y as [a'|ix' rows'|l'|m'|t'|]; try contradiction; simpl append_extra_datapoint.
  - destruct HX as [SX EX], HY as [SY EY]. unfold array_row. rewrite SY. destruct (Nat.ltb_spec index (length S)); [|lia]. cbn [rbind].
    unfold size. simpl fold_right. rewrite Nat.mul_1_r, EY, concat_slice by auto.
    unfold vstack, atleast_2d. rewrite SX. cbn [shape entries]. rewrite SX. destruct (list_eq_dec Nat.eq_dec [w] [w]) as [_|C]; [|congruence]. cbn [rbind].
    eexists. split; [reflexivity|]. split; [auto|]. simpl. rewrite EX, app_length, concat_app. simpl. rewrite app_nil_r. auto.
  - destruct HX as [-> HX], HY as [-> HY]. unfold nth_row. rewrite (nth_error_nth' S []) by auto. cbn [rbind]. eexists. split; [reflexivity|]. split; auto.
    cbn [SpecFeatures.holds]. split; [reflexivity|]. now rewrite seq_length, app_length.
  - destruct HX as (W1 & S1 & R1), HY as (W2 & S2 & R2). destruct (csr_row_spec m' S w index W2 S2 R2 Hi) as (r & -> & Wr & Sr & Dr).
    eexists. split; [reflexivity|]. split; [auto|]. cbn [SpecFeatures.holds]. apply sparse_stack; auto.
    simpl. now rewrite Dr.
Qed.

(** ** train_val_split *)
Lemma rmap_all {A B} (f : A -> res B) (g : A -> B) l : (forall a, In a l -> f a = Ok (g a)) -> rmap f l = Ok (map g l).
Proof.
  induction l as [|a l IH]; intros H; cbn [rmap]; [reflexivity|]. rewrite (H a) by (simpl; auto). cbn [rbind].
  rewrite IH by (intros; apply H; simpl; auto). reflexivity.
Qed.
Lemma take_ok f X w R idx : holds f X w R -> (forall i, In i idx -> i < length R) ->
  exists Y, take_rows X idx = Ok Y /\ holds f Y w (map (fun i => nth i R []) idx).
Proof.
  intros [LR HX] Hi.
  assert (LA : forall r, In r (map (fun i => nth i R []) idx) -> length r = w).
  { intros r Hr. apply in_map_iff in Hr as (i & <- & Hin). apply LR, nth_In. auto. }
  destruct f, X as [a|ix rows|l|m|t|]; try contradiction; simpl take_rows.
  - destruct HX as [SX EX]. rewrite SX.
    rewrite (rmap_all _ (fun i => Arr [w] (nth i R []))).
    + cbn [rbind]. eexists. split; [reflexivity|]. split; [auto|]. simpl. rewrite !map_length, map_map. simpl. auto.
    + intros i Hin. unfold array_row. rewrite SX. destruct (Nat.ltb_spec i (length R)); [|specialize (Hi i Hin); lia].
      unfold size. simpl fold_right. rewrite Nat.mul_1_r, EX, concat_slice by auto. reflexivity.
  - destruct HX as [-> HX]. rewrite (rmap_all _ (fun i => nth i R [])).
    + cbn [rbind]. eexists. split; [reflexivity|]. split; auto. cbn [SpecFeatures.holds]. split; [reflexivity|]. now rewrite !map_length.
    + intros i Hin. unfold nth_row. rewrite (nth_error_nth' R []) by auto. reflexivity.
  - destruct HX as (W & Sh & E). rewrite Sh. simpl snd.
    assert (G : forall idx, (forall i, In i idx -> i < length R) -> forall acc T, well_formed acc -> c_shape acc = (length T, w) -> T = map (dense_row acc) (seq 0 (length T)) ->
      exists rs, rmap (csr_row m) idx = Ok rs /\
        let Y := fold_left csr_vstack rs acc in
        well_formed Y /\ c_shape Y = (length (T ++ map (fun i => nth i R []) idx), w) /\
        T ++ map (fun i => nth i R []) idx = map (dense_row Y) (seq 0 (length (T ++ map (fun i => nth i R []) idx)))).
    { clear -W Sh E. induction idx as [|i idx IH]; intros Hi acc T Wa Sa Ta; cbn [rmap].
      - exists []. simpl. rewrite app_nil_r. auto.
      - destruct (csr_row_spec m R w i W Sh E) as (r & -> & Wr & Sr & Dr); [apply Hi; simpl; auto|]. cbn [rbind].
        destruct (sparse_stack acc r T [nth i R []] w) as (W' & S' & E'); auto; [simpl; now rewrite Dr|].
        destruct (IH (fun j Hj => Hi j (or_intror Hj)) (csr_vstack acc r) (T ++ [nth i R []]) W' S' E') as (rs & -> & P).
        cbn [rbind]. exists (r :: rs). split; [reflexivity|]. simpl. rewrite <- app_assoc in P. exact P. }
    destruct (G idx Hi {| c_data := []; c_indices := []; c_indptr := [0]; c_shape := (0, w) |} []) as (rs & -> & P1 & P2 & P3).
    + repeat split; simpl; intros; lia.
    + reflexivity.
    + reflexivity.
    + cbn [rbind]. eexists. split; [reflexivity|]. split; [auto|]. simpl in *. auto.
Qed.
Lemma split_ok f X w R tr ho : holds f X w R -> (forall i, In i tr -> i < length R) -> (forall i, In i ho -> i < length R) ->
  exists A B, train_val_split X tr ho = Ok (A, B) /\ holds f A w (map (fun i => nth i R []) tr) /\ holds f B w (map (fun i => nth i R []) ho).
Proof.
  intros H Ht Hh. destruct (take_ok f X w R tr H Ht) as (A & EA & HA). destruct (take_ok f X w R ho H Hh) as (B & EB & HB).
  exists A, B. unfold train_val_split. rewrite EA, EB. cbn [rbind]. auto.
Qed.

(** ** the formats that fail *)
Lemma append_images (a b : @array V) n m h v s index : shape a = n :: h :: v :: s -> shape b = m :: h :: v :: s -> index < m ->
  append_extra_datapoint (FArray a) (FArray b) index = Raise ValueError.
Proof.
  intros Sa Sb Hi. simpl. unfold array_row. rewrite Sb. destruct (Nat.ltb_spec index m); [|lia]. cbn [rbind].
  unfold vstack, atleast_2d. rewrite Sa. cbn [shape]. rewrite Sa. destruct s as [|u s]; cbn [shape];
  (destruct (list_eq_dec Nat.eq_dec _ _) as [C|_]; [|reflexivity]); exfalso; apply (f_equal (@length nat)) in C; simpl in C; lia.
Qed.
Lemma append_vector (a b : @array V) n m index : shape a = [n] -> shape b = [m] -> index < m -> n <> 1 ->
  append_extra_datapoint (FArray a) (FArray b) index = Raise ValueError.
Proof.
  intros Sa Sb Hi Hn. simpl. unfold array_row. rewrite Sb. destruct (Nat.ltb_spec index m); [|lia]. cbn [rbind].
  unfold vstack, atleast_2d. rewrite Sa. cbn [shape]. destruct (list_eq_dec Nat.eq_dec [n] [1]) as [C|_]; [congruence|reflexivity].
Qed.

(** ** force_two_dimensions *)
Lemma flatten_rows (a : @array V) n h v s : shape a = n :: h :: v :: s -> n <> 0 -> length (entries a) = size (shape a) ->
  exists b, force_two_dimensions a = Ok b /\ shape b = [n; size (h :: v :: s)] /\
    forall i, i < n -> exists r r', array_row a i = Ok r /\ array_row b i = Ok r' /\ entries r' = entries r.
Proof.
  intros Sa Hn L. unfold force_two_dimensions. rewrite Sa. simpl length. cbn [Nat.ltb Nat.leb].
  destruct (Nat.eqb_spec n 0); [contradiction|].
  assert (E : length (entries a) / n = size (h :: v :: s)).
  { rewrite L, Sa. change (size (n :: h :: v :: s)) with (n * size (h :: v :: s)). rewrite Nat.mul_comm. now apply Nat.div_mul. }
  rewrite E. eexists. split; [reflexivity|]. split; [reflexivity|]. intros i Hi. unfold array_row. rewrite Sa. cbn [shape entries].
  destruct (Nat.ltb_spec i n); [|lia]. do 2 eexists. split; [reflexivity|]. split; [reflexivity|]. cbn [entries].
  replace (size [size (h :: v :: s)]) with (size (h :: v :: s)) by (unfold size; simpl; lia). reflexivity.
Qed.
End Features.

(** ** compress_int_array *)
Lemma wrap_id b z : (0 < b)%Z -> (- 2 ^ (b - 1) <= z < 2 ^ (b - 1))%Z -> wrap b z = z.
Proof.
  intros Hb H. unfold wrap. assert (E : (2 ^ b = 2 * 2 ^ (b - 1))%Z).
  { replace b with (Z.succ (b - 1)) at 1 by lia. rewrite Z.pow_succ_r by lia. reflexivity. }
  rewrite Z.mod_small by lia. lia.
Qed.
Lemma compress_id l K : (forall z, In z l -> (0 <= z < K)%Z) -> compress_int_array l K = l.
Proof.
  intros H. unfold compress_int_array. 
  destruct (Z.ltb_spec K (2 ^ 15 - 1)).
  - transitivity (map (fun z => z) l); [|apply map_id]. apply map_ext_in. intros z Hz. apply wrap_id; [lia|]. specialize (H z Hz).
    change (2 ^ (16 - 1))%Z with 32768%Z. change (2 ^ 15 - 1)%Z with 32767%Z in *. lia.
  - destruct (Z.ltb_spec K (2 ^ 31 - 1)); [|reflexivity].
    transitivity (map (fun z => z) l); [|apply map_id]. apply map_ext_in. intros z Hz. apply wrap_id; [lia|]. specialize (H z Hz).
    change (2 ^ (32 - 1))%Z with 2147483648%Z. change (2 ^ 31 - 1)%Z with 2147483647%Z in *. lia.
Qed.
