(** * Proofs for C180 *)
From Coq Require Import QArith Qabs List ZArith Bool Arith Lia Lqa Morphisms.
From Verif Require Import Base BaseFacts ModelUtil ModelCount ModelLatent SpecFactor.
Import ListNotations.
Open Scope Q_scope.

(** ** entry-wise equality *)
Lemma f_len {A B} (R : A -> B -> Prop) l l' : Forall2 R l l' -> length l = length l'.
Proof. induction 1; cbn [length]; auto. Qed.
Lemma f_map {A B C D} (R : A -> B -> Prop) (S : C -> D -> Prop) f g l l' :
  (forall a b, R a b -> S (f a) (g b)) -> Forall2 R l l' -> Forall2 S (map f l) (map g l').
Proof. induction 2; cbn [map]; constructor; auto. Qed.
Lemma f_tab {A B} (S : A -> B -> Prop) n f g : (forall i, (i < n)%nat -> S (f i) (g i)) -> Forall2 S (tab n f) (tab n g).
Proof.
  intros H. unfold tab. assert (G : forall k m, (forall i, (k <= i < k + m)%nat -> S (f i) (g i)) -> Forall2 S (map f (seq k m)) (map g (seq k m))).
  { intros k m. revert k. induction m as [|m IH]; intros k G; cbn [seq map]; constructor; [apply G; lia|]. apply IH. intros i Hi. apply G. lia. }
  apply G. intros i Hi. apply H. lia.
Qed.
Lemma nth_veq a b : veq a b -> forall i, nth i a 0 == nth i b 0.
Proof. induction 1 as [|x y l l' E _ IH]; intros [|i]; cbn [nth]; auto; reflexivity. Qed.
Lemma row_meq a b : meq a b -> forall i, veq (nth i a []) (nth i b []).
Proof. induction 1 as [|x y l l' E _ IH]; intros [|i]; cbn [nth]; auto; constructor. Qed.
Lemma mget_meq a b i j : meq a b -> mget a i j == mget b i j.
Proof. intros H. unfold mget. apply nth_veq, row_meq, H. Qed.
Lemma qsum_veq a b : veq a b -> qsum a == qsum b.
Proof. apply qsum_Forall2. Qed.
Lemma col_veq j a b : meq a b -> veq (col j a) (col j b).
Proof. intros H. unfold col. eapply f_map; [|exact H]. intros x y E. apply nth_veq, E. Qed.
Lemma clip_eq lo hi x y : x == y -> clip lo hi x == clip lo hi y.
Proof. intros E. unfold clip. rewrite E. reflexivity. Qed.
Lemma div_eq x y a b : x == y -> a == b -> x / clip_lo TINY_VALUE a == y / clip_lo TINY_VALUE b.
Proof. intros E F. rewrite E, F. reflexivity. Qed.
Lemma dot_veq a b c d : veq a b -> veq c d -> dot a c == dot b d.
Proof.
  intros H. revert c d. unfold dot. induction H as [|x y l l' E _ IH]; intros c d G; [reflexivity|].
  inversion G as [|u v m m' F G']; subst; [reflexivity|]. cbn [combine map fst snd].
  change (x * u + qsum (map (fun xy => fst xy * snd xy) (combine l m)) ==
          y * v + qsum (map (fun xy => fst xy * snd xy) (combine l' m'))).
  rewrite (IH m m' G'), E, F. reflexivity.
Qed.
Lemma veq_refl a : veq a a.
Proof. induction a; constructor; auto; reflexivity. Qed.

Lemma clip_values_veq low a b : veq a b -> veq (clip_values a low 1 1) (clip_values b low 1 1).
Proof.
  intros H. unfold clip_values.
  assert (G : veq (map (clip low 1) a) (map (clip low 1) b)) by (eapply f_map; [|exact H]; intros; apply clip_eq; auto).
  eapply f_map; [|exact G]. intros x y E. cbv beta. apply div_eq; [rewrite E; reflexivity|apply qsum_veq, G].
Qed.
Lemma clip_noise_meq a b : meq a b -> meq (clip_noise_rates a) (clip_noise_rates b).
Proof.
  intros H. unfold clip_noise_rates. rewrite (f_len _ _ _ H).
  cbv zeta.
  set (x := tab (length b) (fun i => tab (length b) (fun j => if Nat.eqb i j then mget a i j else clip 0 (9999 # 10000) (mget a i j)))).
  set (y := tab (length b) (fun i => tab (length b) (fun j => if Nat.eqb i j then mget b i j else clip 0 (9999 # 10000) (mget b i j)))).
  assert (G : meq x y).
  { unfold x, y. apply f_tab. intros i Hi. apply f_tab. intros j Hj.
    destruct (Nat.eqb i j); [apply mget_meq, H|apply clip_eq, mget_meq, H]. }
  apply f_tab. intros i Hi. apply f_tab. intros j Hj. apply div_eq; [apply mget_meq, G|apply qsum_veq, col_veq, G].
Qed.
Lemma inv_meq ps py py' N N' : veq py py' -> meq N N' ->
  meq (compute_inv_noise_matrix py N (Some ps)) (compute_inv_noise_matrix py' N' (Some ps)).
Proof.
  intros P H. unfold compute_inv_noise_matrix. apply clip_noise_meq. rewrite (f_len _ _ _ H).
  assert (G : meq (joint_of N py) (joint_of N' py')).
  { unfold joint_of. rewrite (f_len _ _ _ H). apply f_tab. intros i Hi. apply f_tab. intros j Hj.
    rewrite (mget_meq _ _ i j H), (nth_veq _ _ P j). reflexivity. }
  apply f_tab. intros i Hi. apply f_tab. intros j Hj. apply div_eq; [apply mget_meq, G|reflexivity].
Qed.
Lemma noise_meq ps py py' I I' : veq py py' -> meq I I' ->
  meq (compute_noise_matrix_from_inverse ps I (Some py)) (compute_noise_matrix_from_inverse ps I' (Some py')).
Proof.
  intros P H. unfold compute_noise_matrix_from_inverse. apply clip_noise_meq. rewrite (f_len _ _ _ H). cbv zeta.
  set (x := tab (length I') (fun s => tab (length I') (fun y => mget I y s * nth s ps 0))).
  set (x' := tab (length I') (fun s => tab (length I') (fun y => mget I' y s * nth s ps 0))).
  assert (G : meq x x').
  { unfold x, x'. apply f_tab. intros i Hi. apply f_tab. intros j Hj. rewrite (mget_meq _ _ j i H). reflexivity. }
  apply f_tab. intros i Hi. apply f_tab. intros j Hj. apply div_eq; [apply mget_meq, G|apply nth_veq, P].
Qed.
Lemma py_cnt_veq ps N N' I I' : meq N N' -> meq I I' -> veq (compute_py ps N I Cnt) (compute_py ps N' I' Cnt).
Proof.
  intros H G. unfold compute_py. apply clip_values_veq. rewrite (f_len _ _ _ H). apply f_tab. intros k Hk.
  rewrite (div_eq (mget I k k) (mget I' k k) (mget N k k) (mget N' k k)); [reflexivity|apply mget_meq, G|apply mget_meq, H].
Qed.
Lemma py_mps_veq ps N N' I I' : meq I I' -> veq (compute_py ps N I MarginalPs) (compute_py ps N' I' MarginalPs).
Proof.
  intros G. unfold compute_py. apply clip_values_veq. eapply f_map; [|exact G]. intros a b E. apply dot_veq; [exact E|apply veq_refl].
Qed.
Lemma inner_eq i ps : forall py py' N N' I I', veq py py' -> meq N N' -> meq I I' ->
  veq (fst (converge_inner i ps py N I)) (fst (converge_inner i ps py' N' I')) /\
  meq (snd (converge_inner i ps py N I)) (snd (converge_inner i ps py' N' I')).
Proof.
  induction i as [|i IH]; intros py py' N N' I I' P H G; cbn [converge_inner]; [split; auto|].
  pose proof (inv_meq ps _ _ _ _ P H) as J. apply IH; auto. apply py_cnt_veq; auto.
Qed.
Lemma outer_eq j i ps : forall py py' N N' I I', veq py py' -> meq N N' -> meq I I' ->
  let r := converge_estimates j i ps py N I in let r' := converge_estimates j i ps py' N' I' in
  veq (latent_py r) (latent_py r') /\ meq (latent_noise r) (latent_noise r') /\ meq (latent_inverse r) (latent_inverse r').
Proof.
  induction j as [|j IH]; intros py py' N N' I I' P H G; cbn [converge_estimates]; [cbv zeta; split; [|split]; auto|].
  destruct (inner_eq i ps _ _ _ _ _ _ P H G) as (P2 & G2). apply IH; auto. apply noise_meq; auto.
Qed.

(** ** proportions *)
Lemma ratio_eq c x x' S S' : 0 < c -> 0 <= x -> x <= S -> x' == c * x -> S' == c * S -> visible S -> visible S' ->
  x / clip_lo TINY_VALUE S == x' / clip_lo TINY_VALUE S'.
Proof.
  intros Hc H0 H1 Ex ES V V'.
  assert (T : 0 < TINY_VALUE) by reflexivity.
  destruct V as [Z|P].
  - assert (x == 0) as X by lra. rewrite Ex, X. unfold Qdiv. ring.
  - assert (P' : TINY_VALUE <= S').
    { destruct V' as [Z'|]; [|auto]. exfalso. rewrite ES in Z'. assert (0 < c * S) by (apply Qmult_lt_0_compat; [auto|]; change (1 # (10 ^ 100)) with TINY_VALUE in P; lra). lra. }
    change (1 # (10 ^ 100)) with TINY_VALUE in P.
    rewrite (clip_lo_id _ _ P), (clip_lo_id _ _ P'), Ex, ES. field. split; lra.
Qed.

Section Two.
Variables (K : nat) (cj cj' : list (list Q)).
Hypothesis C : count_matrix K cj.
Hypothesis C' : count_matrix K cj'.

Lemma row_nth m (s : nat) : count_matrix K m -> (s < K)%nat -> In (nth s m []) m /\ length (nth s m []) = K.
Proof. intros (L & R & _) Hs. assert (In (nth s m []) m) by (apply nth_In; lia). auto. Qed.
Lemma qsum_F2 c a b : Forall2 (fun x y => y == c * x) a b -> qsum b == c * qsum a.
Proof.
  induction 1 as [|x y l l' E _ IH]; [cbn; ring|].
  change (qsum (y :: l')) with (y + qsum l'). change (qsum (x :: l)) with (x + qsum l). rewrite E, IH. ring.
Qed.
Lemma row_sum f s : (s < K)%nat -> times f cj cj' -> (forall j, f s j == f s 0%nat) ->
  qsum (nth s cj' []) == f s 0%nat * qsum (nth s cj []).
Proof.
  intros Hs T F. apply qsum_F2. destruct (row_nth cj s C Hs) as (_ & L). destruct (row_nth cj' s C' Hs) as (_ & L').
  apply (Forall2_nth_intro _ _ _ 0 0); [lia|]. intros j Hj. specialize (T s j). unfold mget in T. rewrite T, F. reflexivity.
Qed.
Lemma col_len j m : length (col j m) = length m.
Proof. unfold col. apply map_length. Qed.
Lemma col_get j m i : (i < length m)%nat -> nth i (col j m) 0 = mget m i j.
Proof.
  unfold col, mget. clear C C'. revert i. induction m as [|r m IH]; intros [|i] H; cbn [length map nth] in *; try lia; [reflexivity|].
  apply IH. lia.
Qed.
Lemma col_sum f y : times f cj cj' -> (forall i, f i y == f 0%nat y) ->
  qsum (col y cj') == f 0%nat y * qsum (col y cj).
Proof.
  intros T F. apply qsum_F2. destruct C as (L & _), C' as (L' & _).
  apply (Forall2_nth_intro _ _ _ 0 0); [rewrite !col_len; lia|]. intros i Hi. rewrite col_len in Hi.
  rewrite !col_get by lia. rewrite (T i y), F. reflexivity.
Qed.
Lemma le_row m s y : count_matrix K m -> (s < K)%nat -> (y < K)%nat -> mget m s y <= qsum (nth s m []).
Proof.
  intros H Hs Hy. destruct (row_nth m s H Hs) as (I & L). destruct H as (_ & _ & Nn & _). apply qsum_ge_elem.
  - intros x Hx. apply In_nth with (d := 0) in Hx as (k & Hk & <-). apply (Nn s k).
  - unfold mget. apply nth_In. lia.
Qed.
Lemma le_col m s y : count_matrix K m -> (s < K)%nat -> mget m s y <= qsum (col y m).
Proof.
  intros (L & _ & Nn & _) Hs. apply qsum_ge_elem.
  - intros x Hx. apply In_nth with (d := 0) in Hx as (k & Hk & <-). rewrite col_len in Hk. rewrite col_get by auto. apply Nn.
  - rewrite <- (col_get y m s) by lia. apply nth_In. rewrite col_len. lia.
Qed.

Definition noise_of (m : list (list Q)) := tab K (fun s => tab K (fun y =>
  mget m s y / clip_lo TINY_VALUE (nth y (tab K (fun y => qsum (col y m))) 0))).
Definition inverse_of (m : list (list Q)) := tab K (fun y => tab K (fun s =>
  mget m s y / clip_lo TINY_VALUE (nth s (map qsum m) 0))).
Lemma map_sum m s : count_matrix K m -> (s < K)%nat -> nth s (map qsum m) 0 = qsum (nth s m []).
Proof.
  intros (L & _). rewrite <- L. clear C C' L. revert s. induction m as [|r m IH]; intros [|s] H; cbn [length map nth] in *; try lia; [reflexivity|].
  apply IH. lia.
Qed.

Lemma noise_of_eq f : times f cj cj' -> (forall i j, 0 < f i j) -> (forall i j, f i j == f 0%nat j) -> meq (noise_of cj) (noise_of cj').
Proof.
  intros T P F. apply f_tab. intros s Hs. apply f_tab. intros y Hy. rewrite !nth_tab by auto.
  apply (ratio_eq (f 0%nat y)); auto.
  - apply C.
  - apply le_col; auto.
  - rewrite (T s y), F. reflexivity.
  - apply col_sum; auto.
  - apply C; auto.
  - apply C'; auto.
Qed.
Lemma inverse_of_eq f : times f cj cj' -> (forall i j, 0 < f i j) -> (forall i j, f i j == f i 0%nat) -> meq (inverse_of cj) (inverse_of cj').
Proof.
  intros T P F. apply f_tab. intros y Hy. apply f_tab. intros s Hs. rewrite !map_sum by auto.
  apply (ratio_eq (f s 0%nat)); auto.
  - apply C.
  - apply le_row; auto.
  - rewrite (T s y), F. reflexivity.
  - apply row_sum; auto.
  - apply C. apply row_nth; auto.
  - apply C'. apply row_nth; auto.
Qed.
End Two.

Lemma sum_visible K g : (forall k, (k < K)%nat -> 0 <= g k) -> (forall k, (k < K)%nat -> visible (g k)) -> visible (qsum (tab K g)).
Proof.
  intros N V. destruct (Qlt_le_dec (qsum (tab K g)) TINY_VALUE) as [L|L]; [|right; exact L]. left.
  apply qsum_zero. intros x Hx. pose proof Hx as Hx2. unfold tab in Hx. apply in_map_iff in Hx as (k & <- & Hk). apply in_seq in Hk.
  destruct (V k) as [Z|Z]; [lia|exact Z|]. exfalso. change (1 # (10 ^ 100)) with TINY_VALUE in Z.
  assert (g k <= qsum (tab K g)); [|lra]. apply qsum_ge_elem; auto.
  intros y Hy. unfold tab in Hy. apply in_map_iff in Hy as (k' & <- & Hk'). apply in_seq in Hk'. apply N. lia.
Qed.

Lemma marginal_eq K c cj cj' : count_matrix K cj -> count_matrix K cj' -> 0 < c -> times (fun _ _ => c) cj cj' -> forall ps N N' I I',
  veq (compute_py ps N I (Marginal (tab K (fun y => qsum (col y cj))))) (compute_py ps N' I' (Marginal (tab K (fun y => qsum (col y cj'))))).
Proof.
  intros C C' Hc T ps N N' I I'. unfold compute_py. apply clip_values_veq.
  set (S := qsum (tab K (fun y => qsum (col y cj)))). set (S' := qsum (tab K (fun y => qsum (col y cj')))).
  assert (Hn : forall m, count_matrix K m -> forall y, 0 <= qsum (col y m)).
  { intros m (_ & _ & Nn & _) y. apply qsum_nonneg. intros x Hx. apply In_nth with (d := 0) in Hx as (k & Hk & <-).
    rewrite col_len in Hk. rewrite col_get by auto. apply Nn. }
  assert (E : forall y, qsum (col y cj') == c * qsum (col y cj)).
  { intros y. apply (col_sum K cj cj' C C' (fun _ _ => c)); auto. intros; reflexivity. }
  assert (ES : S' == c * S).
  { unfold S, S'. apply qsum_F2. apply f_tab. intros y Hy. apply E. }
  assert (V : visible S) by (apply sum_visible; [intros; apply Hn; auto|intros; apply C; auto]).
  assert (V' : visible S') by (apply sum_visible; [intros; apply Hn; auto|intros; apply C'; auto]).
  unfold tab. rewrite !map_map. apply f_tab. intros y Hy. apply (ratio_eq c); auto.
  unfold S. apply qsum_ge_elem.
  - intros x Hx. unfold tab in Hx. apply in_map_iff in Hx as (k & <- & _). auto.
  - unfold tab. apply in_map_iff. exists y. split; auto. apply in_seq. lia.
Qed.

Theorem scale_latent K c cj cj' labels m converge : count_matrix K cj -> count_matrix K cj' -> 0 < c ->
  times (fun _ _ => c) cj cj' -> same_latent (estimate_latent cj labels m converge) (estimate_latent cj' labels m converge).
Proof.
  intros D D' Hc T. unfold estimate_latent. pose proof (proj1 D) as L. pose proof (proj1 D') as L'. rewrite L, L'.
  destruct (value_counts labels K) as [lc|e]; cbn [rbind]; [|reflexivity]. cbv zeta.
  fold (noise_of K cj). fold (noise_of K cj'). fold (inverse_of K cj). fold (inverse_of K cj').
  assert (HN : meq (noise_of K cj) (noise_of K cj')) by (apply (noise_of_eq K cj cj' D D' (fun _ _ => c)); auto; intros; reflexivity).
  assert (HI : meq (inverse_of K cj) (inverse_of K cj')) by (apply (inverse_of_eq K cj cj' D D' (fun _ _ => c)); auto; intros; reflexivity).
  set (ps := map _ lc).
  set (py := compute_py ps (noise_of K cj) _ _). set (py' := compute_py ps (noise_of K cj') _ _).
  assert (HP : veq py py').
  { unfold py, py'. destruct m; [apply py_cnt_veq; auto|apply (marginal_eq K c); auto|apply py_mps_veq; auto]. }
  clearbody py py'.
  pose proof (clip_noise_meq _ _ HN) as HN2. pose proof (clip_noise_meq _ _ HI) as HI2.
  destruct converge; [|split; [|split]; auto].
  pose proof (outer_eq 3 5 ps _ _ _ _ _ _ HP HN2 HI2) as O. cbv zeta in O.
  destruct (converge_estimates 3 5 ps py _ _) as ((p & n) & i). destruct (converge_estimates 3 5 ps py' _ _) as ((p' & n') & i').
  destruct O as (O1 & O2 & O3). cbn [latent_py latent_noise latent_inverse fst snd] in *.
  split; [apply clip_values_veq; auto|split; apply clip_noise_meq; auto].
Qed.

Theorem rows_latent K f cj cj' labels m r r' : count_matrix K cj -> count_matrix K cj' ->
  (forall i, 0 < f i) -> times (fun i _ => f i) cj cj' ->
  estimate_latent cj labels m false = Ok r -> estimate_latent cj' labels m false = Ok r' ->
  meq (latent_inverse r) (latent_inverse r') /\ (m = LMarginalPs -> veq (latent_py r) (latent_py r')).
Proof.
  intros D D' P T. unfold estimate_latent. pose proof (proj1 D) as L. pose proof (proj1 D') as L'. rewrite L, L'.
  destruct (value_counts labels K) as [lc|e]; cbn [rbind]; [|discriminate]. cbv zeta.
  fold (noise_of K cj). fold (noise_of K cj'). fold (inverse_of K cj). fold (inverse_of K cj').
  assert (HI : meq (inverse_of K cj) (inverse_of K cj')) by (apply (inverse_of_eq K cj cj' D D' (fun i _ => f i)); auto; intros; reflexivity).
  intros [= <-] [= <-]. cbn [latent_py latent_inverse fst snd]. split; [apply clip_noise_meq, HI|].
  intros ->. apply py_mps_veq, HI.
Qed.
Theorem columns_latent K f cj cj' labels m r r' : count_matrix K cj -> count_matrix K cj' ->
  (forall j, 0 < f j) -> times (fun _ j => f j) cj cj' ->
  estimate_latent cj labels m false = Ok r -> estimate_latent cj' labels m false = Ok r' ->
  meq (latent_noise r) (latent_noise r').
Proof.
  intros D D' P T. unfold estimate_latent. pose proof (proj1 D) as L. pose proof (proj1 D') as L'. rewrite L, L'.
  destruct (value_counts labels K) as [lc|e]; cbn [rbind]; [|discriminate]. cbv zeta.
  fold (noise_of K cj). fold (noise_of K cj'). fold (inverse_of K cj). fold (inverse_of K cj').
  assert (HN : meq (noise_of K cj) (noise_of K cj')) by (apply (noise_of_eq K cj cj' D D' (fun _ j => f j)); auto; intros; reflexivity).
  intros [= <-] [= <-]. cbn [latent_noise fst snd]. apply clip_noise_meq, HN.
Qed.
