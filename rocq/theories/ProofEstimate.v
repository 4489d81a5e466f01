(** * Proofs about the chained noise estimators *)
From Coq Require Import QArith Qabs List ZArith Bool Arith Lia Lqa Permutation.
From Verif Require Import Base BaseFacts ModelUtil ModelCount ModelLatent ModelCV ModelEstimate SpecCount SpecLatent
  SpecCV SpecEstimate ProofUtil ProofCount ProofFilter ProofLatent ProofCV.
Import ListNotations.
Open Scope Q_scope.

(** ** clipping does nothing to proper probabilities *)
Lemma clip_exact K (f g : nat -> nat -> Q) :
  (forall i j, (i < K)%nat -> (j < K)%nat -> f i j == g i j) ->
  (forall i j, (i < K)%nat -> (j < K)%nat -> 0 <= g i j) ->
  (forall j, (j < K)%nat -> qsum (tab K (fun i => g i j)) == 1) ->
  (forall i j, (i < K)%nat -> (j < K)%nat -> i <> j -> g i j <= 9999 # 10000) ->
  length (clip_noise_rates (tab K (fun i => tab K (fun j => f i j)))) = K /\
  forall i j, (i < K)%nat -> (j < K)%nat -> mget (clip_noise_rates (tab K (fun i => tab K (fun j => f i j)))) i j == g i j.
Proof.
  intros E H0 H1 H9. split; [rewrite clip_length; apply tab_length|].
  intros i j Hi Hj. rewrite (clip_id K).
  - rewrite (mget_tab K f) by auto. auto.
  - apply nonneg_square_tab. intros a b Ha Hb. rewrite E by auto. auto.
  - auto.
  - auto.
  - rewrite (qsum_tab_ext K _ (fun i => g i j)); auto. intros a Ha. rewrite (mget_tab K f) by auto. auto.
  - intros a Ha Hne. rewrite (mget_tab K f) by auto. rewrite E by auto. auto.
Qed.
Lemma clip_values_exact K low x p : length x = K -> (forall k, (k < K)%nat -> nth k x 0 == p k) ->
  (forall k, (k < K)%nat -> low <= p k /\ p k <= 1) -> qsum (tab K p) == 1 ->
  length (clip_values x low 1 1) = K /\ forall k, (k < K)%nat -> nth k (clip_values x low 1 1) 0 == p k.
Proof.
  intros Hx E Hb H1.
  assert (F : Forall2 Qeq (clip_values x low 1 1) x).
  { apply clip_values_id.
    - intros v Hv. apply In_nth with (d := 0) in Hv as (k & Hk & <-). rewrite E by lia. apply Hb. lia.
    - rewrite <- (tab_nth x 0), Hx. rewrite (qsum_tab_ext K _ p); auto. }
  split; [unfold clip_values; rewrite !map_length; auto|].
  assert (L : length (clip_values x low 1 1) = K) by (unfold clip_values; rewrite !map_length; auto).
  intros k Hk. rewrite <- E by auto. apply (Forall2_nth Qeq _ _ 0 0 F). lia.
Qed.

Section Exact.
Context (K : nat) (c : nat -> nat -> Q) (n : Q) (ps : list Q).
Let r s := qsum (tab K (fun y => c s y)).
Let t y := qsum (tab K (fun s => c s y)).
Context (Hc : forall s y, (s < K)%nat -> (y < K)%nat -> 0 <= c s y)
        (Hd : forall k, (k < K)%nat -> t k <= 100000 * c k k)
        (Hn : qsum (tab K r) == n) (Hn1 : 0 < n)
        (H5 : forall y, (y < K)%nat -> n <= 100000 * t y)
        (Hr5 : forall s, (s < K)%nat -> n <= 100000 * r s)
        (Hr9 : forall s y, (s < K)%nat -> (y < K)%nat -> s <> y -> c s y <= (9999 # 10000) * r s)
        (Ht9 : forall s y, (s < K)%nat -> (y < K)%nat -> s <> y -> c s y <= (9999 # 10000) * t y)
        (Lps : length ps = K) (Hps : forall s, (s < K)%nat -> nth s ps 0 == r s / n).

Lemma r_pos s : (s < K)%nat -> 0 < r s.
Proof. intro H. pose proof (Hr5 s H). lra. Qed.
Lemma t_pos y : (y < K)%nat -> 0 < t y.
Proof. intro H. pose proof (H5 y H). lra. Qed.
Lemma t_sum : qsum (tab K t) == n.
Proof. rewrite <- Hn. unfold t, r. apply qsum_tab_swap. Qed.
Lemma t_le y : (y < K)%nat -> t y <= n.
Proof.
  intro H. rewrite <- t_sum. apply (qsum_tab_ge K t y); auto. intros i Hi. pose proof (t_pos i Hi). lra.
Qed.
Lemma r_le y : (y < K)%nat -> r y <= n.
Proof.
  intro H. rewrite <- Hn. apply (qsum_tab_ge K r y); auto. intros i Hi. pose proof (r_pos i Hi). lra.
Qed.

Definition isN (M : list (list Q)) := length M = K /\
  forall s y, (s < K)%nat -> (y < K)%nat -> mget M s y == c s y / t y.
Definition isI (M : list (list Q)) := length M = K /\
  forall y s, (y < K)%nat -> (s < K)%nat -> mget M y s == c s y / r s.
Definition isP (p : list Q) := length p = K /\ forall y, (y < K)%nat -> nth y p 0 == t y / n.

Lemma tiny1 : TINY_VALUE <= 1 # 100000. Proof. vm_compute. discriminate. Qed.
Lemma small_share x : (1 # 100000) * n <= x -> TINY_VALUE <= x / n.
Proof. intro H. apply Qle_trans with (1 # 100000); [apply tiny1|]. apply Qdiv_ge; lra. Qed.

Lemma noise_props : (forall s y, (s < K)%nat -> (y < K)%nat -> 0 <= c s y / t y) /\
  (forall y, (y < K)%nat -> qsum (tab K (fun s => c s y / t y)) == 1) /\
  (forall s y, (s < K)%nat -> (y < K)%nat -> s <> y -> c s y / t y <= 9999 # 10000).
Proof.
  split; [|split].
  - intros s y Hs Hy. pose proof (t_pos y Hy). apply Qdiv_nonneg; auto; lra.
  - intros y Hy. unfold tab. rewrite (qsum_map_div (fun s => c s y)). fold (tab K (fun s => c s y)).
    pose proof (t_pos y Hy). fold (t y). field. lra.
  - intros s y Hs Hy Hne. pose proof (t_pos y Hy). apply Qdiv_le; [lra|]. apply Ht9; auto.
Qed.
Lemma inverse_props : (forall y s, (y < K)%nat -> (s < K)%nat -> 0 <= c s y / r s) /\
  (forall s, (s < K)%nat -> qsum (tab K (fun y => c s y / r s)) == 1) /\
  (forall y s, (y < K)%nat -> (s < K)%nat -> y <> s -> c s y / r s <= 9999 # 10000).
Proof.
  split; [|split].
  - intros y s Hy Hs. pose proof (r_pos s Hs). apply Qdiv_nonneg; auto; lra.
  - intros s Hs. unfold tab. rewrite (qsum_map_div (fun y => c s y)). fold (tab K (fun y => c s y)).
    pose proof (r_pos s Hs). fold (r s). field. lra.
  - intros y s Hy Hs Hne. pose proof (r_pos s Hs). apply Qdiv_le; [lra|]. apply Hr9; auto.
Qed.
Lemma prior_props low : low <= 1 # 100000 -> (forall y, (y < K)%nat -> low <= t y / n /\ t y / n <= 1) /\
  qsum (tab K (fun y => t y / n)) == 1.
Proof.
  intro Hlow. split.
  - intros y Hy. pose proof (H5 y Hy). pose proof (t_le y Hy). split.
    + apply Qle_trans with (1 # 100000); auto. apply Qdiv_ge; lra.
    + apply Qdiv_le; lra.
  - unfold tab. rewrite (qsum_map_div t). fold (tab K t). rewrite t_sum. field. lra.
Qed.

Lemma inv_stepE py N : isN N -> isP py -> isI (compute_inv_noise_matrix py N (Some ps)).
Proof.
  intros (LN & EN) (LP & EP). unfold compute_inv_noise_matrix, isI. rewrite LN. cbv zeta.
  destruct inverse_props as (I0 & I1 & I9).
  apply (clip_exact K (fun y s => mget (joint_of N py) s y / clip_lo TINY_VALUE (nth s ps 0)) (fun y s => c s y / r s)); auto.
  intros y s Hy Hs. unfold joint_of. rewrite LN, (mget_tab K (fun s y => mget N s y * nth y py 0)) by auto.
  rewrite EN, EP, Hps by auto. pose proof (r_pos s Hs). pose proof (t_pos y Hy).
  rewrite clip_lo_id.
  - field. repeat split; lra.
  - apply small_share. pose proof (Hr5 s Hs). lra.
Qed.
Lemma noise_stepE py I : isI I -> isP py -> isN (compute_noise_matrix_from_inverse ps I (Some py)).
Proof.
  intros (LI & EI) (LP & EP). unfold compute_noise_matrix_from_inverse, isN. rewrite LI. cbv zeta.
  destruct noise_props as (N0 & N1 & N9).
  apply (clip_exact K (fun s y => mget (tab K (fun s => tab K (fun y => mget I y s * nth s ps 0))) s y /
                                  clip_lo TINY_VALUE (nth y py 0)) (fun s y => c s y / t y)); auto.
  intros s y Hs Hy. rewrite (mget_tab K (fun s y => mget I y s * nth s ps 0)) by auto.
  rewrite EI, EP, Hps by auto. pose proof (r_pos s Hs). pose proof (t_pos y Hy).
  rewrite clip_lo_id.
  - field. repeat split; lra.
  - apply small_share. pose proof (H5 y Hy). lra.
Qed.
Lemma tiny_ratio k : (k < K)%nat -> TINY_VALUE <= c k k / t k.
Proof.
  intro Hk. pose proof (Hd k Hk). pose proof (t_pos k Hk). apply Qle_trans with (1 # 100000); [apply tiny1|].
  apply Qdiv_ge; lra.
Qed.
Lemma py_stepE N I : isN N -> isI I -> isP (compute_py ps N I Cnt).
Proof.
  intros (LN & EN) (LI & EI). unfold compute_py, isP. rewrite LN.
  destruct (prior_props CLIPPING_LOWER_BOUND) as (P0 & P1); [vm_compute; discriminate|].
  apply (clip_values_exact K CLIPPING_LOWER_BOUND _ (fun y => t y / n)); auto; [apply tab_length|].
  intros k Hk. rewrite nth_tab by auto. rewrite EI, EN, Hps by auto.
  pose proof (r_pos k Hk). pose proof (t_pos k Hk). pose proof (Hd k Hk).
  rewrite clip_lo_id by (apply tiny_ratio; auto). field. repeat split; lra.
Qed.

Lemma inner_exact i : forall py N I, isP py -> isN N -> isI I ->
  isP (fst (converge_inner i ps py N I)) /\ isI (snd (converge_inner i ps py N I)).
Proof.
  induction i as [|i IH]; intros py N I HP HN HI; cbn [converge_inner fst snd]; [auto|]. cbv zeta.
  pose proof (inv_stepE py N HN HP) as HI'. apply IH; auto. apply py_stepE; auto.
Qed.
Lemma outer_exact j i : forall py N I, isP py -> isN N -> isI I ->
  let x := converge_estimates j i ps py N I in isP (fst (fst x)) /\ isN (snd (fst x)) /\ isI (snd x).
Proof.
  induction j as [|j IH]; intros py N I HP HN HI; cbn [converge_estimates]; cbv zeta; [auto|].
  destruct (inner_exact i py N I HP HN HI) as (A & B). apply IH; auto. apply noise_stepE; auto.
Qed.

Lemma clip_P p : isP p -> isP (clip_values p (1 # 100000) 1 1).
Proof.
  intros (L & E). destruct (prior_props (1 # 100000)) as (P0 & P1); [apply Qle_refl|].
  apply (clip_values_exact K (1 # 100000) p (fun y => t y / n)); auto.
Qed.
Lemma clip_any (g : nat -> nat -> Q) M : length M = K -> (forall i j, (i < K)%nat -> (j < K)%nat -> mget M i j == g i j) ->
  (forall i j, (i < K)%nat -> (j < K)%nat -> 0 <= g i j) ->
  (forall j, (j < K)%nat -> qsum (tab K (fun i => g i j)) == 1) ->
  (forall i j, (i < K)%nat -> (j < K)%nat -> i <> j -> g i j <= 9999 # 10000) ->
  length (clip_noise_rates M) = K /\ forall i j, (i < K)%nat -> (j < K)%nat -> mget (clip_noise_rates M) i j == g i j.
Proof.
  intros L E G0 G1 G9. split; [rewrite clip_length; auto|]. intros i j Hi Hj. rewrite (clip_get K) by auto.
  assert (C : forall a, (a < K)%nat -> cnr M a j == g a j).
  { intros a Ha. rewrite cnr_id; [apply E; auto| |]; rewrite E by auto; auto. }
  rewrite (qsum_tab_ext K _ (fun a => g a j) C), G1, C by auto.
  rewrite clip_lo_id by (vm_compute; discriminate). field.
Qed.
Lemma clip_N M : isN M -> isN (clip_noise_rates M).
Proof. intros (L & E). destruct noise_props as (N0 & N1 & N9). apply (clip_any (fun s y => c s y / t y)); auto. Qed.
Lemma clip_I M : isI M -> isI (clip_noise_rates M).
Proof. intros (L & E). destruct inverse_props as (N0 & N1 & N9). apply (clip_any (fun y s => c s y / r s)); auto. Qed.

(** the initial estimates *)
Lemma cnt_exact N I : isN N -> isI I -> isP (compute_py ps N I Cnt).
Proof. apply py_stepE. Qed.
Lemma marginal_exact N I cnts : length cnts = K -> (forall y, (y < K)%nat -> nth y cnts 0 == t y) -> TINY_VALUE <= n ->
  isP (compute_py ps N I (Marginal cnts)).
Proof.
  intros L E Ht. unfold compute_py, isP.
  destruct (prior_props CLIPPING_LOWER_BOUND) as (P0 & P1); [vm_compute; discriminate|].
  apply (clip_values_exact K CLIPPING_LOWER_BOUND _ (fun y => t y / n)); auto; [rewrite map_length; auto|].
  intros k Hk. rewrite (nth_map_gen _ _ _ _ 0) by lia. rewrite E by auto.
  assert (S : qsum cnts == n).
  { rewrite <- (tab_nth cnts 0), L. rewrite (qsum_tab_ext K _ t) by auto. apply t_sum. }
  rewrite S, clip_lo_id by auto. reflexivity.
Qed.
Lemma marginal_ps_exact N I : isI I -> (forall x, In x I -> length x = K) -> isP (compute_py ps N I MarginalPs).
Proof.
  intros (L & E) HR. unfold compute_py, isP.
  destruct (prior_props CLIPPING_LOWER_BOUND) as (P0 & P1); [vm_compute; discriminate|].
  apply (clip_values_exact K CLIPPING_LOWER_BOUND _ (fun y => t y / n)); auto; [rewrite map_length; auto|].
  intros k Hk. rewrite (nth_map_gen _ _ _ _ []) by lia. rewrite (dot_tab K) by (auto; apply HR, nth_In; lia).
  rewrite (qsum_tab_ext K _ (fun s => c s k / n)).
  - unfold tab. rewrite (qsum_map_div (fun s => c s k)). fold (tab K (fun s => c s k)). reflexivity.
  - intros s Hs. fold (mget I k s). rewrite E, Hps by auto. field. pose proof (r_pos s Hs). split; lra.
Qed.
End Exact.

(** ** estimate_latent on a table of counts *)
Lemma zmat_nonneg K labels cj : counts_all K labels cj -> nonneg_square K (zmat_to_q cj).
Proof.
  intros (L & HR & H0 & _). split; [unfold zmat_to_q; rewrite map_length; auto|]. split.
  - intros x Hx. unfold zmat_to_q in Hx. apply in_map_iff in Hx as (y & <- & Hy). rewrite map_length. auto.
  - intros x v Hx Hv. unfold zmat_to_q in Hx. apply in_map_iff in Hx as (y & <- & Hy).
    apply in_map_iff in Hv as (z & <- & Hz). apply In_nth with (d := []) in Hy as (i & Hi & <-).
    apply In_nth with (d := 0%Z) in Hz as (j & Hj & <-). rewrite HR in Hj by (apply nth_In; auto).
    change 0 with (inject_Z 0). rewrite <- Zle_Qle. apply H0; lia.
Qed.
Lemma row_total_z K cj s : qsum (tab K (fun y => mget (zmat_to_q cj) s y)) == given_total K cj s.
Proof. unfold given_total. apply qsum_tab_ext. intros. rewrite zmat_get. reflexivity. Qed.
Lemma col_total_z K cj y : qsum (tab K (fun s => mget (zmat_to_q cj) s y)) == true_total K cj y.
Proof. unfold true_total. apply qsum_tab_ext. intros. rewrite zmat_get. reflexivity. Qed.

Lemma latent_exact K labels cj m converge : labels <> [] -> (forall l, In l labels -> (l < K)%nat) ->
  counts_all K labels cj -> moderate_noise K (length labels) cj ->
  exists py N I, estimate_latent (zmat_to_q cj) labels m converge = Ok (py, N, I) /\
    proportions K (length labels) cj py N I.
Proof.
  intros Hne Hl HC (M1 & M2). pose proof (zmat_nonneg K labels cj HC) as HZ. pose proof HZ as (LZ & RZ & _).
  pose proof HC as (L & HR & H0 & HT).
  rewrite estimate_latent_eq by (rewrite ?LZ; auto). cbv zeta. rewrite LZ.
  set (c := fun s y => inject_Z (zget cj s y)).
  set (n := Qnat (length labels)).
  set (ps := map (fun c => Qnat c / n) (tab K (fun k => n_labelled k labels))).
  assert (Hn1 : 0 < n). { unfold n. destruct labels; [congruence|]. unfold Qnat, inject_Z, Qlt; simpl; lia. }
  assert (Lps : length ps = K) by (unfold ps; rewrite map_length; apply tab_length).
  assert (Hps : forall s, (s < K)%nat -> nth s ps 0 == qsum (tab K (fun y => c s y)) / n).
  { intros s Hs. unfold ps. rewrite (nth_map_gen _ _ _ _ 0%nat) by (rewrite tab_length; auto). rewrite nth_tab by auto.
    rewrite <- (HT s Hs). reflexivity. }
  assert (Hc : forall s y, (s < K)%nat -> (y < K)%nat -> 0 <= c s y).
  { intros s y Hs Hy. unfold c. change 0 with (inject_Z 0). rewrite <- Zle_Qle. auto. }
  assert (Hn : qsum (tab K (fun s => qsum (tab K (fun y => c s y)))) == n).
  { rewrite (qsum_tab_ext K _ (fun s => Qnat (n_labelled s labels))) by (intros s Hs; apply (HT s Hs)).
    unfold n. rewrite <- (nsum_labelled K labels Hl), Qnat_nsum, map_tab. reflexivity. }
  assert (Hd : forall k, (k < K)%nat -> qsum (tab K (fun s => c s k)) <= 100000 * c k k) by (intros k Hk; apply M1; auto).
  assert (H5 : forall y, (y < K)%nat -> n <= 100000 * qsum (tab K (fun s => c s y))) by (intros k Hk; apply (M1 k Hk)).
  assert (Hr5 : forall s, (s < K)%nat -> n <= 100000 * qsum (tab K (fun y => c s y))) by (intros k Hk; apply (M1 k Hk)).
  assert (Hr9 : forall s y, (s < K)%nat -> (y < K)%nat -> s <> y -> c s y <= (9999 # 10000) * qsum (tab K (fun y => c s y)))
    by (intros s y Hs Hy Hsy; apply (M2 s y); auto).
  assert (Ht9 : forall s y, (s < K)%nat -> (y < K)%nat -> s <> y -> c s y <= (9999 # 10000) * qsum (tab K (fun s => c s y)))
    by (intros s y Hs Hy Hsy; apply (M2 s y); auto).
  assert (T1 : 1 <= n).
  { unfold n. destruct labels; [congruence|]. unfold Qnat, inject_Z, Qle; simpl; lia. }
  assert (TN : forall x, n <= 100000 * x -> TINY_VALUE <= x).
  { intros x Hx. apply Qle_trans with (1 # 100000); [vm_compute; discriminate|lra]. }
  assert (N0 : isN K c (noise0 (zmat_to_q cj))).
  { split; [unfold noise0; rewrite tab_length; auto|]. intros s y Hs Hy. rewrite (noise0_get K) by auto.
    rewrite (col_total_z K cj y), zmat_get. rewrite clip_lo_id by (apply TN, H5; auto). reflexivity. }
  assert (I0 : isI K c (inverse0 (zmat_to_q cj))).
  { split; [unfold inverse0; rewrite tab_length; auto|]. intros y s Hy Hs. rewrite (inverse0_get K) by auto.
    rewrite (row_total_z K cj s), zmat_get. rewrite clip_lo_id by (apply TN, Hr5; auto). reflexivity. }
  assert (P0 : isP K c n (py0 (zmat_to_q cj) labels m)).
  { unfold py0. rewrite LZ. fold n. fold ps. destruct m.
    - apply cnt_exact; auto.
    - apply marginal_exact; auto; [apply tab_length| |apply TN; lra].
      intros y Hy. rewrite nth_tab by auto. rewrite col_nth, LZ. apply col_total_z.
    - apply marginal_ps_exact; auto. intros x Hx. unfold inverse0 in Hx. apply in_tab in Hx as (i & Hi & ->).
      rewrite tab_length. auto. }
  assert (N1 : isN K c (clip_noise_rates (noise0 (zmat_to_q cj)))) by (apply (clip_N K c n); auto).
  assert (I1 : isI K c (clip_noise_rates (inverse0 (zmat_to_q cj)))) by (apply (clip_I K c n); auto).
  assert (Fin : forall py N I, isP K c n py -> isN K c N -> isI K c I -> proportions K (length labels) cj py N I).
  { intros py N I (LP & EP) (LN & EN) (LI & EI). split; auto. split; auto. split; auto. split; [exact EP|].
    intros s y Hs Hy. split; [apply EN|apply EI]; auto. }
  destruct converge; do 3 eexists; (split; [reflexivity|]).
  - destruct (outer_exact K c n ps Hc Hd Hn Hn1 H5 Hr5 Hr9 Ht9 Hps 3 5 _ _ _ P0 N1 I1) as (A & B & C).
    apply Fin; [apply clip_P; auto|apply (clip_N K c n); auto|apply (clip_I K c n); auto].
  - apply Fin; auto.
Qed.

(** ** the calibrated confident joint counts every example *)
Lemma calibrated_counts srt K labels pp thr : argsort_ok srt -> labels <> [] -> (forall l, In l labels -> (l < K)%nat) ->
  exists cj idx, compute_confident_joint srt labels pp K thr true = Ok (cj, idx) /\ counts_all K labels cj.
Proof.
  intros Hs Hne Hl. unfold compute_confident_joint.
  set (th := match thr with Some t => t | None => _ end).
  destruct (uncalibrated_cj_ok labels pp th K) as (C1 & C2 & C3 & C4).
  destruct (calibrate_full srt K _ labels Hs C1 C2 C3 C4 Hne Hl) as (zm & E & LK & HR & _ & H0).
  rewrite E. cbn [rbind]. do 2 eexists. split; [reflexivity|].
  split; auto. split.
  - intros x Hx. apply In_nth with (d := []) in Hx as (i & Hi & <-). apply HR. lia.
  - split; [intros i j Hi Hj; apply H0; auto|]. intros i Hi. destruct (HR i Hi) as (Li & Si).
    unfold given_total, zget. unfold Qnat. rewrite <- Si, <- qsum_inject.
    rewrite <- (tab_nth (nth i zm []) 0%Z). rewrite map_tab, Li. apply qsum_tab_ext. intros j Hj. try (rewrite nth_tab by lia). reflexivity.
Qed.

Lemma clip_col_sum K M j : nonneg_square K M -> (j < K)%nat -> TINY_VALUE <= qsum (tab K (fun i => mget M i j)) ->
  qsum (tab K (fun i => mget (clip_noise_rates M) i j)) == 1.
Proof.
  intros HM Hj Ht. pose proof HM as (L & _). pose proof (cnr_sum_ge K M j HM Hj Ht) as Hs.
  rewrite (qsum_tab_ext K _ (fun i => cnr M i j / clip_lo TINY_VALUE (qsum (tab K (fun i => cnr M i j)))))
    by (intros i Hi; rewrite (clip_get K) by auto; reflexivity).
  unfold tab at 1. rewrite (qsum_map_div (fun i => cnr M i j)). fold (tab K (fun i => cnr M i j)).
  rewrite clip_lo_id by auto. field. pose proof TINY_pos. lra.
Qed.
Lemma clip_nonneg K M : nonneg_square K M -> nonneg_square K (clip_noise_rates M).
Proof.
  intros HM. pose proof HM as (L & _). unfold clip_noise_rates. rewrite L. apply nonneg_square_tab. intros i j Hi Hj.
  apply Qdiv_nonneg; [apply clip_lo_pos|]. rewrite (mget_tab K (fun i j => cnr M i j)) by auto.
  apply (cnr_nonneg K); auto.
Qed.

Lemma true_total_z K cj y : true_total K cj y == inject_Z (zsum (tab K (fun s => zget cj s y))).
Proof. unfold true_total. rewrite <- qsum_inject, map_tab. reflexivity. Qed.
Lemma total_cases K labels cj y : counts_all K labels cj -> (y < K)%nat -> true_total K cj y == 0 \/ 1 <= true_total K cj y.
Proof.
  intros (_ & _ & H0 & _) Hy. rewrite true_total_z.
  assert (0 <= true_total K cj y).
  { unfold true_total. apply qsum_tab_nonneg. intros i Hi. change 0 with (inject_Z 0). rewrite <- Zle_Qle. auto. }
  rewrite true_total_z in H. change 0 with (inject_Z 0) in *. change 1 with (inject_Z 1). rewrite <- Zle_Qle in *.
  destruct (Z.eq_dec (zsum (tab K (fun s => zget cj s y))) 0) as [E|E]; [left; rewrite E; reflexivity|right; lia].
Qed.

Lemma latent_plain K labels cj m : (0 < K)%nat -> labels <> [] -> (forall l, In l labels -> (l < K)%nat) ->
  (forall k, (k < K)%nat -> In k labels) -> counts_all K labels cj ->
  exists py N I, estimate_latent (zmat_to_q cj) labels m false = Ok (py, N, I) /\
    positive_distribution K py /\ column_stochastic K I /\ nonneg_square K N /\
    forall y, (y < K)%nat ->
      (0 < true_total K cj y -> qsum (tab K (fun s => mget N s y)) == 1) /\
      (true_total K cj y == 0 -> forall s, (s < K)%nat -> mget N s y == 0).
Proof.
  intros HK Hne Hl Hall HC. pose proof (zmat_nonneg K labels cj HC) as HZ. pose proof HZ as (LZ & RZ & _).
  pose proof HC as (L & HR & H0 & HT).
  rewrite estimate_latent_eq by (rewrite ?LZ; auto). cbv zeta. do 3 eexists. split; [reflexivity|].
  destruct (py0_length (zmat_to_q cj) labels m) as (_ & x & Hx & ->). split; [|split; [|split]].
  - apply clip_dist; auto; [lia|apply Qle_refl|vm_compute; discriminate].
  - apply clip_stochastic; [apply inverse0_nonneg; auto|]. intros j Hj. rewrite inverse0_sum; auto; [vm_compute; discriminate|].
    rewrite row_total_z, (HT j Hj). pose proof (proj1 (n_labelled_pos j labels) (Hall j Hj)).
    apply Qle_trans with 1; [vm_compute; discriminate|]. unfold Qnat, inject_Z, Qle; simpl; lia.
  - apply clip_nonneg, noise0_nonneg; auto.
  - intros y Hy. split.
    + intros Hp. assert (T : 1 <= true_total K cj y).
      { destruct (total_cases K labels cj y HC Hy) as [E|E]; auto. rewrite E in Hp. lra. }
      apply clip_col_sum; [apply noise0_nonneg; auto|auto|]. rewrite noise0_sum; auto; [vm_compute; discriminate|].
      rewrite col_total_z. apply Qle_trans with 1; auto. vm_compute; discriminate.
    + intros Hz s Hs. apply (clip_zero K); auto; [apply noise0_nonneg; auto|]. rewrite (noise0_get K) by auto.
      assert (E : mget (zmat_to_q cj) s y == 0).
      { rewrite zmat_get. assert (inject_Z (zget cj s y) <= true_total K cj y).
        { unfold true_total. apply (qsum_tab_ge K (fun s => inject_Z (zget cj s y)) s); auto. intros i Hi.
          change 0 with (inject_Z 0). rewrite <- Zle_Qle. auto. }
        assert (0 <= inject_Z (zget cj s y)). { change 0 with (inject_Z 0). rewrite <- Zle_Qle. auto. }
        lra. }
      rewrite E. unfold Qdiv. ring.
Qed.

Lemma labels_ne K labels : classes_are K labels -> (2 <= K)%nat -> labels <> [].
Proof. intros CL HK E. assert (In 0%nat labels) by (apply CL; lia). rewrite E in H. destruct H. Qed.

Section Pipeline.
Context {A : Type} (d : A) (fit_predict : list A -> list nat -> list A -> list (list Q)) (so : list nat -> list nat)
        (srt : list Q -> list nat) (X : list A) (labels : list nat) (K : nat) (folds : list (list nat)).
Context (Hsrt : argsort_ok srt) (Hso : any_order so) (CL : classes_are K labels) (PC : proper_classifier K fit_predict)
        (HK : (2 <= K)%nat) (HX : length X = length labels) (HF : cv_partition (length labels) folds).

Lemma pipeline_eq : exists pp, cv_pred_probs d fit_predict so false X labels folds = Ok pp /\
  length pp = length labels /\ length (nth 0 pp []) = K /\
  (forall i, (i < length labels)%nat -> length (nth i pp []) = K /\
      exists hold p, In hold folds /\ nth_error hold p = Some i /\
        out_of_fold_row fit_predict (fun j => nth j X d) (fun j => nth j labels 0%nat) (length labels) K pp hold p i) /\
  (forall thr cal, estimate_confident_joint_and_cv_pred_proba d fit_predict so srt false X labels folds thr cal =
     rbind (compute_confident_joint srt labels pp K thr cal) (fun r => Ok (fst r, pp))) /\
  forall thr conv m, estimate_with_cv d fit_predict so srt false X labels folds thr conv m =
    rbind (estimate_from_probabilities srt labels pp thr conv m true) (fun e => Ok (e, pp)).
Proof.
  destruct (cv_pred_probs_spec d fit_predict so X labels K Hso CL PC folds HK HX HF) as (pp & E & L & H).
  assert (W : length (nth 0 pp []) = K).
  { apply H. pose proof (labels_ne K labels CL HK). destruct labels; [congruence|]. simpl. lia. }
  exists pp. split; auto. split; auto. split; auto. split; auto.
  assert (EQ : forall thr cal, estimate_confident_joint_and_cv_pred_proba d fit_predict so srt false X labels folds thr cal =
     rbind (compute_confident_joint srt labels pp K thr cal) (fun r => Ok (fst r, pp))).
  { intros thr cal. unfold estimate_confident_joint_and_cv_pred_proba. rewrite E. cbn [rbind].
    rewrite (classes_unique K labels CL). reflexivity. }
  split; auto.
  intros thr conv m. unfold estimate_with_cv, estimate_from_probabilities. rewrite EQ, W.
  destruct (compute_confident_joint srt labels pp K thr true) as [[cj idx]|]; cbn [rbind fst]; [|reflexivity].
  destruct (estimate_latent (zmat_to_q cj) labels m conv) as [[[py N] I]|]; reflexivity.
Qed.
End Pipeline.

Lemma C130_estimates_full : forall A (d : A) fit_predict so srt X labels K folds,
  argsort_ok srt -> any_order so -> classes_are K labels -> proper_classifier K fit_predict ->
  (2 <= K)%nat -> length X = length labels -> cv_partition (length labels) folds ->
  forall thr m, exists py N I cj pp,
    estimate_with_cv d fit_predict so srt false X labels folds thr false m = Ok (py, N, I, cj, pp) /\
    (forall i, (i < length labels)%nat -> length (nth i pp []) = K /\
      exists hold p, In hold folds /\ nth_error hold p = Some i /\
        out_of_fold_row fit_predict (fun j => nth j X d) (fun j => nth j labels 0%nat) (length labels) K pp hold p i) /\
    counts_all K labels cj /\
    positive_distribution K py /\ column_stochastic K I /\ nonneg_square K N /\
    forall y, (y < K)%nat ->
      (0 < true_total K cj y -> qsum (tab K (fun s => mget N s y)) == 1) /\
      (true_total K cj y == 0 -> forall s, (s < K)%nat -> mget N s y == 0).
Proof.
  intros A d fp so srt X labels K folds Hs Ho CL PC HK HX HF thr m.
  destruct (pipeline_eq d fp so srt X labels K folds Ho CL PC HK HX HF) as (pp & _ & _ & W & H & _ & EQ).
  pose proof (labels_ne K labels CL HK) as Hne.
  assert (Hl : forall l, In l labels -> (l < K)%nat) by (intros l HI; apply CL; auto).
  destruct (calibrated_counts srt K labels pp thr Hs Hne Hl) as (cj & idx & EC & HC).
  destruct (latent_plain K labels cj m) as (py & N & I & EL & R); auto; [lia|intros k Hk; apply CL; auto|].
  exists py, N, I, cj, pp. rewrite EQ. unfold estimate_from_probabilities. rewrite W, EC. cbn [rbind fst].
  rewrite EL. cbn [rbind]. auto.
Qed.

Lemma C130_exact_full : forall A (d : A) fit_predict so srt X labels K folds,
  argsort_ok srt -> any_order so -> classes_are K labels -> proper_classifier K fit_predict ->
  (2 <= K)%nat -> length X = length labels -> cv_partition (length labels) folds ->
  forall thr, exists cj pp,
    estimate_confident_joint_and_cv_pred_proba d fit_predict so srt false X labels folds thr true = Ok (cj, pp) /\
    counts_all K labels cj /\
    (moderate_noise K (length labels) cj -> forall conv m, exists py N I,
       estimate_with_cv d fit_predict so srt false X labels folds thr conv m = Ok (py, N, I, cj, pp) /\
       proportions K (length labels) cj py N I).
Proof.
  intros A d fp so srt X labels K folds Hs Ho CL PC HK HX HF thr.
  destruct (pipeline_eq d fp so srt X labels K folds Ho CL PC HK HX HF) as (pp & _ & _ & W & H & EJ & EQ).
  pose proof (labels_ne K labels CL HK) as Hne.
  assert (Hl : forall l, In l labels -> (l < K)%nat) by (intros l HI; apply CL; auto).
  destruct (calibrated_counts srt K labels pp thr Hs Hne Hl) as (cj & idx & EC & HC).
  exists cj, pp. rewrite EJ, EC. cbn [rbind fst]. split; auto. split; auto. intros HM conv m.
  destruct (latent_exact K labels cj m conv Hne Hl HC HM) as (py & N & I & EL & R).
  exists py, N, I. rewrite EQ. unfold estimate_from_probabilities. rewrite W, EC. cbn [rbind fst].
  rewrite EL. cbn [rbind]. auto.
Qed.

Lemma C130_own_full : forall A (d : A) fit_predict so srt X labels K folds,
  any_order so -> classes_are K labels -> proper_classifier K fit_predict ->
  (2 <= K)%nat -> length X = length labels -> cv_partition (length labels) folds ->
  forall thr conv m py N I cj pp,
  estimate_with_cv d fit_predict so srt false X labels folds thr conv m = Ok (py, N, I, cj, pp) <->
  cv_pred_probs d fit_predict so false X labels folds = Ok pp /\
  estimate_from_probabilities srt labels pp thr conv m true = Ok (py, N, I, cj).
Proof.
  intros A d fp so srt X labels K folds Ho CL PC HK HX HF thr conv m py N I cj pp.
  destruct (pipeline_eq d fp so srt X labels K folds Ho CL PC HK HX HF) as (pp' & EP & _ & W & H & EJ & EQ).
  rewrite EQ. split.
  - destruct (estimate_from_probabilities srt labels pp' thr conv m true) as [e|] eqn:E; cbn [rbind]; [|discriminate].
    intros G. assert (e = (py, N, I, cj)) by congruence. assert (pp' = pp) by congruence. subst. auto.
  - intros (E1 & E2). assert (pp' = pp) by congruence. subst. rewrite E2. reflexivity.
Qed.

Lemma C130_parts_full : forall A (d : A) fit_predict so srt X labels K folds,
  argsort_ok srt -> any_order so -> classes_are K labels -> proper_classifier K fit_predict ->
  (2 <= K)%nat -> length X = length labels -> cv_partition (length labels) folds ->
  exists pp, estimate_cv_predicted_probabilities d fit_predict so srt false X labels folds = Ok pp /\
    (forall thr cal r, estimate_confident_joint_and_cv_pred_proba d fit_predict so srt false X labels folds thr cal = Ok r ->
       snd r = pp) /\
    forall thr conv py N I cj pp',
      estimate_with_cv d fit_predict so srt false X labels folds thr conv LCnt = Ok (py, N, I, cj, pp') ->
      pp' = pp /\
      estimate_noise_matrices d fit_predict so srt false X labels folds thr conv = Ok (N, I).
Proof.
  intros A d fp so srt X labels K folds Hs Ho CL PC HK HX HF.
  destruct (C130_estimates_full A d fp so srt X labels K folds Hs Ho CL PC HK HX HF None LCnt)
    as (py & N & I & cj & pp & E & _).
  exists pp. unfold estimate_cv_predicted_probabilities. rewrite E. cbn [rbind snd]. split; auto.
  destruct (pipeline_eq d fp so srt X labels K folds Ho CL PC HK HX HF) as (pp' & EP & _ & W & H & EJ & EQ).
  assert (pp' = pp). { apply (C130_own_full A d fp so srt X labels K folds Ho CL PC HK HX HF) in E. destruct E. congruence. }
  subst pp'. split.
  - intros thr cal r Hr. rewrite EJ in Hr.
    destruct (compute_confident_joint srt labels pp K thr cal); cbn [rbind] in Hr; [|discriminate].
    assert (r = (fst a, pp)) by congruence. subst. reflexivity.
  - intros thr conv py' N' I' cj' pp' G. split.
    + apply (C130_own_full A d fp so srt X labels K folds Ho CL PC HK HX HF) in G. destruct G. congruence.
    + unfold estimate_noise_matrices. rewrite G. reflexivity.
Qed.
