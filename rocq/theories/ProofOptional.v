(** * Proofs for C184 *)
From Coq Require Import QArith Qabs List ZArith Bool Arith Lia Lqa.
From Verif Require Import Base BaseFacts ModelUtil ModelCount ModelLatent ModelLatentPs SpecCount SpecLatent SpecFactor SpecOptional ProofCount ProofLatent.
From Verif Require ProofFactor ProofNoise.
Import ListNotations.
Open Scope Q_scope.

Theorem inverse_ps K N py ps : length N = K -> (forall s, (s < K)%nat -> nth s ps 0 == times_vector K N py s) ->
  meq (compute_inv_noise_matrix py N (Some ps)) (compute_inv_noise_matrix py N None).
Proof.
  intros HK H. unfold compute_inv_noise_matrix. rewrite HK. cbv zeta. apply ProofFactor.clip_noise_meq.
  apply ProofFactor.f_tab. intros y Hy. apply ProofFactor.f_tab. intros s Hs. apply ProofFactor.div_eq; [reflexivity|].
  rewrite H by auto. unfold joint_of. rewrite HK, map_tab, nth_tab by auto. reflexivity.
Qed.
Theorem noise_py K I ps py : length I = K -> (forall y, (y < K)%nat -> nth y py 0 == times_vector K I ps y) ->
  meq (compute_noise_matrix_from_inverse ps I (Some py)) (compute_noise_matrix_from_inverse ps I None).
Proof.
  intros HK H. unfold compute_noise_matrix_from_inverse. rewrite HK. cbv zeta. apply ProofFactor.clip_noise_meq.
  apply ProofFactor.f_tab. intros s Hs. apply ProofFactor.f_tab. intros y Hy. apply ProofFactor.div_eq; [reflexivity|].
  rewrite H by auto. rewrite nth_tab by auto. rewrite (col_tab K (fun s y => mget I y s * nth s ps 0)) by auto. reflexivity.
Qed.

Lemma bounded_low q : 1 # 1000000 <= bounded q.
Proof. unfold bounded. destruct (qmin_spec (qmax q (1 # 1000000)) 1) as [(A & ->)|(A & ->)]; destruct (qmax_spec q (1 # 1000000)) as [(B & E)|(B & E)]; rewrite ?E in *; lra. Qed.
Lemma bounded_veq a b : a == b -> bounded a == bounded b.
Proof. intros E. change (clip (1 # 1000000) 1 a == clip (1 # 1000000) 1 b). apply ProofFactor.clip_eq, E. Qed.

Lemma clip_values_nth K x k : length x = K -> (k < K)%nat ->
  nth k (clip_values x CLIPPING_LOWER_BOUND 1 1) 0 == bounded (nth k x 0) / qsum (tab K (fun j => bounded (nth j x 0))).
Proof.
  intros L Hk. unfold clip_values. change (clip CLIPPING_LOWER_BOUND 1) with bounded. cbv zeta.
  assert (E : map bounded x = tab K (fun j => bounded (nth j x 0))).
  { rewrite <- (tab_nth x 0) at 1. rewrite map_tab, L. reflexivity. }
  rewrite E. set (t := tab K (fun j => bounded (nth j x 0))) in *.
  assert (P : 1 # 1000000 <= qsum t).
  { apply Qle_trans with (bounded (nth k x 0)); [apply bounded_low|]. apply qsum_ge_elem.
    - intros y Hy. unfold t in Hy. apply in_tab in Hy as (i & Hi & ->). pose proof (bounded_low (nth i x 0)). lra.
    - unfold t. apply in_tab. eauto. }
  rewrite (nth_map_gen (fun v => v * 1 / clip_lo TINY_VALUE (qsum t)) t k 0 0) by (unfold t; rewrite tab_length; auto).
  rewrite clip_lo_id by (eapply Qle_trans; [|exact P]; vm_compute; discriminate).
  assert (T : nth k t 0 = bounded (nth k x 0)) by (unfold t; rewrite nth_tab by auto; reflexivity). rewrite T. field. lra.
Qed.
Theorem cnt_counts K cj labels : nonneg_square K cj -> labels <> [] -> (forall l, In l labels -> (l < K)%nat) ->
  (forall k, (k < K)%nat -> TINY_VALUE <= row_total K cj k /\ TINY_VALUE <= col_total K cj k /\ TINY_VALUE * col_total K cj k <= mget cj k k) ->
  exists r, estimate_latent cj labels LCnt false = Ok r /\ length (latent_py r) = K /\
    let raw := fun k => col_total K cj k / row_total K cj k * share labels k in
    forall k, (k < K)%nat -> nth k (latent_py r) 0 == bounded (raw k) / qsum (tab K (fun j => bounded (raw j))).
Proof.
  intros (HK & Hr & Hn) Hne Hl H. unfold estimate_latent. rewrite HK, (value_counts_ok labels K Hne Hl). cbn [rbind].
  eexists. split; [reflexivity|]. unfold latent_py. cbn [fst].
  unfold compute_py. rewrite !tab_length. rewrite map_tab.
  match goal with |- length (clip_values ?v _ _ _) = _ /\ _ => set (x := v) end.
  assert (L : length x = K) by (unfold x; apply tab_length).
  split; [unfold clip_values; rewrite !map_length; exact L|]. 
  set (raw := fun k => col_total K cj k / row_total K cj k * share labels k). cbv zeta.
  assert (G : forall j, (j < K)%nat -> nth j x 0 == raw j).
  { intros j Hj. destruct (H j Hj) as (A & B & C). pose proof TINY_pos as T.
    unfold x. unfold mget at 1 3. rewrite !nth_tab by auto. rewrite (nth_map_gen qsum cj j 0 []) by lia. fold (share labels j).
    assert (R : qsum (nth j cj []) == row_total K cj j).
    { unfold row_total. assert (L' : length (nth j cj []) = K) by (apply Hr, nth_In; lia).
      rewrite <- (tab_nth (nth j cj []) 0) at 1. rewrite L'. reflexivity. }
    assert (Cc : qsum (col j cj) == col_total K cj j) by (rewrite col_nth, HK; reflexivity).
    rewrite (clip_lo_id TINY_VALUE (qsum (col j cj))) by (rewrite Cc; auto).
    rewrite (clip_lo_id TINY_VALUE (qsum (nth j cj []))) by (rewrite R; auto).
    rewrite clip_lo_id by (rewrite Cc; apply Qle_shift_div_l; lra).
    rewrite R, Cc. unfold raw. field. 
    assert (0 < TINY_VALUE * col_total K cj j) by (apply Qmult_lt_0_compat; lra). repeat split; lra. }
  intros k Hk. rewrite (clip_values_nth K x k L Hk). rewrite (bounded_veq _ _ (G k Hk)).
  rewrite (qsum_tab_ext K (fun j => bounded (nth j x 0)) (fun j => bounded (raw j))) by (intros j Hj; apply bounded_veq, G, Hj). reflexivity.
Qed.

Theorem from_labels K N q labels inv : column_stochastic K N -> positive_distribution K q -> left_inverse K inv N ->
  (1 <= K)%nat -> (forall k, In k labels <-> (k < K)%nat) ->
  (forall y, (y < K)%nat -> 1 # 1000000 <= nth y q 0) ->
  (forall s, (s < K)%nat -> TINY_VALUE <= given_p K N q s) ->
  (forall s y, (s < K)%nat -> (y < K)%nat -> s <> y -> joint_p N q s y <= (9999 # 10000) * given_p K N q s) ->
  (forall s, (s < K)%nat -> share labels s == given_p K N q s) ->
  exists ps py I, compute_ps_py_inv_noise_matrix inv labels N = (ps, py, I) /\
    ps = tab K (share labels) /\ veq py q /\ column_stochastic K I /\
    (forall y s, (y < K)%nat -> (s < K)%nat -> mget I y s == joint_p N q s y / given_p K N q s).
Proof.
  intros HN Hq (L1 & L2 & L3) HK1 Hl H6 Hps Hpost Hs. unfold compute_ps_py_inv_noise_matrix. rewrite (ProofNoise.unique_all K labels HK1 Hl).
  fold (tab K (fun c => Qnat (count c labels) / Qnat (length labels))).
  assert (E : tab K (fun c => Qnat (count c labels) / Qnat (length labels)) = tab K (share labels)) by (apply tab_ext; intros; unfold share; rewrite n_labelled_count; reflexivity).
  rewrite E. do 3 eexists. split; [reflexivity|]. split; [reflexivity|].
  assert (Hg : forall s, (s < K)%nat -> nth s (tab K (share labels)) 0 == given_p K N q s) by (intros s Hs'; rewrite nth_tab by auto; auto).
  unfold compute_py_inv_noise_matrix. cbn [fst snd].
  destruct (inv_is_posterior K N q HN Hq Hps Hpost (Some (tab K (share labels))) (or_intror (ex_intro _ _ (conj eq_refl Hg)))) as (HI & EI).
  assert (V : veq (clip_values (map (fun row => dot row (tab K (share labels))) inv) CLIPPING_LOWER_BOUND 1 1) q).
  { destruct (py_recovered K N q HN Hq Hps (tab K (share labels)) (compute_inv_noise_matrix q N (Some (tab K (share labels))))) as (_ & _ & _ & D); auto.
    - apply tab_length.
    - apply HI.
    - apply HI.
    - apply (D inv); auto. }
  split; [exact V|].
  assert (M : meq (compute_inv_noise_matrix (clip_values (map (fun row => dot row (tab K (share labels))) inv) CLIPPING_LOWER_BOUND 1 1) N (Some (tab K (share labels))))
                  (compute_inv_noise_matrix q N (Some (tab K (share labels))))).
  { apply ProofFactor.inv_meq; [exact V|]. induction N; constructor; [apply ProofFactor.veq_refl|]. clear. induction N; constructor; auto. apply ProofFactor.veq_refl. }
  remember (compute_inv_noise_matrix (clip_values (map (fun row => dot row (tab K (share labels))) inv) CLIPPING_LOWER_BOUND 1 1) N (Some (tab K (share labels)))) as I' eqn:EqI.
  assert (X : forall y s, (y < K)%nat -> (s < K)%nat -> mget I' y s == joint_p N q s y / given_p K N q s).
  { intros y s Hy Hs'. rewrite (ProofFactor.mget_meq _ _ y s M). apply EI; auto. }
  split; [|exact X].
  set (J := compute_inv_noise_matrix q N (Some (tab K (share labels)))) in *. clearbody J.
  destruct HI as ((A & B & C) & D). split; [split; [rewrite (ProofFactor.f_len _ _ _ M); auto|split]|].
  - intros r Hr. apply In_nth with (d := []) in Hr as (i & Hi & <-). rewrite (ProofFactor.f_len _ _ _ (ProofFactor.row_meq _ _ M i)).
    apply B, nth_In. rewrite <- (ProofFactor.f_len _ _ _ M). auto.
  - intros r x Hr Hx. apply In_nth with (d := []) in Hr as (i & Hi & <-). apply In_nth with (d := 0) in Hx as (j & Hj & <-).
    fold (mget I' i j). rewrite (ProofFactor.mget_meq _ _ i j M). apply (C (nth i J [])).
    + apply nth_In. rewrite <- (ProofFactor.f_len _ _ _ M). auto.
    + apply nth_In. rewrite <- (ProofFactor.f_len _ _ _ (ProofFactor.row_meq _ _ M i)). auto.
  - intros j Hj. rewrite <- (D j Hj). apply qsum_tab_ext. intros i Hi. apply ProofFactor.mget_meq, M.
Qed.
