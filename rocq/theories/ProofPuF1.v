(** * Proofs for C185 *)
From Coq Require Import QArith Qfield List ZArith Bool Arith Lia Lqa.
From Verif Require Import Base BaseFacts ModelPuF1 SpecPuF1.
Import ListNotations.
Open Scope Q_scope.

Lemma how_many_S n P : how_many (S n) P = ((if P 0%nat then 1 else 0) + how_many n (fun i => P (S i)))%nat.
Proof.
  induction n as [|n IH]; [reflexivity|]. change (how_many (S (S n)) P) with ((if P (S n) then 1 else 0) + how_many (S n) P)%nat.
  rewrite IH. cbn [how_many]. lia.
Qed.
Lemma how_many_le n P R : (forall i, (i < n)%nat -> P i = true -> R i = true) -> (how_many n P <= how_many n R)%nat.
Proof.
  induction n as [|n IH]; intros H; [auto|]. cbn [how_many]. assert (how_many n P <= how_many n R)%nat by (apply IH; intros; apply H; auto).
  destruct (P n) eqn:E; [rewrite (H n) by auto|]; lia.
Qed.
Lemma pos_sum s : (forall x, In x s -> x = 0%nat \/ x = 1%nat) -> nsum s = n_pos s.
Proof.
  unfold n_pos. induction s as [|a s IH]; intros H; [reflexivity|]. cbn [length]. rewrite how_many_S.
  change (nsum (a :: s)) with (a + nsum s)%nat. rewrite IH by (intros; apply H; right; auto).
  change (how_many (length s) (fun i => labelled (a :: s) (S i))) with (how_many (length s) (labelled s)).
  unfold labelled at 2. cbn [nth]. destruct (H a (or_introl eq_refl)) as [->| ->]; reflexivity.
Qed.
Lemma pred_count p : length (filter (fun b : bool => b) (map (fun q => Qle_bool (1 # 2) q) p)) = how_many (length p) (predicted p).
Proof.
  induction p as [|a p IH]; [reflexivity|]. cbn [length map filter]. rewrite how_many_S.
  change (how_many (length p) (fun i => predicted (a :: p) (S i))) with (how_many (length p) (predicted p)).
  change (predicted (a :: p) 0) with (Qle_bool (1 # 2) a). destruct (Qle_bool (1 # 2) a); cbn [length]; rewrite IH; reflexivity.
Qed.
Lemma hit_count s : forall p, length s = length p ->
  length (filter (fun sp => (Nat.eqb (fst sp) 1 && snd sp)%bool) (combine s (map (fun q => Qle_bool (1 # 2) q) p))) = n_hit s p.
Proof.
  unfold n_hit. induction s as [|a s IH]; intros [|q p] L; cbn [length] in L; try lia; [reflexivity|].
  cbn [length map combine filter fst snd]. rewrite how_many_S.
  change (how_many (length s) (fun i => (labelled (a :: s) (S i) && predicted (q :: p) (S i))%bool)) with (how_many (length s) (fun i => (labelled s i && predicted p i)%bool)).
  change (labelled (a :: s) 0 && predicted (q :: p) 0)%bool with (Nat.eqb a 1 && Qle_bool (1 # 2) q)%bool.
  destruct (Nat.eqb a 1 && Qle_bool (1 # 2) q)%bool; cbn [length]; rewrite IH by lia; reflexivity.
Qed.
Lemma Qnat_0_lt n : (0 < n)%nat -> 0 < Qnat n.
Proof. intros H. unfold Qnat. change 0 with (inject_Z 0). rewrite <- Zlt_Qlt. lia. Qed.

Theorem pu_value s p : length s = length p -> (forall x, In x s -> x = 0%nat \/ x = 1%nat) -> (0 < n_pos s)%nat -> (0 < n_pred s p)%nat ->
  exists v, estimate_pu_f1 s p = Ok (Some v) /\ v == precision s p * recall s p / (2 * positive_share s).
Proof.
  intros L H A B. unfold estimate_pu_f1. rewrite (pos_sum s H), pred_count, hit_count by auto. rewrite <- L. fold (n_pred s p).
  destruct s as [|a s]; [cbn in A; lia|]. set (t := a :: s) in *.
  assert (N : 0 < Qnat (length t)) by (apply Qnat_0_lt; unfold t; cbn; lia).
  pose proof (Qnat_0_lt _ A) as PA. pose proof (Qnat_0_lt _ B) as PB.
  assert (F : 0 < Qnat (n_pred t p) / Qnat (length t)) by (apply Qlt_shift_div_l; lra).
  destruct (Qeq_bool (Qnat (n_pred t p) / Qnat (length t)) 0) eqn:E; [apply Qeq_bool_iff in E; lra|].
  destruct (Nat.eqb_spec (n_pos t) 0) as [E'|E']; [lia|]. eexists. split; [reflexivity|].
  unfold precision, recall, positive_share. field. repeat split; lra.
Qed.

Lemma rates s p : (0 < n_pos s)%nat -> (0 < n_pred s p)%nat ->
  0 <= precision s p /\ precision s p <= 1 /\ 0 <= recall s p /\ recall s p <= 1 /\
  (precision s p == 0 <-> n_hit s p = 0%nat) /\ (recall s p == 0 <-> n_hit s p = 0%nat).
Proof.
  intros A B. pose proof (Qnat_0_lt _ A) as PA. pose proof (Qnat_0_lt _ B) as PB. pose proof (Qnat_nonneg (n_hit s p)) as HN.
  assert (H1 : Qnat (n_hit s p) <= Qnat (n_pos s)).
  { unfold Qnat. rewrite <- Zle_Qle. apply inj_le. apply how_many_le. intros i _ E. apply andb_true_iff in E. tauto. }
  assert (H2 : Qnat (n_hit s p) <= Qnat (n_pred s p)).
  { unfold Qnat. rewrite <- Zle_Qle. apply inj_le. apply how_many_le. intros i _ E. apply andb_true_iff in E. tauto. }
  unfold precision, recall.
  assert (Z : forall d, 0 < d -> (Qnat (n_hit s p) / d == 0 <-> n_hit s p = 0%nat)).
  { intros d Hd. split; intros E.
    - destruct (n_hit s p) as [|h] eqn:Eh; auto. exfalso. assert (0 < Qnat (S h)) by (apply Qnat_0_lt; lia).
      assert (0 < Qnat (S h) / d) by (apply Qlt_shift_div_l; lra). lra.
    - rewrite E. unfold Qnat. cbn. unfold Qdiv. ring. }
  repeat split; try (apply Z; auto); try (apply Qle_shift_div_l; lra); try (apply Qle_shift_div_r; lra).
Qed.

Lemma harmonic q r : 0 < q -> q <= 1 -> 0 < r -> r <= 1 ->
  2 * q * r / (q + r) * (2 * q * r / (q + r)) <= q * r /\ q * r <= 2 * q * r / (q + r).
Proof.
  intros Q0 Q1 R0 R1. assert (PR : 0 < q * r) by (apply Qmult_lt_0_compat; auto). split.
  - assert (X : 2 * q * r / (q + r) * (2 * q * r / (q + r)) == q * r * (4 * (q * r)) / ((q + r) * (q + r))) by (field; lra).
    rewrite X. apply Qle_shift_div_r; [apply Qmult_lt_0_compat; lra|].
    rewrite !(Qmult_comm (q * r)). apply Qmult_le_compat_r; [|lra].
    destruct (Qlt_le_dec q r).
    + assert (0 < (r - q) * (r - q)) by (apply Qmult_lt_0_compat; lra). nra.
    + assert (0 <= (q - r) * (q - r)) by (apply Qmult_le_0_compat; lra). nra.
  - apply Qle_shift_div_l; [lra|]. assert (q * r * (q + r) <= q * r * 2); [|lra].
    rewrite !(Qmult_comm (q * r)). apply Qmult_le_compat_r; lra.
Qed.
Theorem pu_f1 s p v : length s = length p -> (forall x, In x s -> x = 0%nat \/ x = 1%nat) -> (0 < n_hit s p)%nat ->
  estimate_pu_f1 s p = Ok (Some v) -> f1 s p * f1 s p <= 2 * positive_share s * v /\ 2 * positive_share s * v <= f1 s p.
Proof.
  intros L H C E.
  assert (A : (0 < n_pos s)%nat).
  { eapply Nat.lt_le_trans; [exact C|]. apply how_many_le. intros i _ E'. apply andb_true_iff in E'. tauto. }
  assert (B : (0 < n_pred s p)%nat).
  { eapply Nat.lt_le_trans; [exact C|]. apply how_many_le. intros i _ E'. apply andb_true_iff in E'. tauto. }
  destruct (pu_value s p L H A B) as (w & Ew & Vw). rewrite E in Ew. injection Ew as <-.
  destruct (rates s p A B) as (P0 & P1 & R0 & R1 & Pz & Rz).
  assert (Pp : 0 < precision s p) by (destruct (Qlt_le_dec 0 (precision s p)); auto; assert (precision s p == 0) as X by lra; apply Pz in X; lia).
  assert (Rp : 0 < recall s p) by (destruct (Qlt_le_dec 0 (recall s p)); auto; assert (recall s p == 0) as X by lra; apply Rz in X; lia).
  assert (S : 0 < positive_share s).
  { unfold positive_share. apply Qlt_shift_div_l; [|pose proof (Qnat_0_lt _ A); lra]. apply Qnat_0_lt. destruct s; [cbn in A; lia|cbn; lia]. }
  assert (V : 2 * positive_share s * v == precision s p * recall s p) by (rewrite Vw; field; lra).
  rewrite V. unfold f1. apply harmonic; auto.
Qed.
Theorem pu_nan s p : s <> [] -> length s = length p -> (forall x, In x s -> x = 0%nat \/ x = 1%nat) ->
  (estimate_pu_f1 s p = Ok None <-> n_pos s = 0%nat \/ n_pred s p = 0%nat).
Proof.
  intros Hne L H. split.
  - intros E. destruct (n_pos s) eqn:A; auto. destruct (n_pred s p) eqn:B; auto.
    destruct (pu_value s p L H) as (v & Ev & _); try lia. rewrite Ev in E. discriminate.
  - intros Z. unfold estimate_pu_f1. rewrite (pos_sum s H), pred_count, hit_count by auto. rewrite <- L. fold (n_pred s p).
    destruct s as [|a s]; [congruence|]. set (t := a :: s) in *.
    destruct (Qeq_bool (Qnat (n_pred t p) / Qnat (length t)) 0) eqn:E; auto. destruct Z as [Z|Z]; rewrite Z in *; auto.
    exfalso. assert (Qeq_bool (Qnat 0 / Qnat (length t)) 0 = true); [|congruence]. apply Qeq_bool_iff. unfold Qdiv. change (Qnat 0) with 0. ring.
Qed.

(** ** compress_int_array *)
Lemma wrap_id b z : (0 < b)%Z -> (- 2 ^ (b - 1) <= z < 2 ^ (b - 1))%Z -> wrap b z = z.
Proof.
  intros Hb H. unfold wrap. assert (2 ^ b = 2 * 2 ^ (b - 1))%Z by (rewrite <- Z.pow_succ_r by lia; f_equal; lia).
  rewrite Z.mod_small by lia. lia.
Qed.
Lemma map_same_in {A} (f : A -> A) l : (forall x, In x l -> f x = x) -> map f l = l.
Proof. intros H. rewrite <- (map_id l) at 2. apply map_ext_in. auto. Qed.
Theorem compress_keeps v n : (forall z, In z v -> (- n <= z <= n)%Z) -> compress_int_array v n = v.
Proof.
  intros H. unfold compress_int_array. destruct (Z.ltb_spec n 32767).
  - apply map_same_in. intros z Hz. specialize (H z Hz). apply wrap_id; [lia|]. change (2 ^ (16 - 1))%Z with 32768%Z. lia.
  - destruct (Z.ltb_spec n 2147483647); [|reflexivity].
    apply map_same_in. intros z Hz. specialize (H z Hz). apply wrap_id; [lia|]. change (2 ^ (32 - 1))%Z with 2147483648%Z. lia.
Qed.
