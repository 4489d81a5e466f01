(** * Downsampling of segmentation arrays *)
From Coq Require Import QArith Qround List ZArith Bool Arith Lia Lqa.
From Verif Require Import Base BaseFacts ModelUtil ModelSegmentation ProofSegmentation ProofRank ProofToken.
Import ListNotations.
Open Scope Q_scope.

(** ** downsampling *)
Definition square (f i j : nat) : list (nat * nat) := concat (map (fun a => map (fun b => (i * f + a, j * f + b)%nat) (seq 0 f)) (seq 0 f)).
Lemma square_in f i j a b : (0 < f)%nat -> In (a, b) (square f i j) <-> (a / f)%nat = i /\ (b / f)%nat = j.
Proof.
  intros Hf. unfold square. rewrite in_concat. split.
  - intros (l & Hl & H). apply in_map_iff in Hl as (x & <- & Hx). apply in_map_iff in H as (y & E & Hy). injection E as <- <-. apply in_seq in Hx, Hy.
    split; (rewrite Nat.div_add_l by lia; rewrite Nat.div_small by lia; lia).
  - intros (<- & <-). exists (map (fun y => (a / f * f + a mod f, b / f * f + y)%nat) (seq 0 f)).
    split; [apply in_map_iff; exists (a mod f); split; [reflexivity|apply in_seq; pose proof (Nat.mod_upper_bound a f); lia]|].
    apply in_map_iff. exists (b mod f). split; [|apply in_seq; pose proof (Nat.mod_upper_bound b f); lia].
    rewrite (Nat.mul_comm (a / f)), (Nat.mul_comm (b / f)). now rewrite <- !Nat.div_mod by lia.
Qed.
Lemma square_NoDup f i j : NoDup (square f i j).
Proof.
  unfold square. apply (NoDup_concat_map _ fst (fun a => (i * f + a)%nat)).
  - assert (G : forall s, NoDup s -> NoDup (map (fun a => (i * f + a)%nat) s)); [|apply G, seq_NoDup].
    induction 1 as [|y t Hy Nt IHt]; cbn; constructor; auto. intros C. apply in_map_iff in C as (z & E & Hz). assert (z = y) by lia. now subst.
  - intros x b _ Hb. apply in_map_iff in Hb as (y & <- & _). reflexivity.
  - intros x _. assert (G : forall s, NoDup s -> NoDup (map (fun b => (i * f + x, j * f + b)%nat) s)); [|apply G, seq_NoDup].
    induction 1 as [|y t Hy Nt IHt]; cbn; constructor; auto. intros C. apply in_map_iff in C as (z & E & Hz). injection E as E. assert (z = y) by lia. now subst.
Qed.
Lemma square_length f i j : length (square f i j) = (f * f)%nat.
Proof.
  unfold square. assert (G : forall (s : list nat), length (concat (map (fun a => map (fun b => (i * f + a, j * f + b)%nat) (seq 0 f)) s)) = (length s * f)%nat).
  { induction s as [|x s IH]; [reflexivity|]. cbn [map concat length]. rewrite app_length, map_length, seq_length, IH. lia. }
  now rewrite G, seq_length.
Qed.
Lemma qsum_ge_in l x : (forall y, In y l -> 0 <= y) -> In x l -> x <= qsum l.
Proof.
  intros H Hx. induction l as [|y l IH]; [destruct Hx|]. rewrite qsum_cons. assert (0 <= qsum l) by (apply qsum_nonneg; intros z Hz; apply H; now right).
  destruct Hx as [->|Hx]; [lra|]. specialize (IH (fun z Hz => H z (or_intror Hz)) Hx). specialize (H y (or_introl eq_refl)). lra.
Qed.
Lemma block_square f g i j : block f g i j = qsum (map (fun c => g (fst c) (snd c)) (square f i j)) / Qnat (f * f).
Proof.
  assert (E : concat (map (fun a => map (fun b => g (i * f + a)%nat (j * f + b)%nat) (seq 0 f)) (seq 0 f)) = map (fun c => g (fst c) (snd c)) (square f i j)).
  { unfold square. rewrite concat_map, map_map. f_equal. apply map_ext. intros a. rewrite map_map. reflexivity. }
  unfold block, qmean. rewrite E, map_length, square_length. reflexivity.
Qed.

Lemma downsample_full labels pp f sl sp : check_input labels pp = Ok tt -> (2 <= f)%nat ->
  downsample_arrays labels pp f = Ok (sl, sp) ->
  (f * tH sp = tH pp /\ f * tW sp = tW pp)%nat /\
  forall n i j, (i < tH sp)%nat -> (j < tW sp)%nat ->
  exists square, NoDup square /\ length square = (f * f)%nat /\
    (forall a b, In (a, b) square <-> (a < tH pp)%nat /\ (b < tW pp)%nat /\ (a / f)%nat = i /\ (b / f)%nat = j) /\
    (let mean := qsum (map (fun c => Qnat (at3 labels n (fst c) (snd c))) square) / Qnat (f * f) in
     mean - (1#2) <= Qnat (at3 sl n i j) <= mean + (1#2)) /\
    ((forall k a b, 0 <= at4 pp n k a b) -> (exists k c, (k < tK pp)%nat /\ In c square /\ 0 < at4 pp n k (fst c) (snd c)) ->
     (exists total, 0 < total /\ forall k, (k < tK pp)%nat -> at4 sp n k i j * total == qsum (map (fun c => at4 pp n k (fst c) (snd c)) square)) /\
     qsum (map (fun k => at4 sp n k i j) (seq 0 (tK pp))) == 1).
Proof.
  intros Hc H2 Hd. destruct (downsample_shape _ _ _ _ _ Hc Hd) as (Hf & _ & _ & D3 & D4 & _ & _ & _ & D8 & D9 & _).
  assert (EH : (f * tH sp = tH pp)%nat) by lia. assert (EW : (f * tW sp = tW pp)%nat) by lia. split; [auto|].
  intros n i j Hi Hj. exists (square f i j). split; [apply square_NoDup|]. split; [apply square_length|]. split.
  { intros a b. rewrite square_in by auto. split; [|tauto]. intros (E1 & E2).
    pose proof (Nat.mul_succ_div_gt a f). pose proof (Nat.mul_succ_div_gt b f). subst i j.
    split; [|split; [|auto]]; nia. }
  unfold downsample_arrays in Hd. destruct (Nat.eqb_spec f 1); [lia|]. destruct (Nat.eqb_spec f 0); [lia|].
  destruct (negb (Nat.eqb (tH pp mod f) 0) || negb (Nat.eqb (tW pp mod f) 0))%bool; [discriminate|]. injection Hd as <- <-. cbn [at3 at4 tK].
  assert (P2 : 0 < Qnat (f * f)) by (apply Qnat_pos; nia). split.
  - cbv zeta. rewrite block_square. cbv beta. set (mean := _ / _).
    assert (M : 0 <= mean).
    { unfold mean. apply Qle_shift_div_l; [exact P2|]. setoid_replace (0 * Qnat (f * f)) with 0 by ring. apply qsum_nonneg. intros x Hx. apply in_map_iff in Hx as (c & <- & _). apply Qnat_nonneg. }
    destruct (round_half_even_bound mean) as (B1 & B2).
    assert (Z : (0 <= round_half_even mean)%Z).
    { destruct (Z_lt_le_dec (round_half_even mean) 0) as [L|L]; [exfalso|exact L]. assert (L2 : (round_half_even mean <= -1)%Z) by lia.
      rewrite Zle_Qle in L2. change (inject_Z (-1)) with (-1) in L2. lra. }
    unfold Qnat. rewrite Z2Nat.id by exact Z. lra.
  - intros H0 (k0 & c0 & Hk0 & Hc0 & P0). set (T := qsum (tab (tK pp) (fun k' => block f (fun i' j' => at4 pp n k' i' j') i j))).
    assert (B0 : forall k, 0 <= qsum (map (fun c => at4 pp n k (fst c) (snd c)) (square f i j))).
    { intros k. apply qsum_nonneg. intros x Hx. apply in_map_iff in Hx as (c & <- & _). apply H0. }
    assert (BB : forall k, 0 <= block f (fun i' j' => at4 pp n k i' j') i j).
    { intros k. rewrite block_square. apply Qle_shift_div_l; [exact P2|]. setoid_replace (0 * Qnat (f * f)) with 0 by ring. apply B0. }
    assert (PT : 0 < T).
    { apply Qlt_le_trans with (block f (fun i' j' => at4 pp n k0 i' j') i j).
      - rewrite block_square. apply Qlt_shift_div_l; [exact P2|]. setoid_replace (0 * Qnat (f * f)) with 0 by ring. apply Qlt_le_trans with (at4 pp n k0 (fst c0) (snd c0)); [exact P0|].
        apply qsum_ge_in; [intros x Hx; apply in_map_iff in Hx as (c & <- & _); apply H0|]. apply in_map_iff. eauto.
      - apply qsum_ge_in; [intros x Hx; unfold tab in Hx; apply in_map_iff in Hx as (k & <- & _); apply BB|]. unfold tab. apply in_map_iff. exists k0. split; [reflexivity|]. apply in_seq. lia. }
    split.
    + exists (T * Qnat (f * f)). split; [nra|]. intros k Hk. rewrite block_square. field. split; lra.
    + assert (G : forall s, qsum (map (fun k => block f (fun i' j' => at4 pp n k i' j') i j / T) s) == qsum (map (fun k => block f (fun i' j' => at4 pp n k i' j') i j) s) / T).
      { induction s as [|x s IH]; cbn [map]; [change (qsum []) with 0; field; lra|]. rewrite !qsum_cons, IH. field. lra. }
      rewrite G. fold (tab (tK pp) (fun k => block f (fun i' j' => at4 pp n k i' j') i j)). fold T. field. lra.
Qed.
