(** * Proofs for C164 *)
From Coq Require Import QArith Qabs Qround List Permutation Sorted ZArith Bool Arith Lia Lqa Setoid Morphisms.
From Verif Require Import Base BaseFacts ModelUtil ModelCount ModelFilter ModelIssueCount SpecCount SpecFilter
     SpecIssueCount SpecCalibCount ProofUtil ProofCount ProofFilter ProofIssueCount ProofIdeal ProofApprox.
Import ListNotations.
Open Scope Q_scope.
Opaque TINY_VALUE.

Lemma zsum_tab_plus n f g : zsum (tab n (fun i => f i + g i)%Z) = (zsum (tab n f) + zsum (tab n g))%Z.
Proof. unfold tab. induction (seq 0 n) as [|a l IH]; cbn [map]; [reflexivity|]. unfold zsum in *. cbn [fold_right]. lia. Qed.
Lemma zsum_tab_le n f g : (forall i, (i < n)%nat -> (f i <= g i)%Z) -> (zsum (tab n f) <= zsum (tab n g))%Z.
Proof.
  intros H. assert (0 <= zsum (tab n (fun i => g i - f i)))%Z; [|rewrite zsum_tab_minus in *; lia].
  apply zsum_nonneg. intros x Hx. apply in_tab in Hx as (i & Hi & ->). specialize (H i Hi). lia.
Qed.
Lemma zsum_tab_zero n : zsum (tab n (fun _ => 0%Z)) = 0%Z.
Proof. unfold tab. induction (seq 0 n) as [|a l IH]; cbn [map]; [reflexivity|]. unfold zsum in *. cbn [fold_right]. lia. Qed.
Lemma zsum_tab_point n g c : (g < n)%nat -> zsum (tab n (fun j => if Nat.eqb g j then c else 0%Z)) = c.
Proof.
  intros H. rewrite (zsum_tab_split n g) by auto. rewrite Nat.eqb_refl.
  rewrite (zsum_tab_ext n _ (fun _ => 0%Z)); [rewrite zsum_tab_zero; lia|].
  intros j _. destruct (Nat.eqb g j); auto.
Qed.

(** counting by a class *)
Lemma count_by_class K (p : nat -> bool) (g : nat -> nat) L : (forall e, In e L -> p e = true -> (g e < K)%nat) ->
  zsum (tab K (fun j => Z.of_nat (length (filter (fun e => p e && Nat.eqb (g e) j)%bool L)))) = Z.of_nat (length (filter p L)).
Proof.
  induction L as [|a L IH]; intros H; [apply zsum_tab_zero|].
  rewrite (zsum_tab_ext K _ (fun j => (if p a then if Nat.eqb (g a) j then 1 else 0 else 0) +
     Z.of_nat (length (filter (fun e => p e && Nat.eqb (g e) j)%bool L)))%Z).
  2:{ intros j _. cbn [filter]. destruct (p a), (Nat.eqb (g a) j); cbn [andb length]; lia. }
  rewrite zsum_tab_plus, IH by (intros; apply H; auto; right; auto). cbn [filter].
  destruct (p a) eqn:Ea.
  - rewrite zsum_tab_point by (apply H; auto; left; auto). cbn [length]. lia.
  - rewrite zsum_tab_zero. lia.
Qed.

Lemma zsum_flags n (b : nat -> bool) : zsum (tab n (fun k => if b k then 1 else 0)%Z) = Z.of_nat (length (filter b (seq 0 n))).
Proof.
  unfold tab. induction (seq 0 n) as [|a l IH]; cbn [map filter]; [reflexivity|].
  unfold zsum in *. cbn [fold_right]. rewrite IH. destruct (b a); cbn [length]; lia.
Qed.
Lemma filter_split {A} (p q : A -> bool) L :
  length (filter p L) = (length (filter (fun e => p e && q e)%bool L) + length (filter (fun e => p e && negb (q e))%bool L))%nat.
Proof. induction L as [|a L IH]; [reflexivity|]. cbn [filter]. destruct (p a), (q a); cbn [andb negb length]; lia. Qed.
Lemma filter_le {A} (p q : A -> bool) L : (forall e, In e L -> p e = true -> q e = true) -> (length (filter p L) <= length (filter q L))%nat.
Proof.
  induction L as [|a L IH]; intros H; [auto|]. cbn [filter].
  assert (length (filter p L) <= length (filter q L))%nat by (apply IH; intros; apply H; auto; right; auto).
  destruct (p a) eqn:Ep.
  - rewrite (H a (or_introl eq_refl) Ep). cbn [length]. lia.
  - destruct (q a); cbn [length]; lia.
Qed.
Lemma filter_none {A} (p : A -> bool) L : (forall e, In e L -> p e = false) -> filter p L = [].
Proof.
  induction L as [|a L IH]; intros H; [auto|]. cbn [filter]. rewrite (H a (or_introl eq_refl)).
  apply IH. intros; apply H; right; auto.
Qed.
Lemma n_labelled_seq_gen k labels : forall pre,
  n_labelled k labels = length (filter (fun e => Nat.eqb (nth e (pre ++ labels) 0%nat) k) (seq (length pre) (length labels))).
Proof.
  induction labels as [|l ls IH]; intros pre; [reflexivity|]. cbn [n_labelled length seq filter].
  replace (pre ++ l :: ls) with ((pre ++ [l]) ++ ls) by (rewrite <- app_assoc; reflexivity).
  rewrite (IH (pre ++ [l])). rewrite app_length. cbn [length].
  replace (length pre + 1)%nat with (Datatypes.S (length pre)) by lia.
  assert (nth (length pre) ((pre ++ [l]) ++ ls) 0%nat = l) as ->.
  { rewrite <- app_assoc, app_nth2, Nat.sub_diag by lia. reflexivity. }
  destruct (Nat.eqb l k); cbn [length]; lia.
Qed.
Lemma n_labelled_seq k labels : n_labelled k labels = length (filter (fun e => Nat.eqb (nth e labels 0%nat) k) (seq 0 (length labels))).
Proof. exact (n_labelled_seq_gen k labels []). Qed.

(** one row: [c] confident counts on the diagonal (raised to 1), [f] off it, [n] examples, [z] the calibrated diagonal *)
Lemma row_bound (c f n : nat) (z : Z) : (c + f <= n)%nat -> (0 < n)%nat ->
  Qabs (inject_Z z - inject_Z (Z.max 1 (Z.of_nat c)) * Qnat n / (inject_Z (Z.max 1 (Z.of_nat c)) + Qnat f)) < 1 ->
  (Z.of_nat f <= Z.of_nat n - z + (if Nat.eqb f n then 1 else 0))%Z.
Proof.
  intros Hle Hn Hc. set (m := Z.max 1 (Z.of_nat c)) in *.
  assert (Hm : (1 <= m)%Z) by (unfold m; lia).
  assert (P : 0 < inject_Z m + Qnat f).
  { unfold Qnat. rewrite <- inject_Z_plus. change 0 with (inject_Z 0). rewrite <- Zlt_Qlt. lia. }
  assert (U : inject_Z z < inject_Z m * Qnat n / (inject_Z m + Qnat f) + 1) by (apply Qabs_Qlt_condition in Hc; lra).
  assert (M : inject_Z ((z - 1) * (m + Z.of_nat f)) < inject_Z (m * Z.of_nat n)).
  { rewrite !inject_Z_mult. unfold Z.sub. rewrite !inject_Z_plus. change (inject_Z (Z.opp 1)) with (- (1)). fold (Qnat f). fold (Qnat n).
    setoid_replace (inject_Z m * Qnat n) with (inject_Z m * Qnat n / (inject_Z m + Qnat f) * (inject_Z m + Qnat f)) by (field; lra).
    apply Qmult_lt_r; auto. lra. }
  rewrite <- Zlt_Qlt in M. destruct (Nat.eqb_spec f n) as [->|Hne].
  - assert (m = 1%Z) by (unfold m; lia). nia.
  - assert (m + Z.of_nat f <= Z.of_nat n)%Z by (unfold m; lia). nia.
Qed.

Section Count.
  Context (K : nat) (labels : list nat) (pp : list (list Q)) (Hd : dataset K labels pp).
  Let thr := get_confident_thresholds labels pp K.
  Let other e := (row_conf thr (nth e pp []) && negb (Nat.eqb (row_guess thr (nth e pp [])) (nth e labels 0%nat)))%bool.
  Let L := seq 0 (length labels).

  Lemma row_len e : (e < length labels)%nat -> length (nth e pp []) = length thr.
  Proof. intros He. destruct Hd as [Hlen _ _ Hrow _]. unfold thr. rewrite thresholds_length. apply Hrow, nth_In. lia. Qed.
  Lemma other_iff e : (e < length labels)%nat ->
    other e = true <-> exists j, counted_as thr (row_of pp e) j /\ j <> label_of labels e.
  Proof.
    intros He. unfold other. rewrite andb_true_iff, negb_true_iff, Nat.eqb_neq. unfold row_of, label_of. split.
    - intros (A & B). exists (row_guess thr (nth e pp [])). split; auto. apply counted_as_iff; auto using row_len.
    - intros (j & C & Hj). apply counted_as_iff in C as (A & B); auto using row_len. subst j. auto.
  Qed.
  Lemma guess_lt e : (e < length labels)%nat -> row_conf thr (nth e pp []) = true -> (row_guess thr (nth e pp []) < K)%nat.
  Proof.
    intros He A. assert (C : counted_as thr (nth e pp []) (row_guess thr (nth e pp []))) by (apply counted_as_iff; auto using row_len).
    apply counted_as_lt in C. rewrite row_len in C by auto. unfold thr in C at 2. rewrite thresholds_length in C. auto.
  Qed.

  (** examples of class [i] that are confidently counted elsewhere, and on the diagonal *)
  Let off i := length (filter (fun e => other e && Nat.eqb (nth e labels 0%nat) i)%bool L).
  Let on i := length (filter (ex_counted labels pp thr i i) L).

  Lemma on_off_le i : (on i + off i <= n_labelled i labels)%nat.
  Proof.
    rewrite n_labelled_seq. fold L. rewrite (filter_split _ other L).
    assert (on i <= length (filter (fun e => Nat.eqb (nth e labels 0%nat) i && negb (other e))%bool L))%nat.
    { unfold on. apply filter_le. intros e _ H. unfold ex_counted, other in *.
      apply andb_true_iff in H as (A & H). apply andb_true_iff in H as (B & C). apply Nat.eqb_eq in B, C.
      rewrite A, B, C, !Nat.eqb_refl. reflexivity. }
    assert (off i = length (filter (fun e => Nat.eqb (nth e labels 0%nat) i && other e)%bool L)) as ->; [|lia].
    unfold off. f_equal. apply filter_ext. intros e. apply andb_comm.
  Qed.
  Lemma off_row i : (i < K)%nat ->
    zsum (tab K (fun j => if Nat.eqb i j then 0 else zget (confident_joint_uncalibrated labels pp K thr) i j)%Z) = Z.of_nat (off i).
  Proof.
    intros Hi. destruct Hd as [Hlen _ _ Hrow _].
    unfold off. rewrite <- (count_by_class K (fun e => other e && Nat.eqb (nth e labels 0%nat) i)%bool (fun e => row_guess thr (nth e pp []))).
    - apply zsum_tab_ext. intros j Hj.
      unfold confident_joint_uncalibrated. cbv zeta. unfold zget at 1. rewrite nth_tab by auto. rewrite nth_tab by auto.
      rewrite confusion_cell by auto. fold L. destruct (Nat.eqb_spec i j) as [<-|Hne].
      + rewrite filter_none; [reflexivity|]. intros e He. unfold other.
        destruct (row_conf thr _); cbn [andb]; auto.
        destruct (Nat.eqb_spec (nth e labels 0%nat) i) as [->|]; [|rewrite andb_false_r; reflexivity].
        destruct (Nat.eqb (row_guess thr (nth e pp [])) i); reflexivity.
      + f_equal. f_equal. apply filter_ext. intros e. unfold ex_counted, other.
        destruct (row_conf thr _); cbn [andb]; auto.
        destruct (Nat.eqb_spec (nth e labels 0%nat) i) as [->|]; [|rewrite andb_false_r; reflexivity].
        rewrite andb_true_r. cbn [andb].
        destruct (Nat.eqb_spec (row_guess thr (nth e pp [])) j) as [->|]; [|rewrite andb_false_r; reflexivity].
        destruct (Nat.eqb_spec j i); [congruence|reflexivity].
    - intros e He Hp. unfold L in He. apply in_seq in He. apply guess_lt; [lia|].
      unfold other in Hp. destruct (row_conf thr _); auto.
  Qed.
  Lemma off_all : zsum (tab K (fun i => Z.of_nat (off i))) = Z.of_nat (length (filter other L)).
  Proof.
    unfold off. apply (count_by_class K other (fun e => nth e labels 0%nat)). intros e He _. unfold L in He. apply in_seq in He.
    destruct Hd as [_ _ Hlab _ _]. apply Hlab, nth_In. lia.
  Qed.

  Let stuck i := (Nat.ltb 0 (n_labelled i labels) && Nat.eqb (off i) (n_labelled i labels))%bool.
  Lemma stuck_iff i : stuck i = true <-> all_elsewhere thr labels pp i.
  Proof.
    unfold stuck, all_elsewhere. rewrite andb_true_iff, Nat.ltb_lt, Nat.eqb_eq, n_labelled_pos.
    rewrite n_labelled_seq at 2. fold L. rewrite (filter_split _ other L).
    assert (off i = length (filter (fun e => Nat.eqb (nth e labels 0%nat) i && other e)%bool L)) as ->.
    { unfold off. f_equal. apply filter_ext. intros e. apply andb_comm. }
    split; intros (A & B); split; auto.
    - intros e He El.
      assert (Z : length (filter (fun e => Nat.eqb (nth e labels 0%nat) i && negb (other e))%bool L) = 0%nat) by lia.
      apply length_zero_iff_nil in Z. destruct (other e) eqn:Eo.
      + apply other_iff in Eo as (j & C & Hj); auto. exists j. rewrite El in Hj. auto.
      + exfalso. assert (In e []); [|auto]. rewrite <- Z. apply filter_In. split; [apply in_seq; lia|].
        unfold label_of in El. rewrite El, Nat.eqb_refl, Eo. reflexivity.
    - rewrite (filter_none (fun e => Nat.eqb (nth e labels 0%nat) i && negb (other e))%bool); [simpl; lia|].
      intros e He. unfold L in He. apply in_seq in He.
      destruct (Nat.eqb_spec (nth e labels 0%nat) i) as [El|]; cbn [andb]; auto.
      rewrite (proj2 (other_iff e ltac:(lia))); auto. unfold label_of. rewrite El. apply B; [lia|auto].
  Qed.
  Lemma stuck_holds : holds_for K (all_elsewhere thr labels pp) (length (filter stuck (seq 0 K))).
  Proof.
    exists (filter stuck (seq 0 K)). split; [apply NoDup_filter, seq_NoDup|]. split; auto.
    intros i. rewrite filter_In, in_seq, stuck_iff. split; intros (A & B); split; auto; lia.
  Qed.

  Lemma calib_bound srt z : argsort_ok srt ->
    calibrate_confident_joint srt (zmat_to_q (confident_joint_uncalibrated labels pp K thr)) labels = Ok z ->
    (Z.of_nat (length (filter other L)) <= off_diagonal_total K z + Z.of_nat (length (filter stuck (seq 0 K))))%Z.
  Proof.
    intros Hs E. pose proof Hd as [Hlen Hne Hlab Hrow _].
    pose proof (uncalibrated_cj_ok labels pp thr K) as Hu.
    pose proof (calibrated_counts_ok srt K _ labels z Hs Hu Hne Hlab E) as Hz.
    destruct (calibrate_spec srt K _ labels Hs Hu Hne Hlab) as (z' & E' & HK & H).
    rewrite E in E'. injection E' as <-.
    rewrite <- off_all, <- zsum_flags. unfold off_diagonal_total. rewrite <- zsum_tab_plus.
    apply zsum_tab_le. intros i Hi. destruct (H i Hi) as (Ll & Sz & Cl).
    assert (E2 : zsum (tab K (fun j => if Nat.eqb i j then 0 else zget z i j)%Z) = (Z.of_nat (n_labelled i labels) - zget z i i)%Z).
    { pose proof (zsum_as_tab (nth i z [])) as T. rewrite Ll, Sz in T.
      rewrite (zsum_tab_split K i (fun j => nth j (nth i z []) 0%Z)) in T by auto. unfold zget. lia. }
    destruct (Cl i Hi) as (Z0 & Cd). pose proof (on_off_le i) as Hoo.
    assert (Hnn : (0 <= zsum (tab K (fun j => if Nat.eqb i j then 0 else zget z i j)))%Z).
    { apply zsum_nonneg. intros x Hx. apply in_tab in Hx as (j & Hj & ->). destruct (Nat.eqb i j); [lia|]. apply Cl; auto. }
    destruct (Nat.eq_dec (n_labelled i labels) 0) as [N0|N0]; [destruct (stuck i); lia|].
    rewrite E2. unfold stuck. assert (Nat.ltb 0 (n_labelled i labels) = true) as -> by (apply Nat.ltb_lt; lia). cbn [andb].
    apply (row_bound (on i)); [lia|lia|].
    set (cj := confident_joint_uncalibrated labels pp K thr) in *.
    assert (Dg : zget cj i i = Z.max 1 (Z.of_nat (on i))).
    { unfold cj, confident_joint_uncalibrated. cbv zeta. unfold zget at 1. rewrite nth_tab by auto. rewrite nth_tab by auto.
      rewrite confusion_cell, Nat.eqb_refl by auto. reflexivity. }
    assert (Ss : qsum (nth i (zmat_to_q cj) []) == inject_Z (Z.max 1 (Z.of_nat (on i))) + Qnat (off i)).
    { assert (Lc : length (nth i cj []) = K) by (unfold cj, confident_joint_uncalibrated; rewrite nth_tab by auto; apply tab_length).
      rewrite zmat_row, qsum_inject, (zsum_as_tab (nth i cj [])), Lc.
      rewrite (zsum_tab_split K i (fun j => nth j (nth i cj []) 0%Z)) by auto.
      fold (zget cj i i). rewrite Dg, inject_Z_plus.
      change (zsum (tab K (fun j => if Nat.eqb i j then 0%Z else nth j (nth i cj []) 0%Z)))
        with (zsum (tab K (fun j => if Nat.eqb i j then 0 else zget cj i j)%Z)).
      unfold cj. rewrite off_row by auto. reflexivity. }
    rewrite zmat_get, Dg, Ss in Cd. exact Cd.
  Qed.

  Lemma bound_full srt cj : argsort_ok srt -> two_classes labels ->
    exists n N c, num_label_issues_method srt labels pp K cj OffDiagonal = Ok (Z.of_nat n) /\
      num_label_issues_method srt labels pp K cj OffDiagonalCalibrated = Ok N /\
      holds_for K (all_elsewhere thr labels pp) c /\ (Z.of_nat n <= N + Z.of_nat c)%Z.
  Proof.
    intros Hs H2. destruct (num_issues_holds srt K labels pp Hs Hd H2) as (n & En & idx & ND & Ln & Hi).
    destruct (C91_calibrated_full srt K labels pp cj Hs Hd H2) as (z & ix & Ez & EN & _).
    exists n, (off_diagonal_total K z), (length (filter stuck (seq 0 K))).
    split.
    { unfold num_label_issues in En. unfold num_label_issues_method.
      destruct (assert_valid_inputs labels pp K false); cbn [rbind] in *; [|discriminate]. rewrite En. reflexivity. }
    split; auto. split; [apply stuck_holds|].
    unfold compute_confident_joint in Ez. fold thr in Ez.
    destruct (calibrate_confident_joint srt _ labels) as [z'|] eqn:Ec; cbn [rbind] in Ez; [|discriminate].
    injection Ez as <- _. pose proof (calib_bound srt z' Hs Ec).
    assert (n <= length (filter other L))%nat; [|lia].
    rewrite <- Ln. apply NoDup_incl_length; auto. intros e He. apply Hi in He as (He & (Hj & _)).
    apply filter_In. split; [apply in_seq; lia|]. apply other_iff; auto.
  Qed.
End Count.

Lemma C164_bound_full : forall srt K labels pp cj, argsort_ok srt -> dataset K labels pp -> two_classes labels ->
  exists n N c, num_label_issues_method srt labels pp K cj OffDiagonal = Ok n /\
    num_label_issues_method srt labels pp K cj OffDiagonalCalibrated = Ok N /\
    holds_for K (all_elsewhere (get_confident_thresholds labels pp K) labels pp) c /\ (n <= N + Z.of_nat c)%Z.
Proof.
  intros srt K labels pp cj Hs Hd H2. destruct (bound_full K labels pp Hd srt cj Hs H2) as (n & N & c & A & B & C & D).
  exists (Z.of_nat n), N, c. auto.
Qed.
Lemma C164_at_least_full : forall srt K labels pp cj, argsort_ok srt -> dataset K labels pp -> two_classes labels ->
  (forall k, ~ all_elsewhere (get_confident_thresholds labels pp K) labels pp k) ->
  exists n N, num_label_issues_method srt labels pp K cj OffDiagonal = Ok n /\
    num_label_issues_method srt labels pp K cj OffDiagonalCalibrated = Ok N /\ (n <= N)%Z.
Proof.
  intros srt K labels pp cj Hs Hd H2 Hno. destruct (bound_full K labels pp Hd srt cj Hs H2) as (n & N & c & A & B & C & D).
  exists (Z.of_nat n), N. split; auto. split; auto.
  assert (c = 0%nat); [|lia]. destruct C as (idx & _ & <- & Hi). destruct idx as [|i idx]; auto.
  exfalso. apply (Hno i). apply (Hi i). left. auto.
Qed.
