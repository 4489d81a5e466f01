(** * Proofs about label issues found from features *)
From Coq Require Import QArith List Bool Arith ZArith Lia Permutation Lqa.
From Verif Require Import Base BaseFacts ModelUtil ModelCount ProofCount ModelRank ModelFilter ModelBatched ModelLearn ProofNoniid.
From Verif Require Import ProofOutlierCheck ProofCV ModelLabelCheck SpecLabelCheck.
Import ListNotations.
Open Scope Q_scope.

Section Rows.
  Variables (labels : list nat) (K k : nat).
  Definition votes (nb : list nat) (c : nat) : nat := count c (map (fun j => nth j labels 0%nat) nb).
  Definition own (i c : nat) : nat := if Nat.eqb c (nth i labels 0%nat) then 1%nat else 0%nat.
  Definition row_of (i : nat) (nb : list nat) : list Q := remove_own_vote k (nth i labels 0%nat) (vote_probs labels K nb).
  Lemma row_len i nb : length (row_of i nb) = K.
  Proof. unfold row_of, remove_own_vote, vote_probs. rewrite map_length, combine_length, !seq_length, map_length, seq_length. lia. Qed.
  Lemma votes_cons j nb c : votes (j :: nb) c = ((if Nat.eqb (nth j labels 0%nat) c then 1 else 0) + votes nb c)%nat.
  Proof. unfold votes, count. cbn [map count_occ]. destruct (Nat.eq_dec (nth j labels 0%nat) c) as [H|H]. { apply Nat.eqb_eq in H. rewrite H. reflexivity. } apply Nat.eqb_neq in H. rewrite H. auto. Qed.
  Lemma other_cons j nb i c : other_votes labels (j :: nb) i c =
    ((if (negb (Nat.eqb j i) && Nat.eqb (nth j labels 0%nat) c)%bool then 1 else 0) + other_votes labels nb i c)%nat.
  Proof. unfold other_votes. cbn [filter]. destruct (_ && _)%bool; auto. Qed.
  Lemma votes_notin nb i c : ~ In i nb -> votes nb c = other_votes labels nb i c.
  Proof.
    induction nb as [|j nb IH]; intros H; auto. rewrite votes_cons, other_cons, IH by (cbn in H; tauto).
    destruct (Nat.eqb j i) eqn:E; [apply Nat.eqb_eq in E; subst; cbn in H; tauto|]. auto.
  Qed.
  Lemma votes_in nb i c : NoDup nb -> In i nb -> votes nb c = (other_votes labels nb i c + own i c)%nat.
  Proof.
    induction nb as [|j nb IH]; intros ND H; [destruct H|]. inversion_clear ND. rewrite votes_cons, other_cons.
    destruct (Nat.eq_dec j i) as [->|N].
    - rewrite Nat.eqb_refl. cbn [negb andb]. rewrite <- votes_notin by auto. unfold own. rewrite (Nat.eqb_sym c). lia.
    - destruct H as [|H]; [congruence|]. rewrite IH by auto. apply Nat.eqb_neq in N. rewrite N. cbn [negb andb]. lia.
  Qed.
  Lemma votes_le nb c : (votes nb c <= length nb)%nat.
  Proof. unfold votes, count. pose proof (count_occ_bound Nat.eq_dec c (map (fun j => nth j labels 0%nat) nb)). rewrite map_length in H. auto. Qed.
  Hypothesis Hk : (1 <= k)%nat.
  Lemma kQ : 0 < Qnat k. Proof. apply Qnat_pos. lia. Qed.
  Lemma row_nth i nb c : length nb = (k + 1)%nat -> (c < K)%nat -> nth c (row_of i nb) 0 == (Qnat (votes nb c) - Qnat (own i c)) / Qnat k.
  Proof.
    intros L Hc. unfold row_of, remove_own_vote.
    rewrite nth_map_gen with (d' := (0%nat, 0)) by (unfold vote_probs; rewrite combine_length, !map_length, !seq_length; lia).
    rewrite combine_nth by (rewrite seq_length; auto). assert (LV : length (vote_probs labels K nb) = K) by (unfold vote_probs; rewrite map_length, seq_length; auto).
    rewrite LV, seq_nth by auto. cbn [fst snd plus]. unfold vote_probs.
    rewrite nth_map_gen with (d' := 0%nat) by (rewrite seq_length; auto). rewrite seq_nth by auto. cbn [plus]. fold (votes nb c). rewrite L.
    unfold own. pose proof kQ. assert (H2 : 0 < Qnat (k + 1)) by (apply Qnat_pos; lia).
    destruct (Nat.eqb c (nth i labels 0%nat)); [change (Qnat 1) with 1|change (Qnat 0) with 0]; field; split; lra.
  Qed.
End Rows.

(** sums of votes over the classes *)
Lemma qsum_map_ext {A} (f g : A -> Q) l : (forall x, In x l -> f x == g x) -> qsum (map f l) == qsum (map g l).
Proof. unfold qsum. induction l as [|a l IH]; intros H; cbn; [lra|]. rewrite (H a) by (left; auto). rewrite IH by (intros; apply H; right; auto). lra. Qed.
Lemma qsum_scaled {A} (f : A -> Q) c l : qsum (map (fun x => f x / c) l) == qsum (map f l) / c.
Proof. unfold qsum. induction l as [|a l IH]; cbn [map fold_right]. { unfold Qdiv. ring. } rewrite IH. unfold Qdiv. ring. Qed.
Lemma qsum_minus {A} (f g : A -> Q) l : qsum (map (fun x => f x - g x) l) == qsum (map f l) - qsum (map g l).
Proof. unfold qsum. induction l as [|a l IH]; cbn; [lra|]. rewrite IH. lra. Qed.
Lemma indicator_sum v K : (v < K)%nat -> forall s, (s <= v)%nat -> qsum (map (fun c => Qnat (if Nat.eqb c v then 1 else 0)) (seq s (K - s))) == 1.
Proof.
  intros Hv s Hs. remember (K - s)%nat as m. revert s Hs Heqm. induction m as [|m IH]; intros s Hs E; [lia|]. cbn.
  destruct (Nat.eqb s v) eqn:Es.
  - apply Nat.eqb_eq in Es. subst s. assert (Z : qsum (map (fun c => Qnat (if Nat.eqb c v then 1 else 0)) (seq (S v) m)) == 0).
    { clear. assert (H : forall c, In c (seq (S v) m) -> Nat.eqb c v = false). { intros c Hc. apply in_seq in Hc. apply Nat.eqb_neq. lia. }
      induction (seq (S v) m) as [|a l IH]; cbn; [lra|]. rewrite (H a) by (left; auto). rewrite IH by (intros; apply H; right; auto). change (Qnat 0) with 0. lra. }
    fold (qsum (map (fun c => Qnat (if Nat.eqb c v then 1 else 0)) (seq (S v) m))). rewrite Z. change (Qnat 1) with 1. lra.
  - apply Nat.eqb_neq in Es. fold (qsum (map (fun c => Qnat (if Nat.eqb c v then 1 else 0)) (seq (S s) m))). rewrite IH by lia. change (Qnat 0) with 0. lra.
Qed.
Lemma votes_sum labels K nb : (forall j, In j nb -> (nth j labels 0 < K)%nat) -> qsum (map (fun c => Qnat (votes labels nb c)) (seq 0 K)) == Qnat (length nb).
Proof.
  induction nb as [|j nb IH]; intros H.
  - unfold votes. cbn. clear H. assert (G : forall l, qsum (map (fun c => Qnat (count c [])) l) == Qnat 0).
    { induction l as [|a l IHl]; cbn; [reflexivity|]. fold (qsum (map (fun _ : nat => Qnat 0) l)). change (qsum (map (fun c => Qnat (count c [])) l)) with (qsum (map (fun _ : nat => Qnat 0) l)) in IHl. rewrite IHl. change (Qnat 0) with 0. lra. }
    apply G.
  - rewrite (qsum_map_ext _ (fun c => Qnat (if Nat.eqb c (nth j labels 0%nat) then 1 else 0) - (- Qnat (votes labels nb c)))).
    + rewrite qsum_minus. pose proof (indicator_sum (nth j labels 0%nat) K (H j (or_introl eq_refl)) 0 ltac:(lia)) as I. rewrite Nat.sub_0_r in I. rewrite I.
      rewrite (qsum_map_ext (fun c => - Qnat (votes labels nb c)) (fun c => 0 - Qnat (votes labels nb c))) by (intros; lra). rewrite qsum_minus, IH by (intros; apply H; right; auto).
      cbn [length]. rewrite Qnat_S1. assert (Z : qsum (map (fun _ : nat => 0) (seq 0 K)) == 0) by (clear; induction (seq 0 K) as [|a l IH]; cbn; [lra|rewrite IH; lra]). rewrite Z. lra.
    + intros c Hc. rewrite votes_cons, Qnat_add. rewrite (Nat.eqb_sym c). lra.
Qed.

Lemma fpp_ok k labels K nbs pp : features_pred_probs k labels K nbs = Ok pp ->
  (k + 1 <= length labels)%nat /\ length pp = length labels /\ forall i, (i < length labels)%nat -> nth i pp [] = row_of labels K k i (nth i nbs []).
Proof.
  unfold features_pred_probs. destruct (Nat.ltb _ _) eqn:E; [discriminate|]. apply Nat.ltb_ge in E. intros H. injection H as <-.
  split; auto. rewrite map_length, seq_length. split; auto. intros i Hi. rewrite nth_map_gen with (d' := 0%nat) by (rewrite seq_length; auto).
  rewrite seq_nth by auto. auto.
Qed.
Lemma self_found dist n k i nb : (forall j, 0 <= dist i j) -> dist i i == 0 -> (i < n)%nat -> nearest dist n (k + 1) i nb ->
  (copies dist n i <= k + 1)%nat -> In i nb.
Proof.
  intros Hd H0 Hi [ND [L [R C]]] Hc. destruct (in_dec Nat.eq_dec i nb) as [|N]; auto. exfalso.
  assert (NI : NoDup (i :: nb)) by (constructor; auto).
  assert (IN : incl (i :: nb) (filter (fun j => Qle_bool (dist i j) 0) (seq 0 n))).
  { intros a [<-|Ha]; apply filter_In; split; try (apply in_seq; lia); try (apply in_seq; specialize (R a Ha); lia); apply Qle_bool_iff; [lra|].
    specialize (C a i Ha Hi N). lra. }
  pose proof (NoDup_incl_length NI IN). unfold copies in Hc. cbn in H. lia.
Qed.
Lemma own_le_votes labels nb i : In (nth i labels 0%nat) (map (fun j => nth j labels 0%nat) nb) -> (1 <= votes labels nb (nth i labels 0%nat))%nat.
Proof. intros H. unfold votes, count. apply (count_occ_In Nat.eq_dec) in H. lia. Qed.

Lemma filter_length_le {A} (f : A -> bool) l : (length (filter f l) <= length l)%nat.
Proof. induction l as [|a l IH]; cbn; auto. destruct (f a); cbn; lia. Qed.
Section Given.
  Variables (dist : nat -> nat -> Q) (labels : list nat) (K k : nat) (nbs : list (list nat)) (pp : list (list Q)).
  Hypothesis Hk : (1 <= k)%nat.
  Hypothesis Hd : forall i j, 0 <= dist i j.
  Hypothesis H0 : forall i, dist i i == 0.
  Hypothesis Hs : search_result dist (length labels) (k + 1) nbs.
  Hypothesis Hpp : features_pred_probs k labels K nbs = Ok pp.
  Lemma C90_votes_full i c : (i < length labels)%nat -> (c < K)%nat -> (copies dist (length labels) i <= k + 1)%nat ->
    nth c (nth i pp []) 0 == Qnat (other_votes labels (nth i nbs []) i c) / Qnat k.
  Proof.
    intros Hi Hc Hcp. destruct (fpp_ok _ _ _ _ _ Hpp) as [_ [_ E]]. rewrite E by auto. destruct Hs as [_ Hn]. specialize (Hn i Hi).
    pose proof Hn as [ND [L [R _]]]. rewrite row_nth by auto. pose proof (self_found dist _ _ _ _ (Hd i) (H0 i) Hi Hn Hcp) as S.
    rewrite (votes_in labels _ i c ND S), Qnat_add. pose proof (kQ k Hk). field. lra.
  Qed.
  Lemma C90_distribution_full i : numbered_classes labels K -> (i < length labels)%nat -> (copies dist (length labels) i <= k + 1)%nat ->
    length (nth i pp []) = K /\ (forall x, In x (nth i pp []) -> 0 <= x <= 1) /\ fold_right Qplus 0 (nth i pp []) == 1.
  Proof.
    intros [_ Hl] Hi Hcp. destruct (fpp_ok _ _ _ _ _ Hpp) as [_ [_ E]]. pose proof Hs as [_ Hn]. specialize (Hn i Hi). pose proof Hn as [ND [L [R _]]].
    pose proof (kQ k Hk) as HkQ. pose proof (self_found dist _ _ _ _ (Hd i) (H0 i) Hi Hn Hcp) as S.
    assert (LK : length (nth i pp []) = K) by (rewrite E by auto; apply row_len). split; auto.
    assert (B : forall c, (other_votes labels (nth i nbs []) i c <= k)%nat).
    { intros c. unfold other_votes. assert (G : (length (filter (fun j => negb (Nat.eqb j i) && Nat.eqb (nth j labels 0%nat) c)%bool (nth i nbs [])) < length (nth i nbs []))%nat); [|lia].
      apply in_split in S. destruct S as [a [b ->]]. rewrite filter_app. cbn [filter]. rewrite Nat.eqb_refl. cbn [negb andb]. rewrite !app_length. cbn [length].
      pose proof (filter_length_le (fun j => negb (Nat.eqb j i) && Nat.eqb (nth j labels 0%nat) c)%bool a). pose proof (filter_length_le (fun j => negb (Nat.eqb j i) && Nat.eqb (nth j labels 0%nat) c)%bool b). lia. }
    split.
    - intros x Hx. apply (In_nth _ _ 0) in Hx. destruct Hx as [c [Hc <-]]. rewrite LK in Hc. rewrite C90_votes_full by auto. specialize (B c).
      apply Qnat_le' in B. assert (0 <= Qnat (other_votes labels (nth i nbs []) i c)) by apply Qnat_nonneg.
      split; [apply Qle_shift_div_l; lra|apply Qle_shift_div_r; lra].
    - rewrite E by auto. rewrite <- (map_nth_seq' (row_of labels K k i (nth i nbs [])) 0), row_len.
      change (fold_right Qplus 0) with qsum. rewrite (qsum_map_ext _ (fun c => (Qnat (votes labels (nth i nbs []) c) - Qnat (own labels i c)) / Qnat k)).
      + rewrite qsum_scaled, qsum_minus, votes_sum, L.
        * assert (O : qsum (map (fun c => Qnat (own labels i c)) (seq 0 K)) == 1).
          { pose proof (indicator_sum (nth i labels 0%nat) K ltac:(apply Hl, nth_In; auto) 0 ltac:(lia)) as I. rewrite Nat.sub_0_r in I. exact I. }
          rewrite O, Qnat_add. change (Qnat 1) with 1. field. lra.
        * intros j Hj. apply Hl, nth_In. apply R. auto.
      + intros c Hc. apply in_seq in Hc. apply row_nth; auto. lia.
  Qed.
End Given.

Lemma other_votes_ext labels labels' nb i c : (forall j, j <> i -> nth j labels 0%nat = nth j labels' 0%nat) -> other_votes labels nb i c = other_votes labels' nb i c.
Proof.
  intros H. unfold other_votes. f_equal. apply filter_ext. intros j. destruct (Nat.eqb j i) eqn:E; auto. apply Nat.eqb_neq in E. rewrite H; auto.
Qed.
Lemma C90_own_label_full dist labels labels' K k nbs pp pp' i c : (1 <= k)%nat -> (forall i j, 0 <= dist i j) -> (forall i, dist i i == 0) ->
  search_result dist (length labels) (k + 1) nbs -> length labels' = length labels ->
  features_pred_probs k labels K nbs = Ok pp -> features_pred_probs k labels' K nbs = Ok pp' ->
  (forall j, j <> i -> nth j labels 0%nat = nth j labels' 0%nat) -> (i < length labels)%nat -> (c < K)%nat -> (copies dist (length labels) i <= k + 1)%nat ->
  nth c (nth i pp []) 0 == nth c (nth i pp' []) 0.
Proof.
  intros Hk Hd H0 Hs L H H' E Hi Hc Hcp. rewrite (C90_votes_full dist labels K k nbs pp) by auto.
  rewrite (C90_votes_full dist labels' K k nbs pp') by (rewrite ?L; auto). rewrite (other_votes_ext labels labels'); auto. lra.
Qed.

(** outcome of the validation *)
Lemma unique_numbered labels K : numbered_classes labels K -> (2 <= length (unique labels))%nat /\ nmax labels = (K - 1)%nat /\ labels <> [].
Proof.
  intros [HK Hl]. assert (N : labels <> []). { intros ->. assert (In 0%nat []) by (apply Hl; lia). auto. } split; [|split]; auto.
  - assert (I : incl [0%nat; 1%nat] (unique labels)). { intros x [<-|[<-|[]]]; apply in_unique, Hl; lia. }
    apply NoDup_incl_length in I; auto. repeat constructor; cbn; intuition lia.
  - pose proof (nmax_in labels N) as M. apply Hl in M. assert (In (K - 1)%nat labels) by (apply Hl; lia). apply nmax_ge in H. lia.
Qed.
Lemma C90_outcome_full labels K k nbs pp : (1 <= k)%nat -> (Z.of_nat k < 1000000)%Z -> numbered_classes labels K ->
  (forall i, (i < length labels)%nat -> length (nth i nbs []) = (k + 1)%nat /\ forall j, In j (nth i nbs []) -> (j < length labels)%nat) ->
  features_pred_probs k labels K nbs = Ok pp ->
  let alone i := (i < length labels)%nat /\ forall j, In j (nth i nbs []) -> nth j labels 0%nat <> nth i labels 0%nat in
  ((exists i, alone i) <-> assert_valid_inputs labels pp K false = Raise ValueError) /\
  ((forall i, ~ alone i) <-> assert_valid_inputs labels pp K false = Ok tt).
Proof.
  intros Hk Hbig Hnum Hnb Hpp alone. destruct (fpp_ok _ _ _ _ _ Hpp) as [Hn [Lp E]]. pose proof (kQ k Hk) as HkQ.
  destruct (unique_numbered _ _ Hnum) as [HU [HM HN]]. pose proof Hnum as [HK Hl].
  assert (A : assert_valid_inputs labels pp K false = if (Qltb (qminimum (concat pp)) (0 - FLOATING_POINT_COMPARISON) || Qltb (1 + FLOATING_POINT_COMPARISON) (qmaximum (concat pp)))%bool then Raise ValueError else Ok tt).
  { unfold assert_valid_inputs. destruct labels as [|x l] eqn:EL; [congruence|]. rewrite <- EL in *. cbn [negb andb].
    destruct (Nat.ltb (length (unique labels)) 2) eqn:E1; [apply Nat.ltb_lt in E1; lia|].
    rewrite Lp, Nat.eqb_refl. cbn [negb]. rewrite HM. destruct (Nat.ltb K (K - 1 + 1)) eqn:E2; [apply Nat.ltb_lt in E2; lia|]. auto. }
  rewrite A. unfold FLOATING_POINT_COMPARISON.
  assert (RN : forall i c, (i < length labels)%nat -> (c < K)%nat -> nth c (nth i pp []) 0 == (Qnat (votes labels (nth i nbs []) c) - Qnat (own labels i c)) / Qnat k).
  { intros i c Hi Hc. rewrite E by auto. apply row_nth; auto. apply Hnb; auto. }
  assert (BAD : (exists i, alone i) -> Qltb (qminimum (concat pp)) (0 - (1 # 1000000)) = true).
  { intros [i [Hi Ha]]. apply Qltb_iff. set (c := nth i labels 0%nat). assert (Hc : (c < K)%nat) by (apply Hl, nth_In; auto).
    apply Qle_lt_trans with (nth c (nth i pp []) 0).
    - apply qminimum_le. apply in_concat. exists (nth i pp []). split; [apply nth_In; lia|]. apply nth_In. rewrite E, row_len by auto. auto.
    - rewrite RN by auto. assert (V : votes labels (nth i nbs []) c = 0%nat).
      { unfold votes, count. apply count_occ_not_In. intros I. apply in_map_iff in I. destruct I as [j [Ej Ij]]. apply (Ha j Ij). auto. }
      assert (O : own labels i c = 1%nat) by (unfold own, c; rewrite Nat.eqb_refl; auto). rewrite V, O. change (Qnat 0) with 0. change (Qnat 1) with 1.
      apply Qlt_shift_div_r; auto. assert (KB : Qnat k < 1000000). { unfold Qnat. unfold Qlt. cbn. lia. } lra. }
  assert (GOOD : (forall i, ~ alone i) -> (Qltb (qminimum (concat pp)) (0 - (1 # 1000000)) || Qltb (1 + (1 # 1000000)) (qmaximum (concat pp)))%bool = false).
  { intros Hno.
    assert (RB : forall x, In x (concat pp) -> 0 <= x <= 1).
    { intros x Hx. apply in_concat in Hx. destruct Hx as [row [Hrow Hx]]. apply (In_nth _ _ []) in Hrow. destruct Hrow as [i [Hi <-]]. rewrite Lp in Hi.
      apply (In_nth _ _ 0) in Hx. destruct Hx as [c [Hc <-]]. rewrite E, row_len in Hc by auto. rewrite RN by auto.
      destruct (Hnb i Hi) as [Li Ri].
      assert (IN : In (nth i labels 0%nat) (map (fun j => nth j labels 0%nat) (nth i nbs []))).
      { destruct (in_dec Nat.eq_dec (nth i labels 0%nat) (map (fun j => nth j labels 0%nat) (nth i nbs []))) as [|N]; auto. exfalso. apply (Hno i). split; auto.
        intros j Hj Ej. apply N. apply in_map_iff. exists j. auto. }
      apply own_le_votes in IN.
      assert (B : (own labels i c <= votes labels (nth i nbs []) c /\ votes labels (nth i nbs []) c - own labels i c <= k)%nat).
      { unfold own. destruct (Nat.eqb c (nth i labels 0%nat)) eqn:Ec.
        - apply Nat.eqb_eq in Ec. rewrite Ec. pose proof (votes_le labels (nth i nbs []) (nth i labels 0%nat)). lia.
        - apply Nat.eqb_neq in Ec. split; [lia|]. assert (votes labels (nth i nbs []) c + votes labels (nth i nbs []) (nth i labels 0%nat) <= length (nth i nbs []))%nat; [|lia].
          clear - Ec. induction (nth i nbs []) as [|j nb IH]; cbn [length]; [cbn; lia|]. rewrite !votes_cons.
          destruct (Nat.eqb (nth j labels 0%nat) c) eqn:E1, (Nat.eqb (nth j labels 0%nat) (nth i labels 0%nat)) eqn:E2; try lia.
          apply Nat.eqb_eq in E1, E2. congruence. }
      destruct B as [B1 B2]. rewrite <- Qnat_sub by auto. apply Qnat_le' in B2. pose proof (Qnat_nonneg (votes labels (nth i nbs []) c - own labels i c)).
      split; [apply Qle_shift_div_l; lra|apply Qle_shift_div_r; lra]. }
    assert (NE : concat pp <> []).
    { destruct pp as [|r pp']; [cbn in Lp; destruct labels; [congruence|discriminate]|]. assert (LR : length r = K).
      { specialize (E 0%nat ltac:(lia)). cbn in E. rewrite E. apply row_len. } destruct r; [cbn in LR; lia|]. discriminate. }
    apply orb_false_iff. split; apply Qltb_false.
    - pose proof (RB _ (qminimum_in _ NE)). lra.
    - pose proof (RB _ (qmaximum_in _ NE)). lra. }
  assert (DEC : (exists i, alone i) \/ (forall i, ~ alone i)).
  { assert (D : forall i, (i < length labels)%nat -> {forall j, In j (nth i nbs []) -> nth j labels 0%nat <> nth i labels 0%nat} + {~ (forall j, In j (nth i nbs []) -> nth j labels 0%nat <> nth i labels 0%nat)}).
    { intros i _. destruct (in_dec Nat.eq_dec (nth i labels 0%nat) (map (fun j => nth j labels 0%nat) (nth i nbs []))) as [I|I].
      - right. intros H. apply in_map_iff in I. destruct I as [j [Ej Ij]]. apply (H j Ij). auto.
      - left. intros j Hj Ej. apply I. apply in_map_iff. exists j; auto. }
    assert (G : forall n, (n <= length labels)%nat -> (exists i, (i < n)%nat /\ alone i) \/ (forall i, (i < n)%nat -> ~ alone i)).
    { induction n as [|n IH]; intros Hle; [right; intros; lia|]. destruct IH as [[i [Hi A']]|IH]; [lia|left; exists i; split; auto; lia|].
      destruct (D n ltac:(lia)) as [Y|Y].
      - left. exists n. split; [lia|]. split; auto.
      - right. intros i Hi. destruct (Nat.eq_dec i n) as [->|]; [intros [_ X]; auto|apply IH; lia]. }
    destruct (G (length labels) (Nat.le_refl _)) as [[i [_ A']]|G']; [left; eauto|right]. intros i A'. apply (G' i); auto. apply A'. }
  destruct DEC as [Y|Nn].
  - rewrite (BAD Y). cbn [orb]. split; split; auto; try discriminate. intros H. destruct Y as [i Yi]. destruct (H i Yi).
  - rewrite (GOOD Nn). split; split; auto; try discriminate. intros [i Yi]. destruct (Nn i Yi).
Qed.

Lemma C90_run_full srt minv js cfg k labels K nbs pp thresholds noise inverse save s : features_pred_probs k labels K nbs = Ok pp -> (1 <= length labels)%nat ->
  assert_valid_inputs labels pp K false = Raise ValueError ->
  label_find_issues srt minv js cfg k labels K None (Some nbs) thresholds noise inverse save s = (s, Raise ValueError).
Proof.
  intros H Hn A. unfold label_find_issues, mbind, lift. rewrite H. unfold find_label_issues, mbind, lift, valid_inputs. cbn [ds_pred_probs ds_labels].
  destruct (fpp_ok _ _ _ _ _ H) as [_ [L E]]. unfold width. rewrite E, row_len by lia. rewrite A. auto.
Qed.

(** more classes than neighbours among copies *)
Lemma C90_copies_full labels k nb dup : (forall j, In j nb -> (j < length labels)%nat) -> length nb = (k + 1)%nat ->
  NoDup (map (fun i => nth i labels 0%nat) dup) -> (k + 1 < length dup)%nat ->
  exists i, In i dup /\ forall j, In j nb -> nth j labels 0%nat <> nth i labels 0%nat.
Proof.
  intros R L ND Hlt. destruct (existsb (fun i => negb (existsb (fun j => Nat.eqb (nth j labels 0%nat) (nth i labels 0%nat)) nb)) dup) eqn:E.
  - apply existsb_exists in E. destruct E as [i [Hi E]]. exists i. split; auto. intros j Hj Ej. apply negb_true_iff in E.
    assert (X : existsb (fun j => Nat.eqb (nth j labels 0%nat) (nth i labels 0%nat)) nb = true) by (apply existsb_exists; exists j; split; auto; apply Nat.eqb_eq; auto). congruence.
  - exfalso. assert (I : incl (map (fun i => nth i labels 0%nat) dup) (map (fun j => nth j labels 0%nat) nb)).
    { intros c Hc. apply in_map_iff in Hc. destruct Hc as [i [<- Hi]].
      destruct (existsb (fun j => Nat.eqb (nth j labels 0%nat) (nth i labels 0%nat)) nb) eqn:E'.
      - apply existsb_exists in E'. destruct E' as [j [Hj E']]. apply Nat.eqb_eq in E'. apply in_map_iff. exists j; auto.
      - assert (X : existsb (fun i => negb (existsb (fun j => Nat.eqb (nth j labels 0%nat) (nth i labels 0%nat)) nb)) dup = true) by (apply existsb_exists; exists i; split; auto; rewrite E'; auto). congruence. }
    apply NoDup_incl_length in I; auto. rewrite !map_length in I. lia.
Qed.
Lemma C90_copies_fail_full srt minv js cfg k labels K nbs thresholds noise inverse save s dup nb : (1 <= k)%nat -> (Z.of_nat k < 1000000)%Z ->
  numbered_classes labels K -> (k + 1 <= length labels)%nat ->
  (forall i, (i < length labels)%nat -> length (nth i nbs []) = (k + 1)%nat /\ forall j, In j (nth i nbs []) -> (j < length labels)%nat) ->
  (forall i, In i dup -> (i < length labels)%nat /\ nth i nbs [] = nb) ->
  NoDup (map (fun i => nth i labels 0%nat) dup) -> (k + 1 < length dup)%nat ->
  label_find_issues srt minv js cfg k labels K None (Some nbs) thresholds noise inverse save s = (s, Raise ValueError).
Proof.
  intros Hk Hb Hnum Hn Hnb Hdup ND Hlt.
  destruct (features_pred_probs k labels K nbs) as [pp|e] eqn:E.
  2:{ unfold features_pred_probs in E. destruct (Nat.ltb (length labels) (k + 1)) eqn:E1; [apply Nat.ltb_lt in E1; lia|discriminate]. }
  eapply C90_run_full; eauto; [lia|]. apply (C90_outcome_full labels K k nbs pp Hk Hb Hnum Hnb E).
  assert (D : exists i0, In i0 dup) by (destruct dup as [|i0 ?]; [cbn in Hlt; lia|exists i0; left; auto]).
  destruct D as [i0 D]. destruct (Hdup i0 D) as [Hi0 Enb]. destruct (Hnb i0 Hi0) as [L R]. rewrite Enb in *.
  destruct (C90_copies_full labels k nb dup R L ND Hlt) as [i [Hi A]]. exists i. destruct (Hdup i Hi) as [Hli Ei]. split; auto. rewrite Ei. auto.
Qed.
Lemma C90_given_full srt minv js cfg k labels K pp f thresholds noise inverse save s :
  label_find_issues srt minv js cfg k labels K (Some pp) f thresholds noise inverse save s =
  label_find_issues srt minv js cfg k labels K (Some pp) None thresholds noise inverse save s /\
  label_find_issues srt minv js cfg k labels K None None thresholds noise inverse save s = (s, Raise ValueError) /\
  (forall nbs, (length labels < k + 1)%nat -> label_find_issues srt minv js cfg k labels K None (Some nbs) thresholds noise inverse save s = (s, Raise ValueError)).
Proof.
  split; [auto|]. split; [auto|]. intros nbs H. unfold label_find_issues, features_pred_probs. apply Nat.ltb_lt in H. rewrite H. auto.
Qed.
