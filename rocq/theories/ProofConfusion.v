(** * Proofs for C158 *)
From Coq Require Import QArith Qabs Qround List Permutation Sorted ZArith Bool Arith Lia Lqa Setoid Morphisms.
From Verif Require Import Base BaseFacts ModelUtil ModelCount ModelRank ModelPool ModelFilter ModelConfusion
     SpecCount SpecFilter SpecRank SpecIdeal SpecConfusion ProofUtil ProofCount ProofPool ProofFilter ProofRank ProofFrac
     ProofIdeal ProofTotal ProofParts.
Import ListNotations.
Open Scope Q_scope.

Notation baseline := find_label_issues_using_argmax_confusion_matrix.

(** ** the matrix *)
Lemma cm_cell t l : forall tl labels,
  length (filter (fun tp => (Nat.eqb (fst tp) t && Nat.eqb (snd tp) l)%bool) (combine tl labels)) = n_pair l t labels tl.
Proof.
  induction tl as [|a tl IH]; intros [|b labels]; cbn [combine filter n_pair]; auto.
  specialize (IH labels). cbn [fst snd]. destruct (Nat.eqb a t), (Nat.eqb b l); cbn [andb length]; lia.
Qed.
Definition cells (labels tl : list nat) : list (list Z) :=
  map (fun l => map (fun t => Z.of_nat (n_pair l t labels tl)) (unique tl)) (unique labels).
Lemma tab_map_nth {A} (g : nat -> A) u : tab (length u) (fun j => g (nth j u 0%nat)) = map g u.
Proof.
  unfold tab. transitivity (map g (map (fun j => nth j u 0%nat) (seq 0 (length u)))).
  - rewrite map_map. reflexivity.
  - f_equal. apply (list_eq_nth _ _ 0%nat); rewrite map_length, seq_length; auto.
    intros i Hi. rewrite (nth_map_gen _ _ _ _ 0%nat) by (rewrite seq_length; auto). rewrite seq_nth by auto. reflexivity.
Qed.
Lemma cj0_cells labels tl cm : confusion_matrix tl labels = Ok cm ->
  tab (length (unique labels)) (fun j => zcol j cm) = cells labels tl.
Proof.
  unfold confusion_matrix. destruct (negb _); [discriminate|]. intros [= <-].
  unfold cells. rewrite <- (tab_map_nth (fun l => map (fun t => Z.of_nat (n_pair l t labels tl)) (unique tl)) (unique labels)). apply tab_ext. intros j Hj. unfold zcol. rewrite map_map. apply map_ext.
  intro t. rewrite (nth_map_gen _ _ _ _ 0%nat) by auto. rewrite cm_cell. reflexivity.
Qed.

(** ** calibration changes nothing *)
Lemma Forall2_qsum a b : Forall2 Qeq a b -> qsum a == qsum b.
Proof. induction 1; [reflexivity|]. unfold qsum in *. cbn [fold_right]. rewrite H, IHForall2. reflexivity. Qed.
Lemma rps_eq srt fl z : Forall2 Qeq fl (map inject_Z z) -> round_preserving_sum srt fl = Ok z.
Proof.
  intros H. unfold round_preserving_sum, round_preserving_sum_fuel.
  rewrite (Forall2_qsum _ _ H), qsum_inject, round_half_even_Z.
  assert (map round_half_even fl = z) as ->.
  { remember (map inject_Z z) as y. revert z Heqy. induction H; intros [|c z] E; cbn in E; try discriminate; auto.
    injection E as -> ->. cbn [map]. rewrite (IHForall2 z eq_refl), H, round_half_even_Z. reflexivity. }
  cbn [rps_loop]. rewrite Z.sub_diag. reflexivity.
Qed.
Lemma rprt_eq srt m : forall zm, Forall2 (Forall2 Qeq) m (zmat_to_q zm) -> round_preserving_row_totals srt m = Ok zm.
Proof.
  unfold round_preserving_row_totals. induction m as [|r m IH]; intros [|z zm] H; inversion H; subst; auto.
  cbn [rmap]. rewrite (rps_eq srt r z) by auto. cbn [rbind]. rewrite (IH zm) by auto. reflexivity.
Qed.
Lemma row_sum l u : NoDup u -> forall labels tl, length tl = length labels -> (forall x, In x tl -> In x u) ->
  nsum (map (fun t => n_pair l t labels tl) u) = n_labelled l labels.
Proof.
  intros Nu. induction labels as [|b labels IH]; intros [|a tl] L H; cbn in L; try discriminate.
  - cbn [n_pair n_labelled]. clear. induction u; cbn [map]; auto.
  - injection L as L. cbn [n_pair n_labelled]. rewrite <- (IH tl L) by (intros; apply H; right; auto).
    assert (Ha : In a u) by (apply H; left; auto).
    assert (E : nsum (map (fun t => (if Nat.eqb b l then if Nat.eqb a t then 1 else 0 else 0) + n_pair l t labels tl) u)%nat =
             (nsum (map (fun t => if Nat.eqb b l then if Nat.eqb a t then 1 else 0 else 0) u) + nsum (map (fun t => n_pair l t labels tl) u))%nat).
    { clear. induction u; cbn [map]; rewrite ?nsum_consI; [reflexivity|]. rewrite IHu. lia. }
    rewrite E. f_equal. destruct (Nat.eqb b l).
    + clear -Nu Ha. induction u as [|c u IH]; [destruct Ha|]. inversion Nu; subst. cbn [map]. rewrite nsum_consI.
      destruct (Nat.eqb_spec a c) as [->|Hne].
      * assert (nsum (map (fun t => if Nat.eqb c t then 1 else 0) u) = 0)%nat as ->; [|lia].
        clear -H1. induction u as [|d u IH]; auto. cbn [map]. rewrite nsum_consI. rewrite IH by (intro; apply H1; right; auto).
        destruct (Nat.eqb_spec c d); [subst; exfalso; apply H1; left; auto|]. reflexivity.
      * rewrite IH; auto. destruct Ha; congruence.
    + clear. induction u; cbn [map]; rewrite ?nsum_consI; auto.
Qed.

Lemma Forall2_refl_on {A} (P : A -> A -> Prop) l : (forall x, In x l -> P x x) -> Forall2 P l l.
Proof. induction l; constructor; [apply H; left; auto|apply IHl; intros; apply H; right; auto]. Qed.
Lemma Forall2_map_on {A B} (P : B -> B -> Prop) (f g : A -> B) l : (forall x, In x l -> P (f x) (g x)) -> Forall2 P (map f l) (map g l).
Proof. induction l; cbn; constructor; [apply H; left; auto|apply IHl; intros; apply H; right; auto]. Qed.
Lemma cells_calibrated srt labels tl : labels <> [] -> length tl = length labels ->
  calibrate_confident_joint srt (zmat_to_q (cells labels tl)) labels = Ok (cells labels tl).
Proof.
  intros Hne L. unfold calibrate_confident_joint.
  assert (length (zmat_to_q (cells labels tl)) = length (unique labels)) as -> by (unfold zmat_to_q, cells; rewrite !map_length; auto).
  unfold value_counts. rewrite Nat.eqb_refl. cbn [rbind]. cbv zeta.
  set (row := fun l => map (fun t => inject_Z (Z.of_nat (n_pair l t labels tl))) (unique tl)).
  assert (Eq : zmat_to_q (cells labels tl) = map row (unique labels)).
  { unfold zmat_to_q, cells. rewrite map_map. apply map_ext. intro l. unfold row. rewrite map_map. reflexivity. }
  assert (Rs : forall l, qsum (row l) == Qnat (count l labels)).
  { intro l. rewrite <- n_labelled_count. rewrite <- (row_sum l (unique tl) (unique_NoDup _) labels tl L) by (intros x Hx; rewrite in_unique; auto).
    rewrite Qnat_nsum, map_map. reflexivity. }
  assert (Pos : forall l, In l (unique labels) -> 1 <= Qnat (count l labels)).
  { intros l Hl. rewrite in_unique in Hl. apply n_labelled_pos in Hl. rewrite <- n_labelled_count.
    change 1 with (Qnat 1). unfold Qnat. rewrite <- Zle_Qle. lia. }
  assert (Clip : forall x, 1 <= x -> clip_lo TINY_VALUE x == x).
  { intros x Hx. apply clip_lo_id. assert (TINY_VALUE <= 1) by (vm_compute; discriminate). lra. }
  assert (Comb : combine (map row (unique labels)) (map (fun v => count v labels) (unique labels)) =
                 map (fun l => (row l, count l labels)) (unique labels)).
  { clearbody row. clear. generalize (unique labels) as u. induction u; cbn [map combine]; [reflexivity|f_equal; auto]. }
  rewrite Eq, Comb.
  match goal with |- context [qsum (map qsum ?c)] => set (cal := c) end.
  assert (C1 : Forall2 (Forall2 Qeq) cal (map row (unique labels))).
  { unfold cal. rewrite map_map. apply Forall2_map_on. intros l Hl. cbv zeta.
    rewrite <- (map_id (row l)) at 2. apply Forall2_map_on. intros x _. pose proof (Pos l Hl).
    rewrite (Rs l), Clip by auto. field. lra. }
  assert (Tot : qsum (map qsum cal) == Qnat (nsum (map (fun v => count v labels) (unique labels)))).
  { rewrite Qnat_nsum, map_map. apply Forall2_qsum. unfold cal. rewrite !map_map. apply Forall2_map_on.
    intros l Hl. rewrite <- (Rs l). apply Forall2_qsum. rewrite <- (map_id (row l)) at 2. apply Forall2_map_on. intros x _. pose proof (Pos l Hl).
    rewrite (Rs l), Clip by auto. field. lra. }
  assert (Pt : 1 <= qsum (map qsum cal)).
  { rewrite Tot. destruct (unique labels) as [|a u] eqn:Eu.
    - destruct labels as [|b ls]; [congruence|]. assert (In b (unique (b :: ls))) as I by (rewrite in_unique; left; auto). rewrite Eu in I. destruct I.
    - cbn [map]. rewrite nsum_consI. pose proof (Pos a (or_introl eq_refl)) as P. change 1 with (Qnat 1) in *. unfold Qnat in *. rewrite <- Zle_Qle in *. lia. }
  apply rprt_eq. rewrite Eq.
  assert (W : forall x, x / clip_lo TINY_VALUE (qsum (map qsum cal)) * Qnat (nsum (map (fun v => count v labels) (unique labels))) == x).
  { intro x. rewrite Clip by auto. rewrite <- Tot. field. lra. }
  set (T := qsum (map qsum cal)) in *. clearbody T. clearbody cal. clear -C1 W.
  induction C1; cbn [map]; [constructor|]. constructor; [|exact IHC1].
  clear -H W. induction H; cbn [map]; [constructor|]. constructor; [rewrite W; auto|exact IHForall2].
Qed.

Lemma calibration_full : forall srt labels pp K flt jobs sc sn,
  baseline srt labels pp K true flt jobs sc sn = baseline srt labels pp K false flt jobs sc sn.
Proof.
  intros. unfold find_label_issues_using_argmax_confusion_matrix.
  destruct (assert_valid_inputs labels pp K false) as [u|] eqn:V; cbn [rbind]; auto. destruct u.
  apply avi_spec in V as (Hne & _ & L & _).
  cbv zeta. destruct (confusion_matrix (map argmax pp) labels) as [cm|] eqn:C; cbn [rbind]; auto.
  rewrite (cj0_cells _ _ _ C), cells_calibrated; auto. rewrite map_length. auto.
Qed.

(** what the function is, on valid data *)
Lemma baseline_eq srt K labels pp cal flt jobs sc sn : dataset K labels pp -> two_classes labels ->
  baseline srt labels pp K cal flt jobs sc sn =
  if (is_prune flt && negb (Nat.eqb (length (unique labels)) K && Nat.eqb (length (unique (map argmax pp))) K))%bool then
    if Nat.eqb (length (unique (map argmax pp))) 1 then Raise OtherError
    else if Nat.ltb (length (unique (map argmax pp))) (length (unique labels)) then Raise ValueError else Raise IndexError
  else find_label_issues srt labels pp K flt
         (baseline_options (Some (zmat_to_q (cells labels (map argmax pp)))) jobs sc sn).
Proof.
  intros D H2. assert (E : baseline srt labels pp K cal flt jobs sc sn = baseline srt labels pp K false flt jobs sc sn).
  { destruct cal; auto using calibration_full. }
  rewrite E. unfold find_label_issues_using_argmax_confusion_matrix. rewrite (valid_ok K) by auto. cbn [rbind]. cbv zeta.
  destruct (confusion_matrix (map argmax pp) labels) as [cm|] eqn:C; cbn [rbind].
  - rewrite (cj0_cells _ _ _ C). unfold cells at 1 2. rewrite !map_length. reflexivity.
  - exfalso. unfold confusion_matrix in C. rewrite map_length, (ds_len _ _ _ D), Nat.eqb_refl in C. discriminate.
Qed.

(** ** filters that do not use the matrix *)
Lemma others_full : forall srt K labels pp cal flt jobs sc sn, argsort_ok srt -> dataset K labels pp -> two_classes labels ->
  is_prune flt = false ->
  baseline srt labels pp K cal flt jobs sc sn = find_label_issues srt labels pp K flt (baseline_options None jobs sc sn).
Proof.
  intros srt K labels pp cal flt jobs sc sn Hs D H2 Hf. rewrite baseline_eq by auto. rewrite Hf. cbn [andb].
  unfold find_label_issues. destruct (assert_valid_inputs _ _ _ _); cbn [rbind]; auto.
  destruct (_ && _)%bool; auto. destruct (Nat.ltb _ _); auto.
  f_equal. unfold raw_mask. cbn [confident_joint baseline_options].
  destruct (compute_cj_calibrated_ok srt K labels pp Hs D) as (zm & E). rewrite E. cbn [rbind fst snd].
  destruct flt; try discriminate; reflexivity.
Qed.

(** ** classes *)
Section D.
Variables (K : nat) (labels : list nat) (pp : list (list Q)).
Hypothesis D : dataset K labels pp.
Hypothesis H2 : two_classes labels.
Let tl := map argmax pp.

Lemma tl_len : length tl = length labels.
Proof. unfold tl. rewrite map_length. symmetry. apply D. Qed.
Lemma two_leK : (2 <= K)%nat.
Proof. destruct H2 as (a & b & Ha & Hb & Hab). pose proof (ds_lab _ _ _ D a Ha). pose proof (ds_lab _ _ _ D b Hb). lia. Qed.
Lemma row_lenK e : (e < length labels)%nat -> length (row_of pp e) = K.
Proof. intro He. apply (ds_row _ _ _ D). apply nth_In. rewrite <- (ds_len _ _ _ D). auto. Qed.
Lemma tl_nth e : (e < length labels)%nat -> nth e tl 0%nat = argmax (row_of pp e).
Proof. intro He. unfold tl. rewrite (nth_map_gen _ _ _ _ []); auto. rewrite <- (ds_len _ _ _ D). auto. Qed.
Lemma predicted_iff e j : (e < length labels)%nat -> (predicted_as pp e j <-> nth e tl 0%nat = j).
Proof.
  intro He. rewrite tl_nth by auto. pose proof (row_lenK e He) as L. pose proof two_leK.
  assert (N : row_of pp e <> []) by (intro C; rewrite C in L; cbn in L; lia).
  pose proof (argmax_spec _ N) as A. unfold predicted_as. split.
  - intros M. apply argmax_unique. destruct M as (M1 & M2 & M3). split; [auto|]. split; auto.
  - intros <-. destruct A as (A1 & A2 & A3). split; [auto|]. split; auto.
Qed.
Lemma tl_ltK e : (e < length labels)%nat -> (nth e tl 0 < K)%nat.
Proof. intro He. rewrite tl_nth by auto. rewrite <- (row_lenK e He). apply argmax_lt. pose proof (row_lenK e He). pose proof two_leK. destruct (row_of pp e); cbn in *; [lia|discriminate]. Qed.
Lemma tl_inK x : In x tl -> (x < K)%nat.
Proof. intro H. apply (In_nth _ _ 0%nat) in H as (e & He & <-). apply tl_ltK. rewrite <- tl_len. auto. Qed.
Lemma disagrees_wrong e : disagrees labels pp e <-> wrong labels tl e.
Proof.
  unfold disagrees, wrong. split; intros [He H]; split; auto; intro X; apply H; [apply predicted_iff; auto|].
  apply predicted_iff in X; auto.
Qed.
Lemma predicted_in k : (exists e, (e < length pp)%nat /\ predicted_as pp e k) <-> In k tl.
Proof.
  rewrite <- (ds_len _ _ _ D). split.
  - intros (e & He & P). apply predicted_iff in P; auto. rewrite <- P. apply nth_In. rewrite tl_len. auto.
  - intro H. apply (In_nth _ _ 0%nat) in H as (e & He & E). rewrite tl_len in He. exists e. split; auto. apply predicted_iff; auto.
Qed.
Lemma unique_le l : (forall x, In x l -> (x < K)%nat) -> (length (unique l) <= K)%nat.
Proof.
  intro H. rewrite <- (seq_length K 0). apply NoDup_incl_length; [apply unique_NoDup|].
  intros x Hx. rewrite in_unique in Hx. apply in_seq. specialize (H x Hx). lia.
Qed.
Lemma unique_full l : (forall x, In x l -> (x < K)%nat) ->
  (length (unique l) = K <-> forall k, (k < K)%nat -> In k l).
Proof.
  intro H. split.
  - intros E k Hk. rewrite <- in_unique. 
    assert (incl (seq 0 K) (unique l)) as I.
    { apply NoDup_length_incl; [apply unique_NoDup|rewrite seq_length; lia|].
      intros x Hx. rewrite in_unique in Hx. apply in_seq. specialize (H x Hx). lia. }
    apply I. apply in_seq. lia.
  - intro A. pose proof (unique_le l H). assert (K <= length (unique l))%nat; [|lia].
    rewrite <- (seq_length K 0) at 1. apply NoDup_incl_length; [apply seq_NoDup|].
    intros x Hx. apply in_seq in Hx. rewrite in_unique. apply A. lia.
Qed.
Lemma unique_seq l : (0 < K)%nat -> (forall x, In x l -> (x < K)%nat) -> (forall k, (k < K)%nat -> In k l) -> unique l = seq 0 K.
Proof.
  intros HK H A. unfold unique. assert (E : S (nmax l) = K).
  { assert (l <> []) by (intro; subst; apply (A 0%nat); lia). pose proof (H _ (nmax_in l ltac:(auto))).
    assert (In (K - 1)%nat l) as I by (apply A; lia). apply nmax_ge in I. lia. }
  rewrite E.
  assert (F : forall u, (forall x, In x u -> mem x l = true) -> filter (fun v => mem v l) u = u).
  { induction u as [|a u IH]; intro Hu; auto. cbn [filter]. rewrite (Hu a) by (left; auto). f_equal. apply IH. intros; apply Hu; right; auto. }
  apply F. intros x Hx. apply in_seq in Hx. apply mem_iff. apply A. lia.
Qed.
Lemma cells_tally : all_given K labels -> all_predicted K pp -> cells labels tl = tally K labels tl.
Proof.
  intros G P. pose proof two_leK. unfold cells, tally, tab. rewrite (unique_seq labels), (unique_seq tl); auto; try lia.
  - apply tl_inK.
  - intros k Hk. apply predicted_in. apply P. auto.
  - apply (ds_lab _ _ _ D).
Qed.

Lemma missing_full srt cal flt jobs sc sn : is_prune flt = true -> two_predicted pp ->
  ~ all_given K labels \/ ~ all_predicted K pp ->
  exists err, baseline srt labels pp K cal flt jobs sc sn = Raise err /\ (err = ValueError \/ err = IndexError) /\
    (all_given K labels -> err = ValueError) /\ (all_predicted K pp -> err = IndexError).
Proof.
  intros Hf TP Hm. rewrite baseline_eq by auto. rewrite Hf. cbn [andb]. fold tl.
  assert (UG : length (unique labels) = K <-> all_given K labels) by exact (unique_full labels (ds_lab _ _ _ D)). pose proof (unique_full tl tl_inK) as UP.
  pose proof (unique_le labels (ds_lab _ _ _ D)) as LG. pose proof (unique_le tl tl_inK) as LP.
  assert (PI : (forall k, (k < K)%nat -> In k tl) <-> all_predicted K pp).
  { unfold all_predicted. split; intros X k Hk; apply predicted_in; auto. }
  assert (negb (Nat.eqb (length (unique labels)) K && Nat.eqb (length (unique tl)) K) = true) as ->.
  { destruct (Nat.eqb_spec (length (unique labels)) K); destruct (Nat.eqb_spec (length (unique tl)) K); cbn; auto.
    exfalso. destruct Hm as [Hm|Hm]; apply Hm; [apply UG; auto|apply PI, UP; auto]. }
  assert (N1 : length (unique tl) <> 1%nat).
  { destruct TP as (e & e' & a & b & He & He' & Pa & Pb & Hab).
    assert (In a tl) by (apply predicted_in; eauto). assert (In b tl) by (apply predicted_in; eauto).
    intro E. rewrite <- in_unique in *. destruct (unique tl) as [|x [|y u]]; cbn in *; try discriminate.
    destruct H, H0; try tauto. congruence. }
  destruct (Nat.eqb_spec (length (unique tl)) 1); [congruence|].
  destruct (Nat.ltb_spec (length (unique tl)) (length (unique labels))) as [C|C].
  - exists ValueError. repeat split; auto. intro A. assert (length (unique tl) = K) by (apply UP, PI; exact A). lia.
  - exists IndexError. repeat split; auto. intro A. assert (length (unique labels) = K) by (apply UG; exact A). exfalso.
    destruct Hm as [Hm|Hm]; [auto|]. apply Hm, PI, UP. lia.
Qed.

(** ** the plan *)
Section Plan.
Variables (srt : list Q -> list nat) (jobs : nat) (sc sn : list nat).
Hypothesis Hs : argsort_ok srt.
Hypothesis AG : all_given K labels.
Hypothesis AP : all_predicted K pp.
Let o := baseline_options (Some (zmat_to_q (tally K labels tl))) jobs sc sn.

Lemma baseline_square cal flt : baseline srt labels pp K cal flt jobs sc sn = find_label_issues srt labels pp K flt o.
Proof.
  rewrite baseline_eq by auto. fold tl. rewrite cells_tally by auto.
  assert (length (unique labels) = K) as -> by (apply unique_full; [apply (ds_lab _ _ _ D)|exact AG]).
  assert (length (unique tl) = K) as ->.
  { apply unique_full; [apply tl_inK|]. intros k Hk. apply predicted_in. apply AP. auto. }
  rewrite Nat.eqb_refl. cbn [andb negb]. rewrite andb_false_r. reflexivity.
Qed.
Lemma plan_diag pcm k : prune_counts srt labels K (zmat_to_q (tally K labels tl)) o = Ok pcm -> (k < K)%nat ->
  zget pcm k k = Z.max 1 (Z.of_nat (n_pair k k labels tl)).
Proof.
  intros Hp Hk. unfold prune_counts in Hp. destruct (value_counts labels K) as [vc|]; cbn [rbind] in Hp; [|discriminate].
  destruct (keep_at_least_n_per_class _ _ _ _) as [p|] eqn:Ek; cbn [rbind] in Hp; [|discriminate]. injection Hp as ->.
  set (M := transpose K (zmat_to_q (tally K labels tl))) in *. assert (LM : length M = K) by apply tab_length.
  rewrite (keep_get _ _ _ _ _ Ek k k) by lia. rewrite Nat.eqb_refl.
  assert (EM : mget M k k == inject_Z (Z.of_nat (n_pair k k labels tl))).
  { unfold M, transpose, mget. rewrite nth_tab by auto. unfold col.
    rewrite (nth_map_gen _ (zmat_to_q (tally K labels tl)) k 0 []) by (unfold zmat_to_q, tally; rewrite map_length, tab_length; lia).
    change (nth k (nth k (zmat_to_q (tally K labels tl)) []) 0) with (mget (zmat_to_q (tally K labels tl)) k k).
    rewrite zmat_get, tally_get by auto. reflexivity. }
  rewrite <- (truncate_Z (Z.max 1 (Z.of_nat (n_pair k k labels tl)))). apply truncate_Proper.
  rewrite qsum_zero.
  - unfold kept_mat. cbv zeta. rewrite mget_tab by lia. rewrite Nat.eqb_refl. rewrite nth_tab by lia.
    change (Qnat (min_examples_per_class o)) with (inject_Z 1).
    destruct (qmax_spec (mget M k k) (inject_Z 1)) as [(A & ->)|(A & ->)]; rewrite EM in *; rewrite <- ?Zle_Qle, <- ?Zlt_Qlt in A.
    + rewrite Z.max_l by lia. ring.
    + rewrite Z.max_r by lia. ring.
  - intros x Hx. apply in_tab in Hx as (r & Hr & ->). destruct (Nat.eqb k r); [reflexivity|]. cbn [frac_noise o baseline_options]. ring.
Qed.

Lemma by_class_full cal m : baseline srt labels pp K cal PruneByClass jobs sc sn = Ok m ->
  exists marked, length marked = length labels /\
    (forall k a, (k < K)%nat -> holds_for (length labels) (fun e => label_of labels e = k /\ disagrees labels pp e) a ->
       n_flagged k labels marked = Nat.min a (n_labelled k labels - 1)) /\
    (forall e e', (e < length labels)%nat -> (e' < length labels)%nat -> label_of labels e = label_of labels e' ->
       flagged marked e -> ~ flagged marked e' ->
       prob_of pp e (label_of labels e) <= prob_of pp e' (label_of labels e')) /\
    (forall e, (e < length labels)%nat -> (flagged m e <-> flagged marked e /\ clearly_beaten labels pp e)).
Proof.
  rewrite baseline_square. intro Hm.
  destruct (C11_full srt K labels pp o m Hs D Hm) as (cj & pcm & mk & Hcj & _ & Hp & Lk & Hcnt & Hcnt1 & Hord & Hfl).
  specialize (Hcj _ eq_refl). subst cj. exists mk. split; auto. split; auto.
  intros k a Hk Ha. destruct (n_off_holds k labels tl tl_len) as (b & Eb & Hb).
  assert (a = b).
  { eapply holds_for_unique; [|exact Hb]. eapply holds_for_iff; [|exact Ha]. intros e He. cbn beta.
    rewrite disagrees_wrong. unfold wrong. split; [intros (X & _ & Y)|intros (X & Y)]; repeat split; auto; congruence. }
  subst b. pose proof (n_labelled_pos k labels) as NP. assert (1 <= n_labelled k labels)%nat by (apply NP, AG; auto).
  destruct (le_lt_dec 2 (n_labelled k labels)) as [G|G].
  - rewrite Hcnt by auto. rewrite (plan_diag pcm k Hp Hk). cbn [min_examples_per_class o baseline_options].
    destruct (Nat.leb_spec (n_labelled k labels) 1); lia.
  - rewrite Hcnt1 by auto. lia.
Qed.
End Plan.

(** ** when there is agreement in every class *)
Section Agree.
Variables (srt : list Q -> list nat) (jobs : nat) (sc sn : list nat).
Hypothesis Hs : argsort_ok srt.
Hypothesis AE : agreement_everywhere K labels pp.
Let o := baseline_options (Some (zmat_to_q (tally K labels tl))) jobs sc sn.

Lemma agree_given : all_given K labels.
Proof. intros k Hk. destruct (AE k Hk) as (e & He & <- & _). apply nth_In. auto. Qed.
Lemma agree_predicted : all_predicted K pp.
Proof. intros k Hk. destruct (AE k Hk) as (e & He & _ & P). exists e. rewrite <- (ds_len _ _ _ D). auto. Qed.
Lemma agree_pair k : (k < K)%nat -> (1 <= n_pair k k labels tl)%nat.
Proof.
  intro Hk. destruct (AE k Hk) as (e & He & E & P). apply predicted_iff in P; auto.
  pose proof (n_pair_pos e labels tl tl_len He) as N. rewrite P, E in N. lia.
Qed.
Lemma plan_get pcm : prune_counts srt labels K (zmat_to_q (tally K labels tl)) o = Ok pcm ->
  forall k j, (k < K)%nat -> (j < K)%nat -> zget pcm j k = Z.of_nat (n_pair k j labels tl).
Proof.
  intros Hp k j Hk Hj. destruct (tally_ok K labels tl tl_len tl_inK) as (T1 & T2 & T3 & _).
  rewrite (plan_exact srt labels K (tally K labels tl) o pcm eq_refl (Qeq_refl 1) T1 T2 T3 Hp k j Hk Hj).
  - apply tally_get; auto.
  - rewrite tally_get by auto. pose proof (agree_pair k Hk). cbn. lia.
Qed.
Lemma lab_ltK e : (e < length labels)%nat -> (label_of labels e < K)%nat.
Proof. intro He. apply (ds_lab _ _ _ D). apply nth_In. auto. Qed.
Lemma beaten_disagrees e : (e < length labels)%nat -> clearly_beaten labels pp e -> wrong labels tl e.
Proof.
  intros He (j & Hj & B). split; auto. intro E. rewrite (row_lenK e He) in Hj.
  assert (P : predicted_as pp e (label_of labels e)) by (apply predicted_iff; auto).
  destruct P as (_ & P2 & _). rewrite (row_lenK e He) in P2. specialize (P2 j Hj). unfold prob_of, row_of in *. lra.
Qed.

Lemma by_class_agree m : disagreement_less_sure labels pp ->
  find_label_issues srt labels pp K PruneByClass o = Ok m ->
  forall e, flagged m e <-> (e < length labels)%nat /\ clearly_beaten labels pp e.
Proof.
  intros W Hm. pose proof (find_length _ _ _ _ _ _ _ (ds_len _ _ _ D) Hm) as Lm.
  destruct (C11_full srt K labels pp o m Hs D Hm) as (cj & pcm & mk & Hcj & _ & Hp & Lk & Hcnt & Hcnt1 & Hord & Hfl).
  specialize (Hcj _ eq_refl). subst cj. pose proof (plan_get pcm Hp) as PT.
  assert (G : forall e, (e < length labels)%nat -> (flagged mk e <-> label_of labels e <> nth e tl 0%nat)).
  { intros e He. pose proof (lab_ltK e He) as Hk. remember (label_of labels e) as k eqn:Ek.
    pose proof (agree_pair k Hk) as Ck. pose proof (n_pair_le k k labels tl) as Hle.
    destruct (n_off_holds k labels tl tl_len) as (a & Ea & Ha).
    assert (Ec : n_flagged k labels mk = a).
    { destruct (le_lt_dec 2 (n_labelled k labels)) as [H|H].
      - rewrite Hcnt by auto. rewrite PT by auto. cbn [min_examples_per_class o baseline_options].
        destruct (Nat.leb_spec (n_labelled k labels) 1); lia.
      - rewrite Hcnt1 by auto. lia. }
    pose proof (n_flagged_holds k labels mk Lk) as Hk'. rewrite Ec in Hk'.
    pose proof (holds_same _ _ _ _ Hk' Ha) as S'. cbn beta in S'.
    assert (S2 : label_of labels e = k /\ flagged mk e <-> label_of labels e = k /\ nth e tl 0%nat <> k).
    { apply S'; auto. intros x y Hx Hy [X1 X2] X3 [Y1 Y2] Y3.
      assert (disagrees labels pp x) as Wx by (apply disagrees_wrong; split; auto; congruence).
      assert (~ disagrees labels pp y) as Wy.
      { intro X. apply disagrees_wrong in X as [_ B]. apply Y3. split; auto. congruence. }
      pose proof (W x y Wx Hy Wy ltac:(congruence)) as A.
      pose proof (Hord y x Hy Hx ltac:(congruence) Y2) as B. rewrite Y1, X1 in *.
      specialize (B ltac:(intro; apply X3; auto)). lra. }
    rewrite <- Ek in S2. split; intro H; [intro X; apply S2; [auto|congruence]|].
    apply S2. split; auto. }
  intro e. split.
  - intro H. assert (He : (e < length labels)%nat) by (apply flagged_lt in H; lia).
    split; auto. apply Hfl in H as [_ H]; auto.
  - intros [He Hw]. apply Hfl; auto. split; auto. apply G; auto. apply beaten_disagrees; auto.
Qed.

Lemma by_noise_agree m : leads_separate labels pp ->
  find_label_issues srt labels pp K PruneByNoiseRate o = Ok m ->
  forall e, flagged m e <-> (e < length labels)%nat /\ clearly_beaten labels pp e.
Proof.
  intros W Hm. pose proof (find_length _ _ _ _ _ _ _ (ds_len _ _ _ D) Hm) as Lm.
  destruct (C12_full srt K labels pp o m Hs D Hm) as (cj & pcm & mk & Hcj & _ & Hp & Lk & Hsmall & Hbig & Hfl).
  specialize (Hcj _ eq_refl). subst cj. pose proof (plan_get pcm Hp) as PT. cbn [min_examples_per_class o baseline_options] in *.
  assert (G : forall e, (e < length labels)%nat -> (flagged mk e <-> label_of labels e <> nth e tl 0%nat)).
  { intros e He. pose proof (lab_ltK e He) as Hk. remember (label_of labels e) as k eqn:Ek.
    pose proof (agree_pair k Hk) as Ck. pose proof (n_pair_le k k labels tl) as Hle.
    destruct (le_lt_dec (n_labelled k labels) (Nat.max 1 1)) as [Hsm|Hbg].
    - specialize (Hsmall k Hk Hsm). pose proof (n_flagged_holds k labels mk Lk) as (l & Nl & Ll & Hl).
      rewrite Hsmall in Ll. destruct l; [|discriminate]. split.
      + intro H. exfalso. apply (Hl e). auto.
      + intro H. exfalso. destruct (n_off_holds k labels tl tl_len) as (a & Ea & (l & Nl' & La & Hl')).
        assert (a = 0)%nat by (cbn in Hsm; lia). assert (In e l) as I by (apply Hl'; auto). destruct l; [destruct I|cbn in La; lia].
    - destruct (Hbig k Hk Hbg) as [(T & HT & HF) _]. rewrite (HF e He (eq_sym Ek)).
      assert (TS : forall j, (j < K)%nat -> j <> k -> (0 < zget pcm j k)%Z ->
                forall x, In x (T j) <-> (x < length labels)%nat /\ label_of labels x = k /\ nth x tl 0%nat = j).
      { intros j Hj Hne Hpos. destruct (HT j Hj Hne Hpos) as (NT & LT & IT & OT). rewrite PT in * by auto.
        rewrite Nat2Z.id in LT. pose proof (n_pair_le k j labels tl) as Hle2. rewrite Nat.min_l in LT by auto.
        destruct (n_pair_holds k j labels tl tl_len) as (P & NP & LP & HP).
        intro x. rewrite <- HP. apply same_set; auto; [congruence|].
        intros y z Hy Hy' Hz Hz'. apply HP in Hy as (Y1 & Y2 & Y3). destruct (IT z Hz) as [Z1 Z2].
        pose proof (OT z y Hz Y1 Y2 Hy') as O.
        assert (disagrees labels pp y) as Wy by (apply disagrees_wrong; split; auto; congruence).
        pose proof (W y z j Wy ltac:(apply predicted_iff; auto) Z1 ltac:(congruence)) as A. rewrite Y2, Z2 in A.
        specialize (A ltac:(intro X; apply predicted_iff in X; auto; apply Hz'; apply HP; auto)). cbn beta in O. lra. }
      split.
      + intros (j & Hj & Hne & Hpos & I). apply TS in I; auto. destruct I as (_ & _ & E). congruence.
      + intro H. exists (nth e tl 0%nat). pose proof (tl_ltK e He) as Ht.
        assert (Hpos : (0 < zget pcm (nth e tl 0%nat) k)%Z).
        { rewrite PT by auto. pose proof (n_pair_pos e labels tl tl_len He). rewrite <- Ek in *. lia. }
        repeat split; auto. apply TS; auto. }
  intro e. split.
  - intro H. assert (He : (e < length labels)%nat) by (apply flagged_lt in H; lia).
    split; auto. apply Hfl in H as [_ H]; auto.
  - intros [He Hw]. apply Hfl; auto. split; auto. apply G; auto. apply beaten_disagrees; auto.
Qed.

Lemma mask_same (a b : list bool) : length a = length b -> (forall e, flagged a e <-> flagged b e) -> a = b.
Proof.
  intros L H. apply (list_eq_nth _ _ false); auto. intros i _. specialize (H i). unfold flagged in H.
  destruct (nth i a false), (nth i b false); auto; [symmetry|]; apply H; auto.
Qed.
Lemma agree_full cal flt m :
  (flt = PruneByClass /\ disagreement_less_sure labels pp \/ flt = PruneByNoiseRate /\ leads_separate labels pp \/
   flt = Both /\ disagreement_less_sure labels pp /\ leads_separate labels pp) ->
  baseline srt labels pp K cal flt jobs sc sn = Ok m ->
  find_label_issues srt labels pp K PredictedNeqGiven (baseline_options None 1 [] []) = Ok m.
Proof.
  intros Hf. rewrite baseline_square by (auto using agree_given, agree_predicted). fold o. intro Hm.
  pose proof (find_length _ _ _ _ _ _ _ (ds_len _ _ _ D) Hm) as Lm.
  destruct (C07_pneq_full srt K labels pp (baseline_options None 1 [] []) Hs D H2 eq_refl (le_n 1)) as (m' & E & L' & F').
  rewrite E. f_equal. apply mask_same; [lia|]. intro e. rewrite F'. symmetry.
  destruct Hf as [[-> W]|[[-> W]|(-> & W1 & W2)]].
  - apply by_class_agree; auto.
  - apply by_noise_agree; auto.
  - apply find_both_spec in Hm as (mc & mn & E1 & E2 & _ & F); [|apply (ds_len _ _ _ D)].
    rewrite F, (by_class_agree mc W1 E1), (by_noise_agree mn W2 E2). tauto.
Qed.
End Agree.
End D.

Lemma two_separate labels pp : dataset 2 labels pp -> two_classes labels -> leads_separate labels pp.
Proof.
  intros D H2 e e' j [He Hd] P He' El Hp. 
  assert (Hk : (label_of labels e < 2)%nat) by (apply (ds_lab _ _ _ D), nth_In; auto).
  set (q := nth e' (map argmax pp) 0%nat).
  assert (Q' : predicted_as pp e' q) by (apply (predicted_iff 2 labels pp D H2 e' q He'); reflexivity).
  assert (q <> j) by (intro; subst j; auto).
  assert (j <> label_of labels e) by (intro; subst j; auto).
  pose proof (row_lenK 2 labels pp D e He) as L. pose proof (row_lenK 2 labels pp D e' He') as L'.
  destruct P as (P1 & P2 & P3). destruct Q' as (Q1 & Q2 & Q3). rewrite L in *. rewrite L' in *.
  rewrite El. set (k := label_of labels e) in *. clearbody q. clearbody k.
  pose proof (P2 k Hk) as U1. pose proof (P3 k) as U2. pose proof (Q2 j P1) as U3. pose proof (Q3 j) as U4.
  assert (q = k) by lia. subst q. unfold prob_of, row_of in *.
  destruct (lt_dec k j) as [A|A].
  - specialize (U2 A). lra.
  - specialize (U4 ltac:(lia)). lra.
Qed.
Lemma two_full : forall srt labels pp cal jobs sc sn m, argsort_ok srt -> dataset 2 labels pp -> agreement_everywhere 2 labels pp ->
  baseline srt labels pp 2 cal PruneByNoiseRate jobs sc sn = Ok m ->
  find_label_issues srt labels pp 2 PredictedNeqGiven (baseline_options None 1 [] []) = Ok m.
Proof.
  intros srt labels pp cal jobs sc sn m Hs D AE.
  assert (H2 : two_classes labels).
  { destruct (AE 0%nat ltac:(lia)) as (e & He & E & _). destruct (AE 1%nat ltac:(lia)) as (e' & He' & E' & _).
    exists 0%nat, 1%nat. rewrite <- E at 1. rewrite <- E' at 1. repeat split; try (apply nth_In; auto); lia. }
  apply agree_full; auto. right. left. split; auto. apply two_separate; auto.
Qed.
Lemma total_square : forall srt K labels pp cal flt sc sn, argsort_ok srt -> dataset K labels pp -> two_classes labels ->
  all_given K labels -> all_predicted K pp ->
  exists m, baseline srt labels pp K cal flt 1 sc sn = Ok m /\ length m = length labels.
Proof. intros. rewrite baseline_square by auto. apply find_total; auto. Qed.
