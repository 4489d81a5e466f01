(** * Proofs about the cross-validation loops *)
From Coq Require Import QArith Qabs Qround List ZArith Bool Arith Lia Lqa Permutation Sorted.
From Verif Require Import Base BaseFacts ModelUtil ModelCount ModelBatched ModelCV SpecCV ProofUtil ProofCount
  ProofLabels ProofMultilabel ProofToken.
Import ListNotations.
Open Scope Q_scope.

Lemma assign_at_length {V} : forall idx (vals a : list V), length (assign_at idx vals a) = length a.
Proof.
  induction idx as [|i idx IH]; intros [|v vals] a; cbn; auto. now rewrite IH, upd_length.
Qed.

Lemma assign_at_other {V} : forall idx (vals a : list V) i d, ~ In i idx -> nth i (assign_at idx vals a) d = nth i a d.
Proof.
  induction idx as [|j idx IH]; intros [|v vals] a i d H; cbn; auto.
  rewrite IH by (intro; apply H; now right). apply nth_upd_neq. intros ->. apply H. now left.
Qed.

Lemma assign_at_nth {V} : forall idx (vals a : list V) p i d, NoDup idx -> length vals = length idx ->
  (forall j, In j idx -> (j < length a)%nat) -> nth_error idx p = Some i ->
  nth i (assign_at idx vals a) d = nth p vals d.
Proof.
  induction idx as [|j idx IH]; intros [|v vals] a p i d ND L B E; try discriminate.
  - destruct p; discriminate.
  - inversion_clear ND as [|? ? Hn ND']. destruct p as [|p]; cbn in E.
    + injection E as ->. cbn. rewrite assign_at_other by assumption. apply nth_upd_eq. apply B. now left.
    + cbn. apply IH; [assumption|cbn in L; lia| |exact E].
      intros k Hk. rewrite upd_length. apply B. now right.
Qed.

Lemma NoDup_app_parts {V} (a b : list V) : NoDup (a ++ b) -> NoDup a /\ NoDup b /\ forall x, In x a -> ~ In x b.
Proof.
  induction a as [|x a IH]; cbn; intro H; [refine (conj (NoDup_nil _) (conj H _)); intros ? []|].
  inversion_clear H as [|? ? Hn ND]. destruct (IH ND) as (H1 & H2 & H3). refine (conj _ (conj H2 _)).
  - constructor; [|assumption]. intro; apply Hn, in_or_app; now left.
  - intros y [<-|Hy]; [intro; apply Hn, in_or_app; now right|auto].
Qed.

Lemma map_nth_seq' {V} (l : list V) d : map (fun i => nth i l d) (seq 0 (length l)) = l.
Proof.
  apply list_eq_nth with (d := d).
  - now rewrite map_length, seq_length.
  - intros i Hi. rewrite map_length, seq_length in Hi.
    rewrite (nth_map_gen _ _ _ _ 0%nat) by (rewrite seq_length; lia). now rewrite seq_nth.
Qed.

Section Loop.
  Context {S V : Type}.
  Variable proj : S -> list V.
  Variable f : S -> list nat -> res S.
  Variable idx : list nat -> list nat.
  Variable rows : list nat -> list V.
  Variable n : nat.

  Lemma loop_assign : forall folds st,
    (forall hold st, In hold folds -> length (proj st) = n ->
       exists st', f st hold = Ok st' /\ proj st' = assign_at (idx hold) (rows hold) (proj st)) ->
    NoDup (concat (map idx folds)) -> (forall i, In i (concat (map idx folds)) -> (i < n)%nat) ->
    (forall hold, In hold folds -> length (rows hold) = length (idx hold)) ->
    length (proj st) = n ->
    exists out, rfold f folds st = Ok out /\ length (proj out) = n /\
      (forall hold p i d, In hold folds -> nth_error (idx hold) p = Some i -> nth i (proj out) d = nth p (rows hold) d) /\
      (forall i d, ~ In i (concat (map idx folds)) -> nth i (proj out) d = nth i (proj st) d).
  Proof.
    induction folds as [|h folds IH]; intros st F ND B R L.
    - exists st. cbn. refine (conj eq_refl (conj L (conj _ _))); [intros ? ? ? ? []|auto].
    - cbn [map concat] in ND, B. destruct (F h st (or_introl eq_refl) L) as [st' [E P]].
      destruct (NoDup_app_parts _ _ ND) as (ND1 & ND2 & DJ).
      assert (L' : length (proj st') = n) by (rewrite P, assign_at_length; exact L).
      destruct (IH st') as [out [E' [LO [H1 H2]]]]; auto.
      + intros hold s Hh Ls. apply F; [now right|exact Ls].
      + intros i Hi. apply B, in_or_app. now right.
      + intros hold Hh. apply R. now right.
      + exists out. cbn [rfold rbind]. rewrite E. cbn [rbind]. refine (conj E' (conj LO (conj _ _))).
        * intros hold p i d [<-|Hh] Ep; [|eauto]. assert (Hi : In i (idx h)) by (eapply nth_error_In, Ep).
          rewrite H2 by (now apply DJ). rewrite P. apply assign_at_nth; auto.
          -- apply R. now left.
          -- intros j Hj. rewrite L. apply B, in_or_app. now left.
        * intros i d Hi. cbn [map concat] in Hi. rewrite H2 by (intro; apply Hi, in_or_app; now right).
          rewrite P. apply assign_at_other. intro; apply Hi, in_or_app; now left.
  Qed.
End Loop.

(** ** Folds *)
Lemma train_idx_others n h : train_idx n h = others n h.
Proof. unfold train_idx, others. apply filter_ext. intro i. unfold mem. f_equal. Qed.

Lemma in_others n h i : In i (others n h) <-> (i < n)%nat /\ ~ In i h.
Proof.
  rewrite <- train_idx_others. unfold train_idx. rewrite filter_In, in_seq, negb_true_iff.
  split; intros [H1 H2]; (split; [lia|]).
  - intro H. apply mem_iff in H. congruence.
  - destruct (mem i h) eqn:E; [|reflexivity]. apply mem_iff in E. contradiction.
Qed.

Lemma partition_fold n folds i : cv_partition n folds -> (i < n)%nat -> exists hold p, In hold folds /\ nth_error hold p = Some i.
Proof.
  intros P Hi. assert (H : In i (concat folds)) by (eapply Permutation_in; [apply Permutation_sym, P|apply in_seq; lia]).
  apply in_concat in H. destruct H as [hold [Hh Hi']]. apply In_nth_error in Hi'. destruct Hi' as [p Hp]. eauto.
Qed.
Lemma partition_lt n folds hold i : cv_partition n folds -> In hold folds -> In i hold -> (i < n)%nat.
Proof.
  intros P Hh Hi. assert (H : In i (concat folds)) by (apply in_concat; eauto).
  apply (Permutation_in _ P) in H. apply in_seq in H. lia.
Qed.
Lemma partition_nodup n folds hold : cv_partition n folds -> In hold folds -> NoDup hold.
Proof.
  intros P Hh. assert (ND : NoDup (concat folds)) by (eapply Permutation_NoDup; [apply Permutation_sym, P|apply seq_NoDup]).
  clear P. induction folds as [|h folds IH]; [destruct Hh|]. cbn in ND. destruct Hh as [->|Hh].
  - apply (NoDup_app_parts _ _ ND).
  - apply IH; [assumption|]. apply (NoDup_app_parts _ _ ND).
Qed.

Lemma classes_unique K labels : classes_are K labels -> length (unique labels) = K.
Proof.
  intro H. assert (P : Permutation (unique labels) (seq 0 K)).
  { apply NoDup_Permutation; [apply unique_NoDup|apply seq_NoDup|]. intro x. rewrite in_unique, (H x), in_seq. lia. }
  now rewrite (Permutation_length P), seq_length.
Qed.

(** ** Classification *)
Section Cls.
  Context {A : Type}.
  Variable d : A.
  Variable fit_predict : list A -> list nat -> list A -> list (list Q).
  Variable so : list nat -> list nat.
  Variable X : list A.
  Variable labels : list nat.
  Variable K : nat.
  Hypothesis SO : any_order so.
  Hypothesis CL : classes_are K labels.
  Hypothesis PC : proper_classifier K fit_predict.
  Let n := length labels.
  Let lab (i : nat) : nat := nth i labels 0%nat.
  Let feat (i : nat) : A := nth i X d.

  Lemma nth_take {V} (dv : V) l idx i : (i < length idx)%nat -> nth i (take_idx dv l idx) dv = nth (nth i idx 0%nat) l dv.
  Proof. intro H. unfold take_idx. now rewrite (nth_map_gen _ _ _ _ 0%nat) by assumption. Qed.

  Definition good_dups (hold : list nat) (dups : list (nat * nat)) : Prop :=
    (forall c i, In (c, i) dups -> (i < length hold)%nat /\ lab (nth i hold 0%nat) = c /\
                                   ~ In c (map lab (others n hold))) /\
    NoDup (map fst dups) /\
    forall c, (c < K)%nat -> In c (map lab (others n hold)) \/ In c (map fst dups).

  Lemma rmap_dups sh cs dups : rmap (fun c => match where_ (map (Nat.eqb c) sh) with
                        | [] => Raise IndexError | i :: _ => Ok (c, i) end) cs = Ok dups ->
    map fst dups = cs /\ forall c i, In (c, i) dups -> (i < length sh)%nat /\ nth i sh 0%nat = c.
  Proof.
    revert dups. induction cs as [|c cs IH]; intros dups H; cbn in H.
    - injection H as <-. split; [reflexivity|intros ? ? []].
    - destruct (where_ (map (Nat.eqb c) sh)) as [|i t] eqn:W; cbn in H; [discriminate|].
      destruct (rmap _ cs) as [r|]; cbn in H; [|discriminate]. injection H as <-.
      destruct (IH r eq_refl) as [E1 E2]. split; [cbn; congruence|].
      intros c' i' [E|Hi]; [|eauto]. injection E as <- <-.
      assert (Hw : In i (where_ (map (Nat.eqb c) sh))) by (rewrite W; now left).
      apply in_where in Hw. rename Hw into Hn.
      assert (Hl : (i < length sh)%nat).
      { destruct (Nat.lt_ge_cases i (length sh)) as [H|H]; [assumption|]. rewrite nth_overflow in Hn by (now rewrite map_length). discriminate. }
      split; [assumption|].
      rewrite (nth_map_gen _ _ _ _ 0%nat) in Hn by assumption. apply Nat.eqb_eq in Hn. congruence.
  Qed.

  Lemma duplicates_ok hold : (forall i, In i hold -> (i < n)%nat) ->
    exists dups, duplicates so false K (take_idx 0%nat labels (train_idx n hold)) (take_idx 0%nat labels hold) = Ok dups /\
                 good_dups hold dups.
  Proof.
    intro B. rewrite train_idx_others. unfold duplicates. cbn [orb].
    change (take_idx 0%nat labels (others n hold)) with (map lab (others n hold)).
    change (take_idx 0%nat labels hold) with (map lab hold).
    set (st := map lab (others n hold)).
    assert (ST : forall c, In c st -> (c < K)%nat).
    { intros c Hc. apply in_map_iff in Hc. destruct Hc as [i [<- Hi]]. apply in_others in Hi.
      apply CL. unfold lab. apply nth_In. apply Hi. }
    destruct (Nat.eqb_spec (length (unique st)) K) as [E|E].
    - exists []. split; [reflexivity|]. split; [intros ? ? []|split; [constructor|]].
      intros c Hc. left. rewrite <- in_unique.
      assert (P : incl (seq 0 K) (unique st)).
      { apply NoDup_length_incl; [apply unique_NoDup|rewrite seq_length; lia|].
        intros x Hx. rewrite in_unique in Hx. apply ST in Hx. apply in_seq. lia. }
      apply P, in_seq. lia.
    - set (miss := filter (fun c => negb (mem c st)) (seq 0 K)).
      assert (M : forall c, In c (so miss) <-> (c < K)%nat /\ ~ In c st).
      { intro c. assert (I : In c (so miss) <-> In c miss) by (split; apply Permutation_in; [apply SO|apply Permutation_sym, SO]).
        rewrite I. unfold miss. rewrite filter_In, in_seq, negb_true_iff. split; intros [H1 H2]; (split; [lia|]).
        - intro H. apply mem_iff in H. congruence.
        - destruct (mem c st) eqn:F; [|reflexivity]. apply mem_iff in F. contradiction. }
      assert (R : exists dups, rmap (fun c => match where_ (map (Nat.eqb c) (map lab hold)) with
                        | [] => Raise IndexError | i :: _ => Ok (c, i) end) (so miss) = Ok dups).
      { assert (MM : forall c, In c (so miss) -> (c < K)%nat /\ ~ In c st) by (intros; now apply M).
        revert MM. generalize (so miss). clear -CL B. induction l as [|c l IH]; intro MM; [exists []; reflexivity|]. cbn.
        destruct (MM c (or_introl eq_refl)) as [Hc Hn]. apply CL in Hc. apply (In_nth _ _ 0%nat) in Hc.
        destruct Hc as [j [Hj Ej]].
        assert (Hh : In j hold).
        { destruct (in_dec Nat.eq_dec j hold) as [H|H]; [assumption|]. exfalso. apply Hn. unfold st.
          apply in_map_iff. exists j. split; [exact Ej|]. apply in_others. split; [exact Hj|assumption]. }
        apply (In_nth _ _ 0%nat) in Hh. destruct Hh as [p [Hp Ep]].
        destruct (where_ (map (Nat.eqb c) (map lab hold))) as [|i t] eqn:W.
        - exfalso. assert (H : In p (where_ (map (Nat.eqb c) (map lab hold)))).
          { apply in_where.
            rewrite (nth_map_gen _ _ _ _ 0%nat) by (now rewrite map_length).
            rewrite (nth_map_gen _ _ _ _ 0%nat) by assumption. rewrite Ep. apply Nat.eqb_eq. symmetry. exact Ej. }
          rewrite W in H. destruct H.
        - destruct IH as [dups E]; [intros; apply MM; now right|]. rewrite E. cbn. eauto. }
      destruct R as [dups R]. exists dups. split; [exact R|]. destruct (rmap_dups _ _ _ R) as [F G].
      split; [|split].
      + intros c i Hi. destruct (G c i Hi) as [G1 G2]. rewrite map_length in G1. split; [assumption|].
        rewrite (nth_map_gen _ _ _ _ 0%nat) in G2 by assumption. split; [assumption|].
        assert (In c (so miss)) by (rewrite <- F; apply in_map_iff; exists (c, i); auto). now apply M.
      + rewrite F. eapply Permutation_NoDup; [apply Permutation_sym, SO|]. apply NoDup_filter, seq_NoDup.
      + intros c Hc. destruct (in_dec Nat.eq_dec c st); [now left|]. right. rewrite F. now apply M.
  Qed.

  Lemma fold_upd (w : nat) : forall dups (base : list (list Q)),
    length (fold_left (fun cv ci => upd cv (snd ci) (one_hot w (fst ci))) dups base) = length base /\
    (NoDup (map snd dups) -> forall c p, In (c, p) dups -> (p < length base)%nat ->
       nth p (fold_left (fun cv ci => upd cv (snd ci) (one_hot w (fst ci))) dups base) [] = one_hot w c) /\
    (forall p, ~ In p (map snd dups) ->
       nth p (fold_left (fun cv ci => upd cv (snd ci) (one_hot w (fst ci))) dups base) [] = nth p base []).
  Proof.
    induction dups as [|[c0 p0] dups IH]; intro base; cbn [fold_left map fst snd].
    - refine (conj eq_refl (conj _ _)); [intros _ ? ? []|auto].
    - destruct (IH (upd base p0 (one_hot w c0))) as (H1 & H2 & H3). rewrite upd_length in *.
      refine (conj H1 (conj _ _)).
      + intros ND c p [E|H] Hp; inversion_clear ND as [|? ? Hn ND'].
        * injection E as <- <-. rewrite H3 by assumption. now apply nth_upd_eq.
        * now apply H2.
      + intros p Hp. rewrite H3 by (intro; apply Hp; now right). apply nth_upd_neq. intros ->. apply Hp. now left.
  Qed.

  Definition fold_rows (hold : list nat) : list (list Q) :=
    match duplicates so false K (take_idx 0%nat labels (train_idx n hold)) (take_idx 0%nat labels hold) with
    | Raise _ => []
    | Ok dups =>
        let cv := fit_predict (take_idx d X (train_idx n hold) ++ map (fun ci => nth (snd ci) (take_idx d X hold) d) dups)
                    (take_idx 0%nat labels (train_idx n hold) ++ map (fun ci => nth (snd ci) (take_idx 0%nat labels hold) 0%nat) dups)
                    (take_idx d X hold) in
        let w := length (nth 0 cv []) in
        fold_left (fun cv ci => upd cv (snd ci) (one_hot w (fst ci))) dups cv
    end.

  Lemma one_hot_certain c : (c < K)%nat -> certain K c (one_hot K c).
  Proof.
    intro H. split; [apply tab_length|split].
    - unfold one_hot. now rewrite nth_tab, Nat.eqb_refl by assumption.
    - intros j Hj. unfold one_hot. destruct (Nat.ltb_spec j K).
      + rewrite nth_tab by assumption. apply Nat.eqb_neq in Hj. now rewrite Hj.
      + apply nth_overflow. rewrite tab_length. assumption.
  Qed.

  Lemma fold_rows_spec hold : (forall i, In i hold -> (i < n)%nat) -> NoDup hold ->
    length (fold_rows hold) = length hold /\ (forall r, In r (fold_rows hold) -> length r = K) /\
    forall p i pp, nth_error hold p = Some i -> nth i pp [] = nth p (fold_rows hold) [] -> out_of_fold_row fit_predict feat lab n K pp hold p i.
  Proof.
    intros B ND. destruct (duplicates_ok hold B) as [dups [E (G1 & G2 & G3)]].
    unfold fold_rows. rewrite E. rewrite train_idx_others.
    set (extra := map (fun ci => nth (snd ci) hold 0%nat) dups).
    assert (EX : map (fun ci : nat * nat => nth (snd ci) (take_idx d X hold) d) dups = map feat extra).
    { unfold extra. rewrite map_map. apply map_ext_in. intros [c i] Hi. apply nth_take. apply (G1 c i Hi). }
    assert (EL : map (fun ci : nat * nat => nth (snd ci) (take_idx 0%nat labels hold) 0%nat) dups = map lab extra).
    { unfold extra. rewrite map_map. apply map_ext_in. intros [c i] Hi. apply nth_take. apply (G1 c i Hi). }
    assert (EL2 : map lab extra = map fst dups).
    { unfold extra. rewrite map_map. apply map_ext_in. intros [c i] Hi. apply (G1 c i Hi). }
    rewrite EX, EL. unfold take_idx. rewrite <- !map_app. fold feat lab.
    change (map (fun i : nat => nth i X d)) with (map feat). change (map (fun i : nat => nth i labels 0%nat)) with (map lab).
    set (tr := others n hold ++ extra). cbv zeta.
    set (base := fit_predict (map feat tr) (map lab tr) (map feat hold)).
    assert (ALL : forall c, (c < K)%nat -> In c (map lab tr)).
    { intros c Hc. unfold tr. rewrite map_app, EL2. apply in_or_app. now apply G3. }
    destruct (PC (map feat tr) (map lab tr) (map feat hold) ALL) as [LB RB]. fold base in LB, RB. rewrite map_length in LB.
    assert (W : dups <> [] -> length (nth 0 base []) = K).
    { intro H. apply RB, nth_In. rewrite LB. destruct dups as [|[c i] t]; [congruence|].
      pose proof (proj1 (G1 c i (or_introl eq_refl))). lia. }
    set (w := length (nth 0 base [])) in *.
    destruct (fold_upd w dups base) as (F1 & F2 & F3).
    set (out := fold_left _ dups base) in *.
    assert (SND : NoDup (map snd dups)).
    { clear -G1 G2. induction dups as [|[c i] dups IH]; cbn in *; [constructor|]. inversion_clear G2 as [|? ? Hn G2'].
      constructor; [|apply IH; [intros; apply G1; now right|assumption]].
      intro H. apply in_map_iff in H. destruct H as [[c' i'] [Ei Hi]]. cbn in Ei. subst i'.
      destruct (G1 c i (or_introl eq_refl)) as (_ & A1 & _). destruct (G1 c' i (or_intror Hi)) as (_ & A2 & _).
      apply Hn, in_map_iff. exists (c', i). split; [cbn; congruence|assumption]. }
    assert (CK : forall c i, In (c, i) dups -> (c < K)%nat).
    { intros c i Hi. destruct (G1 c i Hi) as (P1 & P2 & _). apply CL. rewrite <- P2. unfold lab. apply nth_In.
      apply B. apply nth_In. exact P1. }
    assert (OUT : forall p, (p < length hold)%nat ->
      (exists c, In (c, p) dups /\ nth p out [] = one_hot K c) \/ (~ In p (map snd dups) /\ nth p out [] = nth p base [])).
    { intros p Hp. destruct (in_dec Nat.eq_dec p (map snd dups)) as [H|H].
      - apply in_map_iff in H. destruct H as [[c p'] [Ep Hc]]. cbn in Ep. subst p'. left. exists c. split; [assumption|].
        rewrite (F2 SND c p Hc) by (rewrite LB; assumption). rewrite W by (intros ->; destruct Hc). reflexivity.
      - right. split; [assumption|]. now apply F3. }
    split; [congruence|split].
    - intros r Hr. apply (In_nth _ _ []) in Hr. destruct Hr as [p [Hp <-]]. rewrite F1, LB in Hp.
      destruct (OUT p Hp) as [[c [_ ->]]|[_ ->]]; [apply tab_length|]. apply RB, nth_In. now rewrite LB.
    - intros p i pp Ep Ei. assert (Hp : (p < length hold)%nat) by (apply nth_error_Some; congruence).
      assert (Np : nth p hold 0%nat = i) by (apply nth_error_nth; assumption).
      exists extra. refine (conj _ (conj _ (conj ALL _))).
      + intros e He. unfold extra in He. apply in_map_iff in He. destruct He as [[c q] [<- Hc]]. cbn [snd].
        destruct (G1 c q Hc) as (P1 & P2 & P3). split; [now apply nth_In|]. intros t Ht Et. apply P3.
        apply in_map_iff. exists t. split; [congruence|assumption].
      + rewrite EL2. exact G2.
      + destruct (OUT p Hp) as [[c [Hc Eo]]|[Hn Eo]].
        * right. split.
          -- unfold extra. apply in_map_iff. exists (c, p). auto.
          -- rewrite Ei, Eo. destruct (G1 c p Hc) as (_ & P2 & _). rewrite Np in P2. rewrite P2.
             apply one_hot_certain. eapply CK, Hc.
        * left. split; [|now rewrite Ei, Eo]. intro H. apply in_app_or in H. destruct H as [H|H].
          -- apply in_others in H. destruct H as [_ H]. apply H. eapply nth_error_In, Ep.
          -- unfold extra in H. apply in_map_iff in H. destruct H as [[c q] [Eq Hc]]. cbn [snd] in Eq.
             destruct (G1 c q Hc) as (P1 & _). apply Hn. apply in_map_iff. exists (c, q). split; [|assumption].
             cbn. assert (p = q); [|congruence]. apply (proj1 (NoDup_nth hold 0%nat) ND); congruence.
  Qed.

  Lemma cv_fold_ok hold pp : (forall i, In i hold -> (i < n)%nat) -> NoDup hold ->
    cv_fold d fit_predict so false X labels K pp hold = Ok (assign_at hold (fold_rows hold) pp).
  Proof.
    intros B ND. destruct (fold_rows_spec hold B ND) as (L & R & _). unfold cv_fold, fold_rows in *. fold n.
    destruct (duplicates_ok hold B) as [dups [E _]]. rewrite E in *. cbn [rbind]. cbv zeta in L, R.
    match goal with |- (if ?c then _ else _) = _ => replace c with true; [reflexivity|] end.
    symmetry. apply andb_true_iff. split; [now apply Nat.eqb_eq|]. apply forallb_forall. intros r Hr.
    apply Nat.eqb_eq. now apply R.
  Qed.

  Lemma cv_pred_probs_spec folds : (2 <= K)%nat -> length X = length labels -> cv_partition n folds ->
    exists pp, cv_pred_probs d fit_predict so false X labels folds = Ok pp /\ length pp = n /\
      forall i, (i < n)%nat -> length (nth i pp []) = K /\
        exists hold p, In hold folds /\ nth_error hold p = Some i /\ out_of_fold_row fit_predict feat lab n K pp hold p i.
  Proof.
    intros HK HX P. unfold cv_pred_probs. rewrite (classes_unique K labels CL).
    replace (Nat.ltb K 2) with false by (symmetry; apply Nat.ltb_ge; lia).
    assert (NE : (0 < length labels)%nat).
    { destruct labels; cbn; [|lia]. exfalso. apply (proj2 (CL 0%nat)). lia. }
    rewrite HX, Nat.eqb_refl. replace (Nat.eqb (length labels) 0) with false by (symmetry; apply Nat.eqb_neq; lia).
    cbn [orb negb].
    assert (MI : map (fun h : list nat => h) folds = folds) by apply map_id.
    destruct (loop_assign (fun s => s) (cv_fold d fit_predict so false X labels K) (fun h => h) fold_rows n folds
                (repeat (repeat 0 K) (length labels))) as [out [E [L [H _]]]].
    - intros hold st Hh _. exists (assign_at hold (fold_rows hold) st). split; [|reflexivity].
      apply cv_fold_ok; [intros; eapply partition_lt; eassumption|eapply partition_nodup; eassumption].
    - rewrite MI. eapply Permutation_NoDup; [apply Permutation_sym, P|apply seq_NoDup].
    - rewrite MI. intros i Hi. apply (Permutation_in _ P), in_seq in Hi. lia.
    - intros hold Hh. apply fold_rows_spec; [intros; eapply partition_lt; eassumption|eapply partition_nodup; eassumption].
    - apply repeat_length.
    - exists out. split; [exact E|]. split; [exact L|]. intros i Hi.
      destruct (partition_fold n folds i P Hi) as [hold [p [Hh Hp]]].
      assert (B : forall j, In j hold -> (j < n)%nat) by (intros; eapply partition_lt; eassumption).
      assert (ND : NoDup hold) by (eapply partition_nodup; eassumption).
      destruct (fold_rows_spec hold B ND) as (L1 & L2 & L3). pose proof (H hold p i [] Hh Hp) as EQ. cbn beta in EQ.
      split; [|exists hold, p; eauto]. rewrite EQ. apply L2, nth_In. rewrite L1. apply nth_error_Some. congruence.
  Qed.

  (** no duplication when every class occurs outside every fold *)
  Lemma cv_pred_probs_plain folds pp : (2 <= K)%nat -> length X = length labels -> cv_partition n folds ->
    (forall hold c, In hold folds -> (c < K)%nat -> exists j, (j < n)%nat /\ ~ In j hold /\ lab j = c) ->
    cv_pred_probs d fit_predict so false X labels folds = Ok pp ->
    forall i, (i < n)%nat -> exists hold p, In hold folds /\ nth_error hold p = Some i /\
      nth i pp [] = nth p (fit_predict (map feat (others n hold)) (map lab (others n hold)) (map feat hold)) [].
  Proof.
    intros HK HX P S E i Hi. destruct (cv_pred_probs_spec folds HK HX P) as [pp' [E' [_ H]]].
    assert (pp' = pp) by congruence. subst pp'. destruct (H i Hi) as [_ [hold [p [Hh [Hp [extra (R1 & _ & _ & R4)]]]]]].
    exists hold, p. refine (conj Hh (conj Hp _)).
    assert (EE : extra = []).
    { destruct extra as [|e t]; [reflexivity|]. exfalso. destruct (R1 e (or_introl eq_refl)) as [He Hne].
      destruct (S hold (lab e) Hh) as [j (J1 & J2 & J3)].
      - apply CL. unfold lab. apply nth_In. eapply partition_lt; eassumption.
      - apply (Hne j); [apply in_others; auto|assumption]. }
    subst extra. rewrite app_nil_r in R4. destruct R4 as [[_ R]|[[] _]]. exact R.
  Qed.
End Cls.

(** ** Regression *)
Section Reg.
  Context {A : Type}.
  Variable d : A.
  Variable fit : list A -> list Q -> list A -> list Q.
  Variable X : list A.
  Variable y : list Q.
  Hypothesis PR : proper_regressor fit.
  Let n := length y.
  Let feat (i : nat) : A := nth i X d.
  Let tgt (i : nat) : Q := nth i y 0.

  Lemma take_idx_map {V} (dv : V) l idx : take_idx dv l idx = map (fun i => nth i l dv) idx.
  Proof. reflexivity. Qed.

  Lemma reg_loop ins outs folds : NoDup ins -> (forall i, In i ins -> (i < n)%nat) ->
    cv_partition (length ins) folds ->
    exists preds, rfold (reg_fold d fit X y ins outs) folds (repeat 0 n, []) =
                  Ok (preds, map (fun hold => fit (map feat (map (fun j => nth j ins 0%nat) (others (length ins) hold)))
                                                  (map tgt (map (fun j => nth j ins 0%nat) (others (length ins) hold)))
                                                  (map feat outs)) folds) /\
      length preds = n /\
      (forall i, In i ins -> exists hold p, In hold folds /\ nth_error (map (fun j => nth j ins 0%nat) hold) p = Some i /\
         nth i preds 0 =
           nth p (fit (map feat (map (fun j => nth j ins 0%nat) (others (length ins) hold)))
                      (map tgt (map (fun j => nth j ins 0%nat) (others (length ins) hold)))
                      (map feat (map (fun j => nth j ins 0%nat) hold))) 0).
  Proof.
    intros ND B P.
    set (tr := fun hold => map (fun j => nth j ins 0%nat) (others (length ins) hold)).
    set (ho := fun hold => map (fun j => nth j ins 0%nat) hold).
    set (rows := fun hold => fit (map feat (tr hold)) (map tgt (tr hold)) (map feat (ho hold))).
    assert (STEP : forall st hold, reg_fold d fit X y ins outs st hold =
       Ok (assign_at (ho hold) (rows hold) (fst st), snd st ++ [fit (map feat (tr hold)) (map tgt (tr hold)) (map feat outs)])).
    { intros st hold. unfold reg_fold. rewrite train_idx_others. rewrite !take_idx_map.
      change (map (fun i => nth i ins 0%nat) (others (length ins) hold)) with (tr hold).
      change (map (fun i => nth i ins 0%nat) hold) with (ho hold).
      change (map (fun i => nth i X d)) with (map feat). change (map (fun i => nth i y 0)) with (map tgt).
      fold (rows hold). replace (Nat.eqb (length (rows hold)) (length (ho hold))) with true; [reflexivity|].
      symmetry. apply Nat.eqb_eq. unfold rows. now rewrite PR, map_length. }
    assert (CC : concat (map ho folds) = map (fun j => nth j ins 0%nat) (concat folds)).
    { unfold ho. now rewrite concat_map. }
    destruct (loop_assign (fun s => fst s) (reg_fold d fit X y ins outs) ho rows n folds (repeat 0 n, []))
      as [out [E [L [H _]]]].
    - intros hold st Hh _. eexists. split; [apply STEP|reflexivity].
    - rewrite CC. eapply Permutation_NoDup; [apply Permutation_map, Permutation_sym, P|]. rewrite map_nth_seq'. exact ND.
    - rewrite CC. intros i Hi. apply in_map_iff in Hi. destruct Hi as [j [<- Hj]]. apply B, nth_In.
      apply (Permutation_in _ P), in_seq in Hj. lia.
    - intros hold Hh. unfold rows. now rewrite PR, map_length.
    - apply repeat_length.
    - destruct out as [preds cols]. cbn [fst] in *. exists preds. split; [|split; [exact L|]].
      + rewrite E. do 2 f_equal. clear -E STEP. assert (G : forall folds st out, rfold (reg_fold d fit X y ins outs) folds st = Ok out ->
          snd out = snd st ++ map (fun hold => fit (map feat (tr hold)) (map tgt (tr hold)) (map feat outs)) folds).
        { induction folds0 as [|h t IH]; intros st out H; cbn [rfold] in H.
          - injection H as <-. cbn. now rewrite app_nil_r.
          - rewrite STEP in H. cbn [rbind] in H. apply IH in H. rewrite H. cbn [snd map]. now rewrite <- app_assoc. }
        apply G in E. exact E.
      + intros i Hi. apply (In_nth _ _ 0%nat) in Hi. destruct Hi as [q [Hq Eq]].
        destruct (partition_fold _ _ q P Hq) as [hold [p [Hh Hp]]].
        assert (Ei : nth_error (ho hold) p = Some i).
        { unfold ho. rewrite nth_error_map, Hp. cbn. now rewrite Eq. }
        exists hold, p. refine (conj Hh (conj Ei _)). exact (H hold p i 0 Hh Ei).
  Qed.

  Lemma without_positions ins hold : NoDup ins -> (forall j, In j hold -> (j < length ins)%nat) ->
    map (fun j => nth j ins 0%nat) (others (length ins) hold) = without ins (map (fun j => nth j ins 0%nat) hold).
  Proof.
    intros ND B. unfold others, without. rewrite <- (map_nth_seq' ins 0%nat) at 2.
    assert (G : forall l, (forall j, In j l -> (j < length ins)%nat) ->
      map (fun j => nth j ins 0%nat) (filter (fun i => negb (existsb (Nat.eqb i) hold)) l) =
      filter (fun i => negb (existsb (Nat.eqb i) (map (fun j => nth j ins 0%nat) hold))) (map (fun j => nth j ins 0%nat) l)).
    { induction l as [|j l IH]; intro BL; [reflexivity|]. cbn [filter map].
      replace (existsb (Nat.eqb (nth j ins 0%nat)) (map (fun j0 => nth j0 ins 0%nat) hold)) with (existsb (Nat.eqb j) hold).
      - destruct (existsb (Nat.eqb j) hold); cbn [negb map]; rewrite IH; auto; intros; apply BL; now right.
      - apply eq_true_iff_eq. rewrite !existsb_exists. split.
        + intros [x [Hx E]]. apply Nat.eqb_eq in E. subst x. exists (nth j ins 0%nat). split; [|apply Nat.eqb_refl].
          apply in_map_iff. eauto.
        + intros [x [Hx E]]. apply Nat.eqb_eq in E. subst x. apply in_map_iff in Hx. destruct Hx as [q [Eq Hq]].
          exists j. split; [|apply Nat.eqb_refl]. assert (q = j); [|congruence].
          apply (proj1 (NoDup_nth ins 0%nat) ND); [now apply B|apply BL; now left|assumption]. }
    apply G. intros j Hj. apply in_seq in Hj. lia.
  Qed.

  Lemma ceil_nat_le m k : 0 <= k <= 1 -> (ceil_nat (Qnat m * k) <= m)%nat.
  Proof.
    intros [H0 H1]. unfold ceil_nat. assert (H : (Qceiling (Qnat m * k) <= Z.of_nat m)%Z); [|lia].
    apply Zlt_succ_le. rewrite Zlt_Qlt.
    apply Qlt_le_trans with (Qnat m * k + 1).
    - pose proof (Qceiling_lt (Qnat m * k)) as H2. assert (E : inject_Z (Qceiling (Qnat m * k) - 1) == inject_Z (Qceiling (Qnat m * k)) - 1)
        by (unfold Z.sub; rewrite inject_Z_plus; reflexivity).
      rewrite E in H2. lra.
    - unfold Z.succ. rewrite inject_Z_plus. fold (Qnat m). change (inject_Z 1) with 1.
      pose proof (Qnat_nonneg m). nra.
  Qed.
  Lemma ceil_nat_zero m : ceil_nat (Qnat m * 0) = 0%nat.
  Proof.
    unfold ceil_nat. assert (E : Qceiling (Qnat m * 0) = 0%Z); [|now rewrite E].
    rewrite (Qceiling_comp (Qnat m * 0) (inject_Z 0)) by (rewrite Qmult_0_r; reflexivity). apply Qceiling_Z.
  Qed.

  Lemma run_ok ins outs folds : NoDup (ins ++ outs) -> (forall i, In i (ins ++ outs) -> (i < n)%nat) ->
    cv_partition (length ins) folds ->
    exists st, rfold (reg_fold d fit X y ins outs) folds (repeat 0 n, []) = Ok st /\
      cv_predictions fit feat tgt n ins outs (map (map (fun j => nth j ins 0%nat)) folds)
        (assign_at outs (tab (length outs) (fun i => qmean (map (fun c => nth i c 0) (snd st)))) (fst st)).
  Proof.
    intros ND B P. destruct (NoDup_app_parts _ _ ND) as (ND1 & ND2 & DJ).
    destruct (reg_loop ins outs folds) as [preds [E [L H]]]; auto.
    { intros i Hi. apply B, in_or_app. now left. }
    eexists. split; [exact E|]. cbn [fst snd].
    assert (HB : forall hold j, In hold folds -> In j hold -> (j < length ins)%nat) by (intros; eapply partition_lt; eassumption).
    split; [|split; [|split]].
    - now rewrite assign_at_length.
    - rewrite <- concat_map. rewrite <- (map_nth_seq' ins 0%nat) at 1. now apply Permutation_map.
    - intros i Hi. destruct (H i Hi) as [hold [p [Hh [Hp Ep]]]].
      exists (map (fun j => nth j ins 0%nat) hold), p. refine (conj _ (conj Hp (conj _ _))).
      + now apply in_map.
      + unfold without. rewrite filter_In. intros [_ Hn]. apply negb_true_iff in Hn.
        assert (existsb (Nat.eqb i) (map (fun j => nth j ins 0%nat) hold) = true); [|congruence].
        apply existsb_exists. exists i. split; [eapply nth_error_In, Hp|apply Nat.eqb_refl].
      + rewrite assign_at_other by (now apply DJ). rewrite Ep, without_positions by eauto. reflexivity.
    - intros q i Hq. assert (Hl : (q < length outs)%nat) by (apply nth_error_Some; congruence).
      rewrite (assign_at_nth outs _ preds q i 0); auto.
      + rewrite nth_tab by assumption. f_equal. rewrite !map_map. apply map_ext_in. intros hold Hh.
        now rewrite without_positions by eauto.
      + apply tab_length.
      + intros j Hj. rewrite L. apply B, in_or_app. now right.
  Qed.

  Lemma get_cv_predictions_ok s k cvn folds : Permutation s (seq 0 n) ->
    0 <= k <= 1 -> (cvn <= n - ceil_nat (Qnat n * k))%nat -> (forall m, cv_partition m (folds m)) ->
    exists ins outs preds, get_cv_predictions d fit X y (Some s) k cvn folds = Ok preds /\
      s = ins ++ outs /\ length outs = ceil_nat (Qnat n * k) /\
      cv_predictions fit feat tgt n ins outs (map (map (fun j => nth j ins 0%nat)) (folds (length ins))) preds.
  Proof.
    intros P HK HC HF. assert (LS : length s = n) by (now rewrite (Permutation_length P), seq_length).
    assert (NDS : NoDup s) by (eapply Permutation_NoDup; [apply Permutation_sym, P|apply seq_NoDup]).
    assert (BS : forall i, In i s -> (i < n)%nat) by (intros i Hi; apply (Permutation_in _ P), in_seq in Hi; lia).
    unfold get_cv_predictions, cv_split. fold n.
    replace (Qltb k 0 || Qltb 1 k)%bool with false
      by (symmetry; apply orb_false_iff; split; apply Qltb_false; lra).
    destruct (Qeq_bool k 0) eqn:E0; cbn [rbind].
    - apply Qeq_bool_iff in E0.
      assert (Z : ceil_nat (Qnat n * k) = 0%nat).
      { unfold ceil_nat. rewrite (Qceiling_comp (Qnat n * k) (inject_Z 0)) by (rewrite E0, Qmult_0_r; reflexivity).
        now rewrite Qceiling_Z. }
      rewrite Z in HC. replace (Nat.ltb (length s) cvn) with false by (symmetry; apply Nat.ltb_ge; lia).
      destruct (run_ok s [] (folds (length s))) as [st [E H]]; auto; try (rewrite app_nil_r; assumption).
      fold n. rewrite E. cbn [rbind]. exists s, [], (fst st). refine (conj eq_refl (conj _ (conj (eq_sym Z) _))); [now rewrite app_nil_r|exact H].
    - rewrite LS. set (m := ceil_nat (Qnat n * k)) in *. pose proof (ceil_nat_le n k HK) as ML. fold m in ML.
      set (ins := firstn (n - m) s). set (outs := skipn (n - m) s).
      assert (SE : s = ins ++ outs) by (symmetry; apply firstn_skipn).
      assert (LI : length ins = (n - m)%nat) by (unfold ins; rewrite firstn_length; lia).
      replace (Nat.ltb (length ins) cvn) with false by (symmetry; apply Nat.ltb_ge; lia).
      destruct (run_ok ins outs (folds (length ins))) as [st [E H]]; auto; try (rewrite <- SE; assumption).
      fold n. rewrite E. cbn [rbind]. eexists ins, outs, _. refine (conj eq_refl (conj SE (conj _ H))).
      unfold outs. rewrite skipn_length. lia.
  Qed.

  Lemma get_cv_predictions_rejects s k cvn folds : length s = n ->
    ~ (0 <= k <= 1 /\ (cvn <= n - ceil_nat (Qnat n * k))%nat) ->
    get_cv_predictions d fit X y (Some s) k cvn folds = Raise ValueError.
  Proof.
    intros LS H. unfold get_cv_predictions, cv_split. fold n. destruct (Qltb k 0 || Qltb 1 k)%bool eqn:B; [reflexivity|].
    apply orb_false_iff in B. destruct B as [B1 B2]. apply Qltb_false in B1, B2.
    destruct (Qeq_bool k 0) eqn:E0; cbn [rbind].
    - apply Qeq_bool_iff in E0. assert (Z : ceil_nat (Qnat n * k) = 0%nat).
      { unfold ceil_nat. rewrite (Qceiling_comp (Qnat n * k) (inject_Z 0)) by (rewrite E0, Qmult_0_r; reflexivity).
        now rewrite Qceiling_Z. }
      rewrite Z in H. destruct (Nat.ltb_spec (length s) cvn); [reflexivity|]. exfalso. apply H. split; [lra|lia].
    - rewrite LS, firstn_length. destruct (Nat.ltb_spec (Nat.min (n - ceil_nat (Qnat n * k)) (length s)) cvn); [reflexivity|].
      exfalso. apply H. split; [lra|lia].
  Qed.
End Reg.
