(** * Further facts about training, reports, spans, cross-validation and loaded data *)
From Coq Require Import String QArith List ZArith Bool Arith Lia.
From Verif Require Import Base BaseFacts ModelUtil.
From Verif Require ModelCount ModelRank ModelFilter ModelLearn ModelRegLearn ModelReport ModelSpan ModelToken ModelCV ModelData ProofLearn ProofCount.
Import ListNotations.
Open Scope Q_scope.

(** ** Integer flags (C48, C117) *)
Definition zero_one (z : Z) : Prop := z = 0%Z \/ z = 1%Z.

Lemma wrap_flag n x : (2 <= n)%nat -> zero_one x -> ModelLearn.wrap_index n (- x - 1)%Z = Ok (n - 1 - Z.to_nat x)%nat.
Proof.
  intros Hn Hx. assert (B : (0 <= x <= 1)%Z) by (destruct Hx; lia). unfold ModelLearn.wrap_index.
  assert ((Z.leb (- Z.of_nat n) (- x - 1) && Z.ltb (- x - 1) (Z.of_nat n))%bool = true) as ->.
  { apply andb_true_iff. split; [apply Z.leb_le|apply Z.ltb_lt]; lia. }
  assert (Z.ltb (- x - 1) 0 = true) as -> by (apply Z.ltb_lt; lia). f_equal. lia.
Qed.
Lemma wrap_flags n z : (2 <= n)%nat -> Forall zero_one z ->
  rmap (fun z => ModelLearn.wrap_index n (- z - 1)%Z) z = Ok (map (fun z => (n - 1 - Z.to_nat z)%nat) z).
Proof.
  intros Hn H. induction H as [|x z Hx _ IH]; [reflexivity|]. cbn [rmap map]. rewrite IH, (wrap_flag n x Hn Hx). reflexivity.
Qed.

Definition from_end {A} (d : A) (l : list A) (z : Z) : A := nth (length l - 1 - Z.to_nat z) l d.

Lemma subset_flags {A} (d : A) l z : (2 <= length l)%nat -> Forall zero_one z ->
  ModelLearn.np_subset d (ModelLearn.IntCol z) l = Ok (map (from_end d l) z).
Proof.
  intros Hn Hz. cbn [ModelLearn.np_subset]. rewrite (wrap_flags _ _ Hn Hz). cbn [rbind]. f_equal. unfold take_idx. rewrite map_map.
  reflexivity.
Qed.

Lemma truthy_flags z : Forall zero_one z -> ModelRegLearn.truthy (ModelLearn.IntCol z) = repeat true (length z).
Proof. intro H. induction H as [|x z [-> | ->] _ IH]; cbn in *; congruence. Qed.
Lemma select_all {A} (l : list A) n : (length l <= n)%nat -> select (repeat true n) l = l.
Proof. revert n. induction l as [|x l IH]; intros [|n] H; cbn in *; try reflexivity; try lia. f_equal. apply IH. lia. Qed.

Section Reg.
  Import ModelRegLearn.
  Context {A : Type}.
  Variable d : A.
  Variable srt : list Q -> list nat.
  Variable sq ex : Q -> Q.
  Variable model : dict -> list A -> list Q -> list A -> list Q.
  Variable folds : nat -> nat -> nat -> nat -> list (list nat).
  Variable accepts_weights : bool.
  Variable trains : training A -> res unit.
  Variable cv_n_folds n_boot : nat.
  Variable include_aleatoric : bool.
  Variable k_left : object A -> option Q.
  Let go := fit d srt sq ex model folds accepts_weights trains cv_n_folds n_boot include_aleatoric k_left.

  Lemma integer_flags X y f z o mk mf s s' : go X y (Some (Frame f)) None o mk mf s = (s', Ok tt) ->
    f_issue f = Some (ModelLearn.IntCol z) -> Forall zero_one z ->
    exists tr, g_trained s' = g_trained s ++ [tr] /\ tr_X tr = map (from_end d (x_rows X)) z /\
      (y_in y = Vector -> tr_y tr = map (from_end 0 (y_numbers y)) z) /\
      (y_in y = PyList -> length z = length (y_values y) -> tr_y tr = y_numbers y).
  Proof.
    unfold go, fit. intros H Hz Z01. destruct (assert_valid_regression_inputs X y) as [r|] eqn:V; [|discriminate].
    unfold assert_valid_regression_inputs in V. destruct (Nat.leb_spec (length (y_values y)) 1) as [|L1]; [discriminate|].
    destruct (existsb _ _); [discriminate|]. destruct (Nat.eqb_spec (length (x_rows X)) (length (y_values y))) as [L2|]; [|discriminate]. clear V.
    destruct (_ || _)%bool; [discriminate|]. cbn [rbind] in H.
    destruct (process_label_issues_arg (Frame f) y) as [g|] eqn:P; [|discriminate].
    assert (g = f) as ->.
    { unfold process_label_issues_arg in P. rewrite Hz in P. destruct (negb _); [discriminate|]. destruct (f_given f); [|congruence].
      match type of P with (if ?b then _ else _) = _ => destruct b end; congruence. }
    clear P. rewrite Hz in H.
    destruct (subset_targets y (ModelLearn.IntCol z)) as [ys|] eqn:ST; cbn [rbind] in H; [|discriminate].
    assert (SX : subset_features d X (ModelLearn.IntCol z) = Ok (map (from_end d (x_rows X)) z) \/ subset_features d X (ModelLearn.IntCol z) = Raise TypeError).
    { unfold subset_features. destruct (x_is_list X); [now right|left]. unfold ModelLearn.subset_data. rewrite subset_flags; auto. lia. }
    destruct SX as [SX|SX]; rewrite SX in H; cbn [rbind] in H; [|discriminate].
    destruct (trains _); cbn [rbind] in H; [|discriminate]. injection H as <-. cbn. eexists. split; [reflexivity|]. cbn.
    split; [reflexivity|]. unfold subset_targets in ST.
    assert (LY : length (y_numbers y) = length (y_values y)) by (unfold y_numbers; apply map_length). split.
    - intro V. rewrite V in ST. rewrite subset_flags in ST by (auto; lia). congruence.
    - intros V LZ. rewrite V in ST. rewrite truthy_flags in ST by assumption. rewrite repeat_length in ST.
      destruct (Nat.leb _ _); [|discriminate]. rewrite select_all in ST by lia. congruence.
  Qed.

  (** a nan among the given labels of the table never equals a target *)
  Lemma nan_given X y f g o mk mf sw s i : f_given f = Some g -> f_issue f <> None -> (i < length g)%nat -> (i < length (y_values y))%nat -> nth i g None = None ->
    snd (go X y (Some (Frame f)) sw o mk mf s) = Raise ValueError.
  Proof.
    unfold go, fit. intros Hg Hi L1 L2 N. unfold assert_valid_regression_inputs. destruct (Nat.leb _ _); [reflexivity|].
    destruct (existsb _ (y_values y)); [reflexivity|]. destruct (negb _); [reflexivity|].
    destruct (_ || _)%bool; [reflexivity|]. match goal with |- context [if ?b then _ else _] => destruct b end; [reflexivity|]. cbn [rbind].
    assert (process_label_issues_arg (Frame f) y = Raise ValueError) as ->; [|reflexivity].
    unfold process_label_issues_arg. destruct (f_issue f); [|congruence]. destruct (negb _); [reflexivity|]. rewrite Hg.
    assert (W1 : existsb (fun a => existsb (fun b => differs a b) (y_values y)) g = true).
    { apply existsb_exists. exists (nth i g None). split; [now apply nth_In|]. rewrite N. apply existsb_exists. exists (nth i (y_values y) None).
      split; [now apply nth_In|reflexivity]. }
    assert (W2 : existsb (fun ab => differs (fst ab) (snd ab)) (combine g (y_values y)) = true).
    { apply existsb_exists. exists (nth i (combine g (y_values y)) (None, None)). split.
      - apply nth_In. rewrite combine_length. lia.
      - clear - N L1 L2. revert i g L1 L2 N. induction (y_values y) as [|v vs IH]; intros i g L1 L2 N; [cbn in L2; lia|].
        destruct g as [|x g]; [cbn in L1; lia|]. destruct i; cbn in *; [subst; reflexivity|]. apply IH; lia || assumption. }
    rewrite W1, W2. now destruct (y_in y).
  Qed.
End Reg.

(** ** Training with integer flags (C48) *)
Section Cls.
  Import ModelLearn ProofLearn.
  Context {A : Type}.
  Variable srt : list Q -> list nat.
  Variable minv : matrix -> res matrix.
  Variable js : nat -> ModelBatched.jobs.
  Variable cfg : settings.

  Lemma integer_flags_cls (d : A) X ds th nm im df0 w s s' tr df z :
    fit srt minv js cfg d X Arr ds th nm im (Some (DFArg df0)) w s = (s', Ok (tr, df)) ->
    d_issue df0 = Some (IntCol z) -> Forall zero_one z -> (2 <= length X)%nat -> (2 <= length (ds_labels ds))%nat ->
    tr_X tr = map (from_end d X) z /\ tr_labels tr = map (from_end 0%nat (ds_labels ds)) z.
  Proof.
    intros H Hz Z01 LX LY. unfold fit in H. destruct (w_in_clf_kwargs w); [discriminate|].
    destruct (match w_given w with Some _ => negb (w_supported w) | None => false end); [discriminate|].
    apply mbind_ok in H. destruct H as (s1 & arg & E1 & H).
    assert (arg = DFArg df0) as ->.
    { apply mbind_ok in E1. destruct E1 as (s2 & [] & _ & E1). apply mbind_ok in E1. destruct E1 as (s3 & nc & _ & E1).
      apply mbind_ok in E1. destruct E1 as (s4 & [] & _ & E1). now injection E1. }
    clear E1. apply mbind_ok in H. destruct H as (s2 & df1 & E2 & H). injection E2 as <- E2.
    assert (D1 : d_issue df1 = Some (IntCol z)).
    { unfold process_label_issues_arg in E2. rewrite Hz in E2. destruct (negb _); [discriminate|].
      destruct (d_given df0); [destruct (existsb _ _); [discriminate|]|]; congruence. }
    apply mbind_ok in H. destruct H as (s3 & [] & _ & H). apply mbind_ok in H. destruct H as (s4 & df2 & E4 & H).
    assert (D2 : d_issue df2 = Some (IntCol z)).
    { destruct (d_quality df1); [injection E4 as _ <-; exact D1|]. destruct (ds_pred_probs ds); [|injection E4 as _ <-; exact D1].
      apply mbind_ok in E4. destruct E4 as (s5 & qk & _ & E4). destruct qk as [[me ad]|]; [|discriminate].
      apply mbind_ok in E4. destruct E4 as (s6 & q & _ & E4). apply mbind_ok in E4. destruct E4 as (s7 & [] & _ & E4).
      injection E4 as _ <-. exact D1. }
    rewrite D2 in H. apply mbind_ok in H. destruct H as (s5 & kl & E5 & H). injection E5 as <- E5.
    assert (S5 : subset_labels Arr (IntCol z) (ds_labels ds) = Ok (Arr, map (from_end 0%nat (ds_labels ds)) z)) by (unfold subset_labels; now rewrite subset_flags).
    change (subset_labels Arr (IntCol z) (ds_labels ds) = Ok kl) in E5. rewrite S5 in E5. injection E5 as <-.
    apply mbind_ok in H. destruct H as (s6 & xc & E6 & H). injection E6 as <- E6. assert (S6 : subset_data d (IntCol z) X = Ok (map (from_end d X) z)) by (unfold subset_data; now rewrite subset_flags).
    change (subset_data d (IntCol z) X = Ok xc) in E6. rewrite S6 in E6. injection E6 as <-. apply mbind_ok in H. destruct H as (s7 & nmx & _ & H). apply mbind_ok in H. destruct H as (s8 & nc & _ & H).
    cbn [snd fst] in H.
    destruct (w_given w) as [sw|]; destruct (w_final w) as [fw|].
    - injection H as _ <- _. auto.
    - apply mbind_ok in H. destruct H as (s9 & sw' & _ & H). injection H as _ <- _. auto.
    - injection H as _ <- _. auto.
    - destruct nmx as [nmx|]; [|injection H as _ <- _; auto]. destruct (w_supported w); [|injection H as _ <- _; auto].
      apply mbind_ok in H. destruct H as (s9 & aw & _ & H). apply mbind_ok in H. destruct H as (s10 & ew & _ & H).
      apply mbind_ok in H. destruct H as (s11 & [] & _ & H). injection H as _ <- _. auto.
  Qed.

  (** two different labels are needed, and enough *)
  Lemma two_labels ds : ds_pred_probs ds = None ->
    (valid_inputs ds = Ok tt <-> exists x y, In x (ds_labels ds) /\ In y (ds_labels ds) /\ x <> y).
  Proof.
    intro N. unfold valid_inputs. rewrite N. 
    assert (U : forall x, In x (unique (ds_labels ds)) <-> In x (ds_labels ds)) by (intro; apply ProofCount.in_unique).
    assert (ND : NoDup (unique (ds_labels ds))) by apply ProofCount.unique_NoDup.
    destruct (unique (ds_labels ds)) as [|a [|b l]] eqn:E; cbn [length Nat.ltb Nat.leb].
    - split; [discriminate|]. intros (x & y & Hx & _). apply U in Hx. destruct Hx.
    - split; [discriminate|]. intros (x & y & Hx & Hy & D). apply U in Hx, Hy. destruct Hx as [<-|[]]. destruct Hy as [<-|[]]. congruence.
    - split; [|reflexivity]. intros _. exists a, b. split; [apply U; now left|]. split; [apply U; right; now left|].
      intros ->. inversion ND as [|? ? H _]. apply H. now left.
  Qed.
End Cls.

(** ** Cross-validation refuses features that do not match the labels (C47) *)
Lemma cv_mismatch {A} (d : A) fit_predict so torch X labels folds : length X <> length labels ->
  ModelCV.cv_pred_probs d fit_predict so torch X labels folds = Raise ValueError.
Proof.
  intro H. unfold ModelCV.cv_pred_probs. destruct (Nat.ltb _ 2); [reflexivity|].
  assert ((Nat.eqb (length X) 0 || negb (Nat.eqb (length X) (length labels)))%bool = true) as ->; [|reflexivity].
  apply orb_true_iff. right. apply negb_true_iff, Nat.eqb_neq, H.
Qed.

(** ** Tables in a report (C112) *)
Lemma frame_shown {A W} fuel k n : k <> "statistics"%string ->
  exists dots, ModelReport.show_entry fuel k (@ModelReport.PFrame A W n) = Ok (Some (ModelReport.ShownRows (Nat.min n 5) dots)) /\
    (dots = true <-> (5 < n)%nat).
Proof.
  intro H. unfold ModelReport.show_entry. destruct (String.eqb_spec k "statistics"); [congruence|].
  exists (Nat.ltb 5 n). rewrite Nat.min_comm. split; [reflexivity|]. apply Nat.ltb_lt.
Qed.

(** ** Spans (C105) *)
Lemma span_is_token srt labels probs :
  ModelSpan.span_find_label_issues srt labels probs =
  ModelToken.token_find_label_issues srt labels (map (map (fun p => [1 - p; p])) probs) 2 ModelRank.SelfConfidence None ModelFilter.PruneByNoiseRate
    {| ModelFilter.frac_noise := 1; ModelFilter.num_to_remove_per_class := None; ModelFilter.min_examples_per_class := 1;
       ModelFilter.confident_joint := None; ModelFilter.n_jobs := 1; ModelFilter.sched_c := []; ModelFilter.sched_n := [] |}.
Proof. reflexivity. Qed.

(** ** Equal labels (C120) *)
Section Data.
  Import ModelData.
  Context {A : Type} (same : A -> A -> bool).
  Hypothesis same_eq : forall x y, same x y = true <-> x = y.

  Lemma all2_eq {X} (f : X -> X -> bool) : (forall x y, f x y = true <-> x = y) -> forall a b, all2 f a b = true <-> a = b.
  Proof.
    intros F a. induction a as [|x a IH]; intros [|y b]; cbn; try (split; [discriminate|congruence]); [tauto|].
    rewrite andb_true_iff, F, IH. split; [intros [-> ->]; reflexivity|]. intro H; injection H; auto.
  Qed.
  Lemma rectangular_lengths l : rectangular l = true <-> forall x y, In x l -> In y l -> length x = length y.
  Proof.
    destruct l as [|r l]; [split; [intros _ x y []|reflexivity]|]. cbn [rectangular]. rewrite forallb_forall. split.
    - intros H. assert (G : forall x, In x (r :: l) -> length x = length r).
      { intros x [->|I]; [reflexivity|]. apply Nat.eqb_eq, H, I. }
      intros x y Hx Hy. now rewrite (G x Hx), (G y Hy).
    - intros H x I. apply Nat.eqb_eq, H; [now right|now left].
  Qed.
  Lemma labels_equal_iff (a b : @label A) : label_equal same a b = true <->
    lname a = lname b /\ lmap a = lmap b /\
    ((values a = values b /\ forall l, values a = SLists l -> forall x y, In x l -> In y l -> length x = length y) \/
     (stored_length (values a) = 0%nat /\ stored_length (values b) = 0%nat)).
  Proof.
    unfold label_equal. rewrite !andb_true_iff.
    assert (N : name_equal (lname a) (lname b) = true <-> lname a = lname b).
    { destruct (lname a), (lname b); cbn; try (split; [discriminate|congruence]); [|tauto].
      rewrite String.eqb_eq. split; [intros ->; reflexivity|congruence]. }
    assert (M : map_equal same (lmap a) (lmap b) = true <-> lmap a = lmap b).
    { unfold map_equal. apply all2_eq. intros [i x] [j y]. cbn. rewrite andb_true_iff, Z.eqb_eq, same_eq. split; [intros [-> ->]; reflexivity|].
      intro H; injection H; auto. }
    rewrite N, M.
    assert (V : array_equal same (values a) (values b) = true <->
      (values a = values b /\ forall l, values a = SLists l -> forall x y, In x l -> In y l -> length x = length y) \/
      (stored_length (values a) = 0%nat /\ stored_length (values b) = 0%nat)).
    { assert (E0 : forall X (l : list X), length l = 0%nat -> l = []) by (intros X [|? ?]; [reflexivity|discriminate]).
      destruct (values a) as [x|x|x], (values b) as [y|y|y]; cbn [array_equal stored_length].
      all: try (rewrite andb_true_iff, !Nat.eqb_eq; split; [intros [? ?]; right; auto|intros [[? _]|?]; [discriminate|assumption]]).
      all: try (rewrite all2_eq by (apply same_eq || apply Z.eqb_eq)).
      - split; [intros ->; left; split; [reflexivity|discriminate]|]. intros [[H _]|[H1 H2]]; [congruence|]. now rewrite (E0 _ _ H1), (E0 _ _ H2).
      - split; [intros ->; left; split; [reflexivity|discriminate]|]. intros [[H _]|[H1 H2]]; [congruence|]. now rewrite (E0 _ _ H1), (E0 _ _ H2).
      - rewrite !andb_true_iff, !rectangular_lengths.
        rewrite (all2_eq (all2 Nat.eqb)) by (intros; apply all2_eq, Nat.eqb_eq).
        split.
        + intros [[H1 _] ->]. left. split; [reflexivity|]. intros l E. injection E as <-. exact H1.
        + intros [[H1 H2]|[H1 H2]].
          * injection H1 as ->. specialize (H2 _ eq_refl). auto.
          * rewrite (E0 _ _ H1), (E0 _ _ H2). repeat split; intros u v []. }
    rewrite V. tauto.
  Qed.
End Data.
