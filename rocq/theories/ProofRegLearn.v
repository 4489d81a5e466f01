(** * Proofs about the regression CleanLearning object *)
From Coq Require Import QArith List ZArith Bool Arith Lia String.
From Verif Require Import Base BaseFacts ModelUtil ModelCV ModelRegression ModelRegLearn SpecRegLearn.
From Verif Require ModelLearn SpecLearn ProofLearn.
Import ListNotations.
Open Scope Q_scope.

Lemma lookup_app k a b : lookup k (a ++ b) = match lookup k a with Some v => Some v | None => lookup k b end.
Proof. induction a as [|[k' v] a IH]; cbn; auto. now destruct (String.eqb k k'). Qed.
Lemma has_none k d : has k d = false <-> lookup k d = None.
Proof. unfold has. destruct (lookup k d); split; congruence. Qed.

Lemma valid_iff {A} (X : features A) y : usable X y <-> assert_valid_regression_inputs X y = Ok (x_rows X, y_numbers y).
Proof.
  unfold usable, assert_valid_regression_inputs. split.
  - intros (H2 & Hn & He). rewrite (proj2 (Nat.leb_gt _ _)) by lia.
    assert (E : existsb (fun v : option Q => match v with Some _ => false | None => true end) (y_values y) = false).
    { apply not_true_iff_false. intro E. apply existsb_exists in E. destruct E as (v & Hv & E). destruct v; [discriminate|]. now apply (Hn _ Hv). }
    rewrite E, He, Nat.eqb_refl. reflexivity.
  - destruct (Nat.leb _ 1) eqn:E1; [discriminate|]. destruct (existsb _ _) eqn:E2; [discriminate|].
    destruct (Nat.eqb _ _) eqn:E3; [|discriminate]. intros _. apply Nat.leb_gt in E1. apply Nat.eqb_eq in E3.
    repeat split; auto. intros v Hv ->. apply not_true_iff_false in E2. apply E2. apply existsb_exists. now exists None.
Qed.
Lemma valid_raise {A} (X : features A) y : ~ usable X y -> assert_valid_regression_inputs X y = Raise ValueError.
Proof.
  intro H. destruct (assert_valid_regression_inputs X y) as [p|e] eqn:E.
  - exfalso. apply H. apply valid_iff. rewrite E. revert E. unfold assert_valid_regression_inputs.
    destruct (Nat.leb _ 1); [discriminate|]. destruct (existsb _ _); [discriminate|]. destruct (negb _); [discriminate|]. intro E. now injection E as <-.
  - revert E. unfold assert_valid_regression_inputs.
    destruct (Nat.leb _ 1); [congruence|]. destruct (existsb _ _); [congruence|]. destruct (negb _); congruence.
Qed.
Lemma valid_dec {A} (X : features A) y : usable X y \/ ~ usable X y.
Proof.
  destruct (assert_valid_regression_inputs X y) as [[a b]|e] eqn:E.
  - left. apply valid_iff. rewrite E. revert E. unfold assert_valid_regression_inputs.
    destruct (Nat.leb _ 1); [discriminate|]. destruct (existsb _ _); [discriminate|]. destruct (negb _); [discriminate|]. auto.
  - right. intro H. apply valid_iff in H. congruence.
Qed.

Definition weights_bad {A} (aw : bool) (X : features A) (w : option (list Q)) : bool :=
  match w with Some w => (negb aw || negb (Nat.eqb (List.length w) (List.length (x_rows X))))%bool | None => false end.
Lemma weights_iff {A} aw (X : features A) w kw kwf :
  weights_usable aw X w kw kwf <->
  (has "sample_weight" kw || has "sample_weight" (merged kw kwf))%bool = false /\ weights_bad aw X w = false.
Proof.
  unfold weights_usable, weights_bad, merged. rewrite orb_false_iff, !has_none, lookup_app. split.
  - intros (H1 & H2 & H3). rewrite H1, H2. split; [auto|]. destruct w as [l|]; [|reflexivity].
    destruct (H3 l eq_refl) as [-> ->]. now rewrite Nat.eqb_refl.
  - intros [[H1 H2] H3]. destruct (lookup "sample_weight" kwf); [discriminate|]. repeat split; auto.
    + subst w. destruct aw; [reflexivity|discriminate].
    + subst w. destruct aw; [|discriminate]. cbn in H3. now apply negb_false_iff, Nat.eqb_eq in H3.
Qed.

Section RegLearn.
  Context {A : Type}.
  Variable d : A.
  Variable srt : list Q -> list nat.
  Variable sq ex : Q -> Q.
  Variable model : dict -> list A -> list Q -> list A -> list Q.
  Variable folds : nat -> nat -> nat -> nat -> list (list nat).
  Variable aw : bool.
  Variable trains : training A -> res unit.
  Variable cvn nb : nat.
  Variable alea : bool.
  Variable kl : object A -> option Q.
  Notation find := (ModelRegLearn.find_label_issues d srt sq ex model folds cvn nb alea kl).
  Notation fit := (ModelRegLearn.fit d srt sq ex model folds aw trains cvn nb alea kl).

  (** the part of [fit] after the checks and the search *)
  Definition finish (X : features A) (y : targets) (w : option (list Q)) (final : dict) (a : issues_arg) (s : object A) : object A * res unit :=
    match process_label_issues_arg a y with
    | Raise e => (s, Raise e)
    | Ok f =>
        let s := {| g_table := Some f; g_mask := f_issue f; g_k := g_k s; g_runs := g_runs s; g_trained := g_trained s |} in
        match f_issue f with
        | None => (s, Raise KeyError)
        | Some c =>
            match (do y' <- subset_targets y c ;
                   do x' <- subset_features d X c ;
                   do w' <- match w with
                            | Some w => do w <- ModelLearn.np_subset 0 c w ; Ok (Some w)
                            | None => Ok None end ;
                   let tr := {| tr_X := x'; tr_y := y'; tr_kwargs := final; tr_weights := w' |} in
                   do _ <- trains tr ; Ok tr) with
            | Raise e => (s, Raise e)
            | Ok tr => ({| g_table := g_table s; g_mask := g_mask s; g_k := g_k s; g_runs := g_runs s; g_trained := g_trained s ++ [tr] |}, Ok tt)
            end
        end
    end.
  Lemma fit_unfold X y li w o kw kwf s :
    fit X y li w o kw kwf s =
    match assert_valid_regression_inputs X y with
    | Raise e => (s, Raise e)
    | Ok _ =>
        if (has "sample_weight" kw || has "sample_weight" (merged kw kwf))%bool then (s, Raise ValueError)
        else if weights_bad aw X w then (s, Raise ValueError)
        else match li with
             | Some a => finish X y w (merged kw kwf) a s
             | None => match find X y kw o s with
                       | (s1, Ok f) => finish X y w (merged kw kwf) (Frame f) s1
                       | (s1, Raise e) => (s1, Raise e)
                       end
             end
    end.
  Proof.
    unfold ModelRegLearn.fit, finish, weights_bad. destruct (assert_valid_regression_inputs X y) as [rr|]; [|reflexivity].
    destruct (_ || _)%bool; [reflexivity|]. destruct w as [w|].
    - destruct (_ || _)%bool; [reflexivity|]. destruct li as [a|]; [reflexivity|].
      destruct (find X y kw o s) as [s1 [f|e]]; reflexivity.
    - destruct li as [a|]; [reflexivity|]. destruct (find X y kw o s) as [s1 [f|e]]; reflexivity.
  Qed.

  Lemma fit_checked X y li w o kw kwf s : usable X y -> weights_usable aw X w kw kwf ->
    fit X y li w o kw kwf s =
    match li with
    | Some a => finish X y w (merged kw kwf) a s
    | None => match find X y kw o s with
              | (s1, Ok f) => finish X y w (merged kw kwf) (Frame f) s1
              | (s1, Raise e) => (s1, Raise e)
              end
    end.
  Proof.
    intros Hu Hw. rewrite fit_unfold. apply valid_iff in Hu. rewrite Hu. apply weights_iff in Hw. destruct Hw as [-> ->]. reflexivity.
  Qed.
  Lemma fit_unchecked X y li w o kw kwf s : ~ (usable X y /\ weights_usable aw X w kw kwf) ->
    fit X y li w o kw kwf s = (s, Raise ValueError).
  Proof.
    intro H. rewrite fit_unfold. destruct (valid_dec X y) as [Hu|Hu].
    - pose proof (proj1 (valid_iff X y) Hu) as E. rewrite E.
      destruct (has _ kw || _)%bool eqn:E1; [reflexivity|]. destruct (weights_bad aw X w) eqn:E2; [reflexivity|].
      exfalso. apply H. split; [exact Hu|]. apply weights_iff. auto.
    - now rewrite (valid_raise X y Hu).
  Qed.

  Definition after_find (s s1 : object A) : Prop := g_trained s1 = g_trained s.
  Lemma find_keeps X y kw o s : g_trained (fst (find X y kw o s)) = g_trained s.
  Proof.
    unfold ModelRegLearn.find_label_issues. destruct (assert_valid_regression_inputs X y) as [[rows ys]|e]; [|reflexivity].
    destruct (ModelRegression.find_label_issues _ _ _ _ _ _ _ _ _ _ _ _ _ _ _ _) as [[k t]|e]; reflexivity.
  Qed.
  Lemma find_ok X y kw o s s1 f : find X y kw o s = (s1, Ok f) ->
    usable X y /\ exists k t,
    ModelRegression.find_label_issues d srt sq ex (model kw) (model []) (folds (g_runs s)) cvn nb alea
      (x_rows X) (y_numbers y) (y_int y) (k_uncertainty o) (k_coarse o) (k_fine o) = Ok (k, t) /\
    f = frame_of t /\ g_k s1 = Some k /\ g_runs s1 = S (g_runs s) /\ g_trained s1 = g_trained s /\
    g_table s1 = (if k_save_space o then g_table s else Some f) /\ g_mask s1 = (if k_save_space o then g_mask s else f_issue f).
  Proof.
    unfold ModelRegLearn.find_label_issues. destruct (valid_dec X y) as [Hu|Hu].
    - pose proof (proj1 (valid_iff X y) Hu) as E. rewrite E.
      destruct (ModelRegression.find_label_issues _ _ _ _ _ _ _ _ _ _ _ _ _ _ _ _) as [[k t]|e]; [|discriminate].
      intro H. injection H as <- <-. split; [exact Hu|]. exists k, t. cbn. repeat split; reflexivity.
    - now rewrite (valid_raise X y Hu).
  Qed.

  Lemma process_issue a y f : process_label_issues_arg a y = Ok f ->
    (a = Frame f /\ f_len f = List.length (y_values y)) \/
    (exists m, a = BoolArray false m /\ List.length m = List.length (y_values y) /\
       f = {| f_len := List.length (y_values y); f_issue := Some (ModelLearn.BoolCol m); f_quality := None;
              f_given := Some (y_values y); f_predicted := None |}).
  Proof.
    destruct a as [g|c m| |]; cbn; try discriminate.
    - destruct (f_issue g); [|discriminate]. destruct (negb _) eqn:En; [discriminate|]. apply negb_false_iff, Nat.eqb_eq in En.
      destruct (f_given g) as [gl|].
      + destruct (match y_in y with Column => _ | _ => _ end); [discriminate|]. intro H. injection H as <-. auto.
      + intro H. injection H as <-. auto.
    - destruct (_ || _)%bool eqn:E; [discriminate|]. apply orb_false_iff in E. destruct E as [_ E]. apply negb_false_iff, Nat.eqb_eq in E.
      destruct c; [discriminate|]. intro H. injection H as <-. right. exists m. auto.
  Qed.

  Lemma bool_targets y m : List.length m = List.length (y_values y) ->
    subset_targets y (ModelLearn.BoolCol m) = Ok (map (fun i => nth i (y_numbers y) 0) (SpecLearn.unflagged m)).
  Proof.
    intro E. assert (El : List.length m = List.length (y_numbers y)) by (unfold y_numbers; now rewrite map_length).
    unfold subset_targets. cbn [ModelLearn.np_subset truthy]. rewrite map_length, E, Nat.leb_refl.
    rewrite <- E, El, Nat.eqb_refl. rewrite (ProofLearn.select_unflagged 0) by exact El. now destruct (y_in y).
  Qed.

  Lemma finish_ok X y w final a s s' : List.length (x_rows X) = List.length (y_values y) ->
    finish X y w final a s = (s', Ok tt) ->
    exists f, process_label_issues_arg a y = Ok f /\ g_table s' = Some f /\ g_mask s' = f_issue f /\ f_issue f <> None /\
    g_k s' = g_k s /\ g_runs s' = g_runs s /\
    exists tr, g_trained s' = g_trained s ++ [tr] /\ trains tr = Ok tt /\ tr_kwargs tr = final /\
    forall m, f_issue f = Some (ModelLearn.BoolCol m) ->
      List.length m = List.length (y_values y) /\
      tr_X tr = map (fun i => nth i (x_rows X) d) (SpecLearn.unflagged m) /\
      tr_y tr = map (fun i => nth i (y_numbers y) 0) (SpecLearn.unflagged m) /\
      tr_weights tr = match w with Some w => Some (map (fun i => nth i w 0) (SpecLearn.unflagged m)) | None => None end.
  Proof.
    intros HX. unfold finish. destruct (process_label_issues_arg a y) as [f|e] eqn:Ep; [|discriminate].
    destruct (f_issue f) as [c|] eqn:Ec; [|discriminate].
    destruct (subset_targets y c) as [y'|e] eqn:Ey; cbn [rbind]; [|discriminate].
    destruct (subset_features d X c) as [x'|e] eqn:Ex; cbn [rbind]; [|discriminate].
    destruct (match w with Some _ => _ | None => _ end) as [w'|e] eqn:Ew; cbn [rbind]; [|discriminate].
    destruct (trains _) as [[]|e] eqn:Et; cbn [rbind]; [|discriminate].
    intro H. injection H as <-. exists f. cbn. repeat split; auto; [congruence|].
    eexists. split; [reflexivity|]. split; [exact Et|]. split; [reflexivity|].
    intros m Em. rewrite Ec in Em. injection Em as ->. cbn [tr_X tr_y tr_weights].
    unfold subset_features in Ex. destruct (x_is_list X); [discriminate|]. unfold ModelLearn.subset_data, ModelLearn.np_subset in Ex.
    destruct (Nat.eqb _ _) eqn:E; [|discriminate]. apply Nat.eqb_eq in E. injection Ex as <-.
    rewrite (bool_targets y m) in Ey by congruence. injection Ey as <-.
    split; [congruence|]. split; [now apply ProofLearn.select_unflagged|]. split; [reflexivity|].
    destruct w as [w|]; [|congruence]. unfold ModelLearn.np_subset in Ew. destruct (Nat.eqb _ (List.length w)) eqn:E'; [|discriminate].
    cbn [rbind] in Ew. injection Ew as <-. apply Nat.eqb_eq in E'. now rewrite (ProofLearn.select_unflagged 0).
  Qed.

  Lemma training_full X y li w o kw kwf s s' : fit X y li w o kw kwf s = (s', Ok tt) ->
    exists f tr, get_label_issues s' = Some f /\ f_issue f = g_mask s' /\
    g_trained s' = g_trained s ++ [tr] /\
    (forall name, lookup name (tr_kwargs tr) = match lookup name kwf with Some v => Some v | None => lookup name kw end) /\
    lookup "sample_weight" (tr_kwargs tr) = None /\
    (match li with
     | Some (Frame f') => f = f'
     | Some (BoolArray _ m) => f_issue f = Some (ModelLearn.BoolCol m) /\ f_given f = Some (y_values y)
     | Some _ => False
     | None => exists s1, find X y kw o s = (s1, Ok f) /\ g_k s' = g_k s1 /\ g_runs s' = S (g_runs s)
     end) /\
    forall m, f_issue f = Some (ModelLearn.BoolCol m) ->
      List.length m = List.length (y_values y) /\
      tr_X tr = map (fun i => nth i (x_rows X) d) (SpecLearn.unflagged m) /\
      tr_y tr = map (fun i => nth i (y_numbers y) 0) (SpecLearn.unflagged m) /\
      tr_weights tr = match w with Some w => Some (map (fun i => nth i w 0) (SpecLearn.unflagged m)) | None => None end.
  Proof.
    intro H. destruct (valid_dec X y) as [Hu|Hu].
    2:{ rewrite fit_unchecked in H by tauto. discriminate. }
    assert (Hw : weights_usable aw X w kw kwf).
    { apply weights_iff. destruct ((has "sample_weight" kw || has "sample_weight" (merged kw kwf))%bool) eqn:E1;
        [|destruct (weights_bad aw X w) eqn:E2; [|auto]];
        (rewrite fit_unchecked in H; [discriminate|]; intros [_ Hw]; apply weights_iff in Hw; destruct Hw; congruence). }
    assert (Hk : forall final, final = merged kw kwf ->
      (forall name, lookup name final = match lookup name kwf with Some v => Some v | None => lookup name kw end) /\ lookup "sample_weight" final = None).
    { intros final ->. destruct Hw as (W1 & W2 & _). unfold merged. split; [intro name; apply lookup_app|]. rewrite lookup_app, W2. exact W1. }
    rewrite (fit_checked _ _ _ _ _ _ _ _ Hu Hw) in H. destruct Hu as (_ & _ & HX). destruct li as [a|].
    - destruct (finish_ok X y w _ a s s' HX H) as (f & Ep & Et & Em & _ & _ & _ & tr & Etr & _ & Ekw & Hm).
      destruct (Hk _ Ekw) as [Hk1 Hk2]. exists f, tr. split; [exact Et|]. split; [now rewrite Em|]. split; [exact Etr|]. split; [exact Hk1|]. split; [exact Hk2|].
      split; [|exact Hm]. destruct (process_issue a y f Ep) as [[-> _]|(m & -> & _ & ->)]; [reflexivity|]. now split.
    - destruct (find X y kw o s) as [s1 [g|e]] eqn:Ef; [|discriminate].
      destruct (finish_ok X y w _ (Frame g) s1 s' HX H) as (f & Ep & Et & Em & _ & Egk & Eruns & tr & Etr & _ & Ekw & Hm).
      destruct (Hk _ Ekw) as [Hk1 Hk2]. exists f, tr. split; [exact Et|]. split; [now rewrite Em|].
      destruct (find_ok _ _ _ _ _ _ _ Ef) as (_ & k & t & _ & _ & _ & Er1 & Et1 & _).
      split; [now rewrite Etr, Et1|]. split; [exact Hk1|]. split; [exact Hk2|]. split; [|exact Hm].
      destruct (process_issue (Frame g) y f Ep) as [[E _]|(m & E & _)]; [|discriminate]. injection E as <-.
      exists s1. split; [reflexivity|]. split; [exact Egk|]. now rewrite Eruns.
  Qed.

  (** the outcome for given flags does not depend on the object *)
  Lemma finish_indep X y w final a s1 s2 :
    snd (finish X y w final a s1) = snd (finish X y w final a s2) /\
    (forall u1 u2, finish X y w final a s1 = (u1, Ok tt) -> finish X y w final a s2 = (u2, Ok tt) ->
       g_table u1 = g_table u2 /\ exists tr, g_trained u1 = g_trained s1 ++ [tr] /\ g_trained u2 = g_trained s2 ++ [tr]) /\
    g_k (fst (finish X y w final a s1)) = g_k s1 /\ g_runs (fst (finish X y w final a s1)) = g_runs s1.
  Proof.
    unfold finish. destruct (process_label_issues_arg a y) as [f|e]; [|now repeat split].
    destruct (f_issue f) as [c|]; [|now repeat split].
    match goal with |- context [match ?R with Ok _ => _ | Raise _ => _ end] => destruct R as [tr|e] end; [|now repeat split].
    split; [reflexivity|]. split; [|now split]. intros u1 u2 H1 H2. injection H1 as <-. injection H2 as <-. split; [reflexivity|]. now exists tr.
  Qed.
  Lemma supplied_full X y a w o kw kwf s1 s2 :
    snd (fit X y (Some a) w o kw kwf s1) = snd (fit X y (Some a) w o kw kwf s2) /\
    (forall u1 u2, fit X y (Some a) w o kw kwf s1 = (u1, Ok tt) -> fit X y (Some a) w o kw kwf s2 = (u2, Ok tt) ->
       get_label_issues u1 = get_label_issues u2 /\ exists tr, g_trained u1 = g_trained s1 ++ [tr] /\ g_trained u2 = g_trained s2 ++ [tr]) /\
    g_k (fst (fit X y (Some a) w o kw kwf s1)) = g_k s1 /\ g_runs (fst (fit X y (Some a) w o kw kwf s1)) = g_runs s1.
  Proof.
    rewrite !fit_unfold. destruct (assert_valid_regression_inputs X y) as [rr|]; [|now repeat split].
    destruct (_ || _)%bool; [now repeat split|]. destruct (weights_bad aw X w); [now repeat split|]. apply finish_indep.
  Qed.

  Lemma two_steps_full X y w o kw kwf s s1 t : weights_usable aw X w kw kwf ->
    find X y kw o s = (s1, Ok t) ->
    fit X y None w o kw kwf s = fit X y (Some (Frame t)) w o kw kwf s1.
  Proof.
    intros Hw Hf. destruct (find_ok _ _ _ _ _ _ _ Hf) as (Hu & _). rewrite !fit_checked by assumption. now rewrite Hf.
  Qed.

  Lemma rejects_full X y li w o kw kwf s :
    ~ usable X y \/ ~ weights_usable aw X w kw kwf \/
    (exists f, li = Some (Frame f) /\ (f_issue f = None \/ f_len f <> List.length (y_values y) \/
       exists g i a b, f_given f = Some g /\ nth_error g i = Some (Some a) /\ nth_error (y_values y) i = Some (Some b) /\ ~ a == b)) \/
    (exists c m, li = Some (BoolArray c m) /\ List.length m <> List.length (y_values y)) \/
    li = Some OtherArray \/ li = Some NoArray ->
    fit X y li w o kw kwf s = (s, Raise ValueError).
  Proof.
    intro H. assert (D : (usable X y /\ weights_usable aw X w kw kwf) \/ ~ (usable X y /\ weights_usable aw X w kw kwf)).
    { destruct (valid_dec X y) as [Hu|Hu]; [|right; tauto].
      destruct ((has "sample_weight" kw || has "sample_weight" (merged kw kwf))%bool) eqn:E1;
        [right; intros [_ Hw]; apply weights_iff in Hw; destruct Hw; congruence|].
      destruct (weights_bad aw X w) eqn:E2; [right; intros [_ Hw]; apply weights_iff in Hw; destruct Hw; congruence|].
      left. split; [exact Hu|]. apply weights_iff. auto. }
    destruct D as [[Hu Hw]|D]; [|now apply fit_unchecked].
    assert (F : forall a, process_label_issues_arg a y = Raise ValueError -> fit X y (Some a) w o kw kwf s = (s, Raise ValueError)).
    { intros a E. rewrite fit_checked by assumption. unfold finish. now rewrite E. }
    destruct H as [H|[H|[(f & -> & H)|[(c & m & -> & H)|[->| ->]]]]]; try contradiction; apply F; cbn; auto.
    - destruct (f_issue f); [|reflexivity]. destruct (negb _) eqn:En; [reflexivity|]. apply negb_false_iff, Nat.eqb_eq in En.
      destruct H as [H|[H|(g & i & a & b & Eg & Ea & Eb & Hab)]]; [discriminate|contradiction|]. rewrite Eg.
      assert (Hd : differs (Some a) (Some b) = true).
      { cbn. apply negb_true_iff, not_true_iff_false. intro E. now apply Hab, Qeq_bool_iff. }
      assert (H1 : existsb (fun a => existsb (fun b => differs a b) (y_values y)) g = true).
      { apply existsb_exists. exists (Some a). split; [now apply nth_error_In in Ea|]. apply existsb_exists. exists (Some b). split; [now apply nth_error_In in Eb|exact Hd]. }
      assert (H2 : existsb (fun ab => differs (fst ab) (snd ab)) (combine g (y_values y)) = true).
      { apply existsb_exists. exists (Some a, Some b). split; [|exact Hd]. apply (nth_error_In _ i).
        clear - Ea Eb. generalize dependent (y_values y). generalize dependent i. induction g as [|x g IH]; intros [|i] Ea l Eb; destruct l as [|z l]; try discriminate; cbn in *.
        - congruence.
        - now apply IH. }
      rewrite H1, H2. now destruct (y_in y).
    - rewrite (proj2 (Nat.eqb_neq _ _) H). now rewrite orb_true_r.
  Qed.

  (** [fit] completes *)
  Lemma process_fits f y : y_in y <> Column -> fits f y -> process_label_issues_arg (Frame f) y = Ok f.
  Proof.
    intros Hc (Hl & (m & Em & _) & Hg). cbn. rewrite Em, Hl, Nat.eqb_refl. cbn [negb]. destruct (f_given f) as [g|]; [|reflexivity].
    destruct (Hg g eq_refl) as [Hlen Hv].
    assert (E : existsb (fun ab => differs (fst ab) (snd ab)) (combine g (y_values y)) = false).
    { apply not_true_iff_false. intro E. apply existsb_exists in E. destruct E as ([a b] & Hin & E).
      destruct (In_nth _ _ (None, None) Hin) as (i & Hi & En). rewrite combine_length in Hi.
      rewrite combine_nth in En by congruence. injection En as Ea Eb.
      destruct (Hv i ltac:(lia)) as (p & q & Ep & Eq & Hpq). rewrite Ep in Ea. rewrite Eq in Eb. subst a b. cbn in E.
      apply negb_true_iff, not_true_iff_false in E. apply E. now apply Qeq_bool_iff. }
    rewrite E. destruct (y_in y); congruence.
  Qed.
  Lemma finish_total X y w final a f s : usable X y -> x_is_list X = false -> (forall tr, trains tr = Ok tt) ->
    (forall l, w = Some l -> List.length l = List.length (x_rows X)) ->
    process_label_issues_arg a y = Ok f -> (exists m, f_issue f = Some (ModelLearn.BoolCol m) /\ List.length m = List.length (y_values y)) ->
    snd (finish X y w final a s) = Ok tt.
  Proof.
    intros (_ & _ & HX) Hx Ht Hw Ep (m & Em & Hm). unfold finish. rewrite Ep, Em, (bool_targets y m Hm). cbn [rbind].
    unfold subset_features, ModelLearn.subset_data, ModelLearn.np_subset. rewrite Hx, (proj2 (Nat.eqb_eq (List.length m) (List.length (x_rows X)))) by congruence.
    cbn [rbind]. destruct w as [l|].
    - rewrite (proj2 (Nat.eqb_eq (List.length m) (List.length l))) by (rewrite (Hw l eq_refl); congruence). cbn [rbind]. now rewrite Ht.
    - cbn [rbind]. now rewrite Ht.
  Qed.
  Lemma completes_full X y li w o kw kwf s : usable X y -> weights_usable aw X w kw kwf ->
    x_is_list X = false -> y_in y <> Column -> (forall tr, trains tr = Ok tt) ->
    match li with
    | Some (Frame f) => fits f y
    | Some (BoolArray c m) => c = false /\ List.length m = List.length (y_values y)
    | Some _ => False
    | None => exists s1 f, find X y kw o s = (s1, Ok f) /\ f_len f = List.length (y_values y)
    end ->
    snd (fit X y li w o kw kwf s) = Ok tt.
  Proof.
    intros Hu Hw Hx Hc Ht Hli. rewrite fit_checked by assumption. destruct Hw as (_ & _ & Hw).
    assert (Hw' : forall l, w = Some l -> List.length l = List.length (x_rows X)) by (intros l E; now destruct (Hw l E)).
    destruct li as [[f|c m| |]|]; try contradiction.
    - apply finish_total with (f := f); auto; [now apply process_fits|]. destruct Hli as (Hl & (m & Em & Hm) & _). exists m. split; congruence.
    - destruct Hli as [-> Hm].
      eapply finish_total; auto.
      + cbn. rewrite Hm, Nat.eqb_refl. destruct (y_in y); try contradiction; reflexivity.
      + exists m. split; [reflexivity|exact Hm].
    - destruct Hli as (s1 & f & Ef & Hl). rewrite Ef. destruct (find_ok _ _ _ _ _ _ _ Ef) as (_ & k & t & Er & -> & _).
      apply finish_total with (f := frame_of t); auto.
      + apply process_fits; [exact Hc|]. split; [exact Hl|]. split; [eexists; split; reflexivity|].
        intros g Eg. cbn in Eg. injection Eg as <-. rewrite map_length.
        assert (Egiven : t_given t = y_numbers y).
        { clear - Er. unfold ModelRegression.find_label_issues in Er. destruct (_ || _)%bool; [discriminate|].
          repeat match type of Er with
          | rbind ?e _ = _ => let v := fresh in let E := fresh in destruct e as [v|] eqn:E; cbn [rbind] in Er; [|discriminate]
          end. injection Er as _ <-. reflexivity. }
        rewrite Egiven. unfold y_numbers. rewrite map_length. split; [now symmetry|].
        destruct Hu as (_ & Hn & _). intros i Hi. assert (Hin : In (nth i (y_values y) None) (y_values y)) by now apply nth_In.
        destruct (nth i (y_values y) None) as [q|] eqn:Eq; [|now apply Hn in Hin]. exists q, q. split; [|split; [reflexivity|reflexivity]].
        rewrite (nth_indep _ None (Some (value (nth i (y_values y) None)))) by (now rewrite !map_length).
        rewrite map_nth. rewrite (nth_indep _ _ (value None)) by (now rewrite map_length). rewrite map_nth. now rewrite Eq.
      + exists (t_is_issue t). split; [reflexivity|exact Hl].
  Qed.

  (** ** Histories *)
  Notation run_call := (SpecRegLearn.run_call d srt sq ex model folds aw trains cvn nb alea kl).
  Lemma find_indep X y kw o s1 s2 : (forall i j, folds i = folds j) ->
    snd (find X y kw o s1) = snd (find X y kw o s2) /\
    forall f, snd (find X y kw o s1) = Ok f -> g_k (fst (find X y kw o s1)) = g_k (fst (find X y kw o s2)).
  Proof.
    intro Hf. unfold ModelRegLearn.find_label_issues. destruct (assert_valid_regression_inputs X y) as [[rows ys]|e]; [|split; [reflexivity|discriminate]].
    rewrite (Hf (g_runs s1) (g_runs s2)). destruct (ModelRegression.find_label_issues _ _ _ _ _ _ _ _ _ _ _ _ _ _ _ _) as [[k t]|e]; [|split; [reflexivity|discriminate]].
    now split.
  Qed.
  Lemma fit_indep X y li w o kw kwf s1 s2 : (forall i j, folds i = folds j) ->
    snd (fit X y li w o kw kwf s1) = snd (fit X y li w o kw kwf s2) /\
    forall u1 u2, fit X y li w o kw kwf s1 = (u1, Ok tt) -> fit X y li w o kw kwf s2 = (u2, Ok tt) ->
      get_label_issues u1 = get_label_issues u2 /\ exists tr, g_trained u1 = g_trained s1 ++ [tr] /\ g_trained u2 = g_trained s2 ++ [tr].
  Proof.
    intro Hf. destruct li as [a|]; [destruct (supplied_full X y a w o kw kwf s1 s2) as (H1 & H2 & _); split; auto|].
    destruct (find_indep X y kw o s1 s2 Hf) as [Hs _].
    pose proof (find_keeps X y kw o s1) as K1. pose proof (find_keeps X y kw o s2) as K2.
    rewrite !fit_unfold. destruct (assert_valid_regression_inputs X y) as [rr|]; [|split; [reflexivity|discriminate]].
    destruct (_ || _)%bool; [split; [reflexivity|discriminate]|]. destruct (weights_bad aw X w); [split; [reflexivity|discriminate]|].
    destruct (find X y kw o s1) as [v1 [f1|e1]], (find X y kw o s2) as [v2 [f2|e2]]; cbn [fst snd] in *; try discriminate.
    - injection Hs as <-. destruct (finish_indep X y w (merged kw kwf) (Frame f1) v1 v2) as (H1 & H2 & _). split; [exact H1|].
      intros u1 u2 E1 E2. destruct (H2 u1 u2 E1 E2) as [H3 H4]. rewrite <- K1, <- K2. split; assumption.
    - split; [congruence|discriminate].
  Qed.
  Definition aligned (s : object A) : Prop :=
    g_mask s = match g_table s with Some f => f_issue f | None => None end.
  Lemma aligned_finish X y w final a s : aligned s -> aligned (fst (finish X y w final a s)).
  Proof.
    unfold finish. intro H. destruct (process_label_issues_arg a y) as [f|e]; [|exact H].
    destruct (f_issue f) as [c|] eqn:Ec; [|unfold aligned; cbn; now rewrite Ec].
    match goal with |- context [match ?R with Ok _ => _ | Raise _ => _ end] => destruct R as [tr|e] end; unfold aligned; cbn; now rewrite Ec.
  Qed.
  Lemma aligned_find X y kw o s : aligned s -> aligned (fst (find X y kw o s)).
  Proof.
    intro H. unfold ModelRegLearn.find_label_issues. destruct (assert_valid_regression_inputs X y) as [[rows ys]|e]; [|exact H].
    destruct (ModelRegression.find_label_issues _ _ _ _ _ _ _ _ _ _ _ _ _ _ _ _) as [[k t]|e]; [|exact H].
    unfold aligned. cbn. destruct (k_save_space o); [exact H|reflexivity].
  Qed.
  Lemma aligned_call c s : aligned s -> aligned (run_call c s).
  Proof.
    destruct c as [X y kw o|X y li w o kw kwf|]; intro H; cbn.
    - now apply aligned_find.
    - rewrite fit_unfold. destruct (assert_valid_regression_inputs X y) as [rr|]; [|exact H].
      destruct (_ || _)%bool; [exact H|]. destruct (weights_bad aw X w); [exact H|].
      destruct li as [a|]; [now apply aligned_finish|]. pose proof (aligned_find X y kw o s H) as Hf.
      destruct (find X y kw o s) as [s1 [f|e]]; [now apply aligned_finish|exact Hf].
    - reflexivity.
  Qed.
  Lemma aligned_full cs : let s := fold_left (fun s c => run_call c s) cs new_object in
    g_mask s = match get_label_issues s with Some f => f_issue f | None => None end.
  Proof.
    cbn. enough (H : aligned (fold_left (fun s c => run_call c s) cs new_object)) by exact H.
    assert (H : aligned (@new_object A)) by reflexivity. revert H. generalize (@new_object A).
    induction cs as [|c cs IH]; intros s H; cbn; [exact H|]. apply IH. now apply aligned_call.
  Qed.
  Lemma stored_full cs s0 X y kw o s1 f : find X y kw o (fold_left (fun s c => run_call c s) cs s0) = (s1, Ok f) ->
    get_label_issues s1 = (if k_save_space o then get_label_issues (fold_left (fun s c => run_call c s) cs s0) else Some f) /\
    get_label_issues (save_space s1) = None /\ g_k (save_space s1) = None /\ g_mask (save_space s1) = None /\ g_trained (save_space s1) = g_trained s1.
  Proof.
    intro H. destruct (find_ok _ _ _ _ _ _ _ H) as (_ & k & t & _ & _ & _ & _ & _ & Et & _). unfold get_label_issues. split; [exact Et|]. now repeat split.
  Qed.
End RegLearn.
