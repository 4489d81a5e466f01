(** * Lemmas for PropTight2 *)
From Coq Require Import QArith Qreals Reals List ZArith Bool Arith Lia Lra.
From Verif Require Import Base BaseFacts ModelUtil ModelEntropy ModelOutlier ModelToken ModelDetection SpecDetection SpecTight ProofDetection ProofDetectionR.
Import ListNotations.
Open Scope Q_scope.

Lemma rmap_raises {A B} (f : A -> res B) e l : (forall x, In x l -> (exists y, f x = Ok y) \/ f x = Raise e) -> (exists x, In x l /\ f x = Raise e) -> rmap f l = Raise e.
Proof.
  induction l as [|x l IH]; intros H (z & Hz & E); [destruct Hz|]. cbn [rmap]. destruct (f x) as [y|e'] eqn:F.
  - cbn [rbind]. rewrite IH; [reflexivity|intros w Hw; apply H; now right|]. destruct Hz as [<-|Hz]; [congruence|eauto].
  - destruct (H x (or_introl eq_refl)) as [(y & G)|G]; [congruence|]. cbn [rbind]. congruence.
Qed.
Lemma thresholds_known ap cs : (exists t, class_thresholds ap cs = Ok t) \/ class_thresholds ap cs = Raise KeyError.
Proof.
  unfold class_thresholds. induction cs as [|k cs IH]; [left; eexists; reflexivity|]. cbn [rmap]. destruct (nth_error ap k); [|now right].
  cbn [rbind]. destruct IH as [(t & ->)| ->]; cbn [rbind]; eauto.
Qed.
Lemma thresholds_unknown ap cs k : In k cs -> (length ap <= k)%nat -> class_thresholds ap cs = Raise KeyError.
Proof.
  intros H L. unfold class_thresholds. apply rmap_raises; [intros x _; destruct (nth_error ap x); eauto|]. exists k. split; [exact H|].
  now rewrite (proj2 (nth_error_None ap k) L).
Qed.
Lemma unknown_class dist srt labels predictions check K l k b : length labels = length predictions -> (0 < K)%nat ->
  (forall p, In p predictions -> length p = K) -> In l labels -> In (k, b) l -> (K <= k)%nat ->
  find_label_issues_mask dist srt labels predictions check = Raise KeyError.
Proof.
  intros HL HK HP Hl Hb Hk. unfold find_label_issues_mask.
  assert (V : assert_valid_detection labels predictions = Ok tt).
  { unfold assert_valid_detection. rewrite HL, Nat.eqb_refl. cbn [negb]. destruct predictions as [|p ps]; [destruct labels; [destruct Hl|discriminate]|].
    specialize (HP p (or_introl eq_refl)). destruct p; [simpl in HP; lia|reflexivity]. }
  rewrite V. cbn [rbind].
  assert (A : exists ap, per_class_ap srt labels predictions = Ok ap /\ length ap = K).
  { unfold per_class_ap. destruct predictions as [|p ps]; [destruct labels; [destruct Hl|discriminate]|].
    destruct (existsb _ _) eqn:EX; [|eexists; split; [reflexivity|]; rewrite tab_length; apply HP; now left].
    apply existsb_exists in EX as (q & U & W). apply Nat.ltb_lt in W. rewrite (HP q U), (HP p (or_introl eq_refl)) in W. lia. }
  destruct A as (ap & -> & La). cbn [rbind]. apply rmap_raises.
  - intros a _. destruct (thresholds_known ap (map fst (a_preds a))) as [(t & ->)| ->]; cbn [rbind]; [|now right].
    destruct (thresholds_known ap (map fst (a_labs a))) as [(t' & ->)| ->]; cbn [rbind]; eauto.
  - apply (In_nth labels l []) in Hl as (i & Hi & <-).
    assert (I : In (nth i labels [], nth i predictions []) (combine labels predictions)) by (rewrite <- combine_nth by exact HL; apply nth_In; rewrite combine_length; lia).
    eexists. split; [unfold aux_inputs; apply in_map; exact I|]. cbn [a_preds a_labs fst snd].
    destruct (thresholds_known ap (map fst (separate_prediction (nth i predictions [])))) as [(t & ->)| ->]; cbn [rbind]; [|reflexivity].
    rewrite (thresholds_unknown ap _ k); [reflexivity| |lia]. apply in_map_iff. exists (k, b). auto.
Qed.

Open Scope R_scope.
Lemma soft_average_eq l : l <> [] -> softmin1d (Q2R TEMPERATURE) l = soft_average l.
Proof.
  intros N. rewrite softmin1d_eq. assert (ET : Rmax (Q2R TEMPERATURE) (Q2R EPSILON) = 1 / 10).
  { unfold TEMPERATURE, EPSILON, Q2R. simpl. rewrite Rmax_left; lra. }
  rewrite ET. set (M := rmaximum _). clearbody M.
  assert (W : forall s, wt (1 / 10) M s = exp (- M) * exp (-10 * s)).
  { intros s. unfold wt. rewrite <- exp_plus. f_equal. field. }
  assert (A : forall g : R -> R, rsum (map (fun s => wt (1 / 10) M s * g s) l) = exp (- M) * rsum (map (fun s => exp (-10 * s) * g s) l)).
  { intros g. clear N. induction l as [|x l IH]; [cbn; ring|]. cbn [map]. rewrite !rsum_cons', IH, W. ring. }
  assert (B : rsum (map (wt (1 / 10) M) l) = exp (- M) * rsum (map (fun s => exp (-10 * s)) l)).
  { clear N A. induction l as [|x l IH]; [cbn; ring|]. cbn [map]. rewrite !rsum_cons', IH, W. ring. }
  rewrite (A (fun s => s)), B. unfold soft_average. destruct l as [|x l]; [congruence|].
  assert (P : 0 < rsum (map (fun s => exp (-10 * s)) (x :: l))).
  { clear. cbn [map]. rewrite rsum_cons'. assert (0 <= rsum (map (fun s => exp (-10 * s)) l)).
    { induction l as [|y l IH]; [cbn; lra|]. cbn [map]. rewrite rsum_cons'. pose proof (exp_pos (-10 * y)). lra. }
    pose proof (exp_pos (-10 * x)). lra. }
  pose proof (exp_pos (- M)). field. lra.
Qed.
Lemma valid_soft f : valid_score (Q2R TEMPERATURE) f = soft_average (numbers f).
Proof. unfold valid_score. fold (numbers f). destruct (numbers f) as [|x l] eqn:E; [reflexivity|]. now apply soft_average_eq. Qed.
Lemma score_formula dist labels predictions w check K : detection_inputs K labels predictions -> valid_weights w = true ->
  exists scores, detection_scores dist labels predictions w check = Ok scores /\ length scores = length labels /\
  forall i, (i < length labels)%nat ->
    let tiny := Q2R (1 # 10 ^ 100) in
    nth i scores 0 =
      exp (Q2R (w_overlooked w) * ln (tiny + soft_average (numbers (nth i (compute_overlooked_box_scores dist (9 # 10) (95 # 100) labels predictions) [])))
         + Q2R (w_badloc w) * ln (tiny + soft_average (map Q2R (nth i (compute_badloc_box_scores dist (9 # 10) (1 # 2) labels predictions) [])))
         + Q2R (w_swap w) * ln (tiny + soft_average (map Q2R (nth i (compute_swap_box_scores dist (9 # 10) (95 # 100) check labels predictions) [])))).
Proof.
  intros (Hne & Hl & HK0 & HK & HI) Hw. assert (Hp : forall i, (i < length labels)%nat -> probabilities_ok (nth i predictions [])) by (intros i Hi; apply HI, Hi).
  rewrite (scores_eq dist labels predictions K Hl (fun i Hi => proj1 (HI i Hi)) Hp HK HK0 Hne w check Hw). eexists. split; [reflexivity|]. split; [apply tab_length|].
  intros i Hi tiny. rewrite nth_tab by auto. unfold image_score. rewrite !valid_soft.
  unfold compute_overlooked_box_scores, compute_badloc_box_scores, compute_swap_box_scores. change (9 # 10)%Q with ALPHA.
  rewrite !(nth_map_tab dist labels predictions Hl) by auto. fold tiny.
  assert (G : forall l, numbers (map Some l) = map Q2R l) by (intros l; unfold numbers; induction l as [|x l IH]; [reflexivity|]; cbn [map flat_map app]; now rewrite IH).
  rewrite !G. reflexivity.
Qed.
