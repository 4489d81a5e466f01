(** * Properties C87 to C89: label quality scores for regression and Datalab's regression label check *)
From Coq Require Import QArith Reals List Bool Arith Permutation Sorted Lia Lra.
From Verif Require Import Base BaseFacts ModelOutlier ModelOutlierCheck SpecOutlierCheck ModelRegRank SpecRegRank ProofRegRank.
Import ListNotations.
Open Scope R_scope.

(** ** C87 *)
Theorem C87_outcome : forall sort l p m, well_formed l -> well_formed p ->
  let valid := exists n, column l n /\ column p n /\ no_missing l /\ no_missing p /\ m <> UnknownMethod in
  let unequal := exists n k, column l n /\ column p k /\ n <> k in
  (valid <-> exists s, get_label_quality_scores sort l p m = Ok s) /\
  (unequal <-> get_label_quality_scores sort l p m = Raise AssertionError) /\
  (~ valid -> ~ unequal -> get_label_quality_scores sort l p m = Raise ValueError).
Proof. exact C87_outcome_full. Qed.
Print Assumptions C87_outcome.

Theorem C87_residual : forall sort l p s, well_formed l -> well_formed p -> get_label_quality_scores sort l p Residual = Ok s ->
  length s = length (entries l) /\
  (forall i x y, holds_at l i x -> holds_at p i y -> 0 < nth i s 0 <= 1 /\ (nth i s 0 = 1 <-> x = y)) /\
  (forall i j x y x' y', holds_at l i x -> holds_at p i y -> holds_at l j x' -> holds_at p j y' ->
     (nth i s 0 < nth j s 0 <-> Rabs (x' - y') < Rabs (x - y))).
Proof. exact C87_residual_full. Qed.
Print Assumptions C87_residual.

Theorem C87_own : forall sort l p s l' p' s' i j x y, well_formed l -> well_formed p -> well_formed l' -> well_formed p' ->
  get_label_quality_scores sort l p Residual = Ok s -> get_label_quality_scores sort l' p' Residual = Ok s' ->
  holds_at l i x -> holds_at p i y -> holds_at l' j x -> holds_at p' j y -> nth i s 0 = nth j s' 0.
Proof. exact C87_own_full. Qed.
Print Assumptions C87_own.

(** three labels in a column (3 x 1) against a plain array of predictions *)
Definition c87_labels : array := {| shape := [3; 1]%nat; entries := [Some 1; Some 2; Some 5]; numeric := true |}.
Example C87_example : well_formed c87_labels /\ exists s, get_label_quality_scores (fun l => l) c87_labels (vec [1; 3; 2]) Residual = Ok s.
Proof. split; [reflexivity|]. eexists. reflexivity. Qed.
(** a single example is refused, whatever the method *)
Example C87_single : forall sort m, get_label_quality_scores sort (vec [1]) (vec [1]) m = Raise ValueError.
Proof. reflexivity. Qed.
Example C87_mismatch : forall sort m, get_label_quality_scores sort (vec [1; 2]) (vec [1; 2; 3]) m = Raise AssertionError.
Proof. reflexivity. Qed.

(** ** C88 *)
Theorem C88_range : forall sort l p s, sorts_R sort -> well_formed l -> well_formed p ->
  get_label_quality_scores sort l p Outre = Ok s ->
  length s = length (entries l) /\ (forall x, In x s -> 0 < x <= 1).
Proof. exact C88_range_full. Qed.
Print Assumptions C88_range.

Theorem C88_bias : forall sort c l p,
  get_label_quality_scores sort (vec l) (vec (map (fun x => x + c) p)) Outre = get_label_quality_scores sort (vec l) (vec p) Outre.
Proof. exact C88_bias_full. Qed.
Print Assumptions C88_bias.

Theorem C88_shift : forall sort c l p m,
  get_label_quality_scores sort (vec (map (fun x => x + c) l)) (vec (map (fun x => x + c) p)) m =
  get_label_quality_scores sort (vec l) (vec p) m.
Proof. exact C88_shift_full. Qed.
Print Assumptions C88_shift.

Theorem C88_mirror : forall sort l p m,
  get_label_quality_scores sort (vec (map Ropp l)) (vec (map Ropp p)) m = get_label_quality_scores sort (vec l) (vec p) m.
Proof. exact C88_mirror_full. Qed.
Print Assumptions C88_mirror.

Theorem C88_order : forall sort l p m perm s, sorts_R sort -> Permutation perm (seq 0 (length l)) ->
  get_label_quality_scores sort (vec l) (vec p) m = Ok s ->
  get_label_quality_scores sort (vec (map (fun i => nth i l 0) perm)) (vec (map (fun i => nth i p 0) perm)) m =
  Ok (map (fun i => nth i s 0) perm).
Proof. exact C88_order_full. Qed.
Print Assumptions C88_order.

(** the only exactly predicted label gets the lowest score, the three wrong ones the highest possible *)
Theorem C88_exact_refuted : forall sort, sorts_R sort ->
  exists s, get_label_quality_scores sort (vec [0; 0; 0; 0]) (vec [1; 1; 1; 0]) Outre = Ok s /\
    nth 3 s 0 < 1 /\ nth 0 s 0 = 1 /\ nth 1 s 0 = 1 /\ nth 2 s 0 = 1.
Proof. exact C88_exact_refuted_full. Qed.
Print Assumptions C88_exact_refuted.

(** ** C89 *)
Theorem C89_flags : forall sort p y thr m flags s, sorts_R sort -> well_formed p -> well_formed y ->
  find_issues_with_predictions sort p y thr m = Ok (flags, s) ->
  get_label_quality_scores sort y p (match m with Some m => m | None => Outre end) = Ok s /\
  length flags = length s /\
  exists med, is_median_R s med /\ (forall i, (i < length s)%nat -> (flagged flags i <-> nth i s 0 < thr * med)) /\
    (thr <= 1 -> (2 * flagged_count flags <= length s)%nat) /\
    (thr <= 0 -> flagged_count flags = 0%nat).
Proof. exact C89_flags_full. Qed.
Print Assumptions C89_flags.

Theorem C89_residual : forall sort l p thr flags s h, sorts_R sort -> length p = length l -> length l = (2 * h + 1)%nat -> 0 < thr ->
  find_issues_with_predictions sort (vec p) (vec l) thr (Some Residual) = Ok (flags, s) ->
  exists med, is_median_R (map (fun i => Rabs (nth i l 0 - nth i p 0)) (seq 0 (length l))) med /\
    forall i, (i < length l)%nat -> (flagged flags i <-> med - ln thr < Rabs (nth i l 0 - nth i p 0)).
Proof. exact C89_residual_full. Qed.
Print Assumptions C89_residual.

Theorem C89_input : forall sort custom thr f p y m,
  find_regression_issues sort custom thr None None y m = Raise ValueError /\
  find_regression_issues sort true thr None p y m = Raise ValueError /\
  find_regression_issues sort true thr (Some f) p y m = find_regression_issues sort true thr (Some f) None y m /\
  (forall q, p = Some q -> find_regression_issues sort false thr (Some f) p y m = find_regression_issues sort false thr None p y m) /\
  (forall r, find_regression_issues sort custom thr (Some f) p y m = Ok r -> y <> None) /\
  (forall q flags s g, p = Some q ->
     find_regression_issues sort false thr None p (Some g) m = Ok (flags, s, rmean s) <->
     p = Some q /\ find_issues_with_predictions sort q g thr m = Ok (flags, s)).
Proof. exact C89_input_full. Qed.
Print Assumptions C89_input.

(** The residual method is not free of units: an error of 5 is flagged among three examples, the same data in
    units a hundred times larger has no issue. *)
Example C89_example_units : forall sort, sorts_R sort ->
  (forall flags s, find_issues_with_predictions sort (vec [0; 0; 5]) (vec [0; 0; 0]) (/ 20) (Some Residual) = Ok (flags, s) -> flagged flags 2) /\
  (forall flags s, find_issues_with_predictions sort (vec [0; 0; 5 / 100]) (vec [0; 0; 0]) (/ 20) (Some Residual) = Ok (flags, s) -> ~ flagged flags 2) /\
  (exists flags s, find_issues_with_predictions sort (vec [0; 0; 5]) (vec [0; 0; 0]) (/ 20) (Some Residual) = Ok (flags, s)).
Proof.
  intros sort Hs.
  assert (M : forall x med, 0 <= x -> is_median_R [0; 0; x] med -> med = 0).
  { intros x med Hx [s [P [S D]]]. 
    assert (S3 : StronglySorted Rle [0; 0; x]).
    { apply SSorted_cons; [apply SSorted_cons; [apply SSorted_cons; [apply SSorted_nil|apply Forall_nil]|]|].
      - apply Forall_cons; [exact Hx|apply Forall_nil].
      - apply Forall_cons; [apply Rle_refl|apply Forall_cons; [exact Hx|apply Forall_nil]]. }
    assert (E : s = [0; 0; x]) by (apply sorted_unique_R; auto). subst s.
    destruct D as [ [h [L ->]] | [h [L _]] ]; cbn in L; [|lia]. assert (h = 1%nat) by lia. subst. auto. }
  assert (L1 : ln (/ 20) = - ln 20) by (apply ln_Rinv; lra).
  assert (L2 : ln 20 < 5).
  { rewrite <- (ln_exp 5). apply ln_increasing; [lra|]. replace 5 with (1 + 1 + 1 + 1 + 1) by lra. rewrite !exp_plus. pose proof (exp_ineq1 1 ltac:(lra)).
    assert (4 < exp 1 * exp 1) by nra. assert (16 < exp 1 * exp 1 * (exp 1 * exp 1)) by nra. nra. }
  assert (L3 : 1 < ln 20).
  { rewrite <- (ln_exp 1). apply ln_increasing; [apply exp_pos|]. pose proof exp_le_3. lra. }
  split; [|split].
  - intros flags s H. destruct (C89_residual sort [0; 0; 0] [0; 0; 5] (/ 20) flags s 1 Hs eq_refl eq_refl ltac:(lra) H) as [med [Hm F]].
    cbn in Hm. replace (Rabs (0 - 0)) with 0 in Hm by (rewrite Rminus_0_r, Rabs_R0; reflexivity).
    replace (Rabs (0 - 5)) with 5 in Hm by (rewrite Rabs_left; lra).
    apply M in Hm; [|lra]. apply F; [cbn; lia|]. cbn. subst. rewrite L1, Rabs_minus_sym, Rabs_right by lra. lra.
  - intros flags s H. destruct (C89_residual sort [0; 0; 0] [0; 0; 5 / 100] (/ 20) flags s 1 Hs eq_refl eq_refl ltac:(lra) H) as [med [Hm F]].
    cbn in Hm. replace (Rabs (0 - 0)) with 0 in Hm by (rewrite Rminus_0_r, Rabs_R0; reflexivity).
    replace (Rabs (0 - 5 / 100)) with (5 / 100) in Hm by (rewrite Rabs_left; lra).
    apply M in Hm; [|lra]. intros X. apply F in X; [|cbn; lia]. cbn in X. subst. rewrite L1, Rabs_minus_sym, Rabs_right in X by lra. lra.
  - do 2 eexists. reflexivity.
Qed.
