(** * C52: regression label issues *)
From Coq Require Import QArith Qabs Qround List ZArith Bool Arith Lia Lqa Permutation Sorted.
From Verif Require Import Base BaseFacts ModelUtil ModelKnn ModelCV ModelRegression SpecCV SpecKnn SpecRegression ProofCV ProofRegression.
From Verif Require PropCV.
Import ListNotations.
Open Scope Q_scope.

(** The returned table: [ceil(n k)] examples are flagged, those of lowest quality; the quality of an example is a
    function of its residual divided by its uncertainty, relative to the median; [k] is the candidate of the
    search with the best score (or 0 when no candidate beats the initial model). *)
Theorem C52_issues : forall A (d : A) srt sq ex fit fit0 folds cvn n_boot alea X y y_int,
  argsort_ok srt -> proper_regressor fit -> proper_regressor fit0 -> kfold folds -> (2 <= cvn)%nat ->
  forall u coarse fine k t,
  find_label_issues d srt sq ex fit fit0 folds cvn n_boot alea X y y_int u coarse fine = Ok (k, t) ->
  exists initial ranking r0 kb rb preds unc med,
    cv_of d fit X y (seq 0 (length y)) 0 cvn initial /\
    ranks (length y) (fun i => Qabs (nth i initial 0 - nth i y 0)) ranking /\ is_r2 y initial r0 /\
    best_of_search (fun k r => exists p, cv_of d fit0 X y ranking k cvn p /\ is_r2 y p r)
                   (length y) cvn (Z.to_nat fine) coarse kb rb /\
    (rb <= r0 -> k = 0) /\ (r0 < rb -> k = kb) /\ 0 <= k <= 1 /\
    cv_of d fit X y ranking k cvn preds /\ uncertainties d sq fit0 cvn n_boot alea X y u preds unc /\
    t_given t = y /\ t_predicted t = (if y_int then map (fun p => inject_Z (truncate p)) preds else preds) /\
    length (t_quality t) = length y /\ length (t_is_issue t) = length y /\
    is_median (tab (length y) (fun i => Qabs ((nth i preds 0 - nth i y 0) / (unc i + TINY_VALUE)))) med /\
    (forall i, (i < length y)%nat -> nth i (t_quality t) 0 =
       ex (- Qabs ((nth i preds 0 - nth i y 0) / (unc i + TINY_VALUE)) / qmax TINY_VALUE med)) /\
    Z.of_nat (count_true (t_is_issue t)) = Qceiling (Qnat (length y) * k) /\
    (forall i j, (i < length y)%nat -> (j < length y)%nat ->
       nth i (t_is_issue t) false = true -> nth j (t_is_issue t) false = false ->
       nth i (t_quality t) 0 <= nth j (t_quality t) 0).
Proof. exact @run_spec. Qed.
Print Assumptions C52_issues.

(** The call completes for every search range within [0,1] (infeasible candidates are skipped), unless the initial
    predictions are astronomically bad. *)
Theorem C52_completes : forall A (d : A) srt sq ex fit fit0 folds cvn n_boot alea X y y_int,
  argsort_ok srt -> proper_regressor fit -> proper_regressor fit0 -> kfold folds -> (2 <= cvn)%nat ->
  forall u coarse fine, (2 <= length y)%nat -> length X = length y -> (cvn <= length y)%nat -> coarse <> [] ->
  (forall k, In k coarse -> 0 <= k <= 1) ->
  (forall k, coarse = [k] -> (Z.of_nat cvn <= num_kept (length y) k)%Z) -> (0 <= fine)%Z ->
  (forall l, u = Some (UArray l) -> length l = length y) ->
  (forall p r, cv_of d fit X y (seq 0 (length y)) 0 cvn p -> is_r2 y p r -> - inject_Z (10 ^ 30) <= r) ->
  exists k t, find_label_issues d srt sq ex fit fit0 folds cvn n_boot alea X y y_int u coarse fine = Ok (k, t).
Proof. exact @run_total. Qed.
Print Assumptions C52_completes.

(** The search alone, for every scoring function. *)
Theorem C52_search : forall srt eval n cvn coarse fine k r, argsort_ok srt ->
  find_best_k srt eval n cvn coarse fine = Ok (k, r) ->
  best_of_search (fun k r => exists call, eval call k = Ok r) n cvn (Z.to_nat fine) coarse k r.
Proof. exact find_best_k_spec. Qed.
Print Assumptions C52_search.

(** ** Concrete runs *)
(** the two folds of even and odd positions, padded with empty folds *)
Definition folds_pad (c s m : nat) : list (list nat) :=
  match s with
  | O => []
  | 1%nat => [seq 0 m]
  | S (S s') => PropCV.parity_folds m ++ repeat [] s'
  end.
(** the slope-1 model: mean target minus mean feature of the training data, plus the feature *)
Definition line_model (Xt : list Q) (yt : list Q) (Xh : list Q) : list Q :=
  map (fun x => Qred (x + (qmean yt - qmean Xt))) Xh.
Definition X_ex : list Q := [0; 1; 2; 3; 4; 5].
Definition y_ex : list Q := [1; 2; 30; 4; 5; 6].
Definition exf (x : Q) : Q := Qred (/ (1 - x)).
Lemma kfold_pad : kfold folds_pad.
Proof.
  intros c s m H. destruct s as [|[|s]]; [lia| |].
  - split; [|reflexivity]. unfold cv_partition. cbn. now rewrite app_nil_r.
  - split.
    + unfold cv_partition, folds_pad. rewrite concat_app.
      assert (E : forall q, concat (repeat (@nil nat) q) = []) by (induction q; auto). rewrite E.
      rewrite app_nil_r. apply PropCV.parity_partition.
    + unfold folds_pad. rewrite app_length, repeat_length. reflexivity.
Qed.
Definition run_ex fine := find_label_issues 0 argsort_ins (fun x => x) exf line_model line_model folds_pad 2 0 false X_ex y_ex
    false (Some (UScalar 1)) [1#6; 1#3] fine.
(** the only wrong target is flagged when the fine search is off *)
Example C52_example :
  proper_regressor line_model /\
  match run_ex 0 with
  | Ok (k, t) => k = 1#6 /\ t_is_issue t = [false; false; true; false; false; false] /\
                 map (fun q => Qltb q (1#2)) (t_quality t) = [false; false; true; false; false; false] /\
                 map Qred (t_predicted t) = [1; 2; 3; 4; 5; 6]
  | Raise _ => False end.
Proof. split; [intros Xt yt Xh; apply map_length|]. vm_compute. auto. Qed.

(** With the fine search a tie of scores is decided for the fine candidate, and an example that is predicted
    exactly (quality 1, the best possible) is flagged. *)
Theorem C52_exact_example_refuted : ~ forall fine k t i, run_ex fine = Ok (k, t) ->
  nth i (t_is_issue t) false = true -> ~ nth i (t_predicted t) 0 == nth i (t_given t) 0.
Proof.
  intro H. assert (E : exists k t, run_ex 1 = Ok (k, t) /\ nth 0 (t_is_issue t) false = true /\
    nth 0 (t_predicted t) 0 == nth 0 (t_given t) 0) by (vm_compute; do 2 eexists; split; [reflexivity|split; reflexivity]).
  destruct E as (k & t & E & F & G). exact (H 1%Z k t 0%nat E F G).
Qed.
Print Assumptions C52_exact_example_refuted.

(** The search does not pass the caller's [model_kwargs] on: a fraction can be chosen (and examples flagged)
    although for the model as configured dropping them does not help. *)
Definition const_model (c : Q) (Xt : list Q) (yt : list Q) (Xh : list Q) : list Q := map (fun _ => c) Xh.
Definition exact_model (Xt : list Q) (yt : list Q) (Xh : list Q) : list Q := Xh.
Theorem C52_model_kwargs_refuted : ~ forall fit fit0 k t initial,
  proper_regressor fit -> proper_regressor fit0 ->
  find_label_issues 0 argsort_ins (fun x => x) exf fit fit0 folds_pad 2 0 false [1; 2; 3; 4] [1; 2; 3; 4] false
    (Some (UScalar 1)) [1#4] 0 = Ok (k, t) ->
  get_cv_predictions 0 fit [1; 2; 3; 4] [1; 2; 3; 4] None 0 2 (folds_pad 0 2) = Ok initial ->
  0 < k -> r2_score [1; 2; 3; 4] initial < r2_score [1; 2; 3; 4] (t_predicted t).
Proof.
  intro H. specialize (H (const_model 0) exact_model).
  assert (E : exists k t i, find_label_issues 0 argsort_ins (fun x => x) exf (const_model 0) exact_model folds_pad 2 0 false
     [1; 2; 3; 4] [1; 2; 3; 4] false (Some (UScalar 1)) [1#4] 0 = Ok (k, t) /\
     get_cv_predictions 0 (const_model 0) [1; 2; 3; 4] [1; 2; 3; 4] None 0 2 (folds_pad 0 2) = Ok i /\
     0 < k /\ r2_score [1; 2; 3; 4] (t_predicted t) <= r2_score [1; 2; 3; 4] i).
  { vm_compute. do 3 eexists. split; [reflexivity|]. split; [reflexivity|]. split; [reflexivity|]. discriminate. }
  destruct E as (k & t & i & E1 & E2 & E3 & E4).
  assert (P : proper_regressor (const_model 0)) by (intros a b c; apply map_length).
  assert (P' : proper_regressor exact_model) by (intros a b c; reflexivity).
  specialize (H k t i P P' E1 E2 E3). lra.
Qed.
Print Assumptions C52_model_kwargs_refuted.

(** Infeasible candidates are scored -10^30: with an extremely bad model they win over the feasible ones and the
    call ends in an error. *)
Example C52_bad_model_raises :
  find_label_issues 0 argsort_ins (fun x => x) exf (const_model (inject_Z (10 ^ 20))) (const_model (inject_Z (10 ^ 20)))
    folds_pad 2 0 false [1; 2; 3; 4] [1; 2; 3; 4] false (Some (UScalar 1)) [1#4; 1] 0 = Raise ValueError.
Proof. vm_compute. reflexivity. Qed.

(** the hypotheses of [C52_completes] hold for the concrete run, whatever the folds *)
Example C52_bounded_model : forall p r, cv_of 0 (const_model 0) [1; 2; 3; 4] [1; 2; 3; 4] (seq 0 4) 0 2 p ->
  is_r2 [1; 2; 3; 4] p r -> - inject_Z (10 ^ 30) <= r.
Proof.
  intros p r (ins & outs & hs & E & LO & _ & (LP & P & IN & _)) R2.
  assert (LO' : length outs = 0%nat) by (change (Qceiling (Qnat (length [1; 2; 3; 4]) * 0)) with 0%Z in LO; lia).
  apply length_zero_iff_nil in LO'. subst outs. rewrite app_nil_r in E. subst ins.
  assert (Z : forall i, (i < 4)%nat -> nth i p 0 = 0).
  { intros i Hi. destruct (IN i) as (h & q & _ & Hq & _ & ->); [apply in_seq; lia|].
    unfold const_model. assert (Hl : (q < length h)%nat) by (apply nth_error_Some; congruence).
    rewrite (nth_map_gen _ _ _ _ 0) by (now rewrite map_length). reflexivity. }
  destruct p as [|a [|b [|c [|e [|f p]]]]]; try discriminate LP.
  pose proof (Z 0%nat ltac:(lia)) as Za. pose proof (Z 1%nat ltac:(lia)) as Zb. pose proof (Z 2%nat ltac:(lia)) as Zc. pose proof (Z 3%nat ltac:(lia)) as Ze.
  cbn [nth] in Za, Zb, Zc, Ze. subst. destruct R2 as [H _]. rewrite H; [vm_compute; discriminate|]. vm_compute. discriminate.
Qed.
