(** * Property C169: aggregation weights of object-detection image scores *)
From Coq Require Import QArith Qreals Reals List Bool Arith Lia Lra.
From Verif Require Import Base BaseFacts ModelDetection ModelBoxPool SpecDetection SpecTight SpecBoxPool ProofTight3 ProofBoxPool PropDetection ModelEntropy.
Import ListNotations.
Open Scope R_scope.

(** With all the weight on one subtype the image scores are the scores of that subtype. *)
Theorem C169_only : forall dist K labels predictions w check s,
  (forall a b, unit_interval (dist a b)) -> detection_inputs K labels predictions ->
  weight_of w s == 1 -> (forall z, z <> s -> weight_of w z == 0) ->
  exists scores, detection_scores dist labels predictions w check = Ok scores /\ length scores = length labels /\
  forall i, (i < length labels)%nat -> nth i scores 0 = subtype_score dist check labels predictions s i.
Proof. exact C169_only_full. Qed.
Print Assumptions C169_only.

(** A score lies between the lowest and the highest score of the subtypes that have a weight. *)
Theorem C169_between : forall dist K labels predictions w check scores i lo hi,
  (forall a b, unit_interval (dist a b)) -> detection_inputs K labels predictions -> (i < length labels)%nat ->
  (w_overlooked w + w_badloc w + w_swap w == 1)%Q ->
  detection_scores dist labels predictions w check = Ok scores ->
  (forall s, (0 < weight_of w s)%Q -> lo <= subtype_score dist check labels predictions s i <= hi) ->
  lo <= nth i scores 0 <= hi.
Proof. exact C169_between_full. Qed.
Print Assumptions C169_between.

(** An image (of the same or another data set) that is no better in any weighted subtype does not get a higher score,
    and one that is also worse in some weighted subtype gets a lower score. *)
Theorem C169_monotone : forall dist K labels predictions K' labels' predictions' w check scores scores' i i',
  (forall a b, unit_interval (dist a b)) -> detection_inputs K labels predictions -> detection_inputs K' labels' predictions' ->
  (i < length labels)%nat -> (i' < length labels')%nat ->
  detection_scores dist labels predictions w check = Ok scores ->
  detection_scores dist labels' predictions' w check = Ok scores' ->
  (forall s, (0 < weight_of w s)%Q -> subtype_score dist check labels predictions s i <= subtype_score dist check labels' predictions' s i') ->
  nth i scores 0 <= nth i' scores' 0 /\
  ((exists s, (0 < weight_of w s)%Q /\ subtype_score dist check labels predictions s i < subtype_score dist check labels' predictions' s i') ->
   nth i scores 0 < nth i' scores' 0).
Proof. exact C169_monotone_full. Qed.
Print Assumptions C169_monotone.

(** Moving weight from a subtype [x] to a subtype [y] lowers the scores of exactly the images whose score for [y] is
    below the one for [x]. *)
Theorem C169_move : forall dist K labels predictions check w w' d x y scores scores' i,
  (forall a b, unit_interval (dist a b)) -> detection_inputs K labels predictions -> (i < length labels)%nat ->
  (0 < d)%Q -> moved d x y w w' ->
  detection_scores dist labels predictions w check = Ok scores ->
  detection_scores dist labels predictions w' check = Ok scores' ->
  nth i scores' 0 < nth i scores 0 <->
  nth i (subtype_scores dist check labels predictions y) 0 < nth i (subtype_scores dist check labels predictions x) 0.
Proof. exact C169_move_full. Qed.
Print Assumptions C169_move.

(** It prioritises the images with low scores for [y]: compared with [j], image [i] falls if its score for [y], relative
    to that of [j], is no better than the one for [x]; in particular [i] stays before [j] in the ranking. *)
Theorem C169_priority : forall dist K labels predictions check w w' d x y scores scores' i j,
  (forall a b, unit_interval (dist a b)) -> detection_inputs K labels predictions -> (i < length labels)%nat -> (j < length labels)%nat ->
  (0 < d)%Q -> moved d x y w w' ->
  detection_scores dist labels predictions w check = Ok scores ->
  detection_scores dist labels predictions w' check = Ok scores' ->
  let p s k := subtype_score dist check labels predictions s k in
  p y i / p y j <= p x i / p x j ->
  nth i scores' 0 / nth j scores' 0 <= nth i scores 0 / nth j scores 0 /\
  (nth i scores 0 <= nth j scores 0 -> nth i scores' 0 <= nth j scores' 0).
Proof. exact C169_priority_full. Qed.
Print Assumptions C169_priority.

(** Two images (those of C53): the first has an overlooked object and a swapped class, but its given box is well placed. *)
Definition w169 : agg_weights := mk_weights 1 0 0.
Definition w169' : agg_weights := mk_weights (2#3) 0 (1#3).
Example C169_example_hyps : (forall a b, unit_interval (ex_dist a b)) /\ detection_inputs 2 ex_labels ex_predictions /\
  (weight_of w169 Overlooked == 1 /\ forall z, z <> Overlooked -> weight_of w169 z == 0)%Q /\
  (w_overlooked default_weights + w_badloc default_weights + w_swap default_weights == 1)%Q /\
  moved (1#3) Badloc Overlooked default_weights w169'.
Proof.
  split; [split; discriminate|]. split; [apply C53_example|]. split; [split; [reflexivity|intros [| |] H; [congruence|reflexivity|reflexivity]]|].
  split; [reflexivity|]. split; [discriminate|]. split; [reflexivity|]. split; [reflexivity|].
  intros [| |] A B; try congruence. reflexivity.
Qed.
Example C169_example :
  subtype_scores ex_dist true ex_labels ex_predictions Overlooked = [/ 2000; 1] /\
  subtype_scores ex_dist true ex_labels ex_predictions Badloc = [1; 19 / 20] /\
  subtype_scores ex_dist true ex_labels ex_predictions Swap = [/ 20; 1].
Proof.
  assert (G : forall q a, (q == a)%Q -> soft_average [Q2R q] = Q2R a).
  { intros q a E. rewrite (Qeq_eqR _ _ E). unfold soft_average. cbn [map rsum fold_right]. pose proof (exp_pos (-10 * Q2R a)). field. lra. }
  unfold subtype_scores, pool_box_scores_per_image.
  split; [|split].
  - remember (compute_overlooked_box_scores ex_dist (9 # 10) (95 # 100) ex_labels ex_predictions) as l eqn:E. vm_compute in E. subst l.
    cbn [map]. rewrite !valid_soft. cbn [numbers flat_map app]. rewrite (G _ (1#2000)) by reflexivity.
    unfold soft_average, Q2R. cbn [Qnum Qden]. f_equal; lra.
  - remember (compute_badloc_box_scores ex_dist (9 # 10) (1 # 2) ex_labels ex_predictions) as l eqn:E. vm_compute in E. subst l.
    cbn [map]. rewrite !valid_soft. cbn [numbers flat_map app]. rewrite (G _ (1#1)) by reflexivity. rewrite (G _ (19#20)) by reflexivity.
    unfold Q2R. cbn [Qnum Qden]. repeat (f_equal; try lra).
  - remember (compute_swap_box_scores ex_dist (9 # 10) (95 # 100) true ex_labels ex_predictions) as l eqn:E. vm_compute in E. subst l.
    cbn [map]. rewrite !valid_soft. cbn [numbers flat_map app]. rewrite (G _ (1#20)) by reflexivity. rewrite (G _ (1#1)) by reflexivity.
    unfold Q2R. cbn [Qnum Qden]. repeat (f_equal; try lra).
Qed.
