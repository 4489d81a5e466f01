(** * Property C128: the summary row and the info of Datalab's label check *)
From Coq Require Import String QArith Qabs List ZArith Bool Arith Lia Permutation Sorted.
From Verif Require Import Base BaseFacts ModelUtil ModelCount ModelRank ModelFilter ModelBatched ModelLearn ModelDataset
     ModelLabelCheck ModelLabelInfo SpecCount SpecFilter SpecDataset SpecLearn SpecLabelInfo ProofLabelInfo PropLearn.
Import ListNotations.
Open Scope Q_scope.

(** The score of the summary row is one minus the share of estimated label errors: examples counted into another class
    by the thresholds that the info reports. *)
Theorem C128_score : forall srt minv js cfg kw qk st k labels K pps fs th nm im sv flags scores score info pp,
    argsort_ok srt -> plain_statistics st ->
    label_check srt minv js cfg kw qk None st k labels K pps fs th nm im sv = Ok (flags, scores, score, info) ->
    probabilities k labels K pps fs pp -> dataset (length (nth 0 pp [])) labels pp -> two_classes labels ->
    exists errors, holds_for (length labels) (estimated_error (li_confident_thresholds info) labels pp) errors /\
      score * Qnat (length labels) == Qnat (length labels) - Qnat errors /\ 0 <= score <= 1.
Proof. exact score_full. Qed.
Print Assumptions C128_score.

(** It is the same whatever classifier settings, thresholds or noise rates are passed. *)
Theorem C128_same_score : forall srt minv js cfg kw qk st k K th nm im sv flags scores score info minv' js' cfg' kw' qk' st' k' K' fs fs' th' nm' im' sv' flags' scores' score' info' labels pp,
    plain_statistics st -> plain_statistics st' ->
    label_check srt minv js cfg kw qk None st k labels K (Some pp) fs th nm im sv = Ok (flags, scores, score, info) ->
    label_check srt minv' js' cfg' kw' qk' None st' k' labels K' (Some pp) fs' th' nm' im' sv' = Ok (flags', scores', score', info') ->
    score = score'.
Proof. exact same_score. Qed.
Print Assumptions C128_same_score.

(** With the filters that use this estimate it is one minus the share of flagged examples. *)
Theorem C128_matches_flags : forall srt minv js cfg kw qk st k labels K pps fs th nm im sv flags scores score info pp f,
    argsort_ok srt -> plain_statistics st -> low_memory cfg = false -> pulearning cfg = None ->
    kw_filter kw = Some f -> f = ConfidentLearning \/ f = LowNormalizedMargin \/ f = LowSelfConfidence ->
    label_check srt minv js cfg kw qk None st k labels K pps fs th nm im sv = Ok (flags, scores, score, info) ->
    probabilities k labels K pps fs pp -> dataset (length (nth 0 pp [])) labels pp -> two_classes labels ->
    length flags = length labels /\ score * Qnat (length labels) == Qnat (length labels) - Qnat (li_num_label_issues info).
Proof. exact matches_flags. Qed.
Print Assumptions C128_matches_flags.

(** The info agrees with the table: scores, their average, number of flags, given and predicted labels. *)
Theorem C128_table : forall srt minv js cfg kw qk user st k labels K pps fs th nm im sv flags scores score info pp,
    label_check srt minv js cfg kw qk user st k labels K pps fs th nm im sv = Ok (flags, scores, score, info) ->
    probabilities k labels K pps fs pp -> dataset (length (nth 0 pp [])) labels pp -> (fst qk = SelfConfidence \/ (2 <= length (nth 0 pp []))%nat) ->
    length scores = length labels /\
    get_label_quality_scores labels pp (length (nth 0 pp [])) (fst qk) (snd qk) = Ok scores /\
    is_average scores (li_average_label_quality info) /\
    li_num_label_issues info = length (filter (fun b : bool => b) flags) /\
    li_given_label info = labels /\ length (li_predicted_label info) = length labels /\
    (forall e, (e < length labels)%nat -> most_likely (nth e pp []) (nth e (li_predicted_label info) 0%nat)) /\
    (li_used_features info = true <-> pps = None) /\ (li_used_pred_probs info = true <-> pps <> None).
Proof. exact table_full. Qed.
Print Assumptions C128_table.

(** The class tables describe the estimated joint distribution. *)
Theorem C128_classes : forall srt minv js cfg kw qk st k labels K pps fs th nm im sv flags scores score info pp,
    argsort_ok srt -> plain_statistics st ->
    label_check srt minv js cfg kw qk None st k labels K pps fs th nm im sv = Ok (flags, scores, score, info) ->
    probabilities k labels K pps fs pp -> dataset (length (nth 0 pp [])) labels pp ->
    exists joint, estimate_joint srt labels pp (length (nth 0 pp [])) None = Ok joint /\
    Permutation (map class_index (li_classes info)) (seq 0 (length (nth 0 pp []))) /\
    StronglySorted (fun r r' => class_quality r <= class_quality r') (li_classes info) /\
    (forall r, In r (li_classes info) -> (1 # 1000000) <= pr_given joint (class_index r) ->
       class_quality r * pr_given joint (class_index r) == mget joint (class_index r) (class_index r)) /\
    StronglySorted (fun r r' => overlap_prob r' <= overlap_prob r) (li_overlapping info) /\
    qsum (map overlap_prob (li_overlapping info)) == pr_wrong joint.
Proof. exact classes_full. Qed.
Print Assumptions C128_classes.

(** The overlap table lists every unordered pair of classes once with the probability of confusing them either way
    (every ordered pair with its own probability if so configured). *)
Theorem C128_overlap : forall srt minv js cfg kw qk st k labels K pps fs th nm im sv flags scores score info pp,
    argsort_ok srt -> plain_statistics st ->
    label_check srt minv js cfg kw qk None st k labels K pps fs th nm im sv = Ok (flags, scores, score, info) ->
    probabilities k labels K pps fs pp -> dataset (length (nth 0 pp [])) labels pp ->
    exists joint, estimate_joint srt labels pp (length (nth 0 pp [])) None = Ok joint /\
    NoDup (map (fun r => (overlap_a r, overlap_b r)) (li_overlapping info)) /\
    (forall x y, In (x, y) (map (fun r => (overlap_a r, overlap_b r)) (li_overlapping info)) <->
       (x < length (nth 0 pp []))%nat /\ (y < length (nth 0 pp []))%nat /\ (st_asymmetric st = Some true /\ x <> y \/ st_asymmetric st <> Some true /\ (x < y)%nat)) /\
    (forall r, In r (li_overlapping info) ->
       (st_asymmetric st = Some true -> overlap_prob r == mget joint (overlap_a r) (overlap_b r)) /\
       (st_asymmetric st <> Some true -> overlap_prob r == pr_confused joint (overlap_a r) (overlap_b r))).
Proof. exact overlap_full. Qed.
Print Assumptions C128_overlap.

(** The confident joint in the info holds counts: its rows add up to the numbers of labels. *)
Theorem C128_counts : forall srt minv js cfg kw qk user st k labels K pps fs th nm im sv flags scores score info pp,
    argsort_ok srt -> low_memory cfg = false -> pulearning cfg = None -> kw_cj kw = None ->
    label_check srt minv js cfg kw qk user st k labels K pps fs th nm im sv = Ok (flags, scores, score, info) ->
    probabilities k labels K pps fs pp -> dataset (length (nth 0 pp [])) labels pp ->
    exists counts, li_confident_joint info = Some (map (map inject_Z) counts) /\ length counts = length (nth 0 pp []) /\
      forall i, (i < length (nth 0 pp []))%nat -> zsum (nth i counts []) = Z.of_nat (n_labelled i labels).
Proof. exact info_joint. Qed.
Print Assumptions C128_counts.

(** Parameters for the health summary without class names, or with a confident joint, or with a joint and the number of
    examples, make the check fail, whatever the data. *)
Theorem C128_parameters : forall srt minv js cfg kw qk hp st k labels K pps fs th nm im sv out,
    label_check srt minv js cfg kw qk (Some hp) st k labels K pps fs th nm im sv = Ok out ->
    hp_class_names hp <> None /\ hp_confident_joint hp = None /\ (hp_joint hp = None \/ hp_num_examples hp = None).
Proof. exact parameters_full. Qed.
Print Assumptions C128_parameters.

(** ** Concrete cases *)
Definition plain7 := {| st_confident_joint := None; st_joint := None; st_num_examples := Some 7; st_asymmetric := None;
                        st_class_names := ["cat"; "dog"]%string |}.
Definition noisy7 : list (list Q) := [pr 9; pr 8; pr 9; pr 1; pr 2; pr 1; pr 9].
Definition check7 (f : option filter_method) (user : option parameters) :=
  label_check argsort_ins minv2 js1 cfg1 (kw1 f) (SelfConfidence, false) user plain7 10 labels7 2 (Some noisy7) None None None None true.
Example C128_hypotheses : plain_statistics plain7 /\ dataset 2 labels7 noisy7 /\ two_classes labels7 /\
  probabilities 10 labels7 2 (Some noisy7) None noisy7.
Proof.
  split; [split; reflexivity|]. split; [|split; [|reflexivity]].
  - split; try reflexivity; try discriminate.
    + intros l H. cbn in H. intuition lia.
    + intros r H. cbn in H. repeat (destruct H as [<-|H]; [reflexivity|]). destruct H.
    + intros r x H. cbn in H. repeat (destruct H as [<-|H]; [cbn; intros X; repeat (destruct X as [<-|X]; [split; discriminate|]); destruct X|]). destruct H.
  - exists 0%nat, 1%nat. cbn. repeat split; auto 10.
Qed.
Example C128_example : exists scores score info,
  check7 (Some ConfidentLearning) None = Ok ([false; false; false; false; false; false; true], scores, score, info) /\
  score == 6 # 7 /\ li_num_label_issues info = 1%nat /\ li_predicted_label info = [0; 0; 0; 1; 1; 1; 0]%nat /\
  li_average_label_quality info == 53 # 70 /\ map class_index (li_classes info) = [1; 0]%nat /\
  match li_confident_joint info with Some cj => map (map Qred) cj = [[3; 0]; [1; 3]] | None => False end.
Proof. do 3 eexists. split; [vm_compute; reflexivity|]. repeat split; vm_compute; reflexivity. Qed.

(** With the default filter the number of flags and the score of one summary row need not agree: at most ten examples
    of a class means that nothing is flagged, while the score says that one label in seven is wrong. *)
Definition kw_default := {| kw_filter := None; kw_cj := None; kw_min := None; kw_frac := 1;
  kw_ntr := None; kw_jobs := 1; kw_sched_c := []; kw_sched_n := []; kw_unsupported := false |}.
Theorem C128_share_refuted : exists scores score info,
  label_check argsort_ins minv2 js1 cfg1 kw_default (SelfConfidence, false) None plain7 10 labels7 2 (Some noisy7) None None None None true
    = Ok (repeat false 7, scores, score, info) /\
  score == 6 # 7 /\ li_num_label_issues info = 0%nat.
Proof. do 3 eexists. split; [vm_compute; reflexivity|]. split; vm_compute; reflexivity. Qed.
Print Assumptions C128_share_refuted.

(** The documented uses of the parameters: a confident joint, a joint with the number of examples, and a mere change of
    the overlap table, each alone. *)
Definition names2 : option (list string) := Some ["cat"; "dog"]%string.
Theorem C128_parameters_refuted :
  check7 None (Some {| hp_confident_joint := Some [[3; 0]; [1; 3]]; hp_joint := None; hp_num_examples := None; hp_class_names := names2; hp_asymmetric := None |}) = Raise ValueError /\
  check7 None (Some {| hp_confident_joint := None; hp_joint := Some [[3 # 7; 0]; [1 # 7; 3 # 7]]; hp_num_examples := Some 7; hp_class_names := names2; hp_asymmetric := None |}) = Raise OtherError /\
  check7 None (Some {| hp_confident_joint := None; hp_joint := None; hp_num_examples := None; hp_class_names := None; hp_asymmetric := Some true |}) = Raise KeyError /\
  exists out, check7 None (Some {| hp_confident_joint := None; hp_joint := None; hp_num_examples := None; hp_class_names := names2; hp_asymmetric := Some true |}) = Ok out.
Proof. split; [vm_compute; reflexivity|]. split; [vm_compute; reflexivity|]. split; [vm_compute; reflexivity|]. eexists. vm_compute. reflexivity. Qed.
Print Assumptions C128_parameters_refuted.
