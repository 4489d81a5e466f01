(** * C156: the numbering of the classes of object-detection data *)
From Coq Require Import QArith Reals List Arith Bool Permutation Lia Lqa.
From Verif Require Import Base BaseFacts ModelDetection SpecDetection SpecRows SpecRelabel ProofRelabel PropPictures.
Import ListNotations.
Open Scope Q_scope.

(** C156: number the classes differently, in the annotations and in the predictions.  Every image keeps its label quality score ... *)
Theorem C156_scores : forall dist K labels predictions predictions' names w check,
  (forall a b, unit_interval (dist a b)) -> detection_inputs K labels predictions -> valid_weights w = true ->
  Permutation names (seq 0 K) -> renamed_predictions names predictions predictions' ->
  detection_scores dist (renamed_boxes names labels) predictions' w check = detection_scores dist labels predictions w check.
Proof. intros. eapply relabel_scores; eauto. Qed.
Print Assumptions C156_scores.

(** ... every given box its bad-location and swap score, every predicted box its overlooked score, whatever the parameters ... *)
Theorem C156_given_boxes : forall dist K labels predictions predictions' names alpha p check,
  (forall a b, unit_interval (dist a b)) -> detection_inputs K labels predictions -> unit_interval alpha ->
  Permutation names (seq 0 K) -> renamed_predictions names predictions predictions' ->
  Forall2 (Forall2 Qeq) (compute_badloc_box_scores dist alpha p (renamed_boxes names labels) predictions')
                        (compute_badloc_box_scores dist alpha p labels predictions) /\
  Forall2 (Forall2 Qeq) (compute_swap_box_scores dist alpha p check (renamed_boxes names labels) predictions')
                        (compute_swap_box_scores dist alpha p check labels predictions).
Proof. intros. split; [eapply relabel_all_badloc|eapply relabel_all_swap]; eauto. Qed.
Print Assumptions C156_given_boxes.
Theorem C156_predicted_boxes : forall dist K labels predictions predictions' names alpha p i,
  (forall a b, unit_interval (dist a b)) -> detection_inputs K labels predictions -> unit_interval alpha ->
  Permutation names (seq 0 K) -> renamed_predictions names predictions predictions' -> (i < length labels)%nat ->
  let scores := nth i (compute_overlooked_box_scores dist alpha p labels predictions) [] in
  let scores' := nth i (compute_overlooked_box_scores dist alpha p (renamed_boxes names labels) predictions') [] in
  length scores' = length scores /\
  forall j k d, nth_prediction 0 (nth i predictions []) j = Some (k, d) ->
    exists j' s s', nth_prediction 0 (nth i predictions' []) j' = Some (nth k names 0%nat, d) /\
      nth_error scores j = Some s /\ nth_error scores' j' = Some s' /\ same_value s' s.
Proof. intros. split; [eapply relabel_overlooked_count; eauto|intros; eapply relabel_each_overlooked; eauto]. Qed.
Print Assumptions C156_predicted_boxes.

(** ... every class its average precision, and the same images are flagged, in the same order. *)
Theorem C156_precision : forall K labels predictions predictions' names srt,
  detection_inputs K labels predictions ->
  Permutation names (seq 0 K) -> renamed_predictions names predictions predictions' ->
  (forall k, (k < K)%nat -> mean_ap srt (renamed_boxes names labels) predictions' (nth k names 0%nat) = mean_ap srt labels predictions k) /\
  exists v v', per_class_ap srt labels predictions = Ok v /\ per_class_ap srt (renamed_boxes names labels) predictions' = Ok v' /\
    length v = K /\ length v' = K /\ forall k, (k < K)%nat -> nth (nth k names 0%nat) v' 0 = nth k v 0.
Proof. intros. split; [intros; eapply relabel_mean_ap; eauto|eapply relabel_per_class; eauto]. Qed.
Print Assumptions C156_precision.
Theorem C156_flags : forall dist K labels predictions predictions' names srt srtR check,
  (forall a b, unit_interval (dist a b)) -> detection_inputs K labels predictions ->
  Permutation names (seq 0 K) -> renamed_predictions names predictions predictions' ->
  find_label_issues_mask dist srt (renamed_boxes names labels) predictions' check = find_label_issues_mask dist srt labels predictions check /\
  find_label_issues_ranked dist srt srtR (renamed_boxes names labels) predictions' check = find_label_issues_ranked dist srt srtR labels predictions check.
Proof. intros. split; [eapply relabel_mask; eauto|eapply relabel_ranked; eauto]. Qed.
Print Assumptions C156_flags.

(** Renaming the annotations alone is not enough: the flags change. *)
Theorem C156_annotations_only_refuted :
  ~ (forall dist K labels predictions names srt check,
       (forall a b, unit_interval (dist a b)) -> argsort_ok srt -> detection_inputs K labels predictions -> Permutation names (seq 0 K) ->
       find_label_issues_mask dist srt (renamed_boxes names labels) predictions check = find_label_issues_mask dist srt labels predictions check).
Proof.
  intros H. specialize (H (fun _ _ => 1 # 2) 2%nat [[(0%nat, pic_box)]] [[[]; [(mk_box 20 20 30 30, 1)]]] [1; 0]%nat argsort_ins true).
  assert (F : find_label_issues_mask (fun _ _ => 1 # 2) argsort_ins [[(0%nat, pic_box)]] [[[]; [(mk_box 20 20 30 30, 1)]]] true = Ok [true]) by (vm_compute; reflexivity).
  rewrite F in H. assert (E : Ok [false] = Ok [true]); [|discriminate E]. rewrite <- H; [vm_compute; reflexivity| |exact argsort_ins_ok| |apply perm_swap].
  - intros. split; lra.
  - split; [discriminate|]. split; [reflexivity|]. split; [lia|]. split.
    + split; [intros q [<-|[]]; reflexivity|]. intros l kb [<-|[]] [<-|[]]; cbn; lia.
    + intros i Hi. destruct i as [|i]; [|cbn in Hi; lia]. split; [split|].
      * intros kb [<-|[]]. split; cbn; lra.
      * intros ds d [<-|[<-|[]]] Hd; [destruct Hd|destruct Hd as [<-|[]]]. split; cbn; lra.
      * intros ds d [<-|[<-|[]]] Hd; [destruct Hd|destruct Hd as [<-|[]]]. split; cbn; lra.
Qed.
Print Assumptions C156_annotations_only_refuted.

(** two images with the two classes exchanged: three of the boxes predicted for class 1 become boxes of class 0 *)
Definition relabelled_p : list image_pred := map (@rev _) pic_p.
Example C156_example : (forall a b, unit_interval (pic_dist a b)) /\ detection_inputs 2 pic_l pic_p /\ unit_interval (9 # 10) /\
  Permutation [1; 0]%nat (seq 0 2) /\ renamed_predictions [1; 0]%nat pic_p relabelled_p /\
  renamed_boxes [1; 0]%nat pic_l = [[(1%nat, pic_box); (0%nat, mk_box 4 4 6 8)]; [(0%nat, pic_box)]] /\
  relabelled_p = [[[(mk_box 4 4 7 8, 3 # 10); (mk_box 1 1 2 2, 99 # 100)]; [(pic_box, 97 # 100)]]; [[(pic_box, 9 # 10)]; []]] /\
  find_label_issues_mask pic_dist argsort_ins (renamed_boxes [1; 0]%nat pic_l) relabelled_p true =
    find_label_issues_mask pic_dist argsort_ins pic_l pic_p true.
Proof.
  destruct C145_example as (A & B & _). split; [exact A|]. split; [exact B|]. split; [split; lra|]. split; [apply perm_swap|]. split.
  - constructor; [|constructor; [|constructor]]; (split; [reflexivity|]); intros [|[|k]] Hk; try reflexivity; cbn in Hk; lia.
  - split; [reflexivity|]. split; [reflexivity|]. vm_compute. reflexivity.
Qed.
