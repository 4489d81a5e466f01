(** * C107: summaries of an object detection data set *)
From Coq Require Import String QArith Qabs List ZArith Bool Arith Sorted Permutation.
From Verif Require Import Base ModelDetection ModelDetSummary SpecDisplay SpecDetSummary ProofDetSummary.
Import ListNotations.
Open Scope Q_scope.

Theorem C107_counts : forall dist labels predictions, length labels = length predictions ->
  object_counts_per_image dist labels predictions = (map (@length (nat * box)) labels, map (fun p => length (boxes_from 0 p)) predictions).
Proof. exact counts_full. Qed.
Print Assumptions C107_counts.
Theorem C107_sorted_counts : forall dist labels predictions, length labels = length predictions ->
  exists l p, get_sorted_bbox_count_idxs dist labels predictions = (l, p) /\
  most_first (map (@length (nat * box)) labels) l /\ most_first (map (fun p => length (boxes_from 0 p)) predictions) p.
Proof. exact sorted_counts_full. Qed.
Print Assumptions C107_sorted_counts.
(** the sizes of the boxes of every class; sorting only reorders the classes *)
Theorem C107_sizes : forall dist labels predictions names, length labels = length predictions ->
  exists l p, bounding_box_size_distribution dist labels predictions names false = (l, p) /\
    sizes_by_class names (concat labels) l /\ sizes_by_class names (concat (map (boxes_from 0) predictions)) p /\
  exists l' p', bounding_box_size_distribution dist labels predictions names true = (l', p') /\ Permutation l l' /\ Permutation p p' /\
    StronglySorted (fun a b => (length (snd b) <= length (snd a))%nat) l' /\ StronglySorted (fun a b => (length (snd b) <= length (snd a))%nat) p'.
Proof. exact sizes_full. Qed.
Print Assumptions C107_sizes.
(** the shares of the classes up to rounding; a class without a name raises KeyError.  Missing: that the shares add up to one, see below. *)
Theorem C107_distribution_partial : forall dist labels predictions names, length labels = length predictions ->
  ((forall c, In c (map fst (concat labels)) \/ In c (map fst (concat (map (boxes_from 0) predictions))) -> exists k, reported names c k) ->
     exists l p, class_label_distribution dist labels predictions names = Ok (l, p) /\
       shares names (map fst (concat labels)) l /\ shares names (map fst (concat (map (boxes_from 0) predictions))) p) /\
  ((exists c, (In c (map fst (concat labels)) \/ In c (map fst (concat (map (boxes_from 0) predictions)))) /\ forall k, ~ reported names c k) ->
     class_label_distribution dist labels predictions names = Raise KeyError).
Proof. exact distribution_full. Qed.
Print Assumptions C107_distribution_partial.

(** 201 classes with one box each: every share is reported as 0.0 *)
Definition unit_box : box := mk_box 0 0 1 1.
Theorem C107_sums_to_one_refuted : exists labels predictions l p, length labels = length predictions /\
  (forall dist, class_label_distribution dist labels predictions None = Ok (l, p)) /\ length l = 201%nat /\ forall k v, In (k, v) l -> v == 0.
Proof.
  exists [map (fun k => (k, unit_box)) (seq 0 201)], [[]]. do 2 eexists. split; [reflexivity|]. split; [intros dist; unfold class_label_distribution, aux_inputs; vm_compute; reflexivity|].
  split; [reflexivity|]. intros k v H.
  assert (F : forallb (fun kv => Qeq_bool (snd kv) 0) (map (fun k => (KIdx k, 0 # 100)) (seq 0 201)) = true) by (vm_compute; reflexivity).
  rewrite forallb_forall in F. apply Qeq_bool_iff. apply (F (k, v)). exact H.
Qed.
Print Assumptions C107_sums_to_one_refuted.

Definition ex107_labels : list (list (nat * box)) := [[(0%nat, mk_box 0 0 2 3); (1%nat, mk_box 1 1 2 2)]; [(1%nat, mk_box 0 0 4 4); (1%nat, mk_box 0 0 1 5)]].
Definition ex107_preds : list (list (list (box * Q))) := [[[]; [(unit_box, 9 # 10)]]; [[(unit_box, 1 # 2)]; []]].
Example C107_example : forall dist,
  object_counts_per_image dist ex107_labels ex107_preds = ([2; 2]%nat, [1; 1]%nat) /\
  fst (bounding_box_size_distribution dist ex107_labels ex107_preds None true) = [(KIdx 1, [1; 16; 5]); (KIdx 0, [6])] /\
  class_label_distribution dist ex107_labels ex107_preds None = Ok ([(KIdx 0, 25 # 100); (KIdx 1, 75 # 100)], [(KIdx 1, 50 # 100); (KIdx 0, 50 # 100)]) /\
  class_label_distribution dist ex107_labels ex107_preds (Some (fun k => if Nat.eqb k 0 then Some "cat"%string else None)) = Raise KeyError /\
  snd (bounding_box_size_distribution dist ex107_labels ex107_preds (Some (fun k => if Nat.eqb k 0 then Some "cat"%string else None)) false) = [(KName "cat", [1])].
Proof. intros dist. repeat split; vm_compute; reflexivity. Qed.
