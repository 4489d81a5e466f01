(** * Object detection *)
From Coq Require Import QArith Qabs Qreals Reals List ZArith Bool Arith Permutation Sorting.Sorted.
From Verif Require Import Base BaseFacts ModelUtil ModelDetection SpecDetection ProofDetection ProofDetectionR.
Import ListNotations.
Open Scope Q_scope.

(** ** C38 *)
Theorem C38_iou_range a b : well_formed a -> well_formed b -> 0 <= iou a b <= 1.
Proof. intros Ha Hb. exact (conj (iou_nonneg a b) (iou_le1 a b Ha Hb)). Qed.
Theorem C38_iou_symmetric a b : iou a b == iou b a.
Proof. exact (iou_sym a b). Qed.
Theorem C38_iou_self a : well_formed a -> iou a a == box_area a / qmax (box_area a) (1 # 1000000).
Proof. exact (iou_self a). Qed.
Theorem C38_iou_self_one a : well_formed a -> 1 # 1000000 <= box_area a -> iou a a == 1.
Proof. exact (iou_self1 a). Qed.
Theorem C38_iou_positive a b : 0 < iou a b <-> overlap a b.
Proof. exact (iou_pos a b). Qed.
Theorem C38_iou_zero a b : iou a b == 0 <-> ~ overlap a b.
Proof. exact (iou_zero a b). Qed.
Theorem C38_iou_contained a b : well_formed a -> well_formed b -> contained a b -> 1 # 1000000 <= box_area b -> iou a b == box_area a / box_area b.
Proof. exact (iou_contained a b). Qed.
Theorem C38_iou_translation dx dy a b : iou (shift dx dy a) (shift dx dy b) == iou a b.
Proof. exact (iou_shift dx dy a b). Qed.
Example C38_example : iou (mk_box 0 0 2 2) (mk_box 1 1 3 3) == 1 # 7 /\ iou (mk_box 0 0 1 1) (mk_box 1 0 2 1) == 0 /\
  well_formed (mk_box 0 0 2 2) /\ contained (mk_box 1 1 2 2) (mk_box 0 0 2 2).
Proof. repeat split; discriminate. Qed.

(** ** C39 *)
Theorem C39_matching srt preds labs thr tp fp fn : argsort_ok srt -> tp_fp_fn srt preds labs thr = (tp, fp, fn) ->
  (length tp = length preds /\ length fp = length preds /\ length fn = length labs) /\
  (forall i, (i < length preds)%nat -> nth i tp false = negb (nth i fp false)) /\
  (count_true tp + count_true fp = length preds)%nat /\ (count_true tp + count_true fn = length labs)%nat /\
  (labs <> [] -> exists m, matching preds labs thr tp fp fn m) /\
  (labs = [] -> forall i, nth i tp false = false).
Proof. exact (matching_ok srt preds labs thr tp fp fn). Qed.
Theorem C39_order_of_ties srt srt' preds labs thr tp fp fn tp' fp' fn' : argsort_ok srt -> argsort_ok srt' ->
  tp_fp_fn srt preds labs thr = (tp, fp, fn) -> tp_fp_fn srt' preds labs thr = (tp', fp', fn') ->
  fn = fn' /\ count_true tp = count_true tp' /\ count_true fp = count_true fp'.
Proof. exact (matching_order srt srt' preds labs thr tp fp fn tp' fp' fn'). Qed.
Theorem C39_perfect_image srt preds labs thr tp fp fn : argsort_ok srt -> tp_fp_fn srt preds labs thr = (tp, fp, fn) ->
  perfect_image preds labs thr -> count_true fp = 0%nat /\ count_true fn = 0%nat.
Proof. exact (matching_perfect srt preds labs thr tp fp fn). Qed.
(** average precision lies between recall times precision and recall of the whole class *)
Theorem C39_average_precision srt thr labels predictions k tp fp fn : argsort_ok srt -> length labels = length predictions ->
  class_counts srt thr labels predictions k = (tp, fp, fn) ->
  (tp + fn = nsum (map (fun l => length (class_labels k l)) labels))%nat /\
  (tp + fp = nsum (map (fun p => length (class_preds k p)) predictions))%nat /\
  0 <= ap_class srt thr labels predictions k <= 1 /\
  (tp = 0%nat -> ap_class srt thr labels predictions k == 0) /\
  ((0 < tp)%nat ->
   Qnat tp / Qnat (tp + fn) * (Qnat tp / Qnat (tp + fp)) <= ap_class srt thr labels predictions k /\
   ap_class srt thr labels predictions k <= Qnat tp / Qnat (tp + fn)) /\
  ((0 < tp)%nat -> fp = 0%nat -> fn = 0%nat -> ap_class srt thr labels predictions k == 1).
Proof. exact (ap_summary srt thr labels predictions k tp fp fn). Qed.
(** two given boxes, three predictions: the second prediction overlaps the box already taken by the first *)
Definition ex_labs := [mk_box 0 0 2 2; mk_box 4 4 6 6].
Definition ex_preds := [(mk_box 0 0 2 2, 9 # 10); (mk_box 0 0 2 1, 8 # 10); (mk_box 4 4 6 6, 7 # 10)].
Example C39_example : tp_fp_fn argsort_ins ex_preds ex_labs (1 # 2) = ([true; false; true], [false; true; false], [false; false]) /\
  ap_class argsort_ins (1 # 2) [map (pair 0%nat) ex_labs] [[ex_preds]] 0 == 5 # 6.
Proof. split; reflexivity. Qed.

(** ** C53 *)
(** the mask marks the images with a low-scoring box *)
Theorem C53_mask dist srt labels predictions K check : argsort_ok srt -> (forall a b, unit_interval (dist a b)) ->
  detection_inputs K labels predictions ->
  exists mask, find_label_issues_mask dist srt labels predictions check = Ok mask /\ length mask = length labels /\
    forall i, (i < length labels)%nat -> (nth i mask false = true <-> has_low_box dist srt check labels predictions i).
Proof. exact (mask_ok dist srt labels predictions K check). Qed.
(** the ranked list holds exactly the marked images, lowest score first.  In exact arithmetic the score of an image
    can exceed 1 by the 1e-100 added before the logarithm; the marked images of at most 1e99 boxes never do. *)
Theorem C53_ranked dist srt srtR labels predictions K check mask : argsort_ok srt -> argsortR_ok srtR -> (forall a b, unit_interval (dist a b)) ->
  detection_inputs K labels predictions ->
  (forall i, (i < length labels)%nat -> (Z.of_nat (num_boxes (nth i labels []) (nth i predictions [])) <= 10 ^ 99)%Z) ->
  find_label_issues_mask dist srt labels predictions check = Ok mask ->
  exists idx scores, find_label_issues_ranked dist srt srtR labels predictions check = Ok idx /\
    detection_scores dist labels predictions default_weights true = Ok scores /\ NoDup idx /\
    (forall i, In i idx <-> nth i mask false = true) /\
    StronglySorted (fun i j => (nth i scores 0 <= nth j scores 0)%R) idx.
Proof. exact (ranked_ok dist srt srtR labels predictions K check mask). Qed.
Theorem C53_scores dist labels predictions w check K : (forall a b, unit_interval (dist a b)) ->
  detection_inputs K labels predictions -> valid_weights w = true ->
  exists scores, detection_scores dist labels predictions w check = Ok scores /\ length scores = length labels /\
    (forall s, In s scores -> (0 < s <= (1 + Q2R (1 # 10 ^ 100)) * (1 + Q2R (1 # 10 ^ 100)))%R) /\
    (w = default_weights -> forall s, In s scores -> (s <= 1 + Q2R (1 # 10 ^ 100))%R).
Proof. exact (scores_ok dist labels predictions w check K). Qed.
Theorem C53_weights dist labels predictions w check K : detection_inputs K labels predictions ->
  (w_overlooked w < 0 \/ w_badloc w < 0 \/ w_swap w < 0 \/ (101 # 100) < w_overlooked w + w_badloc w + w_swap w \/
   w_overlooked w + w_badloc w + w_swap w < 99 # 100) ->
  detection_scores dist labels predictions w check = Raise ValueError.
Proof. exact (weights_rejected dist labels predictions w check K). Qed.

(** ** C71 *)
(** the per-class counts are the averages over the thresholds divided by the number of classes *)
Theorem C71_counts_partial srt labels predictions K : argsort_ok srt -> length labels = length predictions ->
  (forall p, In p predictions -> length p = K) -> (0 < K)%nat -> predictions <> [] ->
  exists c, average_confusion srt labels predictions = Ok c /\ length c = K /\
  forall k tp fp fn, nth_error c k = Some (tp, fp, fn) ->
    0 <= tp /\ 0 <= fp /\ 0 <= fn /\
    Qnat K * (tp + fp) == Qnat (nsum (map (fun p => length (class_preds k p)) predictions)) /\
    Qnat K * (tp + fn) == Qnat (nsum (map (fun l => length (class_labels k l)) labels)) /\
    Qnat K * tp == qmean (map (fun thr => Qnat (fst (fst (class_counts srt thr labels predictions k)))) iou_thresholds).
Proof. exact (confusion_ok srt labels predictions K). Qed.
(** hence they are not the averages: one perfectly predicted box of class 0 among two classes counts as 1/2 *)
Theorem C71_average_refuted : exists labels predictions c,
  average_confusion argsort_ins labels predictions = Ok c /\
  (forall thr, In thr iou_thresholds -> class_counts argsort_ins thr labels predictions 0 = (1, 0, 0)%nat) /\
  fst (fst (nth 0 c (0, 0, 0))) == 1 # 2.
Proof. exact confusion_refuted. Qed.

(** ** C72 *)
Theorem C72_metrics srt labels predictions K : argsort_ok srt -> length labels = length predictions ->
  (forall p, In p predictions -> length p = K) -> (0 < K)%nat -> predictions <> [] ->
  exists m, per_class_metrics srt labels predictions = Ok m /\ length m = K /\
  forall k p r f, nth_error m k = Some (p, r, f) ->
    unit_interval p /\ unit_interval r /\ unit_interval f /\ f <= qmax p r /\
    ((forall thr, In thr iou_thresholds -> fst (fst (class_counts srt thr labels predictions k)) = 0%nat) -> p == 0 /\ r == 0 /\ f == 0) /\
    ((exists thr, In thr iou_thresholds /\ fst (fst (class_counts srt thr labels predictions k)) <> 0%nat) -> 0 < p /\ 0 < r /\ 0 < f).
Proof. exact (metrics_summary srt labels predictions K). Qed.

(** ** C73 *)
Theorem C73_overlooked dist alpha hp labels predictions i j k d : (forall a b, unit_interval (dist a b)) -> unit_interval alpha ->
  length labels = length predictions ->
  (forall i, (i < length labels)%nat -> boxes_ok (nth i labels []) (nth i predictions [])) ->
  (i < length labels)%nat -> probabilities_ok (nth i predictions []) ->
  nth_prediction 0 (nth i predictions []) j = Some (k, d) ->
  exists m o, least_similarity dist alpha labels predictions m /\
  nth_error (nth i (compute_overlooked_box_scores dist alpha hp labels predictions) []) j = Some o /\
  (o = None <-> snd d < hp \/ exists kb, In kb (nth i labels []) /\ overlap (snd kb) (fst d)) /\
  (forall s, o = Some s -> unit_interval s /\
     ((~ (exists b, In (k, b) (nth i labels [])) /\ s == m * (1 - snd d)) \/
      (exists b, In (k, b) (nth i labels []) /\ s == sim dist alpha b (fst d) /\
         forall b', In (k, b') (nth i labels []) -> sim dist alpha b' (fst d) <= s))).
Proof. exact (overlooked_api dist alpha hp labels predictions i j k d). Qed.
Theorem C73_bad_location dist alpha lp labels predictions i j k b : (forall a b, unit_interval (dist a b)) -> unit_interval alpha ->
  length labels = length predictions ->
  (forall i, (i < length labels)%nat -> boxes_ok (nth i labels []) (nth i predictions [])) ->
  (i < length labels)%nat -> nth_error (nth i labels []) j = Some (k, b) ->
  exists s, nth_error (nth i (compute_badloc_box_scores dist alpha lp labels predictions) []) j = Some s /\ unit_interval s /\
  ((s == 1 /\ ~ exists d, predicted (nth i predictions []) k d /\ lp < snd d /\ overlap b (fst d)) \/
   ((exists d, predicted (nth i predictions []) k d /\ lp < snd d /\ overlap b (fst d) /\ s == sim dist alpha b (fst d)) /\
    forall d, predicted (nth i predictions []) k d -> lp < snd d -> overlap b (fst d) -> sim dist alpha b (fst d) <= s)).
Proof. exact (badloc_api dist alpha lp labels predictions i j k b). Qed.
Theorem C73_swap dist alpha hp check labels predictions i j k b : (forall a b, unit_interval (dist a b)) -> unit_interval alpha ->
  length labels = length predictions ->
  (forall i, (i < length labels)%nat -> boxes_ok (nth i labels []) (nth i predictions [])) ->
  (i < length labels)%nat -> nth_error (nth i labels []) j = Some (k, b) ->
  exists m s, least_similarity dist alpha labels predictions m /\
  nth_error (nth i (compute_swap_box_scores dist alpha hp check labels predictions) []) j = Some s /\ unit_interval s /\ m <= s /\
  (check = true -> conflicting (nth i labels []) j -> s == m) /\
  (check = false \/ ~ conflicting (nth i labels []) j ->
   ((s == 1 /\ ~ exists k' d, k' <> k /\ predicted (nth i predictions []) k' d /\ hp < snd d) \/
    ((exists k' d, k' <> k /\ predicted (nth i predictions []) k' d /\ hp < snd d /\ s == qmax m (1 - sim dist alpha b (fst d))) /\
     forall k' d, k' <> k -> predicted (nth i predictions []) k' d -> hp < snd d -> s <= qmax m (1 - sim dist alpha b (fst d))))).
Proof. exact (swap_api dist alpha hp check labels predictions i j k b). Qed.

(** one image, classes 0 and 1: a given box of class 0 predicted as class 1, and a confident overlooked box *)
Definition ex_dist (a b : box) : Q := 1 # 2.
Definition ex_labels : list image_label := [[(0%nat, mk_box 0 0 2 2)]; [(1%nat, mk_box 0 0 2 2)]].
Definition ex_predictions : list image_pred :=
  [[[]; [(mk_box 0 0 2 2, 99 # 100); (mk_box 4 4 6 6, 99 # 100)]]; [[]; [(mk_box 0 0 2 2, 98 # 100)]]].
Example C53_example : detection_inputs 2 ex_labels ex_predictions /\
  find_label_issues_mask ex_dist argsort_ins ex_labels ex_predictions true = Ok [true; false].
Proof.
  split; [|vm_compute; reflexivity].
  refine (conj _ (conj _ (conj _ (conj (conj _ _) _)))); try discriminate; try reflexivity; [auto| | |].
  - intros p H. repeat (destruct H as [<-|H]; [reflexivity|]). destruct H.
  - intros l kb Hl Hk. repeat (destruct Hl as [<-|Hl]; [repeat (destruct Hk as [<-|Hk]; [simpl; auto|]); destruct Hk|]). destruct Hl.
  - intros [|[|i]] Hi; [| |simpl in Hi; exfalso; Lia.lia]; split.
    all: try (split; [intros kb H; repeat (destruct H as [<-|H]; [split; discriminate|]); destruct H|]).
    all: intros ds d H H'; cbn [nth ex_predictions ex_labels] in *;
      repeat (destruct H as [<-|H]; [repeat (destruct H' as [<-|H']; [split; discriminate|]); destruct H'|]); destruct H.
Qed.
Example C73_example :
  map (map (option_map Qred)) (compute_overlooked_box_scores ex_dist (9 # 10) (95 # 100) ex_labels ex_predictions) = [[None; Some (1 # 2000)]; [None]] /\
  map (map Qred) (compute_swap_box_scores ex_dist (9 # 10) (95 # 100) true ex_labels ex_predictions) = [[1 # 20]; [1]] /\
  map (map Qred) (compute_badloc_box_scores ex_dist (9 # 10) (1 # 2) ex_labels ex_predictions) = [[1]; [19 # 20]].
Proof. split; [|split]; vm_compute; reflexivity. Qed.
Example C71_example : exists c, average_confusion argsort_ins ex_labels ex_predictions = Ok c /\
  map (fun t => (Qred (fst (fst t)), Qred (snd (fst t)), Qred (snd t))) c = [(0, 0, 1 # 2); (1 # 2, 1, 0)].
Proof. eexists. split; vm_compute; reflexivity. Qed.
Print Assumptions C38_iou_range.
Print Assumptions C38_iou_symmetric.
Print Assumptions C38_iou_self.
Print Assumptions C38_iou_self_one.
Print Assumptions C38_iou_positive.
Print Assumptions C38_iou_zero.
Print Assumptions C38_iou_contained.
Print Assumptions C38_iou_translation.
Print Assumptions C39_matching.
Print Assumptions C39_order_of_ties.
Print Assumptions C39_perfect_image.
Print Assumptions C39_average_precision.
Print Assumptions C53_mask.
Print Assumptions C53_ranked.
Print Assumptions C53_scores.
Print Assumptions C53_weights.
Print Assumptions C71_counts_partial.
Print Assumptions C71_average_refuted.
Print Assumptions C72_metrics.
Print Assumptions C73_overlooked.
Print Assumptions C73_bad_location.
Print Assumptions C73_swap.
