(** * C145: the order of the images and boxes of object-detection data *)
From Coq Require Import QArith Reals List Arith Bool Permutation Lia Lqa.
From Verif Require Import Base BaseFacts ModelDetection SpecDetection SpecSymmetry SpecPictures ProofPictures.
Import ListNotations.
Open Scope Q_scope.

(** C145: list the images in another order, list the boxes of each image in another order, and move each image in a way
    that keeps overlaps and distances: every image keeps its label quality score. *)
Theorem C145_scores : forall dist K labels predictions labels' predictions' order move w check,
  (forall a b, unit_interval (dist a b)) -> detection_inputs K labels predictions -> valid_weights w = true ->
  Permutation order (seq 0 (length labels)) -> length labels' = length labels -> length predictions' = length labels ->
  (forall i, (i < length labels)%nat -> keeps dist (move i) /\
     same_picture (move i) (nth (nth i order 0%nat) labels []) (nth i labels' [])
                           (nth (nth i order 0%nat) predictions []) (nth i predictions' [])) ->
  exists scores, detection_scores dist labels predictions w check = Ok scores /\ length scores = length labels /\
    detection_scores dist labels' predictions' w check = Ok (pick 0%R order scores).
Proof. intros. eapply scores_order; eauto. Qed.
Print Assumptions C145_scores.

(** Moving all coordinates of an image, and mirroring it, keep overlaps; they keep [_euc_dis], which depends on the
    distance of the centres. *)
Theorem C145_moves : forall dist dx dy W,
  ((forall a b, dist (shift dx dy a) (shift dx dy b) == dist a b) -> keeps dist (shift dx dy)) /\
  ((forall a b, dist (mirror W a) (mirror W b) == dist a b) -> keeps dist (mirror W)).
Proof. intros. split; [apply keeps_shift|apply keeps_mirror]. Qed.
Print Assumptions C145_moves.

(** The same for the images flagged, when the mean average precision of every class is unchanged. *)
Theorem C145_mask_given_precision : forall dist srt K labels predictions labels' predictions' order move check,
  (forall a b, unit_interval (dist a b)) -> detection_inputs K labels predictions ->
  Permutation order (seq 0 (length labels)) -> length labels' = length labels -> length predictions' = length labels ->
  (forall i, (i < length labels)%nat -> keeps dist (move i) /\
     same_picture (move i) (nth (nth i order 0%nat) labels []) (nth i labels' [])
                           (nth (nth i order 0%nat) predictions []) (nth i predictions' [])) ->
  (forall k, (k < K)%nat -> mean_ap srt labels' predictions' k == mean_ap srt labels predictions k) ->
  exists mask, find_label_issues_mask dist srt labels predictions check = Ok mask /\ length mask = length labels /\
    find_label_issues_mask dist srt labels' predictions' check = Ok (pick false order mask).
Proof. intros. eapply mask_order; eauto. Qed.
Print Assumptions C145_mask_given_precision.

(** Listing the images in another order leaves the average precision as it is, and the flags go with the images, when no
    two boxes predicted for one class have the same probability. *)
Theorem C145_precision : forall srt labels predictions order k,
  argsort_ok srt -> length labels = length predictions -> Permutation order (seq 0 (length labels)) ->
  distinct_probabilities predictions ->
  mean_ap srt (pick [] order labels) (pick [] order predictions) k = mean_ap srt labels predictions k.
Proof. intros. apply mean_ap_order; auto. Qed.
Print Assumptions C145_precision.
Theorem C145_mask : forall dist srt K labels predictions order check,
  (forall a b, unit_interval (dist a b)) -> argsort_ok srt -> detection_inputs K labels predictions ->
  distinct_probabilities predictions -> Permutation order (seq 0 (length labels)) ->
  exists mask, find_label_issues_mask dist srt labels predictions check = Ok mask /\ length mask = length labels /\
    find_label_issues_mask dist srt (pick [] order labels) (pick [] order predictions) check = Ok (pick false order mask).
Proof. exact mask_images. Qed.
Print Assumptions C145_mask.

(** With two equal probabilities the images flagged depend on the order of the images: a box predicted with the same
    probability counts as a true positive before or after a false one, and the average precision is a half or a quarter. *)
Definition pic_box : box := mk_box 0 0 10 10.
Definition pic_labels : list image_label := [[(0%nat, pic_box)]; [(0%nat, pic_box)]].
Definition pic_preds (p : Q) : list image_pred := [[[(pic_box, 9 # 10)]]; [[(mk_box 0 0 1 8, p)]]].
Lemma pic_inputs p : unit_interval p -> detection_inputs 1 pic_labels (pic_preds p).
Proof.
  intros Hp. split; [discriminate|]. split; [reflexivity|]. split; [lia|]. split.
  - split.
    + intros q [<-|[<-|[]]]; reflexivity.
    + intros l kb [<-|[<-|[]]] [<-|[]]; cbn; lia.
  - intros i Hi. destruct i as [|[|i]]; [| |cbn in Hi; lia]; (split; [split|]).
    + intros kb [<-|[]]. split; cbn; lra.
    + intros ds d [<-|[]] [<-|[]]. split; cbn; lra.
    + intros ds d [<-|[]] [<-|[]]. split; cbn; lra.
    + intros kb [<-|[]]. split; cbn; lra.
    + intros ds d [<-|[]] [<-|[]]. split; cbn; lra.
    + intros ds d [<-|[]] [<-|[]]. exact Hp.
Qed.
Theorem C145_tied_probabilities_refuted :
  ~ (forall dist srt K labels predictions order check,
       (forall a b, unit_interval (dist a b)) -> argsort_ok srt -> detection_inputs K labels predictions ->
       Permutation order (seq 0 (length labels)) ->
       exists mask, find_label_issues_mask dist srt labels predictions check = Ok mask /\
         find_label_issues_mask dist srt (pick [] order labels) (pick [] order predictions) check = Ok (pick false order mask)).
Proof.
  intros H. destruct (H (fun _ _ => 0) argsort_ins 1%nat pic_labels (pic_preds (9 # 10)) [1; 0]%nat true) as (mask & A & B).
  - intros. split; lra.
  - exact argsort_ins_ok.
  - apply pic_inputs. split; lra.
  - apply perm_swap.
  - assert (A' : find_label_issues_mask (fun _ _ => 0) argsort_ins pic_labels (pic_preds (9 # 10)) true = Ok [false; true]) by (vm_compute; reflexivity).
    assert (B' : find_label_issues_mask (fun _ _ => 0) argsort_ins (pick [] [1; 0]%nat pic_labels) (pick [] [1; 0]%nat (pic_preds (9 # 10))) true = Ok [false; false])
      by (vm_compute; reflexivity).
    pose proof (eq_trans (eq_sym A') A) as E. injection E as <-. pose proof (eq_trans (eq_sym B') B) as F. discriminate F.
Qed.
Print Assumptions C145_tied_probabilities_refuted.

(** with different probabilities the flags go with the images *)
Example C145_example_mask : detection_inputs 1 pic_labels (pic_preds (8 # 10)) /\ distinct_probabilities (pic_preds (8 # 10)) /\
  find_label_issues_mask (fun _ _ => 0) argsort_ins pic_labels (pic_preds (8 # 10)) true = Ok [false; true] /\
  find_label_issues_mask (fun _ _ => 0) argsort_ins (rev pic_labels) (rev (pic_preds (8 # 10))) true = Ok [true; false].
Proof.
  split; [apply pic_inputs; split; lra|]. split; [|split; vm_compute; reflexivity].
  intros [|[|k]]; cbn; repeat constructor. discriminate.
Qed.
(** two images in the other order, the boxes of the first one moved by (3, 5) and in the other order *)
Definition pic_l : list image_label := [[(0%nat, pic_box); (1%nat, mk_box 4 4 6 8)]; [(1%nat, pic_box)]].
Definition pic_p : list image_pred := [[[(pic_box, 97 # 100)]; [(mk_box 4 4 7 8, 3 # 10); (mk_box 1 1 2 2, 99 # 100)]]; [[]; [(pic_box, 9 # 10)]]].
Definition pic_l' : list image_label := [[(1%nat, pic_box)]; [(1%nat, shift 3 5 (mk_box 4 4 6 8)); (0%nat, shift 3 5 pic_box)]].
Definition pic_p' : list image_pred :=
  [[[]; [(pic_box, 9 # 10)]]; [[(shift 3 5 pic_box, 97 # 100)]; [(shift 3 5 (mk_box 1 1 2 2), 99 # 100); (shift 3 5 (mk_box 4 4 7 8), 3 # 10)]]].
Definition pic_dist (a b : box) : Q := 1 / (1 + (bx1 a + bx2 a - bx1 b - bx2 b) * (bx1 a + bx2 a - bx1 b - bx2 b)).
Definition pic_move (i : nat) : box -> box := if Nat.eqb i 0 then fun b => b else shift 3 5.
Example C145_example : (forall a b, unit_interval (pic_dist a b)) /\ detection_inputs 2 pic_l pic_p /\ valid_weights default_weights = true /\
  forall i, (i < 2)%nat -> keeps pic_dist (pic_move i) /\
    same_picture (pic_move i) (nth (nth i [1; 0]%nat 0%nat) pic_l []) (nth i pic_l' []) (nth (nth i [1; 0]%nat 0%nat) pic_p []) (nth i pic_p' []).
Proof.
  split; [|split; [|split; [vm_compute; reflexivity|]]].
  - intros a b. unfold pic_dist. set (x := bx1 a + bx2 a - bx1 b - bx2 b). assert (0 <= x * x) by (destruct (Qlt_le_dec x 0); nra). split.
    + apply Qle_shift_div_l; lra.
    + apply Qle_shift_div_r; lra.
  - split; [discriminate|]. split; [reflexivity|]. split; [lia|]. split.
    + split.
      * intros q [<-|[<-|[]]]; reflexivity.
      * intros l kb [<-|[<-|[]]]; cbn; intuition (subst; cbn; lia).
    + intros i Hi. destruct i as [|[|i]]; [| |cbn in Hi; lia]; (split; [split|]).
      * cbn. intros kb H. intuition subst; split; cbn; lra.
      * cbn. intros ds d [<-|[<-|[]]] H; cbn in H; intuition subst; split; cbn; lra.
      * cbn. intros ds d [<-|[<-|[]]] H; cbn in H; intuition subst; split; cbn; lra.
      * cbn. intros kb H. intuition subst; split; cbn; lra.
      * cbn. intros ds d [<-|[<-|[]]] H; cbn in H; intuition subst; split; cbn; lra.
      * cbn. intros ds d [<-|[<-|[]]] H; cbn in H; intuition subst; split; cbn; lra.
  - intros i Hi. destruct i as [|[|i]]; [| |lia].
    + split; [apply keeps_id|]. apply same_picture_id.
    + split.
      * apply keeps_shift. intros a b. unfold pic_dist, shift. cbn [bx1 bx2].
        assert (E : bx1 a + 3 + (bx2 a + 3) - (bx1 b + 3) - (bx2 b + 3) == bx1 a + bx2 a - bx1 b - bx2 b) by ring. rewrite E. reflexivity.
      * split; [apply perm_swap|]. constructor; [apply Permutation_refl|]. constructor; [apply perm_swap|constructor].
Qed.
