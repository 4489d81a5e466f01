(** * Vocabulary for the object-detection properties *)
From Coq Require Import QArith Qabs Reals List Bool Arith Permutation Sorting.Sorted.
From Verif Require Import Base ModelDetection.
Import ListNotations.
Open Scope Q_scope.

Definition well_formed (b : box) : Prop := bx1 b <= bx2 b /\ by1 b <= by2 b.
Definition box_area (b : box) : Q := (bx2 b - bx1 b) * (by2 b - by1 b).
(** the point (x, y) lies strictly inside the box *)
Definition inside (b : box) (x y : Q) : Prop := bx1 b < x /\ x < bx2 b /\ by1 b < y /\ y < by2 b.
Definition overlap (a b : box) : Prop := exists x y, inside a x y /\ inside b x y.
Definition contained (a b : box) : Prop := bx1 b <= bx1 a /\ bx2 a <= bx2 b /\ by1 b <= by1 a /\ by2 a <= by2 b.
Definition shift (dx dy : Q) (b : box) : box := mk_box (bx1 b + dx) (by1 b + dy) (bx2 b + dx) (by2 b + dy).
Definition no_box : box := mk_box 0 0 0 0.

(** box [l] is the first box with the largest overlap with the prediction *)
Definition best_box (labs : list box) (p : box) (l : nat) : Prop :=
  (l < length labs)%nat /\
  (forall l', (l' < length labs)%nat -> iou p (nth l' labs no_box) <= iou p (nth l labs no_box)) /\
  (forall l', (l' < l)%nat -> iou p (nth l' labs no_box) < iou p (nth l labs no_box)).

(** similarity and probability ranges *)
Definition unit_interval (x : Q) : Prop := 0 <= x /\ x <= 1.
Definition probabilities_ok (p : image_pred) : Prop := forall ds d, In ds p -> In d ds -> unit_interval (snd d).
Definition boxes_ok (l : image_label) (p : image_pred) : Prop :=
  (forall kb, In kb l -> well_formed (snd kb)) /\ (forall ds d, In ds p -> In d ds -> well_formed (fst d)).

(** what an argsort of an array of reals guarantees *)
Definition argsortR_ok (srt : list R -> list nat) : Prop :=
  forall l, Permutation (srt l) (seq 0 (length l)) /\ StronglySorted (fun i j => (nth i l 0 <= nth j l 0)%R) (srt l).

(** [m i] is the given box matched by prediction [i] of an image: the assignment is correct for the true-positive,
    false-positive and missed flags *)
Definition pbox (preds : list (box * Q)) (i : nat) : box := fst (nth i preds (no_box, 0)).
Definition pprob (preds : list (box * Q)) (i : nat) : Q := snd (nth i preds (no_box, 0)).
Record matching (preds : list (box * Q)) (labs : list box) (thr : Q) (tp fp fn : list bool) (m : nat -> nat) : Prop := {
  mt_best : forall i, (i < length preds)%nat -> best_box labs (pbox preds i) (m i);
  mt_overlap : forall i, nth i tp false = true -> thr <= iou (pbox preds i) (nth (m i) labs no_box);
  mt_inj : forall i j, nth i tp false = true -> nth j tp false = true -> m i = m j -> i = j;
  mt_fp : forall i, nth i fp false = true -> thr <= iou (pbox preds i) (nth (m i) labs no_box) ->
    exists j, nth j tp false = true /\ m j = m i /\ pprob preds i <= pprob preds j;
  mt_missed : forall l, (l < length labs)%nat ->
    (nth l fn true = false <->
     exists i, (i < length preds)%nat /\ m i = l /\ thr <= iou (pbox preds i) (nth l labs no_box)) }.
(** every given box is the best match of a prediction overlapping it enough, and there is no other prediction *)
Definition perfect_image (preds : list (box * Q)) (labs : list box) (thr : Q) : Prop :=
  length preds = length labs /\
  forall l, (l < length labs)%nat -> exists i, (i < length preds)%nat /\ best_box labs (pbox preds i) l /\
    thr <= iou (pbox preds i) (nth l labs no_box).

(** [d] is a box predicted for the class [k] *)
Definition predicted (p : image_pred) (k : nat) (d : box * Q) : Prop := In d (nth k p []).
(** the [j]-th predicted box of an image, counting class after class *)
Fixpoint nth_prediction (k : nat) (p : image_pred) (j : nat) : option (nat * (box * Q)) :=
  match p with
  | [] => None
  | ds :: t => match nth_error ds j with Some d => Some (k, d) | None => nth_prediction (S k) t (j - length ds) end
  end.
(** the similarity of two boxes *)
Definition sim (dist : box -> box -> Q) (alpha : Q) (a b : box) : Q := alpha * iou a b + (1 - alpha) * dist a b.
(** [m] is the least non-zero similarity of a given and a predicted box of the same image, 1 when there is none *)
Definition least_similarity (dist : box -> box -> Q) (alpha : Q) (labels : list image_label) (predictions : list image_pred)
           (m : Q) : Prop :=
  let pair a b := exists i k k' q, In (k, a) (nth i labels []) /\ predicted (nth i predictions []) k' (b, q) in
  0 < m /\ m <= 1 /\
  (forall a b, pair a b -> 0 < sim dist alpha a b -> m <= sim dist alpha a b) /\
  (m == 1 \/ exists a b, pair a b /\ m == sim dist alpha a b).
(** another given box of a different class overlaps the [j]-th given box almost entirely *)
Definition conflicting (l : image_label) (j : nat) : Prop :=
  exists j', j' <> j /\ (j' < length l)%nat /\ fst (nth j' l (0%nat, no_box)) <> fst (nth j l (0%nat, no_box)) /\
    95 # 100 <= iou (snd (nth j l (0%nat, no_box))) (snd (nth j' l (0%nat, no_box))).

(** the mean average precision of a class over the ten thresholds 0.5, 0.55, ..., 0.95 *)
Definition mean_ap (srt : list Q -> list nat) (labels : list image_label) (predictions : list image_pred) (k : nat) : Q :=
  qsum (map (fun i => ap_class srt ((1 # 2) + Qnat i * (1 # 20)) labels predictions k) (seq 0 10)) / 10.
(** the number of given and predicted boxes of an image *)
Definition num_boxes (l : image_label) (p : image_pred) : nat := length l + length (concat p).
Definition same_classes (K : nat) (labels : list image_label) (predictions : list image_pred) : Prop :=
  (forall p, In p predictions -> length p = K) /\ (forall l kb, In l labels -> In kb l -> (fst kb < K)%nat).

(** the image has a box whose score is at most a fifth of the mean average precision of the box's class *)
Definition has_low_box (dist : box -> box -> Q) (srt : list Q -> list nat) (check : bool) (labels : list image_label)
           (predictions : list image_pred) (i : nat) : Prop :=
  exists j k s, s <= mean_ap srt labels predictions k / 5 /\
  ((exists d, nth_prediction 0 (nth i predictions []) j = Some (k, d) /\
     nth_error (nth i (compute_overlooked_box_scores dist (9 # 10) (95 # 100) labels predictions) []) j = Some (Some s)) \/
   (exists b, nth_error (nth i labels []) j = Some (k, b) /\
     (nth_error (nth i (compute_badloc_box_scores dist (9 # 10) (1 # 2) labels predictions) []) j = Some s \/
      nth_error (nth i (compute_swap_box_scores dist (9 # 10) (95 # 100) check labels predictions) []) j = Some s))).

(** valid inputs: one list of predictions per image and [K] arrays in each, labels below [K], well-formed boxes *)
Definition detection_inputs (K : nat) (labels : list image_label) (predictions : list image_pred) : Prop :=
  labels <> [] /\ length labels = length predictions /\ (0 < K)%nat /\ same_classes K labels predictions /\
  (forall i, (i < length labels)%nat -> boxes_ok (nth i labels []) (nth i predictions []) /\ probabilities_ok (nth i predictions [])).
