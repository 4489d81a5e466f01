(** * C137: what the object-detection search finds and what it leaves alone *)
From Coq Require Import QArith Qabs Reals List ZArith Bool Arith Lia Lqa.
From Verif Require Import Base BaseFacts ModelUtil ModelDetection SpecDetection SpecDetFind ProofDetection ProofDetectionR ProofDetFind.
Import ListNotations.
Open Scope Q_scope.

(** An image whose annotation agrees with the predictions is not flagged, whatever the other images are. *)
Theorem C137_agreement : forall dist srt labels predictions K check, argsort_ok srt -> (forall a b, unit_interval (dist a b)) ->
  detection_inputs K labels predictions ->
  exists mask, find_label_issues_mask dist srt labels predictions check = Ok mask /\ length mask = length labels /\
  forall i, (i < length labels)%nat -> agrees (nth i labels []) (nth i predictions []) ->
    (check = false \/ forall j, ~ conflicting (nth i labels []) j) -> nth i mask false = false.
Proof. exact C137_agreement_full. Qed.
Print Assumptions C137_agreement.

(** A confident prediction where nothing is annotated flags the image if the class is predicted with a mean average
    precision of at least 1/2 (1/4 when the image has no box of the class) ... *)
Theorem C137_overlooked : forall dist srt labels predictions K check, argsort_ok srt -> (forall a b, unit_interval (dist a b)) ->
  detection_inputs K labels predictions -> forall i k d,
  (i < length labels)%nat -> predicted (nth i predictions []) k d -> 95 # 100 <= snd d ->
  (forall kb, In kb (nth i labels []) -> ~ overlap (snd kb) (fst d)) ->
  1 # 2 <= mean_ap srt labels predictions k \/ (1 # 4 <= mean_ap srt labels predictions k /\ forall b, ~ In (k, b) (nth i labels [])) ->
  exists mask, find_label_issues_mask dist srt labels predictions check = Ok mask /\ nth i mask false = true.
Proof. exact C137_overlooked_full. Qed.
Print Assumptions C137_overlooked.

(** ... so does a given box of which all confident predictions of its class miss most ... *)
Theorem C137_bad_location : forall dist srt labels predictions K check, argsort_ok srt -> (forall a b, unit_interval (dist a b)) ->
  detection_inputs K labels predictions -> forall i k b r,
  (i < length labels)%nat -> In (k, b) (nth i labels []) ->
  (exists d, predicted (nth i predictions []) k d /\ 1 # 2 < snd d /\ overlap b (fst d)) ->
  (forall d, predicted (nth i predictions []) k d -> 1 # 2 < snd d -> iou b (fst d) <= r) ->
  (9 # 10) * r + (1 # 10) <= mean_ap srt labels predictions k / 5 ->
  exists mask, find_label_issues_mask dist srt labels predictions check = Ok mask /\ nth i mask false = true.
Proof. exact C137_bad_location_full. Qed.
Print Assumptions C137_bad_location.

(** ... and a given box that a confident prediction of another class matches, provided that somewhere in the data set a
    given and a predicted box of one image have little similarity. *)
Theorem C137_swapped : forall dist srt labels predictions K check, argsort_ok srt -> (forall a b, unit_interval (dist a b)) ->
  detection_inputs K labels predictions -> forall i k k' b d,
  (i < length labels)%nat -> In (k, b) (nth i labels []) ->
  predicted (nth i predictions []) k' d -> k' <> k -> 95 # 100 < snd d ->
  1 - (9 # 10) * iou b (fst d) <= mean_ap srt labels predictions k / 5 ->
  (exists i' k1 k2 a c q, In (k1, a) (nth i' labels []) /\ predicted (nth i' predictions []) k2 (c, q) /\
     0 < sim dist (9 # 10) a c /\ sim dist (9 # 10) a c <= mean_ap srt labels predictions k / 5) ->
  exists mask, find_label_issues_mask dist srt labels predictions check = Ok mask /\ nth i mask false = true.
Proof. exact C137_swapped_full. Qed.
Print Assumptions C137_swapped.

(** a similarity of centres, one for equal centres *)
Definition dist137 (a b : box) : Q :=
  if Qeq_bool (bx1 a + bx2 a) (bx1 b + bx2 b) && Qeq_bool (by1 a + by2 a) (by1 b + by2 b) then 1 else 1 # 10.
Definition here137 : box := mk_box 0 0 10 10.
Definition there137 : box := mk_box 50 50 60 60.
Definition corner137 : box := mk_box 8 8 18 18.
(** the images: as annotated, overlooked box, badly located box, swapped box, and again some as annotated *)
Definition lab137 : list image_label :=
  [[(0%nat, here137); (1%nat, there137)]; [(0%nat, here137)]; [(0%nat, here137)]; [(0%nat, here137); (0%nat, there137)];
   [(0%nat, here137); (1%nat, there137)]; [(0%nat, here137)]; [(0%nat, here137)]; [(0%nat, here137)]].
Definition pred137 : list image_pred :=
  [[[(here137, 99 # 100)]; [(there137, 99 # 100)]]; [[(here137, 99 # 100)]; [(there137, 96 # 100)]]; [[(corner137, 90 # 100)]; []];
   [[(there137, 99 # 100)]; [(here137, 98 # 100)]]; [[(here137, 99 # 100)]; [(there137, 99 # 100)]]; [[(here137, 99 # 100)]; []];
   [[(here137, 99 # 100)]; []]; [[(here137, 99 # 100)]; []]].

Example C137_example : detection_inputs 2 lab137 pred137 /\ agrees (nth 0 lab137 []) (nth 0 pred137 []) /\
  (forall a b, unit_interval (dist137 a b)) /\
  find_label_issues_mask dist137 argsort_ins lab137 pred137 true = Ok [false; true; true; true; false; false; false; false] /\
  1 # 2 <= mean_ap argsort_ins lab137 pred137 1 /\
  (9 # 10) * iou here137 corner137 + (1 # 10) <= mean_ap argsort_ins lab137 pred137 0 / 5 /\
  1 - (9 # 10) * iou here137 here137 <= mean_ap argsort_ins lab137 pred137 0 / 5 /\
  sim dist137 (9 # 10) here137 there137 == 1 # 100.
Proof.
  split; [|split; [|split]].
  - split; [discriminate|]. split; [reflexivity|]. split; [lia|]. split.
    + split; [intros p H; cbn in H; intuition (subst; reflexivity)|].
      intros l kb Hl Hk. cbn in Hl. intuition (subst; cbn in Hk; intuition (subst; cbn; lia)).
    + intros i Hi. cbn in Hi. split; [split|].
      * intros kb H. do 8 (destruct i as [|i]; [cbn in H; intuition (subst; split; discriminate)|]). lia.
      * intros ds d H1 H2. do 8 (destruct i as [|i]; [cbn in H1; intuition (subst; cbn in H2; intuition (subst; split; discriminate))|]). lia.
      * intros ds d H1 H2. do 8 (destruct i as [|i]; [cbn in H1; intuition (subst; cbn in H2; intuition (subst; split; discriminate))|]). lia.
  - split; [|split].
    + intros k d P _. destruct k as [|[|k]]; [| |destruct k; destruct P]; destruct P as [<-|[]]; [exists (0%nat, here137)|exists (1%nat, there137)];
        (split; [cbn; auto|]); apply iou_pos; reflexivity.
    + intros k b [E|[E|[]]]; injection E as <- <-; right; [exists (here137, 99 # 100)|exists (there137, 99 # 100)]; (split; [now left|]); split; reflexivity.
    + intros k k' b d [E|[E|[]]] P N _; injection E as <- <-; (destruct k' as [|[|k']]; [| |destruct k'; destruct P]); try congruence;
        destruct P as [<-|[]]; reflexivity.
  - intros a b. unfold dist137. destruct (_ && _)%bool; split; discriminate.
  - repeat split; vm_compute; first [reflexivity|discriminate].
Qed.

(** Without such a pair swapped labels are not found: here every image has one object, all boxes are predicted where they
    were drawn, and one of the labels is wrong.  The least similarity in the data set, 1, is a lower bound for the scores. *)
Theorem C137_swap_missed_refuted : exists labels predictions i k k' b d,
  detection_inputs 2 labels predictions /\ In (k, b) (nth i labels []) /\ predicted (nth i predictions []) k' d /\ k' <> k /\
  95 # 100 < snd d /\ iou b (fst d) == 1 /\ 1 # 2 < mean_ap argsort_ins labels predictions k /\
  find_label_issues_mask dist137 argsort_ins labels predictions true = Ok [false; false; false] /\
  Forall2 (Forall2 Qeq) (compute_swap_box_scores dist137 (9 # 10) (95 # 100) true labels predictions) [[1]; [1]; [1]].
Proof.
  exists [[(0%nat, here137)]; [(0%nat, here137)]; [(0%nat, here137)]],
    [[[(here137, 99 # 100)]; []]; [[(here137, 99 # 100)]; []]; [[]; [(here137, 99 # 100)]]], 2%nat, 0%nat, 1%nat, here137, (here137, 99 # 100).
  split.
  { split; [discriminate|]. split; [reflexivity|]. split; [lia|]. split.
    - split; [intros p H; cbn in H; intuition (subst; reflexivity)|].
      intros l kb Hl Hk. cbn in Hl. intuition (subst; cbn in Hk; intuition (subst; cbn; lia)).
    - intros i Hi. cbn in Hi. split; [split|].
      + intros kb H. do 3 (destruct i as [|i]; [cbn in H; intuition (subst; split; discriminate)|]). lia.
      + intros ds d H1 H2. do 3 (destruct i as [|i]; [cbn in H1; intuition (subst; cbn in H2; intuition (subst; split; discriminate))|]). lia.
      + intros ds d H1 H2. do 3 (destruct i as [|i]; [cbn in H1; intuition (subst; cbn in H2; intuition (subst; split; discriminate))|]). lia. }
  split; [now left|]. split; [now left|]. split; [discriminate|]. split; [reflexivity|]. split; [reflexivity|].
  split; [vm_compute; reflexivity|]. split; [vm_compute; reflexivity|]. vm_compute. repeat constructor.
Qed.
Print Assumptions C137_swap_missed_refuted.
