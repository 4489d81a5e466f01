(** * Lemmas about what the object-detection search finds *)
From Coq Require Import QArith Qabs Reals List ZArith Bool Arith Lia Lqa.
From Verif Require Import Base BaseFacts ModelUtil ModelDetection SpecDetection SpecDetFind ProofDetection ProofDetectionR.
Import ListNotations.
Open Scope Q_scope.

Lemma predicted_nth p k d : predicted p k d -> exists j, nth_prediction 0 p j = Some (k, d).
Proof. intros H. apply (proj2 (separate_predicted _ _ _)) in H. apply In_nth_error in H as (j & Hj). exists j. now rewrite <- separate_nth'. Qed.

Section Find.
Variables (dist : box -> box -> Q) (srt : list Q -> list nat) (labels : list image_label) (predictions : list image_pred) (K : nat) (check : bool).
Hypothesis Hs : argsort_ok srt.
Hypothesis Hdist : forall a b, unit_interval (dist a b).
Hypothesis Hin : detection_inputs K labels predictions.

Lemma mean_ap_unit k : 0 <= mean_ap srt labels predictions k <= 1.
Proof.
  destruct Hin as (_ & L & _). unfold mean_ap.
  assert (G : forall l, 0 <= qsum (map (fun i => ap_class srt ((1 # 2) + Qnat i * (1 # 20)) labels predictions k) l) <= Qnat (length l)).
  { induction l as [|x l IH]; [cbn; split; discriminate|]. cbn [map length].
    pose proof (ap_class_unit srt ((1 # 2) + Qnat x * (1 # 20)) labels predictions k Hs L) as A. 
    pose proof (Qnat_S (length l)) as E. rewrite qsum_cons. destruct A as (A1 & A2). destruct IH. split; lra. }
  specialize (G (seq 0 10)). rewrite seq_length in G. change (Qnat 10) with 10 in G. set (x := qsum _) in *. clearbody x.
  destruct G as (G1 & G2). split; unfold Qdiv; change (/ 10) with (1 # 10); lra.
Qed.

Lemma boxes i : (i < length labels)%nat -> boxes_ok (nth i labels []) (nth i predictions []).
Proof. intros Hi. destruct Hin as (_ & _ & _ & _ & H). apply H, Hi. Qed.
Lemma probs i : (i < length labels)%nat -> probabilities_ok (nth i predictions []).
Proof. intros Hi. destruct Hin as (_ & _ & _ & _ & H). apply H, Hi. Qed.
Let L : length labels = length predictions := proj1 (proj2 Hin).
Let a9 : unit_interval (9 # 10).
Proof. split; discriminate. Qed.

Lemma C137_agreement_full : exists mask, find_label_issues_mask dist srt labels predictions check = Ok mask /\ length mask = length labels /\
  forall i, (i < length labels)%nat -> agrees (nth i labels []) (nth i predictions []) ->
    (check = false \/ forall j, ~ conflicting (nth i labels []) j) -> nth i mask false = false.
Proof.
  destruct (mask_ok dist srt labels predictions K check Hs Hdist Hin) as (mask & E & Lm & M). exists mask. split; [exact E|]. split; [exact Lm|].
  intros i Hi (A1 & A2 & A3) Hc. destruct (nth i mask false) eqn:F; [|reflexivity]. exfalso.
  apply (M i Hi) in F as (j & k & s & Hlow & F). destruct (mean_ap_unit k) as (M0 & M1).
  assert (Hlow' : s <= 1 # 5) by (unfold Qdiv in Hlow; change (/ 5) with (1 # 5) in Hlow; lra).
  destruct F as [(d & Hd & F)|(b & Hb & [F|F])].
  - destruct (overlooked_api dist (9 # 10) (95 # 100) labels predictions i j k d Hdist a9 L boxes Hi (probs i Hi) Hd) as (m & o & _ & Eo & No & _).
    assert (o = Some s) by congruence. subst o.
    destruct (Qlt_le_dec (snd d) (95 # 100)) as [Q|Q]; [assert (X : Some s = None) by (apply No; now left); discriminate X|].
    assert (X : Some s = None) by (apply No; right; apply (A1 k d); [now apply nth_prediction_predicted in Hd|exact Q]). discriminate X.
  - destruct (badloc_api dist (9 # 10) (1 # 2) labels predictions i j k b Hdist a9 L boxes Hi Hb) as (s' & Es & _ & [(S1 & _)|((d & Pd & Qd & Od & Sd) & Best)]).
    + assert (s' = s) by congruence. subst s'. lra.
    + assert (s' = s) by congruence. subst s'. destruct (A2 k b (nth_error_In _ _ Hb)) as [N|(d' & Pd' & Qd' & I)]; [now apply (N d)|].
      assert (O : overlap b (fst d')) by (apply iou_pos; lra). specialize (Best d' Pd' Qd' O). unfold sim in Best.
      destruct (Hdist b (fst d')). nra.
  - destruct (swap_api dist (9 # 10) (95 # 100) check labels predictions i j k b Hdist a9 L boxes Hi Hb) as (m & s' & Lm' & Es & _ & _ & _ & W).
    assert (s' = s) by congruence. subst s'.
    assert (Hc' : check = false \/ ~ conflicting (nth i labels []) j) by (destruct Hc; [now left|right; auto]).
    destruct (W Hc') as [(S1 & _)|((k' & d & N & Pd & Qd & Sd) & _)]; [lra|].
    specialize (A3 k k' b d (nth_error_In _ _ Hb) Pd N Qd). unfold sim in Sd. destruct (Hdist b (fst d)).
    destruct (qmax_spec m (1 - ((9 # 10) * iou b (fst d) + (1 - (9 # 10)) * dist b (fst d)))) as [(G & Eg)|(G & Eg)]; rewrite Eg in Sd; lra.
Qed.

Lemma C137_overlooked_full i k d : (i < length labels)%nat -> predicted (nth i predictions []) k d -> 95 # 100 <= snd d ->
  (forall kb, In kb (nth i labels []) -> ~ overlap (snd kb) (fst d)) ->
  1 # 2 <= mean_ap srt labels predictions k \/ (1 # 4 <= mean_ap srt labels predictions k /\ forall b, ~ In (k, b) (nth i labels [])) ->
  exists mask, find_label_issues_mask dist srt labels predictions check = Ok mask /\ nth i mask false = true.
Proof.
  intros Hi Pd Qd No Hap. destruct (mask_ok dist srt labels predictions K check Hs Hdist Hin) as (mask & E & Lm & M). exists mask. split; [exact E|].
  apply (M i Hi). destruct (predicted_nth _ _ _ Pd) as (j & Hj).
  destruct (overlooked_api dist (9 # 10) (95 # 100) labels predictions i j k d Hdist a9 L boxes Hi (probs i Hi) Hj) as (m & o & Lm' & Eo & NN & So).
  destruct o as [s|].
  2:{ exfalso. destruct (proj1 NN eq_refl) as [Q|(kb & I & O)]; [lra|]. now apply (No kb). }
  exists j, k, s. split; [|left; exists d; now split].
  destruct (So s eq_refl) as (_ & [(Nk & S)|(b & Ib & S & _)]); unfold Qdiv; change (/ 5) with (1 # 5).
  - destruct Lm' as (m0 & m1 & _). rewrite S. nra.
  - assert (Z : iou b (fst d) == 0) by (apply iou_zero; now apply (No (k, b))). unfold sim in S. destruct (Hdist b (fst d)) as (D0 & D1). rewrite S, Z.
    destruct Hap as [Hap|(_ & N)]; [lra|]. now apply N in Ib.
Qed.

Lemma C137_bad_location_full i k b r : (i < length labels)%nat -> In (k, b) (nth i labels []) ->
  (exists d, predicted (nth i predictions []) k d /\ 1 # 2 < snd d /\ overlap b (fst d)) ->
  (forall d, predicted (nth i predictions []) k d -> 1 # 2 < snd d -> iou b (fst d) <= r) ->
  (9 # 10) * r + (1 # 10) <= mean_ap srt labels predictions k / 5 ->
  exists mask, find_label_issues_mask dist srt labels predictions check = Ok mask /\ nth i mask false = true.
Proof.
  intros Hi Ib Ex Hr Hap. destruct (mask_ok dist srt labels predictions K check Hs Hdist Hin) as (mask & E & Lm & M). exists mask. split; [exact E|].
  apply (M i Hi). apply In_nth_error in Ib as (j & Hj).
  destruct (badloc_api dist (9 # 10) (1 # 2) labels predictions i j k b Hdist a9 L boxes Hi Hj) as (s & Es & _ & [(_ & N)|((d & Pd & Qd & Od & Sd) & _)]); [now elim N|].
  exists j, k, s. split; [|right; exists b; split; [exact Hj|now left]].
  specialize (Hr d Pd Qd). unfold sim in Sd. destruct (Hdist b (fst d)). rewrite Sd. lra.
Qed.

Lemma C137_swapped_full i k k' b d : (i < length labels)%nat -> In (k, b) (nth i labels []) ->
  predicted (nth i predictions []) k' d -> k' <> k -> 95 # 100 < snd d ->
  1 - (9 # 10) * iou b (fst d) <= mean_ap srt labels predictions k / 5 ->
  (exists i' k1 k2 a c q, In (k1, a) (nth i' labels []) /\ predicted (nth i' predictions []) k2 (c, q) /\
     0 < sim dist (9 # 10) a c /\ sim dist (9 # 10) a c <= mean_ap srt labels predictions k / 5) ->
  exists mask, find_label_issues_mask dist srt labels predictions check = Ok mask /\ nth i mask false = true.
Proof.
  intros Hi Ib Pd N Qd Hap (i' & k1 & k2 & a & c & q & I1 & P1 & S0 & S1).
  destruct (mask_ok dist srt labels predictions K check Hs Hdist Hin) as (mask & E & Lm & M). exists mask. split; [exact E|].
  apply (M i Hi). apply In_nth_error in Ib as (j & Hj).
  destruct (swap_api dist (9 # 10) (95 # 100) check labels predictions i j k b Hdist a9 L boxes Hi Hj) as (m & s & (m0 & m1 & ml & _) & Es & _ & _ & C & W).
  exists j, k, s. split; [|right; exists b; split; [exact Hj|now right]].
  assert (Hm : m <= mean_ap srt labels predictions k / 5).
  { apply Qle_trans with (sim dist (9 # 10) a c); [|exact S1]. apply ml; [|exact S0]. exists i', k1, k2, q. now split. }
  assert (G : (check = false \/ ~ conflicting (nth i labels []) j) -> s <= mean_ap srt labels predictions k / 5).
  { intros Hc. destruct (W Hc) as [(_ & X)|(_ & X)]; [elim X; now exists k', d|]. specialize (X k' d N Pd Qd). unfold sim in X.
    destruct (Hdist b (fst d)). apply Qle_trans with (1 := X). destruct (qmax_spec m (1 - ((9 # 10) * iou b (fst d) + (1 - (9 # 10)) * dist b (fst d)))) as [(Gm & Eg)|(Gm & Eg)]; rewrite Eg; lra. }
  assert (Hlt : (j < length (nth i labels []))%nat) by (apply nth_error_Some; congruence).
  destruct (has_overlap (nth i labels []) j) eqn:HO.
  - apply (has_overlap_iff labels predictions L _ _ Hlt) in HO. destruct check eqn:Ec; [rewrite (C eq_refl HO); exact Hm|apply G; now left].
  - apply G. right. intros X. apply (has_overlap_iff labels predictions L _ _ Hlt) in X. congruence.
Qed.
End Find.
