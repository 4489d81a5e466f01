(** * Properties of ensemble active learning (C129) *)
From Coq Require Import QArith List Bool Arith Lia Lqa.
From Verif Require Import Base BaseFacts SpecCount ModelMultiannotator SpecMultiannotator ModelActive SpecActive ProofActive.
Import ListNotations.
Open Scope Q_scope.

(** The arrays of the caller after the call: the probabilities of the labelled examples are replaced by calibrated ones unless every example has exactly
    one label, those of the unlabelled examples are scaled with the temperatures of the labelled ones (twice if it is the same array); nothing else
    changes. *)
Theorem C129_arrays T (one : T) best scale fsqrt rnd rnd' t M r v h h' s u :
  (forall row, In row t -> length row = M) -> (2 <= a_K (load h r))%nat ->
  (forall m, In m (a_models (load h r)) -> distributions (a_N (load h r)) (a_K (load h r)) m) -> keeps_distributions scale -> (forall x, 0 < x -> 0 < fsqrt x) ->
  active_ensemble one best scale fsqrt rnd rnd' (Some t) M (Some r) (Some v) h = (h', Ok (s, u)) ->
  exists temps mid,
    ((forall row, In row t -> num_annotations row = 1%nat) -> temps = repeat one (length (a_models (load h r))) /\ mid = a_models (load h r)) /\
    (~ (forall row, In row t -> num_annotations row = 1%nat) -> best_for best t temps (a_models (load h r)) /\ scaled scale temps (a_models (load h r)) mid) /\
    (v <> r -> a_models (load h' r) = mid /\ scaled scale temps (a_models (load h v)) (a_models (load h' v))) /\
    (v = r -> scaled scale temps mid (a_models (load h' r))) /\
    (forall r', r' <> r -> r' <> v -> load h' r' = load h r').
Proof. exact (arrays_full one best scale fsqrt rnd rnd' t M r v h h' s u). Qed.
Print Assumptions C129_arrays.

(** The scores: a labelled example gets the average of its consensus quality (weight: its annotators and all models) and 1/K (weight: an average
    annotator); an unlabelled one the average over the models of the probability of the class most models favour, and 1/K. *)
Theorem C129_scores T (one : T) best scale fsqrt rnd rnd' t M r ppu h h' s u :
  (forall row, In row t -> length row = M) -> (2 <= a_K (load h r))%nat ->
  (forall m, In m (a_models (load h r)) -> distributions (a_N (load h r)) (a_K (load h r)) m) ->
  (forall v m, ppu = Some v -> In m (a_models (load h v)) -> distributions (a_N (load h v)) (a_K (load h v)) m) ->
  keeps_distributions scale -> (forall x, 0 < x -> 0 < fsqrt x) -> ppu <> Some r ->
  active_ensemble one best scale fsqrt rnd rnd' (Some t) M (Some r) ppu h = (h', Ok (s, u)) ->
  exists mw aw avg q,
    ((exists info, get_label_quality_multiannotator_ensemble fsqrt rnd t M (a_K (load h r)) (a_models (load h' r)) = Ok info /\
        q = c_quality info /\ mw = model_weights (c_post info) /\ aw = annot_weights (c_post info)) \/
     ((forall row, In row t -> num_annotations row = 1%nat) /\ mw = repeat 1 (length (a_models (load h' r))) /\ aw = repeat 1 M /\
      forall i k, (i < length t)%nat -> In (Some k) (nth i t []) -> is_average (map (fun m => mget m i k) (a_models (load h' r))) (nth i q 0))) /\
    length mw = length (a_models (load h r)) /\ (forall x, In x mw -> 0 < x) /\ length aw = M /\ (forall x, In x aw -> 0 < x) /\ is_average aw avg /\
    length q = length t /\ (forall x, In x q -> 0 <= x /\ x <= 1) /\
    length s = length t /\
    (forall i, (i < length t)%nat -> weighted [nth i q 0; 1 / Qnat (a_K (load h r))] [weight_of_annotators aw (nth i t []) + qsum mw; avg] (nth i s 0)) /\
    (ppu = None -> u = []) /\
    (forall v, ppu = Some v -> length u = a_N (load h v) /\ length (a_models (load h v)) = length mw /\
       forall i, (i < a_N (load h v))%nat -> exists fav c, favourites (a_K (load h r)) (a_models (load h' v)) i fav /\ plurality (map Some fav) c /\
         (forall k x y, plurality (map Some fav) k -> is_average (map (fun m => mget m i k) (a_models (load h' v))) x ->
            is_average (map (fun m => mget m i c) (a_models (load h' v))) y -> x <= y) /\
         weighted (map (fun m => mget m i c) (a_models (load h' v)) ++ [1 / Qnat (a_K (load h r))]) (mw ++ [avg]) (nth i u 0)).
Proof. exact (scores_full one best scale fsqrt rnd rnd' t M r ppu h h' s u). Qed.
Print Assumptions C129_scores.

(** What follows for the ranking: a score lies between 1/K and the quality; an example of lower quality whose annotators also labelled the other one comes
    first; unlabelled examples score in [0, 1], and at least 1/K when all the models favour one class. *)
Theorem C129_order T (one : T) best scale fsqrt rnd rnd' t M r ppu h h' s u :
  (forall row, In row t -> length row = M) -> (2 <= a_K (load h r))%nat ->
  (forall m, In m (a_models (load h r)) -> distributions (a_N (load h r)) (a_K (load h r)) m) ->
  (forall v m, ppu = Some v -> In m (a_models (load h v)) -> distributions (a_N (load h v)) (a_K (load h v)) m) ->
  keeps_distributions scale -> (forall x, 0 < x -> 0 < fsqrt x) -> ppu <> Some r ->
  active_ensemble one best scale fsqrt rnd rnd' (Some t) M (Some r) ppu h = (h', Ok (s, u)) ->
  exists mw aw q,
    ((exists info, get_label_quality_multiannotator_ensemble fsqrt rnd t M (a_K (load h r)) (a_models (load h' r)) = Ok info /\
        q = c_quality info /\ mw = model_weights (c_post info) /\ aw = annot_weights (c_post info)) \/
     ((forall row, In row t -> num_annotations row = 1%nat) /\ mw = repeat 1 (length (a_models (load h' r))) /\ aw = repeat 1 M /\
      forall i k, (i < length t)%nat -> In (Some k) (nth i t []) -> is_average (map (fun m => mget m i k) (a_models (load h' r))) (nth i q 0))) /\
    (forall i, (i < length t)%nat ->
      (1 / Qnat (a_K (load h r)) <= nth i q 0 -> 1 / Qnat (a_K (load h r)) <= nth i s 0 /\ nth i s 0 <= nth i q 0) /\
      (nth i q 0 <= 1 / Qnat (a_K (load h r)) -> nth i q 0 <= nth i s 0 /\ nth i s 0 <= 1 / Qnat (a_K (load h r)))) /\
    (forall i i', (i < length t)%nat -> (i' < length t)%nat ->
      (forall j, annotators_of (nth i t []) j -> annotators_of (nth i' t []) j) ->
      1 / Qnat (a_K (load h r)) <= nth i' q 0 -> nth i q 0 <= nth i' q 0 ->
      nth i s 0 <= nth i' s 0 /\
      (1 / Qnat (a_K (load h r)) < nth i' q 0 -> (exists j, ~ annotators_of (nth i t []) j /\ annotators_of (nth i' t []) j) -> nth i s 0 < nth i' s 0)) /\
    (forall v i, ppu = Some v -> (i < a_N (load h v))%nat -> 0 <= nth i u 0 /\ nth i u 0 <= 1 /\
      (forall c, (forall m, In m (a_models (load h' v)) -> top_class (a_K (load h r)) (nth i m []) c) -> 1 / Qnat (a_K (load h r)) <= nth i u 0 )).
Proof. exact (order_full one best scale fsqrt rnd rnd' t M r ppu h h' s u). Qed.
Print Assumptions C129_order.

(** Without labelled data all weights are 1. *)
Theorem C129_unlabelled_only T (one : T) best scale fsqrt rnd rnd' t M v h h' s u :
  (1 <= a_K (load h v))%nat -> (forall m, In m (a_models (load h v)) -> distributions (a_N (load h v)) (a_K (load h v)) m) -> keeps_distributions scale ->
  active_ensemble one best scale fsqrt rnd rnd' t M None (Some v) h = (h', Ok (s, u)) ->
  s = [] /\ scaled scale (repeat one (length (a_models (load h v)))) (a_models (load h v)) (a_models (load h' v)) /\ (forall r', r' <> v -> load h' r' = load h r') /\
  length u = a_N (load h v) /\
  forall i, (i < a_N (load h v))%nat -> exists fav c, favourites (a_K (load h v)) (a_models (load h' v)) i fav /\ plurality (map Some fav) c /\
    is_average (map (fun m => mget m i c) (a_models (load h' v)) ++ [1 / Qnat (a_K (load h v))]) (nth i u 0).
Proof. exact (unlabelled_only_full one best scale fsqrt rnd rnd' t M v h h' s u). Qed.
Print Assumptions C129_unlabelled_only.

(** Unlabelled examples cannot be scored with a single model. *)
Theorem C129_one_model T (one : T) best scale fsqrt rnd rnd' t M pp v h h' s u : length (a_models (load h v)) = 1%nat ->
  active_ensemble one best scale fsqrt rnd rnd' t M pp (Some v) h <> (h', Ok (s, u)).
Proof. exact (one_model_full one best scale fsqrt rnd rnd' t M pp v h h' s u). Qed.
Print Assumptions C129_one_model.

(** Missing or inconsistent arguments are rejected before any array is touched. *)
Theorem C129_rejected T (one : T) best scale fsqrt rnd rnd' t M pp ppu h :
  (pp = None /\ ppu = None) \/ (exists r, pp = Some r /\ t = None) \/
  (exists r v, pp = Some r /\ ppu = Some v /\ a_K (load h r) <> a_K (load h v)) ->
  active_ensemble one best scale fsqrt rnd rnd' t M pp ppu h = (h, Raise ValueError).
Proof.
  intros [[-> ->]|[(r & -> & ->)|(r & v & -> & -> & E)]]; unfold active_ensemble, bind, assert_valid_pred_probs; try reflexivity.
  - destruct ppu as [v|]; [destruct (a_K (load h r) =? a_K (load h v))|]; reflexivity.
  - apply Nat.eqb_neq in E. rewrite E. reflexivity.
Qed.
Print Assumptions C129_rejected.

(** [get_label_quality_multiannotator_ensemble(calibrate_probs=True)] also overwrites the array; its result is that of the call without calibration on the
    overwritten array. *)
Theorem C129_calibrated_quality T best scale fsqrt rnd t M r h h' info :
  label_quality_ensemble (T := T) best scale fsqrt rnd t M true r h = (h', Ok info) ->
  exists temps, best_for best t temps (a_models (load h r)) /\ scaled scale temps (a_models (load h r)) (a_models (load h' r)) /\ (forall r', r' <> r -> load h' r' = load h r') /\
    a_N (load h r) = length t /\
    label_quality_ensemble best scale fsqrt rnd t M false r h' = (h', Ok info).
Proof. exact (quality_calibrate_full best scale fsqrt rnd t M r h h' info). Qed.
Print Assumptions C129_calibrated_quality.

(** Temperature 1/2 squares the probabilities and normalises them; temperature 1 leaves them alone. *)
Definition sharpen (sharp : bool) (m : list (list Q)) : list (list Q) :=
  if sharp then map (fun row => map (fun x => x * x / qsum (map (fun y => y * y) row)) row) m else m.
Definition half (t : list row) (m : list (list Q)) : res bool := Ok true.
Notation a0 := (Some 0%nat). Notation a1 := (Some 1%nat). Notation a2 := (Some 2%nat).
Definition tbl129 : list row := [[a0; a0]; [a1; a0]; [a1; None]].
Definition lab129 : array := mk_array [[[3#4; 1#4]; [1#2; 1#2]; [1#4; 3#4]]; [[1; 0]; [1#3; 2#3]; [1#2; 1#2]]] 3 2.
Definition unl129 : array := mk_array [[[1#4; 3#4]; [1; 0]]; [[1#3; 2#3]; [1#2; 1#2]]] 2 2.
Definition good129 (a : array) : Prop := forall m, In m (a_models a) -> distributions (a_N a) (a_K a) m.
Lemma sharpen_keeps : keeps_distributions sharpen.
Proof.
  intros [] N K m [L HD]; [|split; auto]. split; [unfold sharpen; rewrite map_length; auto|]. intros rw Hrw. unfold sharpen in Hrw. apply in_map_iff in Hrw as (row & <- & Hr).
  destruct (HD row Hr) as (L1 & Hpos & Hsum). set (S := qsum (map (fun y => y * y) row)).
  assert (HS : 0 < S).
  { assert (H0 : 0 <= S) by (apply qsum_map_nonneg; intros x Hx; specialize (Hpos x Hx); nra).
    destruct (Qlt_le_dec 0 S) as [|H1]; [auto|]. exfalso.
    assert (Hz : forall x, In x row -> x == 0).
    { intros x Hx. assert (x * x <= S) by (apply qsum_ge_elem; [intros y Hy; apply in_map_iff in Hy as (z & <- & Hz); specialize (Hpos z Hz); nra|apply (in_map (fun y => y * y)); auto]).
      specialize (Hpos x Hx). nra. }
    assert (E0 : forall l : list Q, (forall x, In x l -> x == 0) -> qsum l == 0).
    { induction l as [|x l IH]; intros Hl; [reflexivity|]. rewrite qsum_cons, (Hl x (or_introl eq_refl)), IH; [reflexivity|]. intros y Hy. apply Hl. right; auto. }
    rewrite (E0 row Hz) in Hsum. discriminate. }
  split; [rewrite map_length; auto|]. split.
  - intros x Hx. apply in_map_iff in Hx as (y & <- & Hy). apply Qle_shift_div_l; [auto|]. specialize (Hpos y Hy). nra.
  - assert (E : forall l : list Q, qsum (map (fun x => x * x / S) l) == qsum (map (fun x => x * x) l) / S).
    { induction l as [|x l IH]; [unfold qsum; simpl; field; lra|]. cbn [map]. rewrite !qsum_cons, IH. field. lra. }
    rewrite E. fold S. field. lra.
Qed.
Example C129_hypotheses : (forall row, In row tbl129 -> length row = 2%nat) /\ good129 lab129 /\ good129 unl129 /\ keeps_distributions sharpen.
Proof.
  split; [intros row [<-|[<-|[<-|[]]]]; reflexivity|]. split; [|split; [|exact sharpen_keeps]];
    intros m [<-|[<-|[]]]; (split; [reflexivity|]); intros rw Hrw; simpl in Hrw; repeat (destruct Hrw as [<-|Hrw]; [split; [reflexivity|split; [intros x Hx; simpl in Hx; repeat (destruct Hx as [<-|Hx]; [discriminate|]); destruct Hx|reflexivity]]|]); destruct Hrw.
Qed.
Definition run129 (v : nat) := active_ensemble false half sharpen (fun x => x) (fun _ => 0%nat) (fun _ => 0%nat) (Some tbl129) 2 (Some 0%nat) (Some v) [lab129; unl129].
Definition shape129 (x : heap * res (list Q * list Q)) := match x with (h, Ok (s, u)) => Some (length h, length s, length u) | _ => None end.
Example C129_example : shape129 (run129 1) = Some (2, 3, 2)%nat /\
  match run129 1 with (h, Ok (s, u)) => nth 1 s 0 < nth 0 s 0 /\ nth 1 u 0 < nth 0 u 0 | _ => False end.
Proof. vm_compute. repeat split. Qed.

(** The caller's arrays are overwritten: the probability 3/4 becomes 9/10 ... *)
Theorem C129_untouched_refuted : exists h' s u, run129 1 = (h', Ok (s, u)) /\
  mget (nth 0 (a_models (load [lab129; unl129] 0)) []) 0 0 == 3#4 /\ mget (nth 0 (a_models (load h' 0)) []) 0 0 == 9#10 /\
  mget (nth 0 (a_models (load [lab129; unl129] 1)) []) 0 1 == 3#4 /\ mget (nth 0 (a_models (load h' 1)) []) 0 1 == 9#10.
Proof. eexists. eexists. eexists. split; [vm_compute; reflexivity|]. repeat split. Qed.
Print Assumptions C129_untouched_refuted.
(** ... and 81/82 when the array is passed for both arguments. *)
Theorem C129_same_array_refuted : exists h' s u, run129 0 = (h', Ok (s, u)) /\ mget (nth 0 (a_models (load h' 0)) []) 0 0 == 81#82.
Proof. eexists. eexists. eexists. split; [vm_compute; reflexivity|]. reflexivity. Qed.
Print Assumptions C129_same_array_refuted.
(** They are overwritten even when the call then raises (a single model). *)
Definition lab1 : array := mk_array [[[3#4; 1#4]; [1#2; 1#2]; [1#4; 3#4]]] 3 2.
Definition unl1 : array := mk_array [[[1#4; 3#4]; [1; 0]]] 2 2.
Theorem C129_failed_call_refuted : exists h',
  active_ensemble false half sharpen (fun x => x) (fun _ => 0%nat) (fun _ => 0%nat) (Some tbl129) 2 (Some 0%nat) (Some 1%nat) [lab1; unl1] = (h', Raise ValueError) /\
  mget (nth 0 (a_models (load h' 0)) []) 0 0 == 9#10 /\ mget (nth 0 (a_models (load h' 1)) []) 0 1 == 9#10.
Proof. eexists. split; [vm_compute; reflexivity|]. repeat split. Qed.
Print Assumptions C129_failed_call_refuted.
(** When the models disagree an unlabelled example can score below 1/K, which no labelled quality above 1/K and no single-model score does. *)
Definition unl3 : array := mk_array [[[2#5; 3#10; 3#10]]; [[2#5; 3#10; 3#10]]; [[0; 1; 0]]] 1 3.
Theorem C129_uniform_refuted : exists h' u,
  active_ensemble false half sharpen (fun x => x) (fun _ => 0%nat) (fun _ => 0%nat) None 0 None (Some 0%nat) [unl3] = (h', Ok ([], u)) /\ nth 0 u 0 < 1 / Qnat 3.
Proof. eexists. eexists. split; [vm_compute; reflexivity|]. reflexivity. Qed.
Print Assumptions C129_uniform_refuted.
