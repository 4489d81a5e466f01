(** * Proofs about the object detection summaries *)
From Coq Require Import String QArith Qabs Qround List ZArith Bool Arith Lia Sorted Permutation.
From Coq Require Import Lqa.
From Verif Require Import Base BaseFacts ModelUtil ModelBatched ModelDetection ModelDetSummary SpecDisplay SpecDetSummary.
Import ListNotations.
Open Scope Q_scope.

Lemma key_eqb_spec a b : key_eqb a b = true <-> a = b.
Proof.
  destruct a, b; simpl; split; try discriminate.
  - intros H. apply Nat.eqb_eq in H. congruence.
  - intros H. injection H as ->. apply Nat.eqb_refl.
  - intros H. apply String.eqb_eq in H. congruence.
  - intros H. injection H as ->. apply String.eqb_refl.
Qed.
Lemma key_eqb_refl a : key_eqb a a = true. Proof. apply key_eqb_spec. reflexivity. Qed.
Lemma key_neqb a b : key_eqb a b = false <-> a <> b.
Proof. rewrite <- key_eqb_spec. destruct (key_eqb a b); split; congruence. Qed.

Section Dict.
Context {V X : Type} (dflt : V) (step : X -> V -> V) (key : X -> option class_key).

Lemma upd_keys (d : list (class_key * V)) k f : forall k', In k' (map fst (dict_upd d k dflt f)) <-> k' = k \/ In k' (map fst d).
Proof.
  induction d as [|[a v] t IH]; intros k'; simpl; [intuition|]. destruct (key_eqb k a) eqn:E; simpl.
  - apply key_eqb_spec in E. subst. intuition.
  - rewrite IH. intuition.
Qed.
Lemma upd_nodup (d : list (class_key * V)) k f : NoDup (map fst d) -> NoDup (map fst (dict_upd d k dflt f)).
Proof.
  induction d as [|[a v] t IH]; simpl; intros H; [repeat constructor; auto|]. destruct (key_eqb k a) eqn:E; simpl; [exact H|].
  inversion H; subst. constructor; auto. rewrite upd_keys. apply key_neqb in E. intuition.
Qed.
Lemma upd_in (d : list (class_key * V)) k f : NoDup (map fst d) -> forall k' v', In (k', v') (dict_upd d k dflt f) <->
  (k' = k /\ ((exists v, In (k, v) d /\ v' = f v) \/ (~ In k (map fst d) /\ v' = f dflt))) \/ (k' <> k /\ In (k', v') d).
Proof.
  induction d as [|[a v] t IH]; simpl; intros H k' v'.
  - split.
    + intros [E|[]]. injection E as <- <-. left. split; auto.
    + intros [(-> & [(v & [] & _)|(_ & ->)])|(_ & [])]. auto.
  - inversion H; subst. destruct (key_eqb k a) eqn:E; simpl.
    + apply key_eqb_spec in E. subst a. split.
      * intros [E|E].
        -- injection E as <- <-. left. split; auto. left. exists v. auto.
        -- right. split; auto. intros ->. apply H2. apply in_map_iff. exists (k, v'). auto.
      * intros [(-> & [(w & [E|E] & ->)|(N & _)])|(N & [E|E])].
        -- injection E as <-. auto.
        -- exfalso. apply H2. apply in_map_iff. exists (k, w). auto.
        -- exfalso. apply N. auto.
        -- exfalso. injection E as <- _. auto.
        -- auto.
    + apply key_neqb in E. rewrite (IH H3). split.
      * intros [e|[(-> & [(w & I & ->)|(N & ->)])|(N & I)]].
        -- injection e as <- <-. right. split; auto.
        -- left. split; auto. left. exists w. auto.
        -- left. split; auto. right. split; auto. intros [e|e]; congruence.
        -- right. auto.
      * intros [(-> & [(w & [e|I] & ->)|(N & ->)])|(N & [e|I])].
        -- congruence.
        -- right. left. split; auto. left. exists w. auto.
        -- right. left. split; auto. right. split; auto.
        -- auto.
        -- auto.
Qed.

Definition put (d : list (class_key * V)) (x : X) : list (class_key * V) := match key x with None => d | Some k => dict_upd d k dflt (step x) end.
Definition has (k : class_key) (x : X) : bool := match key x with None => false | Some k' => key_eqb k' k end.

Lemma fold_put l : let d := fold_left put l [] in NoDup (map fst d) /\
  forall k v, In (k, v) d <-> filter (has k) l <> [] /\ v = fold_left (fun v x => step x v) (filter (has k) l) dflt.
Proof.
  induction l as [|x l IH] using rev_ind; simpl.
  - split; [constructor|]. intros k v. split; [intros []|intros (H & _); congruence].
  - rewrite fold_left_app. simpl in *. destruct IH as (N & I). set (d := fold_left put l []) in *. unfold put at 1 2.
    destruct (key x) as [kx|] eqn:Ek.
    + split; [apply upd_nodup; exact N|]. intros k v. rewrite (upd_in _ _ _ N). rewrite filter_app. simpl filter. unfold has at 2 4. rewrite Ek.
      destruct (key_eqb kx k) eqn:E.
      * apply key_eqb_spec in E. subst kx. rewrite fold_left_app. simpl. split.
        -- intros [(_ & [(w & Iw & ->)|(Nk & ->)])|(C & _)]; [| |congruence].
           ++ apply I in Iw. destruct Iw as (_ & ->). split; [intros C; apply app_eq_nil in C; destruct C; discriminate|reflexivity].
           ++ split; [intros C; apply app_eq_nil in C; destruct C; discriminate|]. destruct (filter (has k) l) as [|a t] eqn:F; [reflexivity|].
              exfalso. apply Nk. apply in_map_iff. exists (k, fold_left (fun v x => step x v) (a :: t) dflt). split; [reflexivity|]. apply I. rewrite F. split; [discriminate|reflexivity].
        -- intros (_ & ->). left. split; [reflexivity|]. destruct (filter (has k) l) as [|a t] eqn:F.
           ++ right. split; [|reflexivity]. intros C. apply in_map_iff in C. destruct C as ([k' w] & E & C). simpl in E. subst k'. apply I in C. destruct C as (C & _). congruence.
           ++ left. eexists. split; [apply I; rewrite F; split; [discriminate|reflexivity]|]. reflexivity.
      * apply key_neqb in E. rewrite app_nil_r. split.
        -- intros [(C & _)|(_ & C)]; [congruence|]. apply I. exact C.
        -- intros H. right. split; [congruence|]. apply I. exact H.
    + split; [exact N|]. intros k v. rewrite filter_app. simpl filter. unfold has at 2 4. rewrite Ek, app_nil_r. apply I.
Qed.
End Dict.

Lemma those_filter {A} (K : A -> Prop) (b : A -> bool) : (forall a, b a = true <-> K a) -> forall l, those K l (filter b l).
Proof.
  intros H. induction l as [|a l IH]; simpl; [constructor|]. destruct (b a) eqn:E.
  - constructor; [apply H, E|exact IH].
  - constructor; [rewrite <- H; congruence|exact IH].
Qed.
Lemma those_unique {A} (K : A -> Prop) l m m' : those K l m -> those K l m' -> m = m'.
Proof. intros H. revert m'. induction H; intros m' H'; inversion H'; subst; try contradiction; f_equal; auto. Qed.
Lemma key_reported names c k : (match key_of names c with None => false | Some k' => key_eqb k' k end) = true <-> reported names c k.
Proof.
  unfold key_of, reported. destruct names as [f|].
  - destruct (f c) as [s|]; simpl option_map.
    + rewrite key_eqb_spec. split; [intros <-; eauto|]. intros (s' & E & ->). congruence.
    + split; [discriminate|]. intros (s' & E & _). discriminate.
  - rewrite key_eqb_spec. split; congruence.
Qed.

Lemma areas_put names l d : get_bbox_areas names l d = fold_left (put [] (fun cb v => v ++ [bbox_area (snd cb)]) (fun cb => key_of names (fst cb))) l d.
Proof. reflexivity. Qed.
Lemma fold_concat {A B} (f : A -> B -> A) l : forall a, fold_left (fun a x => fold_left f x a) l a = fold_left f (concat l) a.
Proof. induction l as [|x l IH]; intros a; simpl; [reflexivity|]. rewrite fold_left_app. apply IH. Qed.
Lemma fold_map {A B C} (f : A -> B -> A) (g : C -> B) l : forall a, fold_left (fun a x => f a (g x)) l a = fold_left f (map g l) a.
Proof. induction l as [|x l IH]; intros a; simpl; [reflexivity|]. apply IH. Qed.
Lemma append_sizes sel : forall v, fold_left (fun v (cb : nat * box) => v ++ [bbox_area (snd cb)]) sel v = v ++ map (fun cb => size (snd cb)) sel.
Proof.
  induction sel as [|a t IH]; intros v; simpl; [rewrite app_nil_r; reflexivity|]. rewrite IH, <- app_assoc. reflexivity.
Qed.
Lemma areas_full names boxes : sizes_by_class names boxes (fold_left (put [] (fun cb v => v ++ [bbox_area (snd cb)]) (fun cb => key_of names (fst cb))) boxes []).
Proof.
  destruct (fold_put [] (fun (cb : nat * box) v => v ++ [bbox_area (snd cb)]) (fun cb => key_of names (fst cb)) boxes) as (N & I). split; [exact N|].
  intros k v. rewrite I, append_sizes. simpl app. set (sel := filter _ boxes).
  assert (T : those (fun cb => reported names (fst cb) k) boxes sel) by (apply those_filter; intros a; apply key_reported). split.
  - intros (H & ->). exists sel. auto.
  - intros (sel' & T' & H & ->). rewrite (those_unique _ _ _ _ T' T) in *. auto.
Qed.

Lemma combine_fst {A B} (a : list A) : forall b : list B, length a = length b -> map fst (combine a b) = a.
Proof. induction a as [|x t IH]; intros [|y u] H; simpl in *; try discriminate; [reflexivity|]. f_equal. apply IH. lia. Qed.
Lemma combine_snd {A B} (a : list A) : forall b : list B, length a = length b -> map snd (combine a b) = b.
Proof. induction a as [|x t IH]; intros [|y u] H; simpl in *; try discriminate; [reflexivity|]. f_equal. apply IH. lia. Qed.
Lemma aux_labs dist labels preds : length labels = length preds -> map a_labs (aux_inputs dist ALPHA labels preds) = labels.
Proof. intros H. unfold aux_inputs. rewrite map_map. simpl. apply combine_fst. exact H. Qed.
Lemma aux_preds dist labels preds : length labels = length preds -> map a_preds (aux_inputs dist ALPHA labels preds) = map separate_prediction preds.
Proof. intros H. unfold aux_inputs. rewrite map_map. simpl. rewrite <- (combine_snd labels preds H) at 2. rewrite map_map. reflexivity. Qed.
Lemma separate_from p : forall n, map (fun q => (fst q, fst (snd q))) (flat_map (fun kd : nat * list detection => map (fun d => (fst kd, d)) (snd kd)) (combine (seq n (length p)) p)) = boxes_from n p.
Proof.
  induction p as [|ds t IH]; intros n; simpl; [reflexivity|]. rewrite map_app, IH, map_map. reflexivity.
Qed.
Lemma aux_boxes dist labels preds : length labels = length preds -> map pred_boxes (aux_inputs dist ALPHA labels preds) = map (boxes_from 0) preds.
Proof.
  intros H. unfold pred_boxes. rewrite <- (map_map a_preds (map (fun p => (fst p, fst (snd p))))). rewrite (aux_preds _ _ _ H), map_map. apply map_ext. intros p.
  apply separate_from.
Qed.

Lemma counts_full dist labels preds : length labels = length preds ->
  object_counts_per_image dist labels preds = (map (@length (nat * box)) labels, map (fun p => length (boxes_from 0 p)) preds).
Proof.
  intros H. unfold object_counts_per_image. f_equal.
  - rewrite <- (aux_labs dist labels preds H) at 2. rewrite map_map. reflexivity.
  - rewrite <- (map_map (boxes_from 0) (@length (nat * box))), <- (aux_boxes dist labels preds H), map_map. apply map_ext. intros a. unfold pred_boxes. rewrite map_length. reflexivity.
Qed.

(** ** stable descending sort *)
Section Sort.
Context {A : Type} (key : A -> nat).
Lemma insert_perm x l : Permutation (x :: l) (insert_desc key x l).
Proof.
  induction l as [|y t IH]; simpl; [reflexivity|]. destruct (Nat.leb _ _); [reflexivity|]. rewrite perm_swap, IH. reflexivity.
Qed.
Lemma sorted_perm l : Permutation l (sorted_desc key l).
Proof. induction l as [|x t IH]; simpl; [reflexivity|]. rewrite IH at 1. apply insert_perm. Qed.
Variable R : A -> A -> Prop.
Hypothesis R_trans : forall a b c, R a b -> R b c -> R a c.
Hypothesis R_gt : forall a b, (key b < key a)%nat -> R a b.
Lemma insert_sorted x l : StronglySorted R l -> (forall y, In y l -> (key y = key x)%nat -> R x y) -> StronglySorted R (insert_desc key x l).
Proof.
  induction 1 as [|y t S IH F]; intros H; simpl; [repeat constructor|]. destruct (Nat.leb_spec (key y) (key x)).
  - constructor; [constructor; auto|]. assert (Rxy : R x y). { destruct (Nat.eq_dec (key y) (key x)); [apply H; [left; auto|auto]|apply R_gt; lia]. }
    constructor; [exact Rxy|]. rewrite Forall_forall in *. intros z Hz. eapply R_trans; eauto.
  - constructor; [apply IH; intros; apply H; [right; auto|auto]|]. rewrite Forall_forall in *. intros z Hz. apply (Permutation_in z (Permutation_sym (insert_perm x t))) in Hz.
    destruct Hz as [<-|Hz]; auto.
Qed.
Lemma sorted_sorted l : StronglySorted (fun a b => key a = key b -> R a b) l -> StronglySorted R (sorted_desc key l).
Proof.
  induction 1 as [|x t S IH F]; simpl; [constructor|]. apply insert_sorted; [exact IH|]. intros y Hy E. rewrite Forall_forall in F. apply F; auto.
  apply (Permutation_in y (Permutation_sym (sorted_perm t))). exact Hy.
Qed.
End Sort.

Lemma enumerate_in {A} (l : list A) i a : In (i, a) (enumerate l) <-> nth_error l i = Some a.
Proof.
  unfold enumerate. assert (G : forall l n, In (i, a) (combine (seq n (length l)) l) <-> (n <= i)%nat /\ nth_error l (i - n) = Some a).
  { clear l. induction l as [|x t IH]; intros n; simpl.
    - split; [intros []|]. intros (_ & H). destruct (i - n)%nat; discriminate.
    - rewrite IH. split.
      + intros [E|(H & E)]; [injection E as <- <-; rewrite Nat.sub_diag; auto|]. split; [lia|]. replace (i - n)%nat with (S (i - S n)) by lia. exact E.
      + intros (H & E). destruct (Nat.eq_dec n i) as [->|]; [rewrite Nat.sub_diag in E; injection E as ->; auto|]. right. split; [lia|].
        replace (i - n)%nat with (S (i - S n)) in E by lia. exact E. }
  rewrite G, Nat.sub_0_r. intuition lia.
Qed.
Lemma most_first_full counts : most_first counts (sorted_desc snd (enumerate counts)).
Proof.
  split.
  - intros i n. rewrite <- enumerate_in. split; apply Permutation_in; [symmetry|]; apply sorted_perm.
  - apply sorted_sorted; [intuition lia|intuition|]. unfold enumerate.
    generalize 0%nat. induction counts as [|c t IH]; intros n; simpl; [constructor|]. constructor; [apply IH|].
    rewrite Forall_forall. intros [i m] H. apply in_combine_l in H. apply in_seq in H. simpl. intros ->. right. lia.
Qed.

Lemma sorted_counts_full dist labels preds : length labels = length preds ->
  exists l p, get_sorted_bbox_count_idxs dist labels preds = (l, p) /\
  most_first (map (@length (nat * box)) labels) l /\ most_first (map (fun p => length (boxes_from 0 p)) preds) p.
Proof.
  intros H. unfold get_sorted_bbox_count_idxs. rewrite (counts_full _ _ _ H). do 2 eexists. split; [reflexivity|]. split; apply most_first_full.
Qed.

Lemma sizes_full dist labels preds names : length labels = length preds ->
  exists l p, bounding_box_size_distribution dist labels preds names false = (l, p) /\
    sizes_by_class names (concat labels) l /\ sizes_by_class names (concat (map (boxes_from 0) preds)) p /\
  exists l' p', bounding_box_size_distribution dist labels preds names true = (l', p') /\ Permutation l l' /\ Permutation p p' /\
    StronglySorted (fun a b => (length (snd b) <= length (snd a))%nat) l' /\ StronglySorted (fun a b => (length (snd b) <= length (snd a))%nat) p'.
Proof.
  intros H. unfold bounding_box_size_distribution. do 2 eexists. split; [reflexivity|]. split; [|split].
  - unfold get_bbox_areas. rewrite (fold_map (fun d l => fold_left _ l d) a_labs), fold_concat, (aux_labs _ _ _ H). apply areas_full.
  - unfold get_bbox_areas. rewrite (fold_map (fun d l => fold_left _ l d) pred_boxes), fold_concat, (aux_boxes _ _ _ H). apply areas_full.
  - do 2 eexists. split; [reflexivity|]. split; [apply sorted_perm|]. split; [apply sorted_perm|].
    split; apply sorted_sorted; try (intros; lia);
    match goal with |- StronglySorted _ ?l => induction l; constructor; auto; apply Forall_forall; intros; lia end.
Qed.

(** ** distribution of the classes *)
Lemma instances_ok names classes : (forall c, In c classes -> key_of names c <> None) -> forall d,
  get_class_instances names classes d = Ok (fold_left (put 0%nat (fun _ => S) (key_of names)) classes d).
Proof.
  unfold get_class_instances. induction classes as [|c t IH]; intros H d; simpl; [reflexivity|]. unfold put at 2.
  pose proof (H c (or_introl eq_refl)). destruct (key_of names c); [|congruence]. cbn [rbind]. apply IH. intros; apply H; right; auto.
Qed.
Lemma instances_raise names classes : (exists c, In c classes /\ key_of names c = None) -> forall d, get_class_instances names classes d = Raise KeyError.
Proof.
  unfold get_class_instances. intros (c & I & E). induction classes as [|a t IH]; intros d; [destruct I|]. simpl. destruct I as [->|I].
  - rewrite E. reflexivity.
  - destruct (key_of names a); [|reflexivity]. cbn [rbind]. apply IH. exact I.
Qed.
Lemma upd_total (d : list (class_key * nat)) k : nsum (map snd (dict_upd d k 0%nat S)) = S (nsum (map snd d)).
Proof. induction d as [|[a v] t IH]; simpl; [reflexivity|]. destruct (key_eqb k a); simpl; [reflexivity|]. rewrite IH. lia. Qed.
Lemma put_total names classes : (forall c, In c classes -> key_of names c <> None) -> forall d,
  nsum (map snd (fold_left (put 0%nat (fun _ => S) (key_of names)) classes d)) = (length classes + nsum (map snd d))%nat.
Proof.
  induction classes as [|c t IH]; intros H d; simpl; [reflexivity|]. rewrite IH by (intros; apply H; right; auto). unfold put.
  pose proof (H c (or_introl eq_refl)). destruct (key_of names c); [|congruence]. rewrite upd_total. lia.
Qed.
Lemma count_S {X} (sel : list X) : forall v, fold_left (fun v _ => S v) sel v = (length sel + v)%nat.
Proof. induction sel as [|a t IH]; intros v; simpl; [reflexivity|]. rewrite IH. lia. Qed.

Lemma round2_share a n : (a <= n)%nat -> (1 <= n)%nat -> let v := round2 (Qnat a / (Qnat n + EPSILON)) in
  0 <= v <= 1 /\ Qabs (v - Qnat a / Qnat n) <= (1 # 200) + (1 # 1000000).
Proof.
  intros H Hn v. unfold v, round2. set (q := Qnat a / (Qnat n + EPSILON)). pose proof (round_half_even_bound (q * 100)) as (B1 & B2).
  set (z := round_half_even (q * 100)) in *. assert (Pn : 1 <= Qnat n) by (change 1 with (Qnat 1); apply Qnat_le; exact Hn).
  assert (Pa : 0 <= Qnat a) by apply Qnat_nonneg. assert (Pan : Qnat a <= Qnat n) by (apply Qnat_le; exact H).
  unfold EPSILON in *. assert (Eq : q * (Qnat n + (1 # 1000000)) == Qnat a) by (unfold q; field; lra).
  assert (Q0 : 0 <= q). { unfold q. apply Qle_shift_div_l; lra. }
  assert (Q1 : q <= 1). { unfold q. apply Qle_shift_div_r; lra. }
  assert (Z0 : (0 <= z)%Z). { assert (- (1 # 2) <= inject_Z z) by lra. destruct (Z.le_gt_cases 0 z); auto. assert (G : inject_Z z <= inject_Z (-1)) by (rewrite <- Zle_Qle; lia).
    change (inject_Z (-1)) with (- (1)) in G. lra. }
  assert (Z1 : (z <= 100)%Z). { destruct (Z.le_gt_cases z 100); auto. assert (G : inject_Z 101 <= inject_Z z) by (rewrite <- Zle_Qle; lia). change (inject_Z 101) with 101 in G. lra. }
  assert (0 <= inject_Z z) by (change 0 with (inject_Z 0); rewrite <- Zle_Qle; exact Z0).
  assert (inject_Z z <= 100) by (change 100 with (inject_Z 100); rewrite <- Zle_Qle; exact Z1).
  assert (W : inject_Z z / 100 == inject_Z z * (1 # 100)) by (unfold Qdiv; reflexivity). split; [rewrite W; lra|].
  set (r := Qnat a / Qnat n). assert (Er : r * Qnat n == Qnat a) by (unfold r; field; lra).
  assert (D : r - q == q * (1 # 1000000) / Qnat n). { unfold r, q. field. split; lra. }
  assert (D1 : 0 <= r - q <= 1 # 1000000).
  { rewrite D. split; [apply Qle_shift_div_l; lra|]. apply Qle_shift_div_r; [lra|]. assert (q * (1 # 1000000) <= 1 # 1000000) by lra.
    assert ((1 # 1000000) * 1 <= (1 # 1000000) * Qnat n) by (apply Qmult_le_l; lra). lra. }
  rewrite W. apply Qabs_Qle_condition. lra.
Qed.

Lemma filter_le {A} (f : A -> bool) l : (length (filter f l) <= length l)%nat.
Proof. induction l as [|a t IH]; simpl; [lia|]. destruct (f a); simpl; lia. Qed.
Lemma shares_full names classes : (forall c, In c classes -> key_of names c <> None) ->
  shares names classes (normalize_by_total (fold_left (put 0%nat (fun _ => S) (key_of names)) classes [])).
Proof.
  intros H. pose proof (fold_put 0%nat (fun (_ : nat) => S) (key_of names) classes) as F. cbv zeta in F. destruct F as (N & I).
  unfold normalize_by_total. rewrite (put_total _ _ H). simpl nsum. rewrite Nat.add_0_r. set (d := fold_left _ classes []) in *. split; [|split].
  - rewrite map_map. simpl. exact N.
  - intros k v Hv. apply in_map_iff in Hv. destruct Hv as ([k' n] & E & Hv). simpl in E. injection E as -> <-. apply I in Hv. destruct Hv as (Hs & Hn).
    rewrite count_S, Nat.add_0_r in Hn. set (sel := filter _ classes) in *. exists sel. eexists. split; [apply those_filter; intros a; apply key_reported|]. split; [exact Hs|].
    split; [unfold round2; reflexivity|]. subst n. assert (length sel <= length classes)%nat by apply filter_le.
    apply round2_share; auto. destruct sel; simpl in *; [congruence|lia].
  - intros c k Hc Hk. eexists. apply in_map_iff. eexists (k, _). split; [reflexivity|]. apply I. split; [|reflexivity].
    intros E. assert (In c []); [|auto]. rewrite <- E. apply filter_In. split; [exact Hc|]. apply key_reported. exact Hk.
Qed.

Lemma loop_ok names auxs : (forall a, In a auxs -> forall c, In c (map fst (a_labs a)) \/ In c (map fst (a_preds a)) -> key_of names c <> None) -> forall d e,
  rfold (fun lp a => do lab_freq <- get_class_instances names (map fst (a_labs a)) (fst lp) ; do pred_freq <- get_class_instances names (map fst (a_preds a)) (snd lp) ; Ok (lab_freq, pred_freq)) auxs (d, e)
  = Ok (fold_left (put 0%nat (fun _ => S) (key_of names)) (concat (map (fun a => map fst (a_labs a)) auxs)) d,
        fold_left (put 0%nat (fun _ => S) (key_of names)) (concat (map (fun a => map fst (a_preds a)) auxs)) e).
Proof.
  induction auxs as [|a t IH]; intros H d e; [reflexivity|]. cbn [rfold fst snd map concat].
  rewrite (instances_ok names) by (intros c Hc; apply (H a (or_introl eq_refl)); auto). cbn [rbind].
  rewrite (instances_ok names) by (intros c Hc; apply (H a (or_introl eq_refl)); auto). cbn [rbind].
  rewrite IH by (intros b Hb; apply H; right; exact Hb). rewrite !fold_left_app. reflexivity.
Qed.
Lemma loop_raise names auxs : (exists a c, In a auxs /\ (In c (map fst (a_labs a)) \/ In c (map fst (a_preds a))) /\ key_of names c = None) -> forall de,
  rfold (fun lp a => do lab_freq <- get_class_instances names (map fst (a_labs a)) (fst lp) ; do pred_freq <- get_class_instances names (map fst (a_preds a)) (snd lp) ; Ok (lab_freq, pred_freq)) auxs de
  = Raise KeyError.
Proof.
  intros (a & c & Ha & Hc & E). induction auxs as [|b t IH]; intros de; [destruct Ha|]. cbn [rfold].
  assert (G : forall cl d, (exists d', get_class_instances names cl d = Ok d') \/ get_class_instances names cl d = Raise KeyError).
  { clear. intros cl d. unfold get_class_instances. revert d. induction cl as [|x cl IH]; intros d; simpl; [left; eauto|].
    destruct (key_of names x); cbn [rbind]; [apply IH|right; reflexivity]. }
  destruct (G (map fst (a_labs b)) (fst de)) as [(d' & Ed)|Ed].
  2:{ rewrite Ed. reflexivity. }
  destruct (G (map fst (a_preds b)) (snd de)) as [(e' & Ee)|Ee].
  2:{ rewrite Ed. cbn [rbind]. rewrite Ee. reflexivity. }
  destruct Ha as [->|Ha].
  - destruct Hc as [Hc|Hc].
    + rewrite (instances_raise names (map fst (a_labs a))) in Ed by eauto. discriminate.
    + rewrite (instances_raise names (map fst (a_preds a))) in Ee by eauto. discriminate.
  - rewrite Ed. cbn [rbind]. rewrite Ee. cbn [rbind]. apply IH. exact Ha.
Qed.
Lemma pred_classes p : map fst (separate_prediction p) = map fst (boxes_from 0 p).
Proof. unfold separate_prediction. rewrite <- separate_from, map_map. reflexivity. Qed.
Lemma concat_fst {A B} (l : list (list (A * B))) : concat (map (map fst) l) = map fst (concat l).
Proof. induction l as [|x t IH]; simpl; [reflexivity|]. rewrite map_app, IH. reflexivity. Qed.
Lemma aux_lab_classes dist labels preds : length labels = length preds ->
  concat (map (fun a => map fst (a_labs a)) (aux_inputs dist ALPHA labels preds)) = map fst (concat labels).
Proof. intros H. rewrite <- (map_map a_labs (map fst)), (aux_labs _ _ _ H). apply concat_fst. Qed.
Lemma aux_pred_classes dist labels preds : length labels = length preds ->
  concat (map (fun a => map fst (a_preds a)) (aux_inputs dist ALPHA labels preds)) = map fst (concat (map (boxes_from 0) preds)).
Proof.
  intros H. rewrite <- (map_map a_preds (map fst)), (aux_preds _ _ _ H), map_map, <- concat_fst, map_map. f_equal. apply map_ext. apply pred_classes.
Qed.
Lemma not_reported names c : key_of names c = None <-> forall k, ~ reported names c k.
Proof.
  unfold key_of, reported. destruct names as [f|].
  - destruct (f c) as [s|]; simpl; split; try discriminate; auto.
    + intros H. exfalso. apply (H (KName s)). eauto.
    + intros _ k (s & E & _). discriminate.
  - split; [discriminate|]. intros H. exfalso. apply (H (KIdx c)). reflexivity.
Qed.
Lemma distribution_full dist labels preds names : length labels = length preds ->
  ((forall c, In c (map fst (concat labels)) \/ In c (map fst (concat (map (boxes_from 0) preds))) -> exists k, reported names c k) ->
     exists l p, class_label_distribution dist labels preds names = Ok (l, p) /\
       shares names (map fst (concat labels)) l /\ shares names (map fst (concat (map (boxes_from 0) preds))) p) /\
  ((exists c, (In c (map fst (concat labels)) \/ In c (map fst (concat (map (boxes_from 0) preds)))) /\ forall k, ~ reported names c k) ->
     class_label_distribution dist labels preds names = Raise KeyError).
Proof.
  intros H. unfold class_label_distribution. split.
  - intros K. assert (K' : forall c, In c (map fst (concat labels)) \/ In c (map fst (concat (map (boxes_from 0) preds))) -> key_of names c <> None).
    { intros c Hc E. destruct (K c Hc) as (k & Hk). apply (proj1 (not_reported names c) E k Hk). }
    rewrite loop_ok.
    + cbn [rbind fst snd]. do 2 eexists. split; [reflexivity|]. rewrite (aux_lab_classes _ _ _ H), (aux_pred_classes _ _ _ H). split; apply shares_full; intros c Hc; apply K'; auto.
    + intros a Ha c Hc. apply K'. rewrite <- (aux_lab_classes dist labels preds H), <- (aux_pred_classes dist labels preds H).
      destruct Hc as [Hc|Hc]; [left|right]; apply in_concat; eexists; (split; [|exact Hc]); apply in_map_iff; eauto.
  - intros (c & Hc & Hk). rewrite loop_raise; [reflexivity|]. rewrite <- (aux_lab_classes dist labels preds H), <- (aux_pred_classes dist labels preds H) in Hc.
    destruct Hc as [Hc|Hc]; apply in_concat in Hc; destruct Hc as (x & Hx & Hc); apply in_map_iff in Hx; destruct Hx as (a & <- & Ha); exists a, c;
      (split; [exact Ha|]; split; [auto|]; apply not_reported; exact Hk).
Qed.
