(** * Proofs about the CNN wrapper (C125, C126) *)
From Coq Require Import String QArith List ZArith Bool Arith Lia Permutation.
From Verif Require Import SpecCount Base BaseFacts ModelPool ProofPool ModelCnn SpecCnn.
Import ListNotations.
Open Scope list_scope.

Lemma nth_error_ext {A} (l m : list A) : (forall k, nth_error l k = nth_error m k) -> l = m.
Proof.
  revert m; induction l as [|a l IH]; intros [|b m] H; auto; try (specialize (H 0%nat); discriminate).
  f_equal; [specialize (H 0%nat); simpl in H; congruence|]. apply IH. intros k. apply (H (S k)).
Qed.
Lemma rmap_get {A} (l : list A) idx r : rmap (get l) idx = Ok r ->
  length r = length idx /\ forall k i, nth_error idx k = Some i -> nth_error r k = nth_error l i.
Proof.
  revert r; induction idx as [|i idx IH]; cbn [rmap]; intros r H.
  - injection H as <-. split; [reflexivity|]. intros [|k] i; discriminate.
  - unfold get at 1 in H. destruct (nth_error l i) as [a|] eqn:E; cbn [rbind] in H; [|discriminate].
    destruct (rmap (get l) idx) as [bs|]; cbn [rbind] in H; [|discriminate]. injection H as <-.
    destruct (IH _ eq_refl) as [L N]. split; [simpl; auto|]. intros [|k] j; simpl; intros G; [injection G as <-; auto|auto].
Qed.
Lemma rmap_get_ok {A} (l : list A) idx : (forall i, In i idx -> (i < length l)%nat) -> exists r, rmap (get l) idx = Ok r.
Proof.
  induction idx as [|i idx IH]; intros H; cbn [rmap]; [eauto|].
  unfold get at 1. destruct (nth_error l i) eqn:E.
  - cbn [rbind]. destruct IH as [r ->]; [intros; apply H; simpl; auto|]. cbn [rbind]. eauto.
  - apply nth_error_None in E. specialize (H i (or_introl eq_refl)). lia.
Qed.
Lemma rmap_get_out {A} (l : list A) idx : (exists i, In i idx /\ (length l <= i)%nat) -> rmap (get l) idx = Raise IndexError.
Proof.
  induction idx as [|i idx IH]; intros (j & Hj & L); [destruct Hj|]. cbn [rmap]. unfold get at 1.
  destruct (nth_error l i) eqn:E; [|reflexivity]. cbn [rbind].
  destruct Hj as [->|Hj]; [apply nth_error_None in L; congruence|]. rewrite IH by eauto. reflexivity.
Qed.
Lemma rmap_get_all {A} (l : list A) : rmap (get l) (seq 0 (length l)) = Ok l.
Proof.
  destruct (rmap_get_ok l (seq 0 (length l))) as [r Hr]; [intros i Hi; apply in_seq in Hi; lia|].
  rewrite Hr. f_equal. apply rmap_get in Hr as [L N]. rewrite seq_length in L.
  apply nth_error_ext. intros k. destruct (Nat.lt_ge_cases k (length l)) as [Hk|Hk].
  - apply N. rewrite nth_error_nth' with (d := 0%nat) by (rewrite seq_length; auto). now rewrite seq_nth.
  - rewrite !(proj2 (nth_error_None _ _)) by lia. reflexivity.
Qed.

Lemma chunks_nil_iff {A} c (l : list A) : chunks c l = [] <-> l = [].
Proof. unfold chunks. destruct l; simpl; split; congruence. Qed.
Lemma map_concat {A B} (f : A -> B) (l : list (list A)) : concat (map (map f) l) = map f (concat l).
Proof. now rewrite concat_map. Qed.

Section Cnn.
Context {X W : Type}.
Variable forward : W -> X -> list Q.
Variable step : option (list Q) -> list (X * Z) -> W -> W.
Let predict_proba := @predict_proba X W forward.

Lemma predict_unfold d o idx loader l ds : in_use o loader = Some l -> get_dataset d l = Ok ds ->
  (1 <= batch_size o)%nat -> (1 <= test_batch_size o)%nat ->
  predict_proba d o idx loader =
  do dataset <- match idx with None => Ok ds | Some idx => if Nat.eqb (length idx) (length ds) then Ok ds else rmap (get ds) idx end ;
  match dataset with [] => Raise OtherError | _ => Ok (map (fun xy => forward (weights o) (fst xy)) dataset) end.
Proof.
  intros U G B T. unfold predict_proba, ModelCnn.predict_proba. fold (in_use o loader). rewrite U, G. cbn [rbind].
  destruct (match idx with None => Ok ds | Some _ => _ end) as [dd|]; cbn [rbind]; [|reflexivity].
  set (bs := if String.eqb l "train" then _ else _).
  assert (Hb : (1 <= bs)%nat) by (unfold bs; destruct (String.eqb l "train"); auto).
  destruct (Nat.eqb_spec bs 0); [lia|].
  destruct dd as [|x dd]; [reflexivity|].
  destruct (map _ (chunks bs (x :: dd))) eqn:E.
  - apply map_eq_nil in E. apply chunks_nil_iff in E. discriminate.
  - rewrite <- E, map_concat, chunks_concat; auto.
Qed.

Lemma predict_rows d o idx loader l ds : in_use o loader = Some l -> get_dataset d l = Ok ds ->
  (1 <= batch_size o)%nat -> (1 <= test_batch_size o)%nat ->
  idx <> [] -> (forall i, In i idx -> (i < length ds)%nat) -> (length idx <> length ds \/ idx = seq 0 (length ds)) ->
  exists p, predict_proba d o (Some idx) loader = Ok p /\ length p = length idx /\
    forall r i xy, nth_error idx r = Some i -> nth_error ds i = Some xy -> nth_error p r = Some (forward (weights o) (fst xy)).
Proof.
  intros U G B T NE R C. rewrite (predict_unfold d o (Some idx) loader l ds) by auto.
  assert (exists rows, (if Nat.eqb (length idx) (length ds) then Ok ds else rmap (get ds) idx) = Ok rows /\ rmap (get ds) idx = Ok rows) as (rows & -> & E).
  { destruct C as [C| ->].
    - destruct (Nat.eqb_spec (length idx) (length ds)); [contradiction|]. destruct (rmap_get_ok ds idx R) as [r ->]; eauto.
    - rewrite seq_length, Nat.eqb_refl. rewrite rmap_get_all. eauto. }
  cbn [rbind]. apply rmap_get in E as [L N].
  destruct rows as [|x rows]; [destruct idx; [congruence|discriminate]|].
  eexists. split; [reflexivity|]. split; [rewrite map_length; auto|].
  intros r i xy Hr Hi. rewrite nth_error_map, (N r i Hr), Hi. reflexivity.
Qed.
Lemma predict_all d o loader l ds : in_use o loader = Some l -> get_dataset d l = Ok ds ->
  (1 <= batch_size o)%nat -> (1 <= test_batch_size o)%nat -> ds <> [] ->
  predict_proba d o None loader = Ok (map (fun xy => forward (weights o) (fst xy)) ds).
Proof. intros U G B T NE. rewrite (predict_unfold d o None loader l ds) by auto. cbn [rbind]. destruct ds; [congruence|reflexivity]. Qed.
Lemma predict_rejects d o idx loader l ds : in_use o loader = Some l -> get_dataset d l = Ok ds ->
  (1 <= batch_size o)%nat -> (1 <= test_batch_size o)%nat ->
  (idx = [] -> ds <> [] -> predict_proba d o (Some idx) loader = Raise OtherError) /\
  ((exists i, In i idx /\ (length ds <= i)%nat) -> length idx <> length ds -> predict_proba d o (Some idx) loader = Raise IndexError).
Proof.
  intros U G B T. rewrite (predict_unfold d o (Some idx) loader l ds) by auto. split.
  - intros -> NE. destruct ds; [congruence|]. reflexivity.
  - intros H L. destruct (Nat.eqb_spec (length idx) (length ds)); [contradiction|]. rewrite rmap_get_out by auto. reflexivity.
Qed.
Lemma forallb_seq idx : forall a, forallb (fun ij => Nat.eqb (fst ij) (snd ij)) (combine idx (seq a (length idx))) = true <-> idx = seq a (length idx).
Proof.
  induction idx as [|i idx IH]; intros a; simpl; [split; auto|].
  rewrite andb_true_iff, IH, Nat.eqb_eq. split; [intros [-> E]; f_equal; auto|]. intros H. injection H. intros E ->. auto.
Qed.
Lemma predict_guess d o idx : loader_of o = None ->
  predict_proba d o None None = predict_proba d o None (Some "train"%string) /\
  (idx = seq 0 (length (i_test d)) -> predict_proba d o (Some idx) None = predict_proba d o (Some idx) (Some "test"%string)) /\
  (idx <> seq 0 (length (i_test d)) -> predict_proba d o (Some idx) None = predict_proba d o (Some idx) (Some "train"%string)).
Proof.
  intros N. unfold predict_proba, ModelCnn.predict_proba. rewrite N. split; [reflexivity|]. split.
  - intros ->. unfold guess_loader. rewrite seq_length, Nat.eqb_refl.
    pose proof (proj2 (forallb_seq (seq 0 (length (i_test d))) 0)) as H. rewrite seq_length in H. rewrite H; auto.
  - intros D. unfold guess_loader. destruct (Nat.eqb_spec (length idx) (length (i_test d))) as [E|E]; [|reflexivity].
    destruct (forallb _ _) eqn:F; [|reflexivity]. exfalso. rewrite <- E in F. apply forallb_seq in F. congruence.
Qed.
Lemma predict_batches d o o' idx loader : loader_of o' = loader_of o -> weights o' = weights o ->
  (1 <= batch_size o)%nat -> (1 <= test_batch_size o)%nat -> (1 <= batch_size o')%nat -> (1 <= test_batch_size o')%nat ->
  predict_proba d o' idx loader = predict_proba d o idx loader.
Proof.
  intros E1 E2 A B C D. 
  assert (G : forall o, predict_proba d o idx loader = predict_proba d o idx (Some (match in_use o loader with Some l => l | None => guess_loader d idx end))).
  { intros u. unfold predict_proba, ModelCnn.predict_proba, in_use. destruct (loader_of u); reflexivity. }
  rewrite (G o), (G o'). set (l := match in_use o loader with Some l => l | None => _ end).
  replace (match in_use o' loader with Some l => l | None => _ end) with l by (unfold l, in_use; rewrite E1; reflexivity).
  assert (U : forall u : @cnn W, loader_of u = loader_of o -> in_use u (Some l) = Some l).
  { intros u Hu. unfold in_use. rewrite Hu. unfold l, in_use. destruct (loader_of o); reflexivity. }
  destruct (get_dataset d l) as [ds|e] eqn:Gd.
  - rewrite (predict_unfold d o idx (Some l) l ds), (predict_unfold d o' idx (Some l) l ds), E2 by auto. reflexivity.
  - unfold predict_proba, ModelCnn.predict_proba. fold (in_use o (Some l)) (in_use o' (Some l)). rewrite !U by auto. rewrite Gd. reflexivity.
Qed.

(** ** fit *)
Lemma chunks_aux_sizes {A} c : (1 <= c)%nat -> forall n (l : list A), (length l <= n)%nat ->
  forall pre b post, chunks_aux n c l = pre ++ b :: post -> b <> [] /\ (length b <= c)%nat /\ (post <> [] -> length b = c).
Proof.
  intros Hc. induction n; intros l Hl pre b post H.
  - destruct pre; discriminate.
  - cbn [chunks_aux] in H. destruct l as [|x l]; [destruct pre; discriminate|].
    set (ll := x :: l) in *. destruct pre as [|p pre].
    + injection H as Hb Hp. subst b post. split; [destruct c; [lia|discriminate]|].
      split; [rewrite firstn_length; lia|]. intros NE. rewrite firstn_length.
      destruct (Nat.lt_ge_cases c (length ll)) as [L|L]; [lia|]. exfalso. apply NE. rewrite skipn_all2 by lia. destruct n; reflexivity.
    + injection H as _ H. apply IHn in H; auto. rewrite skipn_length. lia.
Qed.

Lemma write_spec {A} (ups : list (nat * A)) : forall l r, write l ups = Ok r -> length r = length l /\
  (NoDup (map fst ups) -> forall i v, In (i, v) ups -> nth_error r i = Some v) /\
  (forall i, ~ In i (map fst ups) -> nth_error r i = nth_error l i).
Proof.
  assert (UP : forall (l : list A) i v k, nth_error (upd l i v) k = if Nat.eqb k i then (if Nat.ltb i (length l) then Some v else None) else nth_error l k).
  { induction l as [|a l IH]; intros [|i] v [|k]; simpl; auto; try (now destruct (Nat.eqb k i)). apply IH. }
  assert (UL : forall (l : list A) i v, length (upd l i v) = length l).
  { induction l; intros [|i] v; simpl; auto. }
  induction ups as [|[i v] ups IH]; intros l r H; cbn [write] in H.
  - injection H as <-. repeat split; auto. intros _ i v [].
  - destruct (Nat.ltb_spec i (length l)) as [L|L]; [|discriminate].
    apply IH in H as (HL & HN & HO). rewrite UL in HL. split; [auto|]. split.
    + intros ND j w [E|Hj]; inversion ND as [|? ? Hn ND']; subst.
      * injection E as <- <-. rewrite HO by auto. rewrite UP, Nat.eqb_refl. destruct (Nat.ltb_spec i (length l)); [auto|lia].
      * auto.
    + intros j Hj. rewrite HO by (intros C; apply Hj; simpl; auto). rewrite UP. destruct (Nat.eqb_spec j i); [|auto].
      subst. exfalso. apply Hj. simpl. auto.
Qed.
Lemma write_ok {A} (ups : list (nat * A)) : forall l, (forall i, In i (map fst ups) -> (i < length l)%nat) -> exists r, write l ups = Ok r.
Proof.
  assert (UL : forall (l : list A) i v, length (upd l i v) = length l).
  { induction l; intros [|i] v; simpl; auto. }
  induction ups as [|[i v] ups IH]; intros l H; cbn [write]; [eauto|].
  destruct (Nat.ltb_spec i (length l)) as [L|L]; [|specialize (H i (or_introl eq_refl)); lia].
  apply IH. intros j Hj. rewrite UL. apply H. simpl. auto.
Qed.

Lemma run_batches K cw bs : (forall w, cw = Some w -> length w = K) -> forall s,
  run_all (run_batch step K cw) bs s = Ok (fold_left (fun w b => step cw b w) bs (fst s), snd s ++ bs).
Proof.
  intros Hc. induction bs as [|b bs IH]; intros [w l]; cbn [run_all fold_left fst snd].
  - now rewrite app_nil_r.
  - unfold run_batch at 1. cbn [fst snd].
    assert (E : (match cw with Some w0 => if Nat.eqb (length w0) K then Ok (step cw b w, l ++ [b]) else Raise OtherError | None => Ok (step cw b w, l ++ [b]) end)
            = Ok (step cw b w, l ++ [b])).
    { destruct cw as [c|]; [|reflexivity]. rewrite (Hc c eq_refl), Nat.eqb_refl. reflexivity. }
    rewrite E. cbn [rbind]. rewrite IH. cbn [fst snd]. rewrite <- app_assoc. reflexivity.
Qed.
Lemma run_batches_inv K cw bs s r : run_all (run_batch step K cw) bs s = Ok r -> bs <> [] -> forall w, cw = Some w -> length w = K.
Proof.
  intros H NE w ->. destruct bs as [|b bs]; [congruence|]. cbn [run_all] in H. unfold run_batch at 1 in H.
  destruct (Nat.eqb_spec (length w) K); [auto|]. discriminate.
Qed.

Lemma run_all_epochs {S} (f : nat -> S -> res (S * list (list (X * Z)))) es : forall s l r,
  run_all (fun e s => do t <- f e (fst s) ; Ok (fst t, snd s ++ [snd t])) es (s, l) = Ok r ->
  exists logs, snd r = l ++ logs /\ length logs = length es /\
    forall k e, nth_error es k = Some e -> exists s1 s2 log, nth_error logs k = Some log /\ f e s1 = Ok (s2, log).
Proof.
  induction es as [|e es IH]; intros s l r H; cbn [run_all] in H.
  - injection H as <-. exists []. rewrite app_nil_r. repeat split; auto. intros [|k] e; discriminate.
  - cbn [fst snd] in H. destruct (f e s) as [[s2 log]|] eqn:F; cbn [rbind] in H; [|discriminate]. cbn [fst snd] in H.
    apply IH in H as (logs & E & L & N). exists (log :: logs). rewrite E, <- app_assoc. simpl. repeat split; auto.
    intros [|k] e' G; simpl in *; [injection G as <-; eauto|eauto].
Qed.

Lemma nth_error_combine {A B} (l : list A) : forall (m : list B) k, nth_error (combine l m) k =
  match nth_error l k, nth_error m k with Some a, Some b => Some (a, b) | _, _ => None end.
Proof. induction l as [|a l IH]; intros [|b m] [|k]; simpl; auto. now destruct (nth_error l k). Qed.

(** the rows drawn in one epoch are the rows of [train_idx], in another order *)
Lemma epoch_rows (ds : list (X * Z)) idx order sel rows all : rmap (get idx) order = Ok sel -> rmap (get ds) sel = Ok rows ->
  Permutation order (seq 0 (length idx)) -> rmap (get ds) idx = Ok all -> Permutation rows all.
Proof.
  intros H1 H2 P H3. apply rmap_get in H1 as [L1 N1]. apply rmap_get in H2 as [L2 N2]. apply rmap_get in H3 as [L3 N3].
  destruct all as [|d0 all'].
  - destruct idx; [|discriminate]. simpl in P. apply Permutation_sym, Permutation_nil in P. subst. destruct sel; [|discriminate]. destruct rows; [auto|discriminate].
  - remember (d0 :: all') as all eqn:Eall.
    assert (E : rows = map (fun k => nth k all d0) order).
    { apply nth_error_ext. intros k. rewrite nth_error_map.
      destruct (nth_error order k) as [j|] eqn:Ej; simpl.
      - assert (Hj : (j < length idx)%nat). { apply nth_error_In in Ej. apply (Permutation_in _ P) in Ej. apply in_seq in Ej. lia. }
        pose proof (N1 k j Ej) as S1. destruct (nth_error idx j) as [i|] eqn:Ei; [|apply nth_error_None in Ei; lia].
        rewrite (N2 k i S1), <- (N3 j i Ei). apply nth_error_nth'. lia.
      - apply nth_error_None in Ej. apply nth_error_None. lia. }
    rewrite E. rewrite (Permutation_map (fun k => nth k all d0) P).
    replace (map (fun k => nth k all d0) (seq 0 (length idx))) with all; [auto|].
    apply nth_error_ext. intros k. rewrite nth_error_map. destruct (Nat.lt_ge_cases k (length all)) as [Hk|Hk].
    + rewrite (nth_error_nth' (seq 0 (length idx)) 0%nat) by (rewrite seq_length; lia). rewrite seq_nth by lia. simpl. now apply nth_error_nth'.
    + rewrite !(proj2 (nth_error_None _ _)); [reflexivity|rewrite seq_length; lia|lia].
Qed.

(** what [fit] must have done when it returns *)
Let fit := @fit X W step.
Definition weights_used (labels : option (list Z)) (sw : option (list Q)) (cw : option (list Q)) : Prop :=
  match sw, labels with
  | None, _ => cw = None
  | Some w, Some l => length w = length l /\ exists c, class_weights l w = Ok c /\ cw = Some c
  | _, _ => False
  end.
Lemma fit_inv K orders d o idx labels sw loader o' log : fit K orders d o idx labels sw loader = Ok (o', log) ->
  exists ds ds' cw, get_dataset d (dataset_of o loader) = Ok ds /\ (1 <= batch_size o)%nat /\ weights_used labels sw cw /\
    (forall l, labels = Some l -> length idx = length l /\ exists targets, write (repeat (-1)%Z (length ds)) (combine idx l) = Ok targets /\ ds' = combine (map fst ds) targets) /\
    (labels = None -> ds' = ds) /\
    length log = epochs o /\ loader_of o' = loader_of o /\
    forall e batches, nth_error log e = Some batches -> exists sel rows,
      rmap (get idx) (orders (S e)) = Ok sel /\ rmap (get ds') sel = Ok rows /\ batches = chunks (batch_size o) rows /\
      (batches <> [] -> forall w, cw = Some w -> length w = K).
Proof.
  intros H. unfold fit, ModelCnn.fit in H. fold (dataset_of o loader) in H.
  destruct (match labels with Some l => if Nat.eqb (length idx) (length l) then Ok tt else Raise ValueError | None => Ok tt end) as [u|] eqn:E1; cbn [rbind] in H; [|discriminate].
  destruct (match sw, labels with None, _ => Ok None | _, _ => _ end) as [cw|] eqn:E2; cbn [rbind] in H; [|discriminate].
  destruct (get_dataset d (dataset_of o loader)) as [ds|] eqn:E3; cbn [rbind] in H; [|discriminate].
  assert (Eds : (if String.eqb (dataset_of o loader) "train" then i_train d else i_test d) = ds).
  { unfold get_dataset in E3. destruct (String.eqb _ "train"); [congruence|]. destruct (String.eqb _ "test"); congruence. }
  rewrite Eds in H.
  destruct (match labels with None => Ok ds | Some l => _ end) as [ds'|] eqn:E4; cbn [rbind] in H; [|discriminate].
  destruct (Nat.eqb_spec (batch_size o) 0) as [|B]; [discriminate|].
  match type of H with rbind ?e _ = _ => destruct e as [r|] eqn:E5 end; cbn [rbind] in H; [|discriminate].
  injection H as <- <-.
  exists ds, ds', cw. split; [reflexivity|]. split; [lia|]. split.
  { unfold weights_used. destruct sw as [w|]; [|congruence]. destruct labels as [l|]; [|discriminate].
    destruct (Nat.eqb_spec (length w) (length l)); [|discriminate]. destruct (class_weights l w) as [c|]; cbn [rbind] in E2; [|discriminate].
    split; [auto|]. exists c. split; [auto|congruence]. }
  split.
  { intros l ->. destruct (Nat.eqb_spec (length idx) (length l)); [|discriminate]. split; [auto|].
    destruct (write _ _) as [t|]; cbn [rbind] in E4; [|discriminate]. exists t. split; [auto|congruence]. }
  split; [intros ->; congruence|].
  apply (run_all_epochs (fun e w => epoch step K (batch_size o) cw ds' idx (orders e) (w, []))) in E5 as (logs & E & L & N).
  simpl in E. rewrite E. rewrite seq_length in L. split; [auto|]. split; [reflexivity|].
  intros e batches He. assert (Hlt : (e < epochs o)%nat) by (rewrite <- L; apply nth_error_Some; congruence).
  destruct (N e (S e)) as (s1 & s2 & lg & G & F).
  { rewrite (nth_error_nth' (seq 1 (epochs o)) 0%nat) by (rewrite seq_length; auto). rewrite seq_nth; auto. }
  rewrite He in G. injection G as <-. unfold epoch in F.
  destruct (rmap (get idx) (orders (S e))) as [sel|] eqn:R1; cbn [rbind] in F; [|discriminate].
  destruct (rmap (get ds') sel) as [rows|] eqn:R2; cbn [rbind] in F; [|discriminate].
  exists sel, rows. split; [auto|]. split; [auto|].
  assert (C : chunks (batch_size o) rows <> [] -> forall w, cw = Some w -> length w = K).
  { intros NE. eapply run_batches_inv; eauto. }
  destruct (chunks (batch_size o) rows) as [|b0 bs] eqn:EC.
  - cbn [run_all] in F. injection F as _ <-. split; [reflexivity|]. congruence.
  - rewrite run_batches in F by (apply C; discriminate). injection F as _ Fb. simpl in Fb. subst batches. auto.
Qed.

(** the examples trained on in every epoch *)
Lemma fit_epochs K orders d o idx labels sw loader o' log : fit K orders d o idx labels sw loader = Ok (o', log) ->
  (forall e, Permutation (orders e) (seq 0 (length idx))) ->
  exists ds, get_dataset d (dataset_of o loader) = Ok ds /\ length log = epochs o /\
    forall e batches, nth_error log e = Some batches ->
      (forall pre b post, batches = pre ++ b :: post -> b <> [] /\ (length b <= batch_size o)%nat /\ (post <> [] -> length b = batch_size o)) /\
      exists examples, length examples = length idx /\ Permutation (concat batches) examples /\
        forall k i, nth_error idx k = Some i -> exists x y, nth_error examples k = Some (x, y) /\
          (exists y0, nth_error ds i = Some (x, y0) /\ (labels = None -> y = y0)) /\
          (NoDup idx -> forall l, labels = Some l -> nth_error l k = Some y).
Proof.
  intros H P. apply fit_inv in H as (ds & ds' & cw & G & B & _ & HL & HN & L & _ & N).
  exists ds. split; [auto|]. split; [auto|]. intros e batches He. destruct (N e batches He) as (sel & rows & R1 & R2 & -> & _).
  split.
  { intros pre b post E. unfold chunks in E. eapply chunks_aux_sizes in E; eauto. }
  assert (A : exists all, rmap (get ds') idx = Ok all).
  { apply rmap_get_ok. intros i Hi. apply rmap_get in R1 as [L1 N1]. apply rmap_get in R2 as [L2 N2].
    apply In_nth_error in Hi as [k Hk].
    assert (Hk' : In k (orders (S e))). { apply (Permutation_in _ (Permutation_sym (P (S e)))). apply in_seq. split; [lia|]. simpl. apply nth_error_Some. congruence. }
    apply In_nth_error in Hk' as [r Hr]. pose proof (N1 r k Hr) as S1. rewrite Hk in S1. pose proof (N2 r i S1) as S2.
    apply nth_error_Some. rewrite <- S2. apply nth_error_Some. rewrite L2. apply nth_error_Some. congruence. }
  destruct A as [all A]. exists all. pose proof (epoch_rows ds' idx (orders (S e)) sel rows all R1 R2 (P (S e)) A) as PP.
  apply rmap_get in A as [LA NA]. split; [auto|]. split; [rewrite chunks_concat; auto|].
  intros k i Hk. specialize (NA k i Hk).
  assert (LT : (k < length all)%nat). { rewrite LA. apply nth_error_Some. congruence. }
  destruct (nth_error all k) as [[x y]|] eqn:E; [|apply nth_error_None in E; lia]. exists x, y. split; [reflexivity|].
  destruct labels as [l|].
  - destruct (HL l eq_refl) as (Li & targets & Wr & ->). rewrite nth_error_combine, nth_error_map in NA.
    destruct (nth_error ds i) as [[x0 y0]|] eqn:Ed; simpl in NA; [|discriminate].
    destruct (nth_error targets i) as [t|] eqn:Et; [|discriminate]. injection NA as <- <-. split.
    + exists y0. split; [auto|discriminate].
    + intros ND l' El. injection El as <-. apply write_spec in Wr as (_ & Wn & _).
      assert (Lk : (k < length l)%nat) by (rewrite <- Li; apply nth_error_Some; congruence).
      destruct (nth_error l k) as [v|] eqn:Ev; [|apply nth_error_None in Ev; lia].
      assert (Hin : In (i, v) (combine idx l)). { apply nth_error_In with (n := k). rewrite nth_error_combine, Hk, Ev. reflexivity. }
      rewrite <- Et, <- (Wn) with (i := i) (v := v); auto.
      assert (FST : map fst (combine idx l) = idx). { clear -Li. revert l Li. induction idx; intros [|b l]; simpl; intros; try discriminate; f_equal; auto. }
      rewrite FST. auto.
  - rewrite (HN eq_refl) in NA. split; [exists y; split; auto|]. intros _ l' C; discriminate.
Qed.

(** ** Class weights *)
Lemma insert_in a m z : In z (insert_z a m) <-> a = z \/ In z m.
Proof.
  induction m as [|b m IHm]; simpl; [tauto|].
  destruct (Z.ltb_spec a b); [simpl; tauto|]. destruct (Z.eqb_spec b a); simpl; [subst; tauto|]. rewrite IHm. tauto.
Qed.
Lemma unique_z_in l z : In z (unique_z l) <-> In z l.
Proof. induction l as [|a l IH]; simpl; [tauto|]. rewrite <- IH. apply insert_in. Qed.
Definition ascending (l : list Z) : Prop := forall i j x y, (i < j)%nat -> nth_error l i = Some x -> nth_error l j = Some y -> (x < y)%Z.
Fixpoint asc (l : list Z) : Prop := match l with [] => True | a :: t => (forall b, In b t -> (a < b)%Z) /\ asc t end.
Lemma insert_asc a m : asc m -> asc (insert_z a m).
Proof.
  induction m as [|b m IH]; simpl; [tauto|]. intros [H1 H2].
  destruct (Z.ltb_spec a b); simpl.
  - repeat split; auto. intros c [<-|Hc]; auto. specialize (H1 c Hc). lia.
  - destruct (Z.eqb_spec b a); simpl; [auto|]. split; [|auto]. intros c Hc.
    assert (Hc' : c = a \/ In c m). { destruct (proj1 (insert_in a m c) Hc); auto. }
    destruct Hc' as [->|Hc']; [lia|auto].
Qed.
Lemma unique_asc l : asc (unique_z l).
Proof. induction l; simpl; [auto|]. now apply insert_asc. Qed.
(** an ascending list inside 0..K-1 of length K is 0..K-1 *)
Lemma asc_bound l : forall lo K, asc l -> (forall z, In z l -> (lo <= z < K)%Z) -> (Z.of_nat (length l) <= Z.max 0 (K - lo))%Z /\
  ((Z.of_nat (length l) = K - lo)%Z -> forall k, (k < length l)%nat -> nth_error l k = Some (lo + Z.of_nat k)%Z).
Proof.
  induction l as [|a l IH]; intros lo K A B; [simpl; split; [lia|intros _ k Hk; lia]|].
  destruct A as [A1 A2]. assert (Ba := B a (or_introl eq_refl)).
  destruct (IH (a + 1)%Z K A2) as [L N].
  { intros z Hz. specialize (A1 z Hz). specialize (B z (or_intror Hz)). lia. }
  cbn [length]. rewrite Nat2Z.inj_succ. split; [lia|]. intros E [|k] Hk; simpl.
  - f_equal. lia.
  - rewrite N by lia. f_equal. lia.
Qed.
Lemma first_index_spec z l : In z l -> nth_error l (first_index z l) = Some z /\ forall k, nth_error l k = Some z -> (first_index z l <= k)%nat.
Proof.
  induction l as [|a l IH]; intros H; [destruct H|]. cbn [first_index]. destruct (Z.eqb_spec a z) as [->|D].
  - split; [reflexivity|]. intros; lia.
  - destruct H as [H|H]; [congruence|]. destruct (IH H) as [H1 H2]. split; [auto|]. intros [|k] G; simpl in G; [congruence|]. specialize (H2 k G). lia.
Qed.

Lemma fit_weights K orders d o idx l w loader o' log : fit K orders d o idx (Some l) (Some w) loader = Ok (o', log) ->
  (forall e, Permutation (orders e) (seq 0 (length idx))) -> (1 <= epochs o)%nat -> idx <> [] ->
  (forall z, In z l -> (0 <= z < Z.of_nat K)%Z) ->
  (forall c, (c < K)%nat -> In (Z.of_nat c) l) /\
  exists cw, class_weights l w = Ok cw /\ length cw = K /\
    forall c, (c < K)%nat -> exists k, nth_error l k = Some (Z.of_nat c) /\ (forall k', nth_error l k' = Some (Z.of_nat c) -> (k <= k')%nat) /\ nth_error cw c = nth_error w k.
Proof.
  intros H P Ep NE Rng. apply fit_inv in H as (ds & ds' & cw & G & B & WU & HL & _ & L & _ & N).
  simpl in WU. destruct WU as (Lw & c & C & ->).
  destruct log as [|batches log]; [simpl in L; lia|]. destruct (N 0%nat batches eq_refl) as (sel & rows & R1 & R2 & -> & Hc).
  assert (Lc : length c = K).
  { apply Hc; [|reflexivity]. rewrite chunks_nil_iff. intros ->. apply rmap_get in R2 as [L2 _]. apply rmap_get in R1 as [L1 _].
    specialize (P 1%nat). apply Permutation_length in P. rewrite seq_length in P. destruct idx; [congruence|]. simpl in *. lia. }
  pose proof C as C0. unfold class_weights in C. apply rmap_get in C as [LC NC]. rewrite map_length in LC.
  destruct (asc_bound (unique_z l) 0 (Z.of_nat K) (unique_asc l)) as [_ A].
  { intros z Hz. apply -> unique_z_in in Hz. apply Rng in Hz. lia. }
  assert (A' : forall k, (k < K)%nat -> nth_error (unique_z l) k = Some (Z.of_nat k)).
  { intros k Hk. rewrite A by lia. f_equal. }
  split; [intros k Hk; apply unique_z_in; apply nth_error_In with (n := k); auto|].
  exists c. split; [exact C0|].
  split; [auto|]. intros k Hk. exists (first_index (Z.of_nat k) l).
  assert (Hin : In (Z.of_nat k) l). { apply unique_z_in. apply nth_error_In with (n := k); auto. }
  destruct (first_index_spec _ _ Hin) as [F1 F2]. split; [auto|]. split; [auto|].
  apply NC. rewrite nth_error_map, A'; auto.
Qed.

(** the loss of a batch weighs every example with its own weight when the weights depend on the labels only *)
Lemma qsum_map_ext {A} (f g : A -> Q) l : (forall a, In a l -> f a == g a) -> (qsum (map f l) == qsum (map g l))%Q.
Proof.
  intros H. induction l as [|a l IH]; [reflexivity|]. simpl map. rewrite !qsum_cons. rewrite IH by (intros; apply H; simpl; auto).
  rewrite (H a) by (simpl; auto). reflexivity.
Qed.
Lemma loss_own_weights K l w cw (outputs : list (list Q)) targets own :
  class_weights l w = Ok cw -> length w = length l -> (forall z, In z l -> (0 <= z < Z.of_nat K)%Z) -> length cw = K ->
  (forall i j a b z, nth_error l i = Some z -> nth_error l j = Some z -> nth_error w i = Some a -> nth_error w j = Some b -> a = b) ->
  length outputs = length targets -> length own = length targets ->
  (forall r t, nth_error targets r = Some t -> exists k, nth_error l k = Some (Z.of_nat t) /\ nth_error w k = nth_error own r) ->
  (nll_loss (Some cw) outputs targets == qsum (map (fun r => nth r own 0 * - nth (nth r targets 0%nat) (nth r outputs []) 0) (seq 0 (length targets))) / qsum own)%Q.
Proof.
  intros C Lw Rng Lc Same Lo Lown T. unfold class_weights in C. apply rmap_get in C as [LC NC]. rewrite map_length in LC.
  destruct (asc_bound (unique_z l) 0 (Z.of_nat K) (unique_asc l)) as [_ A].
  { intros z Hz. apply -> unique_z_in in Hz. apply Rng in Hz. lia. }
  assert (A' : forall k, (k < K)%nat -> nth_error (unique_z l) k = Some (Z.of_nat k)).
  { intros k Hk. rewrite A by lia. f_equal. }
  assert (E : forall r, (r < length targets)%nat -> nth (nth r targets 0%nat) cw 0%Q = nth r own 0%Q).
  { intros r Hr. pose proof (nth_error_nth' targets 0%nat Hr) as Ht. set (t := nth r targets 0%nat) in *.
    destruct (T r t Ht) as (k & Hk & Hw). assert (Hin : In (Z.of_nat t) l) by (eapply nth_error_In; eauto).
    assert (Htk : (t < K)%nat) by (apply Rng in Hin; lia).
    destruct (first_index_spec _ _ Hin) as [F1 _].
    assert (Hc : nth_error cw t = nth_error w (first_index (Z.of_nat t) l)).
    { apply NC. rewrite nth_error_map, A'; auto. }
    assert (Lk : (k < length w)%nat) by (rewrite Lw; apply nth_error_Some; congruence).
    assert (Lf : (first_index (Z.of_nat t) l < length w)%nat) by (rewrite Lw; apply nth_error_Some; congruence).
    pose proof (nth_error_nth' w 0%Q Lk) as W1. pose proof (nth_error_nth' w 0%Q Lf) as W2.
    pose proof (Same _ _ _ _ _ F1 Hk W2 W1) as S. rewrite W1 in Hw. rewrite W2 in Hc.
    rewrite (nth_error_nth _ _ _ Hc), S. symmetry. apply nth_error_nth. auto. }
  unfold nll_loss.
  assert (E1 : qsum (map (fun t => nth t cw 0) targets) = qsum own).
  { f_equal. apply nth_error_ext. intros r. rewrite nth_error_map. destruct (Nat.lt_ge_cases r (length targets)) as [Hr|Hr].
    - rewrite (nth_error_nth' targets 0%nat Hr). simpl. rewrite E by auto. symmetry. apply nth_error_nth'. lia.
    - rewrite !(proj2 (nth_error_None _ _)) by lia. reflexivity. }
  rewrite E1.
  assert (E2 : map (fun ot : list Q * nat => nth (snd ot) cw 0 * - nth (snd ot) (fst ot) 0) (combine outputs targets) =
    map (fun r => nth r own 0 * - nth (nth r targets 0%nat) (nth r outputs []) 0) (seq 0 (length targets))).
  { apply nth_error_ext. intros r. rewrite !nth_error_map, nth_error_combine. destruct (Nat.lt_ge_cases r (length targets)) as [Hr|Hr].
    - rewrite (nth_error_nth' targets 0%nat Hr). rewrite (nth_error_nth' outputs []) by lia.
      rewrite (nth_error_nth' (seq 0 (length targets)) 0%nat) by (rewrite seq_length; lia). rewrite seq_nth by auto. simpl. rewrite E by auto. reflexivity.
    - rewrite (proj2 (nth_error_None targets r)) by lia. rewrite (proj2 (nth_error_None (seq _ _) r)) by (rewrite seq_length; lia).
      now destruct (nth_error outputs r). }
  rewrite E2. reflexivity.
Qed.

Lemma epoch_fold K bs cw ds idx order w0 w1 log : epoch step K bs cw ds idx order (w0, []) = Ok (w1, log) ->
  w1 = fold_left (fun w b => step cw b w) log w0.
Proof.
  unfold epoch. destruct (rmap (get idx) order) as [sel|]; cbn [rbind]; [|discriminate].
  destruct (rmap (get ds) sel) as [rows|]; cbn [rbind]; [|discriminate]. intros F.
  destruct (chunks bs rows) as [|b0 l] eqn:E; [injection F as <- <-; reflexivity|].
  pose proof (run_batches_inv K cw (b0 :: l) _ _ F ltac:(discriminate)) as C. rewrite run_batches in F by auto.
  injection F as <- <-. reflexivity.
Qed.
Lemma epochs_fold cw (f : nat -> W -> res (W * list (list (X * Z)))) es : (forall e w0 w1 log, f e w0 = Ok (w1, log) -> w1 = fold_left (fun w b => step cw b w) log w0) ->
  forall w l r, run_all (fun e s => do t <- f e (fst s) ; Ok (fst t, snd s ++ [snd t])) es (w, l) = Ok r ->
  exists logs, snd r = l ++ logs /\ fst r = fold_left (fun w b => step cw b w) (concat logs) w.
Proof.
  intros F. induction es as [|e es IH]; intros w l r H; cbn [run_all] in H.
  - injection H as <-. exists []. now rewrite app_nil_r.
  - cbn [fst snd] in H. destruct (f e w) as [[w1 lg]|] eqn:E; cbn [rbind] in H; [|discriminate]. cbn [fst snd] in H.
    apply IH in H as (logs & E1 & E2). exists (lg :: logs). rewrite E1, <- app_assoc. split; [reflexivity|].
    simpl. rewrite fold_left_app, <- (F _ _ _ _ E). auto.
Qed.
Lemma fit_result K orders d o idx labels sw loader o' log : fit K orders d o idx labels sw loader = Ok (o', log) ->
  exists cw, (sw = None -> cw = None) /\ (forall l w, labels = Some l -> sw = Some w -> exists c, class_weights l w = Ok c /\ cw = Some c) /\
  weights o' = fold_left (fun w b => step cw b w) (concat log) (weights o).
Proof.
  intros H. unfold fit, ModelCnn.fit in H.
  destruct (match labels with Some l => if Nat.eqb (length idx) (length l) then Ok tt else Raise ValueError | None => Ok tt end) as [u|] eqn:E1; cbn [rbind] in H; [|discriminate].
  destruct (match sw, labels with None, _ => Ok None | _, _ => _ end) as [cw|] eqn:E2; cbn [rbind] in H; [|discriminate].
  destruct (get_dataset d _) as [ds|]; cbn [rbind] in H; [|discriminate].
  match type of H with rbind ?e _ = _ => destruct e as [ds'|] end; cbn [rbind] in H; [|discriminate].
  destruct (Nat.eqb (batch_size o) 0); [discriminate|].
  match type of H with rbind ?e _ = _ => destruct e as [r|] eqn:E5 end; cbn [rbind] in H; [|discriminate].
  injection H as <- <-. exists cw. split; [intros ->; congruence|]. split.
  - intros l w -> ->. destruct (Nat.eqb (length w) (length l)); [|discriminate].
    destruct (class_weights l w) as [c|]; cbn [rbind] in E2; [|discriminate]. exists c. split; congruence.
  - apply (epochs_fold cw (fun e w => epoch step K (batch_size o) cw ds' idx (orders e) (w, []))) in E5 as (logs & L1 & L2).
    + simpl in L1. simpl. rewrite L1. auto.
    + intros e w0 w1 lg. apply epoch_fold.
Qed.

Lemma fit_completes K orders d o idx labels loader ds : get_dataset d (dataset_of o loader) = Ok ds -> (1 <= batch_size o)%nat ->
  (forall i, In i idx -> (i < length ds)%nat) -> (forall l, labels = Some l -> length l = length idx) ->
  (forall e, Permutation (orders e) (seq 0 (length idx))) ->
  exists r, fit K orders d o idx labels None loader = Ok r.
Proof.
  intros G B R L P. unfold fit, ModelCnn.fit. fold (dataset_of o loader). rewrite G.
  assert (Eds : (if String.eqb (dataset_of o loader) "train" then i_train d else i_test d) = ds).
  { unfold get_dataset in G. destruct (String.eqb _ "train"); [congruence|]. destruct (String.eqb _ "test"); congruence. }
  rewrite Eds.
  assert (E1 : (match labels with Some l => if Nat.eqb (length idx) (length l) then Ok tt else Raise ValueError | None => Ok tt end) = Ok tt).
  { destruct labels as [l|]; [|reflexivity]. rewrite (L l eq_refl), Nat.eqb_refl. reflexivity. }
  rewrite E1. cbn [rbind].
  assert (E2 : exists ds', (match labels with None => Ok ds | Some l => do targets <- write (repeat (-1)%Z (length ds)) (combine idx l) ; Ok (combine (map fst ds) targets) end) = Ok ds' /\ length ds' = length ds).
  { destruct labels as [l|]; [|eauto]. destruct (write_ok (combine idx l) (repeat (-1)%Z (length ds))) as [t Ht].
    - intros i Hi. rewrite repeat_length. apply R. apply in_map_iff in Hi as ((a & b) & <- & Hab). apply in_combine_l in Hab. auto.
    - rewrite Ht. cbn [rbind]. eexists. split; [reflexivity|]. apply write_spec in Ht as (Lt & _). rewrite combine_length, map_length, Lt, repeat_length. lia. }
  destruct E2 as (ds' & -> & Lds). cbn [rbind]. destruct (Nat.eqb_spec (batch_size o) 0); [lia|].
  assert (E3 : forall es s, exists r, run_all (fun e s => do t <- epoch step K (batch_size o) None ds' idx (orders e) (fst s, []) ; Ok (fst t, snd s ++ [snd t])) es s = Ok r).
  { induction es as [|e es IH]; intros s; cbn [run_all]; [eauto|].
    assert (E : exists t, epoch step K (batch_size o) None ds' idx (orders e) (fst s, []) = Ok t).
    { unfold epoch. destruct (rmap_get_ok idx (orders e)) as [sel Hs].
      - intros i Hi. apply (Permutation_in _ (P e)) in Hi. apply in_seq in Hi. lia.
      - rewrite Hs. cbn [rbind]. destruct (rmap_get_ok ds' sel) as [rows ->].
        + intros i Hi. rewrite Lds. apply R. apply rmap_get in Hs as [Ls Ns]. apply In_nth_error in Hi as [k Hk].
          assert (Hk' : (k < length (orders e))%nat) by (rewrite <- Ls; apply nth_error_Some; congruence).
          destruct (nth_error (orders e) k) as [j|] eqn:Ej; [|apply nth_error_None in Ej; lia].
          rewrite (Ns k j Ej) in Hk. eapply nth_error_In; eauto.
        + cbn [rbind]. rewrite run_batches by discriminate. eauto. }
    destruct E as [t ->]. cbn [rbind]. apply IH. }
  destruct (E3 (seq 1 (epochs o)) (weights o, [])) as [r ->]. cbn [rbind]. eauto.
Qed.
End Cnn.

Lemma C125_predict_full : forall X W (forward : W -> X -> list Q) d o idx loader p,
  predict_proba forward d o idx loader = Ok p -> (forall r, In r p -> r <> []) ->
  exists y, predict forward d o idx loader = Ok y /\ length y = length p /\
    forall r, (r < length p)%nat -> most_likely (nth r p []) (nth r y 0%nat).
Proof.
  intros X W forward d o idx loader p E H. unfold predict. rewrite E. cbn [rbind]. eexists. split; [reflexivity|]. split; [apply map_length|].
  intros r Hr. rewrite (nth_map_gen _ _ _ _ []) by auto. exact (argmax_spec _ (H _ (nth_In p [] Hr))).
Qed.
