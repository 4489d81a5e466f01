(** * Proofs about the arguments of the checks, saving and loading, image checks and spurious correlations *)
From Coq Require Import String QArith Lqa List Bool Arith Lia Permutation.
From Verif Require Import Base BaseFacts ModelChecks ModelDatalab SpecDatalab ProofUtil ProofDatalab.
Import ListNotations.
Open Scope string_scope.
Open Scope list_scope.

Lemma lookup_filter_kv {A} (P : string * A -> bool) k d : NoDup (keys d) ->
  lookup k (filter P d) = match lookup k d with Some v => if P (k, v) then Some v else None | None => None end.
Proof.
  induction d as [|[k' v] d IH]; [reflexivity|]. intros H. inversion H; subst. cbn [filter lookup].
  destruct (String.eqb_spec k k') as [->|Hn].
  - destruct (P (k', v)); cbn [lookup]; [now rewrite String.eqb_refl|]. rewrite IH by auto.
    now rewrite (proj2 (lookup_none k' d) H2).
  - destruct (P (k', v)); cbn [lookup]; [rewrite (proj2 (String.eqb_neq _ _) Hn)|]; now apply IH.
Qed.
Lemma lookup_dict_update {A} k (e : list (string * A)) : NoDup (keys e) -> forall d,
  lookup k (dict_update d e) = match lookup k e with Some v => Some v | None => lookup k d end.
Proof.
  unfold dict_update. induction e as [|[k' v] e IH]; intros Hn d; [reflexivity|]. inversion Hn; subst.
  cbn [fold_left fst snd lookup]. rewrite IH by auto. rewrite lookup_dict_set.
  destruct (String.eqb_spec k k') as [->|].
  - now rewrite (proj2 (lookup_none k' e) H1).
  - reflexivity.
Qed.
Lemma keys_dict_set {A} k (v : A) d x : In x (keys (dict_set k v d)) <-> x = k \/ In x (keys d).
Proof.
  induction d as [|[k' v'] d IH]; cbn; [intuition|]. destruct (String.eqb_spec k k') as [->|]; cbn; [intuition|].
  rewrite IH. intuition.
Qed.
Lemma keys_dict_update {A} (e : list (string * A)) x : forall d, In x (keys (dict_update d e)) <-> In x (keys d) \/ In x (keys e).
Proof.
  unfold dict_update. induction e as [|[k v] e IH]; intros d; cbn [fold_left]; [cbn; tauto|].
  rewrite IH, keys_dict_set. cbn. intuition.
Qed.

(** ** issue types *)
Section Args.
Context {V : Type}.
Variables (t : task) (pp f g : option V).
Let kwargs := [("pred_probs", pp); ("features", f); ("knn_graph", g)]
                ++ match t, pp with Regression, Some p => [("predictions", Some p)] | _, _ => [] end.
Let required := resolve_required_args t kwargs.
Notation inp := (input t pp f g).

Lemma kwargs_input k : match lookup k kwargs with Some v => v | None => None end = inp k.
Proof.
  unfold kwargs, input. cbn [app lookup].
  destruct (String.eqb_spec k "pred_probs") as [->|]; [reflexivity|].
  destruct (String.eqb_spec k "features") as [->|]; [reflexivity|].
  destruct (String.eqb_spec k "knn_graph") as [->|]; [reflexivity|].
  destruct t, pp; cbn; destruct (String.eqb k "predictions"); reflexivity.
Qed.
Definition wanted (l : list string) : args V := filter given (map (fun k => (k, inp k)) l).
Definition req (name : string) : args V := match lookup name (args_table t) with Some l => wanted l | None => [] end.
Lemma table_NoDup : NoDup (keys (args_table t)).
Proof. destruct t; cbn; repeat (constructor; [cbn; intuition discriminate|]); constructor. Qed.
Lemma table_args_NoDup name l : lookup name (args_table t) = Some l -> NoDup l.
Proof.
  intros H. apply lookup_in in H.
  assert (E : Forall (fun e => NoDup (snd e)) (args_table t)).
  { destruct t; cbn; repeat (constructor; [cbn; repeat (constructor; [cbn; intuition discriminate|]); constructor|]); constructor. }
  rewrite Forall_forall in E. exact (E _ H).
Qed.
Lemma keys_map_fst {A B} (h : string * A -> B) d : keys (map (fun e => (fst e, h e)) d) = keys d.
Proof. unfold keys. rewrite map_map. reflexivity. Qed.
Lemma lookup_map_kv {A B} (h : string * A -> B) k d :
  lookup k (map (fun e => (fst e, h e)) d) = match lookup k d with Some v => Some (h (k, v)) | None => None end.
Proof.
  induction d as [|[k' v] d IH]; [reflexivity|]. cbn [map lookup fst].
  destruct (String.eqb_spec k k') as [->|]; [reflexivity|exact IH].
Qed.
Lemma required_lookup name : lookup name required =
  match lookup name (args_table t) with
  | None => None
  | Some l => match l, wanted l with
              | [], _ => Some []
              | _, [] => None
              | _, a => Some a
              end
  end.
Proof.
  unfold required, resolve_required_args.
  set (ad := map (fun e => (fst e, map (fun a => (a, match lookup a kwargs with Some v => v | None => None end)) (snd e))) (args_table t)).
  assert (Had : NoDup (keys ad)) by (unfold ad; rewrite keys_map_fst; apply table_NoDup).
  rewrite lookup_filter_kv.
  2: { rewrite keys_map_fst. now apply NoDup_keys_filter. }
  rewrite lookup_map_kv, lookup_filter_kv by auto. unfold ad at 1. rewrite lookup_map_kv. cbn [fst snd].
  destruct (lookup name (args_table t)) as [l|] eqn:E; [|reflexivity].
  assert (Em : map (fun a => (a, match lookup a kwargs with Some v => v | None => None end)) l = map (fun k => (k, inp k)) l).
  { apply map_ext. intros a. now rewrite kwargs_input. }
  rewrite Em. fold (wanted l). destruct l as [|x l].
  - cbn. reflexivity.
  - cbn [map orb]. cbn [orb]. fold (wanted (x :: l)). change (filter given ((x, inp x) :: map (fun k => (k, inp k)) l)) with (wanted (x :: l)).
    now destruct (wanted (x :: l)).
Qed.
Lemma required_or_empty name : match lookup name required with Some a => a | None => [] end = req name.
Proof.
  rewrite required_lookup. unfold req. destruct (lookup name (args_table t)) as [l|]; [|reflexivity].
  destruct l as [|x l]; [reflexivity|]. now destruct (wanted (x :: l)).
Qed.
Lemma wanted_in k v l : In (k, v) (wanted l) <-> In k l /\ v = inp k /\ v <> None.
Proof.
  unfold wanted. rewrite filter_In, in_map_iff. unfold given. cbn. split.
  - intros ((x & E & Hi) & Hg). injection E as -> <-. split; [auto|]. split; [auto|]. intros E. now rewrite E in Hg.
  - intros (Hi & -> & Hv). split; [exists k; auto|]. now destruct (inp k).
Qed.
Lemma wanted_NoDup l : NoDup l -> NoDup (keys (wanted l)).
Proof.
  intros H. unfold wanted. apply NoDup_keys_filter. unfold keys. rewrite map_map. cbn. now rewrite map_id.
Qed.
Lemma req_NoDup name : NoDup (keys (req name)).
Proof.
  unfold req. destruct (lookup name (args_table t)) eqn:E; [|constructor]. apply wanted_NoDup. exact (table_args_NoDup _ _ E).
Qed.
Lemma req_in name k v : In (k, v) (req name) <-> takes t name k /\ v = inp k /\ v <> None.
Proof.
  unfold req, takes. destruct (lookup name (args_table t)) as [l|] eqn:E.
  - rewrite wanted_in. split.
    + intros (H1 & H2). split; [exists l; auto|auto].
    + intros ((l' & E' & Hi) & H2). injection E' as ->. auto.
  - split; [intros []|]. intros ((l' & E' & _) & _). discriminate.
Qed.

(** the update of one nested dictionary *)
Definition missing (name : string) (a : args V) : args V := filter (fun kv => negb (smem (fst kv) (keys a))) (req name).
Definition step (h : heap V) (e : string * nat) : heap V := upd h (snd e) (dict_update (deref h (snd e)) (missing (fst e) (deref h (snd e)))).
Lemma check_missing_step h ts : check_missing_args required h ts = fold_left step ts h.
Proof.
  unfold check_missing_args. revert h. induction ts as [|e ts IH]; intros h; [reflexivity|]. cbn [fold_left].
  rewrite IH. f_equal. unfold step, missing. now rewrite required_or_empty.
Qed.
Lemma missing_NoDup name a : NoDup (keys (missing name a)).
Proof. apply NoDup_keys_filter, req_NoDup. Qed.
Lemma missing_lookup name a k : lookup k (missing name a) = if smem k (keys a) then None else lookup k (req name).
Proof.
  unfold missing. rewrite (lookup_filter_key (fun x => negb (smem x (keys a)))). now destruct (smem k (keys a)).
Qed.
Lemma updated_lookup name a k :
  lookup k (dict_update a (missing name a)) = match lookup k a with Some v => Some v | None => lookup k (req name) end.
Proof.
  rewrite lookup_dict_update by apply missing_NoDup. rewrite missing_lookup.
  destruct (smem k (keys a)) eqn:E.
  - now destruct (lookup k a) eqn:E2; [|apply lookup_none in E2; apply smem_iff in E].
  - apply smem_false, lookup_none in E. rewrite E. now destruct (lookup k (req name)).
Qed.
Lemma deref_upd_eq (h : heap V) r a : (r < length h)%nat -> deref (upd h r a) r = a.
Proof. intros H. unfold deref. now apply nth_upd_eq. Qed.
Lemma deref_upd_neq (h : heap V) r r' a : r <> r' -> deref (upd h r a) r' = deref h r'.
Proof. intros H. unfold deref. apply nth_upd_neq. auto. Qed.
Lemma upd_same {A} (l : list A) : forall i d, upd l i (nth i l d) = l.
Proof. induction l as [|x l IH]; intros [|i] d; cbn; auto. now rewrite IH. Qed.

Lemma steps_length ts : forall h, length (fold_left step ts h) = length h.
Proof. induction ts as [|e ts IH]; intros h; cbn [fold_left]; [auto|]. rewrite IH. apply upd_length. Qed.
(** existing entries are kept *)
Lemma step_keeps h e r k v : lookup k (deref h r) = Some v -> lookup k (deref (step h e) r) = Some v.
Proof.
  intros H. unfold step. destruct (Nat.eq_dec (snd e) r) as [<-|Hn].
  - destruct (Nat.lt_ge_cases (snd e) (length h)) as [L|L].
    + rewrite deref_upd_eq by auto. rewrite updated_lookup. now rewrite H.
    + unfold deref in H at 1. rewrite nth_overflow in H by auto. discriminate.
  - now rewrite deref_upd_neq.
Qed.
Lemma steps_keep ts : forall h r k v, lookup k (deref h r) = Some v -> lookup k (deref (fold_left step ts h) r) = Some v.
Proof. induction ts as [|e ts IH]; intros h r k v H; cbn [fold_left]; [auto|]. apply IH. now apply step_keeps. Qed.
(** nothing is added when everything is already there *)
Lemma steps_id ts : forall h, (forall name r, In (name, r) ts -> forall k, In k (keys (req name)) -> In k (keys (deref h r))) ->
  fold_left step ts h = h.
Proof.
  induction ts as [|[name r] ts IH]; intros h H; cbn [fold_left]; [auto|].
  assert (E : step h (name, r) = h).
  { unfold step. cbn [fst snd]. assert (Em : missing name (deref h r) = []).
    { unfold missing. specialize (H name r (or_introl eq_refl)). revert H. generalize (req name) as l.
      induction l as [|[k v] l IHl]; intros H; [reflexivity|]. cbn [filter fst].
      rewrite (proj2 (smem_iff k _)) by (apply H; now left). cbn. apply IHl. intros k' Hk. apply H. now right. }
    rewrite Em. apply upd_same. }
  rewrite E. apply IH. intros name' r' Hi. apply H. now right.
Qed.
(** all required arguments are present afterwards *)
Lemma steps_complete ts : forall h, (forall e, In e ts -> (snd e < length h)%nat) ->
  forall name r, In (name, r) ts -> forall k, In k (keys (req name)) -> In k (keys (deref (fold_left step ts h) r)).
Proof.
  induction ts as [|e ts IH]; intros h Hb name r Hi k Hk; [destruct Hi|]. cbn [fold_left]. destruct Hi as [->|Hi].
  - destruct (lookup k (deref (step h (name, r)) r)) as [v|] eqn:E.
    + apply (steps_keep ts) in E. apply lookup_in in E. change k with (fst (k, v)). now apply in_map.
    + exfalso. unfold step in E. cbn [fst snd] in E. rewrite deref_upd_eq in E by exact (Hb _ (or_introl eq_refl)).
      rewrite updated_lookup in E. destruct (lookup k (deref h r)); [discriminate|]. now apply lookup_none in E.
  - apply (IH (step h e)) with (name := name); auto. intros e' He. unfold step. rewrite upd_length. apply Hb. now right.
Qed.
(** contents with distinct objects *)
Lemma steps_other ts r : ~ In r (map snd ts) -> forall h, deref (fold_left step ts h) r = deref h r.
Proof.
  induction ts as [|e ts IH]; intros Hn h; cbn [fold_left]; [auto|]. cbn in Hn. rewrite IH by tauto.
  unfold step. apply deref_upd_neq. tauto.
Qed.
Lemma steps_at ts : NoDup (map snd ts) -> forall h, (forall e, In e ts -> (snd e < length h)%nat) ->
  forall name r, In (name, r) ts -> deref (fold_left step ts h) r = dict_update (deref h r) (missing name (deref h r)).
Proof.
  induction ts as [|e ts IH]; intros Hn h Hb name r Hi; [destruct Hi|]. inversion Hn; subst. cbn [fold_left].
  destruct Hi as [->|Hi].
  - rewrite steps_other by auto. unfold step. cbn [fst snd]. apply deref_upd_eq. exact (Hb _ (or_introl eq_refl)).
  - assert (Hb2 : forall e', In e' ts -> (snd e' < length (step h e))%nat).
    { intros e' He. unfold step. rewrite upd_length. apply Hb. now right. }
    rewrite (IH H2 (step h e) Hb2 name r Hi).
    assert (Er : deref (step h e) r = deref h r).
    { unfold step. apply deref_upd_neq. intros E. apply H1. rewrite E. change r with (snd (name, r)). now apply in_map. }
    now rewrite Er.
Qed.

Lemma validate_ok (copy : list (string * args V)) : NoDup (keys copy) -> (forall name a, In (name, a) copy -> forall k, In k (keys (req name)) -> In k (keys a)) ->
  validate_issue_types copy required = true.
Proof.
  intros Hn H. unfold validate_issue_types. apply forallb_forall. intros [name a] Hi. cbn [fst snd].
  destruct (lookup name copy) as [b|] eqn:E; [|reflexivity]. apply forallb_forall. intros [k v] Hk. cbn [fst].
  apply smem_iff. apply (H name b (lookup_in _ _ _ E)).
  assert (Er : req name = a).
  { rewrite <- required_or_empty.
    assert (Hr : NoDup (keys required)).
    { unfold required, resolve_required_args. apply NoDup_keys_filter. rewrite keys_map_fst. apply NoDup_keys_filter.
      rewrite keys_map_fst. apply table_NoDup. }
    now rewrite (lookup_NoDup _ _ _ Hr Hi). }
  rewrite Er. change k with (fst (k, v)). now apply in_map.
Qed.

(** what _set_issue_types returns for a dictionary given by the user *)
Lemma set_types_some h ts : NoDup (keys ts) -> (forall e, In e ts -> (snd e < length h)%nat) ->
  set_issue_types t h (Some ts) required =
  (fold_left step ts h, Ok (map (fun e => (fst e, filter given (deref (fold_left step ts h) (snd e)))) ts)).
Proof.
  intros Hn Hb. unfold set_issue_types. rewrite check_missing_step.
  rewrite validate_ok.
  - now rewrite map_map.
  - unfold keys. rewrite map_map. exact Hn.
  - intros name a Hi k Hk. apply in_map_iff in Hi as ([name' r] & E & Hi). cbn in E. injection E as -> <-.
    exact (steps_complete ts h Hb name r Hi k Hk).
Qed.
End Args.

Section Available.
Context {V : Type}.
Implicit Types (pp f g : option V) (h : heap V).
Lemma dict_pop_in {A} k (d : list (string * A)) e : In e (dict_pop k d) <-> In e d /\ fst e <> k.
Proof.
  unfold dict_pop. rewrite filter_In. destruct (String.eqb_spec k (fst e)); cbn; intuition congruence.
Qed.

Definition admissible (t : task) (hl : bool) (e : string * args V) : Prop :=
  (fst e = "label" -> t <> Regression -> hl = true) /\ (fst e = "class_imbalance" -> t = Classification -> hl = true) /\
  (fst e = "underperforming_group" -> has_value "pred_probs" (snd e) = true /\
     (has_value "features" (snd e) = true \/ has_value "knn_graph" (snd e) = true \/ has_value "cluster_ids" (snd e) = true)).

(** the checks that remain of a resolved dictionary *)
Definition drops (t : task) (hl : bool) (copy : list (string * args V)) : list (string * args V) :=
  let copy := if negb hl && match t with Regression => false | _ => true end then dict_pop "label" copy else copy in
  let copy := if negb hl && match t with Classification => true | _ => false end then dict_pop "class_imbalance" copy else copy in
  match lookup "underperforming_group" copy with
  | None => copy
  | Some a => if has_value "pred_probs" a && (has_value "features" a || has_value "knn_graph" a || has_value "cluster_ids" a)
              then copy else dict_pop "underperforming_group" copy
  end.
Lemma drops_in t hl copy e : NoDup (keys copy) -> (In e (drops t hl copy) <-> In e copy /\ admissible t hl e).
Proof.
  intros Hn. unfold drops.
  set (c1 := if negb hl && match t with Regression => false | _ => true end then dict_pop "label" copy else copy).
  set (c2 := if negb hl && match t with Classification => true | _ => false end then dict_pop "class_imbalance" c1 else c1).
  assert (H1 : forall e, In e c1 <-> In e copy /\ (fst e = "label" -> t <> Regression -> hl = true)).
  { intros x. unfold c1. destruct hl, t; cbn [negb andb]; rewrite ?dict_pop_in; intuition congruence. }
  assert (H2 : forall e, In e c2 <-> In e c1 /\ (fst e = "class_imbalance" -> t = Classification -> hl = true)).
  { intros x. unfold c2. destruct hl, t; cbn [negb andb]; rewrite ?dict_pop_in; intuition congruence. }
  assert (Npop : forall (b : bool) k (d : list (string * args V)), NoDup (keys d) -> NoDup (keys (if b then dict_pop k d else d))).
  { intros [] k d Hd; [now apply NoDup_keys_filter|auto]. }
  assert (N1 : NoDup (keys c1)) by now apply Npop.
  assert (N2 : NoDup (keys c2)) by now apply Npop.
  assert (Hgoal : forall P : Prop, (In e c2 /\ (fst e = "underperforming_group" -> has_value "pred_probs" (snd e) = true /\
     (has_value "features" (snd e) = true \/ has_value "knn_graph" (snd e) = true \/ has_value "cluster_ids" (snd e) = true)) <-> P) ->
     (P <-> In e copy /\ admissible t hl e)).
  { intros P HP. rewrite <- HP, H2, H1. unfold admissible. tauto. }
  apply Hgoal. clear Hgoal.
  destruct (lookup "underperforming_group" c2) as [a|] eqn:E.
  - assert (Hu : In e c2 -> fst e = "underperforming_group" -> snd e = a).
    { intros Hi He. destruct e as [k b]. cbn in *. subst k. rewrite (lookup_NoDup _ _ _ N2 Hi) in E. congruence. }
    destruct (has_value "pred_probs" a && (has_value "features" a || has_value "knn_graph" a || has_value "cluster_ids" a)) eqn:Eb.
    + split; [tauto|]. intros Hi. split; [auto|]. intros He. rewrite (Hu Hi He).
      apply andb_prop in Eb as (E1 & E2). split; [auto|]. apply orb_prop in E2 as [E2|E2]; [|auto].
      apply orb_prop in E2. tauto.
    + rewrite dict_pop_in. split.
      * intros (Hi & Hc). split; [auto|]. intros He. specialize (Hc He). rewrite (Hu Hi He) in Hc.
        destruct Hc as (E1 & E2). rewrite E1 in Eb. cbn in Eb.
        destruct E2 as [E2|[E2|E2]]; rewrite E2 in Eb; cbn in Eb; rewrite ?orb_true_r in Eb; discriminate.
      * intros (Hi & Hne). split; [auto|]. intros He. contradiction.
  - split; [tauto|]. intros Hi. split; [auto|]. intros He. exfalso. apply lookup_none in E. apply E. rewrite <- He.
    now apply in_map.
Qed.

(** a dictionary of the user with distinct nested dictionaries *)
Lemma available_some t hl pp f g h ts : NoDup (keys ts) -> (forall e, In e ts -> (snd e < length h)%nat) ->
  (forall e, In e ts -> In (fst e) (registry t)) ->
  checks_to_run t hl pp f g h (Some ts) =
  (fold_left (step t pp f g) ts h,
   Ok (drops t hl (map (fun e => (fst e, filter given (deref (fold_left (step t pp f g) ts h) (snd e)))) ts))).
Proof.
  intros Hn Hb Hr. unfold checks_to_run. destruct ts as [|e0 ts0]; [destruct hl, t; reflexivity|].
  remember (e0 :: ts0) as ts. clear Heqts e0 ts0. unfold get_available_issue_types.
  rewrite (set_types_some t pp f g h ts Hn Hb). cbn [rbind].
  fold (drops t hl (map (fun e => (fst e, filter given (deref (fold_left (step t pp f g) ts h) (snd e)))) ts)).
  set (l := map (fun e => (fst e, filter given (deref (fold_left (step t pp f g) ts h) (snd e)))) ts).
  assert (Nl : NoDup (keys l)) by (unfold l, keys; rewrite map_map; exact Hn).
  replace (forallb _ _) with true; [reflexivity|]. symmetry. apply forallb_forall. intros e He.
  assert (Hi : In e l) by (apply (proj1 (drops_in t hl l e Nl)) in He; tauto).
  unfold l in Hi. apply in_map_iff in Hi as (x & <- & Hx). cbn. apply smem_iff. now apply Hr.
Qed.

Lemma value_filter_given k (a : args V) : NoDup (keys a) -> value_of k (filter given a) = value_of k a.
Proof.
  intros H. unfold value_of. rewrite lookup_filter_kv by auto. destruct (lookup k a) as [[v|]|]; reflexivity.
Qed.
Lemma NoDup_dict_set {A} k (v : A) d : NoDup (keys d) -> NoDup (keys (dict_set k v d)).
Proof.
  induction d as [|[k' v'] d IH]; cbn; intros H; [constructor; [tauto|constructor]|]. inversion H; subst.
  destruct (String.eqb_spec k k') as [->|Hn]; cbn; [now constructor|]. constructor; [|auto].
  intros Hi. apply keys_dict_set in Hi as [->|Hi]; auto.
Qed.
Lemma NoDup_dict_update {A} (e : list (string * A)) : forall d, NoDup (keys d) -> NoDup (keys (dict_update d e)).
Proof. unfold dict_update. induction e as [|x e IH]; intros d H; cbn; [auto|]. apply IH. now apply NoDup_dict_set. Qed.

Lemma takes_dec t name k : takes t name k \/ ~ takes t name k.
Proof.
  unfold takes. destruct (lookup name (args_table t)) as [l|].
  - destruct (in_dec string_dec k l); [left; exists l; auto|]. right. intros (l' & E & H). injection E as ->. auto.
  - right. intros (l' & E & _). discriminate.
Qed.
Lemma updated_value t pp f g name (a : args V) k : NoDup (keys a) ->
  let v := value_of k (filter given (dict_update a (missing t pp f g name a))) in
  (In k (keys a) -> v = value_of k a) /\
  (~ In k (keys a) -> takes t name k -> v = input t pp f g k) /\
  (~ In k (keys a) -> ~ takes t name k -> v = None).
Proof.
  intros Hn. cbv zeta. rewrite value_filter_given by now apply NoDup_dict_update.
  unfold value_of at 1 3 4. rewrite updated_lookup. refine (conj _ (conj _ _)).
  - intros Hi. unfold value_of. destruct (lookup k a) eqn:E; [reflexivity|]. now apply lookup_none in E.
  - intros Hi Ht. apply lookup_none in Hi. rewrite Hi.
    destruct (lookup k (req t pp f g name)) as [v|] eqn:E.
    + apply lookup_in, req_in in E. tauto.
    + destruct (input t pp f g k) as [v|] eqn:Ei; [|reflexivity]. exfalso. apply lookup_none in E. apply E.
      change k with (fst (k, Some v)). apply in_map. apply req_in. rewrite Ei. repeat split; auto. discriminate.
  - intros Hi Ht. apply lookup_none in Hi. rewrite Hi.
    destruct (lookup k (req t pp f g name)) as [v|] eqn:E; [|reflexivity].
    apply lookup_in, req_in in E. tauto.
Qed.

Lemma explicit_checks t hl pp f g h ts : NoDup (keys ts) -> NoDup (map snd ts) ->
  (forall e, In e ts -> (snd e < length h)%nat /\ NoDup (keys (deref h (snd e)))) ->
  (forall e, In e ts -> In (fst e) (registry t)) ->
  exists l, snd (checks_to_run t hl pp f g h (Some ts)) = Ok l /\ NoDup (keys l) /\
    (forall name a, In (name, a) l -> exists r, In (name, r) ts /\
       (forall k v, In (k, v) a -> v <> None) /\
       forall k, (In k (keys (deref h r)) -> value_of k a = value_of k (deref h r)) /\
                 (~ In k (keys (deref h r)) -> takes t name k -> value_of k a = input t pp f g k) /\
                 (~ In k (keys (deref h r)) -> ~ takes t name k -> value_of k a = None)) /\
    (forall name, In name (keys ts) -> ~ In name (keys l) ->
       (name = "label" /\ t <> Regression /\ hl = false) \/ (name = "class_imbalance" /\ t = Classification /\ hl = false)
       \/ name = "underperforming_group") /\
    (forall name, In name (keys l) -> In name (keys ts) /\ (name = "label" -> t <> Regression -> hl = true) /\
       (name = "class_imbalance" -> t = Classification -> hl = true)).
Proof.
  intros Hn Hr Hb Hg. assert (Hb' : forall e, In e ts -> (snd e < length h)%nat) by (intros e He; now destruct (Hb e He)).
  rewrite (available_some t hl pp f g h ts Hn Hb' Hg). cbn [snd].
  set (l := map (fun e => (fst e, filter given (deref (fold_left (step t pp f g) ts h) (snd e)))) ts).
  assert (Nl : NoDup (keys l)) by (unfold l, keys; rewrite map_map; exact Hn).
  exists (drops t hl l). refine (conj eq_refl (conj _ (conj _ (conj _ _)))).
  - unfold drops. repeat match goal with
      | |- context [match lookup ?k ?d with _ => _ end] => destruct (lookup k d)
      | |- context [if ?b then _ else _] => destruct b
      end; repeat apply NoDup_keys_filter; exact Nl.
  - intros name a Hi. apply (drops_in t hl l _ Nl) in Hi as (Hi & _). unfold l in Hi.
    apply in_map_iff in Hi as ([name' r] & E & Hi). cbn in E. injection E as -> <-. exists r. split; [auto|].
    rewrite (steps_at t pp f g ts Hr h Hb' name r Hi). split.
    + intros k v Hk ->. apply filter_In in Hk as (_ & Hk). discriminate.
    + intros k. apply updated_value. exact (proj2 (Hb _ Hi)).
  - intros name Hi Hni. unfold keys in Hi. apply in_map_iff in Hi as (e & <- & He).
    set (x := (fst e, filter given (deref (fold_left (step t pp f g) ts h) (snd e)))).
    assert (Hx : In x l) by (unfold l; exact (in_map (fun e => (fst e, filter given (deref (fold_left (step t pp f g) ts h) (snd e)))) ts e He)).
    destruct (String.eqb_spec (fst e) "underperforming_group"); [auto|].
    destruct (String.eqb_spec (fst e) "label") as [E1|N1]; [|destruct (String.eqb_spec (fst e) "class_imbalance") as [E2|N2]].
    + left. refine (conj E1 _). destruct t, hl; try (split; [discriminate|reflexivity]); exfalso; apply Hni;
        change (fst e) with (fst x); apply in_map, (drops_in _ _ l _ Nl); (split; [exact Hx|]); unfold admissible; cbn [fst x];
        rewrite E1; repeat split; intros; try congruence; discriminate.
    + right. left. refine (conj E2 _). destruct t, hl; try (split; reflexivity); exfalso; apply Hni;
        change (fst e) with (fst x); apply in_map, (drops_in _ _ l _ Nl); (split; [exact Hx|]); unfold admissible; cbn [fst x];
        rewrite E2; repeat split; intros; try congruence; discriminate.
    + exfalso. apply Hni. change (fst e) with (fst x). apply in_map, (drops_in _ _ l _ Nl). split; [exact Hx|].
      unfold admissible. cbn [fst x]. repeat split; intros; congruence.
  - intros name Hi. unfold keys in Hi. apply in_map_iff in Hi as (e & <- & He). apply (drops_in t hl l _ Nl) in He as (He & Ha).
    split.
    + unfold l in He. apply in_map_iff in He as (y & <- & Hy). cbn. now apply in_map.
    + destruct Ha as (H1 & H2 & _). auto.
Qed.
(** the underperforming-group check needs predicted probabilities and something to group by *)
Lemma explicit_underperforming t hl pp f g h ts r : NoDup (keys ts) -> NoDup (map snd ts) ->
  (forall e, In e ts -> (snd e < length h)%nat /\ NoDup (keys (deref h (snd e)))) ->
  (forall e, In e ts -> In (fst e) (registry t)) -> In ("underperforming_group", r) ts ->
  exists l, snd (checks_to_run t hl pp f g h (Some ts)) = Ok l /\
    let val k := if smem k (keys (deref h r)) then value_of k (deref h r) else if String.eqb k "cluster_ids" then None else input t pp f g k in
    (In "underperforming_group" (keys l) <->
     val "pred_probs" <> None /\ (val "features" <> None \/ val "knn_graph" <> None \/ val "cluster_ids" <> None)).
Proof.
  intros Hn Hr Hb Hg Hi. assert (Hb' : forall e, In e ts -> (snd e < length h)%nat) by (intros e He; now destruct (Hb e He)).
  rewrite (available_some t hl pp f g h ts Hn Hb' Hg). cbn [snd].
  set (l := map (fun e => (fst e, filter given (deref (fold_left (step t pp f g) ts h) (snd e)))) ts).
  assert (Nl : NoDup (keys l)) by (unfold l, keys; rewrite map_map; exact Hn).
  eexists. split; [reflexivity|]. cbv zeta.
  set (a := filter given (deref (fold_left (step t pp f g) ts h) r)).
  assert (Ha : In ("underperforming_group", a) l).
  { unfold l. exact (in_map (fun e => (fst e, filter given (deref (fold_left (step t pp f g) ts h) (snd e)))) ts _ Hi). }
  assert (Htask : t = Classification).
  { specialize (Hg _ Hi). destruct t; [reflexivity| |]; cbn in Hg; intuition discriminate. }
  assert (Hval : forall k, takes t "underperforming_group" k -> (has_value k a = true <->
     (if smem k (keys (deref h r)) then value_of k (deref h r) else if String.eqb k "cluster_ids" then None else input t pp f g k) <> None)).
  { intros k Hk. assert (Hv : has_value k a = true <-> value_of k a <> None).
    { unfold has_value, value_of. destruct (lookup k a) as [[v|]|]; intuition congruence. }
    rewrite Hv. unfold a. rewrite (steps_at t pp f g ts Hr h Hb' _ r Hi).
    destruct (updated_value t pp f g "underperforming_group" (deref h r) k (proj2 (Hb _ Hi))) as (H1 & H2 & _).
    destruct (smem k (keys (deref h r))) eqn:Es.
    - apply smem_iff in Es. now rewrite (H1 Es).
    - apply smem_false in Es. rewrite (H2 Es Hk). destruct (String.eqb_spec k "cluster_ids") as [->|]; [|tauto].
      cbn. tauto. }
  assert (T : forall k, In k ["pred_probs"; "features"; "knn_graph"; "cluster_ids"] -> takes t "underperforming_group" k).
  { intros k Hk. rewrite Htask. exists ["pred_probs"; "features"; "knn_graph"; "cluster_ids"]. split; [reflexivity|auto]. }
  rewrite <- !Hval by (apply T; cbn; auto).
  split.
  - intros Hk. unfold keys in Hk. apply in_map_iff in Hk as ([k b] & E & Hk). cbn in E. subst k.
    apply (drops_in t hl l _ Nl) in Hk as (Hk & (_ & _ & Hu)).
    assert (b = a) by (apply (lookup_NoDup _ _ _ Nl) in Hk; apply (lookup_NoDup _ _ _ Nl) in Ha; congruence). subst b.
    exact (Hu eq_refl).
  - intros Hv. change "underperforming_group" with (fst ("underperforming_group", a)). apply in_map, (drops_in t hl l _ Nl).
    split; [auto|]. unfold admissible. cbn [fst snd]. repeat split; intros; try discriminate; tauto.
Qed.
End Available.
