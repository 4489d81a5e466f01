(** * Proofs for C150 *)
From Coq Require Import String QArith List ZArith Bool Arith Lia.
From Verif Require Import Base BaseFacts ModelChecks SpecChecks ProofChecks2 ModelGroups SpecGroups.
Import ListNotations.
Open Scope nat_scope.

Lemma get_put {X} k k' (v : X) d : get k (put k' v d) = if String.eqb k k' then Some v else get k d.
Proof.
  induction d as [|[q x] d IH]; cbn [put get].
  - reflexivity.
  - destruct (String.eqb k' q) eqn:E; cbn [get].
    + apply String.eqb_eq in E. subst q. destruct (String.eqb k k'); reflexivity.
    + rewrite IH. destruct (String.eqb k q) eqn:E1; [|reflexivity]. apply String.eqb_eq in E1. subst q.
      destruct (String.eqb k k') eqn:E2; [|reflexivity]. apply String.eqb_eq in E2. subst k'.
      rewrite String.eqb_refl in E. discriminate.
Qed.
Lemma get_flat {X} (kw : list (string * option X)) k v : forall keys,
  get k (flat_map (fun k => match get k kw with Some (Some v) => [(k, v)] | _ => [] end) keys) = Some v <->
  In k keys /\ get k kw = Some (Some v).
Proof.
  induction keys as [|q keys IH]; cbn [flat_map].
  - cbn. split; [discriminate|tauto].
  - destruct (String.eqb k q) eqn:E.
    + apply String.eqb_eq in E. subst q. destruct (get k kw) as [[w|]|] eqn:G; cbn [app get].
      * rewrite String.eqb_refl. split; [intros H; injection H as ->; cbn; auto|]. intros [_ H]. congruence.
      * rewrite IH. split; intros [_ H]; discriminate.
      * rewrite IH. split; intros [_ H]; discriminate.
    + assert (N : q <> k) by (intros ->; rewrite String.eqb_refl in E; discriminate).
      assert (R : get k ((match get q kw with Some (Some v) => [(q, v)] | _ => [] end) ++
                     flat_map (fun k => match get k kw with Some (Some v) => [(k, v)] | _ => [] end) keys) = Some v <->
                  get k (flat_map (fun k => match get k kw with Some (Some v) => [(k, v)] | _ => [] end) keys) = Some v).
      { destruct (get q kw) as [[w|]|]; cbn [app get]; [rewrite E|..]; reflexivity. }
      rewrite R, IH. cbn [In]. tauto.
Qed.

Lemma regular_concat {X} (k : nat) : forall (g : list (list X)), (forall row, In row g -> length row = k) ->
  length (concat g) = length g * k /\
  forall d i, i < length g -> 1 <= k -> nth (i * k) (concat g) d = hd d (nth i g []).
Proof.
  induction g as [|r g IH]; intros H; cbn [concat length].
  - split; [reflexivity|]. intros d i Hi. lia.
  - assert (Lr : length r = k) by (apply H; left; reflexivity).
    destruct IH as [L N]; [intros row I; apply H; right; exact I|]. split.
    + rewrite app_length, L, Lr. reflexivity.
    + intros d [|i] Hi Hk; cbn [nth Nat.mul].
      * destruct r as [|x r]; [cbn in Lr; lia|]. reflexivity.
      * rewrite app_nth2 by lia. rewrite Lr. replace (k + i * k - k) with (i * k) by lia. apply N; lia.
Qed.
Lemma first_regular {X} (d : X) (g : list (list X)) k : g <> [] -> 1 <= k -> (forall row, In row g -> length row = k) ->
  first_entries d g = Ok (map (hd d) g).
Proof.
  intros NE Hk H. destruct (regular_concat k g H) as [L N]. unfold first_entries. rewrite L.
  assert (G : length g <> 0) by (destruct g; [congruence|cbn; lia]).
  replace (length g * k / length g) with k by (rewrite Nat.mul_comm, Nat.div_mul; [reflexivity|exact G]).
  destruct (Nat.eqb_spec (length g) 0); [contradiction|]. rewrite Nat.eqb_refl. cbn [negb orb].
  destruct (Nat.eqb_spec k 0); [lia|]. f_equal.
  apply (list_eq_nth _ _ d); [rewrite tab_length, map_length; reflexivity|]. rewrite tab_length. intros i Hi.
  rewrite nth_tab by exact Hi. rewrite N by assumption. symmetry. apply (nth_map_gen _ _ _ _ []). exact Hi.
Qed.

Section Groups.
Context {V : Type} (valid_keys : list string) (dbscan : @kwargs V -> list (list (nat * Q)) -> list Z) (precomputed : V)
        (so : list Z -> list Z).
Notation params_of := (dbscan_params valid_keys precomputed).
Notation find := (find_groups valid_keys dbscan precomputed so).

Theorem params_spec kw : get "metric" (params_of kw) = Some precomputed /\
  forall k v, k <> "metric"%string -> (get k (params_of kw) = Some v <-> In k valid_keys /\ get k kw = Some (Some v)).
Proof.
  unfold dbscan_params. split; [rewrite get_put; reflexivity|]. intros k v N. rewrite get_put.
  destruct (String.eqb k "metric") eqn:E; [apply String.eqb_eq in E; contradiction|]. apply get_flat.
Qed.

Theorem given_equals_computed thr m kw kw' labels pp g other rep i w : regular g ->
  find thr m kw (Some labels) pp (Ok g) None = Ok (rep, i, w) <->
  (w = false /\ nearest i = Some (first_neighbours g, first_distances g) /\
   algorithm (clusters i) = Some "DBSCAN"%string /\ params (clusters i) = [("metric"%string, precomputed)] /\
   exists i' w', find thr m kw' (Some labels) pp other (Some (dbscan (params_of kw) g)) = Ok (rep, i', w') /\
     nearest i' = None /\ algorithm (clusters i') = None /\ params (clusters i') = [] /\ same_statistics (clusters i) (clusters i') /\
     (w' = true <-> kw' <> [])).
Proof.
  intros (NE & k & Hk & HR). unfold find_groups, perform_clustering. cbn [rbind fst snd].
  rewrite (first_regular (0, 0%Q) g k NE Hk HR). cbn [rbind].
  destruct (filter_cluster_ids so m (dbscan (params_of kw) g)) as [u|e]; cbn [rbind];
    [|split; [discriminate|intros (_ & _ & _ & _ & ? & ? & H & _); discriminate]].
  destruct (underperforming_check so thr m (dbscan (params_of kw) g) labels pp) as [[r wid]|e]; cbn [rbind fst snd];
    [|split; [discriminate|intros (_ & _ & _ & _ & ? & ? & H & _); discriminate]].
  split.
  - intros E. injection E as <- <- <-. cbn [nearest clusters algorithm params].
    split; [destruct kw; reflexivity|]. split; [unfold first_neighbours, first_distances; rewrite !map_map; reflexivity|].
    split; [reflexivity|]. split; [reflexivity|].
    do 2 eexists. split; [reflexivity|]. cbn [nearest clusters algorithm params]. repeat (split; [reflexivity|]).
    split; [split; [reflexivity|split; reflexivity]|]. destruct kw'; split; try congruence; discriminate.
  - intros (-> & EN & EA & EP & i' & w' & E & N' & A' & P' & (S1 & S2 & S3) & _). injection E as <- <- <-. cbn [clusters n_clusters all_ids underperforming_id] in *.
    destruct i as [ni [al pa nc ai ui]]. cbn [nearest clusters algorithm params n_clusters all_ids underperforming_id] in *. subst.
    unfold first_neighbours, first_distances. rewrite !map_map. destruct kw; reflexivity.
Qed.

Theorem counted thr m kw labels pp graph ids rep i w : visits_all so ->
  find thr m kw labels pp graph ids = Ok (rep, i, w) ->
  exists L, NoDup L /\ (forall c, In c L <-> kept m (all_ids (clusters i)) c) /\ n_clusters (clusters i) = length L /\ L <> [].
Proof.
  intros HO. unfold find_groups. destruct labels as [labels|]; [|discriminate].
  destruct (match ids with Some ids => Ok (ids, None) | None => _ end) as [st|e]; cbn [rbind]; [|discriminate].
  destruct (filter_cluster_ids so m (fst st)) as [u|e] eqn:F; cbn [rbind]; [|discriminate].
  destruct (underperforming_check so thr m (fst st) labels pp) as [f|e] eqn:U; cbn [rbind]; [|discriminate].
  destruct (match snd st with None => Ok None | Some g => _ end) as [nr|e]; cbn [rbind]; [|discriminate].
  intros E. injection E as <- <- <-. cbn [clusters n_clusters all_ids].
  assert (E : u = uids so m (fst st)).
  { unfold filter_cluster_ids in F. destruct (existsb _ _); [discriminate|]. injection F as <-. reflexivity. }
  exists u. split; [|split; [|split; [reflexivity|]]].
  - subst u. unfold uids. apply NoDup_filter, NoDup_filter. apply (HO (fst st)).
  - intros c. subst u. apply uids_kept. exact HO.
  - intros ->. unfold underperforming_check in U. rewrite F in U. cbn in U. discriminate.
Qed.


Theorem no_array thr m kw pp graph ids : find thr m kw None pp graph ids = Raise TypeError.
Proof. reflexivity. Qed.
End Groups.
