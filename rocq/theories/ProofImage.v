(** * Proofs about audits of image datasets *)
From Coq Require Import String QArith List Bool Arith Lia.
From Verif Require Import Base BaseFacts ModelDatalab SpecDatalab ProofDatalab ModelImage SpecImage.
Import ListNotations.
Open Scope string_scope.
Open Scope list_scope.

Lemma filter_all_true {A} (f : A -> bool) l : (forall x, In x l -> f x = true) -> filter f l = l.
Proof.
  induction l as [|x l IH]; cbn; intros H; [reflexivity|]. rewrite (H x (or_introl eq_refl)). f_equal. apply IH. intros y Hy. apply H. now right.
Qed.
Lemma image_key_smem k : smem k ["image_issue_types"; "spurious_correlations"] = true <-> image_key k.
Proof. rewrite smem_iff. unfold image_key. cbn. intuition. Qed.

Lemma plain_part_filter d d' : plain_part d d' <->
  d' = filter (fun kv : string * value => negb (smem (fst kv) ["image_issue_types"; "spurious_correlations"])) d.
Proof.
  split.
  - intros H. induction H as [|k v d d' Hk _ IH|k v d d' Hk _ IH]; cbn [filter fst]; [reflexivity| |].
    + destruct (smem k _) eqn:E; [apply image_key_smem in E; contradiction|]. cbn [negb]. now rewrite <- IH.
    + apply image_key_smem in Hk. rewrite Hk. cbn [negb]. exact IH.
  - intros ->. induction d as [|[k v] d IH]; cbn [filter fst]; [constructor|].
    destruct (smem k _) eqn:E; cbn [negb].
    + apply Plain_drop; [now apply image_key_smem|exact IH].
    + apply Plain_keep; [|exact IH]. intros H. apply image_key_smem in H. congruence.
Qed.

Lemma default_lookup name p : lookup name default_image_checks = Some p <-> In (name, p) default_image_checks.
Proof.
  split; [apply lookup_in|]. apply lookup_NoDup. cbn.
  repeat (constructor; [cbn; intuition discriminate|]). constructor.
Qed.

Lemma checks_effective entries : forall l,
  rmap (fun e : string * value => if truthy (snd e) then Ok e
        else match lookup (fst e) default_image_checks with Some p => Ok (fst e, p) | None => Raise KeyError end) entries = Ok l
  <-> Forall2 effective entries l.
Proof.
  induction entries as [|[k v] es IH]; intros l; cbn [rmap].
  - split; [intros [= <-]; constructor|intros H; inversion H; reflexivity].
  - cbn [fst snd]. split.
    + destruct (truthy v) eqn:T; cbn [rbind].
      * destruct (rmap _ es) as [l'|e] eqn:E; cbn [rbind]; [|discriminate]. intros [= <-].
        constructor; [|now apply IH]. split; [reflexivity|]. left. now split.
      * destruct (lookup k default_image_checks) as [p|] eqn:Lk; cbn [rbind]; [|discriminate].
        destruct (rmap _ es) as [l'|e] eqn:E; cbn [rbind]; [|discriminate]. intros [= <-].
        constructor; [|now apply IH]. split; [reflexivity|]. right. split; [exact T|]. now apply default_lookup.
    + intros H. inversion H as [|a [k' v'] es' l' He Hes]; subst. destruct He as (Hk & He). cbn in Hk. subst k'. cbn [snd fst] in He.
      apply IH in Hes. rewrite Hes. destruct He as [(-> & T)|(T & Hin)]; rewrite T; cbn [rbind].
      * reflexivity.
      * apply default_lookup in Hin. rewrite Hin. reflexivity.
Qed.

Lemma asks_images_checks types l : asks_images types l ->
  image_checks types = Ok (Some l) \/ image_checks types = Ok None /\ l = [].
Proof.
  unfold asks_images, image_checks. destruct types as [d|]; [|intros ->; now left].
  destruct (lookup "image_issue_types" d) as [v|]; [|intros ->; now right].
  intros (es & -> & H). apply checks_effective in H. rewrite H. now left.
Qed.

Lemma asks_spurious_threshold types t : types <> Some [] -> asks_spurious types t ->
  spurious_threshold types = Ok t /\ match types with None | Some [] => true | Some d => smem "spurious_correlations" (keys d) end = true.
Proof.
  intros Hne. unfold asks_spurious, spurious_threshold. destruct types as [[|e d]|]; [congruence| |intros ->; now split].
  intros (p & Hl & Hp). rewrite Hl. split.
  - destruct Hp as [Hp|(Hp & ->)]; now rewrite Hp.
  - apply smem_iff. apply lookup_in in Hl. now apply (in_map fst) in Hl.
Qed.
Lemma no_spurious_asked types : types <> Some [] -> no_spurious types ->
  match types with None | Some [] => true | Some d => smem "spurious_correlations" (keys d) end = false.
Proof.
  intros Hne (d & -> & Hd). destruct d as [|e d]; [congruence|]. apply smem_false. now apply lookup_none.
Qed.

Lemma scored_iff {V} (lab : imagelab V) : has_image_scores lab = true <-> scored lab.
Proof.
  unfold has_image_scores, scored. rewrite existsb_exists. split.
  - intros (t & Ht & Hs). apply in_map_iff in Ht as ([n p] & <- & Hin). exists n, p. split; [exact Hin|]. now apply smem_iff.
  - intros (n & p & Hin & Hs). exists n. split; [now apply (in_map fst) in Hin|]. now apply smem_iff.
Qed.

Lemma substring_all s : substring 0 (String.length s) s = s.
Proof. induction s as [|c s IH]; cbn; [reflexivity|]. now rewrite IH. Qed.
Lemma substring_app_r a b : substring (String.length a) (String.length b) (a ++ b) = b.
Proof. induction a as [|c a IH]; cbn; [apply substring_all|]. exact IH. Qed.
Lemma substring_split s : forall n, (n <= String.length s)%nat -> exists a, s = (a ++ substring n (String.length s - n) s)%string.
Proof.
  induction s as [|c s IH]; intros n Hn.
  - exists ""%string. cbn in Hn. replace n with 0%nat by lia. reflexivity.
  - destruct n as [|n].
    + exists ""%string. rewrite Nat.sub_0_r. now rewrite substring_all.
    + cbn in Hn. destruct (IH n) as (a & Ha); [lia|]. exists (String c a). cbn [String.length Nat.sub substring append]. now rewrite <- Ha.
Qed.
Lemma ends_with_iff suffix s : ends_with suffix s = true <-> exists t, s = (t ++ suffix)%string.
Proof.
  unfold ends_with. rewrite andb_true_iff. split.
  - intros (E & L). apply String.eqb_eq in E. apply Nat.leb_le in L.
    destruct (substring_split s (String.length s - String.length suffix)) as (a & Ha); [lia|].
    replace (String.length s - (String.length s - String.length suffix))%nat with (String.length suffix) in Ha by lia.
    rewrite E in Ha. now exists a.
  - intros (t & ->). rewrite length_append.
    replace (String.length t + String.length suffix - String.length suffix)%nat with (String.length t) by lia.
    rewrite substring_app_r. split; [apply String.eqb_refl|apply Nat.leb_le; lia].
Qed.
Lemma score_columns_filter f g : score_columns f g <-> g = filter (fun c : string * list cell => ends_with "_score" (fst c)) f.
Proof.
  split.
  - intros (keep & -> & H). apply filter_ext. intros c.
    destruct (keep c) eqn:E, (ends_with "_score" (fst c)) eqn:E'; try reflexivity.
    + apply H in E. apply ends_with_iff in E. congruence.
    + apply ends_with_iff in E'. apply H in E'. congruence.
  - intros ->. exists (fun c => ends_with "_score" (fst c)). split; [reflexivity|]. intros c. apply ends_with_iff.
Qed.

Lemma same_refl {V} (a : data_issues V) : same_but_spurious a a.
Proof. unfold same_but_spurious. intuition. Qed.

Lemma lookup_update_other {A} k (e : list (string * A)) : forall d, ~ In k (keys e) -> lookup k (dict_update d e) = lookup k d.
Proof.
  induction e as [|[k' v] e IH]; intros d Hk; [reflexivity|]. cbn [dict_update fold_left]. unfold dict_update in IH.
  rewrite IH by (intros H; apply Hk; now right). cbn [fst snd]. rewrite lookup_dict_set.
  destruct (String.eqb_spec k k') as [->|]; [|reflexivity]. elim Hk. now left.
Qed.
Lemma rmap_keys {V} (f : string -> res V) types : forall infos,
  rmap (fun t => match f t with Ok v => Ok (t, v) | Raise e => Raise e end) types = Ok infos -> keys infos = types.
Proof.
  induction types as [|t types IH]; intros infos; cbn [rmap]; [now intros [= <-]|].
  destruct (f t) as [v|]; cbn [rbind]; [|discriminate]. destruct (rmap _ types) as [l|] eqn:E; cbn [rbind]; [|discriminate].
  intros [= <-]. cbn. f_equal. now apply IH.
Qed.
Lemma collect_info {V} (lab : imagelab V) types st st' k : collect_imagelab lab types st = Ok st' -> ~ In k types ->
  lookup k (info st') = lookup k (info st).
Proof.
  unfold collect_imagelab. destruct (negb _); [discriminate|].
  destruct (rmap _ types) as [infos|e] eqn:E; cbn [rbind]; [|discriminate]. intros [= <-] Hk. cbn [info].
  apply lookup_update_other.
  assert (K : keys infos = types).
  { apply (rmap_keys (fun t => match lookup t (i_info lab) with Some v => Ok v | None => Raise KeyError end)).
    rewrite <- E. clear. induction types as [|t types IH]; cbn [rmap]; [reflexivity|].
    rewrite IH. now destruct (lookup t (i_info lab)). }
  now rewrite K.
Qed.

Section Image.
Context {V : Type}.
Variable base : option (list (string * value)) -> data_issues V -> res (data_issues V).
Variable lab_find : list (string * value) -> imagelab V -> imagelab V * bool.
Variable lab_stats : imagelab V -> list (string * V).
Variable correlate : frame -> value -> option V.
Notation audit_ := (image_audit base lab_find lab_stats correlate).

Lemma run_spurious_same hl t st lab : same_but_spurious (run_spurious correlate hl t st lab) st.
Proof.
  unfold run_spurious. destruct hl; [|apply same_refl]. destruct (correlate _ _) as [v|]; [|apply same_refl].
  unfold same_but_spurious. cbn. repeat (split; [reflexivity|]). intros k Hk. rewrite lookup_dict_set.
  destruct (String.eqb_spec k "spurious_correlations"); [contradiction|reflexivity].
Qed.

Lemma audit_plain hl d st lab : d <> [] -> lookup "image_issue_types" d = None -> lookup "spurious_correlations" d = None ->
  audit_ hl (Some d) st lab = match base (Some d) st with Ok st' => (st', lab, Ok tt) | Raise e => (st, lab, Raise e) end.
Proof.
  intros Hd Hi Hs. destruct d as [|e d]; [congruence|]. unfold image_audit, adapter_find.
  assert (P : ordinary (Some (e :: d)) = Some (e :: d)).
  { unfold ordinary. f_equal. rewrite filter_all_true; [reflexivity|]. intros [k v] Hin. cbn [fst].
    destruct (smem k _) eqn:E; [|reflexivity]. apply image_key_smem in E.
    apply (in_map fst) in Hin. cbn in Hin. fold (keys (e :: d)) in Hin.
    destruct E as [->| ->]; [apply lookup_none in Hi|apply lookup_none in Hs]; contradiction. }
  rewrite P. destruct (base (Some (e :: d)) st) as [st1|x]; [|reflexivity].
  unfold image_checks. rewrite Hi. cbn [run_image_checks].
  apply lookup_none, smem_false in Hs. rewrite Hs. reflexivity.
Qed.

Lemma audit_rejected hl types d' st lab e : types <> Some [] ->
  match types with None => d' = None | Some d => exists p, d' = Some p /\ plain_part d p end ->
  base d' st = Raise e -> audit_ hl types st lab = (st, lab, Raise e).
Proof.
  intros Hne Hd Hb. unfold image_audit, adapter_find.
  assert (P : ordinary types = d').
  { destruct types as [[|x d]|]; [congruence| |cbn; congruence].
    destruct Hd as (p & -> & Hp). apply plain_part_filter in Hp. subst p. reflexivity. }
  rewrite P, Hb. now destruct types as [[|x d]|]; [congruence| |].
Qed.

Lemma ordinary_of types d' : types <> Some [] ->
  match types with None => d' = None | Some d => exists p, d' = Some p /\ plain_part d p end -> ordinary types = d'.
Proof.
  intros Hne Hd. destruct types as [[|x d]|]; [congruence| |cbn; congruence].
  destruct Hd as (p & -> & Hp). apply plain_part_filter in Hp. subst p. reflexivity.
Qed.

(** the part up to the spurious correlations *)
Lemma audit_unfold hl types l st st1 lab : types <> Some [] ->
  base (ordinary types) st = Ok st1 -> asks_images types l ->
  let m := run_image_checks lab_find lab_stats (Some l) st1 lab in
  (no_spurious types -> audit_ hl types st lab = (fst m, snd m, Ok tt)) /\
  (forall t, asks_spurious types t -> scored (snd m) ->
     audit_ hl types st lab = (run_spurious correlate hl t (fst m) (snd m), snd m, Ok tt)) /\
  (~ scored (snd m) -> audit_ hl types st lab = (fst m, snd m, Ok tt)).
Proof.
  intros Hne Hb Hl m.
  assert (A : audit_ hl types st lab = adapter_find base lab_find lab_stats correlate hl types st lab).
  { unfold image_audit. now destruct types as [[|x d]|]; [congruence| |]. }
  rewrite A. unfold adapter_find. rewrite Hb.
  assert (M : forall F : data_issues V * imagelab V -> data_issues V * imagelab V * res unit,
     match image_checks types with Raise e => (st1, lab, Raise e) | Ok c => F (run_image_checks lab_find lab_stats c st1 lab) end = F m).
  { intros F. destruct (asks_images_checks _ _ Hl) as [E|(E & El)]; rewrite E; [reflexivity|].
    unfold m. rewrite El. reflexivity. }
  set (F := fun p : data_issues V * imagelab V => let (st2, lab2) := p in
      let asked := match types with None | Some [] => true | Some d => smem "spurious_correlations" (keys d) end in
      if negb asked then (st2, lab2, Ok tt)
      else if negb (has_image_scores lab2) then (st2, lab2, Ok tt)
      else match spurious_threshold types with
           | Raise e => (st2, lab2, Raise e)
           | Ok threshold => (run_spurious correlate hl threshold st2 lab2, lab2, Ok tt)
           end).
  specialize (M F). unfold F in M at 1. rewrite M. unfold F. clear M F. destruct m as [st2 lab2]. cbn [fst snd].
  split; [|split].
  - intros Hn. rewrite (no_spurious_asked _ Hne Hn). reflexivity.
  - intros t Ht Hs. destruct (asks_spurious_threshold _ _ Hne Ht) as (E1 & E2). rewrite E2, E1.
    apply scored_iff in Hs. rewrite Hs. reflexivity.
  - intros Hs. cbv zeta. destruct (negb _); [reflexivity|].
    destruct (has_image_scores lab2) eqn:E; [apply scored_iff in E; contradiction|]. reflexivity.
Qed.

(** a request that is spelled correctly *)
Lemma audit_tables hl types l d' st st1 lab : types <> Some [] ->
  match types with None => d' = None | Some d => exists p, d' = Some p /\ plain_part d p end ->
  base d' st = Ok st1 -> asks_images types l -> (no_spurious types \/ exists t, asks_spurious types t) ->
  exists st' lab', audit_ hl types st lab = (st', lab', Ok tt) /\
    (l = [] -> lab' = lab /\ same_but_spurious st' st1) /\
    (l <> [] -> lab' = fst (lab_find l lab) /\
       (snd (lab_find l lab) = false -> same_but_spurious st' st1) /\
       (snd (lab_find l lab) = true -> forall st2,
          collect_imagelab lab' (map fst l)
            (DI (d_rows st1) (issues st1) (issue_summary st1) (info st1) (dict_update (statistics st1) (lab_stats lab')) (health_score st1)) = Ok st2 ->
          same_but_spurious st' st2)).
Proof.
  intros Hne Hd Hb Hl Hs. rewrite <- (ordinary_of _ _ Hne Hd) in Hb.
  destruct (audit_unfold hl types l st st1 lab Hne Hb Hl) as (A1 & A2 & A3). cbv zeta in A1, A2, A3.
  set (m := run_image_checks lab_find lab_stats (Some l) st1 lab) in *.
  assert (E : exists st', audit_ hl types st lab = (st', snd m, Ok tt) /\ same_but_spurious st' (fst m)).
  { destruct Hs as [Hn|(t & Ht)]; [exists (fst m); split; [now apply A1|apply same_refl]|].
    destruct (has_image_scores (snd m)) eqn:S.
    - apply scored_iff in S. exists (run_spurious correlate hl t (fst m) (snd m)). split; [now apply A2|apply run_spurious_same].
    - exists (fst m). split; [|apply same_refl]. apply A3. intros H. apply scored_iff in H. congruence. }
  destruct E as (st' & E & Es). exists st', (snd m). split; [exact E|]. split.
  - intros ->. split; [reflexivity|exact Es].
  - intros Hl0. unfold m, run_image_checks in *. destruct l as [|x l]; [congruence|].
    destruct (lab_find (x :: l) lab) as [lab' ok]. destruct ok; cbn [fst snd] in *.
    + split; [reflexivity|]. split; [discriminate|]. intros _ st2 H2. unfold keys in Es. rewrite H2 in Es. exact Es.
    + split; [reflexivity|]. split; [intros _; exact Es|discriminate].
Qed.

Lemma audit_spurious hl types l d' st st1 lab st' lab' r : types <> Some [] ->
  match types with None => d' = None | Some d => exists p, d' = Some p /\ plain_part d p end ->
  base d' st = Ok st1 -> asks_images types l -> audit_ hl types st lab = (st', lab', r) ->
  ~ In "spurious_correlations" (map fst l) ->
  let before := lookup "spurious_correlations" (info st1) in
  (no_spurious types -> lookup "spurious_correlations" (info st') = before) /\
  (forall t g, asks_spurious types t -> score_columns (i_frame lab') g ->
     (hl = true -> scored lab' -> forall v, correlate g t = Some v -> lookup "spurious_correlations" (info st') = Some v) /\
     (hl = false \/ ~ scored lab' \/ correlate g t = None -> lookup "spurious_correlations" (info st') = before)).
Proof.
  intros Hne Hd Hb Hl Ha Hns before. rewrite <- (ordinary_of _ _ Hne Hd) in Hb.
  destruct (audit_unfold hl types l st st1 lab Hne Hb Hl) as (A1 & A2 & A3). cbv zeta in A1, A2, A3. unfold before. clear before.
  set (m := run_image_checks lab_find lab_stats (Some l) st1 lab) in *.
  assert (B : lookup "spurious_correlations" (info (fst m)) = lookup "spurious_correlations" (info st1)).
  { unfold m, run_image_checks. destruct l as [|x l]; [reflexivity|]. destruct (lab_find (x :: l) lab) as [lab2 ok]. destruct ok; [|reflexivity].
    cbn [fst]. destruct (collect_imagelab _ _ _) as [st2|e] eqn:E; [|reflexivity].
    exact (collect_info _ _ _ _ _ E Hns). }
  rewrite <- B. clear B.
  split; [intros Hn; rewrite (A1 Hn) in Ha; now injection Ha as <- <- <-|].
  intros t g Ht Hg.
  destruct (has_image_scores (snd m)) eqn:S.
  - apply scored_iff in S. rewrite (A2 t Ht S) in Ha. injection Ha as <- <- <-.
    apply score_columns_filter in Hg. subst g. unfold run_spurious. split.
    + intros -> _ v Hv. rewrite Hv. cbn [info]. rewrite lookup_dict_set. now rewrite String.eqb_refl.
    + intros [->|[Hs|Hc]]; [reflexivity|contradiction|]. rewrite Hc. now destruct hl.
  - assert (N : ~ scored (snd m)) by (intros H; apply scored_iff in H; congruence).
    rewrite (A3 N) in Ha. injection Ha as <- <- <-. split; [intros _ Hs; contradiction|reflexivity].
Qed.

(** misspelled requests *)
Lemma audit_unknown hl d entries name p d' st st1 lab : plain_part d d' -> base (Some d') st = Ok st1 ->
  lookup "image_issue_types" d = Some (VDict entries) -> In (name, p) entries -> truthy p = false ->
  ~ In name (keys default_image_checks) ->
  audit_ hl (Some d) st lab = (st1, lab, Raise KeyError).
Proof.
  intros Hd Hb Hi Hin Hp Hn.
  assert (Hne : Some d <> Some []) by (intros [= ->]; discriminate).
  assert (E : image_checks (Some d) = Raise KeyError).
  { unfold image_checks. rewrite Hi. clear Hi.
    assert (R : rmap (fun e : string * value => if truthy (snd e) then Ok e
        else match lookup (fst e) default_image_checks with Some p => Ok (fst e, p) | None => Raise KeyError end) entries = Raise KeyError).
    { induction entries as [|[k v] es IH]; [destruct Hin|]. cbn [rmap fst snd]. destruct Hin as [[= -> ->]|Hin].
      - rewrite Hp. apply lookup_none in Hn. rewrite Hn. reflexivity.
      - specialize (IH Hin). destruct (truthy v); cbn [rbind]; [rewrite IH; reflexivity|].
        destruct (lookup k default_image_checks); cbn [rbind]; [rewrite IH; reflexivity|reflexivity]. }
    rewrite R. reflexivity. }
  unfold image_audit, adapter_find.
  rewrite (ordinary_of (Some d) (Some d') Hne) by (exists d'; now split). rewrite Hb, E.
  now destruct d as [|x d]; [congruence|].
Qed.
End Image.
