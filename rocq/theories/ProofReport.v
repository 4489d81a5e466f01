(** * Proofs about get_info, the report and the registry *)
From Coq Require Import String QArith List Bool Arith Sorted Permutation Lia.
From Verif Require Import Base BaseFacts ModelLabels SpecLabels ProofLabels ModelDatalab SpecDatalab ProofDatalab ModelReport SpecReport.
Import ListNotations.
Open Scope string_scope.
Open Scope list_scope.
Open Scope nat_scope.

Lemma upd_len {X} (l : list X) i v : length (upd l i v) = length l.
Proof. revert i. induction l as [|a l IH]; intros [|i]; cbn; auto. Qed.
Lemma nth_upd {X} (l : list X) i j v d : nth j (upd l i v) d = if Nat.eqb j i && Nat.ltb i (length l) then v else nth j l d.
Proof.
  revert i j. induction l as [|a l IH]; intros i j; cbn [upd nth length].
  - change (Nat.ltb i 0) with false. rewrite andb_false_r. destruct i; reflexivity.
  - destruct i as [|i], j as [|j]; cbn [upd nth]; try reflexivity. rewrite IH. reflexivity.
Qed.

Section Info.
Context {A W : Type}.
Implicit Types (st : store A W) (d : labels A) (i : idict A W).

Lemma get_info_objs t d s st : valid_store st -> forall st' r, get_info t d (Some s) st = (st', r) ->
  top st' = top st /\ length (objs st) <= length (objs st') /\
  (forall loc, loc < length (objs st) -> nth loc (objs st') [] = nth loc (objs st) []) /\
  match r with
  | Ok h => h = At (length (objs st)) /\ length (objs st') = S (length (objs st)) /\
            exists i, stored st s = Some i /\ show_info t d s i = Ok (content st' h)
  | Raise e => stored st s = None /\ e = ValueError \/ exists i, stored st s = Some i /\ show_info t d s i = Raise e
  end.
Proof.
  intros V st' r. unfold get_info, stored. destruct (lookup s (top st)) as [loc|] eqn:L.
  - pose proof (V _ _ L) as Lt.
    destruct (show_info t d s (nth loc (objs st) [])) as [i|e] eqn:E; intros H; injection H as <- <-; cbn [top objs].
    + rewrite upd_len, app_length. cbn [length]. split; [reflexivity|]. split; [lia|]. split.
      { intros l Hl. rewrite nth_upd. destruct (Nat.eqb_spec l (length (objs st))); [lia|]. cbn [andb].
        now rewrite app_nth1. }
      split; [reflexivity|]. split; [lia|]. exists (nth loc (objs st) []). split; [reflexivity|].
      cbn [content objs]. rewrite nth_upd, Nat.eqb_refl, app_length. cbn [length].
      destruct (Nat.ltb_spec (length (objs st)) (length (objs st) + 1)); [exact E|lia].
    + rewrite app_length. cbn [length]. split; [reflexivity|]. split; [lia|]. split.
      { intros l Hl. now rewrite app_nth1. }
      right. eexists. split; [reflexivity|]. exact E.
  - intros H. injection H as <- <-. repeat split; auto.
Qed.

Lemma writes_at ws loc : forall st, 
  let st' := caller_writes (At loc) ws st in
  top st' = top st /\ length (objs st') = length (objs st) /\ forall l, l <> loc -> nth l (objs st') [] = nth l (objs st) [].
Proof.
  unfold caller_writes. induction ws as [|w ws IH]; intros st; cbn [fold_left]; [auto|].
  destruct (IH (caller_write (At loc) (fst (fst w)) (snd (fst w)) (snd w) st)) as (T & L & N). clear IH.
  rewrite T, L. cbn [caller_write top objs]. rewrite upd_len. split; [auto|]. split; [auto|].
  intros l Hl. rewrite N by assumption. cbn [caller_write objs]. rewrite nth_upd.
  destruct (Nat.eqb_spec l loc); [congruence|]. reflexivity.
Qed.

Lemma private_full t d s st st' r : valid_store st -> get_info t d (Some s) st = (st', r) ->
  (forall s', stored st' s' = stored st s') /\
  forall h, r = Ok h -> forall ws,
    let st2 := caller_writes h ws st' in
    (forall s', stored st2 s' = stored st s') /\
    exists st3 h', get_info t d (Some s) st2 = (st3, Ok h') /\ content st3 h' = content st' h.
Proof.
  intros V G. destruct (get_info_objs t d s st V _ _ G) as (T & L & N & R). split.
  - intros s'. unfold stored. rewrite T. destruct (lookup s' (top st)) as [loc|] eqn:E; [|reflexivity].
    f_equal. apply N. exact (V _ _ E).
  - intros h -> ws. destruct R as (-> & Len & i & S0 & Sh).
    destruct (writes_at ws (length (objs st)) st') as (T2 & L2 & N2). cbv zeta in *.
    set (st2 := caller_writes (At (length (objs st))) ws st') in *.
    assert (St : forall s', stored st2 s' = stored st s').
    { intros s'. unfold stored. rewrite T2, T. destruct (lookup s' (top st)) as [loc|] eqn:E; [|reflexivity].
      pose proof (V _ _ E). f_equal. rewrite N2 by lia. apply N. assumption. }
    split; [exact St|].
    assert (V2 : valid_store st2).
    { intros s' loc. rewrite T2, T, L2, Len. intros E. pose proof (V _ _ E). lia. }
    destruct (get_info t d (Some s) st2) as [st3 r3] eqn:G3.
    destruct (get_info_objs t d s st2 V2 _ _ G3) as (_ & _ & _ & R3).
    destruct r3 as [h3|e3].
    + destruct R3 as (_ & _ & i3 & S3 & Sh3). exists st3, h3. split; [reflexivity|].
      rewrite St, S0 in S3. injection S3 as <-. rewrite Sh in Sh3. injection Sh3 as E3. symmetry. exact E3.
    + destruct R3 as [(S3 & _)|(i3 & S3 & Sh3)]; rewrite St, S0 in S3; [discriminate|].
      injection S3 as <-. congruence.
Qed.

(** names *)
Lemma name_labels_ints m l : l <> [] -> forall v, v = PList (ints l) \/ v = PArr 1 (ints l) ->
  name_labels (A:=A) (W:=W) Classification m v = Ok (PArr 1 (map (fun k => PName (inv_get m k)) l)).
Proof.
  intros N v [->| ->]; cbn [name_labels]; unfold ints; rewrite map_map; cbn [get_name];
    destruct l; [congruence|reflexivity|congruence|reflexivity].
Qed.
Lemma combine_get (cn : list A) k : inv_get (combine (seq 0 (length cn)) cn) k = nth_error cn k.
Proof.
  assert (G : forall s, inv_get (combine (seq s (length cn)) cn) (s + k) = nth_error cn k).
  { revert k. induction cn as [|x cn IH]; intros k s; cbn [length seq combine inv_get]; [now destruct k|].
    destruct k as [|k]; [rewrite Nat.add_0_r, Nat.eqb_refl; reflexivity|].
    destruct (Nat.eqb_spec (s + S k) s); [lia|]. cbn [nth_error]. rewrite <- IH with (s := S s). f_equal. lia. }
  exact (G 0).
Qed.
Lemma map_snd_combine_seq (cn : list A) s : map (fun e => PName (Some (snd e)) : pyval A W) (combine (seq s (length cn)) cn) = names cn.
Proof.
  revert s. induction cn as [|x cn IH]; intros s; cbn [length seq combine map]; [reflexivity|]. unfold names in *. cbn [map snd]. now rewrite IH.
Qed.
Lemma names_of_ints (cn : list A) (l : list nat) : (forall k, In k l -> k < length cn) ->
  exists xs, Forall2 (fun k x => nth_error cn k = Some x) l xs /\
    map (fun k => PName (inv_get (combine (seq 0 (length cn)) cn) k) : pyval A W) l = names xs.
Proof.
  induction l as [|k l IH]; intros B; [exists []; split; [constructor|reflexivity]|].
  destruct IH as (xs & F & E). { intros j Hj. apply B. now right. }
  destruct (nth_error cn k) as [x|] eqn:Ek.
  - exists (x :: xs). split; [constructor; assumption|]. cbn [map]. rewrite combine_get, Ek, E. reflexivity.
  - exfalso. apply nth_error_None in Ek. specialize (B k (or_introl eq_refl)). lia.
Qed.

(** the classification case of [show_info] *)
Lemma show_named s (i : idict A W) (cn : list A) (f p : list nat) v n :
  s = "label" \/ s = "class_imbalance" -> n <> 0 -> cn <> [] -> f <> [] -> (forall k, In k f -> k < length cn) ->
  lookup "given_label" i = Some v -> v = PList (ints f) \/ v = PArr 1 (ints f) ->
  (lookup "predicted_label" i = None \/
   p <> [] /\ (forall k, In k p -> k < length cn) /\ exists u, lookup "predicted_label" i = Some u /\ (u = PList (ints p) \/ u = PArr 1 (ints p))) ->
  exists i' xs, show_info Classification (Labels n (combine (seq 0 (length cn)) cn)) s i = Ok i' /\
    lookup "given_label" i' = Some (PArr 1 (names xs)) /\ Forall2 (fun k x => nth_error cn k = Some x) f xs /\
    (lookup "predicted_label" i = None -> lookup "predicted_label" i' = None) /\
    (lookup "predicted_label" i <> None -> exists ys, lookup "predicted_label" i' = Some (PArr 1 (names ys)) /\
       Forall2 (fun k y => nth_error cn k = Some y) p ys) /\
    lookup "class_names" i' = Some (PList (names cn)) /\
    forall k, k <> "given_label" -> k <> "predicted_label" -> k <> "class_names" -> lookup k i' = lookup k i.
Proof.
  intros Hs Hn Hcn Hf Bf Lg Hv Hp. destruct (names_of_ints cn f Bf) as (xs & Fx & Ex). 
  unfold show_info. replace (is_named Classification s) with true by (destruct Hs as [->| ->]; reflexivity).
  assert (Hav : available (Labels n (combine (seq 0 (length cn)) cn)) = true).
  { unfold available. cbn [l_count l_map]. rewrite combine_length, seq_length, Nat.min_id.
    destruct n; [congruence|]. destruct cn; [congruence|]. reflexivity. }
  rewrite Hav. cbn [negb l_map]. unfold name_key at 1. rewrite Lg. rewrite (name_labels_ints _ f Hf v Hv). cbn [rbind].
  rewrite Ex. unfold name_key. rewrite lookup_dict_set. cbn [String.eqb Ascii.eqb Bool.eqb].
  destruct Hp as [Hp|(Np & Bp & u & Lp & Hu)].
  - rewrite Hp. cbn [rbind]. eexists. exists xs. split; [reflexivity|].
    rewrite !lookup_dict_set. cbn [String.eqb Ascii.eqb Bool.eqb]. split; [reflexivity|]. split; [exact Fx|]. split; [intros _; exact Hp|]. split; [congruence|].
    rewrite map_snd_combine_seq. split; [reflexivity|]. intros k H1 H2 H3. rewrite !lookup_dict_set.
    destruct (String.eqb_spec k "class_names"); [congruence|]. destruct (String.eqb_spec k "given_label"); congruence.
  - rewrite Lp. rewrite (name_labels_ints _ p Np u Hu). cbn [rbind].
    destruct (names_of_ints cn p Bp) as (ys & Fy & Ey). rewrite Ey.
    eexists. exists xs. split; [reflexivity|].
    rewrite !lookup_dict_set. cbn [String.eqb Ascii.eqb Bool.eqb]. split; [reflexivity|]. split; [exact Fx|]. split; [congruence|].
    split; [intros _; exists ys; split; [reflexivity|exact Fy]|].
    rewrite map_snd_combine_seq. split; [reflexivity|]. intros k H1 H2 H3. rewrite !lookup_dict_set.
    destruct (String.eqb_spec k "class_names"); [congruence|]. destruct (String.eqb_spec k "predicted_label"); [congruence|].
    destruct (String.eqb_spec k "given_label"); congruence.
Qed.

Lemma names_unique (cn xs labs : list A) f : length f = length labs ->
  (forall (j : nat) x, nth_error labs j = Some x -> exists k, nth_error f j = Some k /\ nth_error cn k = Some x) ->
  Forall2 (fun k x => nth_error cn k = Some x) f xs -> xs = labs.
Proof.
  intros L H F. revert labs L H. induction F as [|k x f xs E F IH]; intros [|y labs] L H; cbn in L; try discriminate; [reflexivity|].
  destruct (H 0 y eq_refl) as (k' & E1 & E2). cbn in E1. injection E1 as <-. rewrite E in E2. injection E2 as ->.
  f_equal. apply IH; [lia|]. intros j z Hz. exact (H (S j) z Hz).
Qed.

Lemma names_full (leb : A -> A -> bool) labs f m s st i p v : total_order leb -> labs <> [] ->
  format_labels leb labs = Ok (f, m) -> valid_store st -> stored st s = Some i -> s = "label" \/ s = "class_imbalance" ->
  lookup "given_label" i = Some v -> v = PList (ints f) \/ v = PArr 1 (ints f) ->
  (lookup "predicted_label" i = None \/
   p <> [] /\ (forall k, In k p -> k < length m) /\ exists u, lookup "predicted_label" i = Some u /\ (u = PList (ints p) \/ u = PArr 1 (ints p))) ->
  exists st' loc cn, get_info Classification (Labels (length f) m) (Some s) st = (st', Ok (At loc)) /\
    m = combine (seq 0 (length cn)) cn /\ NoDup cn /\ (forall x, In x cn <-> In x labs) /\
    let i' := content st' (At loc) in
    lookup "given_label" i' = Some (PArr 1 (names labs)) /\
    (lookup "predicted_label" i = None -> lookup "predicted_label" i' = None) /\
    (lookup "predicted_label" i <> None -> exists ys, lookup "predicted_label" i' = Some (PArr 1 (names ys)) /\
       Forall2 (fun k y => nth_error cn k = Some y) p ys) /\
    lookup "class_names" i' = Some (PList (names cn)) /\
    forall k, k <> "given_label" -> k <> "predicted_label" -> k <> "class_names" -> lookup k i' = lookup k i.
Proof.
  intros O Nl Ff V S0 Hs Lg Hv Hp.
  destruct (C24_full leb O labs) as (f' & m' & cn & F' & (Em & Nd) & Hin & Lf & Hk & Hi & _).
  rewrite Ff in F'. injection F' as <- <-. subst m.
  assert (Hf : f <> []) by (destruct f, labs; cbn in Lf; congruence).
  assert (Bf : forall k, In k f -> k < length cn) by (intros k Hkk; now apply Hk).
  assert (Hcn : cn <> []). { intros ->. destruct f as [|k f]; [congruence|]. specialize (Bf k (or_introl eq_refl)). cbn in Bf. lia. }
  assert (Hp' : lookup "predicted_label" i = None \/
   p <> [] /\ (forall k, In k p -> k < length cn) /\ exists u, lookup "predicted_label" i = Some u /\ (u = PList (ints p) \/ u = PArr 1 (ints p))).
  { destruct Hp as [Hp|(P1 & P2 & P3)]; [left; exact Hp|right]. repeat split; auto. intros k Hkk. specialize (P2 k Hkk).
    rewrite combine_length, seq_length, Nat.min_id in P2. exact P2. }
  destruct (show_named s i cn f p v (length f) Hs ltac:(destruct f; cbn; congruence) Hcn Hf Bf Lg Hv Hp')
    as (i' & xs & Sh & G & Fx & P0 & P1 & Cn & Other).
  destruct (get_info Classification (Labels (length f) (combine (seq 0 (length cn)) cn)) (Some s) st) as [st' r] eqn:Gi.
  destruct (get_info_objs _ _ _ _ V _ _ Gi) as (_ & _ & _ & R). destruct r as [h|e].
  - destruct R as (-> & _ & i0 & S1 & Sh1). rewrite S0 in S1. injection S1 as <-. rewrite Sh in Sh1. injection Sh1 as ->.
    eexists _, _, cn. split; [reflexivity|]. split; [reflexivity|]. split; [exact Nd|]. split; [exact Hin|].
    cbv zeta. rewrite (names_unique cn xs labs f Lf) in G; [|intros j x Hj; destruct (Hi j x Hj) as (k & K1 & K2); exists k; split; [exact K1|]; now rewrite combine_get in K2|exact Fx].
    repeat (split; [assumption|]). exact Other.
  - exfalso. destruct R as [(S1 & _)|(i1 & S1 & Sh1)]; rewrite S0 in S1; [discriminate|]. injection S1 as <-. congruence.
Qed.

Lemma multi_get m (l : list (list nat)) v : v = PList (map (fun s => PList (ints s)) l) ->
  name_labels (A:=A) (W:=W) Multilabel m v = Ok (PList (map (fun s => PList (map (fun k => PName (inv_get m k)) s)) l)).
Proof.
  intros ->. cbn [name_labels].
  assert (E : rmap (fun s : pyval A W => match s with PList x | PArr _ x => Ok (PList (map (get_name m) x)) | _ => Raise TypeError end)
                (map (fun s => PList (ints s)) l) = Ok (map (fun s => PList (map (fun k => PName (inv_get m k)) s)) l)).
  { induction l as [|s l IH]; [reflexivity|]. cbn [map rmap]. unfold ints at 1. rewrite map_map. cbn [get_name rbind].
    rewrite IH. reflexivity. }
  rewrite E. reflexivity.
Qed.
Lemma multi_names_full (leb : A -> A -> bool) labs f m st i p : total_order leb -> concat labs <> [] ->
  format_multilabels leb labs = Ok (f, m) -> valid_store st -> stored st "label" = Some i ->
  lookup "given_label" i = Some (PList (map (fun s => PList (ints s)) f)) ->
  lookup "predicted_label" i = Some (PList (map (fun s => PList (ints s)) p)) ->
  exists st' loc, get_info Multilabel (Labels (length f) m) (Some "label") st = (st', Ok (At loc)) /\
    let i' := content st' (At loc) in
    lookup "given_label" i' = Some (PList (map (fun s => PList (names s)) labs)) /\
    lookup "predicted_label" i' = Some (PList (map (fun s => PList (map (fun k => PName (inv_get m k)) s)) p)) /\
    forall k, k <> "given_label" -> k <> "predicted_label" -> k <> "class_names" -> lookup k i' = lookup k i.
Proof.
  intros O Nl Ff V S0 Lg Lp.
  destruct (C24_multi_full leb O labs) as (f' & m' & cn & F' & (Em & Nd) & Hin & Hf & Hk & _).
  rewrite Ff in F'. injection F' as <- <-.
  assert (Sh : exists i', show_info Multilabel (Labels (length f) m) "label" i = Ok i' /\
    lookup "given_label" i' = Some (PList (map (fun s => PList (map (fun k => PName (inv_get m k)) s)) f)) /\
    lookup "predicted_label" i' = Some (PList (map (fun s => PList (map (fun k => PName (inv_get m k)) s)) p)) /\
    forall k, k <> "given_label" -> k <> "predicted_label" -> k <> "class_names" -> lookup k i' = lookup k i).
  { unfold show_info. cbn [is_named String.eqb Ascii.eqb Bool.eqb].
    assert (Hav : available (Labels (length f) m) = true).
    { unfold available. cbn [l_count l_map]. destruct f as [|x f]; [exfalso; inversion Hf; subst; cbn in Nl; congruence|].
      cbn [length Nat.eqb orb]. destruct m as [|y m]; [|reflexivity]. exfalso.
      destruct cn as [|c cn]; [|cbn in Em; discriminate].
      destruct (concat labs) as [|z zs] eqn:Ec; [congruence|].
      assert (Iz : In z (concat labs)) by (rewrite Ec; now left). apply in_concat in Iz.
      destruct Iz as (ls & I1 & I2). destruct (proj2 (Hin z) (ex_intro _ ls (conj I1 I2))). }
    rewrite Hav. cbn [negb l_map]. unfold name_key at 1. rewrite Lg. rewrite (multi_get m f) by reflexivity. cbn [rbind].
    unfold name_key. rewrite lookup_dict_set. cbn [String.eqb Ascii.eqb Bool.eqb]. rewrite Lp. rewrite (multi_get m p) by reflexivity. cbn [rbind].
    eexists. split; [reflexivity|]. rewrite !lookup_dict_set. cbn [String.eqb Ascii.eqb Bool.eqb]. split; [reflexivity|]. split; [reflexivity|].
    intros k H1 H2 H3. rewrite !lookup_dict_set.
    destruct (String.eqb_spec k "class_names"); [congruence|]. destruct (String.eqb_spec k "predicted_label"); [congruence|].
    destruct (String.eqb_spec k "given_label"); congruence. }
  destruct Sh as (i' & Sh & G & P & Other).
  destruct (get_info Multilabel (Labels (length f) m) (Some "label") st) as [st' r] eqn:Gi.
  destruct (get_info_objs _ _ _ _ V _ _ Gi) as (_ & _ & _ & R). destruct r as [h|e].
  - destruct R as (-> & _ & i0 & S1 & Sh1). rewrite S0 in S1. injection S1 as <-. rewrite Sh in Sh1. injection Sh1 as Ei.
    eexists _, _. split; [reflexivity|]. cbv zeta. change (content st' (At (length (objs st)))) with (nth (length (objs st)) (objs st') []). rewrite <- Ei, G. split; [|split; assumption]. f_equal. f_equal.
    clear -Hf. induction Hf as [|ls ks labs f E F IH]; [reflexivity|]. cbn [map]. f_equal; [|exact IH]. f_equal.
    clear -E. induction E as [|x k ls ks E _ IH]; [reflexivity|]. unfold names in *. cbn [map]. rewrite E. f_equal. exact IH.
  - exfalso. destruct R as [(S1 & _)|(i1 & S1 & Sh1)]; rewrite S0 in S1; [discriminate|]. injection S1 as <-. congruence.
Qed.
End Info.

Lemma rmap_each {X Y} (f : X -> res Y) : forall l r, rmap f l = Ok r -> Forall2 (fun x y => f x = Ok y) l r.
Proof.
  induction l as [|x l IH]; cbn [rmap]; intros r H; [injection H as <-; constructor|].
  destruct (f x) as [y|e] eqn:E; [|discriminate]. cbn [rbind] in H. destruct (rmap f l) as [r'|e]; [|discriminate].
  cbn [rbind] in H. injection H as <-. constructor; [exact E|now apply IH].
Qed.
Lemma rmap_some {X Y} (f : X -> res Y) l : (forall x, In x l -> exists y, f x = Ok y) -> exists r, rmap f l = Ok r.
Proof.
  induction l as [|x l IH]; intros H; [exists []; reflexivity|]. destruct (H x (or_introl eq_refl)) as (y & E).
  destruct IH as (r & Er). { intros z Hz. apply H. now right. } exists (y :: r). cbn [rmap]. rewrite E. cbn [rbind]. rewrite Er. reflexivity.
Qed.

Lemma prefix_append a b : prefix a (a ++ b)%string = true.
Proof. induction a as [|x a IH]; [destruct b; reflexivity|]. cbn. destruct (Ascii.ascii_dec x x); [exact IH|congruence]. Qed.
Lemma contains_append s x y : contains s (x ++ s ++ y)%string = true.
Proof.
  induction x as [|c x IH].
  - change ("" ++ s ++ y)%string with (s ++ y)%string. destruct (s ++ y)%string as [|c r] eqn:E; cbn [contains]; rewrite <- E, prefix_append; reflexivity.
  - cbn [String.append contains]. rewrite IH. apply orb_true_r.
Qed.
Lemma contains_flag s : contains s (flag_column s) = true.
Proof. exact (contains_append s "is_" "_issue"). Qed.
Lemma contains_score s : contains s (score_column s) = true.
Proof. exact (contains_append s "" "_score"). Qed.

Lemma get_issues_cols {V} s (st : data_issues V) cols : get_issues (Some s) st = Ok cols ->
  cols = filter (fun c => contains s (fst c)) (issues st).
Proof.
  unfold get_issues. destruct (_ || _); [discriminate|]. destruct (filter _ (issues st)) as [|c cs]; [discriminate|].
  destruct (lookup s (info st)); [|discriminate]. intros H. now injection H as <-.
Qed.

Lemma argsort_shows srt k sc : argsort_ok srt -> shows_lowest k sc (firstn k (srt sc)).
Proof.
  intros O. destruct (O sc) as (P & S0). set (p := srt sc) in *.
  assert (L : length p = length sc) by (rewrite (Permutation_length P), seq_length; reflexivity).
  assert (N : NoDup p) by (apply (Permutation_NoDup (Permutation_sym P)), seq_NoDup).
  assert (I : forall i, In i p <-> i < length sc).
  { intros i. split; intros H.
    - apply (Permutation_in _ P) in H. apply in_seq in H. lia.
    - apply (Permutation_in _ (Permutation_sym P)). apply in_seq. lia. }
  rewrite <- (firstn_skipn k p) in N, S0. pose proof (firstn_skipn k p) as E.
  assert (Sub : forall i, In i (firstn k p) -> In i p). { intros i Hi. rewrite <- E. apply in_or_app. now left. }
  split; [|split; [|split; [|split]]].
  - clear -N. revert N. induction (firstn k p) as [|x l IH]; cbn; [constructor|]. intros N. inversion N; subst. constructor; [|now apply IH].
    intros Hx. apply H1. apply in_or_app. now left.
  - rewrite firstn_length, L. reflexivity.
  - intros i Hi. apply I, Sub, Hi.
  - clear -S0. revert S0. induction (firstn k p) as [|x l IH]; cbn; [constructor|]. intros S0. inversion S0; subst. constructor; [now apply IH|].
    apply Forall_forall. intros y Hy. rewrite Forall_forall in H2. apply H2. apply in_or_app. now left.
  - intros i j Hi Hj Nj. assert (Hj' : In j (skipn k p)).
    { apply I in Hj. rewrite <- E in Hj. apply in_app_or in Hj. destruct Hj; [contradiction|assumption]. }
    clear -S0 Hi Hj'. revert S0 Hi. induction (firstn k p) as [|x l IH]; cbn; [tauto|]. intros S0 [->|Hi]; inversion S0; subst.
    + rewrite Forall_forall in H2. apply H2. apply in_or_app. now right.
    + now apply IH.
Qed.

Section ReportProofs.
Context {A W : Type}.
Implicit Types (d : labels A).
Variables (n : nat) (stats : list (string * idict A W)) (history : list (list (check (idict A W)))).
Let log := all_outcomes (init_issues n stats) history.
Let st := audit n stats history.
Hypothesis Hwf : well_formed_log n log.

Lemma row_facts r : In r (issue_summary st) ->
  exists out fl sc, latest (r_type r) log (Some out) /\
    m_frame out = [(flag_column (r_type r), map CFlag fl); (score_column (r_type r), map CNum sc)] /\ length sc = n /\ length fl = n /\
    r = Row (r_type r) (m_score out) (count_true fl) /\
    get_issue_summary (Some (r_type r)) st = Ok [r] /\
    lookup (flag_column (r_type r)) (issues st) = Some (map CFlag fl) /\
    lookup (score_column (r_type r)) (issues st) = Some (map CNum sc) /\
    lookup (r_type r) (info st) = Some (m_info out).
Proof.
  intros Hr. destruct (audit_tables n stats history Hwf) as (_ & _ & Hsum & _).
  destruct (proj1 (Hsum (r_type r) r) (conj Hr eq_refl)) as (out & col & Ho & Hf & E).
  pose proof (lastf_latest (r_type r) log) as La. unfold log in La at 2. rewrite Ho in La.
  destruct (audit_latest n stats history (r_type r) Hwf (Some out) La) as (fl & sc & Hfr & Hs & H1 & H2 & H3).
  destruct (Hwf _ out (lastf_in _ _ _ Ho)) as (_ & fl' & sc' & L1 & L2 & Hfr').
  rewrite Hfr in Hfr'. injection Hfr' as E1 E2.
  assert (fl = fl').
  { clear -E1. revert fl' E1. induction fl as [|a fl IH]; intros [|b fl']; cbn; try discriminate; [reflexivity|]. intros E. injection E as -> E. f_equal. now apply IH. }
  assert (sc = sc').
  { clear -E2. revert sc' E2. induction sc as [|a sc IH]; intros [|b sc']; cbn; try discriminate; [reflexivity|]. intros E. injection E as -> E. f_equal. now apply IH. }
  subst fl' sc'.
  assert (Er : r = Row (r_type r) (m_score out) (count_true fl)).
  { unfold flags_of in Hf. rewrite Hfr in Hf. cbn [lookup] in Hf. rewrite String.eqb_refl in Hf. injection Hf as <-.
    rewrite E at 1. f_equal. unfold num_true. rewrite map_map. cbn. now rewrite map_id. }
  exists out, fl, sc. rewrite <- Er in Hs. unfold st. intuition.
Qed.

Variables (sort_rows : list row -> list row) (argsort : list Q -> list nat) (fuel : nat).
Hypothesis Hsort : sorts_by_num sort_rows.
Hypothesis Harg : argsort_ok argsort.
Variables (t : task) (d : labels A) (levels_of : string -> option (list (list string))).

Lemma numbers_ok sc : numbers (map CNum sc) = Ok sc.
Proof. unfold numbers. induction sc as [|q sc IH]; [reflexivity|]. cbn [map rmap rbind]. rewrite IH. reflexivity. Qed.

Lemma section_facts k v s x r : In r (issue_summary st) -> r_type r = s ->
  check_report argsort fuel t d levels_of k v st s = Ok x ->
  exists out fl sc, latest s log (Some out) /\
    m_frame out = [(flag_column s, map CFlag fl); (score_column s, map CNum sc)] /\
    s_name x = s /\ s_count x = count_true fl /\ s_score x = m_score out /\ shows_lowest k sc (s_examples x).
Proof.
  intros Hr <-. destruct (row_facts r Hr) as (out & fl & sc & La & Fr & L1 & L2 & Er & Gs & Lf & Ls & Li).
  unfold check_report. destruct (levels_of (r_type r)) as [levels|]; [|discriminate].
  unfold get_issues_table. destruct (get_issues (Some (r_type r)) st) as [cols|e] eqn:G; [|discriminate]. cbn [rbind].
  rewrite Li. destruct (show_info t d (r_type r) (m_info out)) as [i|e]; [|discriminate]. cbn [rbind].
  destruct (rmap _ (extra_columns (r_type r) i)) as [extra|e]; [|discriminate]. cbn [rbind]. rewrite Gs. cbn [rbind fst snd].
  unfold manager_report. destruct (Nat.ltb (length levels) v); [discriminate|].
  apply get_issues_cols in G. subst cols.
  rewrite (lookup_filter_key (contains (r_type r))), contains_score, Ls.
  rewrite (lookup_filter_key (contains (r_type r))), contains_flag, Lf.
  rewrite numbers_ok. cbn [rbind].
  destruct (rmap _ (info_keys _ _ _ _)) as [vs|e]; [|discriminate]. cbn [rbind].
  destruct (rmap _ vs) as [sh|e]; [|discriminate]. cbn [rbind]. intros E. injection E as <-. cbn [s_name s_count s_score s_examples].
  exists out, fl, sc. split; [exact La|]. split; [exact Fr|]. split; [reflexivity|]. split.
  { unfold num_true. rewrite map_map. cbn. now rewrite map_id. }
  split; [rewrite Er; reflexivity|]. apply argsort_shows. exact Harg.
Qed.

Lemma list_sum_pos (l : list nat) : 0 < list_sum l <-> exists x, In x l /\ 0 < x.
Proof.
  induction l as [|x l IH]; cbn [list_sum fold_right].
  - split; [lia|intros (x & [] & _)].
  - change (fold_right Init.Nat.add 0 l) with (list_sum l). split.
    + intros H. destruct x as [|x]; [|exists (S x); split; [now left|lia]]. destruct (proj1 IH H) as (y & Hy & P). exists y. split; [now right|exact P].
    + intros (y & [->|Hy] & P); [lia|]. assert (0 < list_sum l) by (apply IH; eauto). lia.
Qed.

Lemma StronglySorted_filter {X} (R : X -> X -> Prop) f l : StronglySorted R l -> StronglySorted R (filter f l).
Proof.
  induction 1 as [|x l S0 IH F]; cbn; [constructor|]. destruct (f x); [|exact IH]. constructor; [exact IH|].
  apply Forall_forall. intros y Hy. apply filter_In in Hy. rewrite Forall_forall in F. now apply F.
Qed.

Lemma contents_full show_all k v x : get_report sort_rows argsort fuel t d levels_of show_all k v st = Ok x ->
  match x with
  | NoIssues => show_all = false /\ issue_summary st <> [] /\ forall r, In r (issue_summary st) -> r_num r = 0
  | Report rows sections =>
      (forall r, In r rows <-> In r (issue_summary st) /\ (show_all = true \/ 0 < r_num r)) /\
      NoDup (map r_type rows) /\ StronglySorted (fun a b => r_num b <= r_num a) rows /\
      map s_name sections = filter (fun s => negb (smem s image_issues)) (map r_type rows) /\
      forall s, In s sections -> exists out fl sc, latest (s_name s) log (Some out) /\
        m_frame out = [(flag_column (s_name s), map CFlag fl); (score_column (s_name s), map CNum sc)] /\
        s_count s = count_true fl /\ s_score s = m_score out /\ shows_lowest k sc (s_examples s)
  end.
Proof.
  unfold get_report. destruct (negb _) eqn:E0.
  - intros E. injection E as <-. apply negb_true_iff, orb_false_iff in E0. destruct E0 as (E0 & E3).
    apply orb_false_iff in E0. destruct E0 as (E1 & E2). split; [exact E1|]. split.
    + intros E. rewrite E in E2. discriminate.
    + intros r Hr. apply Nat.ltb_ge in E3. destruct (r_num r) as [|m] eqn:Er; [reflexivity|]. exfalso.
      assert (0 < list_sum (map r_num (issue_summary st))); [|lia]. apply list_sum_pos. exists (S m). split; [|lia].
      rewrite <- Er. now apply in_map.
  - destruct (Hsort (issue_summary st)) as (P & So). set (sorted := sort_rows (issue_summary st)) in *. cbv zeta.
    set (rows := if show_all then sorted else filter (fun r => Nat.ltb 0 (r_num r)) sorted).
    destruct (audit_one_row n stats history Hwf) as (_ & Nd & _). fold st in Nd.
    assert (Hrows : rows = filter (fun r => show_all || Nat.ltb 0 (r_num r)) sorted).
    { unfold rows. destruct show_all; [|reflexivity]. cbn [orb]. clear. induction sorted as [|r l IH]; [reflexivity|]. cbn. now rewrite <- IH. }
    assert (Ht : map r_type (filter (fun r => negb (smem (r_type r) image_issues) && (show_all || Nat.ltb 0 (r_num r))) sorted)
      = filter (fun s => negb (smem s image_issues)) (map r_type rows)).
    { rewrite Hrows. clear. induction sorted as [|r l IH]; [reflexivity|]. cbn [filter].
      destruct (show_all || Nat.ltb 0 (r_num r)) eqn:E; [rewrite andb_true_r|rewrite andb_false_r; exact IH].
      cbn [map filter]. destruct (smem (r_type r) image_issues); cbn [negb map]; [exact IH|]. f_equal. exact IH. }
    rewrite Ht. destruct (rmap _ _) as [sections|e] eqn:Er; [|discriminate]. cbn [rbind]. intros E. injection E as <-.
    assert (Hin : forall r, In r rows <-> In r (issue_summary st) /\ (show_all = true \/ 0 < r_num r)).
    { intros r. rewrite Hrows, filter_In, orb_true_iff, Nat.ltb_lt. split; intros (H1 & H2); (split; [|exact H2]).
      - exact (Permutation_in _ P H1).
      - exact (Permutation_in _ (Permutation_sym P) H1). }
    split; [exact Hin|]. split.
    { rewrite Hrows. apply NoDup_filter_map. apply (Permutation_NoDup (l := map r_type (issue_summary st))); [|exact Nd].
      apply Permutation_map, Permutation_sym, P. }
    split. { rewrite Hrows. now apply StronglySorted_filter. }
    apply rmap_each in Er.
    assert (Each : forall s, In s (filter (fun s => negb (smem s image_issues)) (map r_type rows)) -> exists r, In r (issue_summary st) /\ r_type r = s).
    { intros s Hs. apply filter_In in Hs. destruct Hs as (Hs & _). apply in_map_iff in Hs. destruct Hs as (r & <- & Hr). exists r. split; [|reflexivity]. now apply Hin. }
    clear -Er Each Hwf Harg. induction Er as [|s y ss ys H F IH]; [split; [reflexivity|intros s []]|].
    destruct IH as (I1 & I2). { intros s' H'. apply Each. now right. }
    destruct (Each s (or_introl eq_refl)) as (r & Hr & Hs).
    destruct (section_facts k v s y r Hr Hs H) as (out & fl & sc & La & Fr & N & Cn & Sc & Sh).
    split; [cbn [map]; now rewrite N, I1|]. intros s' [<-|H']; [|now apply I2].
    exists out, fl, sc. rewrite N. auto.
Qed.

Lemma empty_full show_all k v : get_report sort_rows argsort fuel t d levels_of show_all k v st = Ok NoIssues <->
  show_all = false /\ issue_summary st <> [] /\ forall r, In r (issue_summary st) -> r_num r = 0.
Proof.
  split; [exact (contents_full show_all k v NoIssues)|]. intros (-> & Ne & Z). unfold get_report. cbn [orb].
  destruct (issue_summary st) as [|r l] eqn:E; [congruence|]. cbn [length Nat.eqb orb].
  destruct (Nat.ltb_spec 0 (list_sum (map r_num (r :: l)))) as [H|H]; [|reflexivity]. exfalso.
  apply list_sum_pos in H. destruct H as (x & Hx & P). apply in_map_iff in Hx. destruct Hx as (r' & <- & Hr').
  rewrite (Z r' Hr') in P. lia.
Qed.
End ReportProofs.

(** ** printing of info values *)
Section Truncate.
Context {A W : Type}.
Implicit Types (v : pyval A W).
Lemma all_lists (l : list (pyval A W)) : forallb is_list l = true <-> forall x, In x l -> exists r, x = PList r.
Proof.
  rewrite forallb_forall. split; intros H x Hx; specialize (H x Hx).
  - destruct x; try discriminate. eauto.
  - destruct H as (r & ->). reflexivity.
Qed.
Lemma object_array_cases (l : list (pyval A W)) : (forall x, In x l -> exists r, x = PList r) ->
  (object_array l = PArr 2 l /\ ~ (l = [] \/ exists a b, In (PList a) l /\ In (PList b) l /\ length a <> length b)) \/
  (object_array l = PArr 1 l /\ (l = [] \/ exists a b, In (PList a) l /\ In (PList b) l /\ length a <> length b)).
Proof.
  intros H. destruct l as [|x l]; [right; split; [reflexivity|now left]|].
  unfold object_array. destruct (forallb _ l) eqn:E.
  - left. split; [reflexivity|]. destruct (H x (or_introl eq_refl)) as (r & ->).
    assert (Eq : forall a, In (PList a) (PList r :: l) -> length a = length r).
    { intros a [Ha|Ha]; [injection Ha as <-; reflexivity|]. rewrite forallb_forall in E. specialize (E _ Ha). cbn [num_entries] in E.
      apply Nat.eqb_eq in E. congruence. }
    intros [N|(a & b & Ia & Ib & N)]; [discriminate|]. rewrite (Eq a Ia), (Eq b Ib) in N. congruence.
  - right. split; [reflexivity|]. right. destruct (H x (or_introl eq_refl)) as (r & ->).
    assert (Ex : exists y, In y l /\ (match num_entries (PList r : pyval A W), num_entries y with Some a, Some b => Nat.eqb a b | _, _ => false end) = false).
    { clear H. induction l as [|y l IH]; [discriminate|]. cbn [forallb] in E. apply andb_false_iff in E. destruct E as [E|E].
      - exists y. split; [now left|exact E].
      - destruct (IH E) as (z & Hz & Ez). exists z. split; [now right|exact Ez]. }
    destruct Ex as (y & Hy & Ey). destruct (H y (or_intror Hy)) as (r' & ->). cbn [num_entries] in Ey. apply Nat.eqb_neq in Ey.
    exists r, r'. split; [now left|]. split; [now right|exact Ey].
Qed.
Lemma truncate_diverges m v : unprintable v -> forall fuel, truncate fuel m v = Raise Diverges.
Proof.
  intros (l & E & Hl & U) fuel. assert (Hb := proj2 (all_lists l) Hl).
  assert (O : object_array l = PArr 1 l).
  { destruct (object_array_cases l Hl) as [(_ & N)|(O & _)]; [contradiction|exact O]. }
  assert (Go : forall fuel, truncate fuel m (PArr 1 l : pyval A W) = Raise Diverges).
  { clear fuel. induction fuel as [|f IH]; [reflexivity|]. cbn [truncate]. change (Nat.ltb 1 1) with false. change (Nat.eqb 1 0) with false.
    cbv iota. rewrite Hb, O. exact IH. }
  destruct v as [| | |l'|k l'| |]; cbn [entries_of] in E; try discriminate.
  - injection E as ->. destruct fuel as [|f]; [reflexivity|]. cbn [truncate]. rewrite Hb, O. apply Go.
  - destruct k as [|[|k]]; try discriminate. injection E as ->. apply Go.
Qed.
Lemma truncate_ok m v fuel : ~ unprintable v -> 3 <= fuel -> exists s, truncate fuel m v = Ok s.
Proof.
  intros N F. destruct fuel as [|[|[|f]]]; try lia. clear F.
  assert (G : forall l, (exists v, entries_of v = Some l /\ ~ unprintable v) ->
    exists s, (if forallb is_list l then truncate (S (S f)) m (object_array l)
               else Ok (ShownList (firstn m l) (Nat.ltb m (length l)))) = Ok s).
  { intros l (u & Eu & Nu). destruct (forallb is_list l) eqn:E; [|eauto].
    pose proof (proj1 (all_lists l) E) as Hl. destruct (object_array_cases l Hl) as [(O & _)|(_ & U)].
    - rewrite O. cbn. eauto.
    - exfalso. apply Nu. exists l. auto. }
  destruct v as [k|o|w|l|k l|k|b].
  1-3,6-7: cbn; eauto.
  - change (exists s, (if forallb is_list l then truncate (S (S f)) m (object_array l)
               else Ok (ShownList (firstn m l) (Nat.ltb m (length l)))) = Ok s). apply G. exists (PList l). auto.
  - cbn [truncate]. destruct (Nat.ltb_spec 1 k); [eauto|]. destruct (Nat.eqb_spec k 0); [eauto|]. assert (k = 1) by lia. subst k.
    change (exists s, (if forallb is_list l then truncate (S (S f)) m (object_array l)
               else Ok (ShownList (firstn m l) (Nat.ltb m (length l)))) = Ok s). apply G. exists (PArr 1 l). auto.
Qed.
Lemma truncate_full m v : (unprintable v -> forall fuel, truncate fuel m v = Raise Diverges) /\
  (~ unprintable v -> forall fuel, 3 <= fuel -> exists s, truncate fuel m v = Ok s /\
     forall l dots, s = ShownList l dots -> exists e, entries_of v = Some e /\ l = firstn m e /\ (dots = true <-> m < length e)).
Proof.
  split; [apply truncate_diverges|]. intros N fuel F. destruct (truncate_ok m v fuel N F) as (s & E). exists s. split; [exact E|].
  intros l dots ->. destruct fuel as [|f]; [discriminate|].
  assert (G : forall e, (if forallb is_list e then truncate f m (object_array e)
               else Ok (ShownList (firstn m e) (Nat.ltb m (length e)))) = Ok (ShownList l dots) -> entries_of v = Some e ->
               l = firstn m e /\ (dots = true <-> m < length e)).
  { intros e H Ev. destruct (forallb is_list e) eqn:Eb.
    - exfalso. pose proof (proj1 (all_lists e) Eb) as Hl. destruct (object_array_cases e Hl) as [(O & _)|(O & U)].
      + rewrite O in H. destruct f; cbn in H; discriminate.
      + apply N. exists e. auto.
    - injection H as <- <-. split; [reflexivity|]. apply Nat.ltb_lt. }
  destruct v as [k|o|w|e|k e|k|b]; cbn [truncate] in E; try discriminate.
  - exists e. split; [reflexivity|]. exact (G e E eq_refl).
  - destruct (Nat.ltb_spec 1 k); [discriminate|]. destruct (Nat.eqb_spec k 0); [discriminate|]. assert (k = 1) by lia. subst k.
    exists e. split; [reflexivity|]. exact (G e E eq_refl).
Qed.
End Truncate.

(** ** when the report succeeds *)
Lemma nth_firstn_lt {X} (x : X) k : forall l j, j < k -> nth j (firstn k l) x = nth j l x.
Proof. induction k as [|k IH]; intros [|a l] [|j] H; cbn; try lia; auto. apply IH. lia. Qed.
Section Success.
Context {A W : Type}.
Variables (n : nat) (stats : list (string * idict A W)) (history : list (list (check (idict A W)))).
Let log := all_outcomes (init_issues n stats) history.
Let st := audit n stats history.
Hypothesis Hwf : well_formed_log n log.
Variables (sort_rows : list row -> list row) (argsort : list Q -> list nat) (fuel : nat).
Hypothesis Hsort : sorts_by_num sort_rows.
Variables (t : task) (d : labels A) (levels_of : string -> option (list (list string))).

Lemma get_issues_ok r : 0 < n -> In r (issue_summary st) ->
  get_issues (Some (r_type r)) st = Ok (filter (fun c => contains (r_type r) (fst c)) (issues st)).
Proof.
  intros Hn Hr. destruct (row_facts n stats history Hwf r Hr) as (out & fl & sc & _ & _ & _ & _ & _ & _ & Lf & _ & Li).
  fold st in Lf, Li. destruct (audit_one_row n stats history Hwf) as (Hrows & _). fold st in Hrows.
  unfold get_issues. rewrite Hrows. destruct (Nat.eqb_spec n 0); [lia|]. cbn [orb].
  destruct (Nat.eqb_spec (length (issues st)) 0) as [E|_].
  { destruct (issues st); [discriminate Lf|discriminate E]. }
  destruct (filter (fun c => contains (r_type r) (fst c)) (issues st)) as [|c cs] eqn:E.
  - exfalso. pose proof (lookup_filter_key (contains (r_type r)) (flag_column (r_type r)) (issues st)) as F.
    rewrite E, contains_flag, Lf in F. discriminate.
  - rewrite Li. reflexivity.
Qed.

Lemma check_report_ok k v r levels i extra i0 : 0 < n -> In r (issue_summary st) ->
  levels_of (r_type r) = Some levels -> v <= length levels ->
  lookup (r_type r) (info st) = Some i0 -> show_info t d (r_type r) i0 = Ok i ->
  rmap (fun k => assign (d_rows st) k i) (extra_columns (r_type r) i) = Ok extra ->
  (forall key, In key (info_keys levels v (keys (filter (fun c => contains (r_type r) (fst c)) (issues st)) ++ keys extra) i) ->
     exists x sh, lookup key i = Some x /\ show_entry fuel key x = Ok sh) ->
  exists x, check_report argsort fuel t d levels_of k v st (r_type r) = Ok x.
Proof.
  intros Hn Hr Hl Hv Li Sh Ex Ks.
  destruct (row_facts n stats history Hwf r Hr) as (out & fl & sc & _ & _ & _ & _ & _ & Gs & Lf & Ls & _).
  fold st in Lf, Ls, Gs. unfold check_report. rewrite Hl. unfold get_issues_table. rewrite (get_issues_ok r Hn Hr). cbn [rbind].
  rewrite Li, Sh. cbn [rbind]. rewrite Ex. cbn [rbind]. rewrite Gs. cbn [rbind fst snd].
  unfold manager_report. destruct (Nat.ltb_spec (length levels) v); [lia|].
  rewrite (lookup_filter_key (contains (r_type r))), contains_score, Ls.
  rewrite (lookup_filter_key (contains (r_type r))), contains_flag, Lf.
  rewrite numbers_ok. cbn [rbind].
  destruct (rmap_some (fun k => match lookup k i with Some v => Ok (k, v) | None => Raise KeyError end)
     (info_keys levels v (keys (filter (fun c => contains (r_type r) (fst c)) (issues st)) ++ keys extra) i)) as (vs & E).
  { intros key Hk. destruct (Ks key Hk) as (x & sh & L & _). rewrite L. eauto. }
  rewrite E. cbn [rbind].
  destruct (rmap_some (fun kv => do s <- show_entry fuel (fst kv) (snd kv) ; Ok (fst kv, s)) vs) as (sh & E2).
  { intros (key & x) Hkv. apply rmap_each in E.
    assert (Hk : In key (info_keys levels v (keys (filter (fun c => contains (r_type r) (fst c)) (issues st)) ++ keys extra) i) /\ lookup key i = Some x).
    { clear -E Hkv. induction E as [|a b l l' H F IH]; [destruct Hkv|]. destruct Hkv as [->|Hkv].
      - destruct (lookup a i) as [y|] eqn:L; [|discriminate]. injection H as -> ->. split; [now left|exact L].
      - destruct (IH Hkv) as (I1 & I2). split; [now right|exact I2]. }
    destruct Hk as (Hk & L). destruct (Ks key Hk) as (x' & s & L' & S0). rewrite L in L'. injection L' as <-. cbn [fst snd]. rewrite S0. cbn. eauto. }
  rewrite E2. cbn [rbind]. eauto.
Qed.

Lemma report_ok show_all k v :
  (forall r, In r (issue_summary st) -> reported show_all st (r_type r) ->
     exists x, check_report argsort fuel t d levels_of k v st (r_type r) = Ok x) ->
  exists x, get_report sort_rows argsort fuel t d levels_of show_all k v st = Ok x.
Proof.
  intros H. unfold get_report. destruct (negb _); [eauto|]. cbv zeta.
  match goal with |- context [rmap ?f ?l] => destruct (rmap_some f l) as (ys & E) end.
  { intros s Hs. apply in_map_iff in Hs. destruct Hs as (r & <- & Hr). apply filter_In in Hr. destruct Hr as (Hr & B).
    apply (Permutation_in _ (proj1 (Hsort (issue_summary st)))) in Hr. apply H; [exact Hr|].
    apply andb_true_iff in B. destruct B as (B1 & B2). split.
    - apply negb_true_iff, smem_false in B1. exact B1.
    - exists r. split; [exact Hr|]. split; [reflexivity|]. apply orb_true_iff in B2. destruct B2 as [B2|B2]; [now left|right; now apply Nat.ltb_lt]. }
  rewrite E. cbn [rbind]. eauto.
Qed.
Lemma report_sections show_all k v x s : get_report sort_rows argsort fuel t d levels_of show_all k v st = Ok x ->
  reported show_all st s -> exists y, check_report argsort fuel t d levels_of k v st s = Ok y.
Proof.
  intros E (Ni & r & Hr & Rt & B). unfold get_report in E. destruct (negb _) eqn:E0.
  - exfalso. apply negb_true_iff, orb_false_iff in E0. destruct E0 as (E0 & E3). apply orb_false_iff in E0. destruct E0 as (E1 & _).
    destruct B as [B|B]; [congruence|]. apply Nat.ltb_ge in E3. assert (0 < list_sum (map r_num (issue_summary st))); [|lia].
    apply (list_sum_pos). exists (r_num r). split; [now apply in_map|exact B].
  - cbv zeta in E. match type of E with context [rmap ?f ?l] => destruct (rmap f l) as [ys|e] eqn:Er end; [|discriminate].
    apply rmap_each in Er.
    assert (Hs : In s (map r_type (filter (fun r => negb (smem (r_type r) image_issues) && (show_all || Nat.ltb 0 (r_num r))) (sort_rows (issue_summary st))))).
    { apply in_map_iff. exists r. split; [exact Rt|]. apply filter_In. split.
      - apply (Permutation_in _ (Permutation_sym (proj1 (Hsort (issue_summary st))))). exact Hr.
      - rewrite Rt. rewrite (proj2 (smem_false s image_issues) Ni). cbn [negb andb]. apply orb_true_iff.
        destruct B as [B|B]; [now left|right; now apply Nat.ltb_lt]. }
    clear -Er Hs. induction Er as [|a b l l' H F IH]; [destruct Hs|]. destruct Hs as [<-|Hs]; [eauto|exact (IH Hs)].
Qed.
Lemma too_verbose show_all k v s levels : reported show_all st s -> levels_of s = Some levels -> length levels < v ->
  forall x, get_report sort_rows argsort fuel t d levels_of show_all k v st <> Ok x.
Proof.
  intros R Hl Hv x E. destruct (report_sections show_all k v x s E R) as (y & Ey).
  unfold check_report in Ey. rewrite Hl in Ey. destruct (get_issues_table t d s st) as [tab|e]; [|discriminate]. cbn [rbind] in Ey.
  destruct (get_issue_summary (Some s) st) as [rows|e]; [|discriminate]. cbn [rbind] in Ey.
  destruct (lookup s (info st)) as [i|]; [|discriminate]. destruct (show_info t d s i) as [i'|e]; [|discriminate]. cbn [rbind] in Ey.
  unfold manager_report in Ey. destruct (Nat.ltb_spec (length levels) v); [discriminate|lia].
Qed.
Lemma info_shown_full k v s x : check_report argsort fuel t d levels_of k v st s = Ok x ->
  exists levels i0 i cols extra, levels_of s = Some levels /\ v <= length levels /\ lookup s (info st) = Some i0 /\
    show_info t d s i0 = Ok i /\ get_issues_table t d s st = Ok (cols, extra) /\
    (forall key, In key (map fst (s_info x)) <->
       ~ In key (keys cols) /\ ~ In key (keys extra) /\
       ((exists l, l <= v /\ In key (nth l levels [])) \/ v = length levels /\ In key (keys i))) /\
    forall key sh, In (key, sh) (s_info x) -> exists y, lookup key i = Some y /\ show_entry fuel key y = Ok sh.
Proof.
  unfold check_report. destruct (levels_of s) as [levels|]; [|discriminate].
  destruct (get_issues_table t d s st) as [[cols extra]|e] eqn:G; [|discriminate]. cbn [rbind].
  destruct (get_issue_summary (Some s) st) as [rows|e]; [|discriminate]. cbn [rbind].
  destruct (lookup s (info st)) as [i0|] eqn:Li; [|discriminate]. destruct (show_info t d s i0) as [i|e] eqn:Sh; [|discriminate]. cbn [rbind fst snd].
  unfold manager_report. destruct (Nat.ltb_spec (length levels) v) as [Hv|Hv]; [discriminate|].
  destruct (lookup (score_column s) cols) as [sc|]; [|discriminate]. destruct (lookup (flag_column s) cols) as [fl|]; [|discriminate].
  destruct rows as [|r rows]; [discriminate|]. destruct (numbers sc) as [q|e]; [|discriminate]. cbn [rbind].
  destruct (rmap _ (info_keys _ _ _ _)) as [vs|e] eqn:E1; [|discriminate]. cbn [rbind].
  destruct (rmap _ vs) as [sh|e] eqn:E2; [|discriminate]. cbn [rbind]. intros E. injection E as <-. cbn [s_info].
  exists levels, i0, i, cols, extra. split; [reflexivity|]. split; [exact Hv|]. split; [reflexivity|]. split; [exact Sh|]. split; [reflexivity|].
  apply rmap_each in E1, E2.
  assert (M1 : map fst vs = info_keys levels v (keys cols ++ keys extra) i).
  { clear -E1. induction E1 as [|a b l l' H F IH]; [reflexivity|]. cbn [map]. rewrite IH. destruct (lookup a i); [|discriminate]. injection H as <-. reflexivity. }
  assert (M2 : map fst sh = map fst vs).
  { clear -E2. induction E2 as [|a b l l' H F IH]; [reflexivity|]. cbn [map]. rewrite IH. destruct (show_entry fuel (fst a) (snd a)); [|discriminate]. cbn in H. injection H as <-. reflexivity. }
  split.
  - intros key. rewrite M2, M1. unfold info_keys. rewrite nodup_In, filter_In, negb_true_iff, smem_false, in_app_iff, in_app_iff.
    assert (Lv : In key (concat (firstn (v + 1) levels)) <-> exists l, l <= v /\ In key (nth l levels [])).
    { rewrite in_concat. split.
      - intros (x & Hx & Hk). apply In_nth with (d := []) in Hx. destruct Hx as (j & Hj & <-). rewrite firstn_length in Hj.
        exists j. split; [lia|]. rewrite nth_firstn_lt in Hk by lia. exact Hk.
      - intros (l & Hl & Hk). destruct (le_lt_dec (length levels) l) as [Hl2|Hl2]; [rewrite nth_overflow in Hk by lia; destruct Hk|].
        exists (nth l levels []). split; [|exact Hk]. rewrite <- (nth_firstn_lt [] (v + 1) levels l) by lia.
        apply nth_In. rewrite firstn_length. lia. }
    rewrite Lv. destruct (Nat.eqb_spec v (length levels)) as [Ev|Nv]; cbn [In]; intuition.
  - intros key y Hk.
    assert (H2 : exists kv, In kv vs /\ fst kv = key /\ show_entry fuel (fst kv) (snd kv) = Ok y).
    { clear -E2 Hk. induction E2 as [|a b l l' H F IH]; [destruct Hk|]. destruct Hk as [->|Hk].
      - exists a. split; [now left|]. destruct (show_entry fuel (fst a) (snd a)) as [z|e]; [|discriminate]. cbn in H. injection H as <- <-. auto.
      - destruct (IH Hk) as (kv & I1 & I2). exists kv. split; [now right|exact I2]. }
    destruct H2 as ((a & z) & I1 & <- & I2). cbn [fst snd] in *. exists z. split; [|exact I2].
    clear -E1 I1. induction E1 as [|b c l l' H F IH]; [destruct I1|]. destruct I1 as [->|I1]; [|exact (IH I1)].
    destruct (lookup b i) as [u|] eqn:L; [|discriminate]. injection H as <- <-. exact L.
Qed.
End Success.

(** ** the built-in checks *)
Definition named_key (k : string) : bool := smem k ["given_label"; "predicted_label"; "class_names"].
Lemma level_keys t s levels v key : In s (registry t) -> builtin_levels t s = Some levels -> v <= 2 \/ v = 3 /\ four_levels s ->
  v < length levels /\
  (In key (concat (firstn (v + 1) levels)) -> named_key key = false /\ key <> "statistics" /\
     exists ks kd, lookup s (collected t) = Some ks /\ In (key, kd) ks /\ kd <> KNoJson).
Proof.
  intros Hs Hl Hv. unfold builtin_levels in Hl. rewrite (proj2 (smem_iff s _) Hs) in Hl.
  destruct t; cbn [registry In] in Hs;
    repeat match type of Hs with _ \/ _ => destruct Hs as [<-|Hs] end; try destruct Hs;
    vm_compute in Hl; injection Hl as <-;
    (split; [destruct Hv as [Hv|(-> & [Hv|[Hv|Hv]])]; try discriminate Hv; cbn [length]; lia|]);
    (destruct v as [|[|[|[|v]]]]; [| | |destruct Hv as [Hv|(_ & [Hv|[Hv|Hv]])]; try discriminate Hv; try (exfalso; lia)|exfalso; destruct Hv as [Hv|(Hv & _)]; lia]); cbn [firstn Nat.add concat app In];
    intros Hk; repeat match type of Hk with _ \/ _ => destruct Hk as [<-|Hk] end; try destruct Hk;
    (split; [vm_compute; reflexivity|]); (split; [discriminate|]);
    eexists; eexists; (split; [reflexivity|]); cbn [In]; (split; [first [left; reflexivity|right; left; reflexivity]|]); discriminate.
Qed.
Lemma levels_printed t s levels v : In s (registry t) -> builtin_levels t s = Some levels -> v <= length levels ->
  (v = length levels <-> prints_all s v) /\
  forall key, (exists l, l <= v /\ In key (nth l levels [])) <-> exists l, l <= v /\ printed_from t s key l.
Proof.
  intros Hs Hl Hv. unfold builtin_levels in Hl. rewrite (proj2 (smem_iff s _) Hs) in Hl.
  assert (N : forall x, x <> "outlier" -> x <> "label" -> x <> "data_valuation" -> ~ four_levels x) by (intros x ? ? ? [?|[?|?]]; congruence).
  destruct t; cbn [registry In] in Hs;
    repeat match type of Hs with _ \/ _ => destruct Hs as [<-|Hs] end; try destruct Hs;
    vm_compute in Hl; injection Hl as <-; cbn [length] in *;
    (split; [split; [intros ->; first [left; split; [unfold four_levels; auto|reflexivity]|right; split; [apply N; discriminate|reflexivity]]
                    |intros [([F|[F|F]] & E)|(F & E)]; try discriminate F; try exact E; exfalso; apply F; unfold four_levels; auto]|]);
    intros key; (split;
    [intros (l & Hlv & Hk); exists l; split; [exact Hlv|];
       destruct l as [|[|[|[|[|l]]]]]; cbn [nth In] in Hk; repeat match type of Hk with _ \/ _ => destruct Hk as [<-|Hk] end; try destruct Hk; constructor; reflexivity
    |intros (l & Hlv & Hk); exists l; split; [exact Hlv|]; inversion Hk; subst; try discriminate; cbn; auto]).
Qed.

Section Builtin.
Context {A W : Type}.
Lemma named_entries t m n (v : pyval A W) : t <> Regression -> 0 < n -> has_entries n v ->
  (t = Multilabel -> forall l x, v = PList l \/ v = PArr 1 l -> In x l -> exists k, has_entries k x) ->
  exists v', name_labels t m v = Ok v' /\ exists l, (v' = PList l \/ v' = PArr 1 l) /\ length l = n.
Proof.
  intros Ht Hn (l & Hv & L) Hm. destruct t; [| congruence |].
  - destruct l as [|x l]; [cbn in L; lia|]. destruct Hv as [->| ->]; cbn [name_labels]; eexists; (split; [reflexivity|]);
      exists (map (get_name m) (x :: l)); (split; [now right|]); now rewrite map_length.
  - specialize (Hm eq_refl).
    assert (R : exists r, rmap (fun s : pyval A W => match s with PList x | PArr _ x => Ok (PList (map (get_name m) x)) | _ => Raise TypeError end) l = Ok r /\ length r = length l).
    { assert (G : forall x, In x l -> exists k, has_entries k x) by (intros x Hx; now apply (Hm l x)). clear -G.
      induction l as [|x l IH]; [exists []; split; reflexivity|]. destruct IH as (r & E & Lr). { intros y Hy. apply G. now right. }
      destruct (G x (or_introl eq_refl)) as (k & e & [->| ->] & _); cbn [rmap rbind]; rewrite E; cbn [rbind]; eexists; (split; [reflexivity|]); cbn; lia. }
    destruct R as (r & E & Lr).
    destruct Hv as [->| ->]; cbn [name_labels]; rewrite E; cbn [rbind]; eexists; (split; [reflexivity|]); exists r; split; [now left|lia|now left|lia].
Qed.

Lemma show_builtin t (d : labels A) n s (i : idict A W) : 0 < n -> builtin_info t n s i -> In s (registry t) ->
  (is_named t s = true -> available d = true) ->
  exists i' extra, show_info t d s i = Ok i' /\ rmap (fun k => assign n k i') (extra_columns s i') = Ok extra /\
    forall k, named_key k = false -> lookup k i' = lookup k i.
Proof.
  intros Hn (_ & Hlab & Hci & Hcp & Hnd) Hs Hav.
  assert (Asg : forall k (i' : idict A W) v l, lookup k i' = Some v -> v = PList l \/ v = PArr 1 l -> length l = n -> assign n k i' = Ok (k, v)).
  { intros k i' v l Lk Hv L. unfold assign. rewrite Lk. destruct Hv as [->| ->]; cbn [num_entries]; rewrite L, Nat.eqb_refl; reflexivity. }
  assert (Nk : forall k, named_key k = false -> k <> "given_label" /\ k <> "predicted_label" /\ k <> "class_names").
  { intros k Hk. split; [|split]; intros ->; discriminate. }
  destruct (String.eqb_spec s "label") as [->|Nlab].
  - specialize (Hlab eq_refl). destruct (Hlab "given_label" (or_introl eq_refl)) as (g & Lg & Eg & Mg).
    destruct (Hlab "predicted_label" (or_intror eq_refl)) as (p & Lp & Ep & Mp).
    destruct (is_named t "label") eqn:En.
    + specialize (Hav eq_refl). assert (Ht : t <> Regression) by (intros ->; discriminate En).
      destruct (named_entries t (l_map d) n g Ht Hn Eg Mg) as (g' & Ng & lg & Hg & Hlg).
      destruct (named_entries t (l_map d) n p Ht Hn Ep Mp) as (p' & Np & lp & Hp & Hlp).
      unfold show_info. rewrite En, Hav. cbn [negb]. unfold name_key at 1. rewrite Lg, Ng. cbn [rbind].
      unfold name_key. rewrite lookup_dict_set. cbn [String.eqb Ascii.eqb Bool.eqb]. rewrite Lp, Np. cbn [rbind].
      eexists. eexists. split; [reflexivity|]. split.
      * cbn [extra_columns String.eqb Ascii.eqb Bool.eqb rmap].
        rewrite (Asg "given_label" _ g' lg) by (rewrite ?lookup_dict_set; cbn [String.eqb Ascii.eqb Bool.eqb]; auto). cbn [rbind].
        rewrite (Asg "predicted_label" _ p' lp) by (rewrite ?lookup_dict_set; cbn [String.eqb Ascii.eqb Bool.eqb]; auto). cbn [rbind]. reflexivity.
      * intros k Hk. destruct (Nk k Hk) as (K1 & K2 & K3). rewrite !lookup_dict_set.
        destruct (String.eqb_spec k "class_names"); [congruence|]. destruct (String.eqb_spec k "predicted_label"); [congruence|].
        destruct (String.eqb_spec k "given_label"); [congruence|]. reflexivity.
    + unfold show_info. rewrite En. exists i. destruct Eg as (lg & Hg & Hlg). destruct Ep as (lp & Hp & Hlp).
      eexists. split; [reflexivity|]. split; [|reflexivity].
      cbn [extra_columns String.eqb Ascii.eqb Bool.eqb rmap]. rewrite (Asg "given_label" i g lg) by assumption. cbn [rbind].
      rewrite (Asg "predicted_label" i p lp) by assumption. reflexivity.
  - destruct (String.eqb_spec s "class_imbalance") as [->|Nci].
    + specialize (Hcp eq_refl). destruct (Hci eq_refl) as (g & Lg & Eg).
      assert (Et : t = Classification).
      { destruct t; [reflexivity| |]; exfalso; cbn [registry In] in Hs; repeat (destruct Hs as [Hs|Hs]; [discriminate|]); destruct Hs. }
      subst t. specialize (Hav eq_refl).
      destruct (named_entries Classification (l_map d) n g ltac:(discriminate) Hn Eg ltac:(discriminate)) as (g' & Ng & lg & Hg & Hlg).
      unfold show_info. cbn [is_named String.eqb Ascii.eqb Bool.eqb orb]. rewrite Hav. cbn [negb]. unfold name_key at 1. rewrite Lg, Ng. cbn [rbind].
      unfold name_key. rewrite lookup_dict_set. cbn [String.eqb Ascii.eqb Bool.eqb]. rewrite Hcp. cbn [rbind].
      eexists. eexists. split; [reflexivity|]. split.
      * cbn [extra_columns String.eqb Ascii.eqb Bool.eqb rmap].
        rewrite (Asg "given_label" _ g' lg) by (rewrite ?lookup_dict_set; cbn [String.eqb Ascii.eqb Bool.eqb]; auto). cbn [rbind]. reflexivity.
      * intros k Hk. destruct (Nk k Hk) as (K1 & K2 & K3). rewrite !lookup_dict_set.
        destruct (String.eqb_spec k "class_names"); [congruence|].
        destruct (String.eqb_spec k "given_label"); [congruence|]. reflexivity.
    + assert (En : is_named t s = false).
      { destruct t; cbn [is_named]; rewrite ?(proj2 (String.eqb_neq s "label") Nlab), ?(proj2 (String.eqb_neq s "class_imbalance") Nci); reflexivity. }
      unfold show_info. rewrite En. exists i. unfold extra_columns.
      rewrite (proj2 (String.eqb_neq s "label") Nlab), (proj2 (String.eqb_neq s "class_imbalance") Nci).
      destruct (String.eqb_spec s "near_duplicate") as [->|_].
      * match goal with |- context [rmap ?f ?l] => destruct (rmap_some f l) as (extra & E) end.
        { intros k Hk. apply filter_In in Hk. destruct Hk as (Hk & Hm). apply smem_iff in Hm.
          assert (Lk : exists v, lookup k i = Some v).
          { destruct (lookup k i) as [v|] eqn:Lk; [eauto|]. apply lookup_none in Lk. contradiction. }
          destruct Lk as (v & Lk).
          assert (Kk : k = "near_duplicate_sets" \/ k = "distance_to_nearest_neighbor") by (destruct Hk as [<-|[<-|[]]]; auto).
          destruct (Hnd eq_refl k v Kk Lk) as (l & Hv & L). rewrite (Asg k i v l Lk Hv L). eauto. }
        exists extra. split; [reflexivity|]. split; [exact E|reflexivity].
      * exists []. split; [reflexivity|]. split; reflexivity.
Qed.

Variables (n : nat) (stats : list (string * idict A W)) (history : list (list (check (idict A W)))).
Let log := all_outcomes (init_issues n stats) history.
Let st := audit n stats history.
Variables (sort_rows : list row -> list row) (argsort : list Q -> list nat) (fuel : nat).
Variables (t : task) (d : labels A).

Lemma builtin_full show_all k v : 0 < n -> well_formed_log n log -> sorts_by_num sort_rows -> 1 <= fuel ->
  (v <= 2 \/ v = 3 /\ forall s out, latest s log (Some out) -> ~ In s image_checks -> four_levels s) ->
  (forall s out, latest s log (Some out) -> ~ In s image_checks -> In s (registry t) /\ builtin_info t n s (m_info out)) ->
  (forall s out, latest s log (Some out) -> is_named t s = true -> available d = true) ->
  exists x, get_report sort_rows argsort fuel t d (builtin_levels t) show_all k v st = Ok x.
Proof.
  intros Hn Hwf Hsort Hf Hv0 Hb Ha. apply report_ok; [exact Hsort|]. intros r Hr (Ni & _).
  destruct (row_facts n stats history Hwf r Hr) as (out & fl & sc & La & _ & _ & _ & _ & _ & _ & _ & Li).
  assert (Hv : v <= 2 \/ v = 3 /\ four_levels (r_type r)).
  { destruct Hv0 as [Hv0|(Hv0 & Hv1)]; [now left|right; split; [exact Hv0|exact (Hv1 _ _ La Ni)]]. }
  destruct (Hb _ _ La Ni) as (Hs & Bi).
  destruct (show_builtin t d n (r_type r) (m_info out) Hn Bi Hs (Ha _ _ La)) as (i' & extra & Sh & Ex & Same).
  destruct (builtin_levels t (r_type r)) as [levels|] eqn:Hl.
  2:{ exfalso. unfold builtin_levels in Hl. rewrite (proj2 (smem_iff _ _) Hs) in Hl.
      destruct t; cbn [registry In] in Hs; repeat (destruct Hs as [Hs|Hs]; [rewrite <- Hs in Hl; discriminate Hl|]); destruct Hs. }
  destruct (audit_one_row n stats history Hwf) as (Hrows & _).
  destruct (level_keys t (r_type r) levels v "" Hs Hl Hv) as (Lv & _).
  apply (check_report_ok n stats history Hwf argsort fuel t d (builtin_levels t) k v r levels i' extra (m_info out) Hn Hr Hl); [lia|exact Li|exact Sh| |].
  { rewrite Hrows. exact Ex. }
  intros key Hk. unfold info_keys in Hk. apply nodup_In in Hk. apply filter_In in Hk. destruct Hk as (Hk & _).
  destruct (Nat.eqb_spec v (length levels)); [lia|]. rewrite app_nil_r in Hk.
  destruct (proj2 (level_keys t (r_type r) levels v key Hs Hl Hv) Hk) as (Nk & Ns & ks & kd & Lc & Ik & Nj).
  destruct Bi as (Bk & _). destruct (Bk ks key kd Lc Ik) as (x & Lx & Kx).
  exists x. rewrite (Same key Nk).
  assert (S0 : exists sh, show_entry fuel key x = Ok sh).
  { unfold show_entry. rewrite (proj2 (String.eqb_neq key "statistics") Ns). destruct fuel as [|f]; [lia|].
    destruct kd; try congruence; destruct x as [| | |l|[|m] l|r0|[|]]; cbn in Kx; try discriminate; cbn; eauto. }
  destruct S0 as (sh & S0). exists sh. split; assumption.
Qed.

Lemma underperforming_fails show_all k : well_formed_log n log -> sorts_by_num sort_rows ->
  reported show_all st "underperforming_group" ->
  (forall out, latest "underperforming_group" log (Some out) -> builtin_info Classification n "underperforming_group" (m_info out) /\
     ~ In "clustering" (keys (issues st))) ->
  forall v x, 3 <= v -> get_report sort_rows argsort fuel Classification d (builtin_levels Classification) show_all k v st <> Ok x.
Proof.
  intros Hwf Hsort R Hb v x Hv E.
  destruct (report_sections n stats history sort_rows argsort fuel Hsort Classification d (builtin_levels Classification) show_all k v x _ E R) as (y & Ey).
  destruct (info_shown_full n stats history argsort fuel Classification d (builtin_levels Classification) k v _ y Ey)
    as (levels & i0 & i & cols & extra & Hl & Hv2 & Li & Sh & G & Keys & Vals).
  vm_compute in Hl. injection Hl as <-. cbn [length] in Hv2. assert (v = 3) by lia. subst v.
  destruct R as (_ & r & Hr & Rt & _).
  destruct (row_facts n stats history Hwf r Hr) as (out & fl & sc & La & _ & _ & _ & _ & _ & _ & _ & Li').
  rewrite Rt in La, Li'. fold st in Li, Li'. rewrite Li' in Li. injection Li as <-. cbn in Sh. injection Sh as <-.
  destruct (Hb out La) as ((Bk & _) & Nc).
  destruct (Bk _ "clustering" KNoJson eq_refl (or_intror (or_introl eq_refl))) as (c & Lc & Kc).
  assert (Ik : In "clustering" (map fst (s_info y))).
  { apply Keys. split; [|split].
    - intros Hk. apply Nc. unfold get_issues_table in G. destruct (get_issues (Some "underperforming_group") (audit n stats history)) as [cols'|e] eqn:Gi; [|discriminate].
      cbn [rbind] in G. destruct (lookup _ _); [|discriminate]. destruct (show_info _ _ _ _); [|discriminate]. cbn [rbind] in G.
      destruct (rmap _ _); [|discriminate]. cbn [rbind] in G. injection G as <- <-. apply get_issues_cols in Gi. subst cols'.
      unfold keys in *. apply in_map_iff in Hk. destruct Hk as (z & <- & Hz). apply filter_In in Hz. apply in_map. exact (proj1 Hz).
    - intros Hk. unfold get_issues_table in G. destruct (get_issues (Some "underperforming_group") (audit n stats history)) as [cols'|e]; [|discriminate].
      cbn [rbind] in G. destruct (lookup _ _); [|discriminate]. destruct (show_info _ _ _ _); [|discriminate]. cbn [rbind] in G.
      cbn in G. injection G as <- <-. destruct Hk.
    - right. split; [reflexivity|]. apply lookup_in in Lc. unfold keys. change "clustering" with (fst ("clustering", c)). now apply in_map. }
  apply in_map_iff in Ik. destruct Ik as ((key & sh) & Ek & Ik). cbn in Ek. subst key.
  destruct (Vals _ _ Ik) as (c' & Lc' & Se). rewrite Lc in Lc'. injection Lc' as <-.
  destruct c as [| | | | | |[|]]; cbn in Kc; discriminate.
Qed.
End Builtin.

(** ** the registry *)
Section RegistryProofs.
Context {C : Type} (is_manager : C -> bool) (issue_name : C -> string).
Lemma parse_task_iff s t : parse_task s = Some t <-> s = task_name t.
Proof.
  unfold parse_task. destruct (String.eqb_spec s "classification") as [->|N1]; [destruct t; cbn; split; congruence|].
  destruct (String.eqb_spec s "regression") as [->|N2]; [destruct t; cbn; split; congruence|].
  destruct (String.eqb_spec s "multilabel") as [->|N3]; [destruct t; cbn; split; congruence|].
  destruct t; cbn; split; congruence.
Qed.
Lemma register_lookup c tn r r' t s : register is_manager issue_name c tn r = Ok r' ->
  lookup s (of_task t r') = if String.eqb s (issue_name c) && String.eqb tn (task_name t) then Some c else lookup s (of_task t r).
Proof.
  unfold register. destruct (negb _); [discriminate|]. destruct (parse_task tn) as [t'|] eqn:P; [|discriminate].
  apply parse_task_iff in P. subst tn.
  destruct t', t; intros E; injection E as <-; cbn [of_task r_class r_regr r_multi task_name]; cbn [String.eqb Ascii.eqb Bool.eqb];
    rewrite ?lookup_dict_set, ?andb_false_r, ?andb_true_r; reflexivity.
Qed.
Lemma register_ok c tn r : (exists r', register is_manager issue_name c tn r = Ok r') <-> is_manager c = true /\ exists t, tn = task_name t.
Proof.
  unfold register. destruct (is_manager c) eqn:M; cbn [negb].
  - destruct (parse_task tn) as [t|] eqn:P.
    + apply parse_task_iff in P. split; [intros _; eauto|]. intros _. destruct t; eauto.
    + split; [intros (r' & E); discriminate|]. intros (_ & t & ->). exfalso.
      assert (parse_task (task_name t) = Some t) by (now apply parse_task_iff). congruence.
  - split; [intros (r' & E); discriminate|intros (E & _); discriminate].
Qed.
Lemma register_raises c tn r : ~ (is_manager c = true /\ exists t, tn = task_name t) -> register is_manager issue_name c tn r = Raise ValueError.
Proof.
  intros N. unfold register. destruct (is_manager c) eqn:M; cbn [negb]; [|reflexivity].
  destruct (parse_task tn) as [t|] eqn:P; [|reflexivity]. exfalso. apply N. split; [reflexivity|]. exists t. now apply parse_task_iff.
Qed.
Lemma registry_full t s r : forall calls o, last_registered is_manager issue_name t s calls o ->
  from_str s t (register_all is_manager issue_name calls r) = match o with Some c => Ok c | None => from_str s t r end.
Proof.
  induction calls as [|(c & tn) calls IH] using rev_ind; intros o Ho.
  - destruct o as [c|]; [|reflexivity]. destruct Ho as (a & b & E & _). destruct a; discriminate.
  - unfold register_all. rewrite fold_left_app. cbn [fold_left fst snd]. fold (register_all is_manager issue_name calls r).
    assert (Step : from_str s t (match register is_manager issue_name c tn (register_all is_manager issue_name calls r) with Ok r' => r' | Raise _ => register_all is_manager issue_name calls r end)
      = if is_manager c && (String.eqb s (issue_name c) && String.eqb tn (task_name t)) then Ok c else from_str s t (register_all is_manager issue_name calls r)).
    { destruct (register is_manager issue_name c tn (register_all is_manager issue_name calls r)) as [r'|e] eqn:E.
      - unfold from_str. rewrite (register_lookup _ _ _ _ t s E).
        destruct (proj1 (register_ok c tn (register_all is_manager issue_name calls r)) (ex_intro _ r' E)) as (M & _). rewrite M. cbn [andb].
        destruct (_ && _); reflexivity.
      - destruct (is_manager c) eqn:M; [|reflexivity]. cbn [andb]. destruct (String.eqb_spec tn (task_name t)) as [->|_]; [|rewrite andb_false_r; reflexivity].
        exfalso. destruct (proj2 (register_ok c (task_name t) (register_all is_manager issue_name calls r)) (conj M (ex_intro _ t eq_refl))) as (r' & E'). congruence. }
    rewrite Step. destruct (is_manager c && (String.eqb s (issue_name c) && String.eqb tn (task_name t))) eqn:B.
    + apply andb_true_iff in B. destruct B as (M & B). apply andb_true_iff in B. destruct B as (B1 & B2).
      apply String.eqb_eq in B1, B2. subst tn.
      destruct o as [c'|].
      * destruct Ho as (a & b & E & M' & N' & Last). destruct (exists_last (l := (c', task_name t) :: b)) as (b' & x & Eb); [discriminate|].
        rewrite Eb, app_assoc in E. apply app_inj_tail in E. destruct E as (_ & <-).
        destruct b as [|y b]; [destruct b' as [|? [|]]; cbn in Eb; try discriminate; injection Eb as E9; now subst c'|]. exfalso.
        apply (Last c); [|exact M|congruence]. destruct b' as [|? b']; cbn in Eb; [discriminate|]. injection Eb as _ Eb.
        rewrite Eb. apply in_or_app. right. now left.
      * exfalso. apply (Ho c); [apply in_or_app; right; now left|exact M|congruence].
    + apply IH. destruct o as [c'|].
      * destruct Ho as (a & b & E & M' & N' & Last). destruct (exists_last (l := (c', task_name t) :: b)) as (b' & x & Eb); [discriminate|].
        rewrite Eb, app_assoc in E. apply app_inj_tail in E. destruct E as (E & <-).
        destruct b' as [|y b'].
        { exfalso. cbn in Eb. injection Eb as E1 E2 E3. subst tn. subst c'. rewrite M' in B. cbn [andb] in B. rewrite N', !String.eqb_refl in B. discriminate. }
        cbn in Eb. injection Eb as <- ->. exists a, b'. split; [exact E|]. split; [exact M'|]. split; [exact N'|].
        intros c2 I2. apply Last. apply in_or_app. now left.
      * intros c2 I2. apply Ho. apply in_or_app. now left.
Qed.
End RegistryProofs.

(** ** the table of label issues *)
Section LabelTable.
Lemma F2len {X Y} {R : X -> Y -> Prop} {a b} : Forall2 R a b -> length a = length b.
Proof. induction 1; cbn; congruence. Qed.
Context {A W : Type}.
Variables (n : nat) (stats : list (string * idict A W)) (history : list (list (check (idict A W)))).
Let log := all_outcomes (init_issues n stats) history.
Let st := audit n stats history.
Lemma label_table_full (leb : A -> A -> bool) labs f m p out : total_order leb -> format_labels leb labs = Ok (f, m) ->
  length labs = n -> 0 < n -> well_formed_log n log -> latest "label" log (Some out) ->
  lookup "given_label" (m_info out) = Some (PList (ints f)) -> lookup "predicted_label" (m_info out) = Some (PList (ints p)) ->
  length p = n -> (forall k, In k p -> k < length m) ->
  exists cols cn ys fl sc, get_issues_table Classification (Labels n m) "label" st =
      Ok (cols, [("given_label", PArr 1 (names labs)); ("predicted_label", PArr 1 (names ys))]) /\
    m = combine (seq 0 (length cn)) cn /\ Forall2 (fun k y => nth_error cn k = Some y) p ys /\
    m_frame out = [(flag_column "label", map CFlag fl); (score_column "label", map CNum sc)] /\
    lookup (flag_column "label") cols = Some (map CFlag fl) /\ lookup (score_column "label") cols = Some (map CNum sc).
Proof.
  intros O Ff Ln Hn Hwf La Lg Lp Np Bp.
  destruct (C24_full leb O labs) as (f' & m' & cn & F' & (Em & Nd) & Hin & Lf & Hk & Hi & _).
  rewrite Ff in F'. injection F' as <- <-. subst m.
  destruct (audit_latest n stats history "label" Hwf _ La) as (fl & sc & Hfr & Gs & H1 & H2 & H3).
  assert (Hr : exists r, In r (issue_summary st) /\ r_type r = "label").
  { unfold get_issue_summary in Gs. fold st in Gs. destruct (issue_summary st) as [|r0 l]; [discriminate|].
    destruct (filter _ (r0 :: l)) as [|r1 l1] eqn:E; [discriminate|]. exists r1.
    assert (I : In r1 (filter (fun r => String.eqb (r_type r) "label") (r0 :: l))) by (rewrite E; now left).
    apply filter_In in I. destruct I as (I & T). apply String.eqb_eq in T. auto. }
  destruct Hr as (r & Hr & Rt). pose proof (get_issues_ok n stats history Hwf r Hn Hr) as G. rewrite Rt in G. fold st in G.
  assert (Hf : f <> []) by (destruct f, labs; cbn in Lf, Ln; try congruence; lia).
  assert (Bf : forall k, In k f -> k < length cn) by (intros k Hkk; now apply Hk).
  assert (Hcn : cn <> []). { intros ->. destruct f as [|k f]; [congruence|]. specialize (Bf k (or_introl eq_refl)). cbn in Bf. lia. }
  rewrite combine_length, seq_length, Nat.min_id in Bp.
  destruct (show_named "label" (m_info out) cn f p (PList (ints f)) n (or_introl eq_refl) ltac:(lia) Hcn Hf Bf Lg (or_introl eq_refl))
    as (i' & xs & Sh & Gi & Fx & _ & P1 & _ & _).
  { right. split; [destruct p; cbn in Np; [lia|discriminate]|]. split; [exact Bp|]. exists (PList (ints p)). auto. }
  destruct (P1 ltac:(congruence)) as (ys & Py & Fy).
  rewrite (names_unique cn xs labs f Lf) in Gi; [|intros j x Hj; destruct (Hi j x Hj) as (k & K1 & K2); exists k; split; [exact K1|]; now rewrite combine_get in K2|exact Fx].
  destruct (audit_one_row n stats history Hwf) as (Hrows & _).
  eexists _, cn, ys, fl, sc. split.
  { unfold get_issues_table. rewrite G. cbn [rbind]. fold st in H3. rewrite H3, Sh. cbn [rbind extra_columns String.eqb Ascii.eqb Bool.eqb rmap].
    unfold st. rewrite Hrows. unfold assign. rewrite Gi. cbn [num_entries]. unfold names at 1. rewrite map_length, Ln, Nat.eqb_refl. cbn [rbind].
    rewrite Py. cbn [num_entries]. unfold names at 1. rewrite map_length, <- (F2len Fy), Np, Nat.eqb_refl. cbn [rbind]. reflexivity. }
  split; [reflexivity|]. split; [exact Fy|]. split; [exact Hfr|].
  rewrite !(lookup_filter_key (contains "label")), contains_flag, contains_score. split; assumption.
Qed.
End LabelTable.

(** ** what a section of a built-in check prints, and when get_info raises *)
Section Printed.
Context {A W : Type}.
Lemma builtin_printed n (stats : list (string * idict A W)) history argsort fuel t (d : labels A) k v s x :
  let st := audit n stats history in
  check_report argsort fuel t d (builtin_levels t) k v st s = Ok x ->
  exists i cols extra, lookup s (info st) <> None /\ get_issues_table t d s st = Ok (cols, extra) /\
    (forall i0, lookup s (info st) = Some i0 -> show_info t d s i0 = Ok i) /\
    forall key, In key (map fst (s_info x)) <-> ~ In key (keys cols) /\ ~ In key (keys extra) /\
      ((exists l, l <= v /\ printed_from t s key l) \/ prints_all s v /\ In key (keys i)).
Proof.
  intros st E. destruct (info_shown_full n stats history argsort fuel t d (builtin_levels t) k v s x E)
    as (levels & i0 & i & cols & extra & Hl & Hv & Li & Sh & Gt & Hk & _).
  assert (Hs : In s (registry t)).
  { unfold builtin_levels in Hl. destruct (smem s (registry t)) eqn:E0; [|discriminate]. now apply smem_iff. }
  destruct (levels_printed t s levels v Hs Hl Hv) as (Hall & Hfrom).
  exists i, cols, extra. split; [fold st in Li; rewrite Li; discriminate|]. split; [exact Gt|].
  split; [intros i1 L1; fold st in Li; rewrite Li in L1; injection L1 as <-; exact Sh|].
  intros key. rewrite Hk, Hfrom, Hall. reflexivity.
Qed.

Lemma named_iff t s : is_named t s = true <-> about_labels t s.
Proof.
  unfold about_labels. destruct t; cbn [is_named]; rewrite ?orb_true_iff, ?String.eqb_eq.
  - split; [intros [->| ->]; [left|right]; split; (reflexivity || discriminate)|intros [(-> & _)|(-> & _)]; auto].
  - split; [discriminate|intros [(_ & H)|(_ & H)]; congruence].
  - split; [intros ->; left; split; [reflexivity|discriminate]|intros [(-> & _)|(_ & H)]; [reflexivity|discriminate]].
Qed.
Lemma info_errors t (d : labels A) s (st : store A W) : valid_store st ->
  match stored st s with
  | None => snd (get_info t d (Some s) st) = Raise ValueError
  | Some i => (about_labels t s -> l_count d = 0 \/ l_map d = [] -> snd (get_info t d (Some s) st) = Raise ValueError) /\
      (~ about_labels t s -> exists h, snd (get_info t d (Some s) st) = Ok h /\ content (fst (get_info t d (Some s) st)) h = i)
  end.
Proof.
  intros Hv. unfold stored, get_info. destruct (lookup s (top st)) as [loc|] eqn:L; [|reflexivity].
  specialize (Hv s loc L). split.
  - intros Ha Hn. unfold show_info. rewrite (proj2 (named_iff t s) Ha).
    assert (E : available d = false).
    { unfold available. destruct Hn as [->| ->]; [reflexivity|]. cbn. now rewrite orb_true_r. }
    rewrite E. reflexivity.
  - intros Hna. unfold show_info. destruct (is_named t s) eqn:E; [exfalso; apply Hna; now apply named_iff|].
    exists (At (length (objs st))). split; [reflexivity|]. cbn [fst content objs].
    rewrite nth_upd, Nat.eqb_refl, app_length. cbn [length]. destruct (Nat.ltb_spec (length (objs st)) (length (objs st) + 1)); [reflexivity|lia].
Qed.
End Printed.
Lemma unknown_full {C} t s (r : registries C) :
  (In s (list_possible_issue_types t r) <-> exists c, from_str s t r = Ok c) /\
  (~ In s (list_possible_issue_types t r) -> from_str s t r = Raise ValueError).
Proof.
  unfold list_possible_issue_types, from_str. pose proof (lookup_none s (of_task t r)) as N.
  destruct (lookup s (of_task t r)) as [c|].
  - assert (I : In s (keys (of_task t r))) by (destruct (in_dec string_dec s (keys (of_task t r))) as [I|I]; [exact I|apply N in I; discriminate]).
    split; [split; eauto|contradiction].
  - split; [|reflexivity]. split; [|intros (c & H); discriminate]. intros H. exfalso. exact (proj1 N eq_refl H).
Qed.
