(** * Proofs about the definition of custom checks *)
From Coq Require Import String List Bool Arith ZArith Lia.
From Verif Require Import Base BaseFacts ModelDatalab ModelCustom SpecCustom.
Import ListNotations.
Open Scope string_scope.
Open Scope list_scope.

Lemma key_strings l : forallb is_key l = true <-> exists ks, l = map Key ks.
Proof.
  split.
  - induction l as [|[s|] l IH]; cbn; intros H; [exists []; reflexivity| |discriminate].
    destruct (IH H) as [ks ->]. exists (s :: ks). reflexivity.
  - intros [ks ->]. induction ks as [|k ks IH]; [reflexivity|exact IH].
Qed.
Lemma levels_strings l : forallb (fun e : Z * level_value => level_ok (snd e)) l = true <-> strings_only l.
Proof.
  rewrite forallb_forall. split.
  - intros H k v Hin. specialize (H (k, v) Hin). cbn in H. destruct v as [es|es|]; cbn in H; try discriminate.
    apply key_strings in H. destruct H as [ks ->]. exists ks. reflexivity.
  - intros H [k v] Hin. destruct (H k v Hin) as [ks ->]. cbn. apply key_strings. exists ks. reflexivity.
Qed.
Lemma default_strings : strings_only default_levels.
Proof. apply levels_strings. reflexivity. Qed.

Lemma new_accepted b : (exists b', new_body b = Ok b') <->
  b_abstract b = true \/ (b_name b <> None /\ forall l, b_levels b = Some l -> strings_only l).
Proof.
  unfold new_body. destruct (b_abstract b); [split; [intros _; left; reflexivity|intros _; eauto]|].
  destruct (b_levels b) as [l|].
  - destruct (forallb _ l) eqn:F; cbn [negb].
    + apply levels_strings in F. destruct (b_name b) as [n|].
      * split; [|eauto]. intros _. right. split; [discriminate|]. intros l' E. injection E as <-. exact F.
      * split; [intros [b' E]; discriminate|]. intros [E|[E _]]; [discriminate|congruence].
    + split; [intros [b' E]; discriminate|]. intros [E|[_ E]]; [discriminate|].
      specialize (E l eq_refl). apply levels_strings in E. congruence.
  - assert (F : forallb (fun e : Z * level_value => level_ok (snd e)) default_levels = true) by reflexivity. rewrite F. cbn [negb].
    destruct (b_name b) as [n|].
    + split; [|eauto]. intros _. right. split; [discriminate|]. intros l E. discriminate.
    + split; [intros [b' E]; discriminate|]. intros [E|[E _]]; [discriminate|congruence].
Qed.
Lemma accepted_full c b : (exists c', define_class c b = Ok c') <->
  b_abstract b = true \/ (b_name b <> None /\ forall l, b_levels b = Some l -> strings_only l).
Proof.
  rewrite <- new_accepted. unfold define_class. destruct (new_body b); cbn [rbind].
  - split; eauto.
  - split; intros [x E]; discriminate.
Qed.
Lemma errors_full c b : b_abstract b = false ->
  ((exists l, b_levels b = Some l /\ ~ strings_only l) -> define_class c b = Raise ValueError) /\
  ((forall l, b_levels b = Some l -> strings_only l) -> b_name b = None -> define_class c b = Raise TypeError).
Proof.
  intros Ha. unfold define_class, new_body. rewrite Ha. split.
  - intros (l & E & Hl). rewrite E. destruct (forallb _ l) eqn:F; [|reflexivity]. apply levels_strings in F. contradiction.
  - intros Hl Hn. rewrite Hn. destruct (b_levels b) as [l|].
    + specialize (Hl l eq_refl). apply levels_strings in Hl. rewrite Hl. reflexivity.
    + reflexivity.
Qed.
Lemma attributes_full c b c' : define_class c b = Ok c' -> b_abstract b = false ->
  exists n, b_name b = Some n /\ attribute b_name c' = Some n /\ attribute b_key c' = Some (score_column n) /\
    attribute b_levels c' = match b_levels b with Some l => Some l | None => attribute b_levels c end.
Proof.
  intros E Ha. unfold define_class, new_body in E. rewrite Ha in E.
  destruct (negb _); [discriminate|]. destruct (b_name b) as [n|]; [|discriminate]. cbn [rbind] in E. injection E as <-.
  exists n. cbn. destruct (b_levels b); repeat split; reflexivity.
Qed.
Lemma derive_levels bs : forall c c', derive c bs = Ok c' -> (forall b, In b bs -> b_abstract b = false) ->
  (exists l, attribute b_levels c = Some l /\ strings_only l) -> exists l, attribute b_levels c' = Some l /\ strings_only l.
Proof.
  induction bs as [|b bs IH]; intros c c' E Ha Hc; cbn [derive] in E.
  - injection E as <-. exact Hc.
  - destruct (define_class c b) as [c1|e] eqn:E1; [|discriminate]. cbn [rbind] in E.
    apply (IH c1 c' E (fun b' Hb => Ha b' (or_intror Hb))).
    assert (Hb : b_abstract b = false) by (apply Ha; left; reflexivity).
    destruct (attributes_full c b c1 E1 Hb) as (n & _ & _ & _ & El). rewrite El.
    destruct (b_levels b) as [l|] eqn:Eb; [|exact Hc]. exists l. split; [reflexivity|].
    assert (A : exists c2, define_class c b = Ok c2) by eauto. apply accepted_full in A.
    destruct A as [A|[_ A]]; [congruence|exact (A l Eb)].
Qed.

(** ** the report *)
Lemma zmax_spec l : forall x, (x <= zmax x l /\ (forall y, In y l -> y <= zmax x l) /\ (zmax x l = x \/ In (zmax x l) l))%Z.
Proof.
  unfold zmax. induction l as [|a l IH]; intros x; cbn.
  - repeat split; [lia| |left; reflexivity]. intros y [].
  - destruct (IH (Z.max x a)) as (H1 & H2 & H3). repeat split.
    + lia.
    + intros y [<-|Hy]; [lia|exact (H2 y Hy)].
    + destruct H3 as [H3|H3]; [|right; right; exact H3].
      destruct (Z.max_spec x a) as [[_ M]|[_ M]]; [right; left; rewrite H3; symmetry; exact M|left; rewrite H3; exact M].
Qed.
Lemma top_spec k v lv t : is_top ((k, v) :: lv) t <-> t = (zmax k (map fst lv) + 1)%Z.
Proof.
  destruct (zmax_spec (map fst lv) k) as (H1 & H2 & H3). split.
  - intros [(j & Hj & ->) Hlt]. cbn in Hj, Hlt.
    assert (zmax k (map fst lv) < j + 1)%Z by (apply Hlt; destruct H3 as [->|H3]; [left; reflexivity|right; exact H3]).
    assert (j <= zmax k (map fst lv))%Z by (destruct Hj as [<-|Hj]; [exact H1|exact (H2 j Hj)]). lia.
  - intros ->. split.
    + exists (zmax k (map fst lv)). split; [|reflexivity]. cbn. destruct H3 as [->|H3]; [left; reflexivity|right; exact H3].
    + cbn. intros j [<-|Hj]; [lia|]. specialize (H2 j Hj). lia.
Qed.
Lemma smem_In s l : smem s l = true <-> In s l.
Proof.
  unfold smem. rewrite existsb_exists. split.
  - intros (x & Hx & E). apply String.eqb_eq in E. subst. exact Hx.
  - intros H. exists s. split; [exact H|apply String.eqb_refl].
Qed.
Lemma supported_iff v k lv t : existsb (Z.eqb v) (k :: lv ++ [t]) = true <-> In v (k :: lv) \/ v = t.
Proof.
  rewrite existsb_exists. split.
  - intros (x & Hx & E). apply Z.eqb_eq in E. subst x. cbn in Hx. rewrite in_app_iff in Hx. cbn in *. intuition.
  - intros H. exists v. split; [|apply Z.eqb_refl]. cbn in *. rewrite in_app_iff. cbn. intuition.
Qed.
Lemma unsupported_full c l columns info v t : attribute b_levels c = Some l -> is_top l t ->
  ~ In v (map fst l) -> v <> t -> shown_info c columns info v = Raise ValueError.
Proof.
  intros E Ht Hv Hn. unfold shown_info. rewrite E. destruct l as [|[k w] lv].
  - reflexivity.
  - apply top_spec in Ht. subst t. cbn zeta. destruct (existsb _ _) eqn:F; [|reflexivity].
    apply supported_iff in F. destruct F as [F|F]; [contradiction|congruence].
Qed.
Lemma empty_full c columns info v : attribute b_levels c = Some [] -> shown_info c columns info v = Raise ValueError.
Proof. intros E. unfold shown_info. rewrite E. reflexivity. Qed.

Lemma upto_map {X Y} (f : X -> Y) k l : upto k (map f l) = map f (upto k l).
Proof. unfold upto. rewrite map_length. destruct (k <? 0)%Z; apply firstn_map. Qed.
Lemma entries_strings l : strings_only l ->
  rmap entries (map snd l) = Ok (map (fun e => match snd e with Listed x | Iterable x => x | NotIterable => [] end) l).
Proof.
  induction l as [|[k v] l IH]; intros H; [reflexivity|]. cbn [map rmap snd].
  destruct (H k v (or_introl eq_refl)) as [ks ->]. cbn [entries rbind]. rewrite IH; [reflexivity|].
  intros k' v' Hin. exact (H k' v' (or_intror Hin)).
Qed.
Definition named (columns : list string) (e : entry) : bool := match e with Key s => negb (smem s columns) | NotString => true end.
Definition pick (info : list string) (e : entry) : res string :=
  match e with Key s => if smem s info then Ok s else Raise KeyError | NotString => Raise KeyError end.
Lemma pick_ok info l : (forall e, In e l -> exists s, e = Key s /\ In s info) ->
  exists ks, rmap (pick info) l = Ok ks /\ l = map Key ks.
Proof.
  induction l as [|e l IH]; intros H; [exists []; split; reflexivity|].
  destruct (IH (fun e' He => H e' (or_intror He))) as (ks & E & ->).
  destruct (H e (or_introl eq_refl)) as (s & -> & Hs). exists (s :: ks). split; [|reflexivity].
  cbn [rmap pick]. apply smem_In in Hs. rewrite Hs. cbn [rbind]. rewrite E. reflexivity.
Qed.
Lemma pick_missing info l s : (forall e, In e l -> exists s, e = Key s) -> In (Key s) l -> ~ In s info -> rmap (pick info) l = Raise KeyError.
Proof.
  induction l as [|e l IH]; intros H Hin Hs; [destruct Hin|]. destruct (H e (or_introl eq_refl)) as (s' & ->).
  cbn [rmap pick]. destruct (smem s' info) eqn:F; [|reflexivity]. cbn [rbind].
  destruct Hin as [E|Hin].
  - injection E as ->. apply smem_In in F. contradiction.
  - rewrite (IH (fun e' He => H e' (or_intror He)) Hin Hs). reflexivity.
Qed.
Lemma upto_incl {X} k (l : list X) x : In x (upto k l) -> In x l.
Proof.
  unfold upto. destruct (k <? 0)%Z; intros H.
  - rewrite <- (firstn_skipn (length l - Z.to_nat (- k)) l). apply in_or_app. left. exact H.
  - rewrite <- (firstn_skipn (Z.to_nat k) l). apply in_or_app. left. exact H.
Qed.
Lemma strings_upto k l : strings_only l -> strings_only (upto k l).
Proof. intros H j v Hin. exact (H j v (upto_incl _ _ _ Hin)). Qed.
Lemma in_concat_listed l s : strings_only l ->
  In (Key s) (concat (map (fun e : Z * level_value => match snd e with Listed x | Iterable x => x | NotIterable => [] end) l)) <->
  exists k, listed l k s.
Proof.
  intros Hl. rewrite in_concat. split.
  - intros (x & Hx & Hs). apply in_map_iff in Hx. destruct Hx as ([k v] & <- & Hin).
    destruct (Hl k v Hin) as [ks ->]. cbn in Hs. exists k, (map Key ks). split; assumption.
  - intros (k & ks & Hin & Hs). exists ks. split; [|exact Hs]. apply in_map_iff. exists (k, Listed ks). split; [reflexivity|exact Hin].
Qed.
Lemma concat_keys l e : strings_only l ->
  In e (concat (map (fun e : Z * level_value => match snd e with Listed x | Iterable x => x | NotIterable => [] end) l)) -> exists s, e = Key s.
Proof.
  intros Hl He. apply in_concat in He. destruct He as (x & Hx & He). apply in_map_iff in Hx. destruct Hx as ([k v] & <- & Hin).
  destruct (Hl k v Hin) as [ks ->]. cbn in He. apply in_map_iff in He. destruct He as (s & <- & _). eauto.
Qed.

Lemma shown_unfold c l columns info v t : attribute b_levels c = Some l -> is_top l t -> strings_only l ->
  In v (map fst l) \/ v = t ->
  shown_info c columns info v =
  (do ks <- rmap (pick info) (filter (named columns)
      (concat (map (fun e => match snd e with Listed x | Iterable x => x | NotIterable => [] end) (upto (v + 1) l)))) ;
   Ok (nodup string_dec (ks ++ if Z.eqb v t then filter (fun s => negb (smem s columns)) info else []))).
Proof.
  intros E Ht Hs Hv. unfold shown_info. rewrite E. destruct l as [|[k w] lv].
  - destruct Ht as [(j & [] & _) _].
  - pose proof Ht as Ht'. apply top_spec in Ht'. cbn zeta. rewrite <- Ht'.
    rewrite (proj2 (supported_iff v k (map fst lv) t) Hv). cbn [negb].
    change (w :: map snd lv) with (map snd ((k, w) :: lv)). rewrite upto_map.
    rewrite (entries_strings _ (strings_upto (v + 1) _ Hs)). cbn [rbind]. reflexivity.
Qed.
Lemma shown_ok c l columns info v t : attribute b_levels c = Some l -> is_top l t -> strings_only l ->
  In v (map fst l) \/ v = t ->
  (forall k s, listed (upto (v + 1) l) k s -> ~ In s columns -> In s info) ->
  exists ks, shown_info c columns info v = Ok ks /\ NoDup ks /\
    forall s, In s ks <-> ((exists k, listed (upto (v + 1) l) k s) \/ v = t /\ In s info) /\ ~ In s columns.
Proof.
  intros E Ht Hs Hv Hi. rewrite (shown_unfold c l columns info v t E Ht Hs Hv).
  pose proof (strings_upto (v + 1) l Hs) as Hu.
  destruct (pick_ok info (filter (named columns) (concat (map (fun e => match snd e with Listed x | Iterable x => x | NotIterable => [] end) (upto (v + 1) l))))) as (ks & Ek & El).
  { intros e He. apply filter_In in He. destruct He as [He Hn]. destruct (concat_keys _ e Hu He) as [s ->].
    exists s. split; [reflexivity|]. apply in_concat_listed in He; [|exact Hu]. destruct He as [k Hk]. apply (Hi k s Hk).
    cbn in Hn. intros Hc. apply smem_In in Hc. rewrite Hc in Hn. discriminate. }
  rewrite Ek. cbn [rbind]. eexists. split; [reflexivity|]. split; [apply NoDup_nodup|].
  intros s. rewrite nodup_In, in_app_iff.
  assert (A : In s ks <-> (exists k, listed (upto (v + 1) l) k s) /\ ~ In s columns).
  { rewrite <- (in_concat_listed _ s Hu). transitivity (In (Key s) (map Key ks)).
    - rewrite in_map_iff. split; [intros H; exists s; split; [reflexivity|exact H]|]. intros (x & Ex & Hx). injection Ex as ->. exact Hx.
    - rewrite <- El, filter_In. cbn [named]. rewrite <- (smem_In s columns). destruct (smem s columns); cbn; intuition congruence. }
  rewrite A. destruct (Z.eqb_spec v t) as [->|N].
  - rewrite filter_In, <- (smem_In s columns). destruct (smem s columns); cbn; intuition congruence.
  - cbn. intuition.
Qed.
Lemma shown_missing c l columns info v t k s : attribute b_levels c = Some l -> is_top l t -> strings_only l ->
  In v (map fst l) \/ v = t -> listed (upto (v + 1) l) k s -> ~ In s columns -> ~ In s info ->
  shown_info c columns info v = Raise KeyError.
Proof.
  intros E Ht Hs Hv Hk Hc Hi. rewrite (shown_unfold c l columns info v t E Ht Hs Hv).
  pose proof (strings_upto (v + 1) l Hs) as Hu.
  rewrite (pick_missing info _ s); [reflexivity| | |exact Hi].
  - intros e He. apply filter_In in He. exact (concat_keys _ e Hu (proj1 He)).
  - apply filter_In. split; [apply in_concat_listed; [exact Hu|eauto]|]. cbn.
    destruct (smem s columns) eqn:F; [apply smem_In in F; contradiction|reflexivity].
Qed.

(** levels numbered from 0 *)
Lemma map_fst_nth (l : levels) m n : map fst l = map Z.of_nat (seq n m) ->
  forall k v, In (k, v) l -> exists i, k = Z.of_nat (n + i) /\ nth_error l i = Some (k, v).
Proof.
  revert m n. induction l as [|[k0 v0] l IH]; intros m n E k v Hin; [destruct Hin|].
  destruct m as [|m]; [discriminate|]. cbn in E. injection E as E0 E1. destruct Hin as [Hin|Hin].
  - injection Hin as -> ->. exists 0. split; [rewrite Nat.add_0_r; exact E0|reflexivity].
  - destruct (IH m (S n) E1 k v Hin) as (i & -> & Hn). exists (S i). split; [f_equal; lia|exact Hn].
Qed.
Lemma in_firstn {X} n (l : list X) x : In x (firstn n l) <-> exists i, i < n /\ nth_error l i = Some x.
Proof.
  revert l. induction n as [|n IH]; intros l; cbn.
  - split; [intros []|intros (i & H & _); lia].
  - destruct l as [|a l]; cbn.
    + split; [intros []|intros (i & _ & H); destruct i; discriminate].
    + rewrite IH. split.
      * intros [->|(i & Hi & H)]; [exists 0; split; [lia|reflexivity]|exists (S i); split; [lia|exact H]].
      * intros ([|i] & Hi & H); [left; injection H as ->; reflexivity|right; exists i; split; [lia|exact H]].
Qed.
Lemma numbered_upto l v k s : numbered l -> (0 <= v)%Z -> listed (upto (v + 1) l) k s <-> listed l k s /\ (k <= v)%Z.
Proof.
  intros Hn Hv. unfold upto. destruct (Z.ltb_spec (v + 1) 0) as [H|H]; [lia|]. unfold listed. split.
  - intros (ks & Hin & Hs). assert (Hl : In (k, Listed ks) l) by (rewrite <- (firstn_skipn (Z.to_nat (v + 1)) l); apply in_or_app; left; exact Hin).
    split; [exists ks; split; assumption|].
    apply in_firstn in Hin. destruct Hin as (i & Hi & E).
    assert (E2 : nth_error (map fst l) i = Some k) by (apply (map_nth_error fst i l E)).
    rewrite Hn in E2. assert (i < length l) by (apply nth_error_Some; congruence).
    rewrite (map_nth_error Z.of_nat i (seq 0 (length l)) (d := i)) in E2.
    + injection E2 as <-. lia.
    + rewrite (nth_error_nth' (seq 0 (length l)) 0) by (rewrite seq_length; assumption). rewrite seq_nth by assumption. reflexivity.
  - intros [(ks & Hin & Hs) Hk]. exists ks. split; [|exact Hs]. apply in_firstn.
    destruct (map_fst_nth l (length l) 0 Hn k _ Hin) as (i & -> & E). exists i. split; [lia|exact E].
Qed.
Lemma numbered_top l : numbered l -> l <> [] -> is_top l (Z.of_nat (length l)).
Proof.
  intros Hn Hl. unfold is_top. rewrite Hn. split.
  - exists (Z.of_nat (length l - 1)). destruct l; [congruence|]. split; [|cbn [length]; lia].
    apply in_map. apply in_seq. cbn [length]. lia.
  - intros k Hk. apply in_map_iff in Hk. destruct Hk as (i & <- & Hi). apply in_seq in Hi. lia.
Qed.
Lemma numbered_in l (v : nat) : numbered l -> v <= length l -> In (Z.of_nat v) (map fst l) \/ Z.of_nat v = Z.of_nat (length l).
Proof.
  intros Hn Hv. destruct (Nat.eq_dec v (length l)) as [->|N]; [right; reflexivity|left].
  rewrite Hn. apply in_map. apply in_seq. lia.
Qed.
Lemma numbered_full c l columns info (v : nat) : attribute b_levels c = Some l -> l <> [] -> strings_only l -> numbered l -> v <= length l ->
  (forall k s, listed l k s -> (k <= Z.of_nat v)%Z -> ~ In s columns -> In s info) ->
  exists ks, shown_info c columns info (Z.of_nat v) = Ok ks /\ NoDup ks /\
    forall s, In s ks <-> ((exists k, listed l k s /\ (k <= Z.of_nat v)%Z) \/ v = length l /\ In s info) /\ ~ In s columns.
Proof.
  intros E Hl Hs Hn Hv Hi.
  assert (Hi' : forall k s, listed (upto (Z.of_nat v + 1) l) k s -> ~ In s columns -> In s info).
  { intros k s Hk. apply (numbered_upto l (Z.of_nat v) k s Hn) in Hk; [|lia]. exact (Hi k s (proj1 Hk) (proj2 Hk)). }
  destruct (shown_ok c l columns info (Z.of_nat v) _ E (numbered_top l Hn Hl) Hs (numbered_in l v Hn Hv) Hi') as (ks & E1 & E2 & E3).
  exists ks. split; [exact E1|]. split; [exact E2|]. intros s. rewrite E3.
  assert (A : (exists k, listed (upto (Z.of_nat v + 1) l) k s) <-> (exists k, listed l k s /\ (k <= Z.of_nat v)%Z)).
  { split; intros [k Hk]; exists k; apply (numbered_upto l (Z.of_nat v) k s Hn) in Hk; try lia; exact Hk. }
  rewrite A. rewrite Nat2Z.inj_iff. reflexivity.
Qed.
Lemma numbered_missing c l columns info (v : nat) k s : attribute b_levels c = Some l -> strings_only l -> numbered l -> v <= length l ->
  listed l k s -> (k <= Z.of_nat v)%Z -> ~ In s columns -> ~ In s info -> shown_info c columns info (Z.of_nat v) = Raise KeyError.
Proof.
  intros E Hs Hn Hv Hk Hkv Hc Hi.
  assert (Hl : l <> []) by (intros ->; destruct Hk as (ks & [] & _)).
  apply (shown_missing c l columns info (Z.of_nat v) _ k s E (numbered_top l Hn Hl) Hs (numbered_in l v Hn Hv)); [|exact Hc|exact Hi].
  apply numbered_upto; [exact Hn|lia|split; assumption].
Qed.

(** the top level *)
Lemma nodup_bounded (l : list Z) m : NoDup l -> (forall x, In x l -> (0 <= x < m)%Z) -> (Z.of_nat (length l) <= m \/ l = [])%Z.
Proof.
  intros Hd Hb. destruct l as [|a l]; [right; reflexivity|left].
  assert (Hm : (0 <= m)%Z) by (specialize (Hb a (or_introl eq_refl)); lia).
  assert (A : NoDup (map Z.to_nat (a :: l))).
  { assert (B : forall x y, In x (a :: l) -> In y (a :: l) -> Z.to_nat x = Z.to_nat y -> x = y)
      by (intros x y Hx Hy; apply Hb in Hx; apply Hb in Hy; lia).
    clear -Hd B. induction Hd as [|x r Hx Hd IH]; cbn; constructor.
    - intros Hin. apply in_map_iff in Hin. destruct Hin as (y & Ey & Hy). apply Hx.
      rewrite (B x y); [exact Hy|left; reflexivity|right; exact Hy|symmetry; exact Ey].
    - apply IH. intros y z Hy Hz. apply B; right; assumption. }
  assert (C : length (map Z.to_nat (a :: l)) <= length (seq 0 (Z.to_nat m))).
  { apply NoDup_incl_length; [exact A|]. intros i Hi. apply in_map_iff in Hi. destruct Hi as (x & <- & Hx). apply Hb in Hx. apply in_seq. lia. }
  rewrite map_length, seq_length in C. lia.
Qed.
Lemma top_full c l columns info t : attribute b_levels c = Some l -> is_top l t -> strings_only l ->
  NoDup (map fst l) -> (forall k, In k (map fst l) -> (0 <= k)%Z) ->
  (forall k s, listed l k s -> ~ In s columns -> In s info) ->
  exists ks, shown_info c columns info t = Ok ks /\ NoDup ks /\ forall s, In s ks <-> In s info /\ ~ In s columns.
Proof.
  intros E Ht Hs Hd Hp Hi.
  assert (A : upto (t + 1) l = l).
  { unfold upto. destruct Ht as [(k & Hk & ->) Hlt]. pose proof (Hp k Hk). destruct (Z.ltb_spec (k + 1 + 1) 0); [lia|].
    apply firstn_all2. destruct (nodup_bounded (map fst l) (k + 1)%Z Hd) as [B|B].
    - intros x Hx. split; [apply Hp; exact Hx|apply Hlt; exact Hx].
    - rewrite map_length in B. lia.
    - rewrite B in Hk. destruct Hk. }
  destruct (shown_ok c l columns info t t E Ht Hs (or_intror eq_refl)) as (ks & E1 & E2 & E3).
  { rewrite A. exact Hi. }
  exists ks. split; [exact E1|]. split; [exact E2|]. intros s. rewrite E3, A. split.
  - intros [[(k & Hk)|[_ Hin]] Hc]; split; try assumption. exact (Hi k s Hk Hc).
  - intros [Hin Hc]. split; [right; split; [reflexivity|exact Hin]|exact Hc].
Qed.
