(** * Lemmas for the correlation report of an image audit (C154) *)
From Coq Require Import String Ascii QArith Lqa List Bool Arith Lia.
From Verif Require Import Base BaseFacts ModelDatalab SpecDatalab ProofDatalab ModelImage SpecImage ProofImage ModelCorrReport SpecCorrReport.
Import ListNotations.
Open Scope string_scope.
Open Scope list_scope.

(** ** names *)
Lemma prefix_app w s : prefix w s = true -> exists t, s = (w ++ t)%string.
Proof.
  revert s. induction w as [|c w IH]; intros s H; [exists s; reflexivity|]. destruct s as [|d s]; [discriminate|]. cbn [prefix] in H.
  destruct (ascii_dec c d) as [->|]; [|discriminate]. destruct (IH s H) as (t & ->). exists t. reflexivity.
Qed.
Lemma app_prefix w t : prefix w (w ++ t)%string = true.
Proof. induction w as [|c w IH]; [destruct t; reflexivity|]. cbn [append prefix]. destruct (ascii_dec c c); [exact IH|congruence]. Qed.
Lemma drop_word s : drop_score 0 ("_score" ++ s)%string = drop_score 0 s.
Proof.
  transitivity (if prefix "_score" ("_score" ++ s)%string then drop_score 5 ("score" ++ s)%string else String "_" (drop_score 0 ("score" ++ s)%string)); [reflexivity|].
  rewrite app_prefix. reflexivity.
Qed.
Lemma drop_stripped s : stripped s (display_name s).
Proof.
  unfold display_name. remember (String.length s) as n eqn:E. assert (L : (String.length s <= n)%nat) by lia. clear E. revert s L. induction n as [|n IH]; intros s L.
  - destruct s; [constructor|cbn in L; lia].
  - destruct s as [|c s]; [constructor|]. destruct (prefix "_score" (String c s)) eqn:P.
    + apply prefix_app in P as (t & P). rewrite P, drop_word. apply Strip_word, IH. apply (f_equal String.length) in P. rewrite length_append in P. cbn in P, L. lia.
    + cbn [drop_score]. rewrite P. apply Strip_char; [|apply IH; cbn in L; lia]. intros s' H. rewrite H in P. rewrite app_prefix in P. discriminate.
Qed.
Lemma strip_unique s t t' : stripped s t -> stripped s t' -> t = t'.
Proof.
  intros H. revert t'. induction H as [|s t H IH|c s t N H IH]; intros t' H'.
  - inversion H'; reflexivity.
  - inversion H' as [|s1 t1 H1 E|c s1 t1 N H1 E]; subst.
    + now apply IH.
    + exfalso. apply (N s). reflexivity.
  - inversion H' as [|s1 t1 H1 E|c1 s1 t1 N1 H1 E]; subst.
    + exfalso. apply (N s1). reflexivity.
    + f_equal. now apply IH.
Qed.
Lemma strip_score x : contains "_score" x = false -> stripped (x ++ "_score")%string x.
Proof.
  induction x as [|c x IH]; intros H.
  - apply (Strip_word "" ""). constructor.
  - cbn [contains] in H. apply Bool.orb_false_iff in H as (P & H). cbn [append]. apply Strip_char; [|now apply IH].
    intros s' E. assert (PT : prefix "_score" (String c (x ++ "_score")%string) = true) by (rewrite E; apply app_prefix). clear E IH H s'.
    assert (ST : forall a a' w t, prefix (String a w) (String a' t) = true -> a' = a /\ prefix w t = true).
    { clear. intros a a' w t H. cbn [prefix] in H. destruct (ascii_dec a a'); [auto|discriminate]. }
    apply ST in PT as (-> & PT). destruct x as [|c1 x]; [apply ST in PT as (E & _); discriminate|]. apply ST in PT as (-> & PT).
    destruct x as [|c2 x]; [apply ST in PT as (E & _); discriminate|]. apply ST in PT as (-> & PT).
    destruct x as [|c3 x]; [apply ST in PT as (E & _); discriminate|]. apply ST in PT as (-> & PT).
    destruct x as [|c4 x]; [apply ST in PT as (E & _); discriminate|]. apply ST in PT as (-> & PT).
    destruct x as [|c5 x]; [apply ST in PT as (E & _); discriminate|]. apply ST in PT as (-> & PT).
    assert (Q : prefix "_score" ("_score" ++ x)%string = true) by apply app_prefix. cbn [append] in Q. rewrite Q in P. discriminate.
Qed.

(** ** the extreme entries of a column *)
Lemma holds_iff col i q : holds_number col i q <-> exists c, nth_error col i = Some c /\ number c = Some q.
Proof.
  split.
  - intros (c & E & [->|[(-> & ->)|(-> & ->)]]); eexists; (split; [exact E|reflexivity]).
  - intros (c & E & H). exists c. split; [exact E|]. destruct c as [[|]|x|]; cbn in H; try discriminate; injection H as <-; auto.
Qed.
Section Extreme.
Variables (better : Q -> Q -> bool) (lt : Q -> Q -> Prop).
Hypothesis B : forall q b, better q b = true <-> lt q b.
Hypothesis Tr : forall a b c, lt a b -> lt b c -> lt a c.
Hypothesis Ir : forall a, ~ lt a a.
Hypothesis Ng : forall a b c, ~ lt b a -> ~ lt c b -> ~ lt c a.
Hypothesis Ng2 : forall a b c, lt a b -> ~ lt c b -> lt a c.
Definition winner (col : list cell) (best : option (nat * Q)) : Prop :=
  match best with
  | None => forall j x, ~ holds_number col j x
  | Some (i, q) => holds_number col i q /\ (forall j x, holds_number col j x -> ~ lt x q) /\ (forall j x, holds_number col j x -> (j < i)%nat -> lt q x)
  end.
Lemma holds_app col c j x : holds_number (col ++ [c]) j x <-> holds_number col j x \/ (j = length col /\ number c = Some x).
Proof.
  rewrite !holds_iff. destruct (lt_dec j (length col)) as [L|L].
  - rewrite nth_error_app1 by auto. split; [auto|]. intros [H|(-> & _)]; [exact H|lia].
  - rewrite nth_error_app2 by lia. split.
    + intros (d & E & H). right. destruct (j - length col)%nat as [|m] eqn:Em; [|destruct m; discriminate]. injection E as <-. split; [lia|exact H].
    + intros [(d & E & _)|(-> & H)]; [assert (j < length col)%nat by (apply nth_error_Some; congruence); lia|]. rewrite Nat.sub_diag. exists c. auto.
Qed.
Lemma winner_step col best c : winner col best ->
  winner (col ++ [c]) (match number c, best with
                       | None, _ => best
                       | Some q, None => Some (length col, q)
                       | Some q, Some (_, b) => if better q b then Some (length col, q) else best
                       end).
Proof.
  intros W. destruct (number c) as [q|] eqn:N.
  - destruct best as [[i b]|]; cbn [winner] in W.
    + destruct W as (W1 & W2 & W3). destruct (better q b) eqn:E.
      * apply B in E. split; [apply holds_app; auto|]. split.
        -- intros j x H. apply holds_app in H as [H|(_ & H)]; [|rewrite N in H; injection H as <-; apply Ir]. intros L. exact (W2 j x H (Tr _ _ _ L E)).
        -- intros j x H Hj. apply holds_app in H as [H|(-> & _)]; [|lia]. apply (Ng2 _ b); auto. intros L. apply (W2 j x H L).
      * assert (NE : ~ lt q b) by (intros L; apply B in L; congruence). split; [apply holds_app; auto|]. split.
        -- intros j x H. apply holds_app in H as [H|(_ & H)]; [exact (W2 j x H)|rewrite N in H; injection H as <-; exact NE].
        -- intros j x H Hj. apply holds_app in H as [H|(-> & _)]; [exact (W3 j x H Hj)|]. apply holds_iff in W1 as (d & W1 & _). assert (i < length col)%nat by (apply nth_error_Some; congruence). lia.
    + split; [apply holds_app; auto|]. split.
      * intros j x H. apply holds_app in H as [H|(_ & H)]; [destruct (W j x H)|]. rewrite N in H. injection H as <-. apply Ir.
      * intros j x H Hj. apply holds_app in H as [H|(-> & _)]; [destruct (W j x H)|lia].
  - destruct best as [[i b]|]; cbn [winner] in *.
    + destruct W as (W1 & W2 & W3). split; [apply holds_app; auto|]. split.
      * intros j x H. apply holds_app in H as [H|(_ & H)]; [exact (W2 j x H)|congruence].
      * intros j x H Hj. apply holds_app in H as [H|(_ & H)]; [exact (W3 j x H Hj)|congruence].
    + intros j x H. apply holds_app in H as [H|(_ & H)]; [exact (W j x H)|congruence].
Qed.
Lemma extreme_winner col : forall seen best, winner seen best -> winner (seen ++ col) (extreme better (length seen) best col).
Proof.
  induction col as [|c col IH]; intros seen best W; [now rewrite app_nil_r|]. cbn [extreme]. replace (S (length seen)) with (length (seen ++ [c])) by (rewrite app_length; cbn; lia).
  replace (seen ++ c :: col) with ((seen ++ [c]) ++ col) by (rewrite <- app_assoc; reflexivity). apply IH. now apply winner_step.
Qed.
Lemma extreme_ok col : winner col (extreme better 0 None col).
Proof. apply (extreme_winner col [] None). intros j x H. apply holds_iff in H as (c & H & _). destruct j; discriminate. Qed.
End Extreme.
Lemma idxmin_ok col : match idxmin col with Some (i, q) => first_lowest col i q | None => forall j x, ~ holds_number col j x end.
Proof.
  unfold idxmin. pose proof (extreme_ok (fun q b => Qltb q b) Qlt) as H. specialize (H (fun q b => Qltb_iff q b)).
  assert (W : winner Qlt col (extreme (fun q b => Qltb q b) 0 None col)) by (apply H; intros; lra).
  destruct (extreme _ 0 None col) as [[i q]|]; cbn [winner] in W; [|exact W]. destruct W as (W1 & W2 & W3). split; [exact W1|]. split; [|exact W3].
  intros j x Hx. apply Qnot_lt_le. eauto.
Qed.
Lemma idxmax_ok col : match idxmax col with Some (i, q) => first_highest col i q | None => forall j x, ~ holds_number col j x end.
Proof.
  unfold idxmax. pose proof (extreme_ok (fun q b => Qltb b q) (fun a b => (b < a)%Q)) as H. specialize (H (fun q b => Qltb_iff b q)).
  assert (W : winner (fun a b => (b < a)%Q) col (extreme (fun q b => Qltb b q) 0 None col)) by (apply H; intros; lra).
  destruct (extreme _ 0 None col) as [[i q]|]; cbn [winner] in W; [|exact W]. destruct W as (W1 & W2 & W3). split; [exact W1|]. split; [|exact W3].
  intros j x Hx. apply Qnot_lt_le. eauto.
Qed.

(** ** the report *)
Lemma below_filter q df props : below q df props <-> props = filter (fun e => Qltb (snd e) q) df.
Proof.
  split.
  - intros (keep & -> & H). apply filter_ext. intros e. apply Bool.eq_iff_eq_true. rewrite H, Qltb_iff. reflexivity.
  - intros ->. exists (fun e => Qltb (snd e) q). split; [reflexivity|]. intros e. apply Qltb_iff.
Qed.
Lemma extremes_pair f e x : show_extremes f (fst e) = Ok x -> image_pair f e x.
Proof.
  unfold show_extremes. destruct (lookup (fst e) f) as [col|] eqn:L; [|discriminate]. pose proof (idxmin_ok col) as Lo. pose proof (idxmax_ok col) as Hi.
  destruct (idxmin col) as [[i q]|]; [|discriminate]. destruct (idxmax col) as [[j r]|]; [|discriminate]. intros [= <-]. split; [apply drop_stripped|]. exists col. auto.
Qed.
Lemma extremes_defined f prop col i q : lookup prop f = Some col -> holds_number col i q -> exists x, show_extremes f prop = Ok x.
Proof.
  intros L H. unfold show_extremes. rewrite L. pose proof (idxmin_ok col) as Lo. pose proof (idxmax_ok col) as Hi.
  destruct (idxmin col) as [p|]; [|destruct (Lo i q H)]. destruct (idxmax col) as [p'|]; [|destruct (Hi i q H)]. eauto.
Qed.
Lemma select_props q (df : list (string * Q)) : NoDup (keys df) ->
  filter (fun e => smem (fst e) (correlated_properties q df)) df = filter (fun e => Qltb (snd e) q) df.
Proof.
  intros N. apply filter_ext_in. intros [k v] H. apply Bool.eq_iff_eq_true. rewrite smem_iff. unfold correlated_properties. cbn [fst snd]. split.
  - intros I. apply in_map_iff in I as ([k' v'] & E & I). cbn in E. subst k'. apply filter_In in I as (I & T). cbn in T.
    apply (lookup_NoDup k v' df N) in I. apply (lookup_NoDup k v df N) in H. rewrite I in H. injection H as ->. exact T.
  - intros T. apply in_map_iff. exists (k, v). split; [reflexivity|]. apply filter_In. auto.
Qed.
Lemma rmap_F2 {A B} (f : A -> res B) l r : rmap f l = Ok r -> Forall2 (fun a b => f a = Ok b) l r.
Proof.
  revert r. induction l as [|a l IH]; intros r; cbn [rmap]; [intros [= <-]; constructor|]. destruct (f a) as [b|] eqn:E; cbn [rbind]; [|discriminate].
  destruct (rmap f l) as [bs|]; cbn [rbind]; [|discriminate]. intros [= <-]. constructor; auto.
Qed.
Lemma report_shown (st : data_issues entry) s : correlation_report st = Ok (Some s) ->
  exists df q, lookup "spurious_correlations" (info st) = Some (ECorr df (VNum q)) /\ ~ (q == 0)%Q /\
    (NoDup (map fst df) -> forall props, below q df props -> props <> [] /\ Forall2 table_row props (shown_table s) /\ Forall2 (image_pair (issues st)) props (shown_images s)).
Proof.
  unfold correlation_report. destruct (lookup _ (info st)) as [[df th|]|]; [|discriminate|discriminate]. destruct (truthy th) eqn:T; cbn [negb]; [|discriminate].
  destruct th as [|q|d]; [discriminate| |destruct df; discriminate]. intros H. exists df, q. split; [reflexivity|]. split.
  { cbn in T. intros E. apply Qeq_bool_iff in E. rewrite E in T. discriminate. }
  intros N props P. apply below_filter in P. destruct (correlated_properties q df) as [|p0 ps] eqn:EP; [discriminate|].
  assert (EQ : map fst props = p0 :: ps) by (rewrite P; exact EP).
  destruct (get_issues None st) as [f|] eqn:G; cbn [rbind] in H; [|discriminate].
  assert (Ef : f = issues st). { unfold get_issues in G. destruct (_ || _); [discriminate|]. now injection G as <-. } subst f.
  destruct (rmap _ _) as [imgs|] eqn:R; cbn [rbind] in H; [|discriminate]. injection H as <-. cbn [shown_table shown_images].
  split; [intros ->; discriminate|]. pose proof (select_props q df N) as SP. rewrite EP, <- P in SP. split.
  - match goal with |- Forall2 _ _ ?X => replace X with (map (fun e : string * Q => (display_name (fst e), snd e)) props) by (rewrite <- SP; reflexivity) end.
    clear. induction props as [|e l IH]; cbn [map]; constructor; [|exact IH]. split; [apply drop_stripped|reflexivity].
  - rewrite <- EQ in R. apply rmap_F2 in R. clear - R. revert imgs R. induction props as [|e l IH]; intros imgs R; cbn [map] in R; inversion R; subst; constructor; [now apply extremes_pair|auto].
Qed.
Lemma report_silent (st : data_issues entry) : correlation_report st = Ok None <->
  (lookup "spurious_correlations" (info st) = None \/ lookup "spurious_correlations" (info st) = Some EOther \/
   exists df th, lookup "spurious_correlations" (info st) = Some (ECorr df th) /\
     (truthy th = false \/ df = [] \/ exists q, th = VNum q /\ forall e, In e df -> (q <= snd e)%Q)).
Proof.
  unfold correlation_report. destruct (lookup _ (info st)) as [[df th|]|].
  - split.
    + intros H. right. right. exists df, th. split; [reflexivity|]. destruct (truthy th); cbn [negb] in H; [|auto]. right. destruct th as [|q|d].
      * destruct df; [auto|discriminate].
      * right. exists q. split; [reflexivity|]. destruct (correlated_properties q df) as [|p ps] eqn:E.
        -- intros e He. apply Qnot_lt_le. intros L. apply Qltb_iff in L. assert (I : In (fst e) (correlated_properties q df)) by (apply in_map, filter_In; auto). rewrite E in I. destruct I.
        -- destruct (get_issues None st); cbn [rbind] in H; [|discriminate]. destruct (rmap _ _); discriminate.
      * destruct df; [auto|discriminate].
    + intros [H|[H|(df' & th' & E & H)]]; [discriminate|discriminate|]. injection E as <- <-. destruct (truthy th) eqn:T; cbn [negb]; [|reflexivity].
      assert (Z : forall q, (forall e, In e df -> (q <= snd e)%Q) -> correlated_properties q df = []).
      { intros q A. unfold correlated_properties. replace (filter _ df) with (@nil (string * Q)); [reflexivity|]. symmetry.
        destruct (filter _ df) as [|e l] eqn:E; [reflexivity|]. exfalso. assert (I : In e (e :: l)) by (left; auto). rewrite <- E in I. apply filter_In in I as (I & L). apply Qltb_iff in L. specialize (A e I). lra. }
      destruct H as [H|[->|(q & -> & A)]]; [discriminate| |].
      * destruct th as [|q|d]; [reflexivity|reflexivity|reflexivity].
      * rewrite Z by exact A. reflexivity.
  - split; [auto|reflexivity].
  - split; [auto|reflexivity].
Qed.

(** ** after an audit *)
Lemma accuracies_ok accuracy f : (forall c, In c f -> exists a, accuracy (snd c) = Some a) ->
  exists l, accuracies accuracy f = Some l /\ Forall2 (fun c e => fst e = fst c /\ accuracy (snd c) = Some (snd e)) f l.
Proof.
  induction f as [|c f IH]; intros H; [exists []; split; [reflexivity|constructor]|]. destruct (H c (or_introl eq_refl)) as (a & A). destruct IH as (l & E & F); [intros d Hd; apply H; now right|].
  exists ((fst c, a) :: l). cbn [accuracies]. rewrite A, E. split; [reflexivity|]. constructor; [split; auto|exact F].
Qed.
Lemma update_nil {A} (e : list (string * A)) : NoDup (keys e) -> dict_update [] e = e.
Proof.
  assert (G : forall e d : list (string * A), NoDup (keys (d ++ e)) -> dict_update d e = d ++ e).
  { clear. induction e as [|[k v] e IH]; intros d N; [unfold dict_update; cbn; now rewrite app_nil_r|]. unfold dict_update in *. cbn [fold_left fst snd].
    assert (E : dict_set k v d = d ++ [(k, v)]).
    { unfold keys in N. rewrite map_app in N. cbn [map fst] in N. apply NoDup_remove_2 in N. assert (I : ~ In k (map fst d)) by (intros I; apply N; apply in_or_app; auto). clear - I.
      induction d as [|[k' v'] d IH]; [reflexivity|]. cbn [dict_set app]. destruct (String.eqb_spec k k') as [->|]; [exfalso; apply I; now left|]. f_equal. apply IH. intros J. apply I. now right. }
    rewrite E. rewrite IH; rewrite <- app_assoc; [reflexivity|exact N]. }
  intros N. exact (G e [] N).
Qed.
Lemma correlations_keys accs labels : keys (correlations accs labels) = keys accs.
Proof. unfold correlations, keys. rewrite map_map. reflexivity. Qed.
Lemma F2_keys {A B} (R : (string * A) -> (string * B) -> Prop) l l' : (forall c e, R c e -> fst e = fst c) -> Forall2 R l l' -> keys l' = keys l.
Proof. intros H F. induction F; [reflexivity|]. unfold keys in *. cbn [map]. f_equal; auto. Qed.
Lemma collect_columns (lab : imagelab entry) types st st' : collect_imagelab lab types st = Ok st' ->
  d_rows st' = d_rows st /\ forall k, In k (keys (i_frame lab)) -> In k (keys (issues st')).
Proof.
  unfold collect_imagelab. destruct (negb _); [discriminate|]. destruct (rmap _ types); cbn [rbind]; [|discriminate]. intros [= <-]. cbn [d_rows issues]. split; [reflexivity|].
  intros k Hk. unfold keys. rewrite map_app. apply in_or_app. set (kept := filter _ (issues st)). destruct (in_dec string_dec k (keys kept)) as [I|I]; [left; exact I|right].
  apply in_map_iff in Hk as (c & E & Hc). apply in_map_iff. exists c. split; [exact E|]. apply filter_In. split; [exact Hc|]. apply Bool.negb_true_iff, smem_false. now rewrite E.
Qed.
Lemma report_defined (st : data_issues entry) df q : lookup "spurious_correlations" (info st) = Some (ECorr df (VNum q)) -> (1 <= d_rows st)%nat ->
  (forall k, In k (keys df) -> exists col i x, lookup k (issues st) = Some col /\ holds_number col i x) -> exists r, correlation_report st = Ok r.
Proof.
  intros L R H. unfold correlation_report. rewrite L. destruct (negb _); [eauto|]. destruct (correlated_properties q df) as [|p ps] eqn:E; [eauto|].
  assert (I : forall k, In k (p :: ps) -> In k (keys df)).
  { intros k Hk. rewrite <- E in Hk. apply in_map_iff in Hk as (e & <- & He). apply filter_In in He as (He & _). apply in_map. exact He. }
  unfold get_issues. destruct (H p (I p (or_introl eq_refl))) as (c0 & _ & _ & L0 & _).
  replace (Nat.eqb (d_rows st) 0) with false by (symmetry; apply Nat.eqb_neq; lia). destruct (issues st) as [|c1 f] eqn:EI; [discriminate|]. cbn [length Nat.eqb orb rbind].
  assert (G : exists imgs, rmap (show_extremes (c1 :: f)) (p :: ps) = Ok imgs).
  { clear L E L0. revert I. generalize (p :: ps). intros l I. induction l as [|k l IH]; [exists []; reflexivity|]. destruct (H k (I k (or_introl eq_refl))) as (col & i & x & Lk & Hx).
    destruct (extremes_defined _ _ _ _ _ Lk Hx) as (y & Y). cbn [rmap]. rewrite Y. cbn [rbind]. destruct IH as (ys & ->); [intros k' Hk'; apply I; now right|]. cbn [rbind]. eauto. }
  destruct G as (imgs & ->). cbn [rbind]. eauto.
Qed.
Lemma audit_report base lab_find lab_stats accuracy labels types l d' (st st1 st2 st' : data_issues entry) lab lab' r q : types <> Some [] ->
  match types with None => d' = None | Some d => exists p, d' = Some p /\ plain_part d p end ->
  base d' st = Ok st1 -> asks_images types l -> l <> [] -> ~ In "spurious_correlations" (map fst l) -> asks_spurious types (VNum q) ->
  image_audit base lab_find lab_stats (correlate_images accuracy labels) true types st lab = (st', lab', r) ->
  snd (lab_find l lab) = true ->
  collect_imagelab lab' (map fst l)
    (DI (d_rows st1) (issues st1) (issue_summary st1) (info st1) (dict_update (statistics st1) (lab_stats lab')) (health_score st1)) = Ok st2 ->
  scored lab' -> NoDup (keys (i_frame lab')) -> (forall c, In c (i_frame lab') -> exists a, accuracy (snd c) = Some a) ->
  (1 <= d_rows st1)%nat -> (forall c, In c (issues st') -> exists i x, holds_number (snd c) i x) ->
  (exists s, correlation_report st' = Ok s) /\
  exists df g, lookup "spurious_correlations" (info st') = Some (ECorr df (VNum q)) /\ score_columns (i_frame lab') g /\
    Forall2 (fun c e => fst e = fst c /\ exists a, accuracy (snd c) = Some a /\ snd e = relative_room (baseline labels) a) g df.
Proof.
  intros Ht Hd Hb Hi Hl Hs Ha H Hf Hc Sc ND Acc Hr Hn.
  destruct (audit_tables base lab_find lab_stats (correlate_images accuracy labels) true types l d' st st1 lab Ht Hd Hb Hi (or_intror (ex_intro _ _ Ha))) as (st'' & lab'' & E & _ & T).
  rewrite E in H. injection H as -> -> <-. destruct (T Hl) as (EL & _ & T2). specialize (T2 Hf st2 Hc). destruct T2 as (R1 & R2 & _).
  assert (EX : exists g, score_columns (i_frame lab') g).
  { exists (filter (fun c => ends_with "_score" (fst c)) (i_frame lab')). exists (fun c => ends_with "_score" (fst c)). split; [reflexivity|]. intros c. apply ends_with_iff. }
  destruct EX as (g & Hg). pose proof Hg as (keep & Eg & _).
  destruct (audit_spurious base lab_find lab_stats (correlate_images accuracy labels) true types l d' st st1 lab st' lab' (Ok tt) Ht Hd Hb Hi E Hs) as (_ & SP).
  destruct (SP (VNum q) g Ha Hg) as (SP1 & _). destruct (accuracies_ok accuracy g) as (accs & EA & FA); [intros c Hc'; apply Acc; rewrite Eg in Hc'; apply filter_In in Hc' as (? & _); auto|].
  assert (Ng : NoDup (keys g)) by (rewrite Eg; now apply NoDup_keys_filter).
  assert (Ka : keys accs = keys g) by (eapply F2_keys; [|exact FA]; intros c e (? & _); auto).
  assert (EU : dict_update [] (correlations accs labels) = correlations accs labels) by (apply update_nil; rewrite correlations_keys, Ka; exact Ng).
  assert (LK : lookup "spurious_correlations" (info st') = Some (ECorr (correlations accs labels) (VNum q))).
  { apply SP1; auto. unfold correlate_images. rewrite EA, EU. reflexivity. }
  destruct (collect_columns _ _ _ _ Hc) as (D1 & D2). cbn [d_rows] in D1. split.
  - apply (report_defined st' _ q LK); [lia|]. intros k Hk. rewrite correlations_keys, Ka in Hk. assert (I : In k (keys (i_frame lab'))).
    { rewrite Eg in Hk. apply in_map_iff in Hk as (c & <- & Hc'). apply filter_In in Hc' as (Hc' & _). now apply in_map. }
    apply D2 in I. rewrite <- R2 in I. destruct (lookup k (issues st')) as [col|] eqn:Lk; [|apply lookup_none in Lk; contradiction].
    destruct (Hn (k, col) (lookup_in _ _ _ Lk)) as (i & x & Hx). exists col, i, x. auto.
  - exists (correlations accs labels), g. split; [exact LK|]. split; [exact Hg|]. clear - FA. induction FA as [|c e g accs (E1 & E2) FA IH]; [constructor|]. cbn [correlations map]. constructor; [|exact IH]. cbn [fst snd]. split; [exact E1|]. eauto.
Qed.
