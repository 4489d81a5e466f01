(** * Proofs about the text helpers *)
From Coq Require Import List NArith Bool Arith Lia.
From Verif Require Import Base BaseFacts ModelText SpecText.
Import ListNotations.

Lemma starts_iff w : forall s, starts_with w s = true <-> exists r, s = w ++ r.
Proof.
  induction w as [|a w IH]; intros s; cbn.
  - split; [intros _; now exists s|reflexivity].
  - destruct s as [|b s].
    + split; [discriminate|]. now intros [r H].
    + rewrite andb_true_iff, N.eqb_eq, IH. split.
      * intros [-> [r ->]]. now exists r.
      * intros [r H]. injection H as -> ->. split; [reflexivity|now exists r].
Qed.
Lemma text_eqb_iff a b : text_eqb a b = true <-> a = b.
Proof.
  unfold text_eqb. rewrite andb_true_iff, Nat.eqb_eq, starts_iff. split.
  - intros [[r ->] E]. rewrite app_length in E. destruct r; [now rewrite app_nil_r|cbn in E; lia].
  - intros ->. split; [exists []; now rewrite app_nil_r|reflexivity].
Qed.

Lemma join_cons w p ps : ps <> [] -> join w (p :: ps) = p ++ w ++ join w ps.
Proof. now destruct ps. Qed.
Lemma joints_cons w off p ps : ps <> [] -> joints w off (p :: ps) = (off + length p) :: joints w (off + length p + length w) ps.
Proof. now destruct ps. Qed.
Lemma join_head w c p ps : join w ((c :: p) :: ps) = c :: join w (p :: ps).
Proof. destruct ps; reflexivity. Qed.
Lemma joints_head w off c p ps : joints w off ((c :: p) :: ps) = joints w (S off) (p :: ps).
Proof. destruct ps; [reflexivity|]. cbn [joints length]. now replace (off + S (length p)) with (S off + length p) by lia. Qed.

Section Replace.
  Variable w new : text.
  Variable test : option N -> text -> bool.
  Hypothesis Hw : w <> [].
  Notation go := (replace_from w new test).

  Definition prev_of (pre : text) : option N := hd_error (rev pre).
  Lemma prev_snoc pre c : prev_of (pre ++ [c]) = Some c.
  Proof. unfold prev_of. rewrite rev_app_distr. reflexivity. Qed.

  Lemma skip_app : forall u prev s k, k = length u -> u <> [] -> go prev k (u ++ s) = go (hd_error (rev u)) 0 s.
  Proof.
    induction u as [|c u IH]; intros prev s k -> Hu; [congruence|]. cbn [length app replace_from].
    destruct u as [|c' u]; [reflexivity|]. rewrite (IH (Some c) s (length (c' :: u))) by (auto; discriminate). f_equal.
    cbn [rev]. destruct (rev u ++ [c']) eqn:E; [now destruct (rev u)|]. reflexivity.
  Qed.

  (** the place [k] of the whole text is an occurrence that passes the test *)
  Definition passes (full : text) (k : nat) : bool :=
    (starts_with w (skipn k full) && test (prev_of (firstn k full)) (skipn k full))%bool.

  Lemma passes_here pre s : passes (pre ++ s) (length pre) = (starts_with w s && test (prev_of pre) s)%bool.
  Proof. unfold passes. now rewrite skipn_app, firstn_app, skipn_all, firstn_all, Nat.sub_diag, app_nil_l; cbn; rewrite app_nil_r. Qed.

  Lemma go_spec : forall n s pre, length s <= n ->
    exists ps, ps <> [] /\ s = join w ps /\ go (prev_of pre) 0 s = (join new ps, length (joints w (length pre) ps)) /\
      (forall k, In k (joints w (length pre) ps) -> passes (pre ++ s) k = true /\ length pre <= k) /\
      (forall k, length pre <= k -> passes (pre ++ s) k = true -> exists k', In k' (joints w (length pre) ps) /\ k' <= k < k' + length w).
  Proof.
    assert (Hlw : 0 < length w) by (destruct w; [congruence|cbn; lia]).
    induction n as [|n IH]; intros s pre Hn.
    - destruct s; [|cbn in Hn; lia]. exists [[]]. cbn. split; [discriminate|]. repeat split; try contradiction.
      intros k Hk Hp. exfalso. unfold passes in Hp. apply andb_true_iff in Hp. destruct Hp as [Hp _]. apply starts_iff in Hp. destruct Hp as [r Hr].
      rewrite app_nil_r, skipn_all2 in Hr by lia. destruct w; [congruence|discriminate].
    - destruct s as [|c r].
      { exists [[]]. cbn. split; [discriminate|]. repeat split; try contradiction.
        intros k Hk Hp. exfalso. unfold passes in Hp. apply andb_true_iff in Hp. destruct Hp as [Hp _]. apply starts_iff in Hp. destruct Hp as [r Hr].
        rewrite app_nil_r, skipn_all2 in Hr by lia. destruct w; [congruence|discriminate]. }
      destruct (starts_with w (c :: r) && test (prev_of pre) (c :: r))%bool eqn:Et.
      + pose proof Et as Et'. apply andb_true_iff in Et'. destruct Et' as [Hs _]. apply starts_iff in Hs. destruct Hs as [r' Hr].
        destruct (IH r' (pre ++ w)) as (ps & Hne & Hj & Hgo & Hin & Hall).
        { assert (length (c :: r) = length w + length r') by (rewrite Hr; apply app_length). lia. }
        exists ([] :: ps). split; [discriminate|]. rewrite join_cons, joints_cons by auto. cbn [app length].
        split; [now rewrite Hr, Hj|]. rewrite Nat.add_0_r. split; [|split].
        * cbn [replace_from]. rewrite Et.
          assert (E : go (Some c) (length w - 1) r = go (prev_of (pre ++ w)) 0 r').
          { assert (Ew : exists a w', w = a :: w') by (destruct w as [|a w']; [congruence|now exists a, w']). destruct Ew as (a & w' & Ew).
            rewrite Ew in Hr. cbn in Hr. injection Hr as -> ->. replace (length w - 1) with (length w') by (rewrite Ew; cbn; lia).
            assert (Ep : prev_of (pre ++ w) = hd_error (rev (a :: w'))).
            { unfold prev_of. rewrite rev_app_distr, Ew. cbn [rev]. destruct (rev w'); reflexivity. }
            rewrite Ep. destruct w' as [|b w']; [reflexivity|].
            rewrite (skip_app (b :: w')) by (auto; discriminate). f_equal. cbn [rev]. destruct (rev w' ++ [b]) eqn:E; [now destruct (rev w')|reflexivity]. }
          rewrite E, Hgo, (join_cons new []) by auto. rewrite app_length. reflexivity.
        * intros k [<-|Hk].
          -- rewrite passes_here. split; [exact Et|lia].
          -- rewrite <- app_length in Hk. destruct (Hin k Hk) as [Hp Hle]. rewrite <- app_assoc, <- Hr in Hp. rewrite app_length in Hle. split; [exact Hp|lia].
        * intros k Hk Hp. destruct (Nat.lt_ge_cases k (length pre + length w)) as [Hlt|Hge].
          -- exists (length pre). split; [now left|lia].
          -- destruct (Hall k) as (k' & Hk' & Hb); [rewrite app_length; lia|now rewrite <- app_assoc, <- Hr|].
             exists k'. split; [right; now rewrite <- app_length|exact Hb].
      + destruct (IH r (pre ++ [c])) as (ps & Hne & Hj & Hgo & Hin & Hall); [cbn in Hn; lia|].
        destruct ps as [|p ps]; [congruence|]. exists ((c :: p) :: ps). split; [discriminate|].
        rewrite (join_head w), !joints_head. rewrite app_length in Hgo, Hin, Hall. cbn [length] in Hgo, Hin, Hall. rewrite Nat.add_1_r in Hgo, Hin, Hall.
        split; [f_equal; exact Hj|]. split; [|split].
        * cbn [replace_from]. rewrite Et. rewrite prev_snoc in Hgo. rewrite Hgo. now rewrite join_head.
        * intros k Hk. destruct (Hin k Hk) as [Hp Hle]. rewrite <- app_assoc in Hp. split; [exact Hp|lia].
        * intros k Hk Hp. assert (k <> length pre) by (intros ->; rewrite passes_here in Hp; congruence).
          destruct (Hall k) as (k' & Hk' & Hb); [lia|now rewrite <- app_assoc|]. now exists k'.
  Qed.
  Lemma go_whole s : exists ps, ps <> [] /\ s = join w ps /\ go None 0 s = (join new ps, length (joints w 0 ps)) /\
      (forall k, In k (joints w 0 ps) -> passes s k = true) /\
      (forall k, passes s k = true -> exists k', In k' (joints w 0 ps) /\ k' <= k < k' + length w).
  Proof.
    destruct (go_spec (length s) s [] (le_n _)) as (ps & H1 & H2 & H3 & H4 & H5). exists ps. cbn in *. repeat split; auto.
    - intros k Hk. now apply H4.
    - intros k Hk. apply H5; [lia|exact Hk].
  Qed.
End Replace.

(** ** Occurrences *)
Lemma stands_iff w s k : w <> [] -> (stands_at w s k <-> starts_with w (skipn k s) = true).
Proof.
  intro Hw. rewrite starts_iff. unfold stands_at. split.
  - intros (a & b & -> & <-). exists b. now rewrite skipn_app, skipn_all, Nat.sub_diag.
  - intros [r E]. exists (firstn k s), r. split; [now rewrite <- E, firstn_skipn|]. rewrite firstn_length.
    destruct (Nat.le_gt_cases k (length s)); [lia|]. rewrite skipn_all2 in E by lia. destruct w; [congruence|discriminate].
Qed.
Lemma joints_none w off ps : ps <> [] -> joints w off ps = [] -> exists p, ps = [p].
Proof. destruct ps as [|p [|q ps]]; intros H1 H2; [congruence|now exists p|discriminate]. Qed.
Lemma length_joints w off ps : length (joints w off ps) = length ps - 1.
Proof.
  revert off. induction ps as [|p ps IH]; intro off; [reflexivity|]. destruct ps as [|q ps]; [reflexivity|].
  rewrite joints_cons by discriminate. cbn [length]. rewrite IH. cbn. lia.
Qed.

Lemma replace_full w new s : w <> [] -> exists ps, ps <> [] /\ s = join w ps /\ str_replace w new s = join new ps /\
  (forall k, stands_at w s k -> exists k', In k' (joints w 0 ps) /\ k' <= k < k' + length w).
Proof.
  intro Hw. destruct (go_whole w new (fun _ _ => true) Hw s) as (ps & H1 & H2 & H3 & _ & H5). exists ps. unfold str_replace. rewrite H3. repeat split; auto.
  intros k Hk. apply H5. unfold passes. apply (stands_iff w s k Hw) in Hk. now rewrite Hk.
Qed.

(** ** Colouring *)
Lemma expand_plain t : ~ In 92%N t -> expand t = Ok t.
Proof.
  induction t as [|c t IH]; intro H; [reflexivity|]. cbn. destruct (N.eqb_spec c 92) as [->|Hc]; [exfalso; apply H; now left|].
  rewrite IH by (intro; apply H; now right). reflexivity.
Qed.
Lemma colored_plain w : ~ In 92%N w -> ~ In 92%N (colored w).
Proof. intros H Hin. unfold colored in Hin. rewrite !in_app_iff in Hin. destruct Hin as [Hin|[Hin|Hin]]; [|contradiction|]; cbn in Hin; intuition discriminate. Qed.

Lemma skipn_twice {A} a : forall b (s : list A), skipn a (skipn b s) = skipn (a + b) s.
Proof.
  intros b. induction b as [|b IH]; intro s; [now rewrite Nat.add_0_r|]. rewrite Nat.add_succ_r. destruct s as [|c s]; [now rewrite !skipn_nil|]. cbn. apply IH.
Qed.
Lemma hd_skipn {A} (s : list A) k : hd_error (skipn k s) = nth_error s k.
Proof. revert k. induction s as [|c s IH]; intros [|k]; cbn; auto. Qed.
Lemma prev_firstn (s : text) k : k <= length s -> prev_of (firstn k s) = match k with O => None | S j => nth_error s j end.
Proof.
  destruct k as [|j]; [reflexivity|]. intro H. unfold prev_of.
  destruct (nth_error s j) as [c|] eqn:E; [|apply nth_error_None in E; lia].
  destruct (nth_error_split s j E) as (a & b & -> & <-).
  replace (S (length a)) with (length (a ++ [c])) by (rewrite app_length; cbn; lia).
  replace (a ++ c :: b) with ((a ++ [c]) ++ b) by now rewrite <- app_assoc.
  now rewrite firstn_app, firstn_all, Nat.sub_diag, app_nil_r, rev_app_distr.
Qed.
Lemma last_of (w : text) : w <> [] -> hd_error (rev w) = nth_error w (length w - 1).
Proof.
  intro H. destruct (exists_last H) as (u & c & ->). rewrite rev_app_distr, app_length. cbn. rewrite Nat.add_sub.
  rewrite nth_error_app2, Nat.sub_diag by lia. reflexivity.
Qed.

Section Colour.
  Variable word_char : N -> bool.
  Definition wc (o : option N) : bool := match o with Some c => word_char c | None => false end.
  Lemma passes_own w s k : w <> [] -> (passes w (whole_word word_char w) s k = true <-> own_word word_char w s k).
  Proof.
    intro Hw. unfold passes, own_word. rewrite andb_true_iff. rewrite <- (stands_iff w s k Hw).
    assert (X : forall a b, xorb a b = true <-> a <> b) by (intros [] []; cbn; split; congruence).
    split; intros [H1 H2]; (split; [exact H1|]); destruct H1 as (a & b & Es & Hk).
    - assert (Hle : k <= length s) by (rewrite Es, !app_length; lia).
      assert (Ew : nth_error s (k + length w - 1) = hd_error (rev w)).
      { rewrite last_of by exact Hw. rewrite Es, nth_error_app2 by (destruct w; [congruence|cbn; lia]).
        rewrite nth_error_app1 by (destruct w; [congruence|cbn; lia]). f_equal. destruct w; [congruence|cbn; lia]. }
      unfold whole_word in H2. apply andb_true_iff in H2. destruct H2 as [H2 H3].
      unfold boundary in H2, H3. rewrite X in H2, H3. unfold word_at. rewrite Ew.
      rewrite skipn_twice, !hd_skipn in H3. rewrite hd_skipn, prev_firstn in H2 by exact Hle.
      split; [destruct k; exact H2|]. now rewrite (Nat.add_comm k).
    - assert (Hle : k <= length s) by (rewrite Es, !app_length; lia).
      assert (Ew : nth_error s (k + length w - 1) = hd_error (rev w)).
      { rewrite last_of by exact Hw. rewrite Es, nth_error_app2 by (destruct w; [congruence|cbn; lia]).
        rewrite nth_error_app1 by (destruct w; [congruence|cbn; lia]). f_equal. destruct w; [congruence|cbn; lia]. }
      destruct H2 as [H2 H3]. unfold whole_word. apply andb_true_iff. unfold word_at in H2, H3. rewrite Ew in H3. unfold boundary. rewrite !X.
      rewrite skipn_twice, !hd_skipn, prev_firstn by exact Hle. rewrite (Nat.add_comm (length w)). split; [destruct k; exact H2|exact H3].
  Qed.

  Lemma colour_full s w : w <> [] -> ~ In 92%N w ->
    exists ps, ps <> [] /\ s = join w ps /\ color_sentence word_char s w = Ok (join (colored w) ps) /\
      ((exists k, stands_at w s k) -> 2 <= length ps) /\
      ((exists k, own_word word_char w s k) -> forall k, In k (joints w 0 ps) -> own_word word_char w s k) /\
      (forall k, own_word word_char w s k -> exists k', In k' (joints w 0 ps) /\ k' <= k < k' + length w) /\
      ((forall k, ~ own_word word_char w s k) -> forall k, stands_at w s k -> exists k', In k' (joints w 0 ps) /\ k' <= k < k' + length w).
  Proof.
    intros Hw Hb. unfold color_sentence, replace_sentence. rewrite expand_plain by now apply colored_plain. cbn [rbind].
    destruct (go_whole w (colored w) (whole_word word_char w) Hw s) as (ps & H1 & H2 & H3 & H4 & H5). rewrite H3.
    destruct (Nat.eqb_spec (length (joints w 0 ps)) 0) as [E|E].
    - assert (Hno : forall k, ~ own_word word_char w s k).
      { intros k Hk. apply passes_own in Hk; [|exact Hw]. destruct (H5 k Hk) as (k' & Hin & _). destruct (joints w 0 ps); [destruct Hin|discriminate]. }
      destruct (replace_full w (colored w) s Hw) as (qs & Q1 & Q2 & Q3 & Q4). exists qs. rewrite Q3. split; [exact Q1|]. split; [exact Q2|]. split; [reflexivity|]. split; [|split; [|split; [|intros _; exact Q4]]].
      + intros [k Hk]. destruct (Q4 k Hk) as (k' & Hin & _). destruct qs as [|q [|q' qs]]; cbn in *; try contradiction; lia.
      + intros [k Hk]. now apply Hno in Hk.
      + intros k Hk. now apply Hno in Hk.
    - exists ps. split; [exact H1|]. split; [exact H2|]. split; [reflexivity|]. split; [|split; [|split]].
      + intros _. rewrite length_joints in E. lia.
      + intros _ k Hk. apply passes_own; auto.
      + intros k Hk. apply H5. now apply passes_own.
      + intros Hno. exfalso. destruct (joints w 0 ps) as [|k l]; [now apply E|]. apply (Hno k). apply passes_own; [exact Hw|]. apply H4. now left.
  Qed.

  (** words of word characters only: exactly the occurrences that are words of their own *)
  Lemma colour_words s w : w <> [] -> (forall c, In c w -> word_char c = true) -> ~ In 92%N w -> (exists k, own_word word_char w s k) ->
    exists ps, ps <> [] /\ s = join w ps /\ color_sentence word_char s w = Ok (join (colored w) ps) /\
      forall k, In k (joints w 0 ps) <-> own_word word_char w s k.
  Proof.
    intros Hw Hc Hb Hex. destruct (colour_full s w Hw Hb) as (ps & H1 & H2 & H3 & _ & H5 & H6 & _). exists ps. split; [exact H1|]. split; [exact H2|]. split; [exact H3|]. intro k. split.
    - intros Hk. now apply H5.
    - intros Hk. destruct (H6 k Hk) as (k' & Hin & Hle). destruct (Nat.eq_dec k' k) as [<-|Hne]; [exact Hin|]. exfalso.
      pose proof (H5 Hex k' Hin) as ((a & b & Es & Ha) & _). destruct Hk as ((a2 & b2 & Es2 & Ha2) & Hbd & _).
      assert (Hall : forall j, k' <= j < k' + length w -> word_at word_char s j = true).
      { intros j Hj. unfold word_at. rewrite Es, nth_error_app2 by lia. rewrite nth_error_app1 by lia.
        destruct (nth_error w (j - length a)) as [c|] eqn:E; [|apply nth_error_None in E; lia]. apply Hc. now apply nth_error_In in E. }
      destruct k as [|k]; [lia|]. apply Hbd. rewrite (Hall k) by lia. rewrite (Hall (S k)) by lia. reflexivity.
  Qed.
End Colour.

(** ** Sentences *)
Section Sentence.
  Variable space_char : N -> bool.
  Hypothesis Hspace : space_char 32%N = true.
  (** the second text is the first one with some white space removed *)
  Inductive thinned : text -> text -> Prop :=
    | th_nil : thinned [] []
    | th_keep c s t : thinned s t -> thinned (c :: s) (c :: t)
    | th_drop c s t : space_char c = true -> thinned s t -> thinned (c :: s) t.
  Lemma thinned_refl s : thinned s s.
  Proof. induction s; now constructor. Qed.
  Lemma thinned_trans s t u : thinned s t -> thinned t u -> thinned s u.
  Proof.
    intros H. revert u. induction H; intros u Hu; [exact Hu| |constructor; auto].
    inversion Hu; subst; [now constructor; auto|]. apply th_drop; auto.
  Qed.
  Lemma thinned_app a a' b b' : thinned a a' -> thinned b b' -> thinned (a ++ b) (a' ++ b').
  Proof. intros H Hb. induction H; cbn; [exact Hb| |]; now constructor. Qed.
  Lemma thinned_split a b t : thinned (a ++ b) t -> exists a' b', t = a' ++ b' /\ thinned a a' /\ thinned b b'.
  Proof.
    revert t. induction a as [|c a IH]; intros t H; cbn in H.
    - exists [], t. repeat split; [constructor|exact H].
    - inversion H as [|x s0 t0 Hst E1|x s0 t0 Hsp Hst E1]; subst.
      + destruct (IH _ Hst) as (a' & b' & -> & Ha & Hb). exists (c :: a'), b'. repeat split; [now constructor|exact Hb].
      + destruct (IH _ Hst) as (a' & b' & -> & Ha & Hb). exists a', b'. repeat split; [now constructor|exact Hb].
  Qed.
  Lemma thinned_word w t : (forall c, In c w -> space_char c = false) -> thinned w t -> t = w.
  Proof.
    intros Hw H. induction H; [reflexivity| |].
    - f_equal. apply IHthinned. intros x Hx. apply Hw. now right.
    - rewrite (Hw c) in H by now left. discriminate.
  Qed.
  Lemma thinned_rev s t : thinned s t -> thinned (rev s) (rev t).
  Proof.
    intro H. induction H; cbn; [constructor| |].
    - apply thinned_app; [assumption|apply thinned_refl].
    - rewrite <- (app_nil_r (rev t)). apply thinned_app; [assumption|]. now constructor; [|constructor].
  Qed.
  Lemma lstrip_thinned s : thinned s (lstrip space_char s).
  Proof. induction s as [|c s IH]; cbn; [constructor|]. destruct (space_char c) eqn:E; [now constructor|apply thinned_refl]. Qed.
  Lemma strip_thinned s : thinned s (strip space_char s).
  Proof.
    unfold strip. apply thinned_trans with (lstrip space_char s); [apply lstrip_thinned|].
    rewrite <- (rev_involutive (lstrip space_char s)) at 1. apply thinned_rev, lstrip_thinned.
  Qed.
  Lemma join_thinned w new ps : thinned w new -> thinned (join w ps) (join new ps).
  Proof.
    intro H. induction ps as [|p ps IH]; [constructor|]. destruct ps as [|q ps]; [apply thinned_refl|].
    rewrite !join_cons by discriminate. apply thinned_app; [apply thinned_refl|]. now apply thinned_app.
  Qed.
  Lemma replace_thinned w new s : w <> [] -> thinned w new -> thinned s (str_replace w new s).
  Proof. intros Hw H. destruct (replace_full w new s Hw) as (ps & _ & -> & -> & _). now apply join_thinned. Qed.

  Lemma sentence_thinned words : thinned (concat (map spaced words)) (get_sentence space_char words).
  Proof.
    unfold get_sentence.
    assert (E : fold_left (fun s word => s ++ spaced word) words [] = concat (map spaced words)).
    { assert (G : forall acc, fold_left (fun s word => s ++ spaced word) words acc = acc ++ concat (map spaced words)).
      { induction words as [|w words IH]; intro acc; cbn; [now rewrite app_nil_r|]. rewrite IH. now rewrite app_assoc. }
      apply G. }
    rewrite E. eapply thinned_trans; [|apply strip_thinned]. eapply thinned_trans; [apply (replace_thinned [32; 39]%N [39]%N); [discriminate|]|].
    - apply th_drop; [exact Hspace|apply thinned_refl].
    - apply replace_thinned; [discriminate|]. apply th_keep. now apply th_drop; [exact Hspace|constructor].
  Qed.

  Lemma sentence_laid words : (forall w, In w words -> forall c, In c w -> space_char c = false) ->
    exists gaps, length gaps = length words /\ (forall g, In g gaps -> g = [] \/ g = [32%N]) /\
      get_sentence space_char words = lay gaps words.
  Proof.
    intro Hw. pose proof (sentence_thinned words) as H. revert H. generalize (get_sentence space_char words). induction words as [|w words IH]; intros t H.
    - exists []. inversion H; subst. repeat split. contradiction.
    - cbn in H. apply thinned_split in H. destruct H as (a & b & -> & Ha & Hb).
      destruct (IH (fun w' Hin => Hw w' (or_intror Hin)) b Hb) as (gaps & Hl & Hg & ->).
      assert (Hww : forall c, In c w -> space_char c = false) by (apply Hw; now left).
      unfold spaced in Ha. destruct (_ || _)%bool.
      + inversion Ha as [|x s0 t0 Hst E1|x s0 t0 Hsp Hst E1]; subst.
        * apply thinned_word in Hst; [|exact Hww]. subst. exists ([32%N] :: gaps). cbn. repeat split; auto. intros g [<-|Hin]; auto.
        * apply thinned_word in Hst; [|exact Hww]. subst. exists ([] :: gaps). cbn. repeat split; auto. intros g [<-|Hin]; auto.
      + apply thinned_word in Ha; [|exact Hww]. subst. exists ([] :: gaps). cbn. repeat split; auto. intros g [<-|Hin]; auto.
  Qed.
  Lemma nonspace_thinned s t : thinned s t -> filter (fun c => negb (space_char c)) s = filter (fun c => negb (space_char c)) t.
  Proof. intro H. induction H; cbn; [reflexivity|now rewrite IHthinned|]. rewrite H. exact IHthinned. Qed.
  Lemma sentence_letters words :
    filter (fun c => negb (space_char c)) (get_sentence space_char words) = filter (fun c => negb (space_char c)) (concat words).
  Proof.
    rewrite <- (nonspace_thinned _ _ (sentence_thinned words)). induction words as [|w words IH]; [reflexivity|]. cbn. rewrite !filter_app, IH. f_equal.
    unfold spaced. destruct (_ || _)%bool; [|reflexivity]. cbn. now rewrite Hspace.
  Qed.
  Lemma laid_stands gaps words w : length gaps = length words -> In w words -> exists k, stands_at w (lay gaps words) k.
  Proof.
    revert gaps. induction words as [|v words IH]; intros gaps Hl Hin; [destruct Hin|]. destruct gaps as [|g gaps]; [discriminate|]. cbn.
    destruct Hin as [->|Hin].
    - exists (length g), g, (lay gaps words). auto.
    - destruct (IH gaps ltac:(cbn in Hl; lia) Hin) as (k & a & b & -> & _). exists (length (g ++ v ++ a)), (g ++ v ++ a), b.
      split; [|reflexivity]. now rewrite <- !app_assoc.
  Qed.
  Lemma shown_full word_char words w : (forall w, In w words -> forall c, In c w -> space_char c = false) ->
    In w words -> w <> [] -> ~ In 92%N w ->
    exists ps, 2 <= length ps /\ get_sentence space_char words = join w ps /\
      color_sentence word_char (get_sentence space_char words) w = Ok (join (colored w) ps).
  Proof.
    intros Hs Hin Hw Hb. destruct (colour_full word_char (get_sentence space_char words) w Hw Hb) as (ps & _ & H2 & H3 & H4 & _).
    exists ps. split; [|now split]. apply H4. destruct (sentence_laid words Hs) as (gaps & Hl & _ & E). rewrite E. now apply laid_stands.
  Qed.
End Sentence.

(** ** Tokens *)
Lemma process_skip rules : forall u s, process_from rules (length u) (u ++ s) = process_from rules 0 s.
Proof. induction u as [|c u IH]; intro s; [reflexivity|]. cbn. apply IH. Qed.
Lemma begins_iff k s : starts_with k s = true <-> begins k s.
Proof. apply starts_iff. Qed.
Lemma find_split {A} (f : A -> bool) l x : find f l = Some x -> exists a b, l = a ++ x :: b /\ f x = true /\ forall y, In y a -> f y = false.
Proof.
  induction l as [|y l IH]; cbn; [discriminate|]. destruct (f y) eqn:E.
  - intro H. injection H as ->. exists [], l. repeat split; auto. contradiction.
  - intro H. destruct (IH H) as (a & b & -> & Hx & Ha). exists (y :: a), b. repeat split; auto. intros z [<-|Hz]; auto.
Qed.
Lemma value_split rules k v0 : In (k, v0) rules -> exists v before after, rules = before ++ (k, v) :: after /\
  (forall kv, In kv after -> fst kv <> k) /\ value_of rules k = v.
Proof.
  unfold value_of. intro Hin.
  assert (G : forall (rules : list (text * text)) (v1 : text), (exists v before after, rules = before ++ (k, v) :: after /\ (forall kv, In kv after -> fst kv <> k) /\
      fold_left (fun v kv => if text_eqb k (fst kv) then snd kv else v) rules v1 = v) \/
    ((forall kv, In kv rules -> fst kv <> k) /\ fold_left (fun v kv => if text_eqb k (fst kv) then snd kv else v) rules v1 = v1)).
  { clear. induction rules as [|[k' v'] rules IH]; intro v1; [right; split; [contradiction|reflexivity]|]. cbn [fold_left fst snd].
    destruct (text_eqb k k') eqn:E.
    - apply text_eqb_iff in E. subst k'. destruct (IH v') as [(v & b & a & -> & Ha & Hv)|[Hn Hv]].
      + left. exists v, ((k, v') :: b), a. repeat split; auto.
      + left. exists v', [], rules. repeat split; auto.
    - destruct (IH v1) as [(v & b & a & -> & Ha & Hv)|[Hn Hv]].
      + left. exists v, ((k', v') :: b), a. repeat split; auto.
      + right. split; [|exact Hv]. intros kv [<-|Hkv]; [|now apply Hn]. cbn. intros ->. rewrite (proj2 (text_eqb_iff k k) eq_refl) in E. discriminate. }
  destruct (G rules []) as [H|[Hn _]]; [exact H|]. now destruct (Hn _ Hin).
Qed.
Lemma process_spec rules : (forall kv, In kv rules -> fst kv <> []) -> forall n s, length s <= n -> rewritten rules s (process_from rules 0 s).
Proof.
  intro Hk. induction n as [|n IH]; intros s Hn; [destruct s; [constructor|cbn in Hn; lia]|].
  destruct s as [|c r]; [constructor|]. cbn [process_from].
  destruct (find (fun kv => starts_with (fst kv) (c :: r)) rules) as [[k v0]|] eqn:E.
  - destruct (find_split _ _ _ E) as (b & a & Er & Hs & Hb). cbn [fst] in Hs. apply begins_iff in Hs. destruct Hs as [r' Hr'].
    assert (Hin : In (k, v0) rules) by (rewrite Er; apply in_elt).
    destruct (value_split rules k v0 Hin) as (v & b' & a' & Er' & Ha' & Hv).
    specialize (Hk _ Hin). cbn in Hk. destruct k as [|x k]; [congruence|]. cbn [length]. rewrite Nat.sub_succ, Nat.sub_0_r.
    pose proof Hr' as Hr2. cbn in Hr2. injection Hr2 as -> ->. rewrite process_skip, Hv.
    change (x :: k ++ r') with ((x :: k) ++ r'). apply (rw_rule rules (x :: k) v0 v b a b' a'); auto.
    + intros kv Hkv Hbg. apply begins_iff in Hbg. specialize (Hb kv Hkv). cbn in *. congruence.
    + apply IH. cbn in Hn. rewrite app_length in Hn. lia.
  - apply rw_copy; [|apply IH; cbn in Hn; lia]. intros kv Hkv Hbg. apply begins_iff in Hbg. pose proof (find_none _ _ E kv Hkv). cbn in *. congruence.
Qed.
Lemma process_full token rules : rules <> [] -> (forall kv, In kv rules -> fst kv <> []) ->
  exists out, process_token token rules = Ok out /\ rewritten rules token out.
Proof.
  intros Hr Hk. unfold process_token. destruct rules as [|kv rules]; [congruence|]. eexists. split; [reflexivity|].
  now apply process_spec with (n := length token).
Qed.
(** [rewritten] determines the result *)
Lemma rewritten_det rules : (forall kv, In kv rules -> fst kv <> []) -> forall s o1 o2, rewritten rules s o1 -> rewritten rules s o2 -> o1 = o2.
Proof.
  intros Hk s o1 o2 H. revert o2. induction H as [|c r o Hn H IH|k v0 v b a b' a' r o E1 Hb E2 Ha H IH]; intros o2 H2.
  - remember (@nil N) as s eqn:Es. destruct H2 as [|c r o Hn H|k v0 v b a b' a' r o E1 Hb E2 Ha H]; [reflexivity|discriminate|]. destruct k; [|discriminate].
    exfalso. apply (Hk ([], v0)); [rewrite E1; apply in_elt|exact (eq_sym Es)].
  - remember (c :: r) as s eqn:Es. destruct H2 as [|c' r' o' Hn' H'|k v0 v b a b' a' r' o' E1 Hb E2 Ha H']; [discriminate| |].
    + injection Es as -> ->. f_equal. now apply IH.
    + exfalso. apply (Hn (k, v0)); [rewrite E1; apply in_elt|]. exists r'. reflexivity.
  - remember (k ++ r) as s eqn:Es. destruct H2 as [|c r2 o2 Hn H2|k2 w0 w b2 a2 b2' a2' r2 o2 F1 Fb F2 Fa H2].
    + destruct k; [|discriminate]. exfalso. apply (Hk ([], v0)); [rewrite E1; apply in_elt|reflexivity].
    + exfalso. apply (Hn (k, v0)); [rewrite E1; apply in_elt|]. exists r. exact Es.
    + assert (Ek : k2 = k).
      { assert (Hc : forall x y : list (text * text), x ++ (k2, w0) :: a2 = y ++ (k, v0) :: a ->
           (exists z, x = y ++ (k, v0) :: z) \/ (exists z, y = x ++ (k2, w0) :: z) \/ (k2 = k)).
        { induction x as [|p x IHx]; intros [|q y] E; cbn in E.
          - injection E as -> _ _. auto.
          - injection E as -> ->. right. left. now exists y.
          - injection E as -> <-. left. now exists x.
          - injection E as -> E. destruct (IHx y E) as [[z ->]|[[z ->]|Hz]]; [left; now exists z|right; left; now exists z|auto]. }
        rewrite F1 in E1. destruct (Hc _ _ E1) as [[z ->]|[[z ->]|Hz]]; [| |exact Hz].
        - exfalso. apply (Fb (k, v0)); [apply in_elt|]. exists r. exact Es.
        - exfalso. apply (Hb (k2, w0)); [apply in_elt|]. exists r2. reflexivity. }
      subst k2. apply app_inv_head in Es. subst r2. f_equal; [|now apply IH].
      assert (Hc : forall x y, x ++ (k, w) :: a2' = y ++ (k, v) :: a' -> w = v).
      { induction x as [|p x IHx]; intros [|q y] E; cbn in E.
        - now injection E.
        - injection E as _ ->. exfalso. apply (Fa (k, v)); [apply in_elt|reflexivity].
        - injection E as -> <-. exfalso. apply (Ha (k, w)); [apply in_elt|reflexivity].
        - injection E as _ E. now apply (IHx y). }
      symmetry. apply (Hc b2' b'). congruence.
Qed.
Lemma process_chars token rules : rules <> [] -> (forall kv, In kv rules -> length (fst kv) = 1) ->
  forall f, (forall c, In [c] (map fst rules) -> exists before after, rules = before ++ ([c], f c) :: after /\ ~ In [c] (map fst after)) ->
  (forall c, ~ In [c] (map fst rules) -> f c = [c]) ->
  process_token token rules = Ok (concat (map f token)).
Proof.
  intros Hr Hl f Hf1 Hf2. destruct (process_full token rules Hr) as (out & -> & Hrw).
  { intros [k v] Hkv E. cbn in E. subst k. specialize (Hl _ Hkv). discriminate. }
  f_equal. induction Hrw as [|c r o Hn H IH|k v0 v b a b' a' r o E1 Hb E2 Ha H IH]; [reflexivity| |].
  - cbn. rewrite (Hf2 c); [now rewrite IH|]. intro Hin. apply in_map_iff in Hin. destruct Hin as ([k v] & E & Hkv). cbn in E. subst k. apply (Hn _ Hkv). now exists r.
  - assert (Hk1 : length k = 1) by (apply (Hl (k, v0)); rewrite E1; apply in_elt). destruct k as [|c [|? ?]]; try discriminate. cbn.
    assert (Hin : In [c] (map fst rules)) by (apply in_map_iff; exists ([c], v0); split; [reflexivity|rewrite E1; apply in_elt]).
    destruct (Hf1 c Hin) as (b2 & a2 & E3 & Hn3). rewrite IH. f_equal.
    assert (Hc : forall x y, x ++ ([c], v) :: a' = y ++ ([c], f c) :: a2 -> v = f c).
    { induction x as [|p x IHx]; intros [|q y] E; cbn in E.
      - now injection E.
      - injection E as _ ->. exfalso. apply (Ha ([c], f c)); [apply in_elt|reflexivity].
      - injection E as -> <-. exfalso. apply Hn3. rewrite map_app. apply in_elt.
      - injection E as _ E. now apply (IHx y). }
    apply (Hc b' b2). exact (eq_trans (eq_sym E2) E3).
Qed.
