(** * Proofs about dividing the same tokens into sentences differently (C147) *)
From Coq Require Import String QArith List ZArith Bool Arith Lia.
From Verif Require Import Base BaseFacts ModelUtil ModelCount ModelRank ModelFilter ModelBatched ModelToken SpecToken SpecCount ProofRank ProofToken SpecRegroup.
Import ListNotations.
Open Scope nat_scope.

Lemma lookup_positions lens : forall idx issues, rmap (lookup_issue (mapping_flatten lens)) idx = Ok issues ->
  map (position lens) issues = idx /\ Forall (in_text lens) issues.
Proof.
  induction idx as [|p idx IH]; cbn [rmap]; intros issues H.
  - injection H as <-. split; constructor.
  - unfold lookup_issue at 1 in H. destruct (nth_error (mapping_flatten lens) p) as [ij|] eqn:E; [|discriminate]. cbn [rbind] in H.
    destruct (rmap (lookup_issue (mapping_flatten lens)) idx) as [r|] eqn:R; [|discriminate]. cbn [rbind] in H. injection H as <-.
    destruct (IH r eq_refl) as (A & B).
    assert (P : p < nsum lens).
    { assert (L : length (mapping_flatten lens) = nsum lens) by exact (mapping_from_length lens 0). rewrite <- L. apply nth_error_Some. congruence. }
    destruct (locate lens p P) as (ij' & H1 & H2). pose proof (mapping_position lens ij' H1) as E'. rewrite H2, E in E'. injection E' as ->.
    cbn [map]. rewrite H2, A. split; [reflexivity|constructor; auto].
Qed.
Lemma lookup_total lens idx : (forall p, In p idx -> p < nsum lens) -> exists issues, rmap (lookup_issue (mapping_flatten lens)) idx = Ok issues.
Proof.
  induction idx as [|p idx IH]; intros H; [eexists; reflexivity|]. destruct (IH (fun q Hq => H q (or_intror Hq))) as (r & R).
  destruct (locate lens p (H p (or_introl eq_refl))) as (ij & H1 & H2). cbn [rmap]. unfold lookup_issue at 1. rewrite <- H2, mapping_position by auto.
  cbn [rbind]. rewrite R. eexists. reflexivity.
Qed.
Lemma total_same {A} (x x' : list (list A)) : same_text x x' -> nsum (map (@length A) x') = nsum (map (@length A) x).
Proof. intros H. rewrite <- !concat_length. rewrite H. reflexivity. Qed.
Lemma token_regroup main labels pps labels' pps' issues : same_text labels labels' -> same_text pps pps' ->
  token_issues main labels pps = Ok issues ->
  Forall (in_text (map (@length nat) labels)) issues /\
  exists issues', token_issues main labels' pps' = Ok issues' /\ Forall (in_text (map (@length nat) labels')) issues' /\ positions labels' issues' = positions labels issues.
Proof.
  intros HL HP H. unfold token_issues in *. rewrite HL, HP. destruct (main (concat labels) (concat pps)) as [idx|]; [|discriminate]. cbn [rbind] in *.
  destruct (lookup_positions _ _ _ H) as (A & B). split; [auto|].
  destruct (lookup_total (map (@length nat) labels') idx) as (issues' & R).
  - intros p Hp. rewrite (total_same labels labels' HL). rewrite <- A in Hp. apply in_map_iff in Hp. destruct Hp as (ij & <- & Hij).
    apply position_lt. rewrite Forall_forall in B. auto.
  - exists issues'. destruct (lookup_positions _ _ _ R) as (A' & B'). split; [auto|]. split; [auto|]. unfold positions. congruence.
Qed.
Lemma token_regroup_raise main labels pps labels' pps' e : same_text labels labels' -> same_text pps pps' ->
  token_issues main labels pps = Raise e -> token_issues main labels' pps' = Raise e.
Proof.
  intros HL HP H. destruct (token_issues main labels' pps') as [r|e'] eqn:E.
  - destruct (token_regroup main labels' pps' labels pps r (eq_sym HL) (eq_sym HP) E) as (_ & i & Hi & _). congruence.
  - unfold token_issues in H, E. rewrite HL, HP in E. destruct (main (concat labels) (concat pps)) as [idx|]; cbn [rbind] in *; [|congruence].
    assert (ER : forall lens e, rmap (lookup_issue (mapping_flatten lens)) idx = Raise e -> e = IndexError).
    { intros lens. clear. induction idx as [|p idx IH]; cbn [rmap]; intros e H; [discriminate|]. unfold lookup_issue at 1 in H.
      destruct (nth_error _ p); cbn [rbind] in H; [|congruence]. destruct (rmap _ idx) as [r|e0] eqn:R; cbn [rbind] in H; [discriminate|]. injection H as <-. auto. }
    rewrite (ER _ _ H), (ER _ _ E). reflexivity.
Qed.
Lemma find_regroup srt labels pps labels' pps' K rank_by low flt o issues : same_text labels labels' -> same_text pps pps' ->
  token_find_label_issues srt labels pps K rank_by low flt o = Ok issues ->
  Forall (in_text (map (@length nat) labels)) issues /\
  exists issues', token_find_label_issues srt labels' pps' K rank_by low flt o = Ok issues' /\
    Forall (in_text (map (@length nat) labels')) issues' /\ positions labels' issues' = positions labels issues.
Proof. intros HL HP H. unfold token_find_label_issues in *. destruct low; eapply token_regroup; eauto. Qed.
Lemma find_regroup_raise srt labels pps labels' pps' K rank_by low flt o e : same_text labels labels' -> same_text pps pps' ->
  token_find_label_issues srt labels pps K rank_by low flt o = Raise e -> token_find_label_issues srt labels' pps' K rank_by low flt o = Raise e.
Proof. intros HL HP H. unfold token_find_label_issues in *. destruct low; eapply token_regroup_raise; eauto. Qed.

Lemma scores_regroup K labels pps labels' pps' m : dataset K (concat labels) (concat pps) -> 2 <= K ->
  same_text labels labels' -> same_text pps pps' -> (forall s, In s labels -> s <> []) -> (forall s, In s labels' -> s <> []) ->
  exists ss ts ss' ts', token_get_label_quality_scores labels pps K m = Ok (ss, ts) /\
    token_get_label_quality_scores labels' pps' K m = Ok (ss', ts') /\ same_shape ts labels /\ same_shape ts' labels' /\ same_text ts ts'.
Proof.
  intros Hd HK HL HP HE HE'. destruct (C15_scores_full K (concat labels) (concat pps) m Hd HK) as (flat & Ef & Hlen & _).
  assert (go : forall l p, concat l = concat labels -> concat p = concat pps -> (forall s, In s l -> s <> []) ->
    token_get_label_quality_scores l p K m = Ok (map qminimum (nested_list flat (map (@length nat) l)), nested_list flat (map (@length nat) l)) /\
    map (@length Q) (nested_list flat (map (@length nat) l)) = map (@length nat) l /\ concat (nested_list flat (map (@length nat) l)) = flat).
  { intros l p El Ep He. assert (N : length flat = nsum (map (@length nat) l)) by (rewrite <- concat_length; congruence).
    unfold token_get_label_quality_scores. rewrite El, Ep, Ef. cbn [rbind]. rewrite min_ok.
    - cbn [rbind]. split; [reflexivity|]. split; [apply nested_shape; auto|apply nested_concat; auto].
    - intros s Hs E. subst s. apply (in_map (@length Q)) in Hs. rewrite nested_shape in Hs by auto.
      apply in_map_iff in Hs. destruct Hs as (x & Hx & Hin). apply (He x Hin). destruct x; [auto|discriminate]. }
  destruct (go labels pps eq_refl eq_refl HE) as (A1 & A2 & A3). destruct (go labels' pps' HL HP HE') as (B1 & B2 & B3).
  do 4 eexists. split; [exact A1|]. split; [exact B1|]. split; [exact A2|]. split; [exact B2|]. unfold same_text. congruence.
Qed.

(** ** Summaries *)
Lemma entry_position {A} (d : A) x ij : in_text (map (@length A) x) ij -> entry d x ij = nth (position (map (@length A) x) ij) (concat x) d.
Proof. intros H. symmetry. apply concat_entry. auto. Qed.
Lemma same_length {A} (x x' : list (list A)) i i' : positions x' i' = positions x i -> length i' = length i.
Proof. intros H. apply (f_equal (@length nat)) in H. unfold positions in H. rewrite !map_length in H. auto. Qed.
Lemma filter_regroup lower token issues issues' tokens tokens' : same_text tokens tokens' ->
  Forall (in_text (map (@length string) tokens)) issues -> Forall (in_text (map (@length string) tokens')) issues' ->
  positions tokens' issues' = positions tokens issues ->
  exists r r', filter_by_token lower token issues tokens = Ok r /\ filter_by_token lower token issues' tokens' = Ok r' /\
    positions tokens' r' = positions tokens r.
Proof.
  intros HT HI HI' HP. revert issues' HI' HP. induction HI as [|ij issues H HI IH]; intros issues' HI' HP.
  - destruct issues'; [|discriminate]. exists [], []. repeat split.
  - destruct issues' as [|ij' issues']; [discriminate|]. inversion HI' as [|? ? H' HI'' ]; subst. unfold positions in HP. cbn [map] in HP. injection HP as HP0 HP.
    destruct (IH issues' HI'' HP) as (r & r' & E & E' & P). cbn [filter_by_token]. rewrite !token_at_ok by auto. cbn [rbind]. rewrite E, E'. cbn [rbind].
    rewrite (entry_position _ tokens'), (entry_position _ tokens) by auto. rewrite HP0, HT.
    destruct (String.eqb (lower token) _); do 2 eexists; (split; [reflexivity|]); (split; [reflexivity|]); auto.
    unfold positions in *. cbn [map]. congruence.
Qed.
Lemma words_regroup tokens tokens' : same_text tokens tokens' -> forall issues issues' c,
  Forall (in_text (map (@length string) tokens)) issues -> Forall (in_text (map (@length string) tokens')) issues' ->
  positions tokens' issues' = positions tokens issues -> count_words issues' tokens' c = count_words issues tokens c.
Proof.
  intros HT. induction issues as [|ij issues IH]; intros [|ij' issues'] c HI HI' HP; try discriminate; [reflexivity|].
  inversion HI as [|? ? H HI1]; inversion HI' as [|? ? H' HI1']; subst. unfold positions in HP. cbn [map] in HP. injection HP as HP0 HP.
  cbn [count_words]. rewrite !token_at_ok by auto. cbn [rbind]. rewrite (entry_position _ tokens'), (entry_position _ tokens) by auto. rewrite HP0, HT. apply IH; auto.
Qed.
Lemma swaps_regroup n exclude tokens tokens' labels labels' pps pps' : same_text tokens tokens' -> same_text labels labels' -> same_text pps pps' ->
  same_shape tokens labels -> same_shape tokens pps -> same_shape tokens' labels' -> same_shape tokens' pps' -> forall issues issues' c,
  Forall (in_text (map (@length string) tokens)) issues -> Forall (in_text (map (@length string) tokens')) issues' ->
  positions tokens' issues' = positions tokens issues ->
  count_swaps n issues' tokens' labels' pps' exclude c = count_swaps n issues tokens labels pps exclude c.
Proof.
  intros HT HL HP S1 S2 S1' S2'. unfold same_shape in *. induction issues as [|ij issues IH]; intros [|ij' issues'] c HI HI' HQ; try discriminate; [reflexivity|].
  inversion HI as [|? ? H HI1]; inversion HI' as [|? ? H' HI1']; subst. unfold positions in HQ. cbn [map] in HQ. injection HQ as HQ0 HQ.
  cbn [count_swaps]. rewrite !token_at_ok by auto. rewrite (at2_ok 0 labels'), (at2_ok 0 labels), (at2_ok [] pps'), (at2_ok [] pps) by congruence. cbn [rbind].
  rewrite (entry_position _ tokens'), (entry_position _ tokens), (entry_position _ labels'), (entry_position _ labels), (entry_position _ pps'), (entry_position _ pps) by congruence.
  rewrite <- S1, <- S2, <- S1', <- S2', HQ0, HT, HL, HP.
  destruct (excluded _ _ _); [apply IH; auto|]. destruct (_ || _)%bool; [reflexivity|apply IH; auto].
Qed.
Lemma tokens_regroup srt tokens tokens' issues issues' : same_text tokens tokens' ->
  Forall (in_text (map (@length string) tokens)) issues -> Forall (in_text (map (@length string) tokens')) issues' ->
  positions tokens' issues' = positions tokens issues -> common_tokens srt issues' tokens' = common_tokens srt issues tokens.
Proof. intros. unfold common_tokens. rewrite (words_regroup tokens tokens') with (issues := issues); auto. Qed.
Lemma common_regroup srt exclude tokens tokens' labels labels' pps pps' issues issues' :
  same_text tokens tokens' -> same_text labels labels' -> same_text pps pps' ->
  same_shape tokens labels -> same_shape tokens pps -> same_shape tokens' labels' -> same_shape tokens' pps' ->
  hd [] pps <> [] -> hd [] pps' <> [] ->
  Forall (in_text (map (@length string) tokens)) issues -> Forall (in_text (map (@length string) tokens')) issues' ->
  positions tokens' issues' = positions tokens issues ->
  common_swaps srt issues' tokens' labels' pps' exclude = common_swaps srt issues tokens labels pps exclude.
Proof.
  intros HT HL HP S1 S2 S1' S2' N N' HI HI' HQ. unfold common_swaps.
  destruct pps as [|[|row rest] sents]; cbn in N; try congruence. destruct pps' as [|[|row' rest'] sents']; cbn in N'; try congruence.
  assert (R : row' = row) by (unfold same_text in HP; cbn in HP; congruence). subst row'.
  rewrite (swaps_regroup (length row) exclude tokens tokens' labels labels' ((row :: rest) :: sents) ((row :: rest') :: sents')) with (issues := issues); auto.
Qed.
