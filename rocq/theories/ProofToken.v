From Coq Require Import String QArith Reals List ZArith Bool Arith Sorted Permutation Lia Lra.
From Coq Require Lqa.
From Verif Require Import Base BaseFacts ModelUtil ModelCount ModelRank ModelFilter ModelBatched ModelEntropy
     ModelOutlier ModelToken SpecCount SpecFilter SpecRank SpecOutlier SpecToken
     ProofUtil ProofCount ProofPool ProofFilter ProofRank ProofBatched ProofNoise ProofOutlier.
Import ListNotations.
Open Scope nat_scope.

(** ** Positions *)
Definition mapping_from (s : nat) (lengths : list nat) : list (nat * nat) :=
  concat (map (fun il => map (fun j => (fst il, j)) (seq 0 (snd il))) (combine (seq s (length lengths)) lengths)).
Lemma mapping_from_cons s n t : mapping_from s (n :: t) = map (fun j => (s, j)) (seq 0 n) ++ mapping_from (S s) t.
Proof. reflexivity. Qed.
Lemma mapping_from_length lens : forall s, length (mapping_from s lens) = nsum lens.
Proof.
  induction lens as [|n t IH]; intros s; [reflexivity|].
  rewrite mapping_from_cons, app_length, map_length, seq_length, IH. reflexivity.
Qed.
Lemma mapping_from_nth lens : forall s i j, i < length lens -> j < nth i lens 0 ->
  nth_error (mapping_from s lens) (nsum (firstn i lens) + j) = Some (s + i, j).
Proof.
  induction lens as [|n t IH]; intros s i j Hi Hj; [simpl in Hi; lia|].
  rewrite mapping_from_cons. destruct i as [|i].
  - simpl in Hj. cbn [firstn nsum fold_right Nat.add]. rewrite nth_error_app1 by (rewrite map_length, seq_length; lia).
    rewrite (map_nth_error (fun j => (s, j)) j (seq 0 n) (d := j)); [f_equal; f_equal; lia|].
    rewrite nth_error_nth' with (d := 0) by (rewrite seq_length; lia). rewrite seq_nth by lia. reflexivity.
  - simpl in Hi, Hj. cbn [firstn nsum fold_right].
    rewrite nth_error_app2 by (rewrite map_length, seq_length; lia). rewrite map_length, seq_length.
    fold (nsum (firstn i t)). replace (n + nsum (firstn i t) + j - n) with (nsum (firstn i t) + j) by lia.
    rewrite IH by lia. f_equal. f_equal. lia.
Qed.
Lemma mapping_position lens ij : in_text lens ij -> nth_error (mapping_flatten lens) (position lens ij) = Some ij.
Proof. intros (H1 & H2). destruct ij as [i j]. apply (mapping_from_nth lens 0 i j H1 H2). Qed.
Lemma locate lens : forall p, p < nsum lens -> exists ij, in_text lens ij /\ position lens ij = p.
Proof.
  induction lens as [|n t IH]; intros p Hp; [simpl in Hp; lia|].
  destruct (Nat.lt_ge_cases p n) as [H|H].
  - exists (0, p). unfold in_text, position. simpl. repeat split; lia.
  - destruct (IH (p - n)) as ([i j] & (H1 & H2) & E); [change (nsum (n :: t)) with (n + nsum t) in Hp; lia|].
    exists (S i, j). unfold in_text, position in *. simpl in *. change (fold_right Nat.add 0 (firstn i t)) with (nsum (firstn i t)). repeat split; lia.
Qed.
Lemma position_lt lens ij : in_text lens ij -> position lens ij < nsum lens.
Proof.
  intros H. apply mapping_position in H. rewrite <- (mapping_from_length lens 0).
  apply nth_error_Some. unfold mapping_flatten in H. unfold mapping_from. congruence.
Qed.
Lemma position_inj lens ij ij' : in_text lens ij -> in_text lens ij' -> position lens ij = position lens ij' -> ij = ij'.
Proof. intros H H' E. apply mapping_position in H. apply mapping_position in H'. congruence. Qed.
Lemma concat_length {A} (x : list (list A)) : length (concat x) = nsum (map (@length A) x).
Proof. induction x; simpl; [reflexivity|]. rewrite app_length, IHx. reflexivity. Qed.
Lemma concat_entry {A} (d : A) : forall x ij, in_text (map (@length A) x) ij ->
  nth (position (map (@length A) x) ij) (concat x) d = entry d x ij.
Proof.
  induction x as [|s t IH]; intros [i j] (H1 & H2); [simpl in H1; lia|]. simpl in H1.
  destruct i as [|i]; unfold position, entry; simpl in *.
  - rewrite app_nth1 by lia. reflexivity.
  - fold (nsum (firstn i (map (@length A) t))). rewrite app_nth2 by lia.
    replace (length s + nsum (firstn i (map (@length A) t)) + j - length s) with
      (nsum (firstn i (map (@length A) t)) + j) by lia.
    apply (IH (i, j)). split; simpl; [lia|auto].
Qed.

Lemma lookup_ok lens : forall idx, (forall p, In p idx -> p < nsum lens) ->
  exists issues, rmap (lookup_issue (mapping_flatten lens)) idx = Ok issues /\
    Forall2 (fun p ij => in_text lens ij /\ position lens ij = p) idx issues.
Proof.
  induction idx as [|p t IH]; intros H; [exists []; split; [reflexivity|constructor]|].
  destruct (locate lens p) as (ij & H1 & H2); [apply H; simpl; auto|].
  destruct IH as (r & E & F); [intros; apply H; simpl; auto|].
  exists (ij :: r). simpl. unfold lookup_issue at 1. rewrite <- H2, mapping_position by auto. cbn [rbind]. rewrite E.
  split; [reflexivity|]. constructor; auto.
Qed.
Lemma lookup_raise lens : forall idx p, In p idx -> nsum lens <= p ->
  rmap (lookup_issue (mapping_flatten lens)) idx = Raise IndexError.
Proof.
  induction idx as [|q t IH]; intros p H1 H2; [destruct H1|]. simpl. unfold lookup_issue at 1.
  destruct (nth_error (mapping_flatten lens) q) eqn:E.
  - destruct H1 as [->|H1].
    + assert (p < nsum lens) by (rewrite <- (mapping_from_length lens 0); apply nth_error_Some; unfold mapping_flatten in E; unfold mapping_from; congruence). lia.
    + rewrite (IH p H1 H2). reflexivity.
  - reflexivity.
Qed.
Lemma Forall2_position_NoDup lens idx issues :
  Forall2 (fun p ij => in_text lens ij /\ position lens ij = p) idx issues -> NoDup idx -> NoDup issues.
Proof.
  induction 1 as [|p ij idx issues (H1 & H2) HF IH]; intros Hn; [constructor|].
  inversion Hn as [|? ? Hp Hn']; subst. constructor; auto. intros Hin. apply Hp.
  clear - HF Hin. induction HF as [|p q l l' (A & B)]; [destruct Hin|].
  destruct Hin as [->|Hin]; [left; auto|right; auto].
Qed.
Lemma Forall2_position_in lens idx issues :
  Forall2 (fun p ij => in_text lens ij /\ position lens ij = p) idx issues ->
  forall ij, In ij issues <-> in_text lens ij /\ In (position lens ij) idx.
Proof.
  induction 1 as [|p q idx issues (H1 & H2) HF IH]; intros ij; simpl; [tauto|]. rewrite IH. split.
  - intros [->|(A & B)]; auto.
  - intros (A & [B|B]); auto. left. apply position_inj with lens; auto. lia.
Qed.

Lemma C30_map_full : forall main labels pps idx,
  main (concat labels) (concat pps) = Ok idx -> (forall p, In p idx -> p < length (concat labels)) ->
  exists issues, token_issues main labels pps = Ok issues /\
    Forall2 (fun p ij => in_text (map (@length nat) labels) ij /\ position (map (@length nat) labels) ij = p) idx issues /\
    (forall ij, In ij issues <->
       in_text (map (@length nat) labels) ij /\ In (position (map (@length nat) labels) ij) idx) /\
    (NoDup idx -> NoDup issues).
Proof.
  intros main labels pps idx Hm Hr. unfold token_issues. rewrite Hm. cbn [rbind].
  destruct (lookup_ok (map (@length nat) labels) idx) as (issues & E & F).
  { intros p Hp. rewrite <- concat_length. auto. }
  exists issues. split; auto. split; auto. split; [apply Forall2_position_in; auto|].
  intros. eapply Forall2_position_NoDup; eauto.
Qed.

Open Scope Q_scope.
Lemma mask_lt m e n : length m = n -> flagged m e -> (e < n)%nat.
Proof.
  intros Hl Hf. unfold flagged in Hf. destruct (Nat.lt_ge_cases e (length m)); [lia|].
  rewrite nth_overflow in Hf by lia. discriminate.
Qed.
Lemma Forall2_sorted lens sc idx issues :
  Forall2 (fun p ij => in_text lens ij /\ position lens ij = p) idx issues ->
  StronglySorted (fun a b => nth a sc 0 <= nth b sc 0) idx ->
  StronglySorted (fun a b => nth (position lens a) sc 0 <= nth (position lens b) sc 0) issues.
Proof.
  induction 1 as [|p ij idx issues (H1 & H2) HF IH]; intros Hs; [constructor|].
  apply StronglySorted_inv in Hs as (Hs & Hfa). constructor; auto.
  rewrite Forall_forall in *. intros x Hx. pose proof (proj1 (Forall2_position_in _ _ _ HF x) Hx) as (A & B).
  specialize (Hfa _ B). cbv beta in Hfa. rewrite H2. exact Hfa.
Qed.

Lemma find_length srt K labels pp flt o m : argsort_ok srt -> dataset K labels pp -> two_classes labels ->
  find_label_issues srt labels pp K flt o = Ok m -> forall e, flagged m e -> (e < length labels)%nat.
Proof.
  intros Hs Hd H2 Hf e He.
  destruct (find_ranked_spec srt K labels pp flt o SelfConfidence false m Hs Hd H2 Hf) as (idx & sc & E & Es & El & _ & Hi & _).
  unfold find_label_issues_ranked in E. rewrite Hf in E. cbn [rbind] in E.
  apply Hi in He. unfold order_label_issues in E.
  destruct (assert_valid_inputs labels pp K (set_is_zero labels)); [|discriminate]. cbn [rbind] in E.
  rewrite Es in E. cbn [rbind] in E. injection E as <-.
  unfold take_idx in He. apply in_map_iff in He as (k & <- & Hk).
  assert (Hk' : (k < length (select m (seq 0 (length labels))))%nat \/ (length (select m (seq 0 (length labels))) <= k)%nat) by lia.
  destruct Hk' as [Hk'|Hk'].
  - assert (Hin : In (nth k (select m (seq 0 (length labels))) 0%nat) (select m (seq 0 (length labels)))) by (apply nth_In; auto).
    unfold select in Hin at 2. apply in_map_iff in Hin as ((b & x) & Hx & Hin). apply filter_In in Hin as (Hin & _).
    apply in_combine_r in Hin. simpl in Hx. rewrite Hx in Hin. apply in_seq in Hin. lia.
  - rewrite nth_overflow by auto. destruct labels; [|simpl; lia]. destruct H2 as (? & ? & H & _). destruct H.
Qed.

Lemma C30_find_full : forall srt K labels pps rank_by flt o m, argsort_ok srt ->
  dataset K (concat labels) (concat pps) -> two_classes (concat labels) ->
  find_label_issues srt (concat labels) (concat pps) K flt o = Ok m ->
  let lens := map (@length nat) labels in
  exists issues token_scores,
    token_find_label_issues srt labels pps K rank_by None flt o = Ok issues /\
    get_label_quality_scores (concat labels) (concat pps) K rank_by false = Ok token_scores /\
    NoDup issues /\
    (forall ij, In ij issues <-> in_text lens ij /\ flagged m (position lens ij)) /\
    StronglySorted (fun a b => nth (position lens a) token_scores 0 <= nth (position lens b) token_scores 0) issues.
Proof.
  intros srt K labels pps rank_by flt o m Hs Hd H2 Hf lens.
  destruct (find_ranked_spec srt K _ _ flt o rank_by false m Hs Hd H2 Hf) as (idx & sc & E & Es & El & Hn & Hi & Hss).
  destruct (C30_map_full (fun l p => find_label_issues_ranked srt l p K flt o rank_by false) labels pps idx E)
    as (issues & Et & F & Hin & Hnd).
  { intros p Hp. apply Hi in Hp. eapply find_length; eauto. }
  exists issues, sc. split; [exact Et|]. split; auto. split; auto. split.
  - intros ij. rewrite Hin, Hi. reflexivity.
  - eapply Forall2_sorted; eauto.
Qed.

Lemma issues_mask_length srt K calibrated labels pp st m : length labels = length pp ->
  issues_mask srt K calibrated labels pp st = Ok m -> length m = length labels.
Proof.
  intros Hl. unfold issues_mask. destruct (get_label_issues srt K calibrated st); [|discriminate]. cbn [rbind].
  intros E. injection E as <-. unfold clear_where. rewrite map_length, combine_length, mask_of_length.
  unfold reduce_issues. rewrite ?map_length, ?combine_length. lia.
Qed.
Lemma batched_length srt labels pp K bsz method adjust calibrated js m :
  find_label_issues_batched srt labels pp K bsz method adjust calibrated js = Ok m -> length m = length labels.
Proof.
  unfold find_label_issues_batched. destruct (Nat.eqb (length labels) (length pp)) eqn:E; [|discriminate]. simpl.
  destruct (Nat.eqb bsz 0); [discriminate|]. destruct (inspect _ _ _ _ _ _); [|discriminate]. cbn [rbind].
  apply issues_mask_length. apply Nat.eqb_eq. auto.
Qed.
Lemma C30_low_memory_full : forall srt K labels pps rank_by js flt o m,
  find_label_issues_batched srt (concat labels) (concat pps) K (2 * 5000)%nat rank_by false false js = Ok m ->
  let lens := map (@length nat) labels in
  exists issues,
    token_find_label_issues srt labels pps K rank_by (Some js) flt o = Ok issues /\
    NoDup issues /\
    (forall ij, In ij issues <-> in_text lens ij /\ flagged m (position lens ij)) /\
    StronglySorted (fun a b => (position lens a < position lens b)%nat) issues.
Proof.
  intros srt K labels pps rank_by js flt o m Hb lens.
  destruct (C30_map_full (fun l p => find_label_issues_batched_indices srt l p K (2 * 5000)%nat rank_by false false js) labels pps (where_ m))
    as (issues & Et & F & Hin & Hnd).
  { unfold find_label_issues_batched_indices. rewrite Hb. reflexivity. }
  { intros p Hp. apply where_lt in Hp. rewrite (batched_length _ _ _ _ _ _ _ _ _ _ Hb) in Hp. auto. }
  exists issues. split; [exact Et|]. split; [apply Hnd, where_NoDup|]. split.
  - intros ij. rewrite Hin, in_where. reflexivity.
  - pose proof (where_sorted m) as Hs. clear - F Hs. revert Hs.
    induction F as [|p ij idx issues (H1 & H2) HF IH]; intros Hs; [constructor|].
    apply StronglySorted_inv in Hs as (Hs & Hfa). constructor; auto.
    rewrite Forall_forall in *. intros x Hx. pose proof (proj1 (Forall2_position_in _ _ _ HF x) Hx) as (A & B).
    specialize (Hfa _ B). unfold lens. lia.
Qed.

(** ** Scores *)
Lemma nested_entry {A} (d : A) : forall lens x ij, length x = nsum lens -> in_text lens ij ->
  entry d (nested_list x lens) ij = nth (position lens ij) x d.
Proof.
  induction lens as [|n t IH]; intros x [i j] Hx (H1 & H2); [simpl in H1; lia|]. simpl in H1.
  destruct i as [|i]; unfold entry, position in *; simpl in *.
  - rewrite <- (firstn_skipn n x) at 2. rewrite app_nth1; auto. rewrite firstn_length. change (nsum (n :: t)) with (n + nsum t)%nat in Hx. lia.
  - specialize (IH (skipn n x) (i, j)). simpl in IH. rewrite IH.
    + rewrite <- (firstn_skipn n x) at 2.
      assert (Hfl : length (firstn n x) = n) by (rewrite firstn_length; lia).
      rewrite app_nth2 by (rewrite Hfl; lia). rewrite Hfl. f_equal. unfold nsum at 2. simpl. fold (nsum (firstn i t)). lia.
    + rewrite skipn_length. unfold nsum in *. simpl in Hx. lia.
    + split; simpl; [lia|auto].
Qed.
Lemma nested_shape {A} : forall lens (x : list A), length x = nsum lens ->
  map (@length A) (nested_list x lens) = lens.
Proof.
  induction lens as [|n t IH]; intros x Hx; [reflexivity|]. simpl in *. fold (nsum t) in Hx.
  rewrite firstn_length, IH by (rewrite skipn_length; lia). f_equal. lia.
Qed.
Lemma nested_concat {A} : forall lens (x : list A), length x = nsum lens -> concat (nested_list x lens) = x.
Proof.
  induction lens as [|n t IH]; intros x Hx; simpl in *.
  - destruct x; [reflexivity|discriminate].
  - fold (nsum t) in Hx. rewrite IH by (rewrite skipn_length; lia). apply firstn_skipn.
Qed.
Lemma min_ok : forall l, (forall s, In s l -> s <> []) -> rmap min_sentence l = Ok (map qminimum l).
Proof.
  induction l as [|s t IH]; intros H; [reflexivity|]. simpl.
  assert (s <> []) by (apply H; simpl; auto). destruct s as [|x s]; [congruence|]. cbn [min_sentence rbind].
  rewrite IH by (intros; apply H; simpl; auto). reflexivity.
Qed.

Lemma C30_scores_full : forall K labels pps method,
  dataset K (concat labels) (concat pps) -> (2 <= K)%nat -> (forall s, In s labels -> s <> []) ->
  let lens := map (@length nat) labels in
  exists sentence_scores token_scores flat,
    token_get_label_quality_scores labels pps K method = Ok (sentence_scores, token_scores) /\
    get_label_quality_scores (concat labels) (concat pps) K method false = Ok flat /\
    map (@length Q) token_scores = lens /\ length sentence_scores = length labels /\
    (forall ij, in_text lens ij -> entry 0 token_scores ij = nth (position lens ij) flat 0) /\
    (forall i, (i < length labels)%nat ->
       In (nth i sentence_scores 0) (nth i token_scores []) /\
       forall s, In s (nth i token_scores []) -> nth i sentence_scores 0 <= s) /\
    (method = SelfConfidence -> map (@length (list Q)) pps = lens -> forall ij, in_text lens ij ->
       entry 0 token_scores ij = nth (entry 0%nat labels ij) (entry [] pps ij) 0).
Proof.
  intros K labels pps method Hd HK Hne lens.
  destruct (C15_scores_full K (concat labels) (concat pps) method Hd HK) as (flat & Ef & Hlen & _).
  assert (HL : length flat = nsum lens) by (rewrite Hlen; apply concat_length).
  assert (Hns : forall s, In s (nested_list flat lens) -> s <> []).
  { intros s Hs E. subst s. apply (in_map (@length Q)) in Hs. rewrite nested_shape in Hs by auto.
    unfold lens in Hs. apply in_map_iff in Hs as (x & Hx & Hin). apply (Hne x Hin). destruct x; [auto|discriminate]. }
  exists (map qminimum (nested_list flat lens)), (nested_list flat lens), flat.
  assert (HSL : length (nested_list flat lens) = length labels).
  { rewrite <- (map_length (@length Q)), nested_shape by auto. unfold lens. apply map_length. }
  split.
  { unfold token_get_label_quality_scores. rewrite Ef. cbn [rbind]. fold lens. rewrite min_ok by auto. reflexivity. }
  split; auto. split; [apply nested_shape; auto|]. split; [rewrite map_length; auto|]. split.
  { intros ij Hij. apply nested_entry; auto. }
  split.
  { intros i Hi. rewrite (nth_map_gen _ _ _ _ []) by lia.
    assert (nth i (nested_list flat lens) [] <> []) by (apply Hns, nth_In; lia).
    split; [apply qminimum_in; auto|]. intros s Hs. apply qminimum_le. auto. }
  intros -> Hsh ij Hij. rewrite nested_entry by auto.
  pose proof (scores_unfold _ _ _ _ _ _ Ef) as Ec. simpl in Ec. injection Ec as <-.
  rewrite self_conf_nth.
  - unfold label_of, prob_of, row_of. rewrite ?concat_entry. rewrite <- (concat_entry []) with (x := pps) by (rewrite Hsh; auto).
    rewrite <- (concat_entry 0%nat) with (x := labels) by auto. rewrite Hsh. reflexivity.
  - apply (ds_len _ _ _ Hd).
  - rewrite concat_length. apply position_lt. auto.
Qed.

(** ** issues_from_scores *)
Lemma low_tokens_in : forall ts thr t, In t (low_tokens ts thr) <->
  in_text (map (@length Q) ts) (fst t) /\ snd t = entry 0 ts (fst t) /\ snd t < thr.
Proof.
  intros ts thr [[i j] s]. unfold low_tokens. rewrite in_concat. split.
  - intros (l & Hl & Hin). apply in_map_iff in Hl as ((i' & row) & <- & Hr). simpl in Hin.
    apply filter_In in Hin as (Hin & Hlt). apply in_map_iff in Hin as ((j' & s') & E & Hj). simpl in E. injection E as -> -> ->.
    simpl in Hlt. apply Qltb_iff in Hlt.
    apply (In_nth _ _ (0%nat, [])) in Hr as (k & Hk & E). rewrite combine_length, seq_length in Hk.
    rewrite combine_nth, seq_nth in E by (rewrite ?seq_length; lia). simpl in E. injection E as <- <-.
    apply (In_nth _ _ (0%nat, 0)) in Hj as (k' & Hk' & E'). rewrite combine_length, seq_length in Hk'.
    rewrite combine_nth, seq_nth in E' by (rewrite ?seq_length; lia). simpl in E'. injection E' as <- <-.
    split; [|split; auto]. split; simpl; [rewrite map_length; lia|]. rewrite (nth_map_gen _ _ _ _ []) by lia. lia.
  - intros ((H1 & H2) & H3 & H4). simpl in *. rewrite map_length in H1. rewrite (nth_map_gen _ _ _ _ []) in H2 by lia.
    eexists. split.
    + apply in_map_iff. exists (i, nth i ts []). split; [reflexivity|].
      assert (E : (i, nth i ts []) = nth i (combine (seq 0 (length ts)) ts) (0%nat, [])).
      { rewrite combine_nth, seq_nth by (rewrite ?seq_length; lia). reflexivity. }
      rewrite E. apply nth_In. rewrite combine_length, seq_length. lia.
    + simpl. apply filter_In. split; [|simpl; apply Qltb_iff; auto]. apply in_map_iff. exists (j, s). split; [reflexivity|].
      assert (E : (j, s) = nth j (combine (seq 0 (length (nth i ts []))) (nth i ts [])) (0%nat, 0)).
      { rewrite combine_nth, seq_nth by (rewrite ?seq_length; lia). rewrite H3. reflexivity. }
      rewrite E. apply nth_In. rewrite combine_length, seq_length. lia.
Qed.
Lemma NoDup_filter_map {A B} (f : A -> B) (p : A -> bool) l : NoDup (map f l) -> NoDup (map f (filter p l)).
Proof.
  induction l as [|x l IH]; simpl; intros H; [constructor|]. inversion H as [|? ? H1 H2]; subst.
  destruct (p x); simpl; auto. constructor; auto. intros Hin. apply H1.
  apply in_map_iff in Hin as (y & <- & Hy). apply filter_In in Hy as (Hy & _). apply in_map. auto.
Qed.
Lemma NoDup_app_intro {A} (l l' : list A) : NoDup l -> NoDup l' -> (forall x, In x l -> In x l' -> False) -> NoDup (l ++ l').
Proof.
  induction l as [|x l IH]; intros H1 H2 H; [auto|]. inversion H1 as [|? ? Hx Hl]; subst. simpl. constructor.
  - intros Hin. apply in_app_or in Hin as [Hin|Hin]; [auto|]. apply (H x); simpl; auto.
  - apply IH; auto. intros y Hy Hy'. apply (H y); simpl; auto.
Qed.
Lemma low_tokens_NoDup ts thr : NoDup (map fst (low_tokens ts thr)).
Proof.
  unfold low_tokens.
  assert (G : forall s, NoDup (map fst (concat (map (fun irow : nat * list Q =>
     filter (fun t => Qltb (snd t) thr)
       (map (fun js : nat * Q => (fst irow, fst js, snd js)) (combine (seq 0 (length (snd irow))) (snd irow))))
     (combine (seq s (length ts)) ts))))); [|apply G].
  induction ts as [|row t IH]; intros s; [constructor|].
  cbn [length seq combine map concat]. rewrite map_app. cbn [fst snd]. apply NoDup_app_intro; auto.
  - apply NoDup_filter_map. rewrite map_map. simpl.
    replace (map (fun x : nat * Q => (s, fst x)) (combine (seq 0 (length row)) row)) with (map (pair s) (seq 0 (length row))).
    + apply FinFun.Injective_map_NoDup; [|apply seq_NoDup]. intros x y E. congruence.
    + rewrite <- (map_fst_combine (seq 0 (length row)) row) at 1 by apply seq_length. rewrite map_map. reflexivity.
  - intros ij H1 H2. apply in_map_iff in H1 as (x & <- & H1). apply filter_In in H1 as (H1 & _).
    apply in_map_iff in H1 as (y & <- & _). simpl in H2.
    apply in_map_iff in H2 as (z & E & H2). apply in_concat in H2 as (l & Hl & Hz).
    apply in_map_iff in Hl as ((i' & row') & <- & Hr). apply filter_In in Hz as (Hz & _).
    apply in_map_iff in Hz as (w & <- & _). simpl in E. injection E as E1 E2. subst i'.
    apply in_combine_l in Hr. apply in_seq in Hr. lia.
Qed.

Lemma take_perm {A} (d : A) l p : Permutation p (seq 0 (length l)) -> Permutation (take_idx d l p) l.
Proof.
  intros H. unfold take_idx. apply (Permutation_map (fun i => nth i l d)) in H. rewrite H.
  change (map (fun i => nth i l d) (seq 0 (length l))) with (tab (length l) (fun i => nth i l d)). rewrite tab_nth. reflexivity.
Qed.
Lemma take_sorted {A} (d : A) (key : A -> Q) l p : is_argsort (map key l) p ->
  StronglySorted (fun a b => key a <= key b) (take_idx d l p).
Proof.
  intros (Hp & Hs). rewrite map_length in Hp. pose proof (Permutation_seq_lt _ _ Hp) as Hin. clear Hp.
  unfold take_idx. induction p as [|i t IH]; [constructor|]. apply StronglySorted_inv in Hs as (Hs & Hf). cbn [map].
  assert (Hr : forall k, In k (i :: t) -> (k < length l)%nat) by (intros; apply Hin; auto). clear Hin IH.
  assert (Hi : (i < length l)%nat) by (apply Hr; simpl; auto).
  assert (Hall : forall k, In k t -> (k < length l)%nat) by (intros; apply Hr; simpl; auto). clear Hr.
  constructor.
  - clear Hf Hi. induction t as [|k t IH]; [constructor|]. apply StronglySorted_inv in Hs as (Hs & Hf). cbn [map].
    constructor; [apply IH; auto; intros; apply Hall; simpl; auto|].
    rewrite Forall_forall in *. intros x Hx. apply in_map_iff in Hx as (k' & <- & Hk').
    specialize (Hf k' Hk'). cbv beta in Hf.
    rewrite (nth_map_gen _ _ _ _ d) in Hf by (apply Hall; simpl; auto).
    rewrite (nth_map_gen _ _ _ _ d) in Hf by (apply Hall; simpl; auto). auto.
  - rewrite Forall_forall in *. intros x Hx. apply in_map_iff in Hx as (k' & <- & Hk').
    specialize (Hf k' Hk'). cbv beta in Hf.
    rewrite (nth_map_gen _ _ _ _ d) in Hf by auto. rewrite (nth_map_gen _ _ _ _ d) in Hf by auto. auto.
Qed.

Lemma C31_tokens_full : forall srt sentence_scores token_scores threshold, argsort_ok srt -> token_scores <> [] ->
  exists issues, token_issues_from_scores srt sentence_scores token_scores threshold = Ok (TokenIssues issues) /\
    NoDup issues /\
    (forall ij, In ij issues <-> in_text (map (@length Q) token_scores) ij /\ entry 0 token_scores ij < threshold) /\
    StronglySorted (fun a b => entry 0 token_scores a <= entry 0 token_scores b) issues.
Proof.
  intros srt ss ts thr Hs Hne. unfold token_issues_from_scores. destruct ts as [|r ts']; [congruence|].
  set (ts := r :: ts'). eexists. split; [reflexivity|].
  set (L := low_tokens ts thr). pose proof (Hs (map snd L)) as Ha.
  assert (HP : Permutation (take_idx ((0, 0)%nat, 0) L (srt (map snd L))) L).
  { apply take_perm. destruct Ha as (Ha & _). rewrite map_length in Ha. auto. }
  split; [|split].
  - eapply Permutation_NoDup; [apply Permutation_map; symmetry; exact HP|]. apply low_tokens_NoDup.
  - intros ij. rewrite in_map_iff. split.
    + intros (t & <- & Ht). apply (Permutation_in _ HP) in Ht. apply low_tokens_in in Ht as (A & B & C).
      split; auto. rewrite <- B. auto.
    + intros (A & B). exists (ij, entry 0 ts ij). split; [reflexivity|].
      apply (Permutation_in _ (Permutation_sym HP)). apply low_tokens_in. simpl. auto.
  - pose proof (take_sorted ((0, 0)%nat, 0) snd L _ Ha) as Hss.
    assert (HI : forall t, In t (take_idx ((0, 0)%nat, 0) L (srt (map snd L))) -> snd t = entry 0 ts (fst t)).
    { intros t Ht. apply (Permutation_in _ HP) in Ht. apply low_tokens_in in Ht. tauto. }
    revert Hss HI. generalize (take_idx ((0, 0)%nat, 0) L (srt (map snd L))) as l.
    induction l as [|t l IH]; intros Hss HI; [constructor|]. apply StronglySorted_inv in Hss as (Hss & Hf). cbn [map].
    constructor; [apply IH; auto; intros; apply HI; simpl; auto|].
    rewrite Forall_forall in *. intros x Hx. apply in_map_iff in Hx as (t' & <- & Ht').
    specialize (Hf t' Ht'). cbv beta in Hf. rewrite (HI t), (HI t') in Hf by (simpl; auto). auto.
Qed.

Lemma cutoff_spec scores thr : forall rest c, StronglySorted (fun i j => nth i scores 0 <= nth j scores 0) rest ->
  (exists i, In i rest /\ thr <= nth i scores 0) ->
  exists n, cutoff_loop scores thr rest c = Ok (c + n)%nat /\ (n <= length rest)%nat /\
    (forall i, In i (firstn n rest) -> nth i scores 0 < thr) /\
    (forall i, In i (skipn n rest) -> thr <= nth i scores 0).
Proof.
  induction rest as [|r t IH]; intros c Hs (i & Hi & Hle); [destruct Hi|].
  apply StronglySorted_inv in Hs as (Hs & Hf). simpl. destruct (Qltb (nth r scores 0) thr) eqn:E.
  - apply Qltb_iff in E. destruct (IH (S c) Hs) as (n & E1 & E2 & E3 & E4).
    { destruct Hi as [->|Hi]; [exfalso; Lqa.lra|]. eauto. }
    exists (S n). rewrite E1. split; [f_equal; lia|]. split; [simpl; lia|]. simpl. split; auto.
    intros k [<-|Hk]; auto.
  - apply Qltb_false in E. exists 0%nat. split; [f_equal; lia|]. split; [lia|]. simpl. split; [tauto|].
    intros k [<-|Hk]; auto. rewrite Forall_forall in Hf. specialize (Hf k Hk). cbv beta in Hf. Lqa.lra.
Qed.
Lemma cutoff_raise scores thr : forall rest c, (forall i, In i rest -> nth i scores 0 < thr) ->
  cutoff_loop scores thr rest c = Raise IndexError.
Proof.
  induction rest as [|r t IH]; intros c H; [reflexivity|]. simpl.
  assert (E : Qltb (nth r scores 0) thr = true) by (apply Qltb_iff, H; simpl; auto). rewrite E.
  apply IH. intros; apply H; simpl; auto.
Qed.
Lemma C31_sentences_full : forall srt scores threshold, argsort_ok srt ->
  (exists i, (i < length scores)%nat /\ threshold <= nth i scores 0) ->
  exists issues, token_issues_from_scores srt scores [] threshold = Ok (SentenceIssues issues) /\
    NoDup issues /\
    (forall i, In i issues <-> (i < length scores)%nat /\ nth i scores 0 < threshold) /\
    StronglySorted (fun a b => nth a scores 0 <= nth b scores 0) issues.
Proof.
  intros srt sc thr Hs (i0 & Hi0 & Hle). unfold token_issues_from_scores. pose proof (Hs sc) as Ha.
  pose proof Ha as (Hp & Hss).
  destruct (cutoff_spec sc thr (srt sc) 0 Hss) as (n & E1 & E2 & E3 & E4).
  { exists i0. split; auto. apply (argsort_in _ _ Ha). auto. }
  rewrite E1. cbn [rbind Nat.add]. eexists. split; [reflexivity|]. split; [apply firstn_NoDup, (argsort_NoDup _ _ Ha)|]. split.
  - intros i. split.
    + intros Hi. split; auto. apply (argsort_in _ _ Ha). eapply firstn_In; eauto.
    + intros (Hi & Hlt). apply (argsort_in _ _ Ha) in Hi. rewrite <- (firstn_skipn n) in Hi.
      apply in_app_or in Hi as [Hi|Hi]; auto. specialize (E4 i Hi). exfalso. Lqa.lra.
  - rewrite <- (firstn_skipn n) in Hss. apply StronglySorted_app in Hss. tauto.
Qed.
Lemma C31_all_below_full : forall srt scores threshold, argsort_ok srt ->
  (forall i, (i < length scores)%nat -> nth i scores 0 < threshold) ->
  token_issues_from_scores srt scores [] threshold = Raise IndexError.
Proof.
  intros srt sc thr Hs H. unfold token_issues_from_scores. rewrite cutoff_raise; [reflexivity|].
  intros i Hi. apply H. apply (argsort_in _ _ (Hs sc)). auto.
Qed.

(** ** merge_probs *)
Lemma zmaximum_ge l x : In x l -> (x <= zmaximum l)%Z.
Proof.
  destruct l as [|y t]; simpl; [tauto|]. revert y x. induction t as [|z t IH]; intros y x; simpl.
  - intros [->|[]]. lia.
  - intros [->|[->|H]].
    + specialize (IH (Z.max x z) (Z.max x z) (or_introl eq_refl)). lia.
    + specialize (IH (Z.max y x) (Z.max y x) (or_introl eq_refl)). lia.
    + apply (IH (Z.max y z) x). auto.
Qed.
Definition merge_step (maps : list Z) (row acc : list Q) (i : nat) : list Q :=
  if Z.leb 0 (nth i maps 0%Z)
  then upd acc (Z.to_nat (nth i maps 0%Z)) (nth (Z.to_nat (nth i maps 0%Z)) acc 0 + nth i row 0)
  else acc.
Lemma merge_step_length maps row : forall l acc, length (fold_left (merge_step maps row) l acc) = length acc.
Proof.
  induction l as [|i l IH]; intros acc; [reflexivity|]. simpl. rewrite IH. unfold merge_step.
  destruct (Z.leb 0 (nth i maps 0%Z)); [apply upd_length|reflexivity].
Qed.
Lemma merge_fold maps row c : forall l acc, (c < length acc)%nat ->
  nth c (fold_left (merge_step maps row) l acc) 0 ==
  nth c acc 0 + qsum (map (fun i => if Z.eqb (nth i maps 0%Z) (Z.of_nat c) then nth i row 0 else 0) l).
Proof.
  induction l as [|i l IH]; intros acc Hc; [simpl; ring|].
  cbn [fold_left map qsum fold_right]. fold (qsum (map (fun i => if Z.eqb (nth i maps 0%Z) (Z.of_nat c) then nth i row 0 else 0) l)).
  rewrite IH by (unfold merge_step; destruct (Z.leb 0 (nth i maps 0%Z)); [rewrite upd_length|]; auto).
  unfold merge_step. destruct (Z.leb_spec 0 (nth i maps 0%Z)) as [H|H].
  - destruct (Z.eqb_spec (nth i maps 0%Z) (Z.of_nat c)) as [E|E].
    + rewrite E, Nat2Z.id, nth_upd_eq by auto. ring.
    + rewrite nth_upd_neq by lia. ring.
  - destruct (Z.eqb_spec (nth i maps 0%Z) (Z.of_nat c)) as [E|E]; [lia|]. ring.
Qed.
Lemma merge_row_spec n maps row c : (c < n)%nat -> nth c (merge_row n maps row) 0 == merged_mass maps row c.
Proof.
  intros Hc. unfold merge_row. change (fun acc i => _) with (merge_step maps row).
  rewrite merge_fold by (rewrite repeat_length; auto). rewrite nth_repeat. unfold merged_mass. ring.
Qed.
Lemma merge_row_length n maps row : length (merge_row n maps row) = n.
Proof. unfold merge_row. change (fun acc i => _) with (merge_step maps row). rewrite merge_step_length. apply repeat_length. Qed.
Lemma merged_total n maps row : (forall i, (i < length row)%nat -> (nth i maps 0 < Z.of_nat n)%Z) ->
  qsum (merge_row n maps row) == kept_mass maps row.
Proof.
  intros H. rewrite qsum_as_tab, merge_row_length.
  rewrite (qsum_tab_ext n _ (fun c => merged_mass maps row c)) by (intros; apply merge_row_spec; auto).
  unfold merged_mass, kept_mass, tab. rewrite qsum_swap. apply qsum_map_ext. intros i Hi. apply in_seq in Hi.
  specialize (H i ltac:(lia)). destruct (Z.ltb_spec (nth i maps 0%Z) 0) as [L|L].
  - apply qsum_zero. intros x Hx. apply in_map_iff in Hx as (c & <- & _).
    destruct (Z.eqb_spec (nth i maps 0%Z) (Z.of_nat c)); [lia|reflexivity].
  - rewrite <- (qsum_indicator (fun _ => nth i row 0) (Z.to_nat (nth i maps 0%Z)) n 0) by lia.
    apply qsum_map_ext. intros c _. destruct (Nat.eqb_spec c (Z.to_nat (nth i maps 0%Z))) as [E|E];
      destruct (Z.eqb_spec (nth i maps 0%Z) (Z.of_nat c)) as [E'|E']; try reflexivity; exfalso; lia.
Qed.
Lemma kept_all maps row : (forall i, (i < length row)%nat -> (0 <= nth i maps 0)%Z) -> kept_mass maps row == qsum row.
Proof.
  intros H. unfold kept_mass. rewrite (qsum_as_tab row). apply qsum_map_ext. intros i Hi. apply in_seq in Hi.
  specialize (H i ltac:(lia)). destruct (Z.ltb_spec (nth i maps 0%Z) 0); [lia|reflexivity].
Qed.
Lemma merged_mass_nonneg maps row c : (forall x, In x row -> 0 <= x) -> 0 <= merged_mass maps row c.
Proof.
  intros H. apply qsum_map_nonneg. intros i Hi. apply in_seq in Hi.
  destruct (Z.eqb (nth i maps 0%Z) (Z.of_nat c)); [|apply Qle_refl]. apply H, nth_In. lia.
Qed.

Lemma C54_merge_full : forall probs K maps,
  maps <> [] -> (K <= length maps)%nat -> (forall z, In z maps -> (-1 <= z)%Z) ->
  (forall row, In row probs -> length row = K /\ distribution row /\ 0 < kept_mass maps row) ->
  exists merged, merge_probs probs K maps = Ok merged /\ length merged = length probs /\
    forall e, (e < length probs)%nat ->
      distribution (nth e merged []) /\
      (forall c, (exists i, (i < length maps)%nat /\ nth i maps 0%Z = Z.of_nat c) -> (c < length (nth e merged []))%nat) /\
      (forall c, (c < length (nth e merged []))%nat ->
         nth c (nth e merged []) 0 * kept_mass maps (nth e probs []) == merged_mass maps (nth e probs []) c).
Proof.
  intros probs K maps Hne HK Hge Hrow. unfold merge_probs. destruct maps as [|z0 mt] eqn:Em; [congruence|]. rewrite <- Em in *. clear Hne.
  assert (Hmax : (-1 <= zmaximum maps)%Z).
  { assert (In z0 maps) by (rewrite Em; simpl; auto). pose proof (zmaximum_ge maps z0 H). specialize (Hge z0 H). lia. }
  destruct (Z.ltb_spec (zmaximum maps + 1) 0) as [C|_]; [lia|].
  destruct (Nat.ltb_spec (length maps) K) as [C|_]; [lia|].
  set (n := Z.to_nat (zmaximum maps + 1)).
  assert (Hn : forall i, (i < length maps)%nat -> (nth i maps 0 < Z.of_nat n)%Z).
  { intros i Hi. pose proof (zmaximum_ge maps (nth i maps 0%Z) (nth_In _ _ Hi)). unfold n. lia. }
  assert (Hpart : forall row, In row probs -> qsum (merge_row n maps row) == kept_mass maps row).
  { intros row Hr. apply merged_total. intros i Hi. apply Hn. destruct (Hrow row Hr) as (L & _). lia. }
  assert (Hcols : forall c, (exists i, (i < length maps)%nat /\ nth i maps 0%Z = Z.of_nat c) -> (c < n)%nat).
  { intros c (i & Hi & E). specialize (Hn i Hi). lia. }
  assert (Hnn : forall row x, In row probs -> In x (merge_row n maps row) -> 0 <= x).
  { intros row x Hr Hx. apply In_nth with (d := 0) in Hx as (c & Hc & <-). rewrite merge_row_length in Hc.
    rewrite merge_row_spec by auto. apply merged_mass_nonneg. destruct (Hrow row Hr) as (_ & (Hd & _) & _). auto. }
  destruct (existsb (Z.eqb (-1)) maps) eqn:Ex.
  - set (f := fun row => if (Qeq_bool (qsum row) 0 && negb (Nat.eqb (length row) 0))%bool then Raise ZeroDivision
                          else Ok (map (fun x => x / qsum row) row)).
    assert (Hmap : rmap f (map (merge_row n maps) probs) =
      Ok (map (fun row => map (fun x => x / qsum (merge_row n maps row)) (merge_row n maps row)) probs)).
    { clear Em. revert Hpart Hrow. clear - n f. induction probs as [|row t IH]; intros Hp Hr; [reflexivity|]. cbn [map rmap].
      unfold f at 1. assert (E : Qeq_bool (qsum (merge_row n maps row)) 0 = false).
      { destruct (Qeq_bool _ 0) eqn:E; auto. apply Qeq_bool_iff in E. rewrite Hp in E by (simpl; auto).
        destruct (Hr row) as (_ & _ & H); [simpl; auto|]. exfalso. Lqa.lra. }
      rewrite E. cbn [andb rbind]. rewrite IH; [reflexivity| |]; intros; [apply Hp|apply Hr]; simpl; auto. }
    exists (map (fun row => map (fun x => x / qsum (merge_row n maps row)) (merge_row n maps row)) probs).
    split; [exact Hmap|]. split; [apply map_length|]. intros e He. rewrite (nth_map_gen _ _ _ _ []) by auto.
    set (row := nth e probs []). assert (Hr : In row probs) by (apply nth_In; auto).
    destruct (Hrow row Hr) as (HL & Hd & Hk). pose proof (Hpart row Hr) as Hs.
    split; [split|split].
    + intros x Hx. apply in_map_iff in Hx as (y & <- & Hy). apply (Hnn row y Hr) in Hy.
      apply Qle_shift_div_l; [rewrite Hs; auto|]. Lqa.lra.
    + rewrite (qsum_map_div (fun x => x)), map_id. rewrite Hs. field. Lqa.lra.
    + intros c Hc. rewrite map_length, merge_row_length. apply Hcols. auto.
    + intros c Hc. rewrite map_length, merge_row_length in Hc.
      rewrite (nth_map_gen _ _ _ _ 0) by (rewrite merge_row_length; auto).
      rewrite merge_row_spec, Hs by auto. field. Lqa.lra.
  - exists (map (merge_row n maps) probs). split; [reflexivity|]. split; [apply map_length|]. intros e He.
    rewrite (nth_map_gen _ _ _ _ []) by auto.
    set (row := nth e probs []). assert (Hr : In row probs) by (apply nth_In; auto).
    destruct (Hrow row Hr) as (HL & Hd & Hk). pose proof (Hpart row Hr) as Hs.
    assert (Hall : kept_mass maps row == 1).
    { rewrite kept_all; [apply Hd|]. intros i Hi. assert (Hi' : (i < length maps)%nat) by lia.
      pose proof (nth_In maps 0%Z Hi') as Hin. specialize (Hge _ Hin).
      destruct (Z.eq_dec (nth i maps 0%Z) (-1)) as [E|E]; [|lia]. exfalso.
      assert (existsb (Z.eqb (-1)) maps = true) by (apply existsb_exists; exists (-1)%Z; split; [rewrite <- E; auto|reflexivity]).
      congruence. }
    split; [split|split].
    + intros x Hx. apply (Hnn row x Hr Hx).
    + rewrite Hs. auto.
    + intros c Hc. rewrite merge_row_length. apply Hcols. auto.
    + intros c Hc. rewrite merge_row_length in Hc. rewrite merge_row_spec, Hall by auto. ring.
Qed.

(** ** filter_sentence, filter_by_token *)
Lemma C54_filter_full : forall sentences condition, let (kept, mask) := filter_sentence sentences condition in
  length mask = length sentences /\
  (forall i, (i < length sentences)%nat ->
     nth i mask false = (match condition with Some c => c | None => default_condition end) (nth i sentences EmptyString)) /\
  kept = filter (match condition with Some c => c | None => default_condition end) sentences /\
  kept = take_idx EmptyString sentences (where_ mask).
Proof.
  intros ss cond. unfold filter_sentence. set (c := match cond with Some c => c | None => default_condition end).
  split; [apply map_length|]. split; [intros; apply nth_map_gen; auto|]. split.
  - induction ss as [|s t IH]; [reflexivity|]. simpl. destruct (c s); simpl; [f_equal|]; apply IH.
  - apply (select_as_take EmptyString (map c ss) ss). apply map_length.
Qed.

Lemma token_at_ok tokens ij : in_text (map (@length string) tokens) ij -> token_at tokens ij = Ok (entry EmptyString tokens ij).
Proof.
  intros (H1 & H2). rewrite map_length in H1. rewrite (nth_map_gen _ _ _ _ []) in H2 by auto.
  unfold token_at, entry. rewrite (nth_error_nth' tokens []) by auto. rewrite (nth_error_nth' _ EmptyString) by auto. reflexivity.
Qed.
Lemma at2_ok {A} (d : A) x ij : in_text (map (@length A) x) ij -> at2 x ij = Ok (entry d x ij).
Proof.
  intros (H1 & H2). rewrite map_length in H1. rewrite (nth_map_gen _ _ _ _ []) in H2 by auto.
  unfold at2, entry. rewrite (nth_error_nth' x []) by auto. rewrite (nth_error_nth' _ d) by auto. reflexivity.
Qed.
Lemma C59_filter_full : forall lower token issues tokens,
  (forall ij, In ij issues -> in_text (map (@length string) tokens) ij) ->
  filter_by_token lower token issues tokens =
  Ok (filter (fun ij => String.eqb (lower token) (lower (entry EmptyString tokens ij))) issues).
Proof.
  induction issues as [|ij t IH]; intros tokens H; [reflexivity|]. simpl.
  rewrite token_at_ok by (apply H; simpl; auto). cbn [rbind]. rewrite IH by (intros; apply H; simpl; auto). reflexivity.
Qed.

(** ** common_label_issues *)
Definition dget {V} (d : V) (c : list (string * V)) (w : string) : V :=
  match find (fun e => String.eqb w (fst e)) c with Some e => snd e | None => d end.
Lemma dict_get {V} (d0 : V) c w f d : forall w',
  dget d0 (dict_update c w d f) w' =
  if String.eqb w' w then f (match find (fun e => String.eqb w (fst e)) c with Some e => snd e | None => d end)
  else dget d0 c w'.
Proof.
  intros w'. unfold dget. induction c as [|(w1 & v) t IH]; simpl.
  - destruct (String.eqb_spec w' w); reflexivity.
  - destruct (String.eqb_spec w w1) as [->|Hw].
    + simpl. destruct (String.eqb_spec w' w1); reflexivity.
    + simpl. destruct (String.eqb_spec w' w1) as [->|Hw'].
      * destruct (String.eqb_spec w1 w); [congruence|reflexivity].
      * apply IH.
Qed.
Lemma dict_keys {V} (c : list (string * V)) w f d w' :
  In w' (map fst (dict_update c w d f)) <-> w' = w \/ In w' (map fst c).
Proof.
  induction c as [|(w1 & v) t IH]; simpl; [intuition congruence|].
  destruct (String.eqb_spec w w1) as [->|Hw]; simpl; [intuition congruence|]. rewrite IH. intuition congruence.
Qed.
Lemma dict_NoDup {V} (c : list (string * V)) w f d : NoDup (map fst c) -> NoDup (map fst (dict_update c w d f)).
Proof.
  induction c as [|(w1 & v) t IH]; simpl; intros H; [repeat constructor; simpl; tauto|].
  inversion H as [|? ? H1 H2]; subst. destruct (String.eqb_spec w w1) as [->|Hw]; simpl; [constructor; auto|].
  constructor; auto. rewrite dict_keys. intuition congruence.
Qed.
Lemma dget_in {V} (d : V) c w v : NoDup (map fst c) -> (In (w, v) c <-> In w (map fst c) /\ dget d c w = v).
Proof.
  unfold dget. induction c as [|(w1 & v1) t IH]; simpl; intros H; [tauto|]. inversion H as [|? ? H1 H2]; subst.
  destruct (String.eqb_spec w w1) as [->|Hw]; simpl.
  - split.
    + intros [E|E]; [injection E as ->; auto|]. exfalso. apply H1. apply (in_map fst) in E. auto.
    + intros (_ & ->). auto.
  - rewrite IH by auto. split.
    + intros [E|E]; [congruence|tauto].
    + intros ([E|E] & E'); [congruence|tauto].
Qed.
Lemma find_none_dget {V} (c : list (string * V)) w d0 d :
  (forall v, find (fun e => String.eqb w (fst e)) c = Some v -> True) ->
  (In w (map fst c) -> match find (fun e => String.eqb w (fst e)) c with Some e => snd e | None => d end = dget d0 c w).
Proof.
  intros _ H. unfold dget. destruct (find _ c) eqn:E; auto. exfalso.
  apply in_map_iff in H as ((w1 & v) & E1 & H). simpl in E1. subst. apply (find_none _ _ E) in H. simpl in H.
  rewrite String.eqb_refl in H. discriminate.
Qed.
Lemma dget_absent {V} (c : list (string * V)) w d : ~ In w (map fst c) -> dget d c w = d.
Proof.
  intros H. unfold dget. destruct (find _ c) as [(w1 & v)|] eqn:E; auto. exfalso. apply H.
  apply find_some in E as (E1 & E2). simpl in E2. apply String.eqb_eq in E2. subst. apply (in_map fst) in E1. auto.
Qed.

Section CountWords.
  Context (tokens : list (list string)).
  Definition is_word (w : string) (ij : nat * nat) : bool := String.eqb w (entry EmptyString tokens ij).
  Lemma count_words_ok : forall issues c, (forall ij, In ij issues -> in_text (map (@length string) tokens) ij) ->
    NoDup (map fst c) ->
    exists c', count_words issues tokens c = Ok c' /\ NoDup (map fst c') /\
      (forall w, In w (map fst c') <-> In w (map fst c) \/ exists ij, In ij issues /\ entry EmptyString tokens ij = w) /\
      (forall w, dget 0%nat c' w = (dget 0%nat c w + how_many (is_word w) issues)%nat).
  Proof.
    induction issues as [|ij t IH]; intros c Ht Hc.
    - exists c. split; [reflexivity|]. split; auto. split; [intros; split; [auto|intros [H|(? & [] & _)]; auto]|].
      intros w. unfold how_many. simpl. lia.
    - simpl. rewrite token_at_ok by (apply Ht; simpl; auto). cbn [rbind].
      set (w0 := entry EmptyString tokens ij).
      destruct (IH (dict_update c w0 0%nat S)) as (c' & E & Hn & Hk & Hv).
      { intros; apply Ht; simpl; auto. } { apply dict_NoDup; auto. }
      exists c'. split; auto. split; auto. split.
      + intros w. rewrite Hk, dict_keys. split.
        * intros [[->|H]|(x & Hx & E')]; auto; right; [exists ij|exists x]; auto.
        * intros [H|(x & [<-|Hx] & E')]; auto. right. eauto.
      + intros w. rewrite Hv, dict_get. unfold how_many, is_word. simpl. fold w0.
        destruct (String.eqb_spec w w0) as [->|Hw]; simpl; [|reflexivity]. unfold dget. lia.
  Qed.
End CountWords.

Lemma sort_desc_perm {A} srt (key : A -> nat) d l : argsort_ok srt -> Permutation (sort_desc srt key d l) l.
Proof. intros Hs. apply take_perm. destruct (Hs (map (fun r => - Qnat (key r)) l)) as (H & _). rewrite map_length in H. auto. Qed.
Lemma sort_desc_sorted {A} srt (key : A -> nat) d l : argsort_ok srt ->
  StronglySorted (fun a b => (key b <= key a)%nat) (sort_desc srt key d l).
Proof.
  intros Hs. pose proof (take_sorted d (fun r => - Qnat (key r)) l _ (Hs _)) as H. fold (sort_desc srt key d l) in H.
  induction H as [|x l' H IH Hf]; constructor; auto. rewrite Forall_forall in *. intros y Hy. specialize (Hf y Hy). cbv beta in Hf.
  apply Qnat_le_iff. Lqa.lra.
Qed.
Lemma how_many_pos {A} (P : A -> bool) l : (0 < how_many P l)%nat <-> exists x, In x l /\ P x = true.
Proof.
  unfold how_many. induction l as [|x l IH]; simpl; [split; [lia|intros (? & [] & _)]|].
  destruct (P x) eqn:E; simpl.
  - split; [eauto|lia].
  - rewrite IH. split; intros (y & H & H'); [eauto|]. destruct H as [->|H]; [congruence|eauto].
Qed.

Lemma C59_tokens_full : forall srt issues tokens, argsort_ok srt ->
  (forall ij, In ij issues -> in_text (map (@length string) tokens) ij) ->
  exists rows, common_tokens srt issues tokens = Ok rows /\ NoDup (map fst rows) /\
    (forall w n, In (w, n) rows <->
       (0 < n)%nat /\ n = how_many (fun ij => String.eqb w (entry EmptyString tokens ij)) issues) /\
    StronglySorted (fun a b => (snd b <= snd a)%nat) rows.
Proof.
  intros srt issues tokens Hs Ht. unfold common_tokens.
  destruct (count_words_ok tokens issues [] Ht (NoDup_nil _)) as (c & E & Hn & Hk & Hv). rewrite E. cbn [rbind].
  eexists. split; [reflexivity|].
  pose proof (sort_desc_perm srt snd (EmptyString, 0%nat) c Hs) as HP. split; [|split].
  - eapply Permutation_NoDup; [apply Permutation_map; symmetry; exact HP|auto].
  - intros w n. assert (HI : In (w, n) (sort_desc srt snd (EmptyString, 0%nat) c) <-> In (w, n) c).
    { split; apply Permutation_in; [|symmetry]; auto. }
    rewrite HI, (dget_in 0%nat) by auto. rewrite Hk, Hv. cbn [dget find map Nat.add].
    unfold is_word. change (dget 0%nat [] w) with 0%nat. cbn [Nat.add]. split.
    + intros ([[]|(ij & H1 & H2)] & <-). split; auto. apply how_many_pos. exists ij. split; auto.
      rewrite H2. apply String.eqb_refl.
    + intros (H0 & ->). split; auto. right. apply how_many_pos in H0 as (ij & H1 & H2). apply String.eqb_eq in H2. eauto.
  - apply sort_desc_sorted. auto.
Qed.

Section CountSwaps.
  Context (n : nat) (tokens : list (list string)) (labels : list (list nat)) (pps : list (list (list Q)))
          (exclude : list (nat * nat)).
  Definition given (ij : nat * nat) : nat := entry 0%nat labels ij.
  Definition predicted (ij : nat * nat) : nat := argmax (entry [] pps ij).
  Definition is_swap (w : string) (l p : nat) (ij : nat * nat) : bool :=
    (String.eqb w (entry EmptyString tokens ij) && Nat.eqb l (given ij) && Nat.eqb p (predicted ij))%bool.
  Definition zero_m : list (list nat) := repeat (repeat 0%nat n) n.
  Definition square (m : list (list nat)) : Prop := length m = n /\ forall i, (i < n)%nat -> length (nth i m []) = n.
  Lemma square_zero : square zero_m.
  Proof.
    split; [apply repeat_length|]. intros i Hi. unfold zero_m. rewrite nth_indep with (d' := repeat 0%nat n) by (rewrite repeat_length; auto).
    rewrite nth_repeat. apply repeat_length.
  Qed.
  Lemma nget_zero i j : nget2 zero_m i j = 0%nat.
  Proof.
    unfold nget2, zero_m. destruct (Nat.lt_ge_cases i n) as [H|H].
    - rewrite nth_indep with (d' := repeat 0%nat n) by (rewrite repeat_length; auto). rewrite nth_repeat. apply nth_repeat.
    - rewrite (nth_overflow (repeat (repeat 0%nat n) n)) by (rewrite repeat_length; auto). destruct j; reflexivity.
  Qed.
  Lemma bump2_square l p m : square m -> (l < n)%nat -> square (bump2 l p m).
  Proof.
    intros (H1 & H2) Hl. unfold bump2. split; [rewrite upd_length; auto|]. intros i Hi.
    destruct (Nat.eq_dec i l) as [->|Hne]; [rewrite nth_upd_eq by lia; rewrite upd_length; auto|rewrite nth_upd_neq by auto; auto].
  Qed.
  Lemma bump2_get l p m i j : square m -> (l < n)%nat -> (p < n)%nat ->
    nget2 (bump2 l p m) i j = (nget2 m i j + (if (Nat.eqb i l && Nat.eqb j p)%bool then 1 else 0))%nat.
  Proof.
    intros (H1 & H2) Hl Hp. unfold bump2, nget2. destruct (Nat.eqb_spec i l) as [->|Hi].
    - rewrite nth_upd_eq by lia. destruct (Nat.eqb_spec j p) as [->|Hj]; simpl.
      + rewrite nth_upd_eq by (rewrite H2; auto). lia.
      + rewrite nth_upd_neq by auto. lia.
    - rewrite nth_upd_neq by auto. simpl. lia.
  Qed.
  Definition all_square (c : list (string * list (list nat))) : Prop := forall e, In e c -> square (snd e).
  Lemma dict_square c w f : all_square c -> (forall m, square m -> square (f m)) -> all_square (dict_update c w zero_m f).
  Proof.
    intros H Hf. induction c as [|(w1 & v) t IH]; simpl.
    - intros e [<-|[]]. simpl. apply Hf, square_zero.
    - destruct (String.eqb w w1).
      + intros e [<-|He]; [simpl; apply Hf, (H (w1, v)); simpl; auto|apply H; simpl; auto].
      + intros e [<-|He]; [apply H; simpl; auto|]. apply IH; auto. intros e' He'. apply H. simpl. auto.
  Qed.
  Lemma dget_square c w : all_square c -> square (dget zero_m c w).
  Proof.
    intros H. unfold dget. destruct (find _ c) eqn:E; [|apply square_zero]. apply find_some in E as (E & _). apply H. auto.
  Qed.
  Lemma count_swaps_ok : forall issues c,
    (forall ij, In ij issues -> in_text (map (@length string) tokens) ij /\ in_text (map (@length nat) labels) ij /\
       in_text (map (@length (list Q)) pps) ij /\ (given ij < n)%nat /\ (predicted ij < n)%nat) ->
    NoDup (map fst c) -> all_square c ->
    exists c', count_swaps n issues tokens labels pps exclude c = Ok c' /\ NoDup (map fst c') /\ all_square c' /\
      (forall w l p, nget2 (dget zero_m c' w) l p =
         (nget2 (dget zero_m c w) l p + how_many (fun ij => is_swap w l p ij && negb (excluded exclude l p))%bool issues)%nat).
  Proof.
    induction issues as [|ij t IH]; intros c Ht Hc Hsq.
    - exists c. split; [reflexivity|]. split; [auto|]. split; [auto|]. intros. unfold how_many. simpl. lia.
    - destruct (Ht ij) as (T1 & T2 & T3 & T4 & T5); [simpl; auto|]. cbn [count_swaps].
      rewrite token_at_ok by auto. cbn [rbind]. rewrite (at2_ok 0%nat) by auto. cbn [rbind]. rewrite (at2_ok []) by auto. cbn [rbind].
      fold (given ij). fold (predicted ij). set (w0 := entry EmptyString tokens ij).
      assert (Ht' : forall x, In x t -> in_text (map (@length string) tokens) x /\ in_text (map (@length nat) labels) x /\
       in_text (map (@length (list Q)) pps) x /\ (given x < n)%nat /\ (predicted x < n)%nat) by (intros; apply Ht; simpl; auto).
      change (repeat (repeat 0%nat n) n) with zero_m.
      destruct (excluded exclude (given ij) (predicted ij)) eqn:Ex.
      + destruct (IH (dict_update c w0 zero_m (fun m => m)) Ht' (dict_NoDup c w0 (fun m => m) zero_m Hc) (dict_square c w0 (fun m => m) Hsq (fun m H => H)))
          as (c' & E & Hn & Hs & Hv).
        exists c'. split; [auto|]. split; [auto|]. split; [auto|]. intros w l p. rewrite Hv. rewrite dict_get.
        assert (E1 : nget2 (if String.eqb w w0 then match find (fun e => String.eqb w0 (fst e)) c with Some e => snd e | None => zero_m end else dget zero_m c w) l p = nget2 (dget zero_m c w) l p).
        { destruct (String.eqb_spec w w0) as [->|]; reflexivity. }
        rewrite E1. unfold how_many. cbn [filter]. f_equal.
        assert (E2 : (is_swap w l p ij && negb (excluded exclude l p))%bool = false).
        { unfold is_swap. destruct (Nat.eqb_spec l (given ij)) as [->|]; [|rewrite andb_false_r; reflexivity].
          destruct (Nat.eqb_spec p (predicted ij)) as [->|]; [|rewrite andb_false_r; reflexivity]. rewrite Ex. apply andb_false_r. }
        rewrite E2. reflexivity.
      + destruct (Nat.leb_spec n (given ij)) as [C|_]; [lia|]. destruct (Nat.leb_spec n (predicted ij)) as [C|_]; [lia|]. cbn [orb].
        destruct (IH (dict_update c w0 zero_m (bump2 (given ij) (predicted ij))) Ht' (dict_NoDup c w0 _ zero_m Hc)
            (dict_square c w0 _ Hsq (fun m H => bump2_square (given ij) (predicted ij) m H T4)))
          as (c' & E & Hn & Hs & Hv).
        exists c'. split; [auto|]. split; [auto|]. split; [auto|]. intros w l p. rewrite Hv. rewrite dict_get.
        unfold how_many. cbn [filter]. unfold is_swap at 2. fold w0.
        destruct (String.eqb_spec w w0) as [->|]; cbn [andb]; [|reflexivity].
        fold (dget zero_m c w0). rewrite bump2_get by (auto using dget_square).
        destruct (Nat.eqb_spec l (given ij)) as [->|]; cbn [andb]; [|lia].
        destruct (Nat.eqb_spec p (predicted ij)) as [->|]; cbn [andb]; [|lia]. rewrite Ex. cbn [negb length]. lia.
  Qed.
  Lemma swap_rows_in c w l p k : NoDup (map fst c) -> all_square c ->
    (In (w, l, p, k) (swap_rows n c) <-> (0 < k)%nat /\ (l < n)%nat /\ (p < n)%nat /\ k = nget2 (dget zero_m c w) l p).
  Proof.
    intros Hn Hsq. unfold swap_rows. rewrite in_concat. split.
    - intros (r & Hr & Hin). apply in_map_iff in Hr as ((w1 & m) & <- & Hc). apply in_concat in Hin as (r2 & Hr2 & Hin).
      apply in_map_iff in Hr2 as (i & <- & Hi). apply in_map_iff in Hin as (j & E & Hj). simpl in E. injection E as -> -> -> <-.
      apply filter_In in Hj as (Hj & Hpos). apply Nat.ltb_lt in Hpos. simpl in Hpos. apply in_seq in Hi. apply in_seq in Hj.
      apply (dget_in zero_m) in Hc as (_ & <-); auto. repeat split; auto; lia.
    - intros (Hk & Hl & Hp & ->). assert (Hin : In w (map fst c)).
      { destruct (in_dec string_dec w (map fst c)) as [H|H]; auto. rewrite dget_absent, nget_zero in Hk by auto. lia. }
      eexists. split.
      + apply in_map_iff. exists (w, dget zero_m c w). split; [reflexivity|]. apply (dget_in zero_m); auto.
      + simpl. apply in_concat. eexists. split; [apply in_map_iff; exists l; split; [reflexivity|apply in_seq; lia]|].
        apply in_map_iff. exists p. split; [reflexivity|]. apply filter_In. split; [apply in_seq; lia|]. apply Nat.ltb_lt. auto.
  Qed.
  Lemma NoDup_concat_map {A B C} (f : A -> list B) (kf : B -> C) (ka : A -> C) l : NoDup (map ka l) ->
    (forall x b, In x l -> In b (f x) -> kf b = ka x) -> (forall x, In x l -> NoDup (f x)) -> NoDup (concat (map f l)).
  Proof.
    induction l as [|x l IH]; simpl; intros Hn Hk Hd; [constructor|]. inversion Hn as [|? ? H1 H2]; subst.
    apply NoDup_app_intro; [apply Hd; auto|apply IH; auto|].
    intros b Hb Hb'. apply in_concat in Hb' as (r & Hr & Hb'). apply in_map_iff in Hr as (y & <- & Hy).
    apply H1. rewrite <- (Hk x b), (Hk y b) by auto. apply in_map. auto.
  Qed.
  Lemma swap_rows_NoDup c : NoDup (map fst c) -> NoDup (map fst (swap_rows n c)).
  Proof.
    intros Hn. unfold swap_rows. rewrite concat_map, map_map.
    apply (NoDup_concat_map _ (fun x => fst (fst x)) fst); auto.
    - intros (w & m) b _ Hb. apply in_map_iff in Hb as (y & <- & Hy). apply in_concat in Hy as (r & Hr & Hy).
      apply in_map_iff in Hr as (i & <- & _). apply in_map_iff in Hy as (j & <- & _). reflexivity.
    - intros (w & m) _. rewrite concat_map, map_map. apply (NoDup_concat_map _ (fun x => snd (fst x)) (fun i => i)).
      + rewrite map_id. apply seq_NoDup.
      + intros i b _ Hb. apply in_map_iff in Hb as (y & <- & Hy). apply in_map_iff in Hy as (j & <- & _). reflexivity.
      + intros i _. rewrite map_map. simpl. apply FinFun.Injective_map_NoDup; [|apply NoDup_filter, seq_NoDup]. intros x y E. congruence.
  Qed.
End CountSwaps.

Lemma C59_swaps_full : forall srt issues tokens labels pps exclude n, argsort_ok srt ->
  (exists row rest sents, pps = (row :: rest) :: sents /\ length row = n) ->
  (forall ij, In ij issues -> in_text (map (@length string) tokens) ij /\ in_text (map (@length nat) labels) ij /\
     in_text (map (@length (list Q)) pps) ij /\ (entry 0%nat labels ij < n)%nat /\ length (entry [] pps ij) = n) ->
  exists rows, common_swaps srt issues tokens labels pps exclude = Ok rows /\ NoDup (map fst rows) /\
    (forall w l p k, In (w, l, p, k) rows <->
       (0 < k)%nat /\ ~ In (l, p) exclude /\
       k = how_many (fun ij => String.eqb w (entry EmptyString tokens ij) && Nat.eqb l (entry 0%nat labels ij) &&
                               Nat.eqb p (argmax (entry [] pps ij)))%bool issues) /\
    StronglySorted (fun a b => (snd b <= snd a)%nat) rows.
Proof.
  intros srt issues tokens labels pps exclude n Hs (row & rest & sents & -> & Hrow) Ht.
  set (pps := (row :: rest) :: sents) in *.
  assert (Ht' : forall ij, In ij issues -> in_text (map (@length string) tokens) ij /\ in_text (map (@length nat) labels) ij /\
     in_text (map (@length (list Q)) pps) ij /\ (given labels ij < n)%nat /\ (predicted pps ij < n)%nat).
  { intros ij Hij. destruct (Ht ij Hij) as (A & B & C & D & E). repeat split; auto; try apply A; try apply B; try apply C.
    unfold predicted. rewrite <- E. apply argmax_lt. intros E'. rewrite E' in E. simpl in E. lia. }
  destruct (count_swaps_ok n tokens labels pps exclude issues [] Ht' (NoDup_nil _)) as (c & E & Hn & Hsq & Hv).
  { intros e []. }
  unfold common_swaps. unfold pps at 1. rewrite Hrow. fold pps. rewrite E. cbn [rbind]. eexists. split; [reflexivity|].
  pose proof (sort_desc_perm srt snd (EmptyString, 0%nat, 0%nat, 0%nat) (swap_rows n c) Hs) as HP. split; [|split].
  - eapply Permutation_NoDup; [apply Permutation_map; symmetry; exact HP|]. apply swap_rows_NoDup; auto.
  - intros w l p k.
    assert (HI : In (w, l, p, k) (sort_desc srt snd (EmptyString, 0%nat, 0%nat, 0%nat) (swap_rows n c)) <-> In (w, l, p, k) (swap_rows n c)).
    { split; apply Permutation_in; [|symmetry]; auto. }
    rewrite HI, (swap_rows_in n) by auto. rewrite Hv. change (dget (zero_m n) [] w) with (zero_m n). rewrite nget_zero. cbn [Nat.add].
    change (fun ij => is_swap tokens labels pps w l p ij && negb (excluded exclude l p))%bool with
      (fun ij => (fun x => String.eqb w (entry EmptyString tokens x) && Nat.eqb l (entry 0%nat labels x) &&
                               Nat.eqb p (argmax (entry [] pps x)))%bool ij && negb (excluded exclude l p))%bool.
    set (P := (fun x => String.eqb w (entry EmptyString tokens x) && Nat.eqb l (entry 0%nat labels x) &&
                               Nat.eqb p (argmax (entry [] pps x)))%bool).
    assert (Hex : excluded exclude l p = true <-> In (l, p) exclude).
    { unfold excluded. rewrite existsb_exists. split.
      - intros ((l1 & p1) & H & H'). simpl in H'. apply andb_true_iff in H' as (H1 & H2). apply Nat.eqb_eq in H1. apply Nat.eqb_eq in H2. subst. auto.
      - intros H. exists (l, p). simpl. rewrite !Nat.eqb_refl. auto. }
    destruct (excluded exclude l p) eqn:Ex.
    + assert (Ez : how_many (fun ij => P ij && negb true)%bool issues = 0%nat).
      { unfold how_many. clear. induction issues as [|x t IH]; [reflexivity|]. cbn [filter]. rewrite andb_false_r. apply IH. }
      rewrite Ez. split; [intros (H & _ & _ & ->); lia|]. intros (_ & H & _). exfalso. apply H, Hex. reflexivity.
    + assert (Ez : how_many (fun ij => P ij && negb false)%bool issues = how_many P issues).
      { unfold how_many. f_equal. apply filter_ext. intros x. apply andb_true_r. }
      rewrite Ez. split.
      * intros (H & _ & _ & ->). split; auto. split; [|reflexivity]. intros C. apply Hex in C. discriminate.
      * intros (H & _ & ->). split; auto. apply how_many_pos in H as (ij & Hij & HPij). unfold P in HPij.
        apply andb_true_iff in HPij as (HPij & H3). apply andb_true_iff in HPij as (H1 & H2).
        apply Nat.eqb_eq in H2. apply Nat.eqb_eq in H3. subst. destruct (Ht' ij Hij) as (_ & _ & _ & D1 & D2). auto.
  - apply sort_desc_sorted. auto.
Qed.

(** ** softmin *)
Open Scope R_scope.
Definition weight (T M s : R) : R := exp ((1 - s) / T - M).
Lemma softmax_t_eq eps t scores :
  let T := Rmax t eps in
  let M := rmaximum (map (fun v => v / T) (map (fun s => 1 - s) scores)) in
  softmax_t eps t (map (fun s => 1 - s) scores) =
  map (fun s => weight T M s / rsum (map (weight T M) scores)) scores.
Proof.
  intros T M. unfold softmax_t. fold T. rewrite !map_map. unfold M. rewrite map_map. reflexivity.
Qed.
Lemma rdot_map (f : R -> R) l : rdot l (map f l) = rsum (map (fun s => s * f s) l).
Proof. unfold rdot. induction l as [|x l IH]; [reflexivity|]. cbn [map combine rsum fold_right fst snd]. unfold rsum in IH. rewrite IH. reflexivity. Qed.
Lemma rsum_map_scale {A} (f : A -> R) c l : rsum (map (fun x => f x / c) l) = rsum (map f l) / c.
Proof. unfold rsum. induction l as [|x l IH]; simpl; [unfold Rdiv; ring|]. rewrite IH. unfold Rdiv. ring. Qed.
Lemma softmin_eq eps t scores : scores <> [] ->
  let T := Rmax t eps in
  let M := rmaximum (map (fun v => v / T) (map (fun s => 1 - s) scores)) in
  softmin_sentence eps t scores =
  Ok (rsum (map (fun s => s * weight T M s) scores) / rsum (map (weight T M) scores)).
Proof.
  intros Hne. assert (E : softmin_sentence eps t scores = Ok (rdot scores (softmax_t eps t (map (fun s => 1 - s) scores))))
    by (destruct scores; [congruence|reflexivity]).
  intros T M. rewrite E. f_equal. rewrite softmax_t_eq. fold T. fold M. rewrite (rdot_map (fun s => weight T M s / rsum (map (weight T M) scores))).
  rewrite <- rsum_map_scale. f_equal. apply map_ext. intros s. unfold Rdiv. ring.
Qed.
Lemma weight_pos T M s : 0 < weight T M s. Proof. apply exp_pos. Qed.
Lemma weighted_le (w : R -> R) c l : (forall s, In s l -> 0 < w s) -> (forall s, In s l -> s <= c) ->
  rsum (map (fun s => s * w s) l) <= c * rsum (map w l).
Proof.
  unfold rsum. induction l as [|x l IH]; simpl; intros Hw Hc; [lra|].
  assert (A : fold_right Rplus 0 (map (fun s => s * w s) l) <= c * fold_right Rplus 0 (map w l)) by (apply IH; auto).
  assert (B : x * w x <= c * w x) by (apply Rmult_le_compat_r; [apply Rlt_le|]; auto). lra.
Qed.
Lemma weighted_ge (w : R -> R) c l : (forall s, In s l -> 0 < w s) -> (forall s, In s l -> c <= s) ->
  c * rsum (map w l) <= rsum (map (fun s => s * w s) l).
Proof.
  unfold rsum. induction l as [|x l IH]; simpl; intros Hw Hc; [lra|].
  assert (A : c * fold_right Rplus 0 (map w l) <= fold_right Rplus 0 (map (fun s => s * w s) l)) by (apply IH; auto).
  assert (B : c * w x <= x * w x) by (apply Rmult_le_compat_r; [apply Rlt_le|]; auto). lra.
Qed.
Lemma chebyshev (w : R -> R) : (forall s s', s <= s' -> w s' <= w s) -> forall l,
  INR (length l) * rsum (map (fun s => s * w s) l) <= rsum l * rsum (map w l).
Proof.
  intros Hw. assert (P : forall x y, (x - y) * (w x - w y) <= 0).
  { intros x y. destruct (Rle_dec x y) as [H|H].
    - specialize (Hw x y H). assert (0 <= (y - x) * (w x - w y)) by (apply Rmult_le_pos; lra). lra.
    - specialize (Hw y x ltac:(lra)). assert (0 <= (x - y) * (w y - w x)) by (apply Rmult_le_pos; lra). lra. }
  assert (C : forall x l, rsum (map (fun s => s * w s) l) + INR (length l) * (x * w x) <=
     x * rsum (map w l) + w x * rsum l).
  { intros x. unfold rsum. induction l as [|y l IH]; [simpl; lra|]. cbn [length map fold_right]. rewrite S_INR.
    specialize (P x y). lra. }
  induction l as [|x l IH]; [simpl; unfold rsum; simpl; lra|]. specialize (C x l). cbn [length]. rewrite S_INR.
  unfold rsum in *. cbn [map fold_right]. lra.
Qed.
Lemma C60_softmin_full : forall eps t scores, 0 < eps -> scores <> [] ->
  exists v, softmin_sentence eps t scores = Ok v /\
    (forall lo, (forall s, In s scores -> lo <= s) -> lo <= v) /\
    v * INR (length scores) <= rsum scores.
Proof.
  intros eps t scores Heps Hne. rewrite softmin_eq by auto. set (T := Rmax t eps).
  set (M := rmaximum (map (fun v => v / T) (map (fun s => 1 - s) scores))). eexists. split; [reflexivity|].
  assert (HT : 0 < T) by (unfold T; apply Rlt_le_trans with eps; [auto|apply Rmax_r]).
  assert (HW : 0 < rsum (map (weight T M) scores)).
  { apply rsum_pos; [destruct scores; [congruence|discriminate]|]. intros x Hx. apply in_map_iff in Hx as (s & <- & _). apply weight_pos. }
  split.
  - intros lo Hlo. apply Rmult_le_reg_r with (rsum (map (weight T M) scores)); auto.
    unfold Rdiv. rewrite Rmult_assoc, Rinv_l, Rmult_1_r by lra. apply weighted_ge; auto. intros; apply weight_pos.
  - apply Rmult_le_reg_r with (rsum (map (weight T M) scores)); auto.
    assert (Hc : INR (length scores) * rsum (map (fun s => s * weight T M s) scores) <= rsum scores * rsum (map (weight T M) scores)).
    { apply chebyshev. intros s s' H. unfold weight. destruct (Rle_lt_or_eq_dec s s' H) as [H'| ->]; [|lra].
      apply Rlt_le, exp_increasing. assert ((1 - s') / T < (1 - s) / T); [|lra].
      apply Rmult_lt_compat_r; [apply Rinv_0_lt_compat; auto|lra]. }
    replace (rsum (map (fun s => s * weight T M s) scores) / rsum (map (weight T M) scores) * INR (length scores) *
       rsum (map (weight T M) scores)) with (INR (length scores) * rsum (map (fun s => s * weight T M s) scores)) by (field; lra).
    exact Hc.
Qed.
