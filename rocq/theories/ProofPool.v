(** * The process pool computes [map f args] under every schedule *)
From Coq Require Import List Arith Bool Lia.
From Verif Require Import Base BaseFacts ModelPool ProofUtil.
Import ListNotations.

Section P.
Context {A B : Type}.
Variable f : A -> B.

Lemma chunks_aux_concat fuel c : forall l : list A, (1 <= c)%nat -> (length l <= fuel)%nat ->
  concat (chunks_aux fuel c l) = l.
Proof.
  induction fuel; intros l Hc Hl; simpl.
  - destruct l; [reflexivity|simpl in Hl; lia].
  - destruct l as [|a t]; [reflexivity|]. cbn [concat].
    rewrite IHfuel; auto.
    + apply firstn_skipn.
    + rewrite skipn_length. cbn [length] in *. lia.
Qed.
Lemma chunks_concat c (l : list A) : (1 <= c)%nat -> concat (chunks c l) = l.
Proof. intros. apply chunks_aux_concat; auto. Qed.

Definition wf (cs : list (list A)) (s : @pool_state A B) : Prop :=
  (forall i ch, In (i, ch) (queue s) -> nth_error cs i = Some ch) /\
  (forall i ch, In (Some (i, ch)) (busy s) -> nth_error cs i = Some ch) /\
  (forall i r, In (i, r) (done s) -> exists ch, nth_error cs i = Some ch /\ r = map f ch) /\
  (forall i, (i < length cs)%nat ->
     In i (map fst (queue s)) \/ (exists ch, In (Some (i, ch)) (busy s)) \/ In i (map fst (done s))).

Lemma in_upd {X} (l : list X) w v x : In x (upd l w v) -> x = v \/ In x l.
Proof.
  revert w. induction l as [|a l IH]; intros w H; [destruct H|].
  destruct w; simpl in H.
  - destruct H; auto. right; right; auto.
  - destruct H as [H|H]; [right; left; auto|]. apply IH in H as [H|H]; auto. right; right; auto.
Qed.
Lemma in_upd_keep {X} (l : list X) w v x y : nth_error l w = Some y -> In x l -> x = y \/ In x (upd l w v).
Proof.
  revert w. induction l as [|a l IH]; intros w Hw H; [destruct H|].
  destruct w; simpl in *.
  - inversion Hw; subst. destruct H; auto.
  - destruct H as [->|H]; auto. destruct (IH w Hw H); auto.
Qed.
Lemma in_upd_new {X} (l : list X) w v y : nth_error l w = Some y -> In v (upd l w v).
Proof.
  revert w. induction l as [|a l IH]; intros [|w] H; simpl in *; try discriminate; eauto.
Qed.

Lemma wf_init workers c args : wf (chunks c args) (pool_init (B:=B) workers c args).
Proof.
  unfold pool_init. split; [|split; [|split]]; simpl.
  - intros i ch H. generalize (chunks c args) H. clear. intros cs.
    assert (forall s, In (i, ch) (combine (seq s (length cs)) cs) -> (s <= i)%nat /\ nth_error cs (i - s) = Some ch) as G.
    { induction cs as [|x cs IH]; simpl; intros s H; [tauto|].
      destruct H as [H|H].
      - inversion H; subst. split; [lia|]. rewrite Nat.sub_diag. reflexivity.
      - apply IH in H as (Hs & H). split; [lia|]. replace (i - s)%nat with (S (i - S s)) by lia. auto. }
    intros H. apply G in H as (_ & H). rewrite Nat.sub_0_r in H. auto.
  - intros i ch H. apply repeat_spec in H. discriminate.
  - intros i r [].
  - intros i Hi. left. generalize (chunks c args) Hi. clear. intros cs Hi.
    assert (map fst (combine (seq 0 (length cs)) cs) = seq 0 (length cs)) as ->.
    { generalize 0. clear. induction cs; simpl; intros; f_equal; auto. }
    apply in_seq. lia.
Qed.

Lemma wf_step cs s w : wf cs s -> wf cs (pool_step f s w).
Proof.
  intros (H1 & H2 & H3 & H4). unfold pool_step.
  destruct (nth_error (busy s) w) as [[[i ch]|]|] eqn:E.
  - assert (In (Some (i, ch)) (busy s)) as Hin by (eapply nth_error_In; eauto).
    split; [|split; [|split]]; simpl; auto.
    + intros i' ch' H. apply in_upd in H as [H|H]; [discriminate|auto].
    + intros i' r [H|H]; auto. inversion H; subst. exists ch. auto.
    + intros i' Hi'. destruct (H4 i' Hi') as [H|[(ch' & H)|H]]; auto.
      destruct (in_upd_keep (busy s) w None _ _ E H) as [H'|H'].
      * inversion H'; subst. right; right; left; auto.
      * right; left. eauto.
  - destruct (queue s) as [|[i ch] q] eqn:Eq.
    + split; [|split; [|split]]; rewrite ?Eq in *; auto.
    + split; [|split; [|split]]; simpl; auto.
      * intros i' ch' H. apply H1. right; auto.
      * intros i' ch' H. apply in_upd in H as [H|H]; auto. inversion H; subst. apply H1. left; auto.
      * intros i' Hi'. destruct (H4 i' Hi') as [[H|H]|[(ch' & H)|H]]; auto.
        -- simpl in H. subst i'. right; left. exists ch. eapply in_upd_new; eauto.
        -- right; left. destruct (in_upd_keep (busy s) w (Some (i, ch)) _ _ E H) as [H'|H']; [discriminate|eauto].
  - split; [|split; [|split]]; auto.
Qed.

Lemma wf_run cs sched : forall s, wf cs s -> wf cs (fold_left (pool_step f) sched s).
Proof. induction sched; simpl; intros s H; auto. apply IHsched, wf_step, H. Qed.

Lemma lookup_chunk_spec i d (r : list B) :
  In i (map fst d) -> (forall r', In (i, r') d -> r' = r) -> lookup_chunk i d = r.
Proof.
  induction d as [|[j r0] d IH]; simpl; intros Hin Hall; [tauto|].
  destruct (Nat.eqb_spec i j).
  - subst. apply Hall. auto.
  - apply IH; [|auto]. destruct Hin; [congruence|auto].
Qed.

Lemma concat_map_map (cs : list (list A)) : concat (map (map f) cs) = map f (concat cs).
Proof. symmetry. apply concat_map. Qed.

Lemma pool_map_ok workers c sched args r : (1 <= c)%nat ->
  pool_map f workers c sched args = Ok r -> r = map f args.
Proof.
  intros Hc. unfold pool_map. set (s := fold_left _ _ _).
  pose proof (wf_run (chunks c args) sched _ (wf_init workers c args)) as (H1 & H2 & H3 & H4).
  fold s in H1, H2, H3, H4.
  destruct (pool_finished s) eqn:Ef; [|discriminate]. intros H. inversion H; subst r; clear H.
  unfold pool_finished in Ef. destruct (queue s) eqn:Eq; [|discriminate].
  rewrite forallb_forall in Ef.
  assert (Hall : forall i, (i < length (chunks c args))%nat ->
            lookup_chunk i (done s) = map f (nth i (chunks c args) [])).
  { intros i Hi. apply lookup_chunk_spec.
    - destruct (H4 i Hi) as [[]|[(ch & H)|H]]; auto. apply Ef in H. discriminate.
    - intros r' Hr'. destruct (H3 _ _ Hr') as (ch & Hn & ->). f_equal.
      symmetry. apply nth_error_nth with (d := []) in Hn. exact Hn. }
  rewrite <- (chunks_concat c args Hc) at 2. rewrite <- concat_map_map. f_equal.
  apply list_eq_nth with (d := []); rewrite !map_length, seq_length; auto.
  intros i Hi. rewrite (nth_map_gen _ _ _ _ 0%nat) by (rewrite seq_length; auto).
  rewrite seq_nth by auto. rewrite (nth_map_gen _ _ _ _ []) by auto. apply Hall. auto.
Qed.

(** some schedule finishes: worker 0 can do everything *)
Lemma drain_all : forall (q : list (nat * list A)) (b : list (option (nat * list A))) d,
  (forall x, In x b -> x = None) -> b <> [] ->
  let s := {| queue := q; busy := b; done := d |} in
  exists sched, queue (fold_left (pool_step f) sched s) = [] /\
                (forall x, In x (busy (fold_left (pool_step f) sched s)) -> x = None).
Proof.
  induction q as [|[i ch] q IH]; intros b d Hb Hne s.
  - exists []. simpl. auto.
  - destruct b as [|b0 b]; [congruence|]. assert (b0 = None) by (apply Hb; left; auto). subst b0.
    destruct (IH (None :: b) ((i, map f ch) :: d)) as (sched & Hs1 & Hs2); auto; try congruence.
    exists (0%nat :: 0%nat :: sched). exact (conj Hs1 Hs2).
Qed.
Lemma pool_map_can_finish workers c args : (1 <= workers)%nat -> (1 <= c)%nat ->
  exists sched, pool_map f workers c sched args = Ok (map f args).
Proof.
  intros Hw Hc.
  destruct (drain_all (combine (seq 0 (length (chunks c args))) (chunks c args)) (repeat None workers) []) as (sched & H1 & H2).
  - intros x Hx. apply repeat_spec in Hx. auto.
  - destruct workers; [lia|]. discriminate.
  - exists sched. destruct (pool_map f workers c sched args) eqn:E.
    + f_equal. eapply pool_map_ok; eauto.
    + exfalso. revert E. unfold pool_map, pool_init in *. cbv zeta.
      unfold pool_finished. rewrite H1.
      assert (forallb (fun b => match b with None => true | Some _ => false end)
         (busy (fold_left (pool_step f) sched
            {| queue := combine (seq 0 (length (chunks c args))) (chunks c args);
               busy := repeat None workers; done := [] |})) = true) as ->; [|discriminate].
      apply forallb_forall. intros x Hx. rewrite (H2 x Hx). reflexivity.
Qed.
End P.
