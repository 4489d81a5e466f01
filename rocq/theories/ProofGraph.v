(** * Proofs about the shared neighbour graph *)
From Coq Require Import QArith List Bool Arith Lia.
From Verif Require Import Base BaseFacts ModelKnn ModelGraph SpecGraph.
Import ListNotations.

Lemma metric_eqb_refl m : metric_eqb m m = true.
Proof. destruct m; cbn; auto. apply Nat.eqb_refl. Qed.

Section Run.
Context (E : env) (B : backend) (rest : check -> args -> option (graph * nat) -> bool).

Lemma run_checks_cons c a cs st : run_checks E B rest ((c, a) :: cs) st =
  (match run_check E B rest c a st with Ok (u, _) => Ok u | Raise e => Raise e end ::
     fst (run_checks E B rest cs (match run_check E B rest c a st with Ok (_, s) => s | Raise _ => st end)),
   snd (run_checks E B rest cs (match run_check E B rest c a st with Ok (_, s) => s | Raise _ => st end))).
Proof.
  cbn [run_checks]. destruct (run_check E B rest c a st) as [[u s]|e]; destruct (run_checks E B rest cs _) as [o s2]; reflexivity.
Qed.

Lemma run_checks_app cs1 cs2 st : run_checks E B rest (cs1 ++ cs2) st =
  (fst (run_checks E B rest cs1 st) ++ fst (run_checks E B rest cs2 (snd (run_checks E B rest cs1 st))),
   snd (run_checks E B rest cs2 (snd (run_checks E B rest cs1 st)))).
Proof.
  revert st. induction cs1 as [|[c a] cs1 IH]; intros st.
  - cbn [run_checks app fst snd]. destruct (run_checks E B rest cs2 st); reflexivity.
  - cbn [app]. rewrite !run_checks_cons. cbn [fst snd]. rewrite IH. reflexivity.
Qed.

Lemma run_checks_length cs st : length (fst (run_checks E B rest cs st)) = length cs.
Proof.
  revert st. induction cs as [|[c a] cs IH]; intros st; [reflexivity|].
  rewrite run_checks_cons. cbn [fst length]. rewrite IH. reflexivity.
Qed.

(** the metric actually used is the requested one *)
Lemma create_metric f k mo g n mt : create_knn_graph E B (Some f) (Some k) mo true = Ok (g, n, mt) ->
  (match mo with Some m => mt = m | None => mt = decide_default_metric (length (rows f)) (ncols f) end) /\ (k <= n)%nat /\
  (match k with O => True | _ => n = k end).
Proof.
  unfold create_knn_graph, configure_num_neighbors. destruct (Nat.leb_spec (length (rows f)) k); cbn [rbind]; [discriminate|].
  destruct (Nat.eqb_spec (if Nat.eqb k 0 then Nat.min 10 (length (rows f) - 1) else k) 0) as [H0|H0]; [discriminate|].
  intros Heq. injection Heq as _ Hn Hm. split; [|split].
  - destruct mo; auto.
  - destruct (Nat.eqb_spec k 0); lia.
  - destruct k; auto.
Qed.

(** with no metric conflict possible, the graph is the stored one or a larger new one *)
Lemma get_graph_same f a st g n m mo :
  a_graph a = None -> a_metric a = mo ->
  (match mo with Some m0 => s_metric st = None \/ s_metric st = Some m0 | None => True end) ->
  get_graph E B (Some f) a st = Ok (g, n, m) ->
  (s_graph st = Some (g, n) /\ (a_k a <= n)%nat /\ m = mo) \/
  ((forall g0 n0, s_graph st = Some (g0, n0) -> (n0 < a_k a)%nat) /\
   exists mt, m = Some mt /\ create_knn_graph E B (Some f) (Some (a_k a)) mo true = Ok (g, n, mt)).
Proof.
  intros Hg Hm Hst. unfold get_graph, set_knn_graph. rewrite Hg, Hm. cbn [process_knn_graph_from_inputs].
  assert (match mo with
          | Some mt => match s_metric st with Some old => negb (metric_eqb mt old) | None => false end
          | None => false end = false) as Hc.
  { destruct mo as [m0|]; auto. destruct Hst as [Hst|Hst]; rewrite Hst; auto. rewrite metric_eqb_refl; auto. }
  rewrite Hc. destruct (s_graph st) as [[g0 n0]|] eqn:Hs.
  - destruct (Nat.ltb_spec n0 (a_k a)).
    + intros Heq. right. destruct (create_knn_graph E B (Some f) (Some (a_k a)) mo true) as [[[g1 n1] mt]|] eqn:Hcr; cbn [rbind] in Heq; [|discriminate].
      injection Heq as <- <- <-. split; [|exists mt; auto]. intros g2 n2 Heq. injection Heq as <- <-. auto.
    + intros Heq. injection Heq as <- <- <-. left. auto.
  - intros Heq. right. destruct (create_knn_graph E B (Some f) (Some (a_k a)) mo true) as [[[g1 n1] mt]|] eqn:Hcr; cbn [rbind] in Heq; [|discriminate].
    injection Heq as <- <- <-. split; [discriminate|exists mt; auto].
Qed.

(** invariant of the statistics *)
Definition inv f mo ks (st : store) : Prop :=
  (s_graph st = None /\ s_metric st = None \/
   exists g mt, s_graph st = Some g /\ s_metric st = Some mt /\ built_from E B f mo ks g mt).

Lemma built_mono f mo ks ks' g mt : (forall k, In k ks -> In k ks') ->
  built_from E B f mo ks g mt -> built_from E B f mo ks' g mt.
Proof. intros H (k & Hk & He). exists k; auto. Qed.
Lemma inv_mono f mo ks ks' st : (forall k, In k ks -> In k ks') -> inv f mo ks st -> inv f mo ks' st.
Proof.
  intros H [Hn|(g & mt & H1 & H2 & H3)]; [left; auto|]. right. exists g, mt. repeat split; auto. eapply built_mono; eauto.
Qed.

Lemma built_metric f mo ks g mt : built_from E B f mo ks g mt ->
  match mo with Some m => mt = m | None => mt = decide_default_metric (length (rows f)) (ncols f) end.
Proof. intros (k & _ & He). apply create_metric in He. tauto. Qed.

Definition stored_ge (st st' : store) : Prop :=
  forall g n, s_graph st = Some (g, n) -> exists g' n', s_graph st' = Some (g', n') /\ (n <= n')%nat /\ (g' = g \/ (n < n')%nat).

Lemma stored_ge_refl st : stored_ge st st.
Proof. intros g n H. exists g, n. auto. Qed.
Lemma stored_ge_trans a b c : stored_ge a b -> stored_ge b c -> stored_ge a c.
Proof.
  intros H1 H2 g n Hs. destruct (H1 _ _ Hs) as (g1 & n1 & Hs1 & Hn1 & Hg1). destruct (H2 _ _ Hs1) as (g2 & n2 & Hs2 & Hn2 & Hg2).
  exists g2, n2. split; auto. split; [lia|]. destruct Hg1 as [->|]; [|right; lia]. destruct Hg2; auto. right; lia.
Qed.

Lemma store_step f mo ks a st g n m (out : bool) :
  a_graph a = None -> a_metric a = mo -> inv f mo ks st ->
  get_graph E B (Some f) a st = Ok (g, n, m) ->
  (a_k a <= n)%nat /\ (exists mt, built_from E B f mo (ks ++ [a_k a]) (g, n) mt) /\
  inv f mo (ks ++ [a_k a]) (if out then store_outlier st (Some (g, n)) m else store_other st (Some (g, n)) m) /\
  stored_ge st (if out then store_outlier st (Some (g, n)) m else store_other st (Some (g, n)) m).
Proof.
  intros Hg Hm Hinv Hget.
  assert (match mo with Some m0 => s_metric st = None \/ s_metric st = Some m0 | None => True end) as Hst.
  { destruct mo as [m0|]; auto. destruct Hinv as [[_ H]|(g0 & mt & _ & H & Hb)]; auto.
    apply built_metric in Hb. subst mt. auto. }
  assert (Hks : forall k, In k ks -> In k (ks ++ [a_k a])) by (intros; apply in_or_app; auto).
  destruct (get_graph_same f a st g n m mo Hg Hm Hst Hget) as [(Hs & Hk & ->)|(Hlt & mt & -> & Hcr)].
  - (* reused *)
    destruct Hinv as [[H _]|(g0 & mt & H & Hmt & Hb)]; [congruence|]. rewrite Hs in H. injection H as <-.
    split; auto. split; [exists mt; eapply built_mono; eauto|].
    assert (forall b : bool, s_graph (if b then store_outlier st (Some (g, n)) mo else store_other st (Some (g, n)) mo) = Some (g, n)) as Hsg.
    { intros [|]; unfold store_outlier, store_other; [|]; destruct (prefer_new_graph _ _ _); cbn; auto. }
    assert (forall b : bool, s_metric (if b then store_outlier st (Some (g, n)) mo else store_other st (Some (g, n)) mo) = Some mt) as Hsm.
    { assert (match mo with Some _ => mo | None => s_metric st end = Some mt) as Hmo.
      { destruct mo as [m0|]; auto. apply built_metric in Hb. subst; auto. }
      intros [|]; unfold store_outlier, store_other; [|]; destruct (prefer_new_graph _ _ _); cbn; auto. }
    split.
    + right. exists (g, n), mt. rewrite Hsg, Hsm. repeat split; auto. eapply built_mono; eauto.
    + intros g1 n1 H1. rewrite Hs in H1. injection H1 as <- <-. exists g, n. rewrite Hsg. auto.
  - pose proof (create_metric _ _ _ _ _ _ Hcr) as (Hmt & Hkn & Hn).
    split; auto.
    assert (Hb : built_from E B f mo (ks ++ [a_k a]) (g, n) mt).
    { exists (a_k a). split; [apply in_or_app; right; left; auto|exact Hcr]. }
    split; [exists mt; exact Hb|].
    assert (forall b : bool, s_metric (if b then store_outlier st (Some (g, n)) (Some mt) else store_other st (Some (g, n)) (Some mt)) = Some mt) as Hsm.
    { intros [|]; unfold store_outlier, store_other; cbn; auto. destruct (prefer_new_graph st (Some (g, n)) (Some mt)) eqn:Hp; cbn; auto.
      unfold prefer_new_graph in Hp. destruct Hinv as [[H _]|(g0 & mt0 & H & Hmt0 & Hb0)]; [rewrite H in Hp; discriminate|].
      rewrite Hmt0. apply built_metric in Hb0. f_equal. destruct mo; congruence. }
    assert (forall b : bool, let st' := (if b then store_outlier st (Some (g, n)) (Some mt) else store_other st (Some (g, n)) (Some mt)) in
               s_graph st' = Some (g, n) \/ (s_graph st' = s_graph st /\ s_graph st <> None)) as Hsg.
    { intros [|]; unfold store_outlier, store_other; cbn; destruct (prefer_new_graph st (Some (g, n)) (Some mt)) eqn:Hp; cbn; auto;
      right; split; auto; unfold prefer_new_graph in Hp; destruct (s_graph st); discriminate. }
    specialize (Hsm out). specialize (Hsg out). cbn zeta in Hsg.
    destruct Hsg as [Hsg|[Hsg Hne]].
    + split; [right; exists (g, n), mt; auto|].
      intros g1 n1 H1. specialize (Hlt _ _ H1). exists g, n. split; auto. split; [lia|right; lia].
    + split.
      * right. destruct Hinv as [[H _]|(g0 & mt0 & H & Hmt0 & Hb0)]; [congruence|]. exists g0, mt. split; [congruence|]. split; auto.
        apply built_mono with ks; auto. replace mt with mt0; auto. apply built_metric in Hb0. destruct mo; congruence.
      * intros g1 n1 H1. exists g1, n1. rewrite Hsg. auto.
Qed.

Lemma run_check_same f mo ks c a st u st' :
  a_features a = Some f -> a_graph a = None -> a_metric a = mo -> inv f mo ks st ->
  run_check E B rest c a st = Ok (u, st') ->
  (forall g, u = Some g -> (a_k a <= snd g)%nat /\ exists mt, built_from E B f mo (ks ++ [a_k a]) g mt) /\
  inv f mo (ks ++ [a_k a]) st' /\ stored_ge st st'.
Proof.
  intros Hf Hg Hm Hinv Hrun.
  assert (Hgen : forall (c0 : check) (out : bool) g n m, get_graph E B (Some f) a st = Ok (g, n, m) ->
     finish rest c0 a (Some (g, n)) (if out then store_outlier st (Some (g, n)) m else store_other st (Some (g, n)) m) = Ok (u, st') ->
     (forall g, u = Some g -> (a_k a <= snd g)%nat /\ exists mt, built_from E B f mo (ks ++ [a_k a]) g mt) /\
     inv f mo (ks ++ [a_k a]) st' /\ stored_ge st st').
  { intros c0 out g n m Hget Hfin. unfold finish in Hfin. destruct (rest c0 a (Some (g, n))); [|discriminate]. injection Hfin as <- <-.
    destruct (store_step f mo ks a st g n m out Hg Hm Hinv Hget) as (Hk & Hb & Hi & Hge).
    split; auto. intros g' Heq. injection Heq as <-. auto. }
  assert (Hks : forall k, In k ks -> In k (ks ++ [a_k a])) by (intros; apply in_or_app; auto).
  destruct c; cbn [run_check] in Hrun; rewrite ?Hf in Hrun; cbn [is_some orb andb negb] in Hrun.
  - destruct (get_graph E B (Some f) a st) as [[[g n] m]|] eqn:Hget; cbn [rbind] in Hrun; [|discriminate]. apply (Hgen Outlier true g n m); auto.
  - destruct (get_graph E B (Some f) a st) as [[[g n] m]|] eqn:Hget; cbn [rbind] in Hrun; [|discriminate]. apply (Hgen NearDuplicate false g n m); auto.
  - destruct (get_graph E B (Some f) a st) as [[[g n] m]|] eqn:Hget; cbn [rbind] in Hrun; [|discriminate].
    rewrite andb_false_r in Hrun. cbn [andb] in Hrun. apply (Hgen NonIid false g n m); auto.
  - destruct (a_cluster_ids a).
    + unfold finish in Hrun. destruct (rest Underperforming a None); [|discriminate]. cbn [store_other] in Hrun. injection Hrun as <- <-.
      split; [discriminate|]. split; [eapply inv_mono; eauto|apply stored_ge_refl].
    + destruct (get_graph E B (Some f) a st) as [[[g n] m]|] eqn:Hget; cbn [rbind] in Hrun; [|discriminate]. apply (Hgen Underperforming false g n m); auto.
  - destruct (get_graph E B (Some f) a st) as [[[g n] m]|] eqn:Hget; cbn [rbind] in Hrun; [|discriminate].
    destruct (Nat.ltb n (a_k a)); [discriminate|]. apply (Hgen DataValuation false g n m); auto.
Qed.

Lemma run_same f mo cs : forall ks st, same_inputs f mo cs -> inv f mo ks st ->
  (forall i c a g, nth_error cs i = Some (c, a) -> nth_error (fst (run_checks E B rest cs st)) i = Some (Ok (Some g)) ->
     (a_k a <= snd g)%nat /\ exists mt, built_from E B f mo (ks ++ map (fun ca => a_k (snd ca)) (firstn (S i) cs)) g mt) /\
  inv f mo (ks ++ map (fun ca => a_k (snd ca)) cs) (snd (run_checks E B rest cs st)) /\
  stored_ge st (snd (run_checks E B rest cs st)).
Proof.
  induction cs as [|[c a] cs IH]; intros ks st Hs Hinv.
  - cbn. split; [intros [|i]; discriminate|]. rewrite app_nil_r. split; auto. apply stored_ge_refl.
  - rewrite run_checks_cons. cbn [fst snd].
    destruct (Hs c a (or_introl eq_refl)) as (Hf & Hg & Hm).
    assert (Hs' : same_inputs f mo cs) by (intros c' a' H; apply (Hs c' a'); right; auto).
    set (st1 := match run_check E B rest c a st with Ok (_, s) => s | Raise _ => st end).
    assert (Hstep : (forall g, match run_check E B rest c a st with Ok (u, _) => u = Some g | Raise _ => False end ->
                       (a_k a <= snd g)%nat /\ exists mt, built_from E B f mo (ks ++ [a_k a]) g mt) /\
              inv f mo (ks ++ [a_k a]) st1 /\ stored_ge st st1).
    { unfold st1. destruct (run_check E B rest c a st) as [[u s]|e] eqn:Hrun.
      - eapply run_check_same; eauto.
      - split; [contradiction|]. split; [|apply stored_ge_refl]. eapply inv_mono; [|exact Hinv]. intros; apply in_or_app; auto. }
    destruct Hstep as (H1 & H2 & H3).
    destruct (IH (ks ++ [a_k a]) st1 Hs' H2) as (I1 & I2 & I3).
    split; [|split].
    + intros [|i] c' a' g Hn Ho.
      * cbn [nth_error] in *. injection Hn as <- <-. cbn [firstn map snd].
        apply H1. destruct (run_check E B rest c a st) as [[u s]|e]; congruence.
      * cbn [nth_error] in *. specialize (I1 i c' a' g Hn Ho). rewrite <- app_assoc in I1. exact I1.
    + rewrite <- app_assoc in I2. exact I2.
    + eapply stored_ge_trans; eauto.
Qed.

Lemma inv_empty f mo : inv f mo [] empty_store.
Proof. left. auto. Qed.

Lemma one_graph_used f mo cs i c a g : same_inputs f mo cs -> nth_error cs i = Some (c, a) ->
  nth_error (fst (run_checks E B rest cs empty_store)) i = Some (Ok (Some g)) ->
  (a_k a <= snd g)%nat /\ exists mt, built_from E B f mo (map (fun ca => a_k (snd ca)) (firstn (S i) cs)) g mt.
Proof. intros Hs Hn Ho. exact (proj1 (run_same f mo cs [] empty_store Hs (inv_empty f mo)) i c a g Hn Ho). Qed.

Lemma one_graph_stored f mo cs g : same_inputs f mo cs ->
  s_graph (snd (run_checks E B rest cs empty_store)) = Some g ->
  exists mt, s_metric (snd (run_checks E B rest cs empty_store)) = Some mt /\
    built_from E B f mo (map (fun ca => a_k (snd ca)) cs) g mt.
Proof.
  intros Hs Hg. destruct (run_same f mo cs [] empty_store Hs (inv_empty f mo)) as (_ & [[H _]|(g0 & mt & H1 & H2 & H3)] & _); [congruence|].
  exists mt. split; auto. replace g with g0 by congruence. exact H3.
Qed.

Lemma one_graph_grows f mo cs1 cs2 g n : same_inputs f mo (cs1 ++ cs2) ->
  s_graph (snd (run_checks E B rest cs1 empty_store)) = Some (g, n) ->
  exists g' n', s_graph (snd (run_checks E B rest (cs1 ++ cs2) empty_store)) = Some (g', n') /\
    (n <= n')%nat /\ (g' = g \/ (n < n')%nat).
Proof.
  intros Hs Hg. rewrite run_checks_app. cbn [snd].
  assert (same_inputs f mo cs1 /\ same_inputs f mo cs2) as [Hs1 Hs2].
  { split; intros c a H; apply (Hs c a); apply in_or_app; auto. }
  pose proof (proj1 (proj2 (run_same f mo cs1 [] empty_store Hs1 (inv_empty f mo)))) as Hinv.
  exact (proj2 (proj2 (run_same f mo cs2 _ _ Hs2 Hinv)) g n Hg).
Qed.

(** a graph given by the user *)
Lemma provided_used c a st u st' G : a_graph a = Some G -> a_metric a = None ->
  run_check E B rest c a st = Ok (u, st') -> u = Some G \/ (u = None /\ c = Underperforming /\ a_cluster_ids a = true).
Proof.
  intros Hg Hm Hrun. destruct G as [g0 n0].
  assert (Hget : forall f, get_graph E B f a st = Ok (g0, n0, None)).
  { intros f. unfold get_graph, set_knn_graph. rewrite Hg, Hm. reflexivity. }
  assert (Hk : knn_exists a st = true) by (unfold knn_exists; rewrite Hg; reflexivity).
  assert (Hfin : forall c0 st0, finish rest c0 a (Some (g0, n0)) st0 = Ok (u, st') -> u = Some (g0, n0)).
  { intros c0 st0. unfold finish. destruct (rest c0 a (Some (g0, n0))); [|discriminate]. intros H; injection H as <- _; auto. }
  destruct c; cbn [run_check] in Hrun; rewrite ?Hk, ?orb_true_r, ?Hget in Hrun; cbn [rbind] in Hrun.
  - left; eapply Hfin; eauto.
  - left; eapply Hfin; eauto.
  - left; eapply Hfin; eauto.
  - destruct (a_cluster_ids a).
    + right. unfold finish in Hrun. destruct (rest Underperforming a None); [|discriminate]. injection Hrun as <- _. auto.
    + rewrite ?Hget in Hrun. cbn [rbind] in Hrun. left; eapply Hfin; eauto.
  - destruct (Nat.ltb n0 (a_k a)); [discriminate|]. left; eapply Hfin; eauto.
Qed.

Lemma provided_kept c a st old G : a_graph a = Some G -> a_metric a = None -> s_graph st = Some old -> s_metric st = None ->
  (length (fst (fst G)) * snd G <= length (fst (fst old)) * snd old)%nat ->
  match run_check E B rest c a st with Ok (_, st') => st' = st | Raise _ => True end.
Proof.
  intros Hg Hm Hs Hn HL. destruct G as [g0 n0]. destruct st as [sg sm]. cbn in Hs, Hn. subst sg sm.
  assert (Hget : forall f, get_graph E B f a (Store (Some old) None) = Ok (g0, n0, None)).
  { intros f. unfold get_graph, set_knn_graph. rewrite Hg, Hm. reflexivity. }
  assert (Hk : knn_exists a (Store (Some old) None) = true) by (unfold knn_exists; rewrite Hg; reflexivity).
  assert (Hp : prefer_new_graph (Store (Some old) None) (Some (g0, n0)) None = false).
  { unfold prefer_new_graph. cbn [s_graph s_metric metric_differs]. rewrite orb_false_r. apply Nat.ltb_ge. exact HL. }
  assert (H1 : store_outlier (Store (Some old) None) (Some (g0, n0)) None = Store (Some old) None) by (unfold store_outlier; now rewrite Hp).
  assert (H2 : store_other (Store (Some old) None) (Some (g0, n0)) None = Store (Some old) None) by (unfold store_other; now rewrite Hp).
  destruct c; cbn [run_check]; rewrite ?Hk, ?orb_true_r, ?Hget; cbn [rbind negb andb]; rewrite ?H1, ?H2;
    try destruct (a_cluster_ids a); try destruct (Nat.ltb n0 (a_k a)); rewrite ?Hget; cbn [rbind]; rewrite ?H2; unfold finish;
    repeat match goal with |- context [if ?b then _ else _] => destruct b end; auto.
Qed.
Lemma provided_kept_all cs st old G : (forall c a, In (c, a) cs -> a_graph a = Some G /\ a_metric a = None) -> s_graph st = Some old -> s_metric st = None ->
  (length (fst (fst G)) * snd G <= length (fst (fst old)) * snd old)%nat -> snd (run_checks E B rest cs st) = st.
Proof.
  intros Hc Hs Hn HL. induction cs as [|[c a] cs IH]; [reflexivity|]. cbn [run_checks].
  destruct (Hc c a (or_introl eq_refl)) as (Hg & Hm). pose proof (provided_kept c a st old G Hg Hm Hs Hn HL) as Hk.
  assert (IH' : snd (run_checks E B rest cs st) = st) by (apply IH; intros c' a' H'; apply (Hc c' a'); now right).
  destruct (run_check E B rest c a st) as [[u st']|x]; [subst st'|]; destruct (run_checks E B rest cs st) as [outs st2]; exact IH'.
Qed.

Lemma provided_all cs st i c a G u : (forall c a, In (c, a) cs -> a_graph a = Some G /\ a_metric a = None) ->
  nth_error cs i = Some (c, a) -> nth_error (fst (run_checks E B rest cs st)) i = Some (Ok u) ->
  u = Some G \/ (u = None /\ c = Underperforming /\ a_cluster_ids a = true).
Proof.
  revert st i. induction cs as [|[c0 a0] cs IH]; intros st i Hall Hn Ho; [destruct i; discriminate|].
  rewrite run_checks_cons in Ho. cbn [fst] in Ho. destruct i as [|i]; cbn [nth_error] in *.
  - injection Hn as -> ->. destruct (Hall c a (or_introl eq_refl)) as [H1 H2].
    destruct (run_check E B rest c a st) as [[u0 s]|e] eqn:Hrun; [|discriminate]. injection Ho as ->. eapply provided_used; eauto.
  - eapply IH; eauto. intros c' a' H. apply (Hall c' a'). right; auto.
Qed.

(** without features and graphs nothing is stored *)
Lemma pred_probs_step c a st u st' : a_features a = None -> a_graph a = None -> s_graph st = None ->
  run_check E B rest c a st = Ok (u, st') -> s_graph st' = None.
Proof.
  intros Hf Hg Hs Hrun.
  assert (Hk : knn_exists a st = false) by (unfold knn_exists; rewrite Hg, Hs; reflexivity).
  assert (Hget : get_graph E B None a st = Raise AssertionError) by (unfold get_graph, set_knn_graph; rewrite Hg, Hs; reflexivity).
  destruct c; cbn [run_check] in Hrun; rewrite ?Hf, ?Hk in Hrun; cbn [is_some orb andb negb] in Hrun; rewrite ?Hget in Hrun; try discriminate.
  - destruct (a_pred_probs a); [|discriminate]. unfold finish in Hrun. destruct (rest Outlier a None); [|discriminate]. injection Hrun as _ <-.
    unfold store_outlier. cbn. destruct (prefer_new_graph st None (a_metric a)); auto.
  - destruct (a_pred_probs a) as [p|]; [|rewrite Hget in Hrun; discriminate]. cbn [is_some] in Hrun.
    destruct (get_graph E B (Some p) a st) as [[[g n] m]|]; cbn [rbind] in Hrun; [|discriminate].
    unfold finish in Hrun. destruct (rest NonIid a _); [|discriminate]. injection Hrun as _ <-. auto.
  - destruct (a_cluster_ids a); [|rewrite ?Hget in Hrun; discriminate].
    unfold finish in Hrun. destruct (rest Underperforming a None); [|discriminate]. injection Hrun as _ <-. auto.
Qed.

Lemma pred_probs_not_stored cs st : (forall c a, In (c, a) cs -> a_features a = None /\ a_graph a = None) ->
  s_graph st = None -> s_graph (snd (run_checks E B rest cs st)) = None.
Proof.
  revert st. induction cs as [|[c a] cs IH]; intros st Hall Hs; [exact Hs|].
  rewrite run_checks_cons. cbn [snd]. apply IH; [intros c' a' H; apply (Hall c' a'); right; auto|].
  destruct (run_check E B rest c a st) as [[u s]|e] eqn:Hrun; auto.
  destruct (Hall c a (or_introl eq_refl)). eapply pred_probs_step; eauto.
Qed.
End Run.
