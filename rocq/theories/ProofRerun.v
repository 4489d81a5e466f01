(** * Proofs about repeating checks (C148) *)
From Coq Require Import QArith List Bool Arith Permutation Lia.
From Verif Require Import Base BaseFacts ModelKnn ModelGraph SpecGraph ProofGraph SpecRerun.
Import ListNotations.
Open Scope nat_scope.

Section R.
Context (E : env) (B : backend) (rest : check -> args -> option (graph * nat) -> bool).

Definition holds (G : graph * nat) (mt : metric) (st : store) := s_graph st = Some G /\ s_metric st = Some mt.

Lemma stored_graph f a G mt mo st : holds G mt st -> (mo = None \/ mo = Some mt) -> a_graph a = None -> a_metric a = mo ->
  a_k a <= snd G -> get_graph E B f a st = Ok (fst G, snd G, mo).
Proof.
  intros (H1 & H2) HM HG HA HK. unfold get_graph, set_knn_graph. rewrite HG, HA, H1, H2. cbn [process_knn_graph_from_inputs]. destruct G as [g n]. cbn [fst snd] in *.
  destruct (Nat.ltb_spec n (a_k a)); [lia|]. destruct HM as [-> | ->]; [reflexivity|]. rewrite metric_eqb_refl. reflexivity.
Qed.
Lemma store_same_outlier G mt mo st : holds G mt st -> (mo = None \/ mo = Some mt) -> store_outlier st (Some G) mo = st.
Proof. intros (H1 & H2) HM. unfold store_outlier. rewrite H1. destruct st as [sg sm]. cbn [s_graph s_metric] in *. subst. destruct (prefer_new_graph _ _ _), HM as [-> | ->]; reflexivity. Qed.
Lemma store_same_other G mt mo st : holds G mt st -> (mo = None \/ mo = Some mt) -> store_other st (Some G) mo = st.
Proof. intros (H1 & H2) HM. unfold store_other. destruct st as [sg sm]. cbn [s_graph s_metric] in *. subst. destruct (prefer_new_graph _ _ _), HM as [-> | ->]; reflexivity. Qed.
Lemma settled_check f c a G mt mo st : holds G mt st -> (mo = None \/ mo = Some mt) -> a_features a = Some f -> a_graph a = None -> a_metric a = mo ->
  a_k a <= snd G -> run_check E B rest c a st = match outcome_on rest G (c, a) with Ok u => Ok (u, st) | Raise e => Raise e end.
Proof.
  intros HS HM HF HG HA HK. unfold run_check, outcome_on. cbn [fst snd].
  assert (GG : forall f, get_graph E B f a st = Ok (fst G, snd G, mo)) by (intros; eapply stored_graph; eauto).
  assert (EG : (fst G, snd G) = G) by (destruct G; auto).
  destruct c.
  - rewrite HF. cbn [is_some orb]. rewrite GG. cbn [rbind]. rewrite EG, (store_same_outlier G mt mo st HS HM). unfold finish. destruct (rest _ _ _); reflexivity.
  - rewrite GG. cbn [rbind]. rewrite EG, (store_same_other G mt mo st HS HM). unfold finish. destruct (rest _ _ _); reflexivity.
  - rewrite GG. cbn [rbind]. rewrite EG, (store_same_other G mt mo st HS HM). unfold finish. destruct (_ && _)%bool; destruct (rest _ _ _); reflexivity.
  - destruct (a_cluster_ids a).
    + unfold finish, store_other. destruct (rest _ _ _); reflexivity.
    + rewrite GG. cbn [rbind]. rewrite EG, (store_same_other G mt mo st HS HM). unfold finish. destruct (rest _ _ _); reflexivity.
  - rewrite GG. cbn [rbind]. destruct (Nat.ltb_spec (snd G) (a_k a)); [lia|]. rewrite EG, (store_same_other G mt mo st HS HM). unfold finish. destruct (rest _ _ _); reflexivity.
Qed.
Lemma settled f mo cs G mt st : holds G mt st -> (mo = None \/ mo = Some mt) -> same_inputs f mo cs -> at_most (snd G) cs ->
  run_checks E B rest cs st = (map (outcome_on rest G) cs, st).
Proof.
  intros HS HM. induction cs as [|[c a] cs IH]; intros HI HK; [reflexivity|].
  rewrite run_checks_cons. destruct (HI c a (or_introl eq_refl)) as (H1 & H2 & H3).
  rewrite (settled_check f c a G mt mo st); auto; [|apply HK with c; left; auto].
  assert (R : run_checks E B rest cs st = (map (outcome_on rest G) cs, st)).
  { apply IH; [intros c' a' H; apply (HI c' a'); right; auto|intros c' a' H; apply (HK c' a'); right; auto]. }
  cbn [map]. destruct (outcome_on rest G (c, a)); rewrite R; reflexivity.
Qed.
Lemma first_settles f mo c a cs G st1 : same_inputs f mo ((c, a) :: cs) -> (c = NonIid -> a_features a = Some f) ->
  run_check E B rest c a empty_store = Ok (Some G, st1) ->
  exists mt, holds G mt st1 /\ (mo = None \/ mo = Some mt) /\ a_k a <= snd G /\ outcome_on rest G (c, a) = Ok (Some G).
Proof.
  intros HI _ H. destruct (HI c a (or_introl eq_refl)) as (H1 & H2 & H3).
  assert (GG : forall g n m, get_graph E B (Some f) a empty_store = Ok (g, n, m) ->
    exists mt, m = Some mt /\ (mo = None \/ mo = Some mt) /\ a_k a <= n).
  { intros g n m Hg. destruct (get_graph_same E B f a empty_store g n m mo H2 H3) as [(X & _)|(_ & mt & -> & Hc)]; auto; [destruct mo; cbn; auto|discriminate|].
    exists mt. split; [reflexivity|]. destruct (create_metric E B _ _ _ _ _ _ Hc) as (A & A2 & _). split; [|exact A2]. destruct mo; [right; congruence|auto]. }
  unfold run_check in H. unfold outcome_on. cbn [fst snd]. rewrite H1 in H.
  destruct c; cbn [is_some orb andb negb] in H.
  - destruct (get_graph E B (Some f) a empty_store) as [[[g n] m]|] eqn:Eg; [|discriminate]. cbn [rbind] in H. unfold finish in H.
    destruct (rest Outlier a (Some (g, n))) eqn:Er; [|discriminate]. injection H as <- <-. destruct (GG g n m eq_refl) as (mt & -> & A & A2). exists mt. rewrite Er. cbn. unfold holds. auto.
  - destruct (get_graph E B (Some f) a empty_store) as [[[g n] m]|] eqn:Eg; [|discriminate]. cbn [rbind] in H. unfold finish in H.
    destruct (rest NearDuplicate a (Some (g, n))) eqn:Er; [|discriminate]. injection H as <- <-. destruct (GG g n m eq_refl) as (mt & -> & A & A2). exists mt. rewrite Er. cbn. unfold holds. auto.
  - destruct (get_graph E B (Some f) a empty_store) as [[[g n] m]|] eqn:Eg; [|discriminate]. cbn [rbind] in H. unfold finish in H.
    destruct (rest NonIid a (Some (g, n))) eqn:Er; [|discriminate]. rewrite andb_false_r in H. cbn [andb] in H. injection H as <- <-. destruct (GG g n m eq_refl) as (mt & -> & A & A2). exists mt. rewrite Er. cbn. unfold holds. auto.
  - destruct (a_cluster_ids a); [unfold finish in H; destruct (rest _ _ _); discriminate|].
    destruct (get_graph E B (Some f) a empty_store) as [[[g n] m]|] eqn:Eg; [|discriminate]. cbn [rbind] in H. unfold finish in H.
    destruct (rest Underperforming a (Some (g, n))) eqn:Er; [|discriminate]. injection H as <- <-. destruct (GG g n m eq_refl) as (mt & -> & A & A2). exists mt. rewrite Er. cbn. unfold holds. auto.
  - destruct (get_graph E B (Some f) a empty_store) as [[[g n] m]|] eqn:Eg; [|discriminate]. cbn [rbind] in H. destruct (Nat.ltb n (a_k a)); [discriminate|]. unfold finish in H.
    destruct (rest DataValuation a (Some (g, n))) eqn:Er; [|discriminate]. injection H as <- <-. destruct (GG g n m eq_refl) as (mt & -> & A & A2). exists mt. rewrite Er. cbn. unfold holds. auto.
Qed.
Lemma first_run f mo c a cs G st1 : same_inputs f mo ((c, a) :: cs) -> at_most (a_k a) cs ->
  run_check E B rest c a empty_store = Ok (Some G, st1) ->
  run_checks E B rest ((c, a) :: cs) empty_store = (map (outcome_on rest G) ((c, a) :: cs), st1) /\
  run_checks E B rest ((c, a) :: cs) st1 = (map (outcome_on rest G) ((c, a) :: cs), st1).
Proof.
  intros HI HK H. destruct (first_settles f mo c a cs G st1 HI) as (mt & HS & HM & HG & HO); auto; [intros; apply (HI c a (or_introl eq_refl))|].
  assert (K : at_most (snd G) cs) by (intros c' a' Hin; specialize (HK c' a' Hin); lia).
  split.
  - rewrite run_checks_cons, H. rewrite (settled f mo cs G mt st1); auto; [|intros c' a' Hin; apply (HI c' a'); right; auto]. cbn [map fst snd]. rewrite HO. reflexivity.
  - apply (settled f mo _ G mt); auto. intros c' a' [X|X]; [injection X as <- <-; auto|eauto].
Qed.
Lemma rerun f mo c a cs G st1 n : same_inputs f mo ((c, a) :: cs) -> at_most (a_k a) cs ->
  run_check E B rest c a empty_store = Ok (Some G, st1) ->
  run_checks E B rest (again (S n) ((c, a) :: cs)) empty_store =
  (again (S n) (fst (run_checks E B rest ((c, a) :: cs) empty_store)), snd (run_checks E B rest ((c, a) :: cs) empty_store)).
Proof.
  intros HI HK H. destruct (first_run f mo c a cs G st1 HI HK H) as (R1 & R2).
  assert (L : forall n, run_checks E B rest (again n ((c, a) :: cs)) st1 = (again n (map (outcome_on rest G) ((c, a) :: cs)), st1)).
  { induction n0 as [|m IH]; [reflexivity|]. cbn [again]. rewrite run_checks_app, R2. cbn [fst snd]. rewrite IH. reflexivity. }
  cbn [again]. rewrite run_checks_app, R1. cbn [fst snd]. rewrite L. reflexivity.
Qed.
Lemma any_order f mo c a cs cs' G st1 : same_inputs f mo ((c, a) :: cs) -> at_most (a_k a) cs -> Permutation cs cs' ->
  run_check E B rest c a empty_store = Ok (Some G, st1) ->
  snd (run_checks E B rest ((c, a) :: cs') empty_store) = snd (run_checks E B rest ((c, a) :: cs) empty_store) /\
  Permutation (combine cs (tl (fst (run_checks E B rest ((c, a) :: cs) empty_store))))
              (combine cs' (tl (fst (run_checks E B rest ((c, a) :: cs') empty_store)))).
Proof.
  intros HI HK HP H. destruct (first_run f mo c a cs G st1 HI HK H) as (R1 & _).
  destruct (first_run f mo c a cs' G st1) as (R2 & _); auto.
  - intros c' a' [X|X]; apply (HI c' a'); [left; auto|right; eapply Permutation_in; [symmetry; exact HP|auto]].
  - intros c' a' X. apply (HK c' a'). eapply Permutation_in; [symmetry; exact HP|auto].
  - rewrite R1, R2. cbn [fst snd map tl]. split; [reflexivity|].
    assert (C : forall l, combine l (map (outcome_on rest G) l) = map (fun x => (x, outcome_on rest G x)) l) by (induction l; cbn; congruence).
    rewrite !C. apply Permutation_map. exact HP.
Qed.
Lemma alone f mo c a cs G st1 i c' a' : same_inputs f mo ((c, a) :: cs) -> at_most (a_k a) cs ->
  run_check E B rest c a empty_store = Ok (Some G, st1) -> nth_error cs i = Some (c', a') ->
  nth_error (fst (run_checks E B rest ((c, a) :: cs) empty_store)) (S i) =
  nth_error (fst (run_checks E B rest [(c, a); (c', a')] empty_store)) 1.
Proof.
  intros HI HK H Hn. destruct (first_run f mo c a cs G st1 HI HK H) as (R1 & _). apply nth_error_In in Hn as Hin.
  destruct (first_run f mo c a [(c', a')] G st1) as (R2 & _); auto.
  - intros x y [X|[X|[]]]; apply (HI x y); [left; auto|right; congruence].
  - intros x y [X|[]]. apply (HK x y). congruence.
  - rewrite R1, R2. cbn [fst map nth_error]. rewrite nth_error_map, Hn. reflexivity.
Qed.
End R.
