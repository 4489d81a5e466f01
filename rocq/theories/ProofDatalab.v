(** * Proofs about Datalab's tables *)
From Coq Require Import String QArith List Bool Arith Lia Permutation.
From Verif Require Import Base BaseFacts ModelDatalab SpecDatalab.
Import ListNotations.
Open Scope string_scope.
Open Scope list_scope.

(** ** strings *)
Lemma length_append (a b : string) : String.length (a ++ b) = (String.length a + String.length b)%nat.
Proof. induction a; cbn; [reflexivity|]. now rewrite IHa. Qed.
Lemma append_inj (a b s s' : string) : (a ++ s = b ++ s')%string -> String.length s = String.length s' -> a = b /\ s = s'.
Proof.
  revert b. induction a as [|c a IH]; intros [|c' b] H L.
  - auto.
  - exfalso. cbn [append] in H. subst s. cbn in L. rewrite length_append in L. lia.
  - exfalso. cbn [append] in H. subst s'. cbn in L. rewrite length_append in L. lia.
  - cbn in H. injection H as -> H. destruct (IH _ H L) as (-> & ->). auto.
Qed.
Lemma flag_column_inj a b : flag_column a = flag_column b -> a = b.
Proof.
  unfold flag_column. intros H. cbn in H. injection H as H. now destruct (append_inj _ _ _ _ H eq_refl).
Qed.
Lemma score_column_inj a b : score_column a = score_column b -> a = b.
Proof. unfold score_column. intros H. now destruct (append_inj _ _ _ _ H eq_refl). Qed.
Lemma flag_score_neq a b : flag_column a <> score_column b.
Proof.
  unfold flag_column, score_column. intros H.
  assert (H' : (("is_" ++ a) ++ "_issue" = b ++ "_score")%string) by exact H.
  destruct (append_inj _ _ _ _ H' eq_refl) as (_ & H2). discriminate.
Qed.

(** ** dictionaries *)
Lemma lookup_app {A} k (a b : list (string * A)) :
  lookup k (a ++ b) = match lookup k a with Some v => Some v | None => lookup k b end.
Proof. induction a as [|[k' v] a IH]; cbn; [reflexivity|]. now destruct (String.eqb k k'). Qed.
Lemma lookup_filter_key {A} (P : string -> bool) k (d : list (string * A)) :
  lookup k (filter (fun c => P (fst c)) d) = if P k then lookup k d else None.
Proof.
  induction d as [|[k' v] d IH]; cbn; [now destruct (P k)|].
  destruct (String.eqb_spec k k') as [->|Hn].
  - destruct (P k') eqn:E; cbn; [now rewrite String.eqb_refl|]. exact IH.
  - destruct (P k'); cbn; [rewrite (proj2 (String.eqb_neq k k') Hn)|]; exact IH.
Qed.
Lemma lookup_map_val {A B} (f : A -> B) k (d : list (string * A)) :
  lookup k (map (fun c => (fst c, f (snd c))) d) = option_map f (lookup k d).
Proof. induction d as [|[k' v] d IH]; cbn; [reflexivity|]. now destruct (String.eqb k k'). Qed.
Lemma smem_iff k l : smem k l = true <-> In k l.
Proof.
  unfold smem. rewrite existsb_exists. split.
  - intros (x & H & E). apply String.eqb_eq in E. now subst.
  - intros H. exists k. split; [auto|apply String.eqb_refl].
Qed.
Lemma smem_false k l : smem k l = false <-> ~ In k l.
Proof. rewrite <- smem_iff. now destruct (smem k l). Qed.
Lemma lookup_in {A} k v (d : list (string * A)) : lookup k d = Some v -> In (k, v) d.
Proof.
  induction d as [|[k' v'] d IH]; cbn; [discriminate|]. destruct (String.eqb_spec k k') as [->|].
  - intros H. left. congruence.
  - auto.
Qed.
Lemma lookup_none {A} k (d : list (string * A)) : lookup k d = None <-> ~ In k (keys d).
Proof.
  induction d as [|[k' v'] d IH]; cbn; [tauto|]. destruct (String.eqb_spec k k') as [->|].
  - split; [discriminate|]. intros H. exfalso. auto.
  - rewrite IH. intuition congruence.
Qed.
Lemma lookup_NoDup {A} k v (d : list (string * A)) : NoDup (keys d) -> In (k, v) d -> lookup k d = Some v.
Proof.
  induction d as [|[k' v'] d IH]; cbn; [tauto|]. intros H [E|Hi]; inversion H; subst.
  - injection E as -> ->. now rewrite String.eqb_refl.
  - destruct (String.eqb_spec k k') as [->|]; [|auto].
    exfalso. apply H2. change k' with (fst (k', v)). now apply in_map.
Qed.
Lemma lookup_dict_set {A} k k' (v : A) d : lookup k (dict_set k' v d) = if String.eqb k k' then Some v else lookup k d.
Proof.
  induction d as [|[k2 v2] d IH]; cbn.
  - now destruct (String.eqb k k').
  - destruct (String.eqb_spec k' k2) as [->|Hn]; cbn.
    + now destruct (String.eqb k k2).
    + destruct (String.eqb_spec k k2) as [->|]; [|exact IH].
      destruct (String.eqb_spec k2 k') as [->|]; [congruence|reflexivity].
Qed.

Lemma NoDup_app_intro {A} (l l' : list A) : NoDup l -> NoDup l' -> (forall x, In x l -> In x l' -> False) -> NoDup (l ++ l').
Proof.
  induction l as [|x l IH]; intros H H' Hd; cbn; [auto|]. inversion H; subst. constructor.
  - intros Hi. apply in_app_or in Hi. destruct Hi; [auto|]. apply (Hd x); [now left|auto].
  - apply IH; auto. intros y Hy. apply Hd. now right.
Qed.

(** ** histories *)
Section History.
Context {V : Type}.
Implicit Types (st : data_issues V) (stats : list (string * V)) (log : list (string * option (manager_out V))).

Fixpoint lastf (t : string) log : option (manager_out V) :=
  match log with
  | [] => None
  | (t', o) :: r => match lastf t r with
                    | Some out => Some out
                    | None => if String.eqb t t' then o else None
                    end
  end.
Lemma lastf_latest t log : latest t log (lastf t log).
Proof.
  induction log as [|[t' o] log IH]; cbn; [cbn; auto|].
  destruct (lastf t log) as [out|] eqn:E; cbn in *.
  - destruct IH as (a & b & -> & H). exists ((t', o) :: a), b. auto.
  - destruct (String.eqb_spec t t') as [->|Hn].
    + destruct o as [out|].
      * exists [], log. auto.
      * intros out' [H|H]; [discriminate|]. exact (IH _ H).
    + intros out' [H|H]; [|exact (IH _ H)]. injection H as -> ->. congruence.
Qed.
Lemma lastf_app t a b : lastf t (a ++ b) = match lastf t b with Some o => Some o | None => lastf t a end.
Proof.
  induction a as [|[t' o] a IH]; cbn; [now destruct (lastf t b)|]. rewrite IH. now destruct (lastf t b).
Qed.
Lemma lastf_in t log out : lastf t log = Some out -> In (t, Some out) log.
Proof.
  intros H. pose proof (lastf_latest t log) as L. rewrite H in L. cbn in L. destruct L as (a & b & -> & _).
  apply in_or_app. right. now left.
Qed.

Definition tables (n : nat) log st : Prop :=
  d_rows st = n /\ NoDup (map (@r_type) (issue_summary st)) /\
  (forall t r, In r (issue_summary st) /\ r_type r = t <->
     exists out col, lastf t log = Some out /\ flags_of t out = Some col /\ r = Row t (m_score out) (num_true col)) /\
  (forall t, lookup (flag_column t) (issues st) = match lastf t log with Some out => flags_of t out | None => None end) /\
  (forall t, lookup (score_column t) (issues st) = match lastf t log with Some out => scores_of t out | None => None end) /\
  (forall t, lookup t (info st) = option_map m_info (lastf t log)) /\
  (forall c, In c (issues st) -> length (snd c) = n).

Lemma tables_init n stats : tables n [] (init_issues n stats).
Proof.
  unfold tables, init_issues; cbn.
  refine (conj eq_refl (conj _ (conj _ (conj _ (conj _ (conj _ _)))))); auto.
  - constructor.
  - intros t r. split; [tauto|]. intros (out & col & H & _). discriminate.
  - tauto.
Qed.
Lemma tables_health n log st : tables n log st -> tables n log (set_health_score st).
Proof. intros H. exact H. Qed.

Lemma pad_id n c : length c = n -> pad n c = c.
Proof. intros <-. unfold pad. rewrite Nat.sub_diag. apply app_nil_r. Qed.

Lemma summary_filter name (l : list row) :
  (if smem name (map r_type l) then filter (fun r => negb (String.eqb (r_type r) name)) l else l)
  = filter (fun r => negb (String.eqb (r_type r) name)) l.
Proof.
  destruct (smem name (map r_type l)) eqn:E; [reflexivity|]. apply smem_false in E.
  symmetry. induction l as [|r l IH]; cbn; [reflexivity|]. cbn in E.
  destruct (String.eqb_spec (r_type r) name) as [<-|]; cbn; [tauto|]. rewrite IH; auto.
Qed.
Lemma NoDup_filter_map (l : list row) P : NoDup (map r_type l) -> NoDup (map r_type (filter P l)).
Proof.
  induction l as [|r l IH]; cbn; intros H; [constructor|]. inversion H; subst.
  destruct (P r); cbn; auto. constructor; auto. intros Hi. apply H2. apply in_map_iff in Hi as (x & <- & Hx).
  apply filter_In in Hx. now apply in_map.
Qed.

(** one check *)
Lemma tables_step n log st c : tables n log st ->
  (forall out, snd c st = Some out -> well_formed n (fst c) out) ->
  tables n (log ++ [(fst c, snd c st)]) (run_check st c).
Proof.
  destruct c as [name mgr]. cbn [fst snd]. intros (Hn & Hnd & Hsum & Hfl & Hsc & Hin & Hlen) Hwf.
  unfold run_check. cbn [fst snd]. destruct (mgr st) as [out|] eqn:Em.
  - specialize (Hwf _ eq_refl). destruct Hwf as (Hrows & fl & sc & Lf & Ls & Hfr).
    unfold collect_issues, collect_statistics, update_issues. cbn [d_rows issues issue_summary info statistics health_score].
    rewrite summary_filter. rewrite Hfr. cbn [lookup]. rewrite String.eqb_refl. cbn [fst].
    assert (Hlast : forall t, lastf t (log ++ [(name, Some out)]) = if String.eqb t name then Some out else lastf t log).
    { intros t. rewrite lastf_app. cbn. now destruct (String.eqb t name). }
    assert (Hff : flags_of name out = Some (map CFlag fl)).
    { unfold flags_of. rewrite Hfr. cbn. now rewrite String.eqb_refl. }
    assert (Hss : scores_of name out = Some (map CNum sc)).
    { unfold scores_of. rewrite Hfr. cbn [lookup].
      rewrite (proj2 (String.eqb_neq _ _)) by (apply not_eq_sym, flag_score_neq). now rewrite String.eqb_refl. }
    set (kept := filter (fun c => negb (smem (fst c) (keys [(flag_column name, map CFlag fl); (score_column name, map CNum sc)]))) (issues st)).
    assert (Hkept : forall k, lookup k kept = if String.eqb k (flag_column name) || String.eqb k (score_column name) then None else lookup k (issues st)).
    { intros k. unfold kept.
      rewrite (lookup_filter_key (fun x => negb (smem x (keys [(flag_column name, map CFlag fl); (score_column name, map CNum sc)])))).
      cbn. rewrite orb_false_r. now destruct (String.eqb k _ || String.eqb k _). }
    rewrite Hn, Hrows, Nat.max_id.
    assert (Hjoin : join n kept n [(flag_column name, map CFlag fl); (score_column name, map CNum sc)]
                    = kept ++ [(flag_column name, map CFlag fl); (score_column name, map CNum sc)]).
    { unfold join. rewrite Nat.max_id. rewrite <- (map_id (kept ++ _)) at 2. apply map_ext_in. intros [k col] Hi. cbn [fst snd]. apply (f_equal (pair k)).
      apply pad_id. apply in_app_or in Hi. destruct Hi as [Hi|Hi].
      - unfold kept in Hi. apply filter_In in Hi. exact (Hlen _ (proj1 Hi)).
      - destruct Hi as [Hi|[Hi|[]]]; injection Hi as _ <-; now rewrite map_length. }
    rewrite Hjoin. refine (conj eq_refl (conj _ (conj _ (conj _ (conj _ (conj _ _)))))); cbn [issue_summary issues info].
    + rewrite map_app. cbn.
      assert (H := NoDup_filter_map _ (fun r => negb (String.eqb (r_type r) name)) Hnd).
      rewrite <- (rev_involutive (_ ++ [name])). apply NoDup_rev. rewrite rev_app_distr. cbn. constructor.
      * rewrite <- in_rev. intros Hi. apply in_map_iff in Hi as (r & E & Hi). apply filter_In in Hi as (_ & Hi).
        rewrite E, String.eqb_refl in Hi. discriminate.
      * now apply NoDup_rev.
    + intros t r. rewrite Hlast. split.
      * intros (Hi & Ht). apply in_app_or in Hi. destruct Hi as [Hi|[<-|[]]].
        -- apply filter_In in Hi as (Hi & E). rewrite Ht in E. destruct (String.eqb t name); [discriminate|].
           apply Hsum. auto.
        -- cbn in Ht. subst t. rewrite String.eqb_refl. exists out, (map CFlag fl). auto.
      * intros (o & col & E & Hf & ->). cbn. split; [|reflexivity]. apply in_or_app.
        destruct (String.eqb_spec t name) as [->|Hne].
        -- right. left. injection E as <-. rewrite Hff in Hf. injection Hf as <-. reflexivity.
        -- left. apply filter_In. cbn. rewrite (proj2 (String.eqb_neq _ _) Hne). split; [|reflexivity].
           apply (proj2 (Hsum t _)). exists o, col. auto.
    + intros t. rewrite lookup_app, Hkept, Hlast. destruct (String.eqb_spec t name) as [->|Hne].
      * rewrite String.eqb_refl. cbn. now rewrite String.eqb_refl, Hff.
      * rewrite (proj2 (String.eqb_neq (flag_column t) (flag_column name))) by (intros H; apply flag_column_inj in H; auto).
        rewrite (proj2 (String.eqb_neq (flag_column t) (score_column name))) by apply flag_score_neq. cbn [orb].
        rewrite Hfl. destruct (match lastf t log with Some o => flags_of t o | None => None end); [reflexivity|].
        cbn [lookup]. rewrite (proj2 (String.eqb_neq (flag_column t) (flag_column name))) by (intros H; apply flag_column_inj in H; auto).
        now rewrite (proj2 (String.eqb_neq (flag_column t) (score_column name))) by apply flag_score_neq.
    + intros t. rewrite lookup_app, Hkept, Hlast. destruct (String.eqb_spec t name) as [->|Hne].
      * rewrite String.eqb_refl, orb_true_r. cbn [lookup].
        rewrite (proj2 (String.eqb_neq (score_column name) (flag_column name))) by (apply not_eq_sym, flag_score_neq).
        now rewrite String.eqb_refl, Hss.
      * assert (E1 : String.eqb (score_column t) (flag_column name) = false) by (apply String.eqb_neq, not_eq_sym, flag_score_neq).
        assert (E2 : String.eqb (score_column t) (score_column name) = false) by (apply String.eqb_neq; intros H; apply score_column_inj in H; auto).
        rewrite E1, E2. cbn [orb]. rewrite Hsc.
        destruct (match lastf t log with Some o => scores_of t o | None => None end); [reflexivity|].
        cbn [lookup]. now rewrite E1, E2.
    + intros t. rewrite lookup_dict_set, Hlast. destruct (String.eqb t name); [reflexivity|apply Hin].
    + intros c Hi. apply in_app_or in Hi. destruct Hi as [Hi|Hi].
      * unfold kept in Hi. apply filter_In in Hi. exact (Hlen _ (proj1 Hi)).
      * destruct Hi as [<-|[<-|[]]]; cbn; now rewrite map_length.
  - assert (Hlast : forall t, lastf t (log ++ [(name, None)]) = lastf t log).
    { intros t. rewrite lastf_app. cbn. now destruct (String.eqb t name). }
    unfold tables. setoid_rewrite Hlast. refine (conj Hn (conj Hnd (conj Hsum (conj Hfl (conj Hsc (conj Hin Hlen)))))).
Qed.

(** ** whole histories *)
Lemma tables_checks n cs : forall log st, tables n log st -> well_formed_log n (outcomes st cs) ->
  tables n (log ++ outcomes st cs) (fold_left run_check cs st).
Proof.
  induction cs as [|c cs IH]; intros log st H Hwf; cbn [outcomes fold_left].
  - now rewrite app_nil_r.
  - replace (log ++ (fst c, snd c st) :: outcomes (run_check st c) cs)
      with ((log ++ [(fst c, snd c st)]) ++ outcomes (run_check st c) cs) by now rewrite <- app_assoc.
    apply IH.
    + apply tables_step; [auto|]. intros out E. apply Hwf. cbn. left. now rewrite E.
    + intros t out Hi. apply Hwf. cbn. now right.
Qed.
Lemma tables_find n log st cs : tables n log st -> well_formed_log n (outcomes st cs) ->
  tables n (log ++ outcomes st cs) (find_issues st cs).
Proof.
  intros H Hwf. unfold find_issues. destruct cs as [|c cs]; [cbn; now rewrite app_nil_r|].
  apply tables_health. now apply tables_checks.
Qed.
Lemma tables_history n h : forall log st, tables n log st -> well_formed_log n (all_outcomes st h) ->
  tables n (log ++ all_outcomes st h) (fold_left find_issues h st).
Proof.
  induction h as [|cs h IH]; intros log st H Hwf; cbn [all_outcomes fold_left].
  - now rewrite app_nil_r.
  - rewrite app_assoc. apply IH.
    + apply tables_find; [auto|]. intros t out Hi. apply Hwf. cbn. apply in_or_app. now left.
    + intros t out Hi. apply Hwf. cbn. apply in_or_app. now right.
Qed.
Lemma audit_tables n stats h : well_formed_log n (all_outcomes (init_issues n stats) h) ->
  tables n (all_outcomes (init_issues n stats) h) (audit n stats h).
Proof. intros H. exact (tables_history n h [] _ (tables_init n stats) H). Qed.

Lemma latest_lastf t log o : latest t log o -> lastf t log = o.
Proof.
  destruct o as [out|]; cbn.
  - intros (a & b & -> & H). rewrite lastf_app. cbn. destruct (lastf t b) as [o'|] eqn:E.
    + exfalso. exact (H _ (lastf_in _ _ _ E)).
    + now rewrite String.eqb_refl.
  - intros H. destruct (lastf t log) as [o'|] eqn:E; [|reflexivity]. exfalso. exact (H _ (lastf_in _ _ _ E)).
Qed.

Lemma filter_type_one (l : list row) r : NoDup (map r_type l) -> In r l ->
  filter (fun x => String.eqb (r_type x) (r_type r)) l = [r].
Proof.
  induction l as [|x l IH]; [intros _ []|]. cbn [map filter]. intros Hnd [<-|Hi]; inversion Hnd; subst.
  - rewrite String.eqb_refl. f_equal. clear IH Hnd H2. induction l as [|y l IH]; [reflexivity|]. cbn [filter].
    destruct (String.eqb_spec (r_type y) (r_type x)) as [E|]; [exfalso; apply H1; cbn; auto|].
    apply IH. intros H. apply H1. cbn. auto.
  - destruct (String.eqb_spec (r_type x) (r_type r)) as [E|]; [|auto].
    exfalso. apply H1. rewrite E. now apply in_map.
Qed.
Lemma filter_type_none (l : list row) t : (forall r, In r l -> r_type r <> t) ->
  filter (fun x => String.eqb (r_type x) t) l = [].
Proof.
  induction l as [|x l IH]; intros H; [reflexivity|]. cbn. destruct (String.eqb_spec (r_type x) t) as [E|].
  - exfalso. exact (H x (or_introl eq_refl) E).
  - apply IH. intros r Hr. apply H. now right.
Qed.

Lemma audit_latest n stats h t : let log := all_outcomes (init_issues n stats) h in
  let st := audit n stats h in well_formed_log n log ->
  forall o, latest t log o ->
  match o with
  | None => get_issue_summary (Some t) st = Raise ValueError /\ lookup (flag_column t) (issues st) = None /\
            lookup (score_column t) (issues st) = None /\ lookup t (info st) = None
  | Some out => exists fl sc, m_frame out = [(flag_column t, map CFlag fl); (score_column t, map CNum sc)] /\
            get_issue_summary (Some t) st = Ok [Row t (m_score out) (count_true fl)] /\
            lookup (flag_column t) (issues st) = Some (map CFlag fl) /\
            lookup (score_column t) (issues st) = Some (map CNum sc) /\
            lookup t (info st) = Some (m_info out)
  end.
Proof.
  cbv zeta. intros Hwf o Ho. apply latest_lastf in Ho.
  destruct (audit_tables n stats h Hwf) as (_ & Hnd & Hsum & Hfl & Hsc & Hin & _).
  specialize (Hfl t). specialize (Hsc t). specialize (Hin t). rewrite Ho in Hfl, Hsc, Hin.
  destruct o as [out|].
  - destruct (Hwf t out (lastf_in _ _ _ Ho)) as (_ & fl & sc & _ & _ & Hfr).
    assert (Hff : flags_of t out = Some (map CFlag fl)).
    { unfold flags_of. rewrite Hfr. cbn. now rewrite String.eqb_refl. }
    assert (Hss : scores_of t out = Some (map CNum sc)).
    { unfold scores_of. rewrite Hfr. cbn [lookup].
      rewrite (proj2 (String.eqb_neq _ _)) by (apply not_eq_sym, flag_score_neq). now rewrite String.eqb_refl. }
    exists fl, sc. rewrite Hff in Hfl. rewrite Hss in Hsc. refine (conj Hfr (conj _ (conj Hfl (conj Hsc Hin)))).
    set (r := Row t (m_score out) (count_true fl)).
    assert (Hr : In r (issue_summary (audit n stats h)) /\ r_type r = t).
    { apply Hsum. exists out, (map CFlag fl). refine (conj Ho (conj Hff _)). unfold r, num_true.
      f_equal. rewrite map_map. cbn. now rewrite map_id. }
    unfold get_issue_summary.
    assert (Hf := filter_type_one _ r Hnd (proj1 Hr)). change (r_type r) with t in Hf.
    destruct (issue_summary (audit n stats h)) as [|r0 l]; [destruct (proj1 Hr)|]. now rewrite Hf.
  - refine (conj _ (conj Hfl (conj Hsc Hin))). unfold get_issue_summary.
    rewrite filter_type_none; [now destruct (issue_summary (audit n stats h))|].
    intros r Hr E. destruct (proj1 (Hsum t r) (conj Hr E)) as (out & col & H & _). congruence.
Qed.
Lemma audit_one_row n stats h : well_formed_log n (all_outcomes (init_issues n stats) h) ->
  d_rows (audit n stats h) = n /\ NoDup (map (@r_type) (issue_summary (audit n stats h))) /\
  (forall r, In r (issue_summary (audit n stats h)) -> exists fl,
     lookup (flag_column (r_type r)) (issues (audit n stats h)) = Some (map CFlag fl) /\ length fl = n /\
     r_num r = count_true fl).
Proof.
  intros Hwf. destruct (audit_tables n stats h Hwf) as (Hn & Hnd & Hsum & Hfl & _).
  refine (conj Hn (conj Hnd _)). intros r Hr.
  destruct (proj1 (Hsum (r_type r) r) (conj Hr eq_refl)) as (out & col & Ho & Hf & E).
  destruct (Hwf _ out (lastf_in _ _ _ Ho)) as (_ & fl & sc & L & _ & Hfr).
  assert (Hff : flags_of (r_type r) out = Some (map CFlag fl)).
  { unfold flags_of. rewrite Hfr. cbn. now rewrite String.eqb_refl. }
  exists fl. specialize (Hfl (r_type r)). rewrite Ho, Hff in Hfl. refine (conj Hfl (conj L _)).
  rewrite Hff in Hf. injection Hf as <-. rewrite E at 1. cbn. unfold num_true. rewrite map_map. cbn. now rewrite map_id.
Qed.

(** ** health score and failing checks: any outputs *)
Definition healthy st : Prop :=
  health_score st = match issue_summary st with [] => None | s => Some (qmean (map (@r_score) s)) end.
Lemma healthy_find st cs : healthy st -> healthy (find_issues st cs).
Proof. intros H. destruct cs; [exact H|]. unfold healthy. cbn. now destruct (issue_summary _). Qed.
Lemma healthy_history h : forall st, healthy st -> healthy (fold_left find_issues h st).
Proof. induction h; intros st H; cbn; [auto|]. apply IHh. now apply healthy_find. Qed.
Lemma audit_healthy n stats h : healthy (audit n stats h).
Proof. apply healthy_history. reflexivity. Qed.

Lemma set_health_id st : healthy st -> set_health_score st = st.
Proof.
  unfold healthy, set_health_score. intros H. destruct st as [a b c d e f]. cbn in *. rewrite H. now destruct c.
Qed.
Lemma find_skip st a c b : healthy st -> snd c (fold_left run_check a st) = None ->
  find_issues st (a ++ c :: b) = find_issues st (a ++ b).
Proof.
  intros Hh Hc.
  assert (E : fold_left run_check (a ++ c :: b) st = fold_left run_check (a ++ b) st).
  { rewrite !fold_left_app. cbn [fold_left]. f_equal. unfold run_check at 1. now rewrite Hc. }
  unfold find_issues. destruct (a ++ c :: b) as [|x l] eqn:E1; [destruct a; discriminate|].
  rewrite E. destruct (a ++ b) as [|y l']; [|reflexivity]. cbn. now apply set_health_id.
Qed.
Lemma audit_skip n stats h1 a c b h2 : snd c (fold_left run_check a (audit n stats h1)) = None ->
  audit n stats (h1 ++ [a ++ c :: b] ++ h2) = audit n stats (h1 ++ [a ++ b] ++ h2).
Proof.
  intros H. unfold audit in *. rewrite !fold_left_app. cbn [fold_left]. rewrite find_skip; auto.
  exact (audit_healthy n stats h1).
Qed.

Lemma run_stats st c : statistics (run_check st c) =
  match snd c st with None => statistics st | Some o => dict_update (statistics st) (m_stats o) end.
Proof.
  unfold run_check. destruct (snd c st) as [o|]; [|reflexivity]. unfold collect_issues.
  now destruct (lookup (flag_column (fst c)) (m_frame o)).
Qed.
Lemma checks_stats cs : forall st, statistics (fold_left run_check cs st) =
  fold_left dict_update (map m_stats (successes (outcomes st cs))) (statistics st).
Proof.
  induction cs as [|c cs IH]; intros st; [reflexivity|]. cbn [fold_left outcomes successes]. rewrite IH, run_stats.
  now destruct (snd c st).
Qed.
Lemma successes_app (a b : list (string * option (manager_out V))) : successes (a ++ b) = successes a ++ successes b.
Proof. induction a as [|[t [o|]] a IH]; cbn; [reflexivity| |]; now rewrite IH. Qed.
Lemma history_stats h : forall st, statistics (fold_left find_issues h st) =
  fold_left dict_update (map m_stats (successes (all_outcomes st h))) (statistics st).
Proof.
  induction h as [|cs h IH]; intros st; [reflexivity|]. cbn [fold_left all_outcomes].
  rewrite IH, successes_app, map_app, fold_left_app. f_equal.
  destruct cs as [|c cs]; [reflexivity|]. exact (checks_stats (c :: cs) st).
Qed.

(** ** the columns returned for a check *)
Definition named log st : Prop := NoDup (keys (issues st)) /\
  forall k, In k (keys (issues st)) -> exists t out, In (t, Some out) log /\ (k = flag_column t \/ k = score_column t).
Lemma keys_join n f m g : keys (join n f m g) = keys f ++ keys g.
Proof. unfold join, keys. rewrite map_map. cbn. now rewrite map_app. Qed.
Lemma NoDup_keys_filter {A} P (d : list (string * A)) : NoDup (keys d) -> NoDup (keys (filter P d)).
Proof.
  induction d as [|x d IH]; cbn; intros H; [constructor|]. inversion H; subst. destruct (P x); cbn; auto.
  constructor; auto. intros Hi. apply H2. unfold keys in Hi. apply in_map_iff in Hi as (y & <- & Hy).
  apply filter_In in Hy. apply in_map. tauto.
Qed.
Lemma named_step n log st c : named log st -> (forall out, snd c st = Some out -> well_formed n (fst c) out) ->
  named (log ++ [(fst c, snd c st)]) (run_check st c).
Proof.
  intros (Hnd & Hk) Hwf. unfold run_check. destruct (snd c st) as [out|] eqn:E.
  - destruct (Hwf _ eq_refl) as (_ & fl & sc & _ & _ & Hfr).
    assert (Ei : issues (fst (collect_issues (fst c) out (collect_statistics out st)))
               = join (d_rows st) (filter (fun x => negb (smem (fst x) (keys (m_frame out)))) (issues st)) (m_rows out) (m_frame out)).
    { unfold collect_issues. now destruct (lookup (flag_column (fst c)) (m_frame out)). }
    unfold named. rewrite Ei, keys_join, Hfr. cbn [keys map fst]. split.
    + apply NoDup_app_intro.
      * now apply NoDup_keys_filter.
      * constructor; [|constructor; [tauto|constructor]]. intros [H|[]]. exact (flag_score_neq _ _ (eq_sym H)).
      * intros k Hi Hj. unfold keys in Hi. apply in_map_iff in Hi as (x & <- & Hx). apply filter_In in Hx as (_ & Hx).
        apply negb_true_iff, smem_false in Hx. apply Hx. exact Hj.
    + intros k Hi. apply in_app_or in Hi. destruct Hi as [Hi|Hi].
      * unfold keys in Hi. apply in_map_iff in Hi as (x & <- & Hx). apply filter_In in Hx as (Hx & _).
        destruct (Hk (fst x)) as (t & o & Ho & H); [now apply in_map|]. exists t, o. split; [|auto].
        apply in_or_app. now left.
      * exists (fst c), out. split; [apply in_or_app; right; now left|]. cbn in Hi. intuition.
  - split; [auto|]. intros k Hi. destruct (Hk k Hi) as (t & o & Ho & H). exists t, o. split; [|auto].
    apply in_or_app. now left.
Qed.
Lemma named_checks n cs : forall log st, named log st -> well_formed_log n (outcomes st cs) ->
  named (log ++ outcomes st cs) (fold_left run_check cs st).
Proof.
  induction cs as [|c cs IH]; intros log st H Hwf; cbn [outcomes fold_left].
  - now rewrite app_nil_r.
  - replace (log ++ (fst c, snd c st) :: outcomes (run_check st c) cs)
      with ((log ++ [(fst c, snd c st)]) ++ outcomes (run_check st c) cs) by now rewrite <- app_assoc.
    apply IH.
    + apply (named_step n); [auto|]. intros out E. apply Hwf. cbn. left. now rewrite E.
    + intros t out Hi. apply Hwf. cbn. now right.
Qed.
Lemma named_history n h : forall log st, named log st -> well_formed_log n (all_outcomes st h) ->
  named (log ++ all_outcomes st h) (fold_left find_issues h st).
Proof.
  induction h as [|cs h IH]; intros log st H Hwf; cbn [all_outcomes fold_left].
  - now rewrite app_nil_r.
  - rewrite app_assoc. apply IH.
    + assert (Hw : well_formed_log n (outcomes st cs)) by (intros t out Hi; apply Hwf; cbn; apply in_or_app; now left).
      assert (Hn := named_checks n cs log st H Hw). destruct cs as [|c cs]; [exact Hn|]. exact Hn.
    + intros t out Hi. apply Hwf. cbn. apply in_or_app. now right.
Qed.
Lemma audit_named n stats h : well_formed_log n (all_outcomes (init_issues n stats) h) ->
  named (all_outcomes (init_issues n stats) h) (audit n stats h).
Proof. intros H. apply (named_history n h []); [|exact H]. split; [constructor|]. intros k []. Qed.
End History.

Lemma builtin_contains t t' : In t builtin_names -> In t' builtin_names ->
  contains t (flag_column t') = String.eqb t t' /\ contains t (score_column t') = String.eqb t t'.
Proof.
  intros H H'.
  assert (E : forallb (fun t => forallb (fun t' => Bool.eqb (contains t (flag_column t')) (String.eqb t t')
            && Bool.eqb (contains t (score_column t')) (String.eqb t t')) builtin_names) builtin_names = true) by (vm_compute; reflexivity).
  rewrite forallb_forall in E. specialize (E t H). rewrite forallb_forall in E. specialize (E t' H').
  apply andb_prop in E as (E1 & E2). split; now apply eqb_prop.
Qed.
Lemma lookup_key_in {A} k v (d : list (string * A)) : NoDup (keys d) -> (In (k, v) d <-> lookup k d = Some v).
Proof. intros H. split; [now apply lookup_NoDup|apply lookup_in]. Qed.
Lemma audit_get_issues V n (stats : list (string * V)) h t : let log := all_outcomes (init_issues n stats) h in
  (0 < n)%nat -> well_formed_log n log -> (forall t' o, In (t', o) log -> In t' builtin_names) ->
  forall out, latest t log (Some out) ->
  exists cols fl sc, get_issues (Some t) (audit n stats h) = Ok cols /\
    m_frame out = [(flag_column t, map CFlag fl); (score_column t, map CNum sc)] /\
    NoDup (keys cols) /\ (forall c, In c cols <-> c = (flag_column t, map CFlag fl) \/ c = (score_column t, map CNum sc)).
Proof.
  cbv zeta. intros Hn Hwf Hb out Ho.
  destruct (audit_latest n stats h t Hwf _ Ho) as (fl & sc & Hfr & _ & Hfl & Hsc & Hin).
  destruct (audit_named n stats h Hwf) as (Hnd & Hk).
  destruct (audit_one_row n stats h Hwf) as (Hrows & _).
  set (st := audit n stats h) in *. clearbody st.
  assert (Ht : In t builtin_names).
  { destruct Ho as (a & b & E & _). apply (Hb t (Some out)). rewrite E. apply in_or_app. right. now left. }
  set (cols := filter (fun c => contains t (fst c)) (issues st)).
  assert (Hcols : forall c, In c cols <-> c = (flag_column t, map CFlag fl) \/ c = (score_column t, map CNum sc)).
  { intros [k v]. unfold cols. rewrite filter_In. cbn [fst]. rewrite (lookup_key_in k v _ Hnd). split.
    - intros (Hl & Hc). assert (Hik : In k (keys (issues st))).
      { apply lookup_in in Hl. change k with (fst (k, v)). now apply in_map. }
      destruct (Hk k Hik) as (t' & o & Hi & H). assert (Ht' := Hb _ _ Hi).
      destruct (builtin_contains t t' Ht Ht') as (E1 & E2).
      destruct H as [-> | ->]; [rewrite E1 in Hc|rewrite E2 in Hc]; apply String.eqb_eq in Hc; subst t'.
      + left. congruence.
      + right. congruence.
    - destruct (builtin_contains t t Ht Ht) as (E1 & E2). rewrite String.eqb_refl in E1, E2.
      intros [E|E]; injection E as -> ->; auto. }
  exists cols, fl, sc. refine (conj _ (conj Hfr (conj _ Hcols))).
  - unfold get_issues. rewrite Hrows. destruct (Nat.eqb_spec n 0); [lia|].
    destruct (issues st) as [|x l] eqn:E; [discriminate Hfl|]. cbn [length orb Nat.eqb].
    fold cols in Hcols. fold cols. destruct cols as [|c cs] eqn:Ec.
    + exfalso. apply (proj2 (Hcols (flag_column t, map CFlag fl))). now left.
    + now rewrite Hin.
  - unfold cols. now apply NoDup_keys_filter.
Qed.
