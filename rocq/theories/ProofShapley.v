(** * Proofs about Shapley values of nearest-neighbour classification *)
From Coq Require Import QArith Qabs List Bool Arith Lia Lqa Permutation Factorial.
From Verif Require Import Base BaseFacts ModelNoise SpecNoise ProofNoise SpecShapley.
Import ListNotations.
Open Scope Q_scope.

Definition ind (b : bool) : Q := if b then 1 else 0.

(** ** All orders by insertion *)
Definition put (x t : nat) (q : list nat) : list nat := firstn t q ++ x :: skipn t q.
Definition inserts (x : nat) (q : list nat) : list (list nat) := map (fun t => put x t q) (seq 0 (S (length q))).
Fixpoint enum (l : list nat) : list (list nat) :=
  match l with [] => [[]] | x :: r => flat_map (inserts x) (enum r) end.

Lemma before_mid p a b : ~ In p a -> before p (a ++ p :: b) = a.
Proof.
  induction a as [|x a IH]; intros H; cbn; [now rewrite Nat.eqb_refl|]. destruct (Nat.eqb_spec x p) as [->|]; [exfalso; apply H; now left|].
  f_equal. apply IH. intros I. apply H. now right.
Qed.
Lemma put_perm x t q : Permutation (put x t q) (x :: q).
Proof. unfold put. rewrite <- (firstn_skipn t q) at 3. symmetry. apply Permutation_middle. Qed.
Lemma enum_perm l q : In q (enum l) -> Permutation q l.
Proof.
  revert q. induction l as [|x l IH]; intros q H; [destruct H as [<-|[]]; constructor|]. cbn in H. apply in_flat_map in H. destruct H as (q' & H & I).
  apply in_map_iff in I. destruct I as (t & <- & _). rewrite put_perm. constructor. now apply IH.
Qed.
Lemma perm_enum l : forall q, Permutation q l -> In q (enum l).
Proof.
  induction l as [|x l IH]; intros q H; [apply Permutation_sym, Permutation_nil in H; subst; now left|].
  assert (Hx : In x q) by (apply (Permutation_in _ (Permutation_sym H)); now left). apply in_split in Hx. destruct Hx as (a & b & ->).
  cbn. apply in_flat_map. exists (a ++ b). split.
  - apply IH. apply Permutation_cons_inv with (a := x). rewrite <- H. apply Permutation_middle.
  - apply in_map_iff. exists (length a). split.
    + unfold put. rewrite firstn_app, firstn_all, Nat.sub_diag, skipn_app, skipn_all, Nat.sub_diag. cbn [firstn skipn app]. now rewrite app_nil_r.
    + apply in_seq. rewrite app_length. lia.
Qed.
Lemma NoDup_app' {A} (a b : list A) : NoDup a -> NoDup b -> (forall x, In x a -> ~ In x b) -> NoDup (a ++ b).
Proof.
  induction a as [|x a IH]; intros Ha Hb D; [exact Hb|]. inversion Ha; subst. cbn. constructor.
  - rewrite in_app_iff. intros [I|I]; [auto|]. apply (D x); [now left|exact I].
  - apply IH; auto. intros y I. apply D. now right.
Qed.
Lemma NoDup_front {A} (a b : list A) : NoDup (a ++ b) -> NoDup a.
Proof.
  induction a as [|x a IH]; intros H; [constructor|]. inversion H as [|? ? H1 H2]; subst. constructor; [intros I; apply H1, in_app_iff; now left|auto].
Qed.
Lemma put_inj x t q t' q' : ~ In x q -> ~ In x q' -> (t <= length q)%nat -> (t' <= length q')%nat -> put x t q = put x t' q' -> t = t' /\ q = q'.
Proof.
  unfold put. intros N N' L L' E.
  assert (A : firstn t q = firstn t' q').
  { assert (B : ~ In x (firstn t q)) by (intros I; apply N; rewrite <- (firstn_skipn t q), in_app_iff; now left).
    assert (B' : ~ In x (firstn t' q')) by (intros I; apply N'; rewrite <- (firstn_skipn t' q'), in_app_iff; now left).
    rewrite <- (before_mid x (firstn t q) (skipn t q) B), E. apply before_mid, B'. }
  split.
  - assert (H : length (firstn t q) = length (firstn t' q')) by now rewrite A. rewrite !firstn_length in H. lia.
  - rewrite A in E. apply app_inv_head in E. injection E as E. rewrite <- (firstn_skipn t q), <- (firstn_skipn t' q'). now rewrite A, E.
Qed.
Lemma NoDup_map_in {A B} (f : A -> B) l : (forall x y, In x l -> In y l -> f x = f y -> x = y) -> NoDup l -> NoDup (map f l).
Proof.
  intros I N. induction N as [|x l H N IH]; [constructor|]. cbn. constructor.
  - intros H'. apply in_map_iff in H'. destruct H' as (y & E & Hy). apply H. rewrite (I x y); auto; [now left|now right].
  - apply IH. intros; apply I; auto; now right.
Qed.
Lemma enum_nodup l : NoDup l -> NoDup (enum l).
Proof.
  induction 1 as [|x l H N IH]; [repeat constructor; intros []|]. cbn.
  assert (G : forall qs, NoDup qs -> (forall q, In q qs -> Permutation q l) -> NoDup (flat_map (inserts x) qs)).
  { induction qs as [|q qs IHq]; intros Nq P; [constructor|]. cbn [flat_map]. inversion Nq; subst.
    assert (Xq : forall q0, In q0 (q :: qs) -> ~ In x q0) by (intros q0 I J; apply H, (Permutation_in _ (P q0 I) J)).
    apply NoDup_app'.
    - unfold inserts. apply NoDup_map_in; [|apply seq_NoDup]. intros t t' I I' E. apply in_seq in I, I'.
      apply (put_inj x t q t' q) in E; try lia; try tauto; apply Xq; now left.
    - apply IHq; auto. intros; apply P; now right.
    - intros z I J. apply in_map_iff in I. destruct I as (t & <- & I). apply in_flat_map in J. destruct J as (q' & J & J').
      apply in_map_iff in J'. destruct J' as (t' & E & J'). apply in_seq in I, J'. symmetry in E.
      apply put_inj in E; try lia; [|apply Xq; now left|apply Xq; now right]. destruct E as (_ & <-). auto. }
  apply G; [exact IH|]. apply enum_perm.
Qed.
Lemma enum_all l : NoDup l -> all_orders l (enum l).
Proof. intros N. split; [now apply enum_nodup|]. intros q. split; [apply enum_perm|apply perm_enum]. Qed.
Lemma orders_perm p p' o o' : Permutation p p' -> all_orders p o -> all_orders p' o' -> Permutation o o'.
Proof.
  intros P (N & H) (N' & H'). apply NoDup_Permutation; auto. intros q. rewrite H, H', P. reflexivity.
Qed.
Lemma enum_length l : length (enum l) = fact (length l).
Proof.
  induction l as [|x l IH]; [reflexivity|]. cbn [enum length fact].
  assert (G : forall qs, (forall q, In q qs -> length q = length l) -> length (flat_map (inserts x) qs) = (length qs * S (length l))%nat).
  { induction qs as [|q qs IHq]; intros H; [reflexivity|]. cbn [flat_map]. rewrite app_length, IHq by (intros; apply H; now right).
    unfold inserts. rewrite map_length, seq_length, (H q) by now left. cbn [length]. lia. }
  rewrite G, IH; [lia|]. intros q H. apply enum_perm in H. now apply Permutation_length.
Qed.

Lemma shapley_orders p p' o o' v x : Permutation p p' -> all_orders p o -> all_orders p' o' -> shapley_value o v x == shapley_value o' v x.
Proof.
  intros P H H'. pose proof (orders_perm _ _ _ _ P H H') as Q. unfold shapley_value, qmean. rewrite !map_length, (Permutation_length Q).
  rewrite (qsum_perm _ _ (Permutation_map (gain v x) Q)). reflexivity.
Qed.

(** ** Sums over all orders *)
Definition total (l : list nat) (v : list nat -> Q) (p : nat) : Q := qsum (map (gain v p) (enum l)).
Lemma qsum_flat {A B} (f : B -> Q) (g : A -> list B) l : qsum (map f (flat_map g l)) == qsum (map (fun a => qsum (map f (g a))) l).
Proof. induction l as [|x l IH]; [reflexivity|]. cbn [flat_map map]. rewrite map_app, qsum_app, IH. reflexivity. Qed.
Lemma total_cons x l v p : total (x :: l) v p == qsum (map (fun q => qsum (map (fun t => gain v p (put x t q)) (seq 0 (S (length q))))) (enum l)).
Proof.
  unfold total. cbn [enum]. rewrite qsum_flat. apply qsum_map_ext. intros q _. unfold inserts. rewrite map_map. reflexivity.
Qed.
Lemma total_ext l v w p : (forall s, v s == w s) -> total l v p == total l w p.
Proof. intros H. apply qsum_map_ext. intros q _. unfold gain. rewrite !H. reflexivity. Qed.
Lemma total_plus l v w c p : total l (fun s => v s + c * w s) p == total l v p + c * total l w p.
Proof.
  unfold total. rewrite <- qsum_map_scale, <- qsum_map_plus. apply qsum_map_ext. intros q _. unfold gain. ring.
Qed.

(** where a player other than the inserted one stands *)
Lemma split_at p q : In p q -> exists a b, q = a ++ p :: b /\ ~ In p a /\ before p q = a.
Proof.
  induction q as [|x q IH]; intros H; [destruct H|]. destruct (Nat.eq_dec x p) as [->|N].
  - exists [], q. cbn. rewrite Nat.eqb_refl. auto.
  - destruct H as [H|H]; [congruence|]. destruct (IH H) as (a & b & -> & Na & B). exists (x :: a), b. split; [reflexivity|]. split.
    + intros [I|I]; auto.
    + cbn. destruct (Nat.eqb_spec x p); [congruence|]. now rewrite B.
Qed.
Lemma before_put_early p x t a b : p <> x -> ~ In p a -> (t <= length a)%nat -> before p (put x t (a ++ p :: b)) = put x t a.
Proof.
  intros N Na L. unfold put. rewrite firstn_app, skipn_app. replace (t - length a)%nat with 0%nat by lia. cbn [firstn skipn]. rewrite app_nil_r.
  change (firstn t a ++ x :: skipn t a ++ p :: b) with (firstn t a ++ (x :: skipn t a) ++ p :: b). rewrite app_assoc. apply before_mid.
  rewrite in_app_iff. intros [I|[I|I]]; [|congruence|]; apply Na; rewrite <- (firstn_skipn t a), in_app_iff; auto.
Qed.
Lemma before_put_late p x t a b : ~ In p a -> (length a < t)%nat -> before p (put x t (a ++ p :: b)) = a.
Proof.
  intros Na L. unfold put. rewrite firstn_app. rewrite (firstn_all2 a) by lia. destruct (t - length a)%nat as [|m] eqn:E; [lia|]. cbn [firstn].
  rewrite <- app_assoc. cbn [app]. apply before_mid, Na.
Qed.
Lemma before_put_self x t q : ~ In x q -> before x (put x t q) = firstn t q.
Proof. intros N. unfold put. apply before_mid. intros I. apply N. rewrite <- (firstn_skipn t q), in_app_iff. now left. Qed.

(** a worth that depends only on which members of [r] take part *)
Definition over (r : list nat) (v : list nat -> Q) : Prop := forall s s', (forall j, In j r -> mem j s = mem j s') -> v s == v s'.
Lemma mem_in j s : mem j s = true <-> In j s.
Proof. apply mem_iff. Qed.
Lemma mem_ext j s s' : (In j s <-> In j s') -> mem j s = mem j s'.
Proof. intros H. apply eq_true_iff_eq. rewrite !mem_in. exact H. Qed.

Lemma gain_over_put r v x p q t : over r v -> ~ In x r -> p <> x -> In p q -> (t <= length q)%nat -> gain v p (put x t q) == gain v p q.
Proof.
  intros O Nx Np Hp Ht. destruct (split_at p q Hp) as (a & b & -> & Na & B).
  destruct (le_lt_dec t (length a)) as [L|L].
  - unfold gain. rewrite (before_put_early p x t a b Np Na L), B.
    assert (E : forall j, In j r -> (In j (put x t a) <-> In j a)).
    { intros j Hj. assert (j <> x) by (intros ->; auto). split; intros I.
      - apply (Permutation_in _ (put_perm x t a)) in I. destruct I; [congruence|auto].
      - apply (Permutation_in _ (Permutation_sym (put_perm x t a))). now right. }
    rewrite (O (put x t a) a), (O (p :: put x t a) (p :: a)); [reflexivity| |]; intros j Hj; apply mem_ext; cbn; specialize (E j Hj); tauto.
  - unfold gain. rewrite (before_put_late p x t a b Na L), B. reflexivity.
Qed.
(** adding a player that does not count changes no average *)
Lemma total_null r v x l p : over r v -> ~ In x r -> p <> x -> In p l -> total (x :: l) v p == Qnat (S (length l)) * total l v p.
Proof.
  intros O Nx Np Hp. rewrite total_cons. unfold total at 1. rewrite <- qsum_map_scale. apply qsum_map_ext. intros q Hq. apply enum_perm in Hq.
  rewrite (qsum_map_ext _ (fun _ => gain v p q)).
  - rewrite qsum_map_const, seq_length, (Permutation_length Hq). reflexivity.
  - intros t Ht. apply in_seq in Ht. apply (gain_over_put r); auto; [|lia]. apply (Permutation_in _ (Permutation_sym Hq) Hp).
Qed.
Lemma total_null_self r v x l : over r v -> ~ In x r -> total l v x == 0.
Proof.
  intros O Nx. apply qsum_zero. intros z Hz. apply in_map_iff in Hz. destruct Hz as (q & <- & _). unfold gain.
  rewrite (O (x :: before x q) (before x q)); [ring|]. intros j Hj. apply mem_ext. cbn. split; [|tauto]. intros [E|E]; [subst; tauto|exact E].
Qed.

(** how often a player is the [s]-th *)
Lemma ind_seq_lt K m n : qsum (map (fun t => ind (Nat.ltb t K)) (seq m n)) == Qnat (Nat.min K (m + n) - Nat.min K m).
Proof.
  revert m. induction n as [|n IH]; intros m; [cbn [seq map]; rewrite Nat.add_0_r, Nat.sub_diag; reflexivity|].
  cbn [seq map]. rewrite qsum_cons, IH. unfold ind. destruct (Nat.ltb_spec m K) as [L|L].
  - replace (Nat.min K (m + S n) - Nat.min K m)%nat with (S (Nat.min K (S m + n) - Nat.min K (S m)))%nat by lia. rewrite Qnat_S. ring.
  - replace (Nat.min K (m + S n) - Nat.min K m)%nat with (Nat.min K (S m + n) - Nat.min K (S m))%nat by lia. ring.
Qed.
Lemma position_count : forall l p s, NoDup l -> In p l -> (s < length l)%nat ->
  qsum (map (fun q => ind (Nat.eqb (length (before p q)) s)) (enum l)) == Qnat (fact (length l - 1)).
Proof.
  induction l as [|x l IH]; intros p s N Hp Hs; [destruct Hp|]. inversion N as [|? ? Nx N']; subst. cbn [enum]. rewrite qsum_flat.
  replace (length (x :: l) - 1)%nat with (length l) by (cbn; lia). cbn [length] in Hs.
  destruct (Nat.eq_dec p x) as [->|Np].
  - rewrite <- (enum_length l). rewrite (qsum_map_ext _ (fun _ => 1)); [rewrite qsum_map_const; ring|]. intros q Hq. apply enum_perm in Hq.
    pose proof (Permutation_length Hq) as Lq. unfold inserts. rewrite map_map.
    assert (Nq : ~ In x q) by (intros I; apply Nx, (Permutation_in _ Hq I)).
    rewrite (qsum_map_ext _ (fun t => if Nat.eqb t s then 1 else 0)); [apply (qsum_indicator (fun _ => 1)); lia|].
    intros t Ht. apply in_seq in Ht. rewrite (before_put_self x t q Nq), firstn_length. rewrite Nat.min_l by lia. reflexivity.
  - assert (Hp' : In p l) by (destruct Hp; [congruence|auto]).
    assert (E : forall q, In q (enum l) -> qsum (map (fun q0 => ind (Nat.eqb (length (before p q0)) s)) (inserts x q)) ==
      Qnat s * ind (Nat.eqb (S (length (before p q))) s) + Qnat (length l - s) * ind (Nat.eqb (length (before p q)) s)).
    { intros q Hq. apply enum_perm in Hq. pose proof (Permutation_length Hq) as Lq. apply (Permutation_in _ (Permutation_sym Hq)) in Hp'.
      destruct (split_at p q Hp') as (a & b & -> & Na & B). rewrite B. unfold inserts. rewrite map_map.
      rewrite app_length in Lq. cbn [length] in Lq. rewrite app_length. cbn [length].
      replace (S (length a + S (length b)))%nat with (S (length a) + S (length b))%nat by lia. rewrite seq_app, map_app, qsum_app.
      rewrite (qsum_map_ext _ (fun _ => ind (Nat.eqb (S (length a)) s)) (seq 0 (S (length a)))).
      2:{ intros t Ht. apply in_seq in Ht. rewrite (before_put_early p x t a b Np Na) by lia. rewrite (Permutation_length (put_perm x t a)). reflexivity. }
      rewrite (qsum_map_ext _ (fun _ => ind (Nat.eqb (length a) s)) (seq (0 + S (length a)) (S (length b)))).
      2:{ intros t Ht. apply in_seq in Ht. rewrite (before_put_late p x t a b Na) by lia. reflexivity. }
      rewrite !qsum_map_const, !seq_length. unfold ind. destruct (Nat.eqb_spec (S (length a)) s) as [E1|E1], (Nat.eqb_spec (length a) s) as [E2|E2]; try lia.
      - rewrite E1. ring.
      - replace (length l - s)%nat with (S (length b)) by lia. ring.
      - ring. }
    rewrite (qsum_map_ext _ _ _ E), qsum_map_plus, !qsum_map_scale.
    assert (Hl : (1 <= length l)%nat) by (destruct l; [destruct Hp'|cbn; lia]).
    assert (Fl : Qnat (fact (length l)) == Qnat (length l) * Qnat (fact (length l - 1))).
    { destruct (length l) as [|m]; [lia|]. replace (S m - 1)%nat with m by lia. change (fact (S m)) with (S m * fact m)%nat. unfold Qnat. rewrite Nat2Z.inj_mul, inject_Z_mult. reflexivity. }
    rewrite Fl. destruct s as [|s].
    + rewrite (IH p 0%nat N' Hp' ltac:(lia)). rewrite Nat.sub_0_r. change (Qnat 0) with 0. ring.
    + rewrite (qsum_map_ext (fun q => ind (Nat.eqb (S (length (before p q))) (S s))) (fun q => ind (Nat.eqb (length (before p q)) s))) by (intros; reflexivity).
      rewrite (IH p s N' Hp' ltac:(lia)). destruct (Nat.eq_dec (S s) (length l)) as [El|El].
      * rewrite <- El, Nat.sub_diag. change (Qnat 0) with 0. ring.
      * rewrite (IH p (S s) N' Hp' ltac:(lia)). replace (Qnat (length l)) with (Qnat (S s + (length l - S s))) by (f_equal; lia). rewrite Qnat_plus. ring.
Qed.

(** ** The game that pays 1 if [x] takes part and fewer than [K] members of [l] do *)
Definition step (K x : nat) (l s : list nat) : Q := ind (mem x s && Nat.ltb (length (filter (fun j => mem j s) l)) K).
Lemma count_members l a : NoDup l -> NoDup a -> incl a l -> length (filter (fun j => mem j a) l) = length a.
Proof.
  intros N Na I. apply Permutation_length, NoDup_Permutation; [now apply NoDup_filter|exact Na|]. intros j. rewrite filter_In, mem_in. split; [tauto|]. auto.
Qed.
Lemma count_same l s s' : (forall j, In j l -> (In j s <-> In j s')) -> filter (fun j => mem j s) l = filter (fun j => mem j s') l.
Proof. intros H. apply filter_ext_in. intros j Hj. apply mem_ext. auto. Qed.
Lemma mem_not x s : ~ In x s -> mem x s = false.
Proof. intros H. destruct (mem x s) eqn:E; [|reflexivity]. apply mem_in in E. tauto. Qed.
Lemma mem_yes x s : In x s -> mem x s = true.
Proof. apply mem_in. Qed.

Lemma total_step_self K x l : NoDup (x :: l) -> total (x :: l) (step K x l) x == Qnat (Nat.min K (S (length l))) * Qnat (fact (length l)).
Proof.
  intros N. inversion N as [|? ? Nx N']; subst. rewrite total_cons, <- (enum_length l).
  rewrite (qsum_map_ext _ (fun _ => Qnat (Nat.min K (S (length l))))); [rewrite qsum_map_const; ring|].
  intros q Hq. apply enum_perm in Hq. pose proof (Permutation_length Hq) as Lq.
  assert (Nq : ~ In x q) by (intros I; apply Nx, (Permutation_in _ Hq I)).
  rewrite (qsum_map_ext _ (fun t => ind (Nat.ltb t K))); [rewrite ind_seq_lt, Lq; cbn [plus]; rewrite Nat.min_0_r, Nat.sub_0_r; reflexivity|].
  intros t Ht. apply in_seq in Ht. unfold gain. rewrite (before_put_self x t q Nq).
  assert (Nf : ~ In x (firstn t q)) by (intros I; apply Nq; rewrite <- (firstn_skipn t q), in_app_iff; now left).
  assert (NDq : NoDup q) by (apply (Permutation_NoDup (Permutation_sym Hq) N')).
  assert (C : length (filter (fun j => mem j (x :: firstn t q)) l) = t).
  { rewrite (count_same l _ (firstn t q)).
    - rewrite count_members; [rewrite firstn_length; lia|exact N'| |].
      + rewrite <- (firstn_skipn t q) in NDq. now apply NoDup_front in NDq.
      + intros j Hj. apply (Permutation_in _ Hq). rewrite <- (firstn_skipn t q), in_app_iff. now left.
    - intros j Hj. cbn. split; [|tauto]. intros [E|E]; [subst; tauto|exact E]. }
  unfold step. rewrite C, (mem_not x (firstn t q) Nf), (mem_yes x (x :: firstn t q)) by now left. cbn [andb ind]. ring.
Qed.
Lemma total_step_other K x l p : (1 <= K)%nat -> NoDup (x :: l) -> In p l ->
  total (x :: l) (step K x l) p == - (Qnat K * (if Nat.leb K (length l) then Qnat (fact (length l - 1)) else 0)).
Proof.
  intros HK N Hp. inversion N as [|? ? Nx N']; subst. assert (Np : p <> x) by (intros ->; auto). rewrite total_cons.
  assert (E : forall q, In q (enum l) -> qsum (map (fun t => gain (step K x l) p (put x t q)) (seq 0 (S (length q)))) ==
    - Qnat K * ind (Nat.eqb (length (before p q)) (K - 1))).
  { intros q Hq. apply enum_perm in Hq. pose proof (Permutation_length Hq) as Lq.
    assert (Nq : ~ In x q) by (intros I; apply Nx, (Permutation_in _ Hq I)).
    assert (NDq : NoDup q) by (apply (Permutation_NoDup (Permutation_sym Hq) N')).
    assert (Hpq : In p q) by (apply (Permutation_in _ (Permutation_sym Hq) Hp)).
    destruct (split_at p q Hpq) as (a & b & -> & Na & B). rewrite B.
    assert (NDa : NoDup a) by (now apply NoDup_front in NDq).
    assert (Ia : incl a l) by (intros j Hj; apply (Permutation_in _ Hq); rewrite in_app_iff; now left).
    assert (Xa : ~ In x a) by (intros I; apply Nq; rewrite in_app_iff; now left).
    rewrite app_length. cbn [length].
    replace (S (length a + S (length b)))%nat with (S (length a) + S (length b))%nat by lia. rewrite seq_app, map_app, qsum_app.
    rewrite (qsum_map_ext _ (fun _ => - ind (Nat.eqb (length a) (K - 1))) (seq 0 (S (length a)))).
    2:{ intros t Ht. apply in_seq in Ht. unfold gain. rewrite (before_put_early p x t a b Np Na) by lia.
        assert (P : forall j, In j (put x t a) <-> x = j \/ In j a).
        { intros j. split; intros I; [apply (Permutation_in _ (put_perm x t a)) in I; exact I|apply (Permutation_in _ (Permutation_sym (put_perm x t a))); exact I]. }
        assert (C1 : length (filter (fun j => mem j (put x t a)) l) = length a).
        { rewrite (count_same l _ a); [apply count_members; auto|]. intros j Hj. rewrite P. split; [intros [->|I]; tauto|tauto]. }
        assert (C2 : length (filter (fun j => mem j (p :: put x t a)) l) = S (length a)).
        { rewrite (count_same l _ (p :: a)).
          - rewrite count_members; [reflexivity|exact N'|constructor; auto|]. intros j [<-|Hj]; [exact Hp|auto].
          - intros j Hj. cbn [In]. rewrite P. split; [intros [I|[->|I]]; tauto|tauto]. }
        unfold step. rewrite C1, C2, (mem_yes x (p :: put x t a)), (mem_yes x (put x t a)); [|apply P; now left|right; apply P; now left].
        cbn [andb]. unfold ind. destruct (Nat.ltb_spec (S (length a)) K), (Nat.ltb_spec (length a) K), (Nat.eqb_spec (length a) (K - 1)); try lia; ring. }
    rewrite (qsum_map_ext _ (fun _ => 0) (seq (0 + S (length a)) (S (length b)))).
    2:{ intros t Ht. apply in_seq in Ht. unfold gain. rewrite (before_put_late p x t a b Na) by lia.
        unfold step. rewrite (mem_not x a Xa), (mem_not x (p :: a)); [cbn [andb ind]; ring|]. intros [I|I]; [congruence|auto]. }
    rewrite !qsum_map_const, !seq_length. unfold ind. destruct (Nat.eqb_spec (length a) (K - 1)) as [El|El]; [|ring].
    replace (S (length a)) with K by lia. ring. }
  rewrite (qsum_map_ext _ _ _ E), qsum_map_scale. destruct (Nat.leb_spec K (length l)) as [L|L].
  - rewrite (position_count l p (K - 1)%nat N' Hp ltac:(lia)). ring.
  - rewrite qsum_zero; [ring|]. intros z Hz. apply in_map_iff in Hz. destruct Hz as (q & <- & Hq). apply enum_perm in Hq.
    assert (Hpq : In p q) by (apply (Permutation_in _ (Permutation_sym Hq) Hp)). destruct (split_at p q Hpq) as (a & b & -> & Na & B). rewrite B.
    apply Permutation_length in Hq. rewrite app_length in Hq. cbn [length] in Hq. destruct (Nat.eqb_spec (length a) (K - 1)); [lia|reflexivity].
Qed.

(** ** One example to classify *)
Section One.
Variables (y : list nat) (K i : nat).
Hypothesis HK : (1 <= K)%nat.
Definition hit (j : nat) : bool := Nat.eqb (nth j y 0%nat) (nth i y 0%nat).
Definition val (r : list nat) (p : nat) : Q := total (rev r) (knn_worth y K r i) p / Qnat (fact (length r)).

Lemma worth_over r : over r (knn_worth y K r i).
Proof. intros s s' H. unfold knn_worth. rewrite (filter_ext_in _ _ _ H). reflexivity. Qed.
Lemma Kpos : 0 < Qnat K.
Proof. apply Qnat_pos. exact HK. Qed.
Lemma worth_snoc r x s : knn_worth y K (r ++ [x]) i s == knn_worth y K r i s + ind (hit x) / Qnat K * step K x r s.
Proof.
  pose proof Kpos as P. unfold knn_worth, step. rewrite filter_app, firstn_app. cbn [filter]. rewrite filter_app, app_length, Qnat_plus.
  destruct (mem x s); cbn [andb].
  - destruct (Nat.ltb_spec (length (filter (fun j => mem j s) r)) K) as [L|L].
    + destruct (K - length (filter (fun j => mem j s) r))%nat as [|m] eqn:E; [lia|]. cbn [firstn filter]. rewrite firstn_nil. fold (hit x).
      destruct (hit x); cbn [filter length ind]; [change (Qnat 1) with 1|change (Qnat 0) with 0]; field; lra.
    + replace (K - length (filter (fun j => mem j s) r))%nat with 0%nat by lia. cbn [firstn filter length ind]. change (Qnat 0) with 0. field. lra.
  - rewrite firstn_nil. cbn [filter length ind]. change (Qnat 0) with 0. field. lra.
Qed.
Lemma fact_pos n : 0 < Qnat (fact n).
Proof. apply Qnat_pos. apply lt_O_fact. Qed.
Lemma fact_S n : Qnat (fact (S n)) == Qnat (S n) * Qnat (fact n).
Proof. change (fact (S n)) with (S n * fact n)%nat. unfold Qnat. rewrite Nat2Z.inj_mul, inject_Z_mult. reflexivity. Qed.

Lemma total_snoc r x p : total (rev (r ++ [x])) (knn_worth y K (r ++ [x]) i) p ==
  total (x :: rev r) (knn_worth y K r i) p + ind (hit x) / Qnat K * total (x :: rev r) (step K x (rev r)) p.
Proof.
  rewrite rev_unit, <- total_plus. apply total_ext. intros s. rewrite worth_snoc. apply Qplus_comp; [reflexivity|]. apply Qmult_comp; [reflexivity|].
  unfold step. rewrite (Permutation_length (l := filter (fun j => mem j s) r) (l' := filter (fun j => mem j s) (rev r))); [reflexivity|].
  clear. induction r as [|a r IH]; [constructor|]. cbn [rev filter]. rewrite filter_app. cbn [filter]. destruct (mem a s).
  - rewrite IH. apply Permutation_cons_append.
  - rewrite app_nil_r. exact IH.
Qed.

(** the value of the farthest player, and how it changes the values of the others *)
Lemma val_last r x : NoDup (r ++ [x]) -> val (r ++ [x]) x == ind (hit x) / Qnat K * (Qnat (Nat.min K (S (length r))) / Qnat (S (length r))).
Proof.
  intros N. assert (N' : NoDup (x :: rev r)) by (rewrite <- rev_unit; now apply NoDup_rev).
  assert (Nx : ~ In x r) by (inversion N'; subst; rewrite in_rev; assumption).
  unfold val. rewrite total_snoc, (total_null_self r), total_step_self by (auto using worth_over). rewrite rev_length, app_length. cbn [length]. rewrite Nat.add_1_r, fact_S.
  pose proof (fact_pos (length r)) as P1. pose proof Kpos as P2. pose proof (Qnat_pos (S (length r)) ltac:(lia)) as P3. field. repeat split; lra.
Qed.
Lemma val_other r x p : NoDup (r ++ [x]) -> In p r -> val (r ++ [x]) p ==
  val r p - (if Nat.leb K (length r) then ind (hit x) * (/ (Qnat (length r) * Qnat (S (length r)))) else 0).
Proof.
  intros N Hp. assert (N' : NoDup (x :: rev r)) by (rewrite <- rev_unit; now apply NoDup_rev).
  assert (Nx : ~ In x r) by (inversion N'; subst; rewrite in_rev; assumption). assert (Np : p <> x) by (intros ->; auto).
  assert (Hp' : In p (rev r)) by now apply in_rev in Hp.
  unfold val. rewrite total_snoc, (total_null r), total_step_other by (auto using worth_over). rewrite rev_length, app_length. cbn [length]. rewrite Nat.add_1_r, fact_S.
  pose proof (fact_pos (length r)) as P1. pose proof Kpos as P2. pose proof (Qnat_pos (S (length r)) ltac:(lia)) as P3.
  destruct (Nat.leb K (length r)) eqn:L.
  - apply Nat.leb_le in L. destruct (length r) as [|m] eqn:E; [lia|]. replace (S m - 1)%nat with m by lia.
    rewrite fact_S in *. pose proof (fact_pos m) as P4. pose proof (Qnat_pos (S m) ltac:(lia)) as P5. field. repeat split; lra.
  - field. repeat split; lra.
Qed.

(** few players: every one has its full share *)
Lemma val_few r : NoDup r -> (length r <= K)%nat -> forall p, In p r -> val r p == ind (hit p) / Qnat K.
Proof.
  induction r as [|x r IH] using rev_ind; intros N L p Hp; [destruct Hp|]. rewrite app_length in L. cbn [length] in L. rewrite in_app_iff in Hp.
  pose proof Kpos as P2. destruct Hp as [Hp|[<-|[]]].
  - rewrite val_other by auto. destruct (Nat.leb_spec K (length r)); [lia|]. rewrite IH; [ring|now apply NoDup_front in N|lia|exact Hp].
  - rewrite val_last by auto. rewrite Nat.min_r by lia. pose proof (Qnat_pos (S (length r)) ltac:(lia)) as P3. field. split; lra.
Qed.
(** among the [K] nearest, values differ as the labels do *)
Lemma val_near r : NoDup r -> forall p p', In p (firstn K r) -> In p' (firstn K r) -> val r p - val r p' == (ind (hit p) - ind (hit p')) / Qnat K.
Proof.
  induction r as [|x r IH] using rev_ind; intros N p p' Hp Hp'; [rewrite firstn_nil in Hp; destruct Hp|]. pose proof Kpos as P2.
  destruct (le_lt_dec (length (r ++ [x])) K) as [L|L].
  - rewrite firstn_all2 in Hp, Hp' by auto. rewrite !val_few by auto. field. lra.
  - rewrite app_length in L. cbn [length] in L. rewrite firstn_app in Hp, Hp'. replace (K - length r)%nat with 0%nat in * by lia. cbn [firstn] in Hp, Hp'. rewrite app_nil_r in Hp, Hp'.
    assert (I : forall z, In z (firstn K r) -> In z r) by (intros z Hz; rewrite <- (firstn_skipn K r), in_app_iff; now left).
    rewrite !val_other by auto. rewrite <- (IH (NoDup_front _ _ N) p p' Hp Hp'). ring.
Qed.
(** from the [K]-th on, values are small *)
Lemma ind_unit b : 0 <= ind b /\ ind b <= 1.
Proof. destruct b; cbn; split; lra. Qed.
Lemma val_far r : NoDup r -> forall t p, (K <= S t)%nat -> nth_error r t = Some p ->
  ind (hit p) / Qnat (S t) - (1 / Qnat (S t) - 1 / Qnat (length r)) <= val r p /\ val r p <= ind (hit p) / Qnat (S t).
Proof.
  induction r as [|x r IH] using rev_ind; intros N t p L E; [destruct t; discriminate|]. pose proof Kpos as P2. pose proof (Qnat_pos (S t) ltac:(lia)) as P4.
  assert (Ht : (t < length (r ++ [x]))%nat) by (apply nth_error_Some; congruence). rewrite app_length in Ht |- *. cbn [length] in Ht |- *.
  destruct (Nat.eq_dec t (length r)) as [->|Nt].
  - rewrite nth_error_app2, Nat.sub_diag in E by lia. injection E as <-. rewrite val_last by auto. rewrite Nat.min_l, Nat.add_1_r by lia.
    setoid_replace (ind (hit x) / Qnat K * (Qnat K / Qnat (S (length r)))) with (ind (hit x) / Qnat (S (length r))) by (field; split; lra). split; lra.
  - rewrite nth_error_app1 in E by lia. rewrite val_other by (auto; eapply nth_error_In; eauto). destruct (Nat.leb_spec K (length r)) as [Lr|Lr]; [|lia].
    destruct (IH (NoDup_front _ _ N) t p L E) as (I1 & I2). rewrite Nat.add_1_r.
    pose proof (Qnat_pos (length r) ltac:(lia)) as P5. pose proof (Qnat_pos (S (length r)) ltac:(lia)) as P6.
    assert (D : / (Qnat (length r) * Qnat (S (length r))) == 1 / Qnat (length r) - 1 / Qnat (S (length r))) by (rewrite Qnat_S; field; rewrite Qnat_S in P6; split; lra).
    assert (Dp : 0 <= / (Qnat (length r) * Qnat (S (length r)))) by (apply Qinv_le_0_compat, Qlt_le_weak; nra).
    destruct (ind_unit (hit x)) as (U1 & U2). revert D Dp. generalize (/ (Qnat (length r) * Qnat (S (length r)))). intros d D Dp.
    assert (0 <= ind (hit x) * d) by nra. assert (ind (hit x) * d <= d) by nra. split; lra.
Qed.
Lemma val_far_abs r : NoDup r -> forall t p, (K <= S t)%nat -> nth_error r t = Some p -> Qabs (val r p) <= 1 / Qnat K.
Proof.
  intros N t p L E. destruct (val_far r N t p L E) as (I1 & I2). assert (Ht : (t < length r)%nat) by (apply nth_error_Some; congruence).
  pose proof Kpos as P2. pose proof (Qnat_pos (S t) ltac:(lia)) as P4. pose proof (Qnat_pos (length r) ltac:(lia)) as P5.
  assert (A : 1 / Qnat (S t) <= 1 / Qnat K).
  { apply Qle_shift_div_l; [exact P2|]. setoid_replace (1 / Qnat (S t) * Qnat K) with (Qnat K / Qnat (S t)) by (field; lra).
    apply Qle_shift_div_r; [exact P4|]. rewrite Qmult_1_l. now apply Qnat_le. }
  assert (B : 0 < 1 / Qnat (length r)) by (apply Qlt_shift_div_l; [exact P5|lra]).
  destruct (ind_unit (hit p)) as (U1 & U2).
  assert (C : 0 <= ind (hit p) / Qnat (S t) /\ ind (hit p) / Qnat (S t) <= 1 / Qnat (S t)).
  { split; [apply Qle_shift_div_l; [exact P4|lra]|]. apply Qle_shift_div_l; [exact P4|].
    setoid_replace (ind (hit p) / Qnat (S t) * Qnat (S t)) with (ind (hit p)) by (field; lra). exact U2. }
  apply Qabs_Qle_condition. split; lra.
Qed.

(** the value in the game of this example, [i] itself being among the players *)
Lemma shapley_one n orders r p : all_orders (seq 0 n) orders -> Permutation (i :: r) (seq 0 n) -> (p < n)%nat ->
  shapley_value orders (knn_worth y K r i) p == if Nat.eqb p i then 0 else val r p.
Proof.
  intros O P Hp. assert (N : NoDup (i :: r)) by (apply (Permutation_NoDup (Permutation_sym P)), seq_NoDup). inversion N as [|? ? Ni Nr]; subst.
  assert (N' : NoDup (i :: rev r)) by (constructor; [rewrite <- in_rev; exact Ni|now apply NoDup_rev]).
  assert (P' : Permutation (seq 0 n) (i :: rev r)) by (rewrite <- P; constructor; apply Permutation_rev).
  rewrite (shapley_orders _ _ _ _ _ p P' O (enum_all _ N')). unfold shapley_value, qmean. fold (total (i :: rev r) (knn_worth y K r i) p).
  rewrite map_length, enum_length. cbn [length]. rewrite rev_length. pose proof (fact_pos (S (length r))) as F0. pose proof (fact_pos (length r)) as F1.
  pose proof (Qnat_pos (S (length r)) ltac:(lia)) as P3.
  destruct (Nat.eqb_spec p i) as [->|Np].
  - rewrite (total_null_self r) by (auto using worth_over). field. lra.
  - assert (Hr : In p r).
    { assert (J : In p (i :: r)) by (apply (Permutation_in _ (Permutation_sym P)), in_seq; lia). destruct J as [J|J]; [congruence|exact J]. }
    rewrite (total_null r) by (auto using worth_over; rewrite <- in_rev; exact Hr). rewrite rev_length. unfold val. rewrite fact_S. field. split; lra.
Qed.
End One.

(** ** The whole data set *)
Lemma gain_mean {A} (f : A -> list nat -> Q) l p q : gain (fun s => qmean (map (fun a => f a s) l)) p q == qmean (map (fun a => gain (f a) p q) l).
Proof. unfold gain, qmean. rewrite !map_length, qsum_map_minus. unfold Qdiv. ring. Qed.
Lemma shapley_mean {A} orders (f : A -> list nat -> Q) l p :
  shapley_value orders (fun s => qmean (map (fun a => f a s) l)) p == qmean (map (fun a => shapley_value orders (f a) p) l).
Proof.
  unfold shapley_value at 1. unfold qmean at 1. rewrite map_length.
  rewrite (qsum_map_ext _ (fun q => qsum (map (fun a => gain (f a) p q) l) / Qnat (length l))).
  2:{ intros q _. rewrite gain_mean. unfold qmean. rewrite map_length. reflexivity. }
  rewrite qsum_map_div, qsum_swap. unfold qmean. rewrite map_length.
  rewrite (qsum_map_ext (fun a => shapley_value orders (f a) p) (fun a => qsum (map (gain (f a) p) orders) / Qnat (length orders))).
  2:{ intros a _. unfold shapley_value, qmean. rewrite map_length. reflexivity. }
  rewrite qsum_map_div. unfold Qdiv. rewrite <- !Qmult_assoc. apply Qmult_comp; [reflexivity|]. ring.
Qed.
Lemma shapley_accuracy orders y K ranks p :
  shapley_value orders (knn_accuracy y K ranks) p == qmean (map (fun i => shapley_value orders (knn_worth y K (nth i ranks []) i) p) (seq 0 (length y))).
Proof. apply (shapley_mean orders (fun i s => knn_worth y K (nth i ranks []) i s)). Qed.

Lemma firstn_nth {A} k (l : list A) t d : (t < k)%nat -> nth t (firstn k l) d = nth t l d.
Proof. revert k t. induction l as [|x l IH]; intros [|k] [|t] H; try lia; try reflexivity. cbn. apply IH. lia. Qed.

Section Whole.
Variables (y : list nat) (k : nat) (graph ranks orders : list (list nat)).
Let n := length y.
Hypothesis Hk : (1 <= k)%nat.
Hypothesis HG : knn_graph_ok n k graph.
Hypothesis HN : forall idx, In idx graph -> NoDup idx.
Hypothesis HR : rankings n k graph ranks.
Hypothesis HO : all_orders (seq 0 n) orders.
Let own (a j : nat) : Q := shapley_value orders (knn_worth y k (nth a ranks []) a) j.

Lemma row_facts a : (a < n)%nat -> let r := nth a ranks [] in NoDup r /\ ~ In a r /\ (k <= length r)%nat /\
  firstn k (nth a graph []) = firstn k r /\ nth (k - 1) (nth a graph []) 0%nat = nth (k - 1) r 0%nat /\ Permutation (a :: r) (seq 0 n).
Proof.
  intros Ha r. destruct HR as (L & H). destruct (H a Ha) as (P & F). fold r in P, F. destruct HG as (G1 & G2).
  destruct (G2 (nth a graph []) ltac:(apply nth_In; lia)) as (G3 & _).
  assert (N : NoDup (a :: r)) by (apply (Permutation_NoDup (Permutation_sym P)), seq_NoDup). inversion N; subst.
  assert (Lr : (k <= length r)%nat).
  { assert (E : length (firstn k (nth a graph [])) = length (firstn k r)) by now rewrite F. rewrite !firstn_length in E. lia. }
  split; [assumption|]. split; [assumption|]. split; [exact Lr|]. split; [exact F|]. split; [|exact P].
  rewrite <- (firstn_nth k (nth a graph [])), F, firstn_nth by lia. reflexivity.
Qed.
Lemma own_val a j : (a < n)%nat -> (j < n)%nat -> own a j == if Nat.eqb j a then 0 else val y k a (nth a ranks []) j.
Proof. intros Ha Hj. destruct (row_facts a Ha) as (_ & _ & _ & _ & _ & P). apply (shapley_one y k a Hk n); auto. Qed.

Let relative (a j : nat) : Q :=
  if mem j (firstn k (nth a ranks [])) then own a j - own a (nth (k - 1) (nth a ranks []) 0%nat) else 0.
Lemma in_firstn {A} m (l : list A) x : In x (firstn m l) -> In x l.
Proof. intros H. rewrite <- (firstn_skipn m l), in_app_iff. now left. Qed.
Lemma kth_in a : (a < n)%nat -> In (nth (k - 1) (nth a ranks []) 0%nat) (firstn k (nth a ranks [])).
Proof.
  intros Ha. destruct (row_facts a Ha) as (_ & _ & L & _). rewrite <- (firstn_nth k (nth a ranks [])) by lia. apply nth_In. rewrite firstn_length. lia.
Qed.
Lemma rank_lt a j : (a < n)%nat -> In j (nth a ranks []) -> (j < n)%nat /\ j <> a.
Proof.
  intros Ha Hj. destruct (row_facts a Ha) as (_ & Na & _ & _ & _ & P). split; [|intros ->; auto].
  assert (J : In j (seq 0 n)) by (apply (Permutation_in _ P); now right). apply in_seq in J. lia.
Qed.
Lemma contribution_relative a j : (a < n)%nat -> contribution y k j (nth a y 0%nat) (nth a graph []) / Qnat k == relative a j.
Proof.
  intros Ha. destruct (row_facts a Ha) as (Nr & Na & Lr & F & Ek & P). unfold contribution, relative. rewrite F, Ek. unfold mem.
  pose proof (Qnat_pos k ltac:(lia)) as Pk. destruct (existsb (Nat.eqb j) (firstn k (nth a ranks []))) eqn:E; [|field; lra].
  assert (Hj : In j (firstn k (nth a ranks []))) by (apply existsb_exists in E; destruct E as (z & Hz & Ez); apply Nat.eqb_eq in Ez; now subst).
  pose proof (kth_in a Ha) as Hl. set (l := nth (k - 1) (nth a ranks []) 0%nat) in *.
  destruct (rank_lt a j Ha (in_firstn _ _ _ Hj)) as (J1 & J2). destruct (rank_lt a l Ha (in_firstn _ _ _ Hl)) as (L1 & L2).
  rewrite !own_val by auto. destruct (Nat.eqb_spec j a); [congruence|]. destruct (Nat.eqb_spec l a); [congruence|].
  rewrite (val_near y k a Hk _ Nr j l Hj Hl). unfold agrees, hit, ind. reflexivity.
Qed.

Lemma relative_full scores j : data_shapley_knn graph y k = Ok scores -> (j < n)%nat ->
  2 * nth j scores 0 - 1 == qmean (map (fun a => relative a j) (seq 0 n)).
Proof.
  intros E Hj. rewrite (C27_value_full graph y k scores j Hk HG HN E Hj). unfold qmean. rewrite map_length, seq_length. fold n.
  rewrite <- (qsum_map_ext (fun a => contribution y k j (nth a y 0%nat) (nth a graph []) / Qnat k)).
  2:{ intros a Ha. apply in_seq in Ha. apply contribution_relative. lia. }
  rewrite qsum_map_div. unfold total_contribution. fold n. pose proof (Qnat_pos k ltac:(lia)) as Pk. pose proof (Qnat_pos n ltac:(lia)) as Pn. field. split; lra.
Qed.
Lemma error_one a j : (a < n)%nat -> (j < n)%nat -> Qabs (relative a j - own a j) <= 1 / Qnat k.
Proof.
  intros Ha Hj. destruct (row_facts a Ha) as (Nr & Na & Lr & F & Ek & P). unfold relative. pose proof (Qnat_pos k ltac:(lia)) as Pk.
  destruct (mem j (firstn k (nth a ranks []))) eqn:E.
  - pose proof (kth_in a Ha) as Hl. destruct (rank_lt a _ Ha (in_firstn _ _ _ Hl)) as (L1 & L2).
    setoid_replace (own a j - own a (nth (k - 1) (nth a ranks []) 0%nat) - own a j) with (- own a (nth (k - 1) (nth a ranks []) 0%nat)) by ring.
    rewrite Qabs_opp, own_val by auto. destruct (Nat.eqb_spec (nth (k - 1) (nth a ranks []) 0%nat) a); [congruence|].
    apply (val_far_abs y k a Hk _ Nr (k - 1)%nat); [lia|]. apply nth_error_nth'. lia.
  - setoid_replace (0 - own a j) with (- own a j) by ring. rewrite Qabs_opp, own_val by auto. destruct (Nat.eqb_spec j a) as [|Nj].
    + cbn. apply Qle_shift_div_l; [exact Pk|lra].
    + assert (Hr : In j (nth a ranks [])).
      { assert (J : In j (a :: nth a ranks [])) by (apply (Permutation_in _ (Permutation_sym P)), in_seq; lia). destruct J as [J|J]; [congruence|exact J]. }
      apply In_nth_error in Hr. destruct Hr as (t & Ht). apply (val_far_abs y k a Hk _ Nr t); [|exact Ht].
      destruct (le_lt_dec k t) as [L|L]; [lia|]. exfalso. apply not_true_iff_false in E. apply E. apply mem_in.
      assert (X : nth_error (firstn k (nth a ranks [])) t = Some j) by (rewrite <- Ht; clear -L; revert t L; generalize k as m; generalize (nth a ranks []) as l; induction l as [|x l IH]; intros [|m] [|t] L; try lia; try reflexivity; cbn; apply IH; lia).
      eapply nth_error_In; eauto.
Qed.
Lemma bound_full scores j : data_shapley_knn graph y k = Ok scores -> (j < n)%nat ->
  Qabs (2 * nth j scores 0 - 1 - shapley_value orders (knn_accuracy y k ranks) j) <= 1 / Qnat k.
Proof.
  intros E Hj. rewrite (relative_full scores j E Hj), shapley_accuracy. unfold qmean. rewrite !map_length, !seq_length. fold n.
  pose proof (Qnat_pos k ltac:(lia)) as Pk. pose proof (Qnat_pos n ltac:(lia)) as Pn.
  assert (B : forall a, In a (seq 0 n) -> - (1 / Qnat k) <= relative a j - own a j /\ relative a j - own a j <= 1 / Qnat k).
  { intros a Ha. apply in_seq in Ha. apply Qabs_Qle_condition, error_one; lia. }
  assert (S1 : qsum (map (fun a => relative a j) (seq 0 n)) - qsum (map (fun a => own a j) (seq 0 n)) <= Qnat n * (1 / Qnat k)).
  { rewrite <- qsum_map_minus. rewrite <- (seq_length n 0) at 2. rewrite <- (qsum_map_const (1 / Qnat k) (seq 0 n)). apply qsum_map_le. intros a Ha. now apply B. }
  assert (S2 : Qnat n * (- (1 / Qnat k)) <= qsum (map (fun a => relative a j) (seq 0 n)) - qsum (map (fun a => own a j) (seq 0 n))).
  { rewrite <- qsum_map_minus. rewrite <- (seq_length n 0) at 1. rewrite <- (qsum_map_const (- (1 / Qnat k)) (seq 0 n)). apply qsum_map_le. intros a Ha. now apply B. }
  fold (own). change (fun i => shapley_value orders (knn_worth y k (nth i ranks []) i) j) with (fun a => own a j).
  revert S1 S2. generalize (qsum (map (fun a => relative a j) (seq 0 n))) (qsum (map (fun a => own a j) (seq 0 n))) (1 / Qnat k). intros u v w S1 S2.
  setoid_replace (u / Qnat n - v / Qnat n) with ((u - v) / Qnat n) by (field; lra). apply Qabs_Qle_condition. split.
  - apply Qle_shift_div_l; [exact Pn|]. lra.
  - apply Qle_shift_div_r; [exact Pn|]. lra.
Qed.
End Whole.

(** ** The Shapley values share out the worth of all players *)
Definition set_worth (v : list nat -> Q) : Prop := forall s s', (forall j, In j s <-> In j s') -> v s == v s'.
Lemma gains_telescope v : set_worth v -> forall b a, NoDup (a ++ b) -> qsum (map (fun p => gain v p (a ++ b)) b) == v (a ++ b) - v a.
Proof.
  intros O. induction b as [|x b IH]; intros a N; [rewrite app_nil_r; cbn; ring|]. cbn [map]. rewrite qsum_cons.
  replace (a ++ x :: b) with ((a ++ [x]) ++ b) in * by (rewrite <- app_assoc; reflexivity). rewrite IH by exact N.
  assert (Nx : ~ In x a). { rewrite <- app_assoc in N. cbn in N. apply NoDup_remove_2 in N. rewrite in_app_iff in N. tauto. }
  unfold gain. rewrite <- app_assoc. cbn [app]. rewrite (before_mid x a b Nx). rewrite (O (x :: a) (a ++ [x])); [ring|].
  intros j. rewrite in_app_iff. cbn. tauto.
Qed.
Lemma efficiency_full players orders v : NoDup players -> all_orders players orders -> set_worth v ->
  qsum (map (shapley_value orders v) players) == v players - v [].
Proof.
  intros N (No & H) O.
  assert (L : (0 < length orders)%nat).
  { assert (I : In players orders) by (apply H; reflexivity). destruct orders; [destruct I|cbn; lia]. }
  pose proof (Qnat_pos _ L) as P. unfold shapley_value, qmean. rewrite (qsum_map_ext _ (fun p => qsum (map (gain v p) orders) / Qnat (length orders))) by (intros; rewrite map_length; reflexivity).
  rewrite qsum_map_div, qsum_swap. rewrite (qsum_map_ext _ (fun _ => v players - v [])).
  - rewrite qsum_map_const. field. lra.
  - intros q Hq. apply H in Hq. rewrite <- (qsum_perm _ _ (Permutation_map (fun p => gain v p q) Hq)).
    assert (Nq : NoDup q) by (apply (Permutation_NoDup (Permutation_sym Hq) N)).
    pose proof (gains_telescope v O q [] Nq) as T. cbn [app] in T. rewrite T. rewrite (O q players); [reflexivity|].
    intros j. split; apply Permutation_in; [exact Hq|now symmetry].
Qed.
Lemma accuracy_set y K ranks : set_worth (knn_accuracy y K ranks).
Proof.
  intros s s' H. unfold knn_accuracy. enough (E : map (fun i => knn_worth y K (nth i ranks []) i s) (seq 0 (length y)) = map (fun i => knn_worth y K (nth i ranks []) i s') (seq 0 (length y))) by now rewrite E.
  apply map_ext. intros i. unfold knn_worth. rewrite (filter_ext (fun j => mem j s) (fun j => mem j s')); [reflexivity|]. intros j. apply mem_ext. apply H.
Qed.
