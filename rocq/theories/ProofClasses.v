(** * Proofs about the helpers that count classes *)
From Coq Require Import List ZArith Bool Arith Sorted Lia.
From Verif Require Import Base BaseFacts ModelClasses SpecClasses.
Import ListNotations.
Open Scope nat_scope.

Lemma insert_in z l x : In x (insert_class z l) <-> x = z \/ In x l.
Proof.
  induction l as [|y t IH]; cbn [insert_class]; [cbn; intuition|].
  destruct (Z.ltb_spec z y); [cbn; intuition|]. destruct (Z.eqb_spec z y) as [->|]; [cbn; intuition|]. cbn. rewrite IH. tauto.
Qed.
Lemma insert_sorted z l : StronglySorted Z.lt l -> StronglySorted Z.lt (insert_class z l).
Proof.
  induction 1 as [|y t Ht IH F]; cbn [insert_class]; [repeat constructor|]. rewrite Forall_forall in F.
  destruct (Z.ltb_spec z y).
  - constructor; [constructor; [exact Ht|now apply Forall_forall]|]. apply Forall_forall. intros x [<-|Hx]; [lia|]. specialize (F x Hx). lia.
  - destruct (Z.eqb_spec z y) as [->|N]; [constructor; [exact Ht|now apply Forall_forall]|]. constructor; [exact IH|].
    apply Forall_forall. intros x Hx. apply insert_in in Hx. destruct Hx as [->|Hx]; [lia|now apply F].
Qed.
Lemma unique_in l x : In x (unique_classes l) <-> In x l.
Proof. induction l as [|y t IH]; [tauto|]. change (unique_classes (y :: t)) with (insert_class y (unique_classes t)). rewrite insert_in, IH. cbn. intuition. Qed.
Lemma unique_sorted l : StronglySorted Z.lt (unique_classes l).
Proof. induction l as [|y t IH]; [constructor|]. change (unique_classes (y :: t)) with (insert_class y (unique_classes t)). now apply insert_sorted. Qed.
Lemma sorted_nodup l : StronglySorted Z.lt l -> NoDup l.
Proof.
  induction 1 as [|y t Ht IH F]; constructor; [|exact IH]. rewrite Forall_forall in F. intros I. specialize (F y I). lia.
Qed.
Lemma sorted_same : forall a b, StronglySorted Z.lt a -> StronglySorted Z.lt b -> (forall z, In z a <-> In z b) -> a = b.
Proof.
  induction a as [|x a IH]; intros b Sa Sb H.
  - destruct b as [|y b]; [reflexivity|]. exfalso. apply (proj2 (H y)). now left.
  - destruct b as [|y b]; [exfalso; apply (proj1 (H x)); now left|].
    inversion Sa as [|? ? Sa' Fa]; subst. inversion Sb as [|? ? Sb' Fb]; subst. rewrite Forall_forall in Fa, Fb.
    assert (E : x = y).
    { destruct (proj1 (H x) (or_introl eq_refl)) as [E|I]; [auto|]. destruct (proj2 (H y) (or_introl eq_refl)) as [E|J]; [auto|].
      specialize (Fb x I). specialize (Fa y J). lia. }
    subst y. f_equal. apply IH; [exact Sa'|exact Sb'|]. intros z. split; intros I.
    + destruct (proj1 (H z) (or_intror I)) as [<-|J]; [specialize (Fa x I); lia|exact J].
    + destruct (proj2 (H z) (or_intror I)) as [<-|J]; [specialize (Fb x I); lia|exact J].
Qed.
Lemma names_unique x names : names_of x names -> unique_classes x = names.
Proof. intros (S0 & H). apply sorted_same; [apply unique_sorted|exact S0|]. intros z. rewrite unique_in. symmetry. apply H. Qed.
Lemma count_is z l : count_class z l = count_occ Z.eq_dec l z.
Proof.
  induction l as [|y t IH]; [reflexivity|]. unfold count_class in *. cbn [filter count_occ].
  destruct (Z.eqb_spec z y) as [E1|N]; destruct (Z.eq_dec y z) as [E|N']; cbn [length]; congruence.
Qed.
(** the counts of a list without repetition that contains all labels add up *)
Lemma counts_total : forall x names, NoDup names -> (forall z, In z x -> In z names) ->
  list_sum (map (count_occ Z.eq_dec x) names) = length x.
Proof.
  induction x as [|y x IH]; intros names Nd H.
  - cbn. induction names; [reflexivity|]. cbn. apply IHnames; [now inversion Nd|intros ? []].
  - cbn [length]. rewrite <- (IH names Nd) by (intros z Hz; apply H; now right).
    assert (I : In y names) by (apply H; now left). clear H IH. induction names as [|a names IHn]; [destruct I|].
    inversion Nd as [|? ? Na Nd']; subst. cbn [map list_sum fold_right count_occ]. fold (list_sum (map (count_occ Z.eq_dec (y :: x)) names)). fold (list_sum (map (count_occ Z.eq_dec x) names)).
    destruct (Z.eq_dec y a) as [->|N].
    + assert (E : map (count_occ Z.eq_dec (a :: x)) names = map (count_occ Z.eq_dec x) names).
      { apply map_ext_in. intros b Hb. cbn. destruct (Z.eq_dec a b) as [->|]; [contradiction|reflexivity]. }
      cbn [count_occ] in E. unfold list_sum in *. cbn in *. rewrite E. lia.
    + destruct I as [->|I]; [congruence|]. specialize (IHn Nd' I). unfold list_sum in *. cbn [fold_right count_occ] in *. lia.
Qed.
Lemma compact_full integers x names : names_of x names ->
  exists c, value_counts integers x None = Ok c /\ length c = length names /\
    (forall i, i < length names -> times (nth i names 0%Z) x (nth i c 0) /\ 0 < nth i c 0) /\ list_sum c = length x.
Proof.
  intros H. unfold value_counts. rewrite (names_unique x names H). eexists. split; [reflexivity|]. split; [apply map_length|].
  assert (E : map (fun v => count_class v x) names = map (count_occ Z.eq_dec x) names) by (apply map_ext; intros; apply count_is).
  split.
  - intros i Hi. rewrite E, (nth_indep _ 0 (count_occ Z.eq_dec x 0%Z)) by (rewrite map_length; exact Hi). rewrite map_nth.
    split; [reflexivity|]. apply count_occ_In, (proj2 H), nth_In, Hi.
  - rewrite E. apply counts_total; [apply sorted_nodup, H|intros z; apply (proj2 H)].
Qed.

Lemma upd_length {X} (l : list X) i v : length (upd l i v) = length l.
Proof. revert i. induction l as [|a l IH]; intros [|i]; cbn; auto. Qed.
Lemma nth_updated {X} (l : list X) i j v d : i < length l -> nth j (upd l i v) d = if Nat.eqb j i then v else nth j l d.
Proof. revert i j. induction l as [|a l IH]; intros [|i] [|j] H; cbn in *; try lia; auto. apply IH. lia. Qed.
Lemma put_all K f : forall u a, length a = K -> NoDup u -> (forall z, In z u -> (0 <= z < Z.of_nat K)%Z) ->
  exists c, fold_left put_count (combine u (map f u)) (Ok a) = Ok c /\ length c = K /\
    forall k, k < K -> (In (Z.of_nat k) u -> nth k c 0 = f (Z.of_nat k)) /\ (~ In (Z.of_nat k) u -> nth k c 0 = nth k a 0).
Proof.
  induction u as [|z u IH]; intros a La Nd R.
  - exists a. split; [reflexivity|]. split; [exact La|]. intros k Hk. split; [intros []|reflexivity].
  - inversion Nd as [|? ? Nz Nd']; subst. pose proof (R z (or_introl eq_refl)) as Rz. cbn [map combine fold_left].
    unfold put_count at 2. cbn [rbind fst snd]. destruct (Z.ltb_spec z 0); [lia|].
    destruct (Z.leb_spec 0 z); [|lia]. destruct (Z.ltb_spec z (Z.of_nat (length a))); [|lia]. cbn [andb].
    destruct (IH (upd a (Z.to_nat z) (f z))) as (c & Ec & Lc & Hc); [apply upd_length|exact Nd'|intros y Hy; apply R; now right|].
    exists c. split; [exact Ec|]. split; [exact Lc|]. intros k Hk. destruct (Hc k Hk) as (P1 & P2).
    rewrite nth_updated in P2 by lia. split.
    + intros [->|I]; [|exact (P1 I)]. rewrite Nat2Z.id in P2. rewrite Nat.eqb_refl in P2. exact (P2 Nz).
    + intros N. rewrite P2 by (intros I; apply N; now right). destruct (Nat.eqb_spec k (Z.to_nat z)) as [->|]; [|reflexivity].
      exfalso. apply N. left. lia.
Qed.
Lemma last_in {X} (l : list X) d : l <> [] -> In (last l d) l.
Proof. induction l as [|a [|b l] IH]; intros H; [congruence|now left|right; apply IH; discriminate]. Qed.
Lemma last_max : forall l z, StronglySorted Z.lt l -> In z l -> (z <= last l 0)%Z.
Proof.
  induction l as [|a l IH]; intros z S0 I; [destruct I|]. inversion S0 as [|? ? S1 F]; subst. rewrite Forall_forall in F.
  destruct l as [|b l]; [destruct I as [->|[]]; reflexivity|]. change (last (a :: b :: l) 0%Z) with (last (b :: l) 0%Z).
  destruct I as [->|I]; [|now apply IH]. specialize (F _ (last_in (b :: l) 0%Z ltac:(discriminate))). lia.
Qed.
Lemma seq_sorted n : forall s, StronglySorted Z.lt (map Z.of_nat (seq s n)).
Proof.
  induction n as [|n IH]; intros s; [constructor|]. cbn [seq map]. constructor; [apply IH|]. apply Forall_forall.
  intros x Hx. apply in_map_iff in Hx. destruct Hx as (k & <- & Hk). apply in_seq in Hk. lia.
Qed.
Lemma seq_classes K z : In z (map Z.of_nat (seq 0 K)) <-> (0 <= z < Z.of_nat K)%Z.
Proof.
  rewrite in_map_iff. split.
  - intros (k & <- & Hk). apply in_seq in Hk. lia.
  - intros H. exists (Z.to_nat z). split; [lia|]. apply in_seq. lia.
Qed.
Lemma nth_seq_map {X} (f : Z -> X) K k d : k < K -> nth k (map f (map Z.of_nat (seq 0 K))) d = f (Z.of_nat k).
Proof.
  intros H. rewrite map_map, (nth_indep _ d (f (Z.of_nat 0))) by (rewrite map_length, seq_length; exact H).
  rewrite (map_nth (fun x => f (Z.of_nat x))), seq_nth by exact H. reflexivity.
Qed.
Lemma counts_full x K : (forall z, In z x -> (0 <= z < Z.of_nat K)%Z) ->
  exists c, value_counts true x (Some K) = Ok c /\ length c = K /\
    (forall k, k < K -> times (Z.of_nat k) x (nth k c 0)) /\ list_sum c = length x.
Proof.
  intros R.
  assert (Sum : forall c, length c = K -> (forall k, k < K -> times (Z.of_nat k) x (nth k c 0)) -> list_sum c = length x).
  { intros c Lc Hc. rewrite <- (counts_total x (map Z.of_nat (seq 0 K))).
    - f_equal. apply (nth_ext _ _ 0 0); [rewrite !map_length, seq_length; exact Lc|]. intros k Hk. rewrite nth_seq_map by lia.
      symmetry. apply Hc. lia.
    - apply sorted_nodup, seq_sorted.
    - intros z Hz. apply seq_classes, R, Hz. }
  assert (Goal_ : exists c, value_counts true x (Some K) = Ok c /\ length c = K /\ forall k, k < K -> times (Z.of_nat k) x (nth k c 0)).
  { unfold value_counts. pose proof (unique_sorted x) as Su. pose proof (unique_in x) as Iu.
    destruct (Nat.eqb_spec K (length (unique_classes x))) as [E|N].
    - assert (Eu : unique_classes x = map Z.of_nat (seq 0 K)).
      { apply sorted_same; [exact Su|apply seq_sorted|]. intros z. split.
        - intros I. apply seq_classes, R, Iu, I.
        - apply NoDup_length_incl; [apply sorted_nodup, Su|rewrite map_length, seq_length; lia|].
          intros y Hy. apply seq_classes, R, Iu, Hy. }
      rewrite Eu. eexists. split; [reflexivity|]. split; [rewrite !map_length, seq_length; reflexivity|].
      intros k Hk. rewrite nth_seq_map by exact Hk. unfold times. now rewrite count_is.
    - destruct (unique_classes x) as [|a u] eqn:Eu.
      + eexists. split; [reflexivity|]. split; [apply repeat_length|]. intros k _. unfold times. rewrite nth_repeat.
        destruct x as [|y x]; [reflexivity|]. exfalso. apply (proj2 (Iu y)). now left.
      + rewrite <- Eu in *. destruct (Z.leb_spec (Z.of_nat K) (last (unique_classes x) 0%Z)) as [H|H].
        { exfalso. assert (I : In (last (unique_classes x) 0%Z) (unique_classes x)) by (apply last_in; rewrite Eu; discriminate).
          apply Iu, R in I. lia. }
        destruct (put_all K (fun v => count_class v x) (unique_classes x) (repeat 0 K)) as (c & Ec & Lc & Hc);
          [apply repeat_length|apply sorted_nodup, Su|intros z Hz; apply R, Iu, Hz|].
        exists c. split; [exact Ec|]. split; [exact Lc|]. intros k Hk. destruct (Hc k Hk) as (H1 & H2). unfold times.
        destruct (in_dec Z.eq_dec (Z.of_nat k) (unique_classes x)) as [I|I].
        * rewrite (H1 I). symmetry. apply count_is.
        * rewrite (H2 I), nth_repeat. apply count_occ_not_In. intros J. apply I, Iu, J. }
  destruct Goal_ as (c & Ec & Lc & Hc). exists c. split; [exact Ec|]. split; [exact Lc|]. split; [exact Hc|]. now apply Sum.
Qed.
Lemma counts_multi_full x K : (forall l z, In l x -> In z l -> (0 <= z < Z.of_nat K)%Z) ->
  exists c, value_counts_multi x (Some K) = Ok c /\ length c = K /\
    (forall k, k < K -> times (Z.of_nat k) (concat x) (nth k c 0)) /\ list_sum c = list_sum (map (@length Z) x).
Proof.
  intros H. destruct (counts_full (concat x) K) as (c & E & L & T & Sm).
  { intros z Hz. apply in_concat in Hz. destruct Hz as (l & Hl & Hz). exact (H l z Hl Hz). }
  exists c. split; [exact E|]. split; [exact L|]. split; [exact T|]. rewrite Sm. clear. induction x as [|l x IH]; [reflexivity|].
  cbn [concat map]. rewrite app_length, IH. reflexivity.
Qed.
Lemma words_full x names K : names_of x names -> match value_counts false x (Some K) with
  | Ok c => length names <= K /\ length c = K /\ (forall i, i < length names -> times (nth i names 0%Z) x (nth i c 0)) /\
      (forall i, length names <= i -> nth i c 0 = 0)
  | Raise e => e = ValueError /\ K < length names
  end.
Proof.
  intros H. pose proof (names_unique x names H) as Eu. unfold value_counts. rewrite Eu.
  assert (C : forall i, i < length names -> times (nth i names 0%Z) x (nth i (map (fun v => count_class v x) names) 0)).
  { intros i Hi. rewrite (nth_indep _ 0 (count_class 0%Z x)) by (rewrite map_length; exact Hi).
    rewrite (map_nth (fun v => count_class v x)). symmetry. apply count_is. }
  destruct (Nat.eqb_spec K (length names)) as [E|N].
  - split; [lia|]. split; [rewrite map_length; lia|]. split; [exact C|]. intros i Hi. apply nth_overflow. rewrite map_length. exact Hi.
  - destruct names as [|a names'] eqn:En.
    + split; [cbn; lia|]. split; [apply repeat_length|]. split; [intros i Hi; cbn in Hi; lia|]. intros i _. apply nth_repeat.
    + rewrite <- En in *. rewrite map_length. destruct (Nat.ltb_spec K (length names)) as [L|L]; [split; [reflexivity|exact L]|].
      split; [lia|]. split; [rewrite app_length, map_length, repeat_length; lia|]. split.
      * intros i Hi. rewrite app_nth1 by (rewrite map_length; exact Hi). now apply C.
      * intros i Hi. rewrite app_nth2 by (rewrite map_length; exact Hi). apply nth_repeat.
Qed.
Lemma outside_full x names K z : names_of x names -> length names <> K -> In z x -> (Z.of_nat K <= z)%Z ->
  value_counts true x (Some K) = Raise ValueError.
Proof.
  intros H Nk Iz Hz. pose proof (names_unique x names H) as Eu. unfold value_counts. rewrite Eu.
  destruct (Nat.eqb_spec K (length names)); [congruence|]. destruct H as (S0 & I0).
  destruct names as [|a names'] eqn:En; [exfalso; now apply (I0 z)|]. rewrite <- En in *.
  pose proof (last_max names z S0 (proj2 (I0 z) Iz)). destruct (Z.leb_spec (Z.of_nat K) (last names 0%Z)); [reflexivity|lia].
Qed.

Lemma put_stuck l : fold_left put_count l (Raise IndexError) = Raise IndexError.
Proof. induction l as [|v l IH]; [reflexivity|exact IH]. Qed.
Lemma below_full x names K z : names_of x names -> length names <> K -> In z x -> (z < - Z.of_nat K)%Z ->
  (forall y, In y x -> (y < Z.of_nat K)%Z) -> value_counts true x (Some K) = Raise IndexError.
Proof.
  intros H Nk Iz Hz Hb. pose proof (names_unique x names H) as Eu. unfold value_counts. rewrite Eu.
  destruct (Nat.eqb_spec K (length names)); [congruence|]. destruct H as (S0 & I0).
  destruct names as [|a names'] eqn:En; [exfalso; now apply (I0 z)|]. rewrite <- En in *.
  assert (Hl : (last names 0 < Z.of_nat K)%Z) by (apply Hb, I0, last_in; rewrite En; discriminate).
  destruct (Z.leb_spec (Z.of_nat K) (last names 0%Z)); [lia|]. rewrite En. cbn [map combine fold_left].
  assert (Ha : (a <= z)%Z).
  { rewrite En in S0, I0. inversion S0 as [|? ? _ F]; subst. rewrite Forall_forall in F. destruct (proj2 (I0 z) Iz) as [->|I]; [lia|specialize (F z I); lia]. }
  unfold put_count at 2. cbn [rbind fst]. rewrite repeat_length. destruct (Z.ltb_spec a 0); [|lia].
  destruct (Z.leb_spec 0 (a + Z.of_nat K)); [lia|]. cbn [andb]. apply put_stuck.
Qed.

(** ** sets of classes *)
Lemma rmap_one : forall labels, all_single labels -> exists ls,
  rmap (fun e => match e with One z => Ok z | Many _ => Raise TypeError end) labels = Ok ls /\ forall z, In z ls <-> used labels z.
Proof.
  induction labels as [|e labels IH]; intros H.
  - exists []. split; [reflexivity|]. intros z. split; [intros []|intros (e & [] & _)].
  - destruct (H e (or_introl eq_refl)) as (y & ->). destruct IH as (ls & E & Hl); [intros e He; apply H; now right|].
    exists (y :: ls). cbn [rmap rbind]. rewrite E. split; [reflexivity|]. intros z. cbn [In]. rewrite Hl. split.
    + intros [<-|(e & He & Hz)]; [exists (One y); split; [now left|reflexivity]|exists e; split; [now right|exact Hz]].
    + intros (e & [<-|He] & Hz); [left; exact Hz|right; exists e; auto].
Qed.
Lemma rmap_many : forall labels, all_lists labels -> exists ls,
  rmap (fun e => match e with Many l => Ok l | One _ => Raise TypeError end) labels = Ok ls /\ forall z, In z (concat ls) <-> used labels z.
Proof.
  induction labels as [|e labels IH]; intros H.
  - exists []. split; [reflexivity|]. intros z. split; [intros []|intros (e & [] & _)].
  - destruct (H e (or_introl eq_refl)) as (y & ->). destruct IH as (ls & E & Hl); [intros e He; apply H; now right|].
    exists (y :: ls). cbn [rmap rbind]. rewrite E. split; [reflexivity|]. intros z. cbn [concat]. rewrite in_app_iff, Hl. split.
    + intros [Hy|(e & He & Hz)]; [exists (Many y); split; [now left|exact Hy]|exists e; split; [now right|exact Hz]].
    + intros (e & [<-|He] & Hz); [left; exact Hz|right; exists e; auto].
Qed.
Lemma none_many labels : all_single labels -> existsb is_many labels = false.
Proof.
  intros H. destruct (existsb is_many labels) eqn:E; [|reflexivity]. apply existsb_exists in E. destruct E as (e & He & Hm).
  destruct (H e He) as (z & ->). discriminate.
Qed.
Lemma unique_full labels m : accepted labels m ->
  exists u, get_unique_classes labels m = Ok u /\ NoDup u /\ forall z, In z u <-> used labels z.
Proof.
  assert (S1 : all_single labels -> forall b, (match b with Some b => b | None => existsb is_many labels end) = false ->
     exists u, get_unique_classes labels b = Ok u /\ NoDup u /\ forall z, In z u <-> used labels z).
  { intros H b Hb. unfold get_unique_classes. rewrite Hb. destruct (rmap_one labels H) as (ls & E & Hl). rewrite E. cbn [rbind].
    eexists. split; [reflexivity|]. split; [apply sorted_nodup, unique_sorted|]. intros z. rewrite unique_in. apply Hl. }
  intros [(H & Hm)|(H & Hm)].
  - apply S1; [exact H|]. destruct m as [[|]|]; [congruence|reflexivity|now apply none_many].
  - assert (D : labels = [] /\ m = None \/ (match m with Some b => b | None => existsb is_many labels end) = true).
    { destruct m as [[|]|]; [now right|congruence|]. destruct labels as [|e labels]; [now left|right].
      destruct (H e (or_introl eq_refl)) as (l & ->). reflexivity. }
    destruct D as [(-> & ->)|D]; [apply S1; [intros e []|reflexivity]|].
    unfold get_unique_classes. rewrite D. destruct (rmap_many labels H) as (ls & E & Hl). rewrite E. cbn [rbind].
    eexists. split; [reflexivity|]. split; [apply sorted_nodup, unique_sorted|]. intros z. rewrite unique_in. apply Hl.
Qed.
Lemma rmap_type_error {X Y} (f : X -> res Y) : forall l x, In x l -> f x = Raise TypeError ->
  (forall y, f y = Raise TypeError \/ exists v, f y = Ok v) -> rmap f l = Raise TypeError.
Proof.
  induction l as [|a l IH]; intros x I Hx H; [destruct I|]. cbn [rmap]. destruct (H a) as [E|(v & E)]; rewrite E; [reflexivity|]. cbn [rbind].
  destruct I as [->|I]; [congruence|]. rewrite (IH x I Hx H). reflexivity.
Qed.
Lemma mixed_full labels m y l : In (One y) labels -> In (Many l) labels -> get_unique_classes labels m = Raise TypeError.
Proof.
  intros I1 I2. unfold get_unique_classes. destruct (match m with Some b => b | None => existsb is_many labels end).
  - rewrite (rmap_type_error _ labels (One y) I1 eq_refl); [reflexivity|]. intros [z|z]; [now left|right; eauto].
  - rewrite (rmap_type_error _ labels (Many l) I2 eq_refl); [reflexivity|]. intros [z|z]; [right; eauto|now left].
Qed.
Lemma filter_seq_sorted f n : forall s, StronglySorted lt (filter f (seq s n)).
Proof.
  induction n as [|n IH]; intros s; [constructor|]. cbn [seq filter]. destruct (f s); [|apply IH]. constructor; [apply IH|].
  apply Forall_forall. intros x Hx. apply filter_In in Hx. destruct Hx as (Hx & _). apply in_seq in Hx. lia.
Qed.
Lemma missing_full labels m K : accepted labels m -> exists r,
  get_missing_classes labels (Some K) None m = Ok r /\ get_missing_classes labels None (Some K) m = Ok r /\
  StronglySorted lt r /\ forall k, In k r <-> k < K /\ ~ used labels (Z.of_nat k).
Proof.
  intros H. destruct (unique_full labels m H) as (u & E & Nd & Hu). unfold get_missing_classes. rewrite E. cbn [rbind].
  eexists. split; [reflexivity|]. split; [reflexivity|]. split; [apply filter_seq_sorted|]. intros k. rewrite filter_In, in_seq, <- Hu.
  split.
  - intros (Hk & B). split; [lia|]. intros I. apply negb_true_iff in B. assert (T : existsb (Z.eqb (Z.of_nat k)) u = true).
    { apply existsb_exists. exists (Z.of_nat k). split; [exact I|apply Z.eqb_refl]. } congruence.
  - intros (Hk & N). split; [lia|]. apply negb_true_iff. destruct (existsb (Z.eqb (Z.of_nat k)) u) eqn:B; [|reflexivity].
    exfalso. apply existsb_exists in B. destruct B as (z & I & Ez). apply Z.eqb_eq in Ez. subst z. contradiction.
Qed.
