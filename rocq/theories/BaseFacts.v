(** * Lemmas about the array vocabulary of Base.v *)
From Coq Require Import QArith Qabs Qround List Permutation Sorted ZArith Bool Arith Lia Lqa Setoid Morphisms.
From Verif Require Import Base.
Import ListNotations.
Open Scope Q_scope.

(** ** Booleans on Q *)
Lemma Qleb_iff x y : Qleb x y = true <-> x <= y.
Proof. unfold Qleb; apply Qle_bool_iff. Qed.
Lemma Qltb_iff x y : Qltb x y = true <-> x < y.
Proof.
  unfold Qltb. rewrite negb_true_iff. split; intro H.
  - apply Qnot_le_lt. intro C. apply Qle_bool_iff in C. congruence.
  - apply not_true_is_false. intro C. apply Qle_bool_iff in C. lra.
Qed.
Lemma Qleb_false x y : Qleb x y = false <-> y < x.
Proof.
  rewrite <- Qltb_iff. unfold Qltb, Qleb. rewrite negb_true_iff. tauto.
Qed.
Lemma Qle_bool_false x y : Qle_bool x y = false <-> y < x.
Proof. apply Qleb_false. Qed.
Lemma Qltb_false x y : Qltb x y = false <-> y <= x.
Proof. unfold Qltb. rewrite negb_false_iff. apply Qle_bool_iff. Qed.

Ltac qb :=
  repeat match goal with
  | H : Qle_bool _ _ = true |- _ => apply Qle_bool_iff in H
  | H : Qle_bool _ _ = false |- _ => apply Qle_bool_false in H
  | H : Qleb _ _ = true |- _ => apply Qleb_iff in H
  | H : Qleb _ _ = false |- _ => apply Qleb_false in H
  | H : Qltb _ _ = true |- _ => apply Qltb_iff in H
  | H : Qltb _ _ = false |- _ => apply Qltb_false in H
  | |- Qle_bool _ _ = true => apply Qle_bool_iff
  | |- Qle_bool _ _ = false => apply Qle_bool_false
  | |- Qleb _ _ = true => apply Qleb_iff
  | |- Qleb _ _ = false => apply Qleb_false
  | |- Qltb _ _ = true => apply Qltb_iff
  | |- Qltb _ _ = false => apply Qltb_false
  end.

#[export] Instance Qltb_Proper : Proper (Qeq ==> Qeq ==> eq) Qltb.
Proof.
  intros x x' Hx y y' Hy. destruct (Qltb x y) eqn:E; symmetry; qb; lra.
Qed.
#[export] Instance Qleb_Proper : Proper (Qeq ==> Qeq ==> eq) Qleb.
Proof.
  intros x x' Hx y y' Hy. destruct (Qleb x y) eqn:E; symmetry; qb; lra.
Qed.

Lemma qmax_spec x y : (x <= y /\ qmax x y = y) \/ (y < x /\ qmax x y = x).
Proof. unfold qmax. destruct (Qle_bool x y) eqn:E; qb; auto. Qed.
Lemma qmin_spec x y : (x <= y /\ qmin x y = x) \/ (y < x /\ qmin x y = y).
Proof. unfold qmin. destruct (Qle_bool x y) eqn:E; qb; auto. Qed.

Ltac qmm :=
  repeat match goal with
  | |- context [qmax ?x ?y] =>
      let H := fresh "Hm" in let E := fresh "Em" in
      destruct (qmax_spec x y) as [[H E]|[H E]]; rewrite E in *; clear E
  | |- context [qmin ?x ?y] =>
      let H := fresh "Hm" in let E := fresh "Em" in
      destruct (qmin_spec x y) as [[H E]|[H E]]; rewrite E in *; clear E
  end.

#[export] Instance qmax_Proper : Proper (Qeq ==> Qeq ==> Qeq) qmax.
Proof. intros x x' Hx y y' Hy. qmm; lra. Qed.
#[export] Instance qmin_Proper : Proper (Qeq ==> Qeq ==> Qeq) qmin.
Proof. intros x x' Hx y y' Hy. qmm; lra. Qed.

Lemma clip_lo_ge lo x : lo <= clip_lo lo x.
Proof. unfold clip_lo. qmm; lra. Qed.
Lemma clip_lo_id lo x : lo <= x -> clip_lo lo x == x.
Proof. unfold clip_lo. intro H. qmm; lra. Qed.
#[export] Instance clip_lo_Proper : Proper (Qeq ==> Qeq ==> Qeq) clip_lo.
Proof. unfold clip_lo. solve_proper. Qed.

(** ** Qnat *)
Lemma Qnat_nonneg n : 0 <= Qnat n.
Proof. unfold Qnat. change 0 with (inject_Z 0). rewrite <- Zle_Qle. lia. Qed.
Lemma Qnat_pos n : (0 < n)%nat -> 0 < Qnat n.
Proof. unfold Qnat. intro. change 0 with (inject_Z 0). rewrite <- Zlt_Qlt. lia. Qed.
Lemma Qnat_S n : Qnat (S n) == Qnat n + 1.
Proof. unfold Qnat. rewrite Nat2Z.inj_succ. unfold Z.succ. rewrite inject_Z_plus. reflexivity. Qed.
Lemma Qnat_plus a b : Qnat (a + b) == Qnat a + Qnat b.
Proof. unfold Qnat. rewrite Nat2Z.inj_add. rewrite inject_Z_plus. reflexivity. Qed.
Lemma Qnat_0 : Qnat 0 == 0.
Proof. reflexivity. Qed.
Lemma Qnat_le a b : (a <= b)%nat -> Qnat a <= Qnat b.
Proof. unfold Qnat. intro. rewrite <- Zle_Qle. lia. Qed.
Lemma Qnat_le_iff a b : Qnat a <= Qnat b <-> (a <= b)%nat.
Proof. unfold Qnat. rewrite <- Zle_Qle. lia. Qed.
Lemma Qnat_lt_iff a b : Qnat a < Qnat b <-> (a < b)%nat.
Proof. unfold Qnat. rewrite <- Zlt_Qlt. lia. Qed.
Lemma Qnat_eq_iff a b : Qnat a == Qnat b <-> a = b.
Proof. unfold Qnat. rewrite inject_Z_injective. lia. Qed.

(** ** Sums *)
Lemma qsum_nil : qsum [] = 0. Proof. reflexivity. Qed.
Lemma qsum_cons x l : qsum (x :: l) = x + qsum l. Proof. reflexivity. Qed.
Lemma qsum_app a b : qsum (a ++ b) == qsum a + qsum b.
Proof. induction a; simpl; [unfold qsum; simpl; ring|]. rewrite IHa. ring. Qed.
Lemma qsum_perm a b : Permutation a b -> qsum a == qsum b.
Proof.
  induction 1; simpl; try reflexivity.
  - rewrite IHPermutation. reflexivity.
  - ring.
  - etransitivity; eassumption.
Qed.
Lemma qsum_map_ext {A} (f g : A -> Q) l :
  (forall x, In x l -> f x == g x) -> qsum (map f l) == qsum (map g l).
Proof.
  induction l; simpl; intros H; [reflexivity|].
  rewrite IHl by (intros; apply H; auto). rewrite (H a) by auto. reflexivity.
Qed.
Lemma qsum_map_scale {A} (f : A -> Q) c l : qsum (map (fun x => c * f x) l) == c * qsum (map f l).
Proof. induction l; simpl; [ring|]. rewrite IHl. ring. Qed.
Lemma qsum_map_scale_r {A} (f : A -> Q) c l : qsum (map (fun x => f x * c) l) == qsum (map f l) * c.
Proof. induction l; simpl; [ring|]. rewrite IHl. ring. Qed.
Lemma qsum_map_div {A} (f : A -> Q) c l : qsum (map (fun x => f x / c) l) == qsum (map f l) / c.
Proof. unfold Qdiv. apply qsum_map_scale_r. Qed.
Lemma qsum_map_plus {A} (f g : A -> Q) l :
  qsum (map (fun x => f x + g x) l) == qsum (map f l) + qsum (map g l).
Proof. induction l; simpl; [ring|]. rewrite IHl. ring. Qed.
Lemma qsum_map_minus {A} (f g : A -> Q) l :
  qsum (map (fun x => f x - g x) l) == qsum (map f l) - qsum (map g l).
Proof. induction l; simpl; [ring|]. rewrite IHl. ring. Qed.
Lemma qsum_map_const {A} c (l : list A) : qsum (map (fun _ => c) l) == Qnat (length l) * c.
Proof. induction l; cbn [map qsum fold_right length]; [rewrite Qnat_0; ring|]. fold (qsum (map (fun _ : A => c) l)). rewrite IHl, Qnat_S. ring. Qed.
Lemma qsum_map_le {A} (f g : A -> Q) l :
  (forall x, In x l -> f x <= g x) -> qsum (map f l) <= qsum (map g l).
Proof.
  induction l; simpl; intros H; [lra|].
  assert (f a <= g a) by auto. assert (qsum (map f l) <= qsum (map g l)) by auto. lra.
Qed.
Lemma qsum_nonneg l : (forall x, In x l -> 0 <= x) -> 0 <= qsum l.
Proof.
  induction l; simpl; intros H; [lra|].
  assert (0 <= a) by auto. assert (0 <= qsum l) by auto. lra.
Qed.
Lemma qsum_map_nonneg {A} (f : A -> Q) l : (forall x, In x l -> 0 <= f x) -> 0 <= qsum (map f l).
Proof. intros H. apply qsum_nonneg. intros x Hx. apply in_map_iff in Hx as (y & <- & Hy). auto. Qed.
Lemma qsum_ge_elem l x : (forall y, In y l -> 0 <= y) -> In x l -> x <= qsum l.
Proof.
  induction l; simpl; intros H Hin; [tauto|].
  assert (0 <= qsum l) by (apply qsum_nonneg; auto). assert (0 <= a) by auto.
  destruct Hin as [->|Hin]; [lra|]. assert (x <= qsum l) by auto. lra.
Qed.
Lemma qsum_Forall2 a b : Forall2 Qeq a b -> qsum a == qsum b.
Proof. induction 1; simpl; [reflexivity|]. rewrite H, IHForall2. reflexivity. Qed.
Lemma qsum_zero l : (forall x, In x l -> x == 0) -> qsum l == 0.
Proof.
  induction l; simpl; intros H; [reflexivity|]. rewrite (H a), IHl by auto. ring.
Qed.
Lemma qsum_swap {A B} (f : A -> B -> Q) la lb :
  qsum (map (fun a => qsum (map (fun b => f a b) lb)) la) ==
  qsum (map (fun b => qsum (map (fun a => f a b) la)) lb).
Proof.
  induction la; simpl.
  - symmetry. apply qsum_zero. intros x Hx. apply in_map_iff in Hx as (? & <- & ?). reflexivity.
  - rewrite IHla. rewrite <- qsum_map_plus. apply qsum_map_ext. intros. reflexivity.
Qed.
Lemma qsum_inject l : qsum (map inject_Z l) == inject_Z (zsum l).
Proof. induction l; simpl; [reflexivity|]. rewrite IHl, inject_Z_plus. reflexivity. Qed.
Lemma qsum_indicator (f : nat -> Q) i n m :
  (m <= i < m + n)%nat ->
  qsum (map (fun j => if Nat.eqb j i then f j else 0) (seq m n)) == f i.
Proof.
  revert m. induction n; intros m H; [lia|]. simpl.
  destruct (Nat.eqb_spec m i).
  - subst. rewrite (qsum_zero (map _ _)); [ring|].
    intros x Hx. apply in_map_iff in Hx as (j & <- & Hj). apply in_seq in Hj.
    destruct (Nat.eqb_spec j i); [lia|reflexivity].
  - rewrite IHn by lia. ring.
Qed.

Lemma zsum_app a b : zsum (a ++ b) = (zsum a + zsum b)%Z.
Proof. induction a; simpl; [reflexivity|]. rewrite IHa. lia. Qed.
Lemma zsum_perm a b : Permutation a b -> zsum a = zsum b.
Proof. induction 1; simpl; lia. Qed.
Lemma nsum_perm a b : Permutation a b -> nsum a = nsum b.
Proof. induction 1; simpl; lia. Qed.
Lemma nsum_app a b : nsum (a ++ b) = (nsum a + nsum b)%nat.
Proof. induction a; simpl; [reflexivity|]. rewrite IHa. lia. Qed.

(** ** tab *)
Lemma tab_length {A} n (f : nat -> A) : length (tab n f) = n.
Proof. unfold tab. rewrite map_length, seq_length. reflexivity. Qed.
Lemma nth_tab {A} n (f : nat -> A) i d : (i < n)%nat -> nth i (tab n f) d = f i.
Proof.
  intros H. unfold tab. rewrite nth_indep with (d' := f 0%nat) by (rewrite map_length, seq_length; lia).
  rewrite map_nth. rewrite seq_nth by lia. reflexivity.
Qed.
Lemma nth_map_gen {A B} (f : A -> B) l i d d' : (i < length l)%nat -> nth i (map f l) d = f (nth i l d').
Proof. intros H. rewrite nth_indep with (d' := f d') by (rewrite map_length; lia). apply map_nth. Qed.
Lemma in_tab {A} n (f : nat -> A) x : In x (tab n f) <-> exists i, (i < n)%nat /\ x = f i.
Proof.
  unfold tab. rewrite in_map_iff. split.
  - intros (i & <- & Hi). apply in_seq in Hi. exists i. split; [lia|reflexivity].
  - intros (i & Hi & ->). exists i. split; [reflexivity|]. apply in_seq. lia.
Qed.
Lemma map_tab {A B} (g : A -> B) n f : map g (tab n f) = tab n (fun i => g (f i)).
Proof. unfold tab. rewrite map_map. reflexivity. Qed.
Lemma tab_ext {A} n (f g : nat -> A) : (forall i, (i < n)%nat -> f i = g i) -> tab n f = tab n g.
Proof. intros H. unfold tab. apply map_ext_in. intros i Hi. apply in_seq in Hi. apply H. lia. Qed.
Lemma tab_nth {A} (l : list A) d : tab (length l) (fun i => nth i l d) = l.
Proof.
  apply nth_ext with (d := d) (d' := d); rewrite tab_length; [reflexivity|].
  intros n Hn. rewrite nth_tab by assumption. reflexivity.
Qed.
Lemma tab_S {A} n (f : nat -> A) : tab (S n) f = f 0%nat :: tab n (fun i => f (S i)).
Proof. unfold tab. simpl. rewrite <- seq_shift, map_map. reflexivity. Qed.
Lemma tab_snoc {A} n (f : nat -> A) : tab (S n) f = tab n f ++ [f n].
Proof. unfold tab. rewrite seq_S, map_app. reflexivity. Qed.
Lemma qsum_tab_ext n f g : (forall i, (i < n)%nat -> f i == g i) -> qsum (tab n f) == qsum (tab n g).
Proof. intros H. apply qsum_map_ext. intros i Hi. apply in_seq in Hi. apply H. lia. Qed.
Lemma qsum_tab_swap n m f :
  qsum (tab n (fun i => qsum (tab m (fun j => f i j)))) ==
  qsum (tab m (fun j => qsum (tab n (fun i => f i j)))).
Proof. apply (qsum_swap f). Qed.
Lemma qsum_as_tab l : qsum l == qsum (tab (length l) (fun i => nth i l 0)).
Proof. rewrite tab_nth. reflexivity. Qed.
Lemma list_eq_nth {A} (l l' : list A) d :
  length l = length l' -> (forall i, (i < length l)%nat -> nth i l d = nth i l' d) -> l = l'.
Proof. intros. apply nth_ext with (d := d) (d' := d); auto. Qed.

(** ** argmax *)
Definition is_argmax (l : list Q) (i : nat) : Prop :=
  (i < length l)%nat /\
  (forall j, (j < length l)%nat -> nth j l 0 <= nth i l 0) /\
  (forall j, (j < i)%nat -> nth j l 0 < nth i l 0).

Lemma argmax_aux_spec l : forall i best bv,
  (forall pre, length pre = i -> (best < i)%nat -> bv = nth best pre 0 ->
     (forall j, (j < i)%nat -> nth j pre 0 <= bv) ->
     (forall j, (j < best)%nat -> nth j pre 0 < bv) ->
     is_argmax (pre ++ l) (argmax_aux l i best bv)).
Proof.
  induction l as [|x t IH]; intros i best bv pre Hl Hb Hbv H1 H2; simpl.
  - rewrite app_nil_r. repeat split; [lia| |].
    + intros j Hj. rewrite <- Hbv. apply H1. lia.
    + intros j Hj. rewrite <- Hbv. apply H2. lia.
  - replace (pre ++ x :: t) with ((pre ++ [x]) ++ t) by (rewrite <- app_assoc; reflexivity).
    destruct (Qltb bv x) eqn:E; qb.
    + apply IH.
      * rewrite app_length; simpl; lia.
      * lia.
      * rewrite app_nth2 by lia. rewrite Hl, Nat.sub_diag. reflexivity.
      * intros j Hj. destruct (Nat.eq_dec j i) as [->|].
        -- rewrite app_nth2 by lia. rewrite Hl, Nat.sub_diag. simpl. lra.
        -- rewrite app_nth1 by lia. assert (nth j pre 0 <= bv) by (apply H1; lia). lra.
      * intros j Hj. rewrite app_nth1 by lia. assert (nth j pre 0 <= bv) by (apply H1; lia). lra.
    + apply IH.
      * rewrite app_length; simpl; lia.
      * lia.
      * rewrite app_nth1 by lia. assumption.
      * intros j Hj. destruct (Nat.eq_dec j i) as [->|].
        -- rewrite app_nth2 by lia. rewrite Hl, Nat.sub_diag. simpl. lra.
        -- rewrite app_nth1 by lia. apply H1; lia.
      * intros j Hj. rewrite app_nth1 by lia. apply H2; lia.
Qed.
Lemma argmax_spec l : l <> [] -> is_argmax l (argmax l).
Proof.
  destruct l as [|x t]; [congruence|]. intros _. simpl.
  apply (argmax_aux_spec t 1 0 x [x]); simpl; auto.
  - intros j Hj. assert (j = 0)%nat by lia. subst. lra.
  - intros; lia.
Qed.
Lemma is_argmax_unique l i j : is_argmax l i -> is_argmax l j -> i = j.
Proof.
  intros (Hi & Hi1 & Hi2) (Hj & Hj1 & Hj2).
  destruct (Nat.lt_trichotomy i j) as [H|[H|H]]; auto; exfalso.
  - specialize (Hj2 i H). specialize (Hi1 j Hj). lra.
  - specialize (Hi2 j H). specialize (Hj1 i Hi). lra.
Qed.
Lemma argmax_unique l i : is_argmax l i -> argmax l = i.
Proof.
  intros H. apply is_argmax_unique with l; auto. apply argmax_spec.
  destruct H as (H & _). destruct l; simpl in *; [lia|congruence].
Qed.
Lemma argmax_lt l : l <> [] -> (argmax l < length l)%nat.
Proof. intros H. apply argmax_spec in H. apply H. Qed.
Lemma argmax_max l j : (j < length l)%nat -> nth j l 0 <= nth (argmax l) l 0.
Proof. intros H. assert (l <> []) by (destruct l; simpl in *; [lia|congruence]).
  apply argmax_spec in H0. apply H0. assumption. Qed.

Lemma first_true_aux_spec l : forall i,
  match first_true_aux l i with
  | Some k => (i <= k < i + length l)%nat /\ nth (k - i) l false = true /\
              forall j, (j < k - i)%nat -> nth j l false = false
  | None => forall j, nth j l false = false
  end.
Proof.
  induction l as [|b t IH]; intros i; simpl.
  - intros [|?]; reflexivity.
  - destruct b.
    + rewrite Nat.sub_diag. repeat split; try lia.
    + specialize (IH (S i)). destruct (first_true_aux t (S i)) as [k|].
      * destruct IH as (Hk & Hn & Hj). replace (k - i)%nat with (S (k - S i)) by lia.
        repeat split; try lia; auto. intros [|j] H; auto. apply Hj; lia.
      * intros [|j]; auto.
Qed.

(** ** maximum / minimum *)
Lemma fold_qmax_spec t : forall x,
  x <= fold_left qmax t x /\ (forall y, In y t -> y <= fold_left qmax t x) /\
  (fold_left qmax t x = x \/ In (fold_left qmax t x) t).
Proof.
  induction t as [|y t IH]; intros x; simpl.
  - split; [lra|]. split; [tauto|auto].
  - destruct (IH (qmax x y)) as (H1 & H2 & H3).
    assert (x <= qmax x y /\ y <= qmax x y) as [Hx Hy] by (qmm; split; lra).
    split; [lra|]. split.
    + intros z [->|Hz]; [lra|auto].
    + destruct H3 as [H3|H3]; auto. rewrite H3.
      destruct (qmax_spec x y) as [[_ ->]|[_ ->]]; auto.
Qed.
Lemma qmaximum_ge l x : In x l -> x <= qmaximum l.
Proof.
  destruct l as [|a t]; simpl; [tauto|]. destruct (fold_qmax_spec t a) as (H1 & H2 & _).
  intros [->|H]; auto.
Qed.
Lemma qmaximum_in l : l <> [] -> In (qmaximum l) l.
Proof.
  destruct l as [|a t]; [congruence|]. simpl. destruct (fold_qmax_spec t a) as (_ & _ & [H|H]); auto.
Qed.
Lemma fold_qmin_spec t : forall x,
  fold_left qmin t x <= x /\ (forall y, In y t -> fold_left qmin t x <= y) /\
  (fold_left qmin t x = x \/ In (fold_left qmin t x) t).
Proof.
  induction t as [|y t IH]; intros x; simpl.
  - split; [lra|]. split; [tauto|auto].
  - destruct (IH (qmin x y)) as (H1 & H2 & H3).
    assert (qmin x y <= x /\ qmin x y <= y) as [Hx Hy] by (qmm; split; lra).
    split; [lra|]. split.
    + intros z [->|Hz]; [lra|auto].
    + destruct H3 as [H3|H3]; auto. rewrite H3.
      destruct (qmin_spec x y) as [[_ ->]|[_ ->]]; auto.
Qed.
Lemma qminimum_le l x : In x l -> qminimum l <= x.
Proof.
  destruct l as [|a t]; simpl; [tauto|]. destruct (fold_qmin_spec t a) as (H1 & H2 & _).
  intros [->|H]; auto.
Qed.
Lemma qminimum_in l : l <> [] -> In (qminimum l) l.
Proof.
  destruct l as [|a t]; [congruence|]. simpl. destruct (fold_qmin_spec t a) as (_ & _ & [H|H]); auto.
Qed.

(** ** Masks *)
Lemma mem_iff i l : mem i l = true <-> In i l.
Proof.
  unfold mem. rewrite existsb_exists. split.
  - intros (x & Hx & E). apply Nat.eqb_eq in E. subst; auto.
  - intros H. exists i. split; auto. apply Nat.eqb_refl.
Qed.
Lemma mem_false i l : mem i l = false <-> ~ In i l.
Proof. rewrite <- mem_iff. destruct (mem i l); split; congruence. Qed.
Lemma mask_of_length n idx : length (mask_of n idx) = n.
Proof. unfold mask_of. rewrite map_length, seq_length. reflexivity. Qed.
Lemma nth_mask_of n idx i : (i < n)%nat -> nth i (mask_of n idx) false = mem i idx.
Proof. intros. apply (nth_tab n (fun i => mem i idx)). assumption. Qed.
Lemma in_where i m : In i (where_ m) <-> nth i m false = true.
Proof.
  unfold where_. rewrite filter_In, in_seq. split; [tauto|]. intros H. split; auto.
  destruct (Nat.lt_ge_cases i (length m)); [lia|]. rewrite nth_overflow in H by lia. congruence.
Qed.
Lemma where_NoDup m : NoDup (where_ m).
Proof. unfold where_. apply NoDup_filter, seq_NoDup. Qed.
Lemma where_lt i m : In i (where_ m) -> (i < length m)%nat.
Proof. unfold where_. rewrite filter_In, in_seq. lia. Qed.
Lemma filter_seq_shift p s n :
  filter p (seq (S s) n) = map S (filter (fun i => p (S i)) (seq s n)).
Proof.
  revert s; induction n; intros s; simpl; auto.
  destruct (p (S s)); simpl; rewrite IHn; reflexivity.
Qed.
Lemma where_cons b m : where_ (b :: m) = (if b then [0%nat] else []) ++ map S (where_ m).
Proof.
  unfold where_. simpl. rewrite filter_seq_shift. simpl. destruct b; reflexivity.
Qed.
Lemma where_length m : length (where_ m) = count_true m.
Proof.
  induction m as [|b m IH]; [reflexivity|].
  rewrite where_cons, app_length, map_length, IH. unfold count_true. destruct b; reflexivity.
Qed.
Lemma select_as_take {A} (d : A) m : forall l, length m = length l ->
  select m l = take_idx d l (where_ m).
Proof.
  induction m as [|b m IH]; intros [|x l] H; simpl in H; try lia; [reflexivity|].
  unfold take_idx. rewrite where_cons, map_app, map_map.
  unfold select. simpl. destruct b; simpl; [f_equal|]; apply IH; lia.
Qed.
Lemma select_length {A} m : forall (l : list A), length m = length l ->
  length (select m l) = count_true m.
Proof.
  intros l H. destruct l as [|d l]; [destruct m; [reflexivity|simpl in H; lia]|].
  rewrite (select_as_take d) by assumption. unfold take_idx. rewrite map_length. apply where_length.
Qed.
Lemma where_sorted m : StronglySorted lt (where_ m).
Proof.
  unfold where_. generalize (length m) as n, 0%nat as s.
  induction n; intros s; simpl; [constructor|].
  destruct (nth s m false); auto. constructor; auto.
  apply Forall_forall. intros x Hx. apply filter_In in Hx as (Hx & _). apply in_seq in Hx. lia.
Qed.
Lemma sorted_lt_ext (l l' : list nat) :
  StronglySorted lt l -> StronglySorted lt l' -> (forall x, In x l <-> In x l') -> l = l'.
Proof.
  revert l'. induction l as [|a l IH]; intros [|b l'] H1 H2 H.
  - reflexivity.
  - exfalso. apply (H b). left; reflexivity.
  - exfalso. apply (H a). left; reflexivity.
  - apply StronglySorted_inv in H1 as (H1 & H4). apply StronglySorted_inv in H2 as (H2 & H8).
    rewrite Forall_forall in H4, H8.
    assert (a = b).
    { assert (In a (b :: l')) as [E|E] by (apply H; left; auto); auto.
      assert (In b (a :: l)) as [E'|E'] by (apply H; left; auto); auto.
      specialize (H8 a E). specialize (H4 b E'). lia. }
    subst. f_equal. apply IH; auto.
    intros x. split; intros Hx.
    + assert (In x (b :: l')) as [->|?] by (apply H; right; auto); auto.
      specialize (H4 x Hx). lia.
    + assert (In x (b :: l)) as [->|?] by (apply H; right; auto); auto.
      specialize (H8 x Hx). lia.
Qed.
Lemma count_true_app a b : count_true (a ++ b) = (count_true a + count_true b)%nat.
Proof. unfold count_true. rewrite filter_app, app_length. reflexivity. Qed.
Lemma count_true_cons b m : count_true (b :: m) = ((if b then 1 else 0) + count_true m)%nat.
Proof. unfold count_true. destruct b; reflexivity. Qed.
Lemma count_true_map {A} (f : A -> bool) l : count_true (map f l) = length (filter f l).
Proof. induction l; simpl; [reflexivity|]. rewrite count_true_cons, IHl. destruct (f a); simpl; lia. Qed.
Lemma mask_of_where m : mask_of (length m) (where_ m) = m.
Proof.
  apply list_eq_nth with (d := false); rewrite mask_of_length; auto.
  intros i Hi. rewrite nth_mask_of by auto.
  destruct (nth i m false) eqn:E.
  - apply mem_iff, in_where, E.
  - apply mem_false. rewrite in_where. congruence.
Qed.
Lemma NoDup_same_length {A} (l l' : list A) :
  NoDup l -> NoDup l' -> (forall x, In x l <-> In x l') -> length l = length l'.
Proof.
  intros H1 H2 H. apply Permutation_length. apply NoDup_Permutation; auto.
Qed.
Lemma count_mask_of n idx : NoDup idx -> (forall i, In i idx -> (i < n)%nat) ->
  count_true (mask_of n idx) = length idx.
Proof.
  intros Hd Hr. rewrite <- where_length. apply NoDup_same_length; auto using where_NoDup.
  intros x. rewrite in_where. split; intros H.
  - assert (x < n)%nat. { destruct (Nat.lt_ge_cases x n); auto.
      rewrite nth_overflow in H by (rewrite mask_of_length; lia). congruence. }
    rewrite nth_mask_of in H by auto. apply mem_iff; auto.
  - rewrite nth_mask_of by auto. apply mem_iff; auto.
Qed.

(** ** Sorting *)
Lemma Permutation_seq_lt p n : Permutation p (seq 0 n) -> forall i, In i p <-> (i < n)%nat.
Proof.
  intros H i. split; intros Hi.
  - eapply Permutation_in in Hi; eauto. apply in_seq in Hi. lia.
  - eapply Permutation_in; [symmetry; eauto|]. apply in_seq. lia.
Qed.
Lemma argsort_in l p : is_argsort l p -> forall i, In i p <-> (i < length l)%nat.
Proof. intros (H & _). apply Permutation_seq_lt. assumption. Qed.
Lemma argsort_NoDup l p : is_argsort l p -> NoDup p.
Proof. intros (H & _). eapply Permutation_NoDup; [symmetry; eauto|]. apply seq_NoDup. Qed.
Lemma argsort_length l p : is_argsort l p -> length p = length l.
Proof. intros (H & _). apply Permutation_length in H. rewrite H, seq_length. reflexivity. Qed.
Lemma StronglySorted_app {A} (R : A -> A -> Prop) l1 l2 :
  StronglySorted R (l1 ++ l2) -> StronglySorted R l1 /\ StronglySorted R l2 /\
  (forall x y, In x l1 -> In y l2 -> R x y).
Proof.
  induction l1 as [|a l1 IH]; simpl; intros H.
  - split; [constructor|]. split; auto. intros; tauto.
  - inversion H; subst. apply IH in H2 as (H21 & H22 & H23). rewrite Forall_forall in H3.
    split; [|split; auto].
    + constructor; auto. apply Forall_forall. intros x Hx. apply H3. apply in_or_app; auto.
    + intros x y [->|Hx] Hy; auto. apply H3. apply in_or_app; auto.
Qed.
Lemma firstn_In {A} n (l : list A) x : In x (firstn n l) -> In x l.
Proof. intros H. rewrite <- (firstn_skipn n l). apply in_or_app; auto. Qed.
Lemma skipn_In {A} n (l : list A) x : In x (skipn n l) -> In x l.
Proof. intros H. rewrite <- (firstn_skipn n l). apply in_or_app; auto. Qed.
Lemma firstn_NoDup {A} n (l : list A) : NoDup l -> NoDup (firstn n l).
Proof.
  intros H. rewrite <- (firstn_skipn n l) in H.
  revert H. generalize (skipn n l) as r. induction (firstn n l) as [|a t IH]; intros r H; [constructor|].
  simpl in H. inversion H; subst. constructor; [|eauto].
  intros C. apply H2. apply in_or_app; auto.
Qed.
(** the first [n] indices of an argsort: exactly [min n len] of them, and every index outside has a
    value at least as large as every index inside. *)
Lemma argsort_firstn l p n : is_argsort l p ->
  NoDup (firstn n p) /\ length (firstn n p) = Nat.min n (length l) /\
  (forall i, In i (firstn n p) -> (i < length l)%nat) /\
  (forall i j, In i (firstn n p) -> (j < length l)%nat -> ~ In j (firstn n p) ->
     nth i l 0 <= nth j l 0).
Proof.
  intros H. split; [apply firstn_NoDup, (argsort_NoDup l), H|].
  split; [rewrite firstn_length, (argsort_length l); auto|].
  split; [intros i Hi; apply (argsort_in l p H); eapply firstn_In; eauto|].
  intros i j Hi Hj Hn.
  assert (In j (skipn n p)) as Hs.
  { apply (argsort_in l p H) in Hj. rewrite <- (firstn_skipn n p) in Hj.
    apply in_app_or in Hj as [|]; tauto. }
  destruct H as (_ & H). rewrite <- (firstn_skipn n p) in H. apply StronglySorted_app in H as (_ & _ & H).
  apply H; auto.
Qed.

Lemma insert_idx_perm l i p : Permutation (insert_idx l i p) (i :: p).
Proof.
  induction p as [|j t IH]; simpl; auto.
  destruct (Qle_bool _ _); auto. rewrite IH. apply perm_swap.
Qed.
Lemma insert_idx_sorted l i p :
  StronglySorted (fun i j => nth i l 0 <= nth j l 0) p ->
  StronglySorted (fun i j => nth i l 0 <= nth j l 0) (insert_idx l i p).
Proof.
  induction p as [|j t IH]; simpl; intros H.
  - constructor; [constructor|constructor].
  - inversion H; subst. rewrite Forall_forall in H3.
    destruct (Qle_bool _ _) eqn:E; qb.
    + constructor; auto. apply Forall_forall. intros x [->|Hx]; auto. specialize (H3 x Hx). lra.
    + constructor; auto. apply Forall_forall. intros x Hx.
      apply (Permutation_in _ (insert_idx_perm l i t)) in Hx as [->|Hx]; [lra|auto].
Qed.
Lemma argsort_ins_ok : argsort_ok argsort_ins.
Proof.
  intros l. unfold argsort_ins, is_argsort. generalize (seq 0 (length l)) as s.
  induction s as [|a s IH]; simpl; [split; constructor|].
  destruct IH as (IH1 & IH2). split.
  - rewrite insert_idx_perm. constructor. assumption.
  - apply insert_idx_sorted. assumption.
Qed.

(** ** Rounding *)
Lemma round_half_even_bound q :
  inject_Z (round_half_even q) - (1#2) <= q /\ q <= inject_Z (round_half_even q) + (1#2).
Proof.
  unfold round_half_even. pose proof (Qfloor_le q) as H1. pose proof (Qlt_floor q) as H2.
  rewrite inject_Z_plus in H2. change (inject_Z 1) with 1 in H2.
  destruct (q - inject_Z (Qfloor q) ?= 1#2) eqn:E.
  - apply Qeq_alt in E. destruct (Z.even _); [lra|]. rewrite inject_Z_plus. change (inject_Z 1) with 1. lra.
  - apply Qlt_alt in E. lra.
  - apply Qgt_alt in E. rewrite inject_Z_plus. change (inject_Z 1) with 1. lra.
Qed.
#[export] Instance round_half_even_Proper : Proper (Qeq ==> eq) round_half_even.
Proof.
  intros x y H. unfold round_half_even.
  assert (Qfloor x = Qfloor y) as E by (rewrite H; reflexivity).
  rewrite E. assert (x - inject_Z (Qfloor y) == y - inject_Z (Qfloor y)) as E2 by (rewrite H; reflexivity).
  rewrite (Qcompare_comp _ _ E2 _ _ (Qeq_refl (1#2))). reflexivity.
Qed.
Lemma round_half_even_Z z : round_half_even (inject_Z z) = z.
Proof.
  unfold round_half_even. rewrite Qfloor_Z.
  assert (inject_Z z - inject_Z z == 0) as E by ring.
  rewrite (Qcompare_comp _ _ E _ _ (Qeq_refl (1#2))). reflexivity.
Qed.
Lemma truncate_Z z : truncate (inject_Z z) = z.
Proof. unfold truncate. destruct (Qle_bool _ _); [apply Qfloor_Z|apply Qceiling_Z]. Qed.
Lemma inject_Z_lt_1 a b : inject_Z a < inject_Z b + 1 -> (a <= b)%Z.
Proof. intros H. change 1 with (inject_Z 1) in H. rewrite <- inject_Z_plus, <- Zlt_Qlt in H. lia. Qed.

(** ** Forall2 *)
Lemma Forall2_len {A B} (R : A -> B -> Prop) l l' : Forall2 R l l' -> length l = length l'.
Proof. induction 1; simpl; auto. Qed.
Lemma Forall2_nth_intro {A B} (R : A -> B -> Prop) l l' d d' : length l = length l' ->
  (forall i, (i < length l)%nat -> R (nth i l d) (nth i l' d')) -> Forall2 R l l'.
Proof.
  revert l'. induction l as [|a l IH]; intros [|b l'] Hl H; simpl in Hl; try lia; constructor.
  - apply (H 0%nat). simpl; lia.
  - apply IH; [lia|]. intros i Hi. apply (H (S i)). simpl; lia.
Qed.
Lemma Forall2_in_l {A B} (R : A -> B -> Prop) l l' a : Forall2 R l l' -> In a l -> exists b, In b l' /\ R a b.
Proof.
  induction 1; simpl; [tauto|]. intros [->|H1]; eauto. destruct IHForall2 as (z & ? & ?); eauto.
Qed.
Lemma Forall2_in_r {A B} (R : A -> B -> Prop) l l' b : Forall2 R l l' -> In b l' -> exists a, In a l /\ R a b.
Proof.
  induction 1; simpl; [tauto|]. intros [->|H1]; eauto. destruct IHForall2 as (z & ? & ?); eauto.
Qed.
