(** * Proofs about scoring a data set part by part (C157) *)
From Coq Require Import QArith Qreals Reals List ZArith Bool Arith Lia Lra Permutation.
From Coq Require Lqa.
From Verif Require Import Base BaseFacts ModelUtil ModelCount ModelRank ModelEntropy ModelOutlier ModelToken ModelSegmentation ModelMultilabel
  ModelDetection SpecCount SpecFilter SpecRank SpecOutlier SpecMultilabel SpecDetection SpecPictures SpecParts
  ProofUtil ProofCount ProofFilter ProofRank ProofMultilabel ProofDetection ProofDetectionR ProofRows ProofPictures.
From Verif Require ModelRegRank SpecRegRank.
Import ListNotations.
Open Scope Q_scope.

Lemma app_combine {A B} (a1 a2 : list A) (b1 b2 : list B) : length a1 = length b1 -> combine (a1 ++ a2) (b1 ++ b2) = combine a1 b1 ++ combine a2 b2.
Proof. revert b1. induction a1 as [|x a1 IH]; intros [|y b1] H; try discriminate; [reflexivity|]. cbn. rewrite IH by (cbn in H; lia). reflexivity. Qed.
Lemma rmap_app {A B} (f : A -> res B) l1 l2 s1 s2 : rmap f l1 = Ok s1 -> rmap f l2 = Ok s2 -> rmap f (l1 ++ l2) = Ok (s1 ++ s2).
Proof.
  revert s1. induction l1 as [|x l1 IH]; intros s1 H1 H2; cbn [rmap app] in *; [injection H1 as <-; exact H2|].
  destruct (f x) as [b|e]; cbn [rbind] in *; [|discriminate]. destruct (rmap f l1) as [bs|e]; cbn [rbind] in *; [|discriminate].
  injection H1 as <-. rewrite (IH bs) by auto. reflexivity.
Qed.
Lemma rmap_len {A B} (f : A -> res B) l s : rmap f l = Ok s -> length s = length l.
Proof.
  revert s. induction l as [|x l IH]; intros s H; cbn [rmap] in H; [injection H as <-; reflexivity|].
  destruct (f x); cbn [rbind] in H; [|discriminate]. destruct (rmap f l); cbn [rbind] in H; [|discriminate]. injection H as <-. cbn. rewrite IH; auto.
Qed.

(** ** Validation *)
Lemma nmax_lt l k : (0 < k)%nat -> ((nmax l < k)%nat <-> forall x, In x l -> (x < k)%nat).
Proof.
  intros Hk. split; [intros H x I; apply nmax_ge in I; lia|]. intros H. destruct l; [exact Hk|]. apply H, nmax_in. discriminate.
Qed.
Definition in_range (x : Q) : Prop := - FLOATING_POINT_COMPARISON <= x /\ x <= 1 + FLOATING_POINT_COMPARISON.
Lemma range_check l : (Qltb (qminimum l) (0 - FLOATING_POINT_COMPARISON) || Qltb (1 + FLOATING_POINT_COMPARISON) (qmaximum l))%bool = false <->
  forall x, In x l -> in_range x.
Proof.
  rewrite orb_false_iff. split.
  - intros [A B] x I. apply not_true_iff_false in A, B. rewrite Qltb_iff in A, B.
    pose proof (qminimum_le l x I). pose proof (qmaximum_ge l x I). unfold in_range. split; Lqa.lra.
  - intros H. split; apply not_true_iff_false; rewrite Qltb_iff; intros C.
    + destruct l as [|a l]; [cbn in C; unfold FLOATING_POINT_COMPARISON in C; Lqa.lra|].
      destruct (H (qminimum (a :: l))) as [G _]; [apply qminimum_in; discriminate|]. Lqa.lra.
    + destruct l as [|a l]; [cbn in C; unfold FLOATING_POINT_COMPARISON in C; Lqa.lra|].
      destruct (H (qmaximum (a :: l))) as [_ G]; [apply qmaximum_in; discriminate|]. Lqa.lra.
Qed.
Lemma avi_spec l p K one : assert_valid_inputs l p K one = Ok tt <->
  l <> [] /\ (one = true \/ (2 <= length (unique l))%nat) /\ length p = length l /\ (forall x, In x l -> (x < K)%nat) /\
  forall x, In x (concat p) -> in_range x.
Proof.
  unfold assert_valid_inputs. destruct l as [|a l]; [split; [discriminate|intros (C & _); congruence]|].
  remember (a :: l) as L. assert (HL : L <> []) by (subst; discriminate). clear HeqL. rewrite <- range_check.
  assert (M : (forall x, In x L -> (x < K)%nat) <-> Nat.ltb K (nmax L + 1) = false).
  { rewrite Nat.ltb_ge. destruct K as [|K].
    - split; [|lia]. intros H. exfalso. specialize (H _ (nmax_in L HL)). lia.
    - rewrite <- nmax_lt by lia. lia. }
  rewrite M. destruct (Nat.ltb_spec (length (unique L)) 2) as [U|U]; destruct one; cbn [negb andb];
  destruct (Nat.eqb_spec (length p) (length L)) as [E|E]; cbn [negb]; destruct (Nat.ltb K (nmax L + 1));
  destruct ((Qltb (qminimum (concat p)) (0 - FLOATING_POINT_COMPARISON) || Qltb (1 + FLOATING_POINT_COMPARISON) (qmaximum (concat p)))%bool);
    split; try discriminate; try (intros; repeat split; auto; fail);
    intros (A & [B|B] & C & D & F); try discriminate; try lia; try reflexivity; congruence.
Qed.
Lemma avi_cases l p K one : assert_valid_inputs l p K one = Ok tt \/ assert_valid_inputs l p K one = Raise ValueError.
Proof.
  unfold assert_valid_inputs. destruct l; [right; reflexivity|].
  repeat match goal with |- context [if ?b then _ else _] => destruct b end; auto.
Qed.
Lemma unique_app a b : (length (unique a) <= length (unique (a ++ b)))%nat.
Proof. apply NoDup_incl_length; [apply unique_NoDup|]. intros x H. rewrite in_unique in H |- *. apply in_app_iff. left; exact H. Qed.
Lemma avi_app l1 l2 p1 p2 K one : assert_valid_inputs l1 p1 K one = Ok tt -> assert_valid_inputs l2 p2 K one = Ok tt ->
  assert_valid_inputs (l1 ++ l2) (p1 ++ p2) K one = Ok tt.
Proof.
  rewrite !avi_spec. intros (A1 & B1 & C1 & D1 & E1) (A2 & B2 & C2 & D2 & E2). repeat split.
  - destruct l1; [congruence|discriminate].
  - destruct B1; [now left|right]. pose proof (unique_app l1 l2). lia.
  - rewrite !app_length. lia.
  - intros x H. apply in_app_iff in H as [H|H]; auto.
  - rewrite concat_app in H. apply in_app_iff in H as [H|H]; [now apply E1|now apply E2].
  - rewrite concat_app in H. apply in_app_iff in H as [H|H]; [now apply E1|now apply E2].
Qed.
Lemma avi_parts l1 l2 p1 p2 K : l1 <> [] -> l2 <> [] -> length l1 = length p1 ->
  assert_valid_inputs (l1 ++ l2) (p1 ++ p2) K true = Ok tt -> assert_valid_inputs l1 p1 K true = Ok tt /\ assert_valid_inputs l2 p2 K true = Ok tt.
Proof.
  rewrite !avi_spec, !app_length, concat_app. intros N1 N2 L (A & B & C & D & E).
  split; (split; [assumption|split; [now left|split; [lia|]]]); (split; [intros x H; apply D, in_app_iff; auto|intros x H; apply E, in_app_iff; auto]).
Qed.

(** ** Scores *)
Lemma sc_app l1 l2 (p1 p2 : list (list Q)) : length l1 = length p1 -> get_self_confidence (l1 ++ l2) (p1 ++ p2) = get_self_confidence l1 p1 ++ get_self_confidence l2 p2.
Proof. intros H. unfold get_self_confidence. rewrite app_combine, map_app by auto. reflexivity. Qed.
Lemma nm_app l1 l2 (p1 p2 : list (list Q)) : length l1 = length p1 -> get_normalized_margin (l1 ++ l2) (p1 ++ p2) = get_normalized_margin l1 p1 ++ get_normalized_margin l2 p2.
Proof.
  intros H. unfold get_normalized_margin. rewrite sc_app, app_combine by auto. rewrite map_app, app_combine, map_app; [reflexivity|].
  unfold get_self_confidence. now rewrite !map_length.
Qed.
Lemma clqs_app l1 l2 p1 p2 K m s1 s2 : length l1 = length p1 ->
  compute_label_quality_scores l1 p1 K m false = Ok s1 -> compute_label_quality_scores l2 p2 K m false = Ok s2 ->
  compute_label_quality_scores (l1 ++ l2) (p1 ++ p2) K m false = Ok (s1 ++ s2).
Proof.
  intros L H1 H2. unfold compute_label_quality_scores in *. destruct m.
  - injection H1 as <-. injection H2 as <-. now rewrite sc_app.
  - destruct (Nat.leb K 1); [discriminate|]. injection H1 as <-. injection H2 as <-. now rewrite nm_app.
Qed.
Lemma clqs_len l p K m s : length l = length p -> compute_label_quality_scores l p K m false = Ok s -> length s = length l.
Proof.
  intros L H. unfold compute_label_quality_scores in H. destruct m.
  - injection H as <-. unfold get_self_confidence. rewrite map_length, combine_length. lia.
  - destruct (Nat.leb K 1); [discriminate|]. injection H as <-. unfold get_normalized_margin, get_self_confidence.
    rewrite map_length, combine_length, !map_length, combine_length. lia.
Qed.
Lemma glqs_inv l p K m s : get_label_quality_scores l p K m false = Ok s ->
  assert_valid_inputs l p K true = Ok tt /\ length l = length p /\ compute_label_quality_scores l p K m false = Ok s.
Proof.
  unfold get_label_quality_scores. destruct (avi_cases l p K true) as [E|E]; rewrite E; cbn [rbind]; [|discriminate].
  intros H. apply avi_spec in E as F. destruct F as (_ & _ & F & _). auto.
Qed.
Lemma scores_join l1 l2 p1 p2 K m s1 s2 : get_label_quality_scores l1 p1 K m false = Ok s1 -> get_label_quality_scores l2 p2 K m false = Ok s2 ->
  get_label_quality_scores (l1 ++ l2) (p1 ++ p2) K m false = Ok (s1 ++ s2).
Proof.
  intros H1 H2. apply glqs_inv in H1 as (A1 & B1 & C1), H2 as (A2 & B2 & C2). unfold get_label_quality_scores.
  rewrite avi_app by auto. cbn [rbind]. now apply clqs_app.
Qed.
Lemma scores_parts l1 l2 p1 p2 K m s : l1 <> [] -> l2 <> [] -> length l1 = length p1 ->
  (get_label_quality_scores (l1 ++ l2) (p1 ++ p2) K m false = Ok s <->
   exists s1 s2, get_label_quality_scores l1 p1 K m false = Ok s1 /\ get_label_quality_scores l2 p2 K m false = Ok s2 /\ s = s1 ++ s2).
Proof.
  intros N1 N2 L. split; [|intros (s1 & s2 & H1 & H2 & ->); now apply scores_join].
  intros H. apply glqs_inv in H as H'. destruct H' as (A & _ & C). apply avi_parts in A as [A1 A2]; auto.
  assert (G : exists s1 s2, get_label_quality_scores l1 p1 K m false = Ok s1 /\ get_label_quality_scores l2 p2 K m false = Ok s2).
  { unfold get_label_quality_scores. rewrite A1, A2. cbn [rbind]. unfold compute_label_quality_scores in *.
    destruct m; [eauto|]. destruct (Nat.leb K 1); [discriminate|eauto]. }
  destruct G as (s1 & s2 & G1 & G2). exists s1, s2. rewrite (scores_join _ _ _ _ _ _ _ _ G1 G2) in H. injection H as <-. auto.
Qed.

(** ** Ensembles *)
Lemma seq_from a n : seq a n = map (fun i => (a + i)%nat) (seq 0 n).
Proof. induction a as [|a IH]; [cbn; now rewrite map_id|]. rewrite <- seq_shift, IH, map_map. reflexivity. Qed.
Definition rowwise (n : nat) (ss : list (list Q)) : list (list Q) := tab n (fun e => map (fun s => nth e s 0) ss).
Lemma rowwise_app n1 n2 ss1 : forall ss2, length ss1 = length ss2 -> (forall s, In s ss1 -> length s = n1) ->
  rowwise (n1 + n2) (both_parts ss1 ss2) = rowwise n1 ss1 ++ rowwise n2 ss2.
Proof.
  intros ss2 L H. unfold rowwise, tab, both_parts. rewrite seq_app, map_app. f_equal.
  - apply map_ext_in. intros e I. apply in_seq in I. rewrite map_map. revert ss2 L H. induction ss1 as [|s ss1 IH]; intros [|t ss2] L H; try discriminate; [reflexivity|].
    cbn. f_equal; [apply app_nth1; rewrite (H s) by (now left); lia|]. apply IH; [cbn in L; lia|]. intros; apply H; now right.
  - cbn [Nat.add]. rewrite (seq_from n1), map_map. apply map_ext. intros e. rewrite map_map.
    revert ss2 L H. induction ss1 as [|s ss1 IH]; intros [|t ss2] L H; try discriminate; [reflexivity|].
    cbn. f_equal; [rewrite app_nth2 by (rewrite (H s) by (now left); lia); rewrite (H s) by (now left); f_equal; lia|].
    apply IH; [cbn in L; lia|]. intros; apply H; now right.
Qed.
Lemma rmap_both {A B C} (f : A -> res B) (g : A -> res B) (h : A -> res B) (jA : A -> A -> A) (jB : B -> B -> B) (P : C -> A) :
  (forall a b x y, f a = Ok x -> g b = Ok y -> h (jA a b) = Ok (jB x y)) -> forall l1 l2 s1 s2, length l1 = length l2 ->
  rmap f l1 = Ok s1 -> rmap g l2 = Ok s2 -> rmap h (map (fun q => jA (fst q) (snd q)) (combine l1 l2)) = Ok (map (fun q => jB (fst q) (snd q)) (combine s1 s2)).
Proof.
  intros HH. induction l1 as [|a l1 IH]; intros [|b l2] s1 s2 L H1 H2; try discriminate.
  - cbn [rmap] in *. injection H1 as <-. reflexivity.
  - cbn [rmap] in H1, H2. destruct (f a) as [x|] eqn:E1; cbn [rbind] in H1; [|discriminate]. destruct (rmap f l1) as [xs|] eqn:R1; cbn [rbind] in H1; [|discriminate].
    destruct (g b) as [y|] eqn:E2; cbn [rbind] in H2; [|discriminate]. destruct (rmap g l2) as [ys|] eqn:R2; cbn [rbind] in H2; [|discriminate].
    injection H1 as <-. injection H2 as <-. cbn [combine map rmap fst snd]. rewrite (HH _ _ _ _ E1 E2). cbn [rbind].
    rewrite (IH l2 xs ys) by (auto; cbn in L; lia). reflexivity.
Qed.
Lemma rmap_inv {A B} (f : A -> res B) l s : rmap f l = Ok s -> forall y, In y s -> exists x, In x l /\ f x = Ok y.
Proof.
  revert s. induction l as [|x l IH]; intros s H y I; cbn [rmap] in H; [injection H as <-; destruct I|].
  destruct (f x) as [b|] eqn:E; cbn [rbind] in H; [|discriminate]. destruct (rmap f l) as [bs|]; cbn [rbind] in H; [|discriminate]. injection H as <-.
  destruct I as [<-|I]; [exists x; split; [now left|auto]|]. destruct (IH bs eq_refl y I) as (z & Z & F). exists z. split; [now right|auto].
Qed.
Lemma ensemble_join l1 l2 pps1 pps2 K m w s1 s2 : w <> Accuracy -> length pps1 = length pps2 ->
  get_label_quality_ensemble_scores l1 pps1 K m false w = Ok s1 -> get_label_quality_ensemble_scores l2 pps2 K m false w = Ok s2 ->
  get_label_quality_ensemble_scores (l1 ++ l2) (both_parts pps1 pps2) K m false w = Ok (s1 ++ s2).
Proof.
  intros Hw L H1 H2. destruct pps1 as [|a1 q1]; [discriminate|]. destruct pps2 as [|a2 q2]; [discriminate|].
  remember (a1 :: q1) as pps1 eqn:P1. remember (a2 :: q2) as pps2 eqn:P2.
  assert (Unf : forall l pps, pps <> [] -> get_label_quality_ensemble_scores l pps K m false w =
    (do _ <- rmap (fun pp => assert_valid_inputs l pp K false) pps ;
     do ss <- rmap (fun pp => get_label_quality_scores l pp K m false) pps ;
     match w with
     | Uniform => Ok (map qmean (rowwise (length l) ss))
     | Accuracy => let accs := map (model_accuracy l) pps in
        if Qeq_bool (qsum accs) 0 then Raise ZeroDivision
        else let weights := map (fun a => a / qsum accs) accs in
             Ok (map (fun row => qsum (map (fun sw => fst sw * snd sw) (combine row weights))) (rowwise (length l) ss))
     | Custom w => if negb (Nat.eqb (length w) (length pps)) then Raise AssertionError
        else Ok (map (fun row => qsum (map (fun sw => fst sw * snd sw) (combine row w))) (rowwise (length l) ss))
     end)).
  { intros l [|x t] N; [congruence|]. unfold get_label_quality_ensemble_scores, rowwise. reflexivity. }
  assert (N1 : pps1 <> []) by (subst; discriminate). assert (N2 : pps2 <> []) by (subst; discriminate).
  assert (N : both_parts pps1 pps2 <> []) by (subst; discriminate). clear P1 P2.
  rewrite Unf in H1, H2 |- * by auto.
  destruct (rmap (fun pp => assert_valid_inputs l1 pp K false) pps1) as [v1|] eqn:V1; cbn [rbind] in H1; [|discriminate].
  destruct (rmap (fun pp => assert_valid_inputs l2 pp K false) pps2) as [v2|] eqn:V2; cbn [rbind] in H2; [|discriminate].
  destruct (rmap (fun pp => get_label_quality_scores l1 pp K m false) pps1) as [ss1|] eqn:S1; cbn [rbind] in H1; [|discriminate].
  destruct (rmap (fun pp => get_label_quality_scores l2 pp K m false) pps2) as [ss2|] eqn:S2; cbn [rbind] in H2; [|discriminate].
  assert (V : rmap (fun pp => assert_valid_inputs (l1 ++ l2) pp K false) (both_parts pps1 pps2) = Ok (map (fun q => tt) (combine v1 v2))).
  { unfold both_parts. apply (rmap_both (C := list (list Q)) (fun pp => assert_valid_inputs l1 pp K false) (fun pp => assert_valid_inputs l2 pp K false) _ (@app _) (fun _ _ => tt) (fun x => x)) with (l1 := pps1) (l2 := pps2); auto.
    intros a b [] [] A B. now apply avi_app. }
  assert (S : rmap (fun pp => get_label_quality_scores (l1 ++ l2) pp K m false) (both_parts pps1 pps2) = Ok (both_parts ss1 ss2)).
  { unfold both_parts. apply (rmap_both (C := list (list Q)) (fun pp => get_label_quality_scores l1 pp K m false) (fun pp => get_label_quality_scores l2 pp K m false) _ (@app _) (@app _) (fun x => x)); auto.
    intros a b x y A B. now apply scores_join. }
  rewrite V. cbn [rbind]. rewrite S. cbn [rbind]. apply rmap_len in S1 as M1. apply rmap_len in S2 as M2.
  rewrite app_length, rowwise_app; [|congruence|].
  2:{ intros s I. destruct (rmap_inv _ _ _ S1 s I) as (x & _ & E). apply glqs_inv in E as (_ & Lx & E). apply clqs_len in E; auto. }
  destruct w as [| |w]; [|congruence|].
  - injection H1 as <-. injection H2 as <-. now rewrite map_app.
  - destruct (Nat.eqb_spec (length w) (length pps1)) as [W|W]; cbn [negb] in H1; [|discriminate].
    destruct (Nat.eqb_spec (length w) (length pps2)) as [W2|W2]; cbn [negb] in H2; [|discriminate].
    destruct (Nat.eqb_spec (length w) (length (both_parts pps1 pps2))) as [W3|W3]; cbn [negb].
    + injection H1 as <-. injection H2 as <-. now rewrite map_app.
    + exfalso. apply W3. unfold both_parts. rewrite map_length, combine_length. lia.
Qed.

(** ** Multi-label *)
Lemma stack_app c p1 p2 : stack_complement (col c (p1 ++ p2)) = stack_complement (col c p1) ++ stack_complement (col c p2).
Proof. unfold stack_complement, col. now rewrite !map_app. Qed.
Lemma rmap_zip {A B} (f g h : A -> res (list B)) (l : list A) s1 s2 : (forall a x y, In a l -> f a = Ok x -> g a = Ok y -> h a = Ok (x ++ y)) ->
  rmap f l = Ok s1 -> rmap g l = Ok s2 -> rmap h l = Ok (both_parts s1 s2).
Proof.
  revert s1 s2. induction l as [|a l IH]; intros s1 s2 HH H1 H2; cbn [rmap] in *; [injection H1 as <-; reflexivity|].
  destruct (f a) as [x|] eqn:E1; cbn [rbind] in H1; [|discriminate]. destruct (rmap f l) as [xs|] eqn:R1; cbn [rbind] in H1; [|discriminate].
  destruct (g a) as [y|] eqn:E2; cbn [rbind] in H2; [|discriminate]. destruct (rmap g l) as [ys|] eqn:R2; cbn [rbind] in H2; [|discriminate].
  injection H1 as <-. injection H2 as <-. rewrite (HH a x y (or_introl eq_refl) E1 E2). cbn [rbind].
  rewrite (IH xs ys) by (auto; intros; apply HH; auto; now right). reflexivity.
Qed.
Lemma class_scores_app y1 y2 p1 p2 K m s1 s2 : length y1 = length p1 -> length y2 = length p2 ->
  class_scores y1 p1 K m false = Ok s1 -> class_scores y2 p2 K m false = Ok s2 -> class_scores (y1 ++ y2) (p1 ++ p2) K m false = Ok (s1 ++ s2).
Proof.
  intros L1 L2. unfold class_scores.
  destruct (rmap (fun c => compute_label_quality_scores (ncol c y1) (stack_complement (col c p1)) 2 m false) (seq 0 K)) as [c1|] eqn:E1; cbn [rbind]; [|discriminate].
  destruct (rmap (fun c => compute_label_quality_scores (ncol c y2) (stack_complement (col c p2)) 2 m false) (seq 0 K)) as [c2|] eqn:E2; cbn [rbind]; [|discriminate].
  intros H1 H2. injection H1 as <-. injection H2 as <-.
  assert (LN : forall c (y : list (list nat)) p, length y = length p -> length (ncol c y) = length (stack_complement (col c p))).
  { intros. unfold ncol, stack_complement, col. rewrite !map_length. auto. }
  assert (Z : rmap (fun c => compute_label_quality_scores (ncol c (y1 ++ y2)) (stack_complement (col c (p1 ++ p2))) 2 m false) (seq 0 K) = Ok (both_parts c1 c2)).
  2:{ rewrite Z. cbn [rbind]. f_equal. rewrite app_length. apply (rowwise_app (length y1) (length y2) c1 c2).
    + apply rmap_len in E1, E2. congruence.
    + intros s I. destruct (rmap_inv _ _ _ E1 s I) as (c & _ & E). apply clqs_len in E; [|now apply LN]. rewrite E. unfold ncol. apply map_length. }
  apply (rmap_zip _ _ _ _ _ _) with (2 := E1) (3 := E2).
  intros c x y _ A B. rewrite stack_app. unfold ncol. rewrite map_app. apply clqs_app; auto. now apply LN.
Qed.
Lemma avm_spec l p K : assert_valid_multilabel l p K = Ok tt <->
  length p = length l /\ concat l <> [] /\ (forall x, In x (concat l) -> (x < K)%nat) /\ forall x, In x (concat p) -> in_range x.
Proof.
  unfold assert_valid_multilabel. destruct (Nat.eqb_spec (length p) (length l)) as [E|E]; cbn [negb]; [|split; [discriminate|intros [C _]; congruence]].
  destruct (concat l) as [|a t] eqn:EL; [split; [discriminate|intros (_ & C & _); congruence]|].
  remember (a :: t) as L. assert (HL : L <> []) by (subst; discriminate). clear HeqL EL. rewrite <- range_check.
  assert (M : (forall x, In x L -> (x < K)%nat) <-> Nat.ltb K (nmax L + 1) = false).
  { rewrite Nat.ltb_ge. destruct K as [|K].
    - split; [|lia]. intros H. exfalso. specialize (H _ (nmax_in L HL)). lia.
    - rewrite <- nmax_lt by lia. lia. }
  rewrite M. destruct (Nat.ltb K (nmax L + 1));
  destruct ((Qltb (qminimum (concat p)) (0 - FLOATING_POINT_COMPARISON) || Qltb (1 + FLOATING_POINT_COMPARISON) (qmaximum (concat p)))%bool);
    split; try discriminate; auto; intros (_ & _ & C & D); discriminate.
Qed.
Lemma avm_app l1 l2 p1 p2 K : assert_valid_multilabel l1 p1 K = Ok tt -> assert_valid_multilabel l2 p2 K = Ok tt ->
  assert_valid_multilabel (l1 ++ l2) (p1 ++ p2) K = Ok tt.
Proof.
  rewrite !avm_spec, !app_length, !concat_app. intros (A1 & B1 & C1 & D1) (A2 & B2 & C2 & D2). split; [lia|]. split; [|split].
  - destruct (concat l1); [congruence|discriminate].
  - intros x H. apply in_app_iff in H as [H|H]; auto.
  - intros x H. apply in_app_iff in H as [H|H]; auto.
Qed.
Lemma avm_unit l p K u : assert_valid_multilabel l p K = Ok u -> assert_valid_multilabel l p K = Ok tt.
Proof. now destruct u. Qed.
Lemma onehot_app l1 l2 K : int2onehot (l1 ++ l2) K = int2onehot l1 K ++ int2onehot l2 K.
Proof. apply map_app. Qed.
Lemma per_class_join l1 l2 p1 p2 K m s1 s2 : ml_label_quality_scores_per_class l1 p1 K m false = Ok s1 -> ml_label_quality_scores_per_class l2 p2 K m false = Ok s2 ->
  ml_label_quality_scores_per_class (l1 ++ l2) (p1 ++ p2) K m false = Ok (s1 ++ s2).
Proof.
  unfold ml_label_quality_scores_per_class. destruct (assert_valid_multilabel l1 p1 K) as [u1|] eqn:V1; cbn [rbind]; [|discriminate].
  destruct (assert_valid_multilabel l2 p2 K) as [u2|] eqn:V2; cbn [rbind]; [|discriminate]. apply avm_unit in V1, V2. intros H1 H2.
  rewrite avm_app by auto. cbn [rbind]. rewrite onehot_app. apply avm_spec in V1 as (V1 & _), V2 as (V2 & _).
  apply class_scores_app; auto; unfold int2onehot; rewrite map_length; auto.
Qed.
Lemma overall_join srt l1 l2 p1 p2 K m a s1 s2 : ml_label_quality_scores srt l1 p1 K m false a = Ok s1 -> ml_label_quality_scores srt l2 p2 K m false a = Ok s2 ->
  ml_label_quality_scores srt (l1 ++ l2) (p1 ++ p2) K m false a = Ok (s1 ++ s2).
Proof.
  unfold ml_label_quality_scores. destruct (assert_valid_multilabel l1 p1 K) as [u1|] eqn:V1; cbn [rbind]; [|discriminate].
  destruct (assert_valid_multilabel l2 p2 K) as [u2|] eqn:V2; cbn [rbind]; [|discriminate]. apply avm_unit in V1, V2.
  unfold onehot_scores. intros H1 H2.
  rewrite avm_app by auto. cbn [rbind]. rewrite onehot_app. apply avm_spec in V1 as (V1 & _), V2 as (V2 & _).
  unfold check_onehot in H1, H2 |- *. rewrite concat_app, !app_length in *.
  assert (EL : forall l, length (int2onehot l K) = length l) by (intros; unfold int2onehot; apply map_length). rewrite !EL in *.
  rewrite V1, Nat.eqb_refl in H1. rewrite V2, Nat.eqb_refl in H2. rewrite V1, V2, Nat.eqb_refl. cbn [negb] in *.
  destruct (Nat.leb K 1); [discriminate|]. cbn [orb] in *.
  assert (MA : forall x (a b : list nat), mem x a = true -> mem x (a ++ b) = true) by (intros x u v; rewrite !mem_iff, in_app_iff; auto).
  destruct (mem 0 (concat (int2onehot l1 K))) eqn:M0; [|discriminate]. destruct (mem 1 (concat (int2onehot l1 K))) eqn:M1; [|discriminate].
  rewrite !MA by auto. cbn [negb andb rbind] in *.
  destruct (mem 0 (concat (int2onehot l2 K)) && mem 1 (concat (int2onehot l2 K)))%bool; [|discriminate]. cbn [negb rbind] in H2.
  destruct (class_scores (int2onehot l1 K) p1 K m false) as [c1|] eqn:C1; cbn [rbind] in H1; [|discriminate].
  destruct (class_scores (int2onehot l2 K) p2 K m false) as [c2|] eqn:C2; cbn [rbind] in H2; [|discriminate].
  rewrite (class_scores_app _ _ _ _ _ _ c1 c2) by (auto; rewrite EL; auto). cbn [rbind]. now apply rmap_app.
Qed.

(** ** Tokens *)
Lemma nested_app {A} (x y : list A) l1 l2 : length x = nsum l1 -> nested_list (x ++ y) (l1 ++ l2) = nested_list x l1 ++ nested_list y l2.
Proof.
  revert x. induction l1 as [|n l1 IH]; intros x H; cbn [nsum fold_right app nested_list] in *; [destruct x; [reflexivity|discriminate]|].
  assert (n <= length x)%nat by (unfold nsum in *; cbn in H; lia).
  rewrite firstn_app, skipn_app. replace (n - length x)%nat with 0%nat by lia. cbn [firstn skipn]. rewrite app_nil_r. f_equal.
  apply IH. rewrite skipn_length. unfold nsum in *. cbn in H. lia.
Qed.
Lemma tokens_join l1 l2 p1 p2 K m s1 s2 t1 t2 :
  token_get_label_quality_scores l1 p1 K m = Ok (s1, t1) -> token_get_label_quality_scores l2 p2 K m = Ok (s2, t2) ->
  token_get_label_quality_scores (l1 ++ l2) (p1 ++ p2) K m = Ok (s1 ++ s2, t1 ++ t2).
Proof.
  unfold token_get_label_quality_scores. rewrite !concat_app.
  destruct (get_label_quality_scores (concat l1) (concat p1) K m false) as [f1|] eqn:E1; cbn [rbind]; [|discriminate].
  destruct (get_label_quality_scores (concat l2) (concat p2) K m false) as [f2|] eqn:E2; cbn [rbind]; [|discriminate].
  rewrite (scores_join _ _ _ _ _ _ _ _ E1 E2). cbn [rbind]. rewrite map_app, nested_app.
  2:{ apply glqs_inv in E1 as (_ & L & E1). apply clqs_len in E1; auto. rewrite E1. clear. induction l1 as [|a l1 IH]; [reflexivity|]. cbn [concat map]. rewrite app_length, IH. reflexivity. }
  destruct (rmap min_sentence (nested_list f1 (map (length (A:=nat)) l1))) as [r1|] eqn:R1; cbn [rbind]; [|discriminate].
  destruct (rmap min_sentence (nested_list f2 (map (length (A:=nat)) l2))) as [r2|] eqn:R2; cbn [rbind]; [|discriminate].
  intros H1 H2. injection H1 as <- <-. injection H2 as <- <-. rewrite (rmap_app _ _ _ _ _ R1 R2). reflexivity.
Qed.

(** ** Pixels *)
Lemma pixels_join l1 l2 p1 p2 s1 s2 : tH p1 = tH p2 -> tW p1 = tW p2 ->
  seg_pixel_scores l1 p1 = Ok s1 -> seg_pixel_scores l2 p2 = Ok s2 ->
  exists s, seg_pixel_scores (stacked l1 l2) (stacked_probs p1 p2) = Ok s /\ same_arr s (stacked s1 s2).
Proof.
  intros EH EW. unfold seg_pixel_scores, check_input. cbn [stacked stacked_probs sN sH sW tN tH tW].
  destruct (Nat.eqb_spec (sN l1) (tN p1)) as [A1|]; [|discriminate]. destruct (Nat.eqb_spec (sH l1) (tH p1)) as [B1|]; [|discriminate].
  destruct (Nat.eqb_spec (sW l1) (tW p1)) as [C1|]; [|discriminate]. destruct (Nat.eqb_spec (sN l2) (tN p2)) as [A2|]; [|discriminate].
  destruct (Nat.eqb_spec (sH l2) (tH p2)) as [B2|]; [|discriminate]. destruct (Nat.eqb_spec (sW l2) (tW p2)) as [C2|]; [|discriminate].
  cbn [andb rbind]. intros H1 H2. injection H1 as <-. injection H2 as <-. rewrite A1, A2, Nat.eqb_refl. cbn [andb rbind].
  eexists. split; [reflexivity|]. repeat split. intros n i j Hn Hi Hj. cbn [sN sH sW at3 at4 stacked stacked_probs] in *. rewrite A1. destruct (Nat.ltb n (tN p1)); reflexivity.
Qed.

(** ** Residuals *)
Lemma residual_app l1 l2 p1 p2 : length l1 = length p1 ->
  ModelRegRank.residual_scores (l1 ++ l2) (p1 ++ p2) = ModelRegRank.residual_scores l1 p1 ++ ModelRegRank.residual_scores l2 p2.
Proof. intros H. unfold ModelRegRank.residual_scores, ModelRegRank.residuals. rewrite app_combine by auto. now rewrite !map_app. Qed.

(** ** Out-of-distribution scores *)
Section OOD.
Context {F : Type} (B : backend F).
Lemma probs_join o p1 p2 K r1 r2 : snd (score B o (of_probs p1 K)) = Ok (Some r1) -> snd (score B o (of_probs p2 K)) = Ok (Some r2) ->
  snd (score B o (of_probs (p1 ++ p2) K)) = Ok (Some (r1 ++ r2)).
Proof.
  unfold score, valid_input, of_probs. cbn [in_features in_pred_probs in_labels].
  assert (G : forall thr s1 s2, pred_probs_scores B o p1 K None = Ok (thr, s1) -> pred_probs_scores B o p2 K None = Ok (thr, s2) ->
    pred_probs_scores B o (p1 ++ p2) K None = Ok (thr, s1 ++ s2)).
  { intros thr s1 s2. unfold pred_probs_scores. destruct (p_adjust o).
    - destruct (p_thresholds o) as [t|]; cbn [rbind]; [|discriminate]. destruct (Nat.eqb (length t) K); cbn [rbind]; [|discriminate].
      unfold subtract_confident_thresholds. rewrite map_app.
      destruct (rmap _ (map _ p1)) as [x|] eqn:E1; cbn [rbind]; [|discriminate]. destruct (rmap _ (map _ p2)) as [y|] eqn:E2; cbn [rbind]; [|discriminate].
      intros H1 H2. injection H1 as <- <-. injection H2 as <-. rewrite (rmap_app _ _ _ _ _ E1 E2). reflexivity.
    - cbn [rbind]. destruct (rmap _ p1) as [x|] eqn:E1; cbn [rbind]; [|discriminate]. destruct (rmap _ p2) as [y|] eqn:E2; cbn [rbind]; [|discriminate].
      intros H1 H2. injection H1 as <- <-. injection H2 as <-. rewrite (rmap_app _ _ _ _ _ E1 E2). reflexivity. }
  assert (T : forall p thr s, pred_probs_scores B o p K None = Ok (thr, s) -> thr = p_thresholds o).
  { intros p thr s. unfold pred_probs_scores. destruct (p_adjust o).
    - destruct (p_thresholds o) as [t|]; cbn [rbind]; [|discriminate]. destruct (Nat.eqb (length t) K); cbn [rbind]; [|discriminate].
      destruct (rmap _ _); cbn [rbind]; [|discriminate]. intros H. now injection H as <- _.
    - cbn [rbind]. destruct (rmap _ _); cbn [rbind]; [|discriminate]. intros H. now injection H as <- _. }
  assert (M : snd (lift o (do r <- pred_probs_scores B o p1 K None ; Ok (o, Some (snd r)))) = Ok (Some r1) ->
    snd (lift o (do r <- pred_probs_scores B o p2 K None ; Ok (o, Some (snd r)))) = Ok (Some r2) ->
    snd (lift o (do r <- pred_probs_scores B o (p1 ++ p2) K None ; Ok (o, Some (snd r)))) = Ok (Some (r1 ++ r2))).
  { destruct (pred_probs_scores B o p1 K None) as [[t1 s1]|] eqn:E1; cbn [rbind lift snd]; [|discriminate].
    destruct (pred_probs_scores B o p2 K None) as [[t2 s2]|] eqn:E2; cbn [rbind lift snd]; [|discriminate].
    intros H1 H2. injection H1 as <-. injection H2 as <-. pose proof (T _ _ _ E1) as T1. pose proof (T _ _ _ E2) as T2. subst t1 t2.
    rewrite (G _ _ _ eq_refl eq_refl). reflexivity. }
  destruct (p_thresholds o); [exact M|]. destruct (p_adjust o); [discriminate|exact M].
Qed.
Lemma finish_app (o : ood F) m k d1 d2 s r1 r2 : p_scaling o = Some s -> finish B o m k d1 = Ok r1 -> finish B o m k d2 = Ok r2 ->
  finish B o m k (d1 ++ d2) = Ok (s, snd r1 ++ snd r2) /\ fst r1 = s /\ fst r2 = s.
Proof.
  intros Hs. unfold finish. rewrite Hs. unfold correct_precision_errors. destruct (tolerance m) as [tl|]; cbn [rbind]; [|discriminate].
  intros H1 H2. injection H1 as <-. injection H2 as <-. cbn [fst snd]. split; [|auto]. f_equal. f_equal.
  unfold avg_distances, transform_distances_to_scores. rewrite !map_app. destruct tl; [|reflexivity].
  rewrite app_combine by (now rewrite !map_length). now rewrite map_app.
Qed.
Lemma features_join o kn tr sc f1 f2 f r1 r2 : p_knn o = Some kn -> fitted_on kn = Some tr -> p_scaling o = Some sc -> joined B f1 f2 f ->
  snd (score B o (of_features f1)) = Ok (Some r1) -> snd (score B o (of_features f2)) = Ok (Some r2) ->
  snd (score B o (of_features f)) = Ok (Some (r1 ++ r2)).
Proof.
  intros Hk Hf Hs (J1 & J2 & J3). unfold score, valid_input, of_features. cbn [in_features in_pred_probs]. rewrite J1.
  destruct (two_dim B f1); [|discriminate]. destruct (two_dim B f2); [|discriminate]. rewrite Hk. unfold features_scores. rewrite Hk, Hf.
  destruct (same_dim B tr f1) eqn:D1; cbn [negb rbind lift snd]; [|discriminate]. destruct (same_dim B tr f2) eqn:D2; cbn [negb rbind lift snd]; [|discriminate].
  rewrite (J2 tr D1 D2), J3. cbn [negb].
  destruct (finish B o (knn_metric kn) _ (kneighbors B tr (Some f1) (n_neighbors kn))) as [x|] eqn:E1; cbn [rbind lift snd]; [|discriminate].
  destruct (finish B o (knn_metric kn) _ (kneighbors B tr (Some f2) (n_neighbors kn))) as [y|] eqn:E2; cbn [rbind lift snd]; [|discriminate].
  intros H1 H2. injection H1 as <-. injection H2 as <-. destruct (finish_app _ _ _ _ _ _ _ _ Hs E1 E2) as (G & _). rewrite G. reflexivity.
Qed.
End OOD.

(** ** Object detection *)
Section Detection.
Variables (dist : box -> box -> Q) (alpha : Q).
Definition aux_of (m : Q) (lp : image_label * image_pred) : aux :=
  let preds := separate_prediction (snd lp) in
  mk_aux (fst lp) preds (similarity_matrix dist alpha (fst lp) preds) (overlap_matrix (map snd (fst lp)) (map (fun p => fst (snd p)) preds)) m.
Lemma badloc_join l1 l2 p1 p2 lp : length l1 = length p1 ->
  compute_badloc_box_scores dist alpha lp (l1 ++ l2) (p1 ++ p2) = compute_badloc_box_scores dist alpha lp l1 p1 ++ compute_badloc_box_scores dist alpha lp l2 p2.
Proof. intros L. unfold compute_badloc_box_scores, aux_inputs. rewrite !map_map, app_combine, map_app by auto. reflexivity. Qed.
Lemma over_eq m m' lp hp : m == m' -> vals (overlooked_scores hp (aux_of m lp)) = vals (overlooked_scores hp (aux_of m' lp)).
Proof.
  intros E. unfold overlooked_scores, aux_of. cbn [a_preds a_iou a_labs a_sim a_min]. rewrite !vals_map, !flat_map_concat_map. f_equal.
  apply map_ext. intros [j p]. apply vals_same. destruct (_ || _)%bool; [exact I|]. destruct (select _ _); cbn [same_opt]; [rewrite E|]; reflexivity.
Qed.
Lemma swap_eq m m' lp hp check : m == m' -> vals (map Some (swap_scores hp check (aux_of m lp))) = vals (map Some (swap_scores hp check (aux_of m' lp))).
Proof.
  intros E. unfold swap_scores. rewrite !map_map. cbn [aux_of a_labs]. rewrite !vals_map, !flat_map_concat_map. f_equal.
  apply map_ext. intros [i kb]. apply vals_same. cbn [same_opt fst snd]. unfold swap_score. cbn [aux_of a_preds a_sim a_labs a_min].
  destruct (_ && _)%bool; [exact E|]. destruct (forallb _ _); [reflexivity|]. unfold qmax.
  repeat match goal with |- context [if ?b then _ else _] => destruct b eqn:? end; try exact E; try reflexivity.
  all: rewrite ?Qle_bool_iff in *; try (apply not_true_iff_false in Heqb; rewrite Qle_bool_iff in Heqb); try (apply not_true_iff_false in Heqb0; rewrite Qle_bool_iff in Heqb0); Lqa.lra.
Qed.
Lemma image_eq m m' lp w check : m == m' -> image_score w check (aux_of m lp) = image_score w check (aux_of m' lp).
Proof.
  intros E. unfold image_score.
  assert (V : forall t a b, vals a = vals b -> valid_score t a = valid_score t b) by (intros t a b H; unfold valid_score; unfold vals in H; now rewrite H).
  rewrite (V _ _ _ (over_eq m m' lp HIGH_PROBABILITY_THRESHOLD E)), (V _ _ _ (swap_eq m m' lp HIGH_PROBABILITY_THRESHOLD check E)). reflexivity.
Qed.
End Detection.
Lemma least_unique dist alpha l p m m' : least_similarity dist alpha l p m -> least_similarity dist alpha l p m' -> m == m'.
Proof.
  intros A B. apply Qle_antisym; [apply (least_le dist alpha l p l p m' m)|apply (least_le dist alpha l p l p m m')]; auto; intros a b i k k' q H1 H2; exists a, b, i, q; auto with qarith.
Qed.
Lemma prune_all K l p : detection_inputs K l p -> prune_by_threshold 0 p = p.
Proof.
  intros (_ & L & _ & _ & H). unfold prune_by_threshold. rewrite <- (map_id p) at 2. apply map_ext_in. intros ds Hd. rewrite <- (map_id ds) at 2.
  apply map_ext_in. intros x Hx. apply (In_nth _ _ []) in Hd as (i & Hi & E). destruct (H i) as (_ & P); [lia|]. rewrite E in P.
  assert (G : forall d, In d x -> Qleb 0 (snd d) = true) by (intros d Hd'; apply Qleb_iff; apply (P x d); auto).
  clear - G. induction x as [|d x IH]; [reflexivity|]. cbn [filter]. rewrite G by now left. f_equal. apply IH. intros; apply G; now right.
Qed.
Lemma images_join dist K l1 l2 p1 p2 m w check s1 s2 : (forall a b, unit_interval (dist a b)) -> detection_inputs K l1 p1 -> detection_inputs K l2 p2 ->
  least_similarity dist ALPHA l1 p1 m -> least_similarity dist ALPHA l2 p2 m ->
  detection_scores dist l1 p1 w check = Ok s1 -> detection_scores dist l2 p2 w check = Ok s2 ->
  detection_scores dist (l1 ++ l2) (p1 ++ p2) w check = Ok (s1 ++ s2).
Proof.
  intros Hd D1 D2 M1 M2. pose proof (prune_all _ _ _ D1) as P1. pose proof (prune_all _ _ _ D2) as P2.
  assert (P : prune_by_threshold 0 (p1 ++ p2) = p1 ++ p2) by (unfold prune_by_threshold in *; rewrite map_app; congruence).
  unfold detection_scores. rewrite P, P1, P2.
  destruct (assert_valid_detection l1 p1) as [u1|] eqn:V1; cbn [rbind]; [|discriminate]. destruct (assert_valid_detection l2 p2) as [u2|] eqn:V2; cbn [rbind]; [|discriminate].
  destruct (valid_weights w) eqn:W; cbn [negb]; [|discriminate]. intros H1 H2. injection H1 as <-. injection H2 as <-.
  destruct D1 as (N1 & L1 & K1 & C1 & B1), D2 as (N2 & L2 & K2 & C2 & B2).
  assert (V : assert_valid_detection (l1 ++ l2) (p1 ++ p2) = Ok tt).
  { unfold assert_valid_detection in *. rewrite !app_length, L1, L2, Nat.eqb_refl. cbn [negb]. rewrite L1, Nat.eqb_refl in V1. cbn [negb] in V1.
    destruct p1 as [|[|d p] p1]; [discriminate|discriminate|]. reflexivity. }
  rewrite V. cbn [rbind]. unfold aux_inputs. rewrite !map_map, app_combine, map_app by auto.
  pose proof (amin_spec dist ALPHA l1 p1 Hd alpha_unit L1 (fun i Hi => proj1 (B1 i Hi))) as A1. pose proof (amin_spec dist ALPHA l2 p2 Hd alpha_unit L2 (fun i Hi => proj1 (B2 i Hi))) as A2.
  assert (E1 := least_unique _ _ _ _ _ _ A1 M1). assert (E2 := least_unique _ _ _ _ _ _ A2 M2).
  assert (E : min_possible_similarity dist ALPHA (l1 ++ l2) (p1 ++ p2) == m).
  { destruct M1 as (M0 & M1' & _). unfold min_possible_similarity in *. rewrite app_combine, map_app by auto.
    set (x := map _ (combine l1 p1)) in *. set (y := map _ (combine l2 p2)) in *. rewrite fold_left_app.
    assert (G : forall z a b, a == b -> fold_left qmin z a == fold_left qmin z b).
    { clear. induction z as [|c z IH]; intros a b H; [exact H|]. cbn [fold_left]. apply IH. unfold qmin.
      destruct (Qle_bool a c) eqn:A; destruct (Qle_bool b c) eqn:B; try exact H; try reflexivity; rewrite ?Qle_bool_iff in *;
      first [apply not_true_iff_false in A; rewrite Qle_bool_iff in A|idtac]; first [apply not_true_iff_false in B; rewrite Qle_bool_iff in B|idtac]; Lqa.lra. }
    rewrite (G y _ _ E1). clear - E2 M1'. destruct (fold_qmin_spec y 1) as (F1 & F2 & F3). destruct (fold_qmin_spec y m) as (T1 & T2 & T3).
    apply Qle_antisym; [exact T1|]. destruct T3 as [T3|T3]; [rewrite T3; apply Qle_refl|]. specialize (F2 _ T3). rewrite E2 in F2. exact F2. }
  f_equal. f_equal; apply map_ext; intros q; apply image_eq; [rewrite E, E1|rewrite E, E2]; reflexivity.
Qed.

(** ** Regression *)
Lemma vec_valid l p : (2 <= length l)%nat -> length l = length p ->
  ModelRegRank.get_label_quality_scores (fun x => x) (SpecRegRank.vec l) (SpecRegRank.vec p) ModelRegRank.Residual = Ok (ModelRegRank.residual_scores l p).
Proof.
  intros H L. unfold ModelRegRank.get_label_quality_scores, ModelRegRank.assert_valid_prediction_inputs, ModelRegRank.check_dimension_and_datatype, SpecRegRank.vec.
  cbn [ModelRegRank.shape ModelRegRank.numeric ModelRegRank.entries]. rewrite <- L. unfold ModelRegRank.size, ModelRegRank.squeeze. cbn [fold_right filter]. rewrite Nat.mul_1_r.
  destruct (Nat.eqb_spec (length l) 0); [lia|]. destruct (Nat.eqb_spec (length l) 1); [lia|]. cbn [negb length Nat.eqb rbind ModelRegRank.shape ModelRegRank.entries ModelRegRank.same_shape].
  rewrite Nat.eqb_refl. cbn [andb negb]. unfold ModelRegRank.check_missing_values. cbn [ModelRegRank.entries].
  assert (N : forall x : list R, existsb ModelRegRank.is_nan (map Some x) = false) by (induction x; auto).
  rewrite !N. cbn [rbind fst snd ModelRegRank.entries]. rewrite !map_map. cbn [ModelRegRank.number]. now rewrite !map_id.
Qed.
Lemma vec_sort sort l p : ModelRegRank.get_label_quality_scores sort (SpecRegRank.vec l) (SpecRegRank.vec p) ModelRegRank.Residual =
  ModelRegRank.get_label_quality_scores (fun x => x) (SpecRegRank.vec l) (SpecRegRank.vec p) ModelRegRank.Residual.
Proof. reflexivity. Qed.
Lemma residual_join sort l1 l2 p1 p2 : (2 <= length l1)%nat -> length l1 = length p1 -> (2 <= length l2)%nat -> length l2 = length p2 -> exists s1 s2,
  ModelRegRank.get_label_quality_scores sort (SpecRegRank.vec l1) (SpecRegRank.vec p1) ModelRegRank.Residual = Ok s1 /\
  ModelRegRank.get_label_quality_scores sort (SpecRegRank.vec l2) (SpecRegRank.vec p2) ModelRegRank.Residual = Ok s2 /\
  ModelRegRank.get_label_quality_scores sort (SpecRegRank.vec (l1 ++ l2)) (SpecRegRank.vec (p1 ++ p2)) ModelRegRank.Residual = Ok (s1 ++ s2).
Proof.
  intros H1 L1 H2 L2. exists (ModelRegRank.residual_scores l1 p1), (ModelRegRank.residual_scores l2 p2). rewrite !(vec_sort sort).
  split; [now apply vec_valid|]. split; [now apply vec_valid|]. rewrite vec_valid by (rewrite !app_length; lia). now rewrite residual_app.
Qed.
