(** * Proofs about data sets without common classes *)
From Coq Require Import QArith Qabs List Sorted ZArith Bool Arith Lia Lqa.
From Verif Require Import Base BaseFacts ModelUtil ModelCount ModelRank ModelFilter SpecCount SpecFilter SpecRank SpecApart SpecSymmetry
  ProofUtil ProofCount ProofFilter ProofRank ProofTotal ProofSymmetry ProofIdeal ProofTwice ProofStable ProofMonotone ProofBatched.
Import ListNotations.
Open Scope Q_scope.

(** a part [L], [P] of a data set: position [e] of the part is position [f e] of the whole *)
Section Part.
Variables (K : nat) (labels : list nat) (pp : list (list Q)) (L : list nat) (P : list (list Q)) (f : nat -> nat).
Hypothesis Hd : dataset K labels pp.
Hypothesis HD : dataset K L P.
Hypothesis Hf : forall e, (e < length L)%nat -> (f e < length labels)%nat /\ label_of labels (f e) = label_of L e /\ row_of pp (f e) = row_of P e.
Hypothesis Hin : forall k, In k L -> In k labels /\ own_probs k labels pp = own_probs k L P.
Hypothesis Hout : forall e k, (e < length L)%nat -> In k labels -> ~ In k L -> prob_of P e k < 1 # 1000000.
Let t := get_confident_thresholds labels pp K.
Let T := get_confident_thresholds L P K.

Lemma part_prob e k : (e < length L)%nat -> prob_of pp (f e) k = prob_of P e k.
Proof. intros He. unfold prob_of. fold (row_of pp (f e)) (row_of P e). destruct (Hf e He) as (_ & _ & ->). reflexivity. Qed.
Lemma part_one e k : (e < length L)%nat -> (k < K)%nat -> prob_of P e k <= 1.
Proof.
  intros He Hk. apply (ds_prob _ _ _ HD (row_of P e)); [apply nth_In; rewrite <- (ds_len _ _ _ HD); exact He|].
  apply nth_In. rewrite (rowK K L P HD e He). exact Hk.
Qed.
Lemma part_thr k : (k < K)%nat -> In k L -> nth k t 0 == nth k T 0.
Proof.
  intros Hk Hl. destruct (Hin k Hl) as (Hl' & Eo).
  destruct (thresholds_spec labels pp K k (ds_len _ _ _ Hd) Hk) as (A1 & _). destruct (A1 Hl') as (a & Ha & Ea).
  destruct (thresholds_spec L P K k (ds_len _ _ _ HD) Hk) as (B1 & _). destruct (B1 Hl) as (b & Hb & Eb).
  unfold t, T. rewrite Ea, Eb. rewrite Eo in Ha. pose proof (average_unique _ _ _ Ha Hb) as E.
  destruct (qmax_spec a CONFIDENT_THRESHOLDS_LOWER_BOUND) as [[X ->]|[X ->]], (qmax_spec b CONFIDENT_THRESHOLDS_LOWER_BOUND) as [[Y ->]|[Y ->]]; lra.
Qed.
(** classes of the rest are reached neither in the part nor in the whole *)
Lemma part_reach e k : (e < length L)%nat -> (k < K)%nat ->
  (nth k t 0 - (1 # 1000000) <= prob_of P e k <-> nth k T 0 - (1 # 1000000) <= prob_of P e k).
Proof.
  intros He Hk. destruct (in_dec Nat.eq_dec k L) as [Hl|Hl]; [rewrite (part_thr k Hk Hl); reflexivity|].
  destruct (thresholds_spec L P K k (ds_len _ _ _ HD) Hk) as (_ & B2). specialize (B2 Hl). fold T in B2.
  pose proof (part_one e k He Hk) as P1.
  destruct (thresholds_spec labels pp K k (ds_len _ _ _ Hd) Hk) as (A1 & A2). fold t in A1, A2.
  destruct (in_dec Nat.eq_dec k labels) as [Hl'|Hl'].
  - destruct (A1 Hl') as (a & _ & Ea). pose proof (Hout e k He Hl' Hl) as P2.
    assert ((2 # 1000000) <= nth k t 0).
    { rewrite Ea. destruct (qmax_spec a CONFIDENT_THRESHOLDS_LOWER_BOUND) as [[X ->]|[X ->]]; unfold CONFIDENT_THRESHOLDS_LOWER_BOUND in *; lra. }
    split; intros C; exfalso; lra.
  - specialize (A2 Hl'). split; intros C; exfalso; lra.
Qed.
Lemma part_beaten e : (e < length L)%nat -> clearly_beaten labels pp (f e) <-> clearly_beaten L P e.
Proof.
  intros He. unfold clearly_beaten. destruct (Hf e He) as (_ & -> & ->). split; intros (j & Hj & B); exists j; (split; [exact Hj|]).
  - rewrite !part_prob in B by exact He. exact B.
  - rewrite !part_prob by exact He. exact B.
Qed.
Lemma part_flag e : (e < length L)%nat -> flagged (cl_mask labels pp K) (f e) <-> flagged (cl_mask L P K) e.
Proof.
  intros He. rewrite (rule K labels pp (f e) Hd), (rule K L P e HD), (part_beaten e He). destruct (Hf e He) as (A & -> & _).
  split; intros (_ & B & (j & Hj & N & R)); (split; [assumption|]); (split; [exact B|]); exists j; (split; [exact Hj|]); (split; [exact N|]).
  - rewrite part_prob in R by exact He. apply (part_reach e j He Hj). exact R.
  - rewrite part_prob by exact He. apply (part_reach e j He Hj). exact R.
Qed.
Lemma part_reaches e j : (e < length L)%nat -> reaches t (row_of pp (f e)) j <-> reaches T (row_of P e) j.
Proof.
  intros He. destruct (Hf e He) as (_ & _ & ->). unfold reaches. rewrite (rowK K L P HD e He).
  split; intros (A & B); (split; [exact A|]); apply (part_reach e j He A); exact B.
Qed.
Lemma part_counted e j : (e < length L)%nat -> counted_as t (row_of pp (f e)) j <-> counted_as T (row_of P e) j.
Proof.
  intros He. pose proof (fun i => part_reaches e i He) as R. destruct (Hf e He) as (_ & _ & Er).
  unfold counted_as.
  assert (M : most_likely (row_of pp (f e)) j <-> most_likely (row_of P e) j) by (rewrite Er; reflexivity).
  assert (A : (forall i, reaches t (row_of pp (f e)) i -> i = j) <-> (forall i, reaches T (row_of P e) i -> i = j))
    by (split; intros H i Hi; apply H; apply R; exact Hi).
  assert (B : (exists a b, a <> b /\ reaches t (row_of pp (f e)) a /\ reaches t (row_of pp (f e)) b) <->
              (exists a b, a <> b /\ reaches T (row_of P e) a /\ reaches T (row_of P e) b))
    by (split; intros (a & b & N & Ra & Rb); exists a, b; (split; [exact N|]); split; apply R; assumption).
  rewrite A, B, M, (R j). reflexivity.
Qed.
End Part.

Section Two.
Variables (K : nat) (L1 L2 : list nat) (P1 P2 : list (list Q)).
Hypothesis D1 : dataset K L1 P1.
Hypothesis D2 : dataset K L2 P2.
Hypothesis Ha : apart L1 P1 L2 P2.

Lemma both_dataset : dataset K (L1 ++ L2) (P1 ++ P2).
Proof.
  clear Ha. destruct D1 as [a1 a2 a3 a4 a5], D2 as [b1 b2 b3 b4 b5]. split.
  - rewrite !app_length. lia.
  - destruct L1; [congruence|discriminate].
  - intros l Hl. apply in_app_iff in Hl. destruct Hl; auto.
  - intros r Hr. apply in_app_iff in Hr. destruct Hr; auto.
  - intros r x Hr. apply in_app_iff in Hr. destruct Hr; eauto.
Qed.
Lemma own_none k : forall L P, ~ In k L -> own_probs k L P = [].
Proof.
  induction L as [|l L IH]; intros [|r P] H; cbn; auto. destruct (Nat.eqb_spec l k) as [->|N]; [destruct H; left; reflexivity|].
  apply IH. intros C. apply H. right. exact C.
Qed.
Lemma first_at e : (e < length L1)%nat -> (e < length (L1 ++ L2))%nat /\ label_of (L1 ++ L2) e = label_of L1 e /\ row_of (P1 ++ P2) e = row_of P1 e.
Proof.
  intros He. rewrite app_length. split; [lia|]. unfold label_of, row_of. rewrite !app_nth1; auto.
  rewrite <- (ds_len _ _ _ D1). exact He.
Qed.
Lemma second_at e : (e < length L2)%nat -> (length L1 + e < length (L1 ++ L2))%nat /\
  label_of (L1 ++ L2) (length L1 + e) = label_of L2 e /\ row_of (P1 ++ P2) (length L1 + e) = row_of P2 e.
Proof.
  intros He. rewrite app_length. split; [lia|]. unfold label_of, row_of. pose proof (ds_len _ _ _ D1) as E.
  rewrite !app_nth2 by lia. rewrite <- E. replace (length L1 + e - length L1)%nat with e by lia. split; reflexivity.
Qed.
Lemma first_in k : In k L1 -> In k (L1 ++ L2) /\ own_probs k (L1 ++ L2) (P1 ++ P2) = own_probs k L1 P1.
Proof.
  intros Hk. split; [apply in_or_app; left; exact Hk|]. rewrite own_probs_app by apply (ds_len _ _ _ D1).
  rewrite (own_none k L2 P2); [apply app_nil_r|]. destruct Ha as (A & _). exact (A k Hk).
Qed.
Lemma second_in k : In k L2 -> In k (L1 ++ L2) /\ own_probs k (L1 ++ L2) (P1 ++ P2) = own_probs k L2 P2.
Proof.
  intros Hk. split; [apply in_or_app; right; exact Hk|]. rewrite own_probs_app by apply (ds_len _ _ _ D1).
  rewrite (own_none k L1 P1); [reflexivity|]. destruct Ha as (A & _). intros C. exact (A k C Hk).
Qed.
Lemma first_out e k : (e < length L1)%nat -> In k (L1 ++ L2) -> ~ In k L1 -> prob_of P1 e k < 1 # 1000000.
Proof. intros He Hk N. apply in_app_iff in Hk. destruct Hk as [Hk|Hk]; [contradiction|]. destruct Ha as (_ & A & _). exact (A e k He Hk). Qed.
Lemma second_out e k : (e < length L2)%nat -> In k (L1 ++ L2) -> ~ In k L2 -> prob_of P2 e k < 1 # 1000000.
Proof. intros He Hk N. apply in_app_iff in Hk. destruct Hk as [Hk|Hk]; [|contradiction]. destruct Ha as (_ & _ & A). exact (A e k He Hk). Qed.

Lemma flag_first e : (e < length L1)%nat -> flagged (cl_mask (L1 ++ L2) (P1 ++ P2) K) e <-> flagged (cl_mask L1 P1 K) e.
Proof. exact (part_flag K (L1 ++ L2) (P1 ++ P2) L1 P1 (fun e => e) both_dataset D1 first_at first_in first_out e). Qed.
Lemma flag_second e : (e < length L2)%nat -> flagged (cl_mask (L1 ++ L2) (P1 ++ P2) K) (length L1 + e) <-> flagged (cl_mask L2 P2 K) e.
Proof. exact (part_flag K (L1 ++ L2) (P1 ++ P2) L2 P2 (fun e => (length L1 + e)%nat) both_dataset D2 second_at second_in second_out e). Qed.
Lemma mask_split (m m1 m2 : list bool) : length m1 = length L1 -> length m2 = length L2 -> length m = length (L1 ++ L2) ->
  (forall e, (e < length L1)%nat -> flagged m e <-> flagged m1 e) ->
  (forall e, (e < length L2)%nat -> flagged m (length L1 + e) <-> flagged m2 e) -> m = m1 ++ m2.
Proof.
  intros E1 E2 E H1 H2. rewrite app_length in E. apply mask_ext; [rewrite app_length; lia|]. rewrite E. intros e He.
  destruct (Nat.lt_ge_cases e (length L1)) as [Hl|Hl].
  - rewrite (H1 e Hl). unfold flagged. rewrite app_nth1 by lia. reflexivity.
  - replace e with (length L1 + (e - length L1))%nat by lia. rewrite (H2 (e - length L1)%nat) by lia. unfold flagged.
    rewrite app_nth2 by lia. rewrite E1. replace (length L1 + (e - length L1) - length L1)%nat with (e - length L1)%nat by lia. reflexivity.
Qed.
Lemma cl_both : cl_mask (L1 ++ L2) (P1 ++ P2) K = cl_mask L1 P1 K ++ cl_mask L2 P2 K.
Proof.
  apply mask_split; [apply cl_length; exact D1|apply cl_length; exact D2|apply cl_length; exact both_dataset|exact flag_first|exact flag_second].
Qed.
Lemma both_two : two_classes L1 -> two_classes (L1 ++ L2).
Proof. intros (a & b & A & B & N). exists a, b. rewrite !in_app_iff. auto. Qed.
End Two.

Lemma apart_issues : forall srt K L1 P1 L2 P2 o flt, argsort_ok srt -> dataset K L1 P1 -> dataset K L2 P2 ->
  two_classes L1 -> two_classes L2 -> apart L1 P1 L2 P2 -> num_to_remove_per_class o = None -> (1 <= n_jobs o)%nat ->
  flt = ConfidentLearning \/ flt = PredictedNeqGiven ->
  exists m1 m2 n1 n2, find_label_issues srt L1 P1 K flt o = Ok m1 /\ find_label_issues srt L2 P2 K flt o = Ok m2 /\
    length m1 = length L1 /\ length m2 = length L2 /\
    find_label_issues srt (L1 ++ L2) (P1 ++ P2) K flt o = Ok (m1 ++ m2) /\
    num_label_issues srt L1 P1 K = Ok n1 /\ num_label_issues srt L2 P2 K = Ok n2 /\
    num_label_issues srt (L1 ++ L2) (P1 ++ P2) K = Ok (n1 + n2)%nat.
Proof.
  intros srt K L1 P1 L2 P2 o flt Hs D1 D2 T1 T2 Ha Hn Hj Hf.
  pose proof (both_dataset K L1 L2 P1 P2 D1 D2) as D. pose proof (both_two L1 L2 T1) as T.
  pose proof (cl_both K L1 L2 P1 P2 D1 D2 Ha) as C.
  assert (N : num_label_issues srt (L1 ++ L2) (P1 ++ P2) K = Ok (count_true (cl_mask L1 P1 K) + count_true (cl_mask L2 P2 K))%nat).
  { rewrite (num_label_issues_eq srt K _ _ D T). rewrite C, count_true_app. reflexivity. }
  pose proof (num_label_issues_eq srt K L1 P1 D1 T1) as N1. pose proof (num_label_issues_eq srt K L2 P2 D2 T2) as N2.
  destruct Hf as [->| ->].
  - exists (cl_mask L1 P1 K), (cl_mask L2 P2 K). do 2 eexists.
    split; [exact (find_cl_eq srt K L1 P1 o Hs D1 T1 Hn Hj)|]. split; [exact (find_cl_eq srt K L2 P2 o Hs D2 T2 Hn Hj)|]. split; [apply cl_length; exact D1|].
    split; [apply cl_length; exact D2|]. split; [|split; [exact N1|split; [exact N2|exact N]]].
    rewrite <- C. exact (find_cl_eq srt K _ _ o Hs D T Hn Hj).
  - destruct (C07_pneq_full srt K L1 P1 o Hs D1 T1 Hn Hj) as (m1 & E1 & X1 & F1).
    destruct (C07_pneq_full srt K L2 P2 o Hs D2 T2 Hn Hj) as (m2 & E2 & X2 & F2).
    destruct (C07_pneq_full srt K _ _ o Hs D T Hn Hj) as (m & E & X & F).
    exists m1, m2. do 2 eexists. split; [exact E1|]. split; [exact E2|]. split; [exact X1|]. split; [exact X2|].
    split; [|split; [exact N1|split; [exact N2|exact N]]]. rewrite E. f_equal.
    apply (mask_split L1 L2); try assumption; intros e He; rewrite F.
    + rewrite F1. rewrite (part_beaten (L1 ++ L2) (P1 ++ P2) L1 P1 (fun e => e) (first_at K L1 L2 P1 P2 D1) e He). rewrite app_length. intuition lia.
    + rewrite F2. rewrite (part_beaten (L1 ++ L2) (P1 ++ P2) L2 P2 (fun e => (length L1 + e)%nat) (second_at K L1 L2 P1 P2 D1) e He). rewrite app_length. intuition lia.
Qed.

Lemma apart_thresholds : forall K L1 P1 L2 P2 k, dataset K L1 P1 -> dataset K L2 P2 -> apart L1 P1 L2 P2 -> (k < K)%nat ->
  (In k L1 -> nth k (get_confident_thresholds (L1 ++ L2) (P1 ++ P2) K) 0 == nth k (get_confident_thresholds L1 P1 K) 0) /\
  (In k L2 -> nth k (get_confident_thresholds (L1 ++ L2) (P1 ++ P2) K) 0 == nth k (get_confident_thresholds L2 P2 K) 0).
Proof.
  intros K L1 P1 L2 P2 k D1 D2 Ha Hk. pose proof (both_dataset K L1 L2 P1 P2 D1 D2) as D. split; intros Hi.
  - exact (part_thr K _ _ L1 P1 D D1 (first_in K L1 L2 P1 P2 D1 Ha) k Hk Hi).
  - exact (part_thr K _ _ L2 P2 D D2 (second_in K L1 L2 P1 P2 D1 Ha) k Hk Hi).
Qed.

Lemma holds_for_map n m (P Q' : nat -> Prop) f c : (forall e, (e < n)%nat -> (f e < m)%nat /\ (P e <-> Q' (f e))) ->
  (forall e e', (e < n)%nat -> (e' < n)%nat -> f e = f e' -> e = e') ->
  (forall e, (e < m)%nat -> Q' e -> exists e0, (e0 < n)%nat /\ e = f e0) -> holds_for n P c -> holds_for m Q' c.
Proof.
  intros Hf Hi Hs (idx & Nd & Len & Hx). exists (map f idx). split; [|split; [rewrite map_length; exact Len|]].
  - assert (A : forall e, In e idx -> (e < n)%nat) by (intros e He; apply Hx in He; apply He). clear -Nd A Hi.
    induction Nd as [|x r Hx Nd IH]; cbn; constructor.
    + intros C. apply in_map_iff in C. destruct C as (y & E & Hy). apply Hx.
      rewrite <- (Hi y x); [exact Hy|apply A; right; exact Hy|apply A; left; reflexivity|exact E].
    + apply IH. intros e He. apply A. right. exact He.
  - intros i. rewrite in_map_iff. split.
    + intros (e & <- & He). apply Hx in He. destruct He as (He & Pe). destruct (Hf e He) as (A & B). split; [exact A|apply B; exact Pe].
    + intros (Hm & Qi). destruct (Hs i Hm Qi) as (e & He & ->). exists e. split; [reflexivity|]. apply Hx. split; [exact He|]. apply (Hf e He). exact Qi.
Qed.

Lemma apart_counts : forall srt K L1 P1 L2 P2, dataset K L1 P1 -> dataset K L2 P2 -> apart L1 P1 L2 P2 ->
  exists c1 i1 c2 i2 c i, compute_confident_joint srt L1 P1 K None false = Ok (c1, i1) /\
    compute_confident_joint srt L2 P2 K None false = Ok (c2, i2) /\
    compute_confident_joint srt (L1 ++ L2) (P1 ++ P2) K None false = Ok (c, i) /\
    forall a b, (a < K)%nat -> (b < K)%nat -> (In a L1 -> zget c a b = zget c1 a b) /\ (In a L2 -> zget c a b = zget c2 a b).
Proof.
  intros srt K L1 P1 L2 P2 D1 D2 Ha. pose proof (both_dataset K L1 L2 P1 P2 D1 D2) as D.
  assert (N : forall t : list Q, @None (list Q) = Some t -> length t = K) by (intros t E; discriminate).
  destruct (compute_confident_joint_full srt K L1 P1 None D1 N) as (c1 & i1 & E1 & C1 & _).
  destruct (compute_confident_joint_full srt K L2 P2 None D2 N) as (c2 & i2 & E2 & C2 & _).
  destruct (compute_confident_joint_full srt K _ _ None D N) as (c & i & E & C & _).
  exists c1, i1, c2, i2, c, i. split; [exact E1|]. split; [exact E2|]. split; [exact E|].
  intros a b HA HB. destruct (C a b HA HB) as (n & Hn & ->). split; intros Hin.
  - destruct (C1 a b HA HB) as (n1 & Hn1 & ->).
    assert (Eq : n = n1); [|rewrite Eq; reflexivity].
    refine (holds_for_unique _ _ n n1 Hn (holds_for_map _ _ _ _ (fun e => e) n1 _ _ _ Hn1)).
    + intros e He. destruct (first_at K L1 L2 P1 P2 D1 e He) as (X & Y & _). split; [exact X|].
      unfold label_of in Y. rewrite Y.
      pose proof (part_counted K _ _ L1 P1 (fun e => e) D D1 (first_at K L1 L2 P1 P2 D1) (first_in K L1 L2 P1 P2 D1 Ha) (first_out L1 L2 P1 P2 Ha) e b He) as Z.
      unfold row_of in Z. rewrite Z. reflexivity.
    + auto.
    + intros e He (Q1 & _). exists e. split; [|reflexivity]. rewrite app_length in He. destruct (Nat.lt_ge_cases e (length L1)) as [Hl|Hl]; [exact Hl|exfalso].
      rewrite app_nth2 in Q1 by lia. destruct Ha as (Hx & _). apply (Hx a Hin). rewrite <- Q1. apply nth_In. lia.
  - destruct (C2 a b HA HB) as (n2 & Hn2 & ->).
    assert (Eq : n = n2); [|rewrite Eq; reflexivity].
    refine (holds_for_unique _ _ n n2 Hn (holds_for_map _ _ _ _ (fun e => (length L1 + e)%nat) n2 _ _ _ Hn2)).
    + intros e He. destruct (second_at K L1 L2 P1 P2 D1 e He) as (X & Y & _). split; [exact X|].
      unfold label_of in Y. rewrite Y.
      pose proof (part_counted K _ _ L2 P2 (fun e => (length L1 + e)%nat) D D2 (second_at K L1 L2 P1 P2 D1) (second_in K L1 L2 P1 P2 D1 Ha) (second_out L1 L2 P1 P2 Ha) e b He) as Z.
      unfold row_of in Z. rewrite Z. reflexivity.
    + intros e e' _ _ X. lia.
    + intros e He (Q1 & _). exists (e - length L1)%nat. rewrite app_length in He. destruct (Nat.lt_ge_cases e (length L1)) as [Hl|Hl]; [exfalso|lia].
      rewrite app_nth1 in Q1 by lia. destruct Ha as (Hx & _). apply (Hx a); [|exact Hin]. rewrite <- Q1. apply nth_In. lia.
Qed.
