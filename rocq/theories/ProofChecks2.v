(** * Proofs about the underperforming-group check, data valuation and the label check from features *)
From Coq Require Import QArith List Bool Arith ZArith Permutation Sorted Lia Lqa.
From Verif Require Import Base BaseFacts ProofUtil ProofCount ProofNoise ModelRank ModelChecks SpecChecks ProofChecks.
Import ListNotations.
Open Scope Q_scope.

Lemma nth_rep {A} (x d : A) n i : (i < n)%nat -> nth i (repeat x n) d = x.
Proof. revert i. induction n as [|n IH]; intros [|i] H; cbn; try lia; [reflexivity|]. apply IH. lia. Qed.

(** ** Underperforming group *)
Lemma where_members P ids : where_ (map P ids) = members ids P.
Proof.
  unfold where_, members. rewrite map_length. apply filter_ext_in. intros i I. apply in_seq in I.
  rewrite (nth_map_gen _ _ _ _ 0%Z) by lia. reflexivity.
Qed.
Lemma self_conf_select mask labels pp : length mask = length labels -> length mask = length pp ->
  get_self_confidence (select mask labels) (select mask pp) = map (conf labels pp) (where_ mask).
Proof.
  intros L1 L2. rewrite (select_as_take 0%nat) by exact L1. rewrite (select_as_take []) by exact L2.
  unfold take_idx, get_self_confidence. generalize (where_ mask) as w.
  induction w as [|i w IH]; [reflexivity|]. cbn [map combine]. f_equal. exact IH.
Qed.
Lemma performance_mean P ids labels pp : length labels = length ids -> length pp = length ids ->
  performance (map P ids) labels pp = mean_conf labels pp (members ids P).
Proof.
  intros L1 L2. unfold performance, mean_conf, qmean. rewrite self_conf_select by (rewrite map_length; congruence).
  rewrite where_members, map_length. reflexivity.
Qed.
Lemma zcount_members c ids : zcount c ids = length (members ids (Z.eqb c)).
Proof. unfold zcount. rewrite <- where_members, where_length, count_true_map. reflexivity. Qed.
Lemma members_nonempty c ids : In c ids -> members ids (Z.eqb c) <> [].
Proof.
  intros I E. assert (L : length (members ids (Z.eqb c)) = 0%nat) by (rewrite E; reflexivity).
  rewrite <- zcount_members in L. unfold zcount in L.
  assert (I' : In c (filter (Z.eqb c) ids)) by (apply filter_In; split; [exact I|apply Z.eqb_refl]).
  destruct (filter (Z.eqb c) ids); [destruct I'|discriminate].
Qed.
Lemma members_lt P ids i : In i (members ids P) -> (i < length ids)%nat /\ P (nth i ids 0%Z) = true.
Proof. unfold members. rewrite filter_In, in_seq. intros [H1 H2]. split; [lia|exact H2]. Qed.
Lemma mean_conf_bounds (ids : list Z) labels pp E : probabilities (length ids) labels pp -> E <> [] ->
  (forall i, In i E -> (i < length ids)%nat) -> 0 <= mean_conf labels pp E <= 1.
Proof.
  intros [_ [_ H]] HE HI. unfold mean_conf. rewrite <- (map_length (conf labels pp) E). apply qmean_bounds.
  - destruct E; [congruence|discriminate].
  - intros x I. apply in_map_iff in I. destruct I as [i [<- I]]. apply H, HI, I.
Qed.

Section Visit.
Context (mean : Q) (perf : Z -> Q).
Definition low (c : Z) : bool := Qltb (perf c) mean.
Lemma visit_inv w0 l : 
  let '(sc, w, r) := fold_left (visit mean perf) l ([], w0, 1) in
  sc = map (fun c => (c, perf c / mean)) (filter low l) /\
  ((w = w0 /\ r = 1 /\ (forall c, In c l -> perf c < mean -> 1 <= perf c)) \/ (In w l /\ perf w < mean /\ r = perf w / mean)).
Proof.
  induction l as [|c l IH] using rev_ind.
  - cbn. split; [reflexivity|]. left. split; [reflexivity|]. split; [reflexivity|intros c []].
  - rewrite fold_left_app. destruct (fold_left (visit mean perf) l ([], w0, 1)) as [[sc w] r]. cbn [fold_left visit].
    destruct IH as [IH1 IH2]. rewrite filter_app. cbn [filter]. unfold low at 2.
    destruct (Qltb (perf c) mean) eqn:Ec.
    + rewrite map_app. cbn [map]. destruct (Qltb (perf c) r) eqn:Er.
      * split; [rewrite IH1; reflexivity|]. right. split; [apply in_or_app; right; left; reflexivity|].
        split; [apply Qltb_iff, Ec|reflexivity].
      * split; [rewrite IH1; reflexivity|]. destruct IH2 as [[A [B D]]|[A B]].
        -- left. split; [exact A|]. split; [exact B|]. intros d I. apply in_app_or in I. destruct I as [I|[<-|[]]]; [apply D, I|].
           intros _. rewrite B in Er. apply Qltb_false, Er.
        -- right. split; [apply in_or_app; left; exact A|exact B].
    + rewrite app_nil_r. split; [exact IH1|]. destruct IH2 as [[A [B D]]|[A B]].
      * left. split; [exact A|]. split; [exact B|]. intros d I. apply in_app_or in I. destruct I as [I|[<-|[]]]; [apply D, I|].
        intros Hd. apply Qltb_false in Ec. lra.
      * right. split; [apply in_or_app; left; exact A|exact B].
Qed.

Lemma ratio_ge d : 0 < mean -> mean <= 1 -> 0 <= perf d -> perf d <= perf d / mean.
Proof. intros H1 H2 H3. apply Qle_shift_div_l; [exact H1|]. nra. Qed.

Lemma visit_separated w0 c : 0 < mean -> mean <= 1 -> perf c < mean -> forall l,
  (forall d, In d l -> 0 <= perf d) -> (forall d, In d l -> d <> c -> perf c / mean < perf d) -> 0 <= perf c ->
  let '(sc, w, r) := fold_left (visit mean perf) l ([], w0, 1) in
  (In c l -> w = c /\ r = perf c / mean) /\ (~ In c l -> perf c < r).
Proof.
  intros M0 M1 Hc l. induction l as [|d l IH] using rev_ind; intros HP HS H0.
  - cbn. split; [intros []|intros _; lra].
  - rewrite fold_left_app.
    specialize (IH (fun d I => HP d (in_or_app _ _ _ (or_introl I))) (fun d I => HS d (in_or_app _ _ _ (or_introl I))) H0).
    destruct (fold_left (visit mean perf) l ([], w0, 1)) as [[sc w] r]. cbn [fold_left visit].
    destruct IH as [IH1 IH2].
    assert (Hd : In d (l ++ [d])) by (apply in_or_app; right; left; reflexivity).
    pose proof (ratio_ge c M0 M1 H0) as Rc. pose proof (ratio_ge d M0 M1 (HP d Hd)) as Rd.
    destruct (Z.eq_dec d c) as [->|N].
    + assert (E : Qltb (perf c) mean = true) by (apply Qltb_iff, Hc). rewrite E.
      destruct (in_dec Z.eq_dec c l) as [I|I].
      * destruct (IH1 I) as [-> ->]. destruct (Qltb (perf c) (perf c / mean)).
        -- split; [intros _; split; reflexivity|]. intros Nn. exfalso. apply Nn, Hd.
        -- split; [intros _; split; reflexivity|]. intros Nn. exfalso. apply Nn, Hd.
      * assert (E2 : Qltb (perf c) r = true) by (apply Qltb_iff, IH2, I). rewrite E2.
        split; [intros _; split; reflexivity|]. intros Nn. exfalso. apply Nn, Hd.
    + pose proof (HS d Hd N) as Sd.
      assert (IL : In c (l ++ [d]) <-> In c l) by (rewrite in_app_iff; cbn; intuition congruence).
      destruct (Qltb (perf d) mean) eqn:Ed; [|split; intros I; [apply IH1, IL, I|apply IH2; intros I'; apply I, IL, I']].
      destruct (in_dec Z.eq_dec c l) as [I|I].
      * destruct (IH1 I) as [-> ->]. assert (E : Qltb (perf d) (perf c / mean) = false) by (apply Qltb_false; lra).
        rewrite E. split; [intros _; split; reflexivity|intros Nn; exfalso; apply Nn, IL, I].
      * destruct (Qltb (perf d) r); split; try (intros I'; exfalso; apply I, IL, I'); intros _; [lra|apply IH2, I].
Qed.
End Visit.

Lemma write_scores_spec (f : Z -> Q) ids : forall L sc, length sc = length ids ->
  let out := write_scores ids (map (fun c => (c, f c)) L) sc in
  length out = length ids /\
  forall i, (i < length ids)%nat -> nth i out 0 = if zmem (nth i ids 0%Z) L then f (nth i ids 0%Z) else nth i sc 0.
Proof.
  induction L as [|c L IH]; intros sc HL; cbv zeta.
  - cbn. split; [exact HL|reflexivity].
  - cbn [map write_scores fold_left fst snd].
    set (sc' := map (fun q => if Z.eqb (fst q) c then f c else snd q) (combine ids sc)).
    assert (L' : length sc' = length ids) by (unfold sc'; rewrite map_length, combine_length, HL; lia).
    specialize (IH sc' L'). cbv zeta in IH. destruct IH as [A B]. unfold write_scores in A, B. split; [exact A|].
    intros i Hi. rewrite (B i Hi). cbn [zmem existsb]. unfold zmem in *.
    destruct (existsb (Z.eqb (nth i ids 0%Z)) L) eqn:E; [rewrite orb_true_r; reflexivity|]. rewrite orb_false_r.
    unfold sc'. rewrite (nth_map_gen _ _ _ _ (0%Z, 0)) by (rewrite combine_length, HL; lia).
    rewrite combine_nth by congruence. cbn [fst snd].
    destruct (Z.eqb_spec (nth i ids 0%Z) c) as [->|]; reflexivity.
Qed.
Lemma zmem_in c l : zmem c l = true <-> In c l.
Proof.
  unfold zmem. rewrite existsb_exists. split; [intros [x [I E]]; apply Z.eqb_eq in E; subst; exact I|].
  intros I. exists c. split; [exact I|apply Z.eqb_refl].
Qed.

Section Under.
Context (so : list Z -> list Z) (HO : visits_all so) (m : nat) (ids : list Z) (labels : list nat) (pp : list (list Q)).
Context (HP : probabilities (length ids) labels pp) (HV : forall c, In c ids -> (-1 <= c)%Z).
Definition uids : list Z :=
  filter (fun c => Nat.leb m (zcount c ids)) (filter (fun c => negb (Z.eqb c OUTLIER_CLUSTER)) (so ids)).
Lemma filter_ids : filter_cluster_ids so m ids = Ok uids.
Proof.
  unfold filter_cluster_ids. destruct (existsb (fun c => Z.ltb c OUTLIER_CLUSTER) ids) eqn:E; [|reflexivity].
  apply existsb_exists in E. destruct E as [c [I E]]. apply Z.ltb_lt in E. specialize (HV c I). unfold OUTLIER_CLUSTER in E. lia.
Qed.
Lemma uids_kept c : In c uids <-> kept m ids c.
Proof.
  unfold uids, kept. rewrite !filter_In, Nat.leb_le, negb_true_iff, Z.eqb_neq, zcount_members.
  destruct (HO ids) as [_ H]. rewrite H. unfold OUTLIER_CLUSTER. tauto.
Qed.
Lemma perf_eq c : performance (map (Z.eqb c) ids) labels pp = cluster_conf ids labels pp c.
Proof. destruct HP as [L1 [L2 _]]. unfold cluster_conf. apply performance_mean; assumption. Qed.
Lemma mean_eq : performance (map (fun c => zmem c uids) ids) labels pp = overall_conf m ids labels pp.
Proof.
  destruct HP as [L1 [L2 _]]. unfold overall_conf. rewrite performance_mean by assumption. f_equal.
  unfold members. apply filter_ext_in. intros i I. apply in_seq in I.
  assert (I' : In (nth i ids 0%Z) ids) by (apply nth_In; lia). set (c := nth i ids 0%Z) in *.
  destruct (zmem c uids) eqn:E; symmetry.
  - apply zmem_in, uids_kept in E. destruct E as [A [_ B]]. unfold keptb. rewrite andb_true_iff, negb_true_iff, Z.eqb_neq, Nat.leb_le. tauto.
  - destruct (keptb m ids c) eqn:E2; [|reflexivity]. exfalso. unfold keptb in E2.
    rewrite andb_true_iff, negb_true_iff, Z.eqb_neq, Nat.leb_le in E2.
    assert (zmem c uids = true) by (apply zmem_in, uids_kept; unfold kept; tauto). congruence.
Qed.
Lemma cluster_bounds c : In c ids -> 0 <= cluster_conf ids labels pp c <= 1.
Proof.
  intros I. apply (mean_conf_bounds ids); [exact HP|apply members_nonempty, I|]. intros i Ii. apply members_lt in Ii. apply Ii.
Qed.
Lemma overall_bounds c : kept m ids c -> 0 <= overall_conf m ids labels pp <= 1.
Proof.
  intros K. apply (mean_conf_bounds ids); [exact HP| |intros i Ii; apply members_lt in Ii; apply Ii].
  destruct K as [A [I B]]. destruct (In_nth _ _ 0%Z I) as [i [L E]]. intros Z.
  assert (Ii : In i (members ids (keptb m ids))).
  { unfold members. apply filter_In. split; [apply in_seq; lia|]. rewrite E. unfold keptb.
    rewrite andb_true_iff, negb_true_iff, Z.eqb_neq, Nat.leb_le. tauto. }
  rewrite Z in Ii. destruct Ii.
Qed.

Definition folded := fold_left (visit (overall_conf m ids labels pp) (cluster_conf ids labels pp)) uids ([], (zminimum uids - 1)%Z, 1).
Lemma visit_ext mean p p' : (forall c, p c = p' c) -> forall l st, fold_left (visit mean p) l st = fold_left (visit mean p') l st.
Proof.
  intros H. induction l as [|c l IH]; intros st; [reflexivity|]. cbn [fold_left]. rewrite <- IH. f_equal.
  destruct st as [[a b] r]. unfold visit. rewrite H. reflexivity.
Qed.

Lemma under_eq thr : (exists c, kept m ids c) ->
  underperforming_check so thr m ids labels pp =
  let thr' := if Qltb thr 0 then 0 else thr in
  let '(sc, w, r) := folded in
  let w' := if Qltb r thr' then w else NO_UNDERPERFORMING_CLUSTER in
  do s <- make_summary r ;
  Ok (Report (map (fun c => Z.eqb c w') ids) (write_scores ids sc (repeat 1 (length ids))) s, w').
Proof.
  intros [c K]. unfold underperforming_check. rewrite filter_ids. cbn [rbind].
  assert (I : In c uids) by (apply uids_kept, K).
  destruct uids as [|u t] eqn:E; [destruct I|]. rewrite <- E in *.
  unfold get_underperforming_clusters. rewrite mean_eq.
  rewrite (visit_ext _ _ (cluster_conf ids labels pp)) by apply perf_eq. fold folded.
  destruct folded as [[sc w] r]. reflexivity.
Qed.

Theorem under_reported thr : thr <= 1 -> (exists c, kept m ids c) ->
  exists rep w, underperforming_check so thr m ids labels pp = Ok (rep, w) /\
    length (flags rep) = length ids /\ length (scores rep) = length ids /\
    (forall i, (i < length ids)%nat -> (nth i (flags rep) false = true <-> nth i ids 0%Z = w)) /\
    (forall i, (i < length ids)%nat ->
      (kept m ids (nth i ids 0%Z) /\ cluster_conf ids labels pp (nth i ids 0%Z) < overall_conf m ids labels pp ->
       nth i (scores rep) 0 = cluster_conf ids labels pp (nth i ids 0%Z) / overall_conf m ids labels pp) /\
      (~ (kept m ids (nth i ids 0%Z) /\ cluster_conf ids labels pp (nth i ids 0%Z) < overall_conf m ids labels pp) ->
       nth i (scores rep) 0 = 1)) /\
    (w = (-2)%Z \/
     kept m ids w /\ cluster_conf ids labels pp w < overall_conf m ids labels pp /\
     cluster_conf ids labels pp w / overall_conf m ids labels pp < thr /\
     summary rep = cluster_conf ids labels pp w / overall_conf m ids labels pp).
Proof.
  intros HT HK. rewrite under_eq by exact HK. destruct HK as [c0 K0]. pose proof (overall_bounds c0 K0) as OB.
  pose proof (visit_inv (overall_conf m ids labels pp) (cluster_conf ids labels pp) (zminimum uids - 1)%Z uids) as VI.
  fold folded in VI. destruct folded as [[sc w] r]. destruct VI as [V1 V2]. cbv zeta.
  set (M := overall_conf m ids labels pp) in *. set (p := cluster_conf ids labels pp) in *.
  assert (RB : 0 <= r <= 1).
  { destruct V2 as [[_ [-> _]]|[I [A ->]]]; [lra|]. assert (B := cluster_bounds w (proj1 (proj2 (proj1 (uids_kept w) I)))).
    fold p in B. assert (0 < M) by lra. split.
    - apply Qle_shift_div_l; [assumption|lra].
    - apply Qle_shift_div_r; [assumption|lra]. }
  rewrite make_summary_ok by exact RB. cbn [rbind]. eexists. eexists. split; [reflexivity|]. cbn [flags scores summary].
  rewrite V1. destruct (write_scores_spec (fun c => p c / M) ids (filter (low M p) uids) (repeat 1 (length ids)) (repeat_length _ _)) as [W1 W2].
  rewrite map_length. split; [reflexivity|]. split; [exact W1|]. split; [|split].
  - intros i Hi. rewrite (nth_map_gen _ _ _ _ 0%Z) by exact Hi. apply Z.eqb_eq.
  - intros i Hi. rewrite (W2 i Hi). 
    assert (Z : zmem (nth i ids 0%Z) (filter (low M p) uids) = true <-> kept m ids (nth i ids 0%Z) /\ p (nth i ids 0%Z) < M).
    { rewrite zmem_in, filter_In, uids_kept. unfold low. rewrite Qltb_iff. tauto. }
    split.
    + intros H. rewrite (proj2 Z H). reflexivity.
    + intros H. destruct (zmem (nth i ids 0%Z) (filter (low M p) uids)); [exfalso; apply H, Z; reflexivity|].
      apply nth_rep. exact Hi.
  - assert (TT : (if Qltb thr 0 then 0 else thr) <= 1) by (destruct (Qltb thr 0); lra).
    assert (TT2 : r < (if Qltb thr 0 then 0 else thr) -> r < thr).
    { destruct (Qltb thr 0) eqn:E; [|auto]. intros; lra. }
    destruct (Qltb r (if Qltb thr 0 then 0 else thr)) eqn:E; [|left; reflexivity]. right.
    apply Qltb_iff in E. destruct V2 as [[_ [B _]]|[I [A B]]]; [exfalso; rewrite B in E; lra|].
    split; [apply uids_kept, I|]. split; [exact A|]. rewrite <- B. split; [apply TT2, E|reflexivity].
Qed.

Theorem under_separated thr c : 0 <= thr -> kept m ids c ->
  cluster_conf ids labels pp c < overall_conf m ids labels pp ->
  (forall d, kept m ids d -> d <> c ->
     cluster_conf ids labels pp c / overall_conf m ids labels pp < cluster_conf ids labels pp d) ->
  exists rep, underperforming_check so thr m ids labels pp =
    Ok (rep, if Qltb (cluster_conf ids labels pp c / overall_conf m ids labels pp) thr then c else (-2)%Z) /\
    summary rep = cluster_conf ids labels pp c / overall_conf m ids labels pp.
Proof.
  intros HT K HL HS. rewrite under_eq by (exists c; exact K). pose proof (overall_bounds c K) as OB.
  pose proof (cluster_bounds c (proj1 (proj2 K))) as CB.
  pose proof (visit_separated (overall_conf m ids labels pp) (cluster_conf ids labels pp) (zminimum uids - 1)%Z c
    ltac:(lra) ltac:(lra) HL uids) as VS.
  assert (A1 : forall d, In d uids -> 0 <= cluster_conf ids labels pp d).
  { intros d I. apply uids_kept in I. apply (cluster_bounds d (proj1 (proj2 I))). }
  assert (A2 : forall d, In d uids -> d <> c -> cluster_conf ids labels pp c / overall_conf m ids labels pp < cluster_conf ids labels pp d).
  { intros d I N. apply HS; [apply uids_kept, I|exact N]. }
  specialize (VS A1 A2 ltac:(lra)). fold folded in VS. destruct folded as [[sc w] r]. destruct VS as [V _].
  destruct (V (proj2 (uids_kept c) K)) as [-> ->]. cbv zeta.
  assert (E : Qltb thr 0 = false) by (apply Qltb_false; exact HT). rewrite E.
  rewrite make_summary_ok. 
  - cbn [rbind]. eexists. split; [reflexivity|reflexivity].
  - split; [apply Qle_shift_div_l; lra|apply Qle_shift_div_r; lra].
Qed.
End Under.

(** ** Data valuation *)
Lemma nth_firstn_lt {A} (l : list A) d : forall k p, (p < k)%nat -> nth p (firstn k l) d = nth p l d.
Proof. induction l as [|x l IH]; intros [|k] [|p] H; cbn; try lia; try reflexivity. apply IH. lia. Qed.
Lemma idx_inj k (idx : list nat) p q : NoDup (firstn k idx) -> (k <= length idx)%nat -> (p < k)%nat -> (q < k)%nat ->
  nth p idx 0%nat = nth q idx 0%nat -> p = q.
Proof.
  intros ND L Hp Hq E. rewrite <- (nth_firstn_lt idx 0%nat k p Hp), <- (nth_firstn_lt idx 0%nat k q Hq) in E.
  apply (proj1 (NoDup_nth (firstn k idx) 0%nat) ND); rewrite ?firstn_length; try lia; exact E.
Qed.
Lemma loop_spec k idx mt N : NoDup (firstn k idx) -> (k <= length idx)%nat ->
  (forall p, (p < k)%nat -> (nth p idx 0 < N)%nat) ->
  forall steps s, (steps <= k - 1)%nat -> (1 <= k)%nat -> length s = N ->
  (forall p, (steps <= p < k)%nat -> nth (nth p idx 0%nat) s 0 == nth p mt 0 - nth (k - 1) mt 0) ->
  (forall i, (forall p, (steps <= p < k)%nat -> nth p idx 0%nat <> i) -> nth i s 0 == 0) ->
  let out := shapley_loop idx mt steps s in
  length out = N /\
  (forall p, (p < k)%nat -> nth (nth p idx 0%nat) out 0 == nth p mt 0 - nth (k - 1) mt 0) /\
  (forall i, (forall p, (p < k)%nat -> nth p idx 0%nat <> i) -> nth i out 0 == 0).
Proof.
  intros ND L HN. induction steps as [|j IH]; intros s HS HK HL H1 H2; cbn [shapley_loop].
  - cbv zeta. split; [exact HL|]. split; [intros p Hp; apply H1; lia|]. intros i Hi. apply H2. intros p Hp. apply Hi. lia.
  - apply IH; [lia|exact HK|rewrite upd_length; exact HL| |].
    + intros p Hp. destruct (Nat.eq_dec p j) as [->|Ne].
      * rewrite nth_upd_eq by (rewrite HL; apply HN; lia). rewrite (H1 (S j)) by lia. ring.
      * rewrite nth_upd_neq. { apply H1. lia. }
        intros E. apply Ne. symmetry. apply (idx_inj k idx); auto; lia.
    + intros i Hi. rewrite nth_upd_neq by (intros Z; apply (Hi j); [lia|congruence]).
      apply H2. intros p Hp. apply Hi. lia.
Qed.
Lemma in_firstn_iff k (idx : list nat) i : (k <= length idx)%nat ->
  In i (firstn k idx) <-> exists p, (p < k)%nat /\ nth p idx 0%nat = i.
Proof.
  intros L. split.
  - intros I. destruct (In_nth _ _ 0%nat I) as [p [Hp E]]. rewrite firstn_length in Hp. exists p.
    split; [lia|]. rewrite <- E. symmetry. apply nth_firstn_lt. lia.
  - intros [p [Hp E]]. rewrite <- E, <- (nth_firstn_lt idx 0%nat k p Hp). apply nth_In. rewrite firstn_length. lia.
Qed.
Lemma row_spec labels k a idx i : (1 <= k)%nat -> (k <= length idx)%nat -> NoDup (firstn k idx) ->
  (forall j, In j idx -> (j < length labels)%nat) -> (a < length labels)%nat ->
  nth i (shapley_row labels k (nth a labels 0%nat) idx) 0 ==
  if existsb (Nat.eqb i) (firstn k idx) then agree labels i a - agree labels (nth (k - 1) idx 0%nat) a else 0.
Proof.
  intros HK L ND HI Ha. unfold shapley_row.
  set (mt := map (fun j => if Nat.eqb (nth j labels 0%nat) (nth a labels 0%nat) then 1 else 0) idx).
  assert (HN : forall p, (p < k)%nat -> (nth p idx 0 < length labels)%nat) by (intros p Hp; apply HI, nth_In; lia).
  assert (EM : forall p, (p < k)%nat -> nth p mt 0 = agree labels (nth p idx 0%nat) a).
  { intros p Hp. unfold mt. rewrite (nth_map_gen _ _ _ _ 0%nat) by lia. reflexivity. }
  destruct (loop_spec k idx mt (length labels) ND L HN (k - 1) (repeat 0 (length labels)) ltac:(lia) HK (repeat_length _ _)) as [_ [R1 R2]].
  { intros p Hp. replace p with (k - 1)%nat by lia. rewrite nth_rep by (apply HN; lia). ring. }
  { intros j _. destruct (Nat.lt_ge_cases j (length labels)); [rewrite nth_rep by assumption; reflexivity|].
    rewrite nth_overflow by (rewrite repeat_length; assumption). reflexivity. }
  destruct (existsb (Nat.eqb i) (firstn k idx)) eqn:E.
  - apply (mem_iff i) in E. apply in_firstn_iff in E; [|exact L]. destruct E as [p [Hp <-]].
    rewrite (R1 p Hp), !EM by lia. reflexivity.
  - apply (mem_false i) in E. apply R2. intros p Hp Z. apply E. apply in_firstn_iff; [exact L|]. exists p. auto.
Qed.

Lemma qsum_filter_if {A} (f : A -> bool) (g : A -> Q) l :
  qsum (map (fun x => if f x then g x else 0) l) == qsum (map g (filter f l)).
Proof.
  induction l as [|x l IH]; [reflexivity|]. cbn [map filter]. rewrite qsum_cons, IH.
  destruct (f x); cbn [map]; rewrite ?qsum_cons; ring.
Qed.
Lemma combine_tab {A B} (l : list A) (l' : list B) d d' : length l' = length l ->
  combine l l' = tab (length l) (fun i => (nth i l d, nth i l' d')).
Proof.
  intros L. apply (list_eq_nth _ _ (d, d')); rewrite ?combine_length, ?tab_length, ?L, ?Nat.min_id; [reflexivity|].
  intros i Hi. rewrite combine_nth by congruence. rewrite nth_tab by exact Hi. reflexivity.
Qed.

Theorem shapley_spec labels k nb : (1 <= k)%nat -> neighbor_lists (length labels) k nb ->
  exists sc, data_shapley_knn nb labels k = Ok sc /\ length sc = length labels /\
    forall i, (i < length labels)%nat ->
      nth i sc 0 == (1 # 2) + qsum (map (fun a => agree labels i a - agree labels (kth_neighbor k nb a) a) (admirers k nb i))
                              / (2 * Qnat k * Qnat (length labels)).
Proof.
  intros HK [HL HR]. unfold data_shapley_knn, knn_shapley_score.
  assert (E : existsb (fun idx => Nat.ltb (length idx) k) nb = false).
  { destruct (existsb (fun idx => Nat.ltb (length idx) k) nb) eqn:E; [|reflexivity]. exfalso.
    apply existsb_exists in E. destruct E as [idx [I E]]. apply Nat.ltb_lt in E.
    destruct (In_nth _ _ [] I) as [a [La Ea]]. rewrite HL in La. destruct (HR a La) as [H _]. rewrite Ea in H. lia. }
  rewrite E, andb_false_r. cbn [rbind].
  set (n := length labels) in *.
  assert (ER : map (fun p => shapley_row labels k (fst p) (snd p)) (combine labels nb) =
    tab n (fun a => shapley_row labels k (nth a labels 0%nat) (nth a nb []))).
  { rewrite (combine_tab labels nb 0%nat []) by exact HL. apply map_tab. }
  rewrite ER, tab_length, Nat.sub_diag. cbn [repeat]. rewrite app_nil_r. eexists. split; [reflexivity|]. rewrite map_length, tab_length. split; [reflexivity|].
  intros i Hi. rewrite (nth_map_gen _ _ _ _ 0) by (rewrite tab_length; exact Hi). rewrite nth_tab by exact Hi.
  rewrite map_tab. unfold qmean. rewrite tab_length.
  assert (PK : 0 < Qnat k) by (apply Qnat_pos; lia). assert (PN : 0 < Qnat n) by (apply Qnat_pos; lia).
  assert (S : qsum (tab n (fun a => nth i (shapley_row labels k (nth a labels 0%nat) (nth a nb [])) 0 / Qnat k)) ==
    qsum (map (fun a => agree labels i a - agree labels (kth_neighbor k nb a) a) (admirers k nb i)) / Qnat k).
  { unfold admirers. rewrite HL. rewrite <- qsum_filter_if, <- qsum_map_div. unfold tab. apply qsum_map_ext.
    intros a Ia. apply in_seq in Ia. destruct (HR a ltac:(lia)) as [A [B C]].
    rewrite row_spec; auto; [|unfold n in *; lia]. unfold kth_neighbor. reflexivity. }
  rewrite S. field. lra.
Qed.

Lemma agree_01 labels i a : 0 <= agree labels i a <= 1.
Proof. unfold agree. destruct (Nat.eqb _ _); lra. Qed.
Lemma admirers_len k nb i : (length (admirers k nb i) <= length nb)%nat.
Proof. unfold admirers. rewrite <- (seq_length (length nb) 0) at 2. apply flt_le. Qed.
Lemma qsum_bound {A} (f : A -> Q) l b : (forall x, In x l -> - b <= f x <= b) -> - (Qnat (length l) * b) <= qsum (map f l) <= Qnat (length l) * b.
Proof.
  intros H. split.
  - rewrite <- (qsum_map_const b l). assert (E : - qsum (map (fun _ => b) l) == qsum (map (fun _ => - b) l)) by (rewrite !qsum_map_const; ring).
    rewrite E. apply qsum_map_le. intros x I. apply H, I.
  - rewrite <- (qsum_map_const b l). apply qsum_map_le. intros x I. apply H, I.
Qed.
Theorem shapley_range labels k nb sc : (1 <= k)%nat -> neighbor_lists (length labels) k nb ->
  data_shapley_knn nb labels k = Ok sc ->
  forall x, In x sc -> (1 # 2) - 1 / (2 * Qnat k) <= x <= (1 # 2) + 1 / (2 * Qnat k).
Proof.
  intros HK HN E x I. destruct (shapley_spec labels k nb HK HN) as [sc' [E' [L H]]].
  assert (sc' = sc) by congruence. subst sc'. destruct (In_nth _ _ 0 I) as [i [Hi Ei]]. rewrite L in Hi. rewrite <- Ei, (H i Hi).
  set (S := qsum _). assert (PK : 0 < Qnat k) by (apply Qnat_pos; lia). assert (PN : 0 < Qnat (length labels)) by (apply Qnat_pos; lia).
  assert (B : - (Qnat (length labels) * 1) <= S <= Qnat (length labels) * 1).
  { destruct (qsum_bound (fun a => agree labels i a - agree labels (kth_neighbor k nb a) a) (admirers k nb i) 1) as [B1 B2].
    - intros a _. pose proof (agree_01 labels i a). pose proof (agree_01 labels (kth_neighbor k nb a) a). lra.
    - fold S in B1, B2. pose proof (admirers_len k nb i) as AL. destruct HN as [HL _]. rewrite HL in AL. apply Qnat_le in AL. lra. }
  assert (ES : S / (2 * Qnat k * Qnat (length labels)) == (S / Qnat (length labels)) * (1 / (2 * Qnat k))) by (field; lra).
  rewrite ES. set (z := S / Qnat (length labels)). set (u := 1 / (2 * Qnat k)).
  assert (Hz : -1 <= z <= 1). { unfold z. split; [apply Qle_shift_div_l; lra|apply Qle_shift_div_r; lra]. }
  assert (Hu : 0 < u). { unfold u. apply Qlt_shift_div_l; lra. }
  nra.
Qed.
Lemma shapley_sign labels k nb sc i : (1 <= k)%nat -> neighbor_lists (length labels) k nb ->
  data_shapley_knn nb labels k = Ok sc -> (i < length labels)%nat ->
  (admirers k nb i = [] -> nth i sc 0 == 1 # 2) /\
  ((forall a, In a (admirers k nb i) -> nth a labels 0%nat = nth i labels 0%nat) -> 1 # 2 <= nth i sc 0) /\
  ((forall a, In a (admirers k nb i) -> nth a labels 0%nat <> nth i labels 0%nat) -> nth i sc 0 <= 1 # 2) /\
  (nth i sc 0 < 1 # 2 -> exists a, In a (admirers k nb i) /\ nth a labels 0%nat <> nth i labels 0%nat /\
     nth (kth_neighbor k nb a) labels 0%nat = nth a labels 0%nat).
Proof.
  intros HK HN E Hi. destruct (shapley_spec labels k nb HK HN) as [sc' [E' [L H]]].
  assert (sc' = sc) by congruence. subst sc'. specialize (H i Hi).
  set (S := qsum _) in H. assert (PK : 0 < Qnat k) by (apply Qnat_pos; lia). assert (PN : 0 < Qnat (length labels)) by (apply Qnat_pos; lia).
  assert (ES : S / (2 * Qnat k * Qnat (length labels)) == S * (1 / (2 * Qnat k * Qnat (length labels)))) by (field; lra).
  rewrite ES in H. set (u := 1 / (2 * Qnat k * Qnat (length labels))) in *.
  assert (Hu : 0 < u). { unfold u. apply Qlt_shift_div_l; [nra|lra]. }
  clearbody u. refine (conj _ (conj _ (conj _ _))).
  - intros Z. assert (ZS : S == 0) by (unfold S; rewrite Z; reflexivity). rewrite H, ZS. ring.
  - intros A. assert (0 <= S).
    { unfold S. apply qsum_map_nonneg. intros a I. specialize (A a I). unfold agree at 1. rewrite A, Nat.eqb_refl.
      pose proof (agree_01 labels (kth_neighbor k nb a) a). lra. }
    nra.
  - intros A. assert (S <= 0).
    { assert (S <= qsum (map (fun _ : nat => 0) (admirers k nb i))).
      { unfold S. apply qsum_map_le. intros a I. specialize (A a I). unfold agree at 1.
        destruct (Nat.eqb_spec (nth i labels 0%nat) (nth a labels 0%nat)); [congruence|].
        pose proof (agree_01 labels (kth_neighbor k nb a) a). lra. }
      rewrite qsum_map_const in H0. lra. }
    nra.
  - intros Hlt. assert (SN : S < 0) by nra.
    destruct (existsb (fun a => negb (Nat.eqb (nth a labels 0%nat) (nth i labels 0%nat)) && Nat.eqb (nth (kth_neighbor k nb a) labels 0%nat) (nth a labels 0%nat)) (admirers k nb i)) eqn:Ex.
    + apply existsb_exists in Ex. destruct Ex as [a [Ia Ea]]. exists a. apply andb_true_iff in Ea. destruct Ea as [Ea1 Ea2].
      apply negb_true_iff, Nat.eqb_neq in Ea1. apply Nat.eqb_eq in Ea2. auto.
    + exfalso. assert (0 <= S); [|lra]. unfold S. apply qsum_map_nonneg. intros a Ia.
      destruct (agree_01 labels i a) as [A1 A2]. destruct (agree_01 labels (kth_neighbor k nb a) a) as [B1 B2].
      unfold agree in *.
      destruct (Nat.eqb_spec (nth i labels 0%nat) (nth a labels 0%nat)) as [N1|N1]; [lra|].
      destruct (Nat.eqb_spec (nth (kth_neighbor k nb a) labels 0%nat) (nth a labels 0%nat)) as [N2|N2]; [|lra].
      assert (T : existsb (fun a => negb (Nat.eqb (nth a labels 0%nat) (nth i labels 0%nat)) && Nat.eqb (nth (kth_neighbor k nb a) labels 0%nat) (nth a labels 0%nat)) (admirers k nb i) = true).
      { apply existsb_exists. exists a. split; [exact Ia|]. apply andb_true_iff. split; [apply negb_true_iff, Nat.eqb_neq; congruence|apply Nat.eqb_eq, N2]. }
      congruence.
Qed.
Theorem valuation_check_spec threshold labels k w nb : (1 <= k)%nat -> labels <> [] -> neighbor_lists (length labels) k nb -> (k <= w)%nat ->
  exists rep, data_valuation_check threshold k w nb labels = Ok rep /\ data_shapley_knn nb labels k = Ok (scores rep) /\
    length (flags rep) = length labels /\ summary rep = qmean (scores rep) /\
    forall i, (i < length labels)%nat ->
      (nth i (flags rep) false = true <-> nth i (scores rep) 0 < match threshold with Some t => t | None => 1 # 2 end).
Proof.
  intros HK HL HN HW. unfold data_valuation_check. assert (E : Nat.ltb w k = false) by (apply Nat.ltb_ge; exact HW). rewrite E.
  destruct (shapley_spec labels k nb HK HN) as [sc [E' [L H]]]. rewrite E'. cbn [rbind].
  rewrite make_summary_ok.
  - cbn [rbind]. eexists. split; [reflexivity|]. cbn [flags scores summary]. split; [reflexivity|]. rewrite map_length. split; [exact L|].
    split; [reflexivity|]. intros i Hi. rewrite (nth_map_gen _ _ _ _ 0) by lia. rewrite Qltb_iff. destruct threshold; reflexivity.
  - apply qmean_bounds.
    + destruct labels, sc; cbn in L; congruence.
    + intros x I. pose proof (shapley_range labels k nb sc HK HN E' x I) as [A B].
      assert (U : 1 / (2 * Qnat k) <= 1 # 2).
      { assert (1 <= Qnat k) by (change 1 with (Qnat 1); apply Qnat_le; exact HK). apply Qle_shift_div_r; lra. }
      lra.
Qed.

(** ** Label check from features *)
Lemma count_votes c labels nb : count c (map (fun j => nth j labels 0%nat) nb) = votes labels nb c.
Proof.
  rewrite count_length. unfold votes. induction nb as [|j nb IH]; [reflexivity|]. cbn [map filter].
  destruct (Nat.eqb (nth j labels 0%nat) c); cbn [length]; congruence.
Qed.
Lemma votes_remove labels i : forall nb c, In i nb -> NoDup nb ->
  votes labels nb c = (votes labels (remove Nat.eq_dec i nb) c + if Nat.eqb (nth i labels 0%nat) c then 1 else 0)%nat.
Proof.
  induction nb as [|j nb IH]; intros c I ND; [destruct I|]. inversion_clear ND as [|x l N ND'].
  cbn [remove]. destruct (Nat.eq_dec i j) as [->|Ne].
  - rewrite notin_remove by exact N. unfold votes. cbn [filter]. destruct (Nat.eqb (nth j labels 0%nat) c); cbn [length]; lia.
  - destruct I as [E|I]; [congruence|]. unfold votes in *. cbn [filter]. specialize (IH c I ND').
    destruct (Nat.eqb (nth j labels 0%nat) c); cbn [length]; lia.
Qed.
Definition oos_row k labels nb y := map (fun c => (Qnat (votes labels nb c) / Qnat (k + 1) - 1 / Qnat (k + 1) * (if Nat.eqb c y then 1 else 0)) * Qnat (k + 1) / Qnat k) (unique labels).
Lemma oos_rows k nbs labels : length nbs = length labels ->
  out_of_sample_pred_probs k nbs labels = tab (length labels) (fun i => oos_row k labels (nth i nbs []) (nth i labels 0%nat)).
Proof.
  intros L. unfold out_of_sample_pred_probs, knn_predict_proba, one_hot.
  rewrite (combine_tab _ _ [] []) by (rewrite !map_length; congruence). rewrite map_length, L, map_tab. apply tab_ext.
  intros i Hi. cbn [fst snd]. rewrite (nth_map_gen _ nbs _ _ []) by lia. rewrite (nth_map_gen _ labels _ _ 0%nat) by lia.
  unfold oos_row. induction (unique labels) as [|c u IH]; [reflexivity|]. cbn [map combine]. f_equal; [|exact IH].
  cbn [fst snd]. rewrite count_votes. reflexivity.
Qed.
Lemma nsum_map_plus {A} (f g : A -> nat) l : nsum (map (fun x => (f x + g x)%nat) l) = (nsum (map f l) + nsum (map g l))%nat.
Proof. induction l as [|x l IH]; [reflexivity|]. unfold nsum in *. cbn [map fold_right]. rewrite IH. lia. Qed.
Lemma nsum_indicator y u : NoDup u -> In y u -> nsum (map (fun c => if Nat.eqb y c then 1 else 0)%nat u) = 1%nat.
Proof.
  assert (Z : forall u, ~ In y u -> nsum (map (fun c => if Nat.eqb y c then 1 else 0)%nat u) = 0%nat).
  { induction u0 as [|c u0 IH]; intros N; [reflexivity|]. unfold nsum in *. cbn [map fold_right].
    destruct (Nat.eqb_spec y c) as [->|]; [exfalso; apply N; left; reflexivity|]. rewrite IH; [reflexivity|]. intros I. apply N. right. exact I. }
  induction u as [|c u IH]; intros ND I; [destruct I|]. inversion_clear ND as [|a b N ND']. specialize (Z u). unfold nsum in *. cbn [map fold_right].
  destruct (Nat.eqb_spec y c) as [->|Ne]; [rewrite Z by exact N; reflexivity|].
  destruct I as [E|I]; [congruence|]. rewrite IH by assumption. reflexivity.
Qed.
Lemma nsum_votes labels u : NoDup u -> forall E, (forall j, In j E -> In (nth j labels 0%nat) u) ->
  nsum (map (votes labels E) u) = length E.
Proof.
  intros ND E. induction E as [|j E IH]; intros H.
  - clear. induction u as [|c u IH]; [reflexivity|]. unfold nsum in *. cbn [map fold_right]. rewrite IH. reflexivity.
  - assert (X : map (votes labels (j :: E)) u = map (fun c => ((if Nat.eqb (nth j labels 0%nat) c then 1 else 0) + votes labels E c)%nat) u).
    { apply map_ext. intros c. unfold votes. cbn [filter]. destruct (Nat.eqb (nth j labels 0%nat) c); reflexivity. }
    rewrite X, nsum_map_plus, nsum_indicator by (auto; apply H; left; reflexivity).
    rewrite IH by (intros; apply H; right; assumption). reflexivity.
Qed.
Lemma remove_len i : forall nb, In i nb -> NoDup nb -> S (length (remove Nat.eq_dec i nb)) = length nb.
Proof.
  induction nb as [|j nb IH]; intros I ND; [destruct I|]. inversion_clear ND as [|x l N ND']. cbn [remove].
  destruct (Nat.eq_dec i j) as [->|Ne]; [rewrite notin_remove by exact N; reflexivity|].
  destruct I as [E|I]; [congruence|]. cbn [length]. rewrite IH by assumption. reflexivity.
Qed.
Lemma qsum_Qnat {A} (f : A -> nat) l : qsum (map (fun x => Qnat (f x)) l) == Qnat (nsum (map f l)).
Proof. induction l as [|x l IH]; [reflexivity|]. unfold nsum in *. cbn [map fold_right]. rewrite qsum_cons, IH, Qnat_plus. reflexivity. Qed.

Theorem oos_spec k nbs labels i : (1 <= k)%nat -> length nbs = length labels -> (i < length labels)%nat ->
  let nb := nth i nbs [] in
  length nb = (k + 1)%nat -> NoDup nb -> In i nb -> (forall j, In j nb -> (j < length labels)%nat) ->
  let row := nth i (out_of_sample_pred_probs k nbs labels) [] in
  length row = length (unique labels) /\ distribution row /\
  forall c, (c < length (unique labels))%nat ->
    nth c row 0 == Qnat (votes labels (remove Nat.eq_dec i nb) (nth c (unique labels) 0%nat)) / Qnat k.
Proof.
  intros HK L Hi nb Ln ND I HB row. unfold row. rewrite oos_rows by exact L. rewrite nth_tab by exact Hi. fold nb. unfold oos_row.
  assert (PK : 0 < Qnat k) by (apply Qnat_pos; lia). assert (PK1 : 0 < Qnat (k + 1)) by (apply Qnat_pos; lia).
  assert (V : forall c, (Qnat (votes labels nb c) / Qnat (k + 1) - 1 / Qnat (k + 1) * (if Nat.eqb c (nth i labels 0%nat) then 1 else 0)) * Qnat (k + 1) / Qnat k
     == Qnat (votes labels (remove Nat.eq_dec i nb) c) / Qnat k).
  { intros c. rewrite (votes_remove labels i nb c I ND), Qnat_plus, (Nat.eqb_sym c).
    destruct (Nat.eqb (nth i labels 0%nat) c).
    - change (Qnat 1) with 1. field. lra.
    - rewrite Qnat_0. field. lra. }
  rewrite map_length. split; [reflexivity|]. split; [split|].
  - rewrite (qsum_map_ext _ (fun c => Qnat (votes labels (remove Nat.eq_dec i nb) c) / Qnat k)) by (intros; apply V).
    rewrite (qsum_map_div (fun c => Qnat (votes labels (remove Nat.eq_dec i nb) c))), qsum_Qnat, nsum_votes.
    + assert (E : length (remove Nat.eq_dec i nb) = k) by (pose proof (remove_len i nb I ND); lia).
      rewrite E. field. lra.
    + unfold unique. apply NoDup_filter, seq_NoDup.
    + intros j Ij. apply in_unique, nth_In, HB. apply in_remove in Ij. apply Ij.
  - intros x Ix. apply in_map_iff in Ix. destruct Ix as [c [<- _]]. rewrite V. split.
    + apply Qle_shift_div_l; [exact PK|]. rewrite Qmult_0_l. apply Qnat_nonneg.
    + apply Qle_shift_div_r; [exact PK|]. rewrite Qmult_1_l. apply Qnat_le. unfold votes.
      pose proof (flt_le (fun j => Nat.eqb (nth j labels 0%nat) c) (remove Nat.eq_dec i nb)). pose proof (remove_len i nb I ND). lia.
  - intros c Hc. rewrite (nth_map_gen _ _ _ _ 0%nat) by exact Hc. apply V.
Qed.
(** an example that is missing from its own neighbours gets a negative probability when no neighbour has its label *)
Theorem oos_negative k nbs labels i c : (1 <= k)%nat -> length nbs = length labels -> (i < length labels)%nat ->
  (c < length (unique labels))%nat -> nth c (unique labels) 0%nat = nth i labels 0%nat ->
  votes labels (nth i nbs []) (nth i labels 0%nat) = 0%nat ->
  mget (out_of_sample_pred_probs k nbs labels) i c == - (1 / Qnat k).
Proof.
  intros HK L Hi Hc Ec V. unfold mget. rewrite oos_rows by exact L. rewrite nth_tab by exact Hi. unfold oos_row.
  rewrite (nth_map_gen _ _ _ _ 0%nat) by exact Hc. rewrite Ec, V, Nat.eqb_refl, Qnat_0.
  assert (PK : 0 < Qnat k) by (apply Qnat_pos; lia). assert (PK1 : 0 < Qnat (k + 1)) by (apply Qnat_pos; lia). field. lra.
Qed.
