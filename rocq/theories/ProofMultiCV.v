(** * Lemmas about cross-validation of multi-label data *)
From Coq Require Import QArith List Bool Arith Lia Lqa Permutation Sorted.
From Verif Require Import Base BaseFacts ModelUtil ModelLabels ModelMultilabel ModelMultiCV SpecLabels SpecMultiCV ProofLabels.
Import ListNotations.
Open Scope Q_scope.

Lemma row_order : total_order row_leb.
Proof.
  constructor.
  - induction x as [|x a IH]; intros [|y b]; cbn [row_leb]; auto. destruct (Nat.ltb_spec x y), (Nat.ltb_spec y x); auto; lia.
  - induction x as [|x a IH]; intros [|y b]; cbn [row_leb]; auto; try discriminate. destruct (Nat.ltb_spec x y), (Nat.ltb_spec y x); try discriminate; try lia.
    intros A B. rewrite (IH b A B). f_equal. lia.
  - induction x as [|x a IH]; intros [|y b] [|z c]; cbn [row_leb]; auto; try discriminate.
    destruct (Nat.ltb_spec x y), (Nat.ltb_spec y x), (Nat.ltb_spec y z), (Nat.ltb_spec z y), (Nat.ltb_spec x z), (Nat.ltb_spec z x); auto; try discriminate; try lia.
    apply IH.
Qed.
Lemma nat_order : total_order Nat.leb.
Proof.
  constructor; intros *; rewrite ?Nat.leb_le; lia.
Qed.

Section Entry.
Context {A : Type} (leb : A -> A -> bool) (T : total_order leb).
Lemma leb_both x y : (leb x y && leb y x)%bool = true <-> x = y.
Proof.
  rewrite andb_true_iff. split; [intros (H & H'); now apply (to_antisym _ T)|intros ->]. destruct (to_total _ T y y); auto.
Qed.
Lemma entry_lt x l d : In x l -> (entry_of leb x l < length l)%nat /\ nth (entry_of leb x l) l d = x.
Proof.
  induction l as [|y l IH]; [intros []|]. intros H. cbn. destruct (leb x y && leb y x)%bool eqn:E.
  - apply leb_both in E. subst. split; [lia|reflexivity].
  - destruct H as [->|H]; [rewrite (proj2 (leb_both x x) eq_refl) in E; discriminate|]. destruct (IH H). split; [lia|assumption].
Qed.
Lemma entry_nth l i d : NoDup l -> (i < length l)%nat -> entry_of leb (nth i l d) l = i.
Proof.
  intros N Hi. destruct (entry_lt (nth i l d) l d (nth_In _ _ Hi)) as (H1 & H2). now apply (proj1 (NoDup_nth l d) N).
Qed.
Lemma inverse_spec l d : length (unique_inverse leb l) = length l /\
  (forall e e', (e < length l)%nat -> (e' < length l)%nat ->
     (nth e (unique_inverse leb l) 0 <= nth e' (unique_inverse leb l) 0)%nat <-> leb (nth e l d) (nth e' l d) = true) /\
  (forall i j, In i (unique_inverse leb l) -> (j <= i)%nat -> In j (unique_inverse leb l)).
Proof.
  destruct (np_unique_spec leb T l) as (S & I). pose proof (sorted_NoDup leb T _ S) as N. unfold unique_inverse. split; [apply map_length|]. split.
  - intros e e' He He'. rewrite !(nth_map_gen _ _ _ _ d) by auto.
    destruct (entry_lt (nth e l d) (np_unique leb l) d) as (A1 & A2); [apply I, nth_In, He|].
    destruct (entry_lt (nth e' l d) (np_unique leb l) d) as (B1 & B2); [apply I, nth_In, He'|].
    rewrite (sorted_nth leb T _ d S _ _ A1 B1). now rewrite A2, B2.
  - intros i j Hi Hj. apply in_map_iff in Hi as (x & <- & Hx). destruct (entry_lt x (np_unique leb l) d) as (A1 & A2); [now apply I|].
    apply in_map_iff. exists (nth j (np_unique leb l) d). split; [apply entry_nth; auto; lia|]. apply I, nth_In. lia.
Qed.
End Entry.

Lemma before_iff a : forall b, length a = length b -> comes_before a b <-> row_leb b a = false.
Proof.
  unfold comes_before. induction a as [|x a IH]; intros [|y b] L; try discriminate.
  - cbn. split; [intros (p & H & _); lia|discriminate].
  - cbn [row_leb]. injection L as L. destruct (Nat.ltb_spec y x) as [H|H].
    + split; [|discriminate]. intros ([|p] & H1 & H2 & H3); cbn in *; [lia|]. injection H2 as <- _. lia.
    + destruct (Nat.ltb_spec x y) as [H'|H'].
      * split; [reflexivity|]. intros _. exists 0%nat. cbn. split; [lia|]. split; [reflexivity|lia].
      * assert (x = y) by lia. subst y. rewrite <- (IH b L). split.
        -- intros ([|p] & H1 & H2 & H3); cbn in *; [lia|]. injection H2 as H2. exists p. split; [lia|]. auto.
        -- intros (p & H1 & H2 & H3). exists (S p). cbn. split; [lia|]. split; [now rewrite H2|exact H3].
Qed.

Lemma C139_ids_full : forall K labels, indicators K labels ->
  length (multilabel_ids labels) = length labels /\
  (forall e e', (e < length labels)%nat -> (e' < length labels)%nat ->
     (nth e (multilabel_ids labels) 0%nat = nth e' (multilabel_ids labels) 0%nat <-> nth e labels [] = nth e' labels []) /\
     ((nth e (multilabel_ids labels) 0 < nth e' (multilabel_ids labels) 0)%nat <-> comes_before (nth e labels []) (nth e' labels []))) /\
  (forall i j, In i (multilabel_ids labels) -> (j <= i)%nat -> In j (multilabel_ids labels)).
Proof.
  intros K labels (Ne & HK). destruct (inverse_spec row_leb row_order labels []) as (L & O & C). split; [exact L|]. split; [|exact C].
  intros e e' He He'. pose proof (O e e' He He') as O1. pose proof (O e' e He' He) as O2. fold (multilabel_ids labels) in O1, O2. split.
  - split.
    + intros E. apply (to_antisym _ row_order); [apply O1|apply O2]; lia.
    + intros E. assert (R : row_leb (nth e labels []) (nth e labels []) = true) by (destruct (to_total _ row_order (nth e labels []) (nth e labels [])); auto).
      rewrite <- E in O1, O2. apply O1 in R as R1. apply O2 in R as R2. lia.
  - rewrite before_iff.
    + destruct (row_leb (nth e' labels []) (nth e labels [])).
      * pose proof (proj2 O2 eq_refl). split; [lia|discriminate].
      * split; [reflexivity|]. intros _. destruct (Nat.lt_ge_cases (nth e (multilabel_ids labels) 0%nat) (nth e' (multilabel_ids labels) 0%nat)) as [G|G]; [exact G|].
        apply O2 in G. discriminate.
    + rewrite (proj1 (HK _ (nth_In _ [] He))), (proj1 (HK _ (nth_In _ [] He'))). reflexivity.
Qed.

(** ** the encoded labels *)
Lemma indicator_value K y e c : indicators K y -> (e < length y)%nat -> (c < K)%nat -> nth c (nth e y []) 0%nat = 0%nat \/ nth c (nth e y []) 0%nat = 1%nat.
Proof.
  intros (_ & H) He Hc. destruct (H _ (nth_In y [] He)) as (L & V). apply V, nth_In. lia.
Qed.
Lemma unique_01 l : (forall v, In v l -> v = 0%nat \/ v = 1%nat) ->
  np_unique Nat.leb l = (if existsb (Nat.eqb 0) l then [0%nat] else []) ++ (if existsb (Nat.eqb 1) l then [1%nat] else []).
Proof.
  induction l as [|v l IH]; intros H; [reflexivity|].
  change (np_unique Nat.leb (v :: l)) with (insert_unique Nat.leb v (np_unique Nat.leb l)). rewrite IH by (intros; apply H; now right).
  destruct (H v (or_introl eq_refl)) as [->| ->]; cbn [existsb];
    [change (Nat.eqb 0 0) with true; change (Nat.eqb 1 0) with false|change (Nat.eqb 0 1) with false; change (Nat.eqb 1 1) with true]; cbn [orb]; destruct (existsb (Nat.eqb 0) l), (existsb (Nat.eqb 1) l); reflexivity.
Qed.
Lemma ncol_in y c v : In v (ncol c y) <-> exists e, (e < length y)%nat /\ nth c (nth e y []) 0%nat = v.
Proof.
  unfold ncol. rewrite in_map_iff. split.
  - intros (r & <- & Hr). apply In_nth with (d := []) in Hr as (e & He & <-). eauto.
  - intros (e & He & <-). exists (nth e y []). split; [reflexivity|now apply nth_In].
Qed.
Lemma encode_nth y K e c : (e < length y)%nat -> (c < K)%nat ->
  nth c (nth e (encode y K) []) 0%nat = entry_of Nat.leb (nth c (nth e y []) 0%nat) (np_unique Nat.leb (ncol c y)).
Proof. intros He Hc. unfold encode. rewrite (nth_map_gen _ _ _ _ []) by auto. now rewrite nth_tab. Qed.
Lemma has_value y c v : existsb (Nat.eqb v) (ncol c y) = true <-> exists e, (e < length y)%nat /\ nth c (nth e y []) 0%nat = v.
Proof.
  rewrite existsb_exists, <- ncol_in. split; [intros (x & H & E); apply Nat.eqb_eq in E; now subst|intros H; exists v; split; [exact H|apply Nat.eqb_refl]].
Qed.
Lemma column_01 K y c : indicators K y -> (c < K)%nat -> forall v, In v (ncol c y) -> v = 0%nat \/ v = 1%nat.
Proof. intros H Hc v Hv. apply ncol_in in Hv as (e & He & <-). now apply (indicator_value K). Qed.
Lemma encode_divided K y : indicators K y -> divided K y -> encode y K = y.
Proof.
  intros HI HD. apply list_eq_nth with (d := []); [unfold encode; now rewrite map_length|]. intros e He. unfold encode in He. rewrite map_length in He.
  assert (LR : length (nth e y []) = K) by (apply HI, nth_In, He).
  apply list_eq_nth with (d := 0%nat); [unfold encode; rewrite (nth_map_gen _ _ _ _ []) by auto; now rewrite tab_length|].
  intros c Hc. unfold encode in Hc. rewrite (nth_map_gen _ _ _ _ []), tab_length in Hc by auto. rewrite encode_nth by auto.
  destruct (HD c Hc) as ((e1 & H1) & (e0 & H0)). rewrite unique_01 by (now apply (column_01 K)).
  rewrite (proj2 (has_value y c 0%nat)), (proj2 (has_value y c 1%nat)) by eauto.
  destruct (indicator_value K y e c HI He Hc) as [->| ->]; reflexivity.
Qed.
Lemma encode_constant K y c e : indicators K y -> (c < K)%nat -> (forall e, (e < length y)%nat -> with_class y c e) -> (e < length y)%nat ->
  nth c (nth e (encode y K) []) 0%nat = 0%nat.
Proof.
  intros HI Hc H He. rewrite encode_nth by auto. rewrite unique_01 by (now apply (column_01 K)).
  destruct (existsb (Nat.eqb 0) (ncol c y)) eqn:E0.
  - apply has_value in E0 as (x & Hx & E). pose proof (proj2 (H x Hx)). lia.
  - rewrite (proj2 (H e He)). rewrite (proj2 (has_value y c 1%nat)); [reflexivity|]. exists e. now split; [|apply H].
Qed.

(** ** cross_val_predict *)
Lemma check_ok idx n : Permutation idx (seq 0 n) -> check_is_permutation idx n = Ok true.
Proof.
  intros P. unfold check_is_permutation. rewrite (Permutation_length P), seq_length, Nat.eqb_refl. cbn [negb].
  rewrite (proj2 (forallb_forall _ idx)).
  - cbn [negb]. f_equal. apply forallb_forall. intros i Hi. apply mem_iff. now apply (Permutation_in _ (Permutation_sym P)).
  - intros i Hi. apply Nat.ltb_lt. apply (Permutation_in _ P), in_seq in Hi. lia.
Qed.
Lemma check_true idx n : check_is_permutation idx n = Ok true -> Permutation idx (seq 0 n).
Proof.
  unfold check_is_permutation. destruct (Nat.eqb_spec (length idx) n) as [L|]; [|discriminate]. cbn [negb].
  destruct (forallb (fun i => Nat.ltb i n) idx) eqn:F; [|discriminate]. cbn [negb]. intros H. injection H as H. rewrite forallb_forall in F, H.
  symmetry. apply NoDup_Permutation_bis; [apply seq_NoDup|rewrite seq_length; lia|]. intros i Hi. apply mem_iff. now apply H.
Qed.
Lemma concat_split {A B} (f : A -> list B) (g : A -> list nat) s1 s s2 d p : (forall x, length (f x) = length (g x)) -> (p < length (g s))%nat ->
  nth (length (concat (map g s1)) + p) (concat (map f (s1 ++ s :: s2))) d = nth p (f s) d.
Proof.
  intros L Hp. rewrite map_app, concat_app. cbn [map concat]. rewrite app_nth2.
  - assert (E : length (concat (map f s1)) = length (concat (map g s1))).
    { clear - L. induction s1 as [|x s1 IH]; [reflexivity|]. cbn. rewrite !app_length, IH, L. reflexivity. }
    rewrite E. replace (length (concat (map g s1)) + p - length (concat (map g s1)))%nat with p by lia. apply app_nth1. now rewrite L.
  - assert (E : length (concat (map f s1)) = length (concat (map g s1))).
    { clear - L. induction s1 as [|x s1 IH]; [reflexivity|]. cbn. rewrite !app_length, IH, L. reflexivity. }
    lia.
Qed.

Lemma C139_predictions_full : forall A (d : A) fit_predict X y K splits, row_per_example fit_predict -> covers (length y) splits -> splits <> [] ->
  exists pp, cross_val_predict d fit_predict X y K splits = Ok pp /\ length pp = length y /\
    forall s p e, In s splits -> nth_error (snd s) p = Some e ->
      nth e pp [] = nth p (fit_predict (rows_at d (fst s) X) (rows_at [] (fst s) (encode y K)) (rows_at d (snd s) X)) [].
Proof.
  intros A d fp X y K splits HR HC Hne. unfold cross_val_predict. rewrite (check_ok _ _ HC). destruct splits as [|s0 st]; [congruence|]. cbn [rbind negb].
  set (splits := s0 :: st) in *. eexists. split; [reflexivity|]. split; [rewrite map_length; apply seq_length|].
  intros s p e Hs Hp. set (g := fun s : list nat * list nat => snd s). set (test := concat (map snd splits)) in *.
  apply in_split in Hs as (s1 & s2 & Es).
  assert (Lp : (p < length (snd s))%nat) by (apply nth_error_Some; congruence).
  assert (Ne : nth (length (concat (map snd s1)) + p) test 0%nat = e).
  { unfold test. rewrite Es. rewrite (concat_split (fun s => snd s) (fun s => snd s)) by auto. now apply nth_error_nth. }
  assert (Lt : (length (concat (map snd s1)) + p < length test)%nat).
  { unfold test. rewrite Es, map_app, concat_app, app_length. cbn [map concat]. rewrite app_length. lia. }
  assert (Nd : NoDup test) by (apply (Permutation_NoDup (Permutation_sym HC)), seq_NoDup).
  assert (He : (e < length y)%nat).
  { assert (I : In e test) by (rewrite <- Ne; now apply nth_In). apply (Permutation_in _ HC), in_seq in I. lia. }
  rewrite (nth_map_gen _ _ _ _ 0%nat) by (now rewrite seq_length). rewrite seq_nth by auto. cbn [Nat.add].
  rewrite <- Ne at 1. rewrite (entry_nth Nat.leb nat_order) by auto. rewrite Es.
  rewrite (concat_split (fun s => fp (take_idx d X (fst s)) (take_idx [] (encode y K) (fst s)) (take_idx d X (snd s))) (fun s => snd s)).
  - reflexivity.
  - intros x. rewrite HR. unfold take_idx. apply map_length.
  - exact Lp.
Qed.

Lemma C139_out_of_sample_full : forall A (d : A) fit_predict split X labels K, row_per_example fit_predict -> indicators K labels -> divided K labels ->
  (forall ids, covers (length ids) (split ids)) ->
  exists pp, get_cross_validated_multilabel_pred_probs d fit_predict split X labels K = Ok pp /\ length pp = length labels /\
    forall e, (e < length labels)%nat -> exists s p, In s (split (multilabel_ids labels)) /\ nth_error (snd s) p = Some e /\
      nth e pp [] = nth p (fit_predict (rows_at d (fst s) X) (rows_at [] (fst s) labels) (rows_at d (snd s) X)) [].
Proof.
  intros A d fp split X labels K HR HI HD HS. set (ids := multilabel_ids labels).
  assert (Li : length ids = length labels) by (unfold ids, multilabel_ids, unique_inverse; apply map_length).
  pose proof (HS ids) as HC. rewrite Li in HC.
  assert (Hne : split ids <> []).
  { intros C. rewrite C in HC. apply Permutation_nil in HC. destruct (labels) as [|r l] eqn:EL; [destruct HI as (N & _); now apply N|discriminate]. }
  destruct (C139_predictions_full A d fp X labels K (split ids) HR HC Hne) as (pp & E & L & F). exists pp. split; [exact E|]. split; [exact L|].
  intros e He. assert (I : In e (concat (map snd (split ids)))) by (apply (Permutation_in _ (Permutation_sym HC)), in_seq; lia).
  apply in_concat in I as (t & Ht & Hi). apply in_map_iff in Ht as (s & <- & Hs). apply In_nth_error in Hi as (p & Hp).
  exists s, p. split; [exact Hs|]. split; [exact Hp|]. rewrite (F s p e Hs Hp). now rewrite encode_divided.
Qed.

Lemma C139_own_label_full : forall A (d : A) fit_predict split X labels labels' K e pp pp', row_per_example fit_predict ->
  indicators K labels -> divided K labels -> indicators K labels' -> divided K labels' -> length labels' = length labels ->
  (forall ids, covers (length ids) (split ids)) -> (forall ids s i, In s (split ids) -> In i (fst s) -> ~ In i (snd s)) ->
  (forall ids ids', length ids = length ids' -> split ids = split ids') ->
  (forall i, i <> e -> nth i labels' [] = nth i labels []) -> (e < length labels)%nat ->
  get_cross_validated_multilabel_pred_probs d fit_predict split X labels K = Ok pp ->
  get_cross_validated_multilabel_pred_probs d fit_predict split X labels' K = Ok pp' ->
  nth e pp' [] = nth e pp [].
Proof.
  intros A d fp split X labels labels' K e pp pp' HR HI HD HI' HD' HL HS HT HY Hlab He E E'.
  assert (Li : length (multilabel_ids labels) = length labels) by (apply map_length).
  assert (Li' : length (multilabel_ids labels') = length labels') by (apply map_length).
  unfold get_cross_validated_multilabel_pred_probs, get_split_generator in *. rewrite (HY (multilabel_ids labels') (multilabel_ids labels)) in E' by lia.
  set (splits := split (multilabel_ids labels)) in *.
  assert (HC : covers (length labels) splits) by (rewrite <- Li; apply HS).
  assert (Hne : splits <> []) by (intros C; rewrite C in E; discriminate).
  destruct (C139_predictions_full A d fp X labels K splits HR HC Hne) as (q & Eq & Lq & F). rewrite E in Eq. injection Eq as <-.
  destruct (C139_predictions_full A d fp X labels' K splits HR) as (q & Eq & Lq' & F'); [now rewrite HL|exact Hne|]. rewrite E' in Eq. injection Eq as <-.
  assert (I : In e (concat (map snd splits))) by (apply (Permutation_in _ (Permutation_sym HC)), in_seq; lia).
  apply in_concat in I as (t & Ht & Hi). apply in_map_iff in Ht as (s & <- & Hs). pose proof Hi as Hi'. apply In_nth_error in Hi as (p & Hp).
  rewrite (F s p e Hs Hp), (F' s p e Hs Hp). rewrite !encode_divided by auto. do 2 f_equal. unfold rows_at. apply map_ext_in. intros i Hin. apply Hlab.
  intros ->. exact (HT _ s e Hs Hin Hi').
Qed.

Lemma C139_rejects_full : forall A (d : A) fit_predict X y K splits, ~ covers (length y) splits ->
  cross_val_predict d fit_predict X y K splits = Raise ValueError \/ cross_val_predict d fit_predict X y K splits = Raise IndexError.
Proof.
  intros A d fp X y K splits H. unfold cross_val_predict. destruct splits as [|s0 st]; [now left|].
  destruct (check_is_permutation (concat (map snd (s0 :: st))) (length y)) as [[|]|x] eqn:E; cbn [rbind negb]; auto.
  - exfalso. apply H. now apply check_true.
  - unfold check_is_permutation in E. destruct (negb _); [discriminate|]. destruct (negb _); [|discriminate]. injection E as <-. now right.
Qed.

Lemma filter_short {A} (f : A -> bool) l : (length (filter f l) <= length l)%nat.
Proof. induction l as [|x l IH]; cbn; [lia|]. destruct (f x); cbn; lia. Qed.
Lemma C139_prior_full : forall K y c, indicators K y -> (c < K)%nat ->
  exists idx, NoDup idx /\ (forall e, In e idx <-> without_class y c e) /\
    nth 0 (nth c (multilabel_py y K) []) 0 == Qnat (length idx) / Qnat (length y) /\
    nth 0 (nth c (multilabel_py y K) []) 0 + nth 1 (nth c (multilabel_py y K) []) 0 == 1 /\
    0 <= nth 0 (nth c (multilabel_py y K) []) 0 <= 1.
Proof.
  intros K y c HI Hc. exists (filter (fun e => Nat.eqb (nth c (nth e y []) 0%nat) 0) (seq 0 (length y))).
  unfold multilabel_py. rewrite nth_tab by auto. cbn [nth].
  assert (E : length (filter (fun r => Nat.eqb (nth c r 0%nat) 0) y) = length (filter (fun e => Nat.eqb (nth c (nth e y []) 0%nat) 0) (seq 0 (length y)))).
  { clear. induction y as [|r y IH] using rev_ind; [reflexivity|]. rewrite app_length, seq_app, !filter_app, !app_length. cbn [length Nat.add seq]. f_equal.
    - rewrite IH. f_equal. apply filter_ext_in. intros e He. apply in_seq in He. now rewrite app_nth1 by lia.
    - cbn [filter]. rewrite app_nth2, Nat.sub_diag by lia. cbn [nth]. destruct (Nat.eqb _ 0); reflexivity. }
  split; [apply NoDup_filter, seq_NoDup|]. split.
  { intros e. rewrite filter_In, in_seq, Nat.eqb_eq. unfold without_class. intuition lia. }
  split; [now rewrite E|]. split; [ring|].
  assert (P : 0 < Qnat (length y)) by (apply Qnat_pos; destruct HI as (N & _); destruct y; [congruence|cbn; lia]).
  assert (B : Qnat (length (filter (fun r => Nat.eqb (nth c r 0%nat) 0) y)) <= Qnat (length y)) by (apply Qnat_le, filter_short).
  pose proof (Qnat_nonneg (length (filter (fun r => Nat.eqb (nth c r 0%nat) 0) y))). split.
  - apply Qle_shift_div_l; [exact P|]. lra.
  - apply Qle_shift_div_r; [exact P|]. lra.
Qed.

Lemma C139_told_full : forall A (d : A) fit_predict X y K splits pp c, row_per_example fit_predict -> indicators K y -> (c < K)%nat ->
  (forall e, (e < length y)%nat -> with_class y c e) -> cross_val_predict d fit_predict X y K splits = Ok pp ->
  exists told, length told = length y /\ (forall e, (e < length y)%nat -> without_class told c e) /\
    forall s p e, In s splits -> nth_error (snd s) p = Some e ->
      nth e pp [] = nth p (fit_predict (rows_at d (fst s) X) (rows_at [] (fst s) told) (rows_at d (snd s) X)) [].
Proof.
  intros A d fp X y K splits pp c HR HI Hc Hall E. exists (encode y K).
  assert (L : length (encode y K) = length y) by (unfold encode; apply map_length).
  split; [exact L|]. split.
  - intros e He. split; [now rewrite L|]. now apply (encode_constant K).
  - assert (Hne : splits <> []) by (intros C; rewrite C in E; discriminate).
    assert (HC : covers (length y) splits).
    { unfold covers. destruct (check_is_permutation (concat (map snd splits)) (length y)) as [[|]|x] eqn:G.
      - now apply check_true.
      - unfold cross_val_predict in E. rewrite G in E. destruct splits; discriminate.
      - unfold cross_val_predict in E. rewrite G in E. destruct splits; discriminate. }
    destruct (C139_predictions_full A d fp X y K splits HR HC Hne) as (q & Eq & _ & F). rewrite E in Eq. injection Eq as <-. exact F.
Qed.
