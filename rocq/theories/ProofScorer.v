(** * Proofs about the options of the multi-label scores *)
From Coq Require Import QArith String Ascii List Bool Arith Lia.
From Verif Require Import Base BaseFacts ModelUtil ModelRank ModelMultilabel ModelDatalab ProofDatalab ModelScorer SpecScorer.
Import ListNotations.
Open Scope Q_scope.

Lemma same_upper a b : same_letter a b <-> upper_char a = upper_char b.
Proof.
  split.
  - intros [->|(n & Hn & H)]; [reflexivity|]. do 26 (destruct n as [|n]; [destruct H as [(-> & ->)|(-> & ->)]; vm_compute; reflexivity|]). lia.
  - unfold upper_char. pose proof (ascii_nat_embedding a) as Ea. pose proof (ascii_nat_embedding b) as Eb.
    pose proof (nat_ascii_bounded a) as Ba. pose proof (nat_ascii_bounded b) as Bb.
    set (n := nat_of_ascii a) in *. set (m := nat_of_ascii b) in *. cbv zeta.
    destruct (Nat.leb_spec 97 n), (Nat.leb_spec n 122), (Nat.leb_spec 97 m), (Nat.leb_spec m 122); cbn [andb]; intros E; try (now left);
      try (right; exists (n - 97)%nat; split; [lia|]; right; split; [rewrite <- Ea; f_equal; lia|rewrite <- E; f_equal; lia]);
      try (right; exists (m - 97)%nat; split; [lia|]; left; split; [rewrite E; f_equal; lia|rewrite <- Eb; f_equal; lia]).
    left. apply (f_equal nat_of_ascii) in E. rewrite !nat_ascii_embedding in E by lia. rewrite <- Ea, <- Eb. f_equal. lia.
Qed.
Lemma same_word_upper s : forall t, same_word s t <-> upper s = upper t.
Proof.
  induction s as [|a s IH]; intros [|b t]; cbn [upper]; split; try discriminate; try (intros H; now inversion H); try constructor.
  - intros H. inversion H; subst. f_equal; [now apply same_upper|now apply IH].
  - injection H as Hc _. now apply same_upper.
  - injection H as _ Ht. now apply IH.
Qed.
Lemma names_full method b : from_str method = Ok b <-> same_word method (score_name b).
Proof.
  rewrite same_word_upper. unfold from_str.
  destruct (String.eqb_spec (upper method) "SELF_CONFIDENCE") as [E|N1]; [|destruct (String.eqb_spec (upper method) "NORMALIZED_MARGIN") as [E|N2];
    [|destruct (String.eqb_spec (upper method) "CONFIDENCE_WEIGHTED_ENTROPY") as [E|N3]]];
    try rewrite E; destruct b as [[|]|]; cbn; split; intros H; try reflexivity; try discriminate H; contradiction.
Qed.
Lemma names_error method e : from_str method = Raise e -> e = ValueError /\ forall b, ~ same_word method (score_name b).
Proof.
  intros H. split.
  - revert H. unfold from_str. repeat (destruct (String.eqb _ _); [discriminate|]). congruence.
  - intros b Hb. apply names_full in Hb. congruence.
Qed.

Section S.
Variables (srt : list Q -> list nat) (softmin : kwvalue -> list (list Q) -> res (list Q)) (custom : nat -> list (list Q) -> kwdict -> res (list Q))
  (entropy : list nat -> list (list Q) -> list Q).
Notation QS := (quality_scores srt softmin custom entropy).

Lemma lookup_without k k' d : k <> k' -> lookup k (without k' d) = lookup k d.
Proof.
  intros N. unfold without. rewrite (lookup_filter_key (fun x => negb (String.eqb x k')) k d). destruct (String.eqb_spec k k'); [contradiction|reflexivity].
Qed.
Lemma lookup_updated k d : k <> "method"%string -> k <> "axis"%string -> lookup k (without "axis" (without "method" d) ++ [("axis"%string, KNum 1)]) = lookup k d.
Proof.
  intros N1 N2. rewrite lookup_app, !lookup_without by auto. cbn [lookup]. destruct (String.eqb_spec "axis" k) as [E|]; [congruence|].
  destruct (String.eqb_spec k "axis") as [E|]; [congruence|]. destruct (lookup k d); reflexivity.
Qed.
Lemma axis_updated d : lookup "axis" (without "axis" (without "method" d) ++ [("axis"%string, KNum 1)]) = Some (KNum 1).
Proof.
  rewrite lookup_app. unfold without at 1. rewrite (lookup_filter_key (fun x => negb (String.eqb x "axis")) "axis"). reflexivity.
Qed.
Lemma default_full labels pp K method adjust :
  QS labels pp K method adjust None = QS labels pp K method adjust (Some [("method", KStr "exponential_moving_average"); ("alpha", KNum (4 # 5))]%string) /\
  QS labels pp K method adjust (Some []) = QS labels pp K method adjust None.
Proof.
  split; [|reflexivity]. unfold quality_scores, create_multilabel_scorer. destruct (assert_valid_multilabel labels pp K); [|reflexivity]. cbn [rbind].
  destruct (from_str method); reflexivity.
Qed.
Lemma make_ema d : asks_ema d -> no_reserved d -> make_aggregator d = Ok (Ema, without "method" d).
Proof. intros [E|E] (R1 & R2); unfold make_aggregator; rewrite R1, E; reflexivity. Qed.
Lemma ema_full labels pp K method m adjust d a : d <> [] -> asks_ema d -> no_reserved d -> weight d a -> same_word method (score_name (Standard m)) ->
  QS labels pp K method adjust (Some d) = ml_label_quality_scores srt labels pp K m adjust a.
Proof.
  intros Hd Ha Hr Hw Hm. apply names_full in Hm. unfold quality_scores, ml_label_quality_scores, create_multilabel_scorer, onehot_scores.
  destruct (assert_valid_multilabel labels pp K); [|reflexivity]. cbn [rbind]. rewrite Hm. cbn [rbind]. destruct d as [|kv d0] eqn:Ed; [congruence|]. rewrite <- Ed in *.
  rewrite (make_ema d Ha Hr). cbn [rbind]. destruct (check_onehot _ pp K); [|reflexivity]. cbn [rbind scorer_class_scores].
  destruct (class_scores _ pp K m adjust) as [s|]; [|reflexivity]. cbn [rbind call_aggregator].
  rewrite (lookup_updated "s" d) by discriminate. destruct Hr as (_ & ->). rewrite (lookup_updated "alpha" d) by discriminate.
  destruct Hw as [(-> & ->)|[(-> & ->)|(q & -> & ->)]]; reflexivity.
Qed.
Lemma ignored_full labels pp K method adjust d d' : d <> [] -> d' <> [] -> asks_ema d -> asks_ema d' -> no_reserved d -> no_reserved d' ->
  lookup "alpha" d = lookup "alpha" d' -> QS labels pp K method adjust (Some d) = QS labels pp K method adjust (Some d').
Proof.
  intros Hd Hd' Ha Ha' Hr Hr' E. unfold quality_scores, create_multilabel_scorer.
  destruct (assert_valid_multilabel labels pp K); [|reflexivity]. cbn [rbind]. destruct (from_str method) as [b|]; [|reflexivity]. cbn [rbind].
  destruct d as [|kv d0] eqn:Ed; [congruence|]. rewrite <- Ed in *. destruct d' as [|kv' d0'] eqn:Ed'; [congruence|]. rewrite <- Ed' in *.
  rewrite (make_ema d Ha Hr), (make_ema d' Ha' Hr'). cbn [rbind]. destruct (check_onehot _ pp K); [|reflexivity]. cbn [rbind].
  destruct (scorer_class_scores _ b adjust _ pp K) as [s|]; [|reflexivity]. cbn [rbind call_aggregator].
  rewrite (lookup_updated "s" d), (lookup_updated "s" d') by discriminate. destruct Hr as (_ & ->), Hr' as (_ & ->).
  rewrite (lookup_updated "alpha" d), (lookup_updated "alpha" d') by discriminate. rewrite E. reflexivity.
Qed.
Lemma refused_full labels pp K method adjust d : d <> [] -> assert_valid_multilabel labels pp K = Ok tt -> (exists b, same_word method (score_name b)) ->
  (lookup "method" d = None -> QS labels pp K method adjust (Some d) = Raise TypeError) /\
  (forall s, lookup "self" d = None -> lookup "method" d = Some (KStr s) -> s <> "exponential_moving_average"%string -> s <> "softmin"%string ->
     QS labels pp K method adjust (Some d) = Raise ValueError) /\
  (forall v, lookup "method" d = Some v -> (v = KNone \/ v = KOther \/ exists q, v = KNum q) -> QS labels pp K method adjust (Some d) = Raise TypeError).
Proof.
  intros Hd Hv (b & Hb). apply names_full in Hb. unfold quality_scores, create_multilabel_scorer. rewrite Hv. cbn [rbind]. rewrite Hb. cbn [rbind].
  destruct d as [|kv d0] eqn:Ed; [congruence|]. rewrite <- Ed in *. unfold make_aggregator. split; [|split].
  - intros ->. destruct (lookup "self" d); reflexivity.
  - intros s -> -> N1 N2. destruct (String.eqb_spec s "exponential_moving_average"); [contradiction|]. destruct (String.eqb_spec s "softmin"); [contradiction|]. reflexivity.
  - intros v E Hv'. rewrite E. destruct (lookup "self" d); [reflexivity|]. destruct Hv' as [->|[->|(q & ->)]]; reflexivity.
Qed.
Lemma method_error labels pp K method adjust kw : assert_valid_multilabel labels pp K = Ok tt -> (forall b, ~ same_word method (score_name b)) ->
  QS labels pp K method adjust kw = Raise ValueError /\ quality_scores_per_class entropy labels pp K method adjust = Raise ValueError.
Proof.
  intros Hv Hn. unfold quality_scores, quality_scores_per_class, create_multilabel_scorer. rewrite Hv. cbn [rbind].
  destruct (from_str method) as [b|e] eqn:E; [apply names_full in E; destruct (Hn b E)|]. apply names_error in E as (-> & _). split; reflexivity.
Qed.
Lemma entropy_adjust labels pp K method kw : (1 <= K)%nat -> same_word method (score_name Entropy) ->
  (forall s, QS labels pp K method true kw <> Ok s) /\ (forall s, quality_scores_per_class entropy labels pp K method true <> Ok s).
Proof.
  intros HK Hm. apply names_full in Hm. unfold quality_scores, quality_scores_per_class, create_multilabel_scorer.
  destruct (assert_valid_multilabel labels pp K); [|split; discriminate]. cbn [rbind]. rewrite Hm. cbn [rbind fst scorer_class_scores].
  destruct K as [|K']; [lia|]. split; [|discriminate]. intros s.
  destruct (match kw with None | Some [] => _ | Some d => _ end) as [ag|]; cbn [rbind]; [|discriminate]. destruct (check_onehot _ pp (S K')); discriminate.
Qed.
Lemma entropy_adjust_error labels pp K method : (1 <= K)%nat -> same_word method (score_name Entropy) -> assert_valid_multilabel labels pp K = Ok tt ->
  quality_scores_per_class entropy labels pp K method true = Raise ValueError.
Proof.
  intros HK Hm Hv. apply names_full in Hm. unfold quality_scores_per_class, create_multilabel_scorer. rewrite Hv. cbn [rbind]. rewrite Hm.
  cbn [rbind fst scorer_class_scores]. destruct K; [lia|reflexivity].
Qed.
Lemma entropy_scores labels pp K method : same_word method (score_name Entropy) -> assert_valid_multilabel labels pp K = Ok tt ->
  exists s, quality_scores_per_class entropy labels pp K method false = Ok s /\ length s = length labels /\
    forall e, (e < length labels)%nat -> length (nth e s []) = K /\ forall c, (c < K)%nat ->
      nth c (nth e s []) 0 = nth e (entropy (map (fun l => if mem c l then 1%nat else 0%nat) labels) (map (fun r => [1 - nth c r 0; nth c r 0]) pp)) 0.
Proof.
  intros Hm Hv. apply names_full in Hm. unfold quality_scores_per_class, create_multilabel_scorer. rewrite Hv. cbn [rbind]. rewrite Hm.
  cbn [rbind fst scorer_class_scores]. cbv zeta. assert (L : length (int2onehot labels K) = length labels) by (unfold int2onehot; apply map_length).
  rewrite L. eexists. split; [reflexivity|]. rewrite tab_length. split; [reflexivity|].
  intros e He. rewrite (nth_tab (length labels)) by exact He. rewrite !map_length, seq_length. split; [reflexivity|]. intros c Hc.
  rewrite (nth_map_gen _ _ _ _ []) by (rewrite map_length, seq_length; exact Hc). rewrite (nth_map_gen _ _ _ _ 0%nat) by (rewrite seq_length; exact Hc). rewrite seq_nth by exact Hc. rewrite Nat.add_0_l. f_equal. f_equal.
  - unfold ncol, int2onehot. rewrite map_map. apply map_ext. intros l. apply nth_tab. exact Hc.
  - unfold stack_complement, col. rewrite map_map. reflexivity.
Qed.
Lemma custom_full labels pp K method adjust d f s cs : d <> [] -> lookup "self" d = None -> lookup "method" d = Some (KFun (Custom f)) ->
  QS labels pp K method adjust (Some d) = Ok s -> quality_scores_per_class entropy labels pp K method adjust = Ok cs ->
  exists kw, custom f cs kw = Ok s /\ lookup "axis" kw = Some (KNum 1) /\
    forall k, k <> "method"%string -> k <> "axis"%string -> lookup k kw = lookup k d.
Proof.
  intros Hd Hs Hm H HC. unfold quality_scores, quality_scores_per_class, create_multilabel_scorer in *.
  destruct (assert_valid_multilabel labels pp K); [|discriminate]. cbn [rbind] in *. destruct (from_str method) as [b|]; [|discriminate]. cbn [rbind fst] in *.
  destruct d as [|kv d0] eqn:Ed; [congruence|]. rewrite <- Ed in *. unfold make_aggregator in H. rewrite Hs, Hm in H. cbn [rbind] in H.
  destruct (check_onehot _ pp K); [|discriminate]. cbn [rbind] in H. rewrite HC in H. cbn [rbind call_aggregator] in H.
  exists (without "axis" (without "method" d) ++ [("axis"%string, KNum 1)]). split; [exact H|]. split; [apply axis_updated|]. intros k N1 N2. now apply lookup_updated.
Qed.
Lemma per_class_full labels pp K method m adjust : same_word method (score_name (Standard m)) ->
  quality_scores_per_class entropy labels pp K method adjust = ml_label_quality_scores_per_class labels pp K m adjust.
Proof. intros Hm. apply names_full in Hm. unfold quality_scores_per_class, create_multilabel_scorer. rewrite Hm. reflexivity. Qed.
Lemma softmin_full labels pp K method adjust d : d <> [] -> no_reserved d ->
  lookup "method" d = Some (KStr "softmin") \/ lookup "method" d = Some (KFun Softmin) -> check_onehot (int2onehot labels K) pp K = Ok tt ->
  QS labels pp K method adjust (Some d) =
  do cs <- quality_scores_per_class entropy labels pp K method adjust ; softmin (match lookup "temperature" d with Some v => v | None => KNum (1 # 10) end) cs.
Proof.
  intros Hd (R1 & R2) Hm HC. unfold quality_scores, quality_scores_per_class, create_multilabel_scorer.
  destruct (assert_valid_multilabel labels pp K); [|reflexivity]. cbn [rbind]. destruct (from_str method) as [b|]; [|reflexivity]. cbn [rbind fst].
  destruct d as [|kv d0] eqn:Ed; [congruence|]. rewrite <- Ed in *. unfold make_aggregator. rewrite R1.
  assert (E : (do g <- match lookup "method" d with Some (KStr s) => if String.eqb s "exponential_moving_average" then Ok Ema
      else if String.eqb s "softmin" then Ok Softmin else Raise ValueError | Some (KFun g) => Ok g | _ => Raise TypeError end ; Ok (g, without "method" d)) = Ok (Softmin, without "method" d))
    by (destruct Hm as [-> | ->]; reflexivity).
  destruct (lookup "method" d) as [v|]; [|destruct Hm; discriminate]. rewrite E. cbn [rbind]. rewrite HC. cbn [rbind].
  destruct (scorer_class_scores _ b adjust _ pp K) as [s|]; [|reflexivity]. cbn [rbind call_aggregator].
  rewrite (lookup_updated "s" d) by discriminate. rewrite R2. rewrite (lookup_updated "temperature" d) by discriminate. reflexivity.
Qed.
End S.
