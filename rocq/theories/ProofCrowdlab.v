(** * Lemmas for C153: what CROWDLAB computes *)
From Coq Require Import QArith List ZArith Bool Arith Lia Lqa Permutation.
From Verif Require Import Base BaseFacts ModelUtil ModelRank ModelMultiannotator SpecCount SpecMultiannotator SpecCrowdlab
  ProofUtil ProofCount ProofRank ProofMultiannotator ProofReorder ProofRows ProofRename.
Import ListNotations.
Open Scope Q_scope.

(** ** rows *)
Lemma labels_length r : length (labels_of r) = num_annotations r.
Proof.
  unfold labels_of, labels_in, num_annotations. cbn [flat_map]. rewrite app_nil_r. induction r as [|[l|] r IH]; [reflexivity| |]; cbn [flat_map map app length].
  - rewrite count_true_cons. cbn [present]. now rewrite IH.
  - rewrite count_true_cons. cbn [present]. exact IH.
Qed.
Lemma labels_app a b : labels_of (a ++ b) = labels_of a ++ labels_of b.
Proof. unfold labels_of, labels_in. cbn [flat_map]. rewrite !app_nil_r. apply flat_map_app. Qed.
Lemma split_row (r : row) j l : nth j r None = Some l -> r = firstn j r ++ Some l :: skipn (S j) r.
Proof.
  revert r. induction j as [|j IH]; intros [|o r] H; try (cbn in H; discriminate).
  - cbn in H. subst. reflexivity.
  - cbn in H. cbn [firstn skipn app]. f_equal. now apply IH.
Qed.
Definition bits (l : nat) (ls : list nat) : list Q := map (fun l' => if Nat.eqb l' l then 1 else 0) ls.
Lemma bits_sum l r : qsum (bits l (labels_of r)) == Qnat (label_total l r).
Proof.
  unfold bits, labels_of, labels_in, label_total. cbn [flat_map]. rewrite app_nil_r. induction r as [|[k|] r IH]; [reflexivity| |]; cbn [flat_map map app].
  - rewrite count_true_cons. cbn [is_label]. rewrite qsum_cons, IH. destruct (Nat.eqb k l); cbn [Nat.add]; [rewrite Qnat_S|]; ring.
  - rewrite count_true_cons. cbn [is_label]. exact IH.
Qed.
Lemma row_meetings r j l : nth j r None = Some l ->
  length (bits l (labels_of (others j r))) = (num_annotations r - 1)%nat /\ (1 <= num_annotations r)%nat /\
  qsum (bits l (labels_of (others j r))) == agreement_in_row j r * Qnat (num_annotations r - 1).
Proof.
  intros E. assert (N : num_annotations r = S (length (labels_of (others j r)))).
  { rewrite <- (labels_length r). rewrite (split_row r j l E) at 1. unfold others. rewrite !labels_app, !app_length. change (Some l :: skipn (S j) r) with ([Some l] ++ skipn (S j) r).
    rewrite labels_app, app_length. cbn [labels_of labels_in flat_map app length]. lia. }
  assert (T : label_total l r = S (label_total l (others j r))).
  { rewrite (split_row r j l E) at 1. unfold others, label_total. rewrite !map_app, !count_true_app. cbn [map is_label]. rewrite Nat.eqb_refl, count_true_cons. lia. }
  unfold bits at 1. rewrite map_length. split; [lia|]. split; [lia|]. rewrite bits_sum. unfold agreement_in_row. rewrite E.
  destruct (Nat.ltb_spec 1 (num_annotations r)) as [H|H].
  - assert (0 < Qnat (num_annotations r - 1)) by (apply Qnat_pos; lia). rewrite T, Qnat_S. field. lra.
  - assert (Z : label_total l (others j r) = 0%nat) by (pose proof (label_total_le l (others j r)) as G; rewrite <- labels_length in G; lia). rewrite Z, Qnat_0. ring.
Qed.

(** ** how often the others agree *)
Lemma meetings_sums t j : let rows := filter (fun r => present (nth j r None)) t in
  Qnat (length (meetings t j)) == qsum (map (fun r => Qnat (num_annotations r - 1)) rows) /\
  qsum (meetings t j) == qsum (map (fun p => fst p * snd p) (combine (map (agreement_in_row j) rows) (map (fun r => Qnat (num_annotations r - 1)) rows))).
Proof.
  induction t as [|r t (IH1 & IH2)]; [split; reflexivity|]. cbn [filter]. unfold meetings in *. cbn [flat_map].
  destruct (nth j r None) as [l|] eqn:E; cbn [present app]; [|split; assumption].
  fold (bits l (labels_of (others j r))). destruct (row_meetings r j l E) as (A & _ & B). cbn [map combine fst snd]. rewrite !qsum_cons, qsum_app, app_length, Qnat_plus, A, IH1, IH2, B. cbn [fst snd]. split; reflexivity.
Qed.
Lemma single_meetings t j : match single_annotator_agreement t j with
  | Some a => meetings t j <> [] /\ is_average (meetings t j) a
  | None => meetings t j = []
  end.
Proof.
  unfold single_annotator_agreement. destruct (meetings_sums t j) as (A & B). destruct (Qeq_bool _ 0) eqn:E.
  - apply Qeq_bool_iff in E. rewrite E in A. destruct (meetings t j) as [|x l]; [reflexivity|]. exfalso. assert (0 < Qnat (length (x :: l))) by (apply Qnat_pos; cbn; lia). lra.
  - apply Qeq_bool_neq in E. assert (N : meetings t j <> []). { intros Z. apply E. rewrite <- A, Z. reflexivity. }
    split; [exact N|]. split; [exact N|]. rewrite A, B. unfold waverage. field. exact E.
Qed.
Lemma rates_ok M t agr : agreement_with_annotators t M = Some agr -> length agr = M /\ agreement_rates M t (fun j => nth j agr 0).
Proof.
  intros H. unfold agreement_with_annotators, impute in H. destruct (known (tab M (single_annotator_agreement t))) as [|q0 qs] eqn:EK; [discriminate|]. injection H as Hs.
  assert (L : length agr = M) by (rewrite <- Hs, map_length; apply tab_length). split; [exact L|].
  assert (V : forall j, (j < M)%nat -> nth j agr 0 = match single_annotator_agreement t j with Some x => x | None => qmean (q0 :: qs) end).
  { intros j Hj. rewrite <- Hs. rewrite (nth_map_gen _ _ _ _ None) by now rewrite tab_length. now rewrite nth_tab. }
  pose proof (known_tab M (single_annotator_agreement t) (fun j => nth j agr 0)) as KT. rewrite EK in KT.
  assert (F : Forall2 Qeq (q0 :: qs) (map (fun j => nth j agr 0) (filter (fun i => negb (Nat.eqb (length (meetings t i)) 0)) (seq 0 M)))).
  { replace (filter (fun i => negb (Nat.eqb (length (meetings t i)) 0)) (seq 0 M))
      with (filter (fun j => match single_annotator_agreement t j with Some _ => true | None => false end) (seq 0 M)).
    - apply KT. intros j q Hj E. rewrite V by auto. rewrite E. reflexivity.
    - apply filter_ext. intros j. pose proof (single_meetings t j) as SM. destruct (single_annotator_agreement t j).
      + destruct SM as (SM & _). destruct (meetings t j); [congruence|reflexivity].
      + rewrite SM. reflexivity. }
  intros j Hj. pose proof (single_meetings t j) as SM. split; intros N.
  - rewrite V by auto. destruct (single_annotator_agreement t j); [tauto|congruence].
  - rewrite V by auto. destruct (single_annotator_agreement t j); [tauto|]. eapply is_average_ext; [exact F|]. apply qmean_average. discriminate.
Qed.

(** ** the examples with several labels *)
Lemma where_map {A} (f : A -> bool) (d : A) t : where_ (map f t) = filter (fun i => f (nth i t d)) (seq 0 (length t)).
Proof.
  induction t as [|x t IH]; [reflexivity|]. cbn [map length seq filter]. rewrite where_cons, IH, <- seq_shift, filter_map_. cbn [nth].
  destruct (f x); reflexivity.
Qed.
Section Table.
Variables (t : list row) (M K : nat).
Hypothesis HA : annotations M K t.
Hypothesis HO : has_overlap t.
Lemma overlap_where : where_ (multi t) = overlap t.
Proof.
  unfold multi, overlap. rewrite (where_map _ []). apply filter_ext_in. intros i Hi. apply in_seq in Hi. rewrite labels_length.
  assert (P : (1 <= num_annotations (nth i t []))%nat).
  { destruct (an_some _ _ _ HA (nth i t [])) as (k & Hk); [apply nth_In; lia|]. rewrite <- labels_length. unfold labels_of, labels_in. cbn [flat_map]. rewrite app_nil_r.
    clear - Hk. induction (nth i t []) as [|o r IH]; [destruct Hk|]. cbn [flat_map]. rewrite app_length. destruct Hk as [->|Hk]; [cbn; lia|]. specialize (IH Hk). lia. }
  destruct (Nat.eqb_spec (num_annotations (nth i t [])) 1) as [E|E]; cbn [negb].
  - rewrite E. reflexivity.
  - symmetry. apply Nat.leb_le. lia.
Qed.
Lemma overlap_select {A} (d : A) l : length l = length t -> select (multi t) l = map (fun i => nth i l d) (overlap t).
Proof. intros H. rewrite (select_as_take d), overlap_where; [reflexivity|]. unfold multi. now rewrite map_length. Qed.
Lemma overlap_ne : overlap t <> [].
Proof.
  destruct HO as (r & i & j & Hr & N & Hi & Hj). apply (In_nth t r []) in Hr as (e & He & E).
  assert (I : In e (overlap t)).
  { apply filter_In. split; [apply in_seq; lia|]. rewrite labels_length, E. apply Nat.leb_le. clear E. destruct Hi as (k & Hi), Hj as (k' & Hj).
    rewrite <- labels_length. rewrite (split_row r i k Hi), labels_app, app_length. change (Some k :: skipn (S i) r) with ([Some k] ++ skipn (S i) r). rewrite (labels_app [Some k]), app_length. assert (L1 : length (labels_of [Some k]) = 1%nat) by reflexivity. rewrite L1.
    assert (G : In (Some k') (firstn i r ++ skipn (S i) r)).
    { assert (Hjl : (j < length r)%nat) by (destruct (le_lt_dec (length r) j); auto; rewrite nth_overflow in Hj by auto; discriminate).
      assert (Hil : (i < length r)%nat) by (destruct (le_lt_dec (length r) i); auto; rewrite nth_overflow in Hi by auto; discriminate).
      apply in_or_app. destruct (lt_eq_lt_dec j i) as [[H|H]|H]; [left|congruence|right].
      - rewrite <- Hj. rewrite <- (firstn_skipn i r) at 1. rewrite app_nth1 by (rewrite firstn_length; lia). apply nth_In. rewrite firstn_length. lia.
      - rewrite <- Hj. rewrite <- (firstn_skipn (S i) r) at 1. rewrite app_nth2 by (rewrite firstn_length; lia). apply nth_In. rewrite firstn_length, skipn_length. lia. }
    assert (G2 : (1 <= length (labels_of (firstn i r ++ skipn (S i) r)))%nat).
    { clear - G. unfold labels_of, labels_in. cbn [flat_map]. rewrite app_nil_r. induction (firstn i r ++ skipn (S i) r) as [|o q IH]; [destruct G|]. cbn [flat_map]. rewrite app_length. destruct G as [->|G]; [cbn; lia|]. specialize (IH G). lia. }
    rewrite labels_app, app_length in G2. lia. }
  intros Z. rewrite Z in I. destruct I.
Qed.
Lemma overlap_in i : In i (overlap t) -> (i < length t)%nat.
Proof. unfold overlap. rewrite filter_In, in_seq. lia. Qed.
Lemma map_ne {A B} (f : A -> B) l : l <> [] -> map f l <> [].
Proof. destruct l; [congruence|discriminate]. Qed.
Variable c : list nat.
Hypothesis HL : length c = length t.
Lemma cl_rate : consensus_rate t c (consensus_likelihood t c).
Proof.
  unfold consensus_rate, consensus_likelihood. rewrite (overlap_select 0) by (unfold agreement_with_consensus; rewrite map_length, combine_length; lia).
  replace (map (fun i => nth i (agreement_with_consensus t c) 0) (overlap t)) with
    (map (fun i => Qnat (votes (nth i t []) (nth i c 0%nat)) / Qnat (length (labels_of (nth i t [])))) (overlap t)).
  - apply qmean_average, map_ne, overlap_ne.
  - apply map_ext_in. intros i Hi. apply overlap_in in Hi. unfold agreement_with_consensus. rewrite (nth_map_gen _ _ _ _ ([], 0%nat)) by (rewrite combine_length; lia).
    rewrite combine_nth by lia. cbn [fst snd]. now rewrite label_total_votes, labels_length.
Qed.
Lemma mlce_facts : (1 <= K)%nat -> exists m e0, commonest K t c m /\ error_rate t c (fun _ => m) e0 /\ most_likely_class_error t c K = qmax e0 (1 # 1000000).
Proof.
  intros HK. unfold most_likely_class_error. rewrite (overlap_select 0%nat) by exact HL. set (sub := map (fun i => nth i c 0%nat) (overlap t)).
  set (m := argmax (tab K (fun k => Qnat (count k sub)))).
  assert (Hn : tab K (fun k => Qnat (count k sub)) <> []) by (intros E; apply (f_equal (@length _)) in E; rewrite tab_length in E; simpl in E; lia).
  exists m, (qmean (map (fun x => indicator (negb (Nat.eqb x m))) sub)). split; [|split; [|reflexivity]].
  - pose proof (argmax_lt _ Hn) as G. rewrite tab_length in G. split; [exact G|]. intros k Hk. fold sub.
    assert (H : nth k (tab K (fun k => Qnat (count k sub))) 0 <= nth m (tab K (fun k => Qnat (count k sub))) 0) by (apply argmax_max; now rewrite tab_length).
    rewrite !nth_tab in H by auto. now apply Qnat_le_iff.
  - unfold error_rate. unfold sub. rewrite map_map. erewrite map_ext.
    + apply qmean_average, map_ne, overlap_ne.
    + intros i. cbn beta. rewrite Nat.eqb_sym. now destruct (Nat.eqb (nth i c 0%nat) m).
Qed.
Lemma model_error prior : length prior = length t ->
  error_rate t c (fun i => argmax (nth i prior [])) (qmean (map (fun pc => indicator (negb (Nat.eqb (argmax (fst pc)) (snd pc)))) (combine (select (multi t) prior) (select (multi t) c)))).
Proof.
  intros Lp. rewrite (overlap_select []) by exact Lp. rewrite (overlap_select 0%nat) by exact HL. unfold error_rate.
  replace (map (fun pc => indicator (negb (Nat.eqb (argmax (fst pc)) (snd pc)))) (combine (map (fun i => nth i prior []) (overlap t)) (map (fun i => nth i c 0%nat) (overlap t))))
    with (map (fun i => if Nat.eqb (argmax (nth i prior [])) (nth i c 0%nat) then 0 else 1) (overlap t)).
  - apply qmean_average, map_ne, overlap_ne.
  - clear. induction (overlap t) as [|i l IH]; [reflexivity|]. cbn [map combine fst snd]. f_equal; [|exact IH]. now destruct (Nat.eqb _ _).
Qed.
End Table.

(** ** sums over the annotators and the models *)
Lemma map_combine_seq {A B C} (f : A * B -> C) (da : A) (db : B) la lb : length la = length lb ->
  map f (combine la lb) = map (fun j => f (nth j la da, nth j lb db)) (seq 0 (length lb)).
Proof.
  revert lb. induction la as [|x la IH]; intros [|y lb] H; try discriminate; [reflexivity|]. cbn [combine map length seq nth]. f_equal.
  rewrite <- seq_shift, map_map. cbn [nth]. apply IH. now injection H.
Qed.
Lemma weight_sum aw r : length aw = length r -> annotation_weight aw r = weight_present (fun j => nth j aw 0) r.
Proof.
  intros H. unfold annotation_weight, weight_present. rewrite (map_combine_seq _ 0 None _ _ H). f_equal. apply map_ext. intros j. cbn [fst snd]. now destruct (nth j r None).
Qed.
Lemma votes_sum cl ncl k aw r : length aw = length r -> qsum (map (vote_weight cl ncl k) (combine aw r)) == vote_sum (fun j => nth j aw 0) cl ncl r k.
Proof.
  intros H. unfold vote_sum. rewrite (map_combine_seq _ 0 None _ _ H). unfold vote_weight. cbn [fst snd]. apply qsum_map_ext. intros j _.
  destruct (nth j r None) as [l|]; [destruct (Nat.eqb l k)|]; reflexivity.
Qed.

Lemma facts_ok fsqrt t M K priors info : annotations M K t -> has_overlap t -> (2 <= K)%nat -> (forall p, In p priors -> distributions (length t) K p) ->
  good_info t M K (length priors) info -> consensus_stats fsqrt t M K priors (c_label info) = Ok info -> crowdlab_facts fsqrt t M K priors info.
Proof.
  intros HA HO HK HD G E. apply stats_crowdlab in E. destruct G as (GL & _ & _ & _ & _ & _ & _ & GM & _ & GA & _ & GQ).
  destruct (mlce_facts t M K HA HO (c_label info) GL) as (m & e0 & Hm & He & Em); [lia|].
  destruct (agreement_with_annotators t M) as [agr|] eqn:EA; [|unfold crowdlab in E; rewrite EA in E; discriminate].
  destruct (rates_ok _ _ _ EA) as (La & Hr). pose proof (crowdlab_eq _ _ _ _ _ _ _ E) as PR. unfold crowdlab in E. rewrite EA, Em in E. injection E as E.
  exists (fun j => nth j agr 0), (consensus_likelihood t (c_label info)), m, e0, (qmean (map (fun r => Qnat (num_annotations r)) t)).
  assert (Haw : annot_weights (c_post info) = adjusted_agreement (qmax e0 (1 # 1000000)) agr) by (rewrite <- E; reflexivity).
  assert (Hmw : model_weights (c_post info) = map (model_weight fsqrt t (c_label info) (qmax e0 (1 # 1000000))) priors) by (rewrite <- E; reflexivity).
  split; [exact Hr|]. split; [apply (cl_rate t M K); auto|]. split; [exact Hm|]. split; [exact He|]. split; [|split; [exact GA|split; [|split; [exact GM|split; [|split]]]]].
  - unfold labels_per_example. erewrite map_ext; [|intros r; rewrite labels_length; reflexivity]. apply qmean_average. destruct HO as (r & _ & _ & Hr0 & _). destruct t; [destruct Hr0|discriminate].
  - intros j Hj. rewrite Haw. unfold adjusted_agreement. rewrite (nth_map_gen _ _ _ _ 0) by lia. reflexivity.
  - intros a Ha. rewrite Hmw. rewrite (nth_map_gen _ _ _ _ []) by auto. eexists. split; [apply (model_error t M K); auto; apply HD, nth_In; auto|]. reflexivity.
  - intros i k Hi Hk. rewrite PR by auto. unfold posterior_row. rewrite nth_tab by auto.
    assert (Lr : length (annot_weights (c_post info)) = length (nth i t [])) by (rewrite GA; symmetry; apply (an_width _ _ _ HA), nth_In; auto).
    rewrite votes_sum, weight_sum by exact Lr. rewrite (map_combine_seq _ 0 []) by (rewrite map_length; lia). rewrite map_length.
    apply Qdiv_comp; [|reflexivity]. apply Qplus_comp; [|reflexivity]. apply qsum_map_ext. intros a Ha. apply in_seq in Ha. cbn [fst snd]. rewrite (nth_map_gen _ _ _ _ []) by lia. reflexivity.
  - intros i Hi. rewrite GQ by auto. reflexivity.
Qed.

Lemma pipeline_facts fsqrt rnd t M K priors vp method info :
  (forall r, In r t -> length r = M) -> (2 <= K)%nat -> priors <> [] ->
  (forall p, In p priors -> distributions (length t) K p) -> (forall x, 0 < x -> 0 < fsqrt x) ->
  label_quality_core fsqrt rnd t M K priors vp method = Ok info -> crowdlab_facts fsqrt t M K priors info.
Proof.
  intros W HK Hn HD Hf H. destruct (label_quality_inv _ _ _ _ _ _ _ _ _ W HK Hn HD Hf H) as (HA & HO & G & _ & _ & _ & _ & _ & E). now apply facts_ok.
Qed.

(** ** the quality of an annotator *)
Lemma flat_combine {A B C} (f : A * B -> list C) (da : A) (db : B) la lb : length lb = length la ->
  flat_map f (combine la lb) = flat_map (fun i => f (nth i la da, nth i lb db)) (seq 0 (length la)).
Proof.
  revert lb. induction la as [|x la IH]; intros [|y lb] H; try discriminate; [reflexivity|]. cbn [combine flat_map length seq nth]. f_equal.
  rewrite (IH lb) by now injection H. rewrite <- seq_shift, flat_map_concat_map, flat_map_concat_map, map_map. reflexivity.
Qed.
Lemma select_combine {A B} m : forall (la : list A) (lb : list B), length la = length m -> length lb = length m ->
  combine (select m la) (select m lb) = select m (combine la lb).
Proof.
  induction m as [|b m IH]; intros [|x la] [|y lb] Ha Hb; try discriminate; [reflexivity|]. unfold select in *. cbn [combine filter map fst snd]. cbn [fst].
  destruct b; cbn [filter map fst snd combine]; [f_equal|]; (apply IH; cbn [length] in *; lia).
Qed.
Lemma own_agreements_eq t M K c j : annotations M K t -> length c = length t ->
  map agrees (labelled_by j (select (multi t) t) (select (multi t) c)) = own_agreements t c j.
Proof.
  intros HA HL. assert (Lm : length (multi t) = length t) by apply map_length. unfold labelled_by, own_agreements. rewrite select_combine by lia.
  rewrite (overlap_select t M K HA ([], 0%nat)) by (rewrite combine_length; lia).
  rewrite (flat_map_concat_map _ (map _ _)), map_map, concat_map, map_map, flat_map_concat_map. f_equal. apply map_ext_in. intros i Hi. apply overlap_in in Hi. rewrite combine_nth by lia. cbn [fst snd].
  destruct (nth j (nth i t []) None); reflexivity.
Qed.
Lemma own_posteriors_eq t pp j : length pp = length t ->
  flat_map (fun rp : list (option nat) * list Q => match nth j (fst rp) None with Some l => [nth l (snd rp) 0] | None => [] end) (combine t pp) = own_posteriors t pp j.
Proof. intros H. now rewrite (flat_combine _ [] []). Qed.
Lemma posteriors_ne t M K c pp j : annotations M K t -> own_agreements t c j <> [] -> own_posteriors t pp j <> [].
Proof.
  intros HA H. unfold own_agreements in H. destruct (flat_map _ (overlap t)) as [|x l] eqn:E; [congruence|]. assert (I : In x (x :: l)) by (left; auto). rewrite <- E in I.
  apply in_flat_map in I as (i & Hi & Hx). apply overlap_in in Hi. intros Z.
  assert (I : forall y, ~ In y (own_posteriors t pp j)) by (intros y; rewrite Z; auto). destruct (nth j (nth i t []) None) as [k|] eqn:Ek; [|destruct Hx].
  apply (I (nth k (nth i pp []) 0)). apply in_flat_map. exists i. split; [apply in_seq; lia|]. rewrite Ek. left; auto.
Qed.
Lemma annotator_ok t M K nm info j : annotations M K t -> has_overlap t -> good_info t M K nm info -> annotator_facts t info j.
Proof.
  intros HA HO (GL & _ & _ & _ & _ & _ & (GD & _) & _). unfold annotator_facts, annotator_stats. cbn [st_quality]. unfold annotator_quality, annotator_agreement.
  rewrite (own_agreements_eq t M K) by auto. rewrite own_posteriors_eq by auto.
  destruct (own_agreements t (c_label info) j) as [|x l] eqn:E; cbn [mean_opt].
  - destruct (mean_opt _); exact eq_refl.
  - assert (N : own_posteriors t (post (c_post info)) j <> []) by (apply (posteriors_ne t M K (c_label info)); auto; rewrite E; discriminate).
    destruct (own_posteriors t (post (c_post info)) j) as [|y l'] eqn:E'; [congruence|]. cbn [mean_opt].
    exists (qmean (y :: l')), (qmean (x :: l)), (qmean (map (fun r => Qnat (num_annotations r)) t)).
    split; [apply qmean_average; discriminate|]. split; [apply qmean_average; discriminate|]. split; [|reflexivity].
    unfold labels_per_example. erewrite map_ext; [|intros r; rewrite labels_length; reflexivity]. apply qmean_average. destruct HO as (r & _ & _ & Hr0 & _). destruct t; [destruct Hr0|discriminate].
Qed.
Lemma pipeline_annotator fsqrt rnd t M K priors vp method info j :
  (forall r, In r t -> length r = M) -> (2 <= K)%nat -> priors <> [] ->
  (forall p, In p priors -> distributions (length t) K p) -> (forall x, 0 < x -> 0 < fsqrt x) ->
  label_quality_core fsqrt rnd t M K priors vp method = Ok info -> annotator_facts t info j.
Proof.
  intros W HK Hn HD Hf H. destruct (label_quality_inv _ _ _ _ _ _ _ _ _ W HK Hn HD Hf H) as (HA & HO & G & _). eapply annotator_ok; eauto.
Qed.

(** ** active learning *)
Lemma active_sums t M K unl q mw aw : (forall r, In r t -> length r = M) -> length aw = M -> aw <> [] -> length q = length t ->
  active_facts t K unl q mw aw (map (fun qr => active_score K aw mw (qmean aw) (fst qr) (snd qr)) (combine q t)) (map (active_score_unlabeled K mw (qmean aw)) unl).
Proof.
  intros W LA Hn LQ. exists (qmean aw). split; [now apply qmean_average|]. split; [rewrite map_length, combine_length; lia|]. split; [apply map_length|]. split.
  - intros i Hi w. rewrite (nth_map_gen _ _ _ _ (0, [])) by (rewrite combine_length; lia). rewrite combine_nth by auto. cbn [fst snd].
    rewrite active_formula. rewrite weight_sum by (rewrite LA; symmetry; apply W, nth_In; auto). apply Qdiv_comp; [unfold w; ring|reflexivity].
  - intros i Hi. rewrite (nth_map_gen _ _ _ _ []) by auto. rewrite unlabeled_formula. unfold blend. apply Qdiv_comp; [ring|reflexivity].
Qed.
Lemma active_all fsqrt rnd t M K prior unl s u :
  (forall r, In r t -> length r = M) -> (2 <= K)%nat -> distributions (length t) K prior -> (forall x, 0 < x -> 0 < fsqrt x) ->
  get_active_learning_scores fsqrt rnd t M K prior unl = Ok (s, u) ->
  (exists info, get_label_quality_multiannotator fsqrt rnd t M K prior BestQuality = Ok info /\
     active_facts t K unl (c_quality info) (qsum (model_weights (c_post info))) (annot_weights (c_post info)) s u) \/
  ((forall r, In r t -> length (labels_of r) = 1%nat) /\ exists q, length q = length t /\
     (forall i k, (i < length t)%nat -> In (Some k) (nth i t []) -> nth i q 0 = nth k (nth i prior []) 0) /\ active_facts t K unl q 1 (repeat 1 M) s u).
Proof.
  intros W HK HD Hf H. pose proof (active_inv _ _ _ _ _ _ _ _ _ W HK HD Hf H) as (q & mw & aw & HQ & LQ & _ & _ & LA & _ & Ha & Es & Eu).
  assert (HM : (1 <= M)%nat).
  { rewrite <- LA. destruct aw; [|cbn; lia]. exfalso. unfold qmean in Ha. cbn in Ha. discriminate Ha. }
  unfold get_active_learning_scores in H. destruct (forallb (fun r => Nat.eqb (num_annotations r) 1) t) eqn:EF.
  - right. rewrite forallb_forall in EF. assert (H1 : forall r, In r t -> num_annotations r = 1%nat) by (intros r Hr; apply Nat.eqb_eq; auto).
    split; [intros r Hr; rewrite labels_length; auto|].
    destruct (assert_valid_multiannotator _ _ _ _) as [[]|] eqn:EV; cbn [rbind] in H; [|discriminate].
    destruct (get_majority_vote_label rnd t M (Some prior) K false) as [c|] eqn:EC; cbn [rbind] in H; [|discriminate].
    assert (S1 : forall r, In r t -> exists k, In (Some k) r).
    { intros r Hr. specialize (H1 r Hr). rewrite num_given in H1. destruct (given r) as [|k l] eqn:E; [discriminate|]. exists k. apply in_given. rewrite E. left; auto. }
    destruct (mv_lt _ _ _ _ _ _ EC W S1) as [LC BC].
    assert (Htn : t <> []).
    { unfold assert_valid_multiannotator in EV. intros ->. simpl in EV. destruct (existsb _ (seq 0 M)); discriminate. }
    assert (Hcn : c <> []) by (intros ->; destruct t; [congruence|discriminate]).
    rewrite (valid_scores K) in H; auto; [|rewrite LC; auto]. cbn [rbind] in H. injection H as <- <-.
    destruct HD as [HD1 HD2].
    assert (LS : length (get_self_confidence c prior) = length t) by (unfold get_self_confidence; rewrite map_length, combine_length; lia).
    exists (get_self_confidence c prior). split; [exact LS|]. split.
    + intros i k Hi Hk. unfold get_self_confidence. rewrite (nth_map_gen _ _ _ _ (0%nat, [])) by (rewrite combine_length; lia). rewrite combine_nth by lia. cbn [fst snd].
      destruct (C35_plurality_full rnd t M (Some prior) K false c W S1 EC) as [_ HP]. destruct (HP i Hi) as ((Hv & _) & _). apply votes_in in Hv.
      rewrite (single_plurality (nth i t []) k (nth i c 0%nat)); auto. apply H1, nth_In; auto.
    + apply (active_sums t M); auto; [apply repeat_length|]. destruct M; [lia|discriminate].
  - left. destruct (get_label_quality_multiannotator fsqrt rnd t M K prior BestQuality) as [info|] eqn:EI; cbn [rbind] in H; [|discriminate]. injection H as <- <-.
    exists info. split; [reflexivity|]. pose proof EI as EI'. unfold get_label_quality_multiannotator in EI'. apply label_quality_inv in EI' as (HA & HO & G & _); auto; [|discriminate|intros p [<-|[]]; auto].
    destruct G as (_ & _ & GQ & _ & _ & _ & _ & _ & _ & GA & _). apply (active_sums t M); auto. destruct (annot_weights (c_post info)); [cbn in GA; lia|discriminate].
Qed.
