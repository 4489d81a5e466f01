(** * Token classification: C30, C31, C54, C59, C60 *)
From Coq Require Import String QArith Reals List ZArith Bool Arith Sorted Lra Lia.
From Coq Require Lqa.
From Verif Require Import Base BaseFacts ModelUtil ModelCount ModelRank ModelFilter ModelBatched ModelEntropy
     ModelOutlier ModelToken SpecCount SpecFilter SpecOutlier SpecToken ProofCount ProofFilter ProofToken.
Import ListNotations.
Open Scope Q_scope.

(** ** C30 *)
(** whatever the flat finder returns is translated position by position *)
Theorem C30_positions : forall main labels pps idx,
  main (concat labels) (concat pps) = Ok idx -> (forall p, In p idx -> (p < length (concat labels))%nat) ->
  exists issues, token_issues main labels pps = Ok issues /\
    Forall2 (fun p ij => in_text (map (@length nat) labels) ij /\ position (map (@length nat) labels) ij = p) idx issues /\
    (forall ij, In ij issues <->
       in_text (map (@length nat) labels) ij /\ In (position (map (@length nat) labels) ij) idx) /\
    (NoDup idx -> NoDup issues).
Proof. exact C30_map_full. Qed.
Print Assumptions C30_positions.

(** the flat array has at [position] what the nested list has at (sentence, token), and each flat position
    belongs to exactly one pair *)
Theorem C30_position_content : forall {A} (d : A) x,
  (forall ij, in_text (map (@length A) x) ij ->
     (position (map (@length A) x) ij < length (concat x))%nat /\
     nth (position (map (@length A) x) ij) (concat x) d = entry d x ij) /\
  (forall p, (p < length (concat x))%nat ->
     exists ij, in_text (map (@length A) x) ij /\ position (map (@length A) x) ij = p /\
       forall ij', in_text (map (@length A) x) ij' -> position (map (@length A) x) ij' = p -> ij' = ij).
Proof.
  exact (fun A d x => conj
    (fun ij H => conj (eq_ind_r (fun n => (position (map (@length A) x) ij < n)%nat) (position_lt _ _ H) (concat_length x))
                      (concat_entry d x ij H))
    (fun p Hp => match locate _ p (eq_ind _ (fun n => (p < n)%nat) Hp _ (concat_length x)) with
       | ex_intro _ ij (conj H1 H2) => ex_intro _ ij (conj H1 (conj H2
           (fun ij' H' E => position_inj _ ij' ij H' H1 (eq_trans E (eq_sym H2)))))
       end)).
Qed.
Print Assumptions C30_position_content.

Theorem C30_find_label_issues : forall srt K labels pps rank_by flt o m, argsort_ok srt ->
  dataset K (concat labels) (concat pps) -> two_classes (concat labels) ->
  find_label_issues srt (concat labels) (concat pps) K flt o = Ok m ->
  let lens := map (@length nat) labels in
  exists issues token_scores,
    token_find_label_issues srt labels pps K rank_by None flt o = Ok issues /\
    get_label_quality_scores (concat labels) (concat pps) K rank_by false = Ok token_scores /\
    NoDup issues /\
    (forall ij, In ij issues <-> in_text lens ij /\ flagged m (position lens ij)) /\
    StronglySorted (fun a b => nth (position lens a) token_scores 0 <= nth (position lens b) token_scores 0) issues.
Proof. exact C30_find_full. Qed.
Print Assumptions C30_find_label_issues.

Theorem C30_low_memory : forall srt K labels pps rank_by js flt o m,
  find_label_issues_batched srt (concat labels) (concat pps) K (2 * 5000)%nat rank_by false false js = Ok m ->
  let lens := map (@length nat) labels in
  exists issues,
    token_find_label_issues srt labels pps K rank_by (Some js) flt o = Ok issues /\
    NoDup issues /\
    (forall ij, In ij issues <-> in_text lens ij /\ flagged m (position lens ij)) /\
    StronglySorted (fun a b => (position lens a < position lens b)%nat) issues.
Proof. exact C30_low_memory_full. Qed.
Print Assumptions C30_low_memory.

Theorem C30_scores : forall K labels pps method,
  dataset K (concat labels) (concat pps) -> (2 <= K)%nat -> (forall s, In s labels -> s <> []) ->
  let lens := map (@length nat) labels in
  exists sentence_scores token_scores flat,
    token_get_label_quality_scores labels pps K method = Ok (sentence_scores, token_scores) /\
    get_label_quality_scores (concat labels) (concat pps) K method false = Ok flat /\
    map (@length Q) token_scores = lens /\ length sentence_scores = length labels /\
    (forall ij, in_text lens ij -> entry 0 token_scores ij = nth (position lens ij) flat 0) /\
    (forall i, (i < length labels)%nat ->
       In (nth i sentence_scores 0) (nth i token_scores []) /\
       forall s, In s (nth i token_scores []) -> nth i sentence_scores 0 <= s) /\
    (method = SelfConfidence -> map (@length (list Q)) pps = lens -> forall ij, in_text lens ij ->
       entry 0 token_scores ij = nth (entry 0%nat labels ij) (entry [] pps ij) 0).
Proof. exact C30_scores_full. Qed.
Print Assumptions C30_scores.

(** an empty sentence in the middle *)
Definition ex30_labels : list (list nat) := [[0; 1]; []; [1; 1; 0]]%nat.
Definition ex30_pps : list (list (list Q)) :=
  [[[9#10; 1#10]; [8#10; 2#10]]; []; [[1#10; 9#10]; [9#10; 1#10]; [95#100; 5#100]]].
Definition ex30_options : options :=
  {| frac_noise := 1; num_to_remove_per_class := None; min_examples_per_class := 1; confident_joint := None;
     n_jobs := 1; sched_c := []; sched_n := [] |}.
Example C30_example_dataset : dataset 2 (concat ex30_labels) (concat ex30_pps) /\ two_classes (concat ex30_labels).
Proof. split; [apply dataset_b_ok; vm_compute; reflexivity|]. exists 0%nat, 1%nat. simpl. repeat split; auto 10. Qed.
Example C30_example :
  token_find_label_issues argsort_ins ex30_labels ex30_pps 2 SelfConfidence None PredictedNeqGiven ex30_options
  = Ok [(2, 1); (0, 1)]%nat /\
  find_label_issues argsort_ins (concat ex30_labels) (concat ex30_pps) 2 PredictedNeqGiven ex30_options
  = Ok [false; true; false; true; false].
Proof. split; vm_compute; reflexivity. Qed.
Example C30_example_low_memory :
  token_find_label_issues argsort_ins [[0; 1]; []; [1; 0; 1]]%nat
    [[[9#10; 1#10]; [1#10; 9#10]]; []; [[95#100; 5#100]; [9#10; 1#10]; [2#10; 8#10]]]
    2 SelfConfidence (Some (fun _ => Serial)) Both ex30_options = Ok [(2, 0)]%nat.
Proof. vm_compute; reflexivity. Qed.
Example C30_example_scores : exists s t,
  token_get_label_quality_scores [[0; 1]; [1; 1; 0]]%nat
    [[[9#10; 1#10]; [8#10; 2#10]]; [[1#10; 9#10]; [9#10; 1#10]; [95#100; 5#100]]] 2 SelfConfidence = Ok (s, t) /\
  s = [2#10; 1#10] /\ t = [[9#10; 2#10]; [9#10; 1#10; 95#100]].
Proof. do 2 eexists. split; [vm_compute; reflexivity|]. split; reflexivity. Qed.

(** ** C31 *)
Theorem C31_tokens : forall srt sentence_scores token_scores threshold, argsort_ok srt -> token_scores <> [] ->
  exists issues, token_issues_from_scores srt sentence_scores token_scores threshold = Ok (TokenIssues issues) /\
    NoDup issues /\
    (forall ij, In ij issues <-> in_text (map (@length Q) token_scores) ij /\ entry 0 token_scores ij < threshold) /\
    StronglySorted (fun a b => entry 0 token_scores a <= entry 0 token_scores b) issues.
Proof. exact C31_tokens_full. Qed.
Print Assumptions C31_tokens.

(** sentence scores only: missing when every sentence is below the threshold, see [C31_all_below_refuted] *)
Theorem C31_sentences_partial : forall srt scores threshold, argsort_ok srt ->
  (exists i, (i < length scores)%nat /\ threshold <= nth i scores 0) ->
  exists issues, token_issues_from_scores srt scores [] threshold = Ok (SentenceIssues issues) /\
    NoDup issues /\
    (forall i, In i issues <-> (i < length scores)%nat /\ nth i scores 0 < threshold) /\
    StronglySorted (fun a b => nth a scores 0 <= nth b scores 0) issues.
Proof. exact C31_sentences_full. Qed.
Print Assumptions C31_sentences_partial.

Theorem C31_all_below_refuted : forall srt scores threshold, argsort_ok srt ->
  (forall i, (i < length scores)%nat -> nth i scores 0 < threshold) ->
  token_issues_from_scores srt scores [] threshold = Raise IndexError.
Proof. exact C31_all_below_full. Qed.
Print Assumptions C31_all_below_refuted.

Example C31_example :
  token_issues_from_scores argsort_ins [] [[9#10; 5#100]; []; [2#100; 3#10; 5#100]] (1#10)
    = Ok (TokenIssues [(2, 0); (0, 1); (2, 2)]%nat) /\
  token_issues_from_scores argsort_ins [3#10; 2#100; 1#10; 5#100] [] (1#10) = Ok (SentenceIssues [1; 3]%nat) /\
  token_issues_from_scores argsort_ins [2#100; 5#100] [] (1#10) = Raise IndexError.
Proof. repeat split; vm_compute; reflexivity. Qed.

(** ** C54 *)
Theorem C54_merge_probs : forall probs K maps,
  maps <> [] -> (K <= length maps)%nat -> (forall z, In z maps -> (-1 <= z)%Z) ->
  (forall row, In row probs -> length row = K /\ distribution row /\ 0 < kept_mass maps row) ->
  exists merged, merge_probs probs K maps = Ok merged /\ length merged = length probs /\
    forall e, (e < length probs)%nat ->
      distribution (nth e merged []) /\
      (forall c, (exists i, (i < length maps)%nat /\ nth i maps 0%Z = Z.of_nat c) -> (c < length (nth e merged []))%nat) /\
      (forall c, (c < length (nth e merged []))%nat ->
         nth c (nth e merged []) 0 * kept_mass maps (nth e probs []) == merged_mass maps (nth e probs []) c).
Proof. exact C54_merge_full. Qed.
Print Assumptions C54_merge_probs.

Theorem C54_filter_sentence : forall sentences condition, let (kept, mask) := filter_sentence sentences condition in
  length mask = length sentences /\
  (forall i, (i < length sentences)%nat ->
     nth i mask false = (match condition with Some c => c | None => default_condition end) (nth i sentences EmptyString)) /\
  kept = filter (match condition with Some c => c | None => default_condition end) sentences /\
  kept = take_idx EmptyString sentences (where_ mask).
Proof. exact C54_filter_full. Qed.
Print Assumptions C54_filter_sentence.

Example C54_example :
  exists r, merge_probs [[5#10; 3#10; 2#10]; [1#10; 6#10; 3#10]] 3 [0; 1; -1]%Z = Ok r /\
    Forall2 (Forall2 Qeq) r [[5#8; 3#8]; [1#7; 6#7]].
Proof. eexists. split; [vm_compute; reflexivity|]. repeat constructor. Qed.
Example C54_example_no_drop : exists r,
  merge_probs [[5#10; 3#10; 2#10]] 3 [0; 1; 1]%Z = Ok r /\ Forall2 (Forall2 Qeq) r [[1#2; 1#2]].
Proof. eexists. split; [vm_compute; reflexivity|]. repeat constructor. Qed.
Example C54_example_filter :
  filter_sentence ["Hello"; "#tag"; "."; "ok"]%string None = (["Hello"; "ok"]%string, [true; false; false; true]).
Proof. reflexivity. Qed.

(** ** C59 *)
Theorem C59_common_tokens : forall srt issues tokens, argsort_ok srt ->
  (forall ij, In ij issues -> in_text (map (@length string) tokens) ij) ->
  exists rows, common_tokens srt issues tokens = Ok rows /\ NoDup (map fst rows) /\
    (forall w n, In (w, n) rows <->
       (0 < n)%nat /\ n = how_many (fun ij => String.eqb w (entry EmptyString tokens ij)) issues) /\
    StronglySorted (fun a b => (snd b <= snd a)%nat) rows.
Proof. exact C59_tokens_full. Qed.
Print Assumptions C59_common_tokens.

Theorem C59_common_swaps : forall srt issues tokens labels pps exclude n, argsort_ok srt ->
  (exists row rest sents, pps = (row :: rest) :: sents /\ length row = n) ->
  (forall ij, In ij issues -> in_text (map (@length string) tokens) ij /\ in_text (map (@length nat) labels) ij /\
     in_text (map (@length (list Q)) pps) ij /\ (entry 0%nat labels ij < n)%nat /\ length (entry [] pps ij) = n) ->
  exists rows, common_swaps srt issues tokens labels pps exclude = Ok rows /\ NoDup (map fst rows) /\
    (forall w l p k, In (w, l, p, k) rows <->
       (0 < k)%nat /\ ~ In (l, p) exclude /\
       k = how_many (fun ij => String.eqb w (entry EmptyString tokens ij) && Nat.eqb l (entry 0%nat labels ij) &&
                               Nat.eqb p (argmax (entry [] pps ij)))%bool issues) /\
    StronglySorted (fun a b => (snd b <= snd a)%nat) rows.
Proof. exact C59_swaps_full. Qed.
Print Assumptions C59_common_swaps.

Theorem C59_filter_by_token : forall lower token issues tokens,
  (forall ij, In ij issues -> in_text (map (@length string) tokens) ij) ->
  filter_by_token lower token issues tokens =
  Ok (filter (fun ij => String.eqb (lower token) (lower (entry EmptyString tokens ij))) issues).
Proof. exact C59_filter_full. Qed.
Print Assumptions C59_filter_by_token.

Definition ex59_tokens : list (list string) := [["An"; "apple"]; ["apple"; "An"; "apple"]]%string.
Definition ex59_pps : list (list (list Q)) :=
  [[[9#10; 1#10]; [8#10; 2#10]]; [[3#10; 7#10]; [9#10; 1#10]; [6#10; 4#10]]].
Example C59_example :
  common_tokens argsort_ins [(0, 0); (0, 1); (1, 0); (1, 2)]%nat ex59_tokens = Ok [("apple", 3%nat); ("An", 1%nat)]%string /\
  common_swaps argsort_ins [(0, 0); (0, 1); (1, 0); (1, 2)]%nat ex59_tokens [[1; 1]; [0; 0; 1]]%nat ex59_pps [(0, 1)]%nat
    = Ok [("apple", 1, 0, 2); ("An", 1, 0, 1)]%nat%string /\
  filter_by_token (fun s => s) "apple" [(0, 0); (0, 1); (1, 2)]%nat ex59_tokens = Ok [(0, 1); (1, 2)]%nat.
Proof. repeat split; vm_compute; reflexivity. Qed.

(** ** C60 *)
(** between the smallest score and the average score *)
Theorem C60_softmin : forall eps t scores, (0 < eps)%R -> scores <> [] ->
  exists v, softmin_sentence eps t scores = Ok v /\
    (forall lo, (forall s, In s scores -> (lo <= s)%R) -> (lo <= v)%R) /\
    (v * INR (length scores) <= rsum scores)%R.
Proof. exact C60_softmin_full. Qed.
Print Assumptions C60_softmin.
Example C60_example : exists v, softmin_sentence (/ 1000000) (/ 20) [/ 2; 1]%R = Ok v /\ (/ 2 <= v)%R.
Proof.
  destruct (C60_softmin (/ 1000000) (/ 20) [/ 2; 1]%R) as (v & E & H & _); [lra|discriminate|].
  exists v. split; auto. apply H. intros s [<-|[<-|[]]]; lra.
Qed.
