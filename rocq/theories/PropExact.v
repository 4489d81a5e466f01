(** * C132: exactness of everything built on confident learning *)
From Coq Require Import QArith List Permutation Sorted ZArith Bool Arith Lia Lqa.
From Verif Require Import Base BaseFacts ModelUtil ModelCount ModelRank ModelPool ModelFilter ModelLatent ModelEstimate ModelBatched
     SpecCount SpecFilter SpecRank SpecEstimate SpecBatched SpecIdeal SpecMultilabel ModelSegmentation SpecSegmentation SpecExact
     ModelMultilabel ModelLearn SpecToken ModelToken ProofExact ProofFilter PropCount PropIdeal.
Import ListNotations.
Open Scope Q_scope.

(** Training: [fit] on a new object trains the classifier on exactly the correctly labelled examples, each with its
    true class.  The weights are the inverses of the actual fractions of correctly labelled examples of each true
    class (at most 1000), unless the noise is extreme. *)
Theorem C132_training : forall A srt minv js cfg (d : A) X ds kw qk w s' tr df K labels tl pp,
  argsort_ok srt -> SpecCount.dataset K labels pp -> two_classes labels ->
  ideal K labels tl pp -> wrong_less_sure labels tl pp -> margins_separate labels tl pp ->
  correct_at_least (match kw_min kw with Some n => Nat.max 1 n | None => 10 end) labels tl ->
  ds_labels ds = labels -> match ds_pred_probs ds with Some given => Ok given | None => ds_cv ds end = Ok pp ->
  length X = length labels -> pulearning cfg = None -> low_memory cfg = false ->
  kw_cj kw = None -> kw_ntr kw = None -> kw_frac kw == 1 ->
  fit srt minv js cfg d X Arr ds None None None None w (new_object kw qk) = (s', Ok (tr, df)) ->
  (exists m, d_issue df = Some (BoolCol m) /\ length m = length labels /\ forall e, flagged m e <-> wrong labels tl e) /\
  tr_X tr = map (fun e => nth e X d) (correct_examples labels tl) /\
  tr_labels tr = map (fun e => nth e tl 0%nat) (correct_examples labels tl) /\
  (moderate_noise K (length labels) (tally K labels tl) ->
   w_final w = None -> w_given w = None -> w_supported w = true ->
   exists ws, tr_weights tr = Some (map ws (correct_examples labels tl)) /\
     forall e, In e (correct_examples labels tl) ->
       let l := nth e labels 0%nat in
       ws e == / qmax (Qnat (n_pair l l labels tl) / true_total K (tally K labels tl) l) (1 # 1000)).
Proof. exact C132_learn_full. Qed.
Print Assumptions C132_training.

(** the same with low_memory *)
Theorem C132_training_low_memory : forall A srt minv js cfg (d : A) X ds kw qk w s' tr df K labels tl pp,
  argsort_ok srt -> SpecCount.dataset K labels pp -> two_classes labels -> own_prob_floor labels pp ->
  ideal K labels tl pp -> wrong_less_sure labels tl pp ->
  ds_labels ds = labels -> match ds_pred_probs ds with Some given => Ok given | None => ds_cv ds end = Ok pp ->
  length X = length labels -> low_memory cfg = true ->
  fit srt minv js cfg d X Arr ds None None None None w (new_object kw qk) = (s', Ok (tr, df)) ->
  (exists m, d_issue df = Some (BoolCol m) /\ length m = length labels /\ forall e, flagged m e <-> wrong labels tl e) /\
  tr_X tr = map (fun e => nth e X d) (correct_examples labels tl) /\
  tr_labels tr = map (fun e => nth e tl 0%nat) (correct_examples labels tl).
Proof. exact C132_learn_low_full. Qed.
Print Assumptions C132_training_low_memory.

(** The batched search, for any batch size, number of workers and schedule. *)
Theorem C132_batched : forall srt K labels tl pp batch_size method js m, argsort_ok srt -> SpecCount.dataset K labels pp -> two_classes labels ->
  own_prob_floor labels pp -> ideal K labels tl pp ->
  method = NormalizedMargin \/ (method = SelfConfidence /\ wrong_less_sure labels tl pp) ->
  find_label_issues_batched srt labels pp K batch_size method false false js = Ok m ->
  length m = length labels /\ forall e, flagged m e <-> wrong labels tl e.
Proof. exact C132_batched_full. Qed.
Print Assumptions C132_batched.

(** Texts: the issues are exactly the tokens whose given class is not the true one, lowest scores first. *)
Theorem C132_tokens : forall srt K labels tl pps rank_by flt o, argsort_ok srt ->
  SpecCount.dataset K (concat labels) (concat pps) -> two_classes (concat labels) ->
  map (@length nat) tl = map (@length nat) labels -> ideal K (concat labels) (concat tl) (concat pps) ->
  num_to_remove_per_class o = None -> (1 <= n_jobs o)%nat -> flt = ConfidentLearning \/ flt = PredictedNeqGiven ->
  let lens := map (@length nat) labels in
  exists issues token_scores,
    token_find_label_issues srt labels pps K rank_by None flt o = Ok issues /\
    get_label_quality_scores (concat labels) (concat pps) K rank_by false = Ok token_scores /\
    NoDup issues /\
    (forall ij, In ij issues <-> in_text lens ij /\ entry 0%nat labels ij <> entry 0%nat tl ij) /\
    StronglySorted (fun a b => nth (position lens a) token_scores 0 <= nth (position lens b) token_scores 0) issues.
Proof. exact C132_tokens_full. Qed.
Print Assumptions C132_tokens.
Theorem C132_tokens_any_filter : forall srt K labels tl pps rank_by flt o m, argsort_ok srt ->
  SpecCount.dataset K (concat labels) (concat pps) -> two_classes (concat labels) ->
  map (@length nat) tl = map (@length nat) labels -> ideal K (concat labels) (concat tl) (concat pps) ->
  wrong_less_sure (concat labels) (concat tl) (concat pps) -> margins_separate (concat labels) (concat tl) (concat pps) ->
  num_to_remove_per_class o = None -> frac_noise o == 1 -> confident_joint o = None ->
  correct_at_least (Nat.max 1 (min_examples_per_class o)) (concat labels) (concat tl) ->
  ModelFilter.find_label_issues srt (concat labels) (concat pps) K flt o = Ok m ->
  exists issues, token_find_label_issues srt labels pps K rank_by None flt o = Ok issues /\ NoDup issues /\
    forall ij, In ij issues <-> in_text (map (@length nat) labels) ij /\ entry 0%nat labels ij <> entry 0%nat tl ij.
Proof. exact C132_tokens_any_full. Qed.
Print Assumptions C132_tokens_any_filter.

(** Images (without downsampling): the issues are exactly the pixels whose given class is not the true one. *)
Theorem C132_pixels : forall srt labels tl pp batch_size js issues, argsort_ok srt ->
  same_shape labels tl -> SpecCount.dataset (tK pp) (all_labels labels) (all_rows pp) -> two_classes (all_labels labels) ->
  own_prob_floor (all_labels labels) (all_rows pp) ->
  ideal (tK pp) (all_labels labels) (all_labels tl) (all_rows pp) ->
  wrong_less_sure (all_labels labels) (all_labels tl) (all_rows pp) ->
  seg_find_label_issues srt labels pp batch_size js 1 = Ok issues ->
  same_shape (A := bool) issues {| sN := sN labels; sH := sH labels; sW := sW labels; at3 := fun _ _ _ => false |} /\
  forall n i j, in_image labels n i j -> (at3 issues n i j = true <-> wrong_pixel labels tl n i j).
Proof. exact C132_pixels_full. Qed.
Print Assumptions C132_pixels.

(** Multi-label data: per class, exactly the examples on which the class is wrongly given or wrongly missing are
    flagged; an example is an issue iff this holds for some class. *)
Theorem C132_multilabel : forall srt labels tl pp K o flt, argsort_ok srt -> ml_dataset K labels pp ->
  (forall c, (c < K)%nat -> mixed labels c) -> ml_ideal K labels tl pp ->
  ml_num_to_remove o = None -> (1 <= ml_n_jobs o)%nat ->
  flt = ConfidentLearning \/ flt = PredictedNeqGiven ->
  exists cols m, issues_per_class srt labels pp K flt o None = Ok cols /\ length cols = K /\
    (forall c, (c < K)%nat -> forall e, flagged (nth c cols []) e <-> (e < length labels)%nat /\ misannotated labels tl e c) /\
    ml_find_label_issues srt labels pp K flt o None = Ok m /\ length m = length labels /\
    forall e, flagged m e <-> (e < length labels)%nat /\ exists c, (c < K)%nat /\ misannotated labels tl e c.
Proof. exact C132_multilabel_full. Qed.
Print Assumptions C132_multilabel.
(** for example when each class gets one probability above one half where it applies and one below where not *)
Theorem C132_multilabel_uniform : forall K labels tl pp a b, ml_dataset K labels pp -> length tl = length labels ->
  (forall c, (c < K)%nat -> mixed labels c) -> ml_uniform K tl pp a b ->
  (forall c, (c < K)%nat -> b c + (1 # 2000000) < 1 # 2 /\ (1 # 2) + (1 # 2000000) < a c) -> ml_ideal K labels tl pp.
Proof. exact C132_uniform_full. Qed.
Print Assumptions C132_multilabel_uniform.

(** ** examples *)
Definition pp132 : list (list Q) := map (fun y => tab 3 (fun k => if Nat.eqb k y then 8 # 10 else 1 # 10)) t131.
Lemma D132 : SpecCount.dataset 3 y131 pp132.
Proof. apply dataset_b_ok; vm_compute; reflexivity. Qed.
Lemma U132 : ideal 3 y131 t131 pp132 /\ wrong_less_sure y131 t131 pp132 /\ margins_separate y131 t131 pp132.
Proof.
  apply (C131_uniform 3 y131 t131 pp132 (8 # 10) (1 # 10) D132 eq_refl t131_in); [|reflexivity].
  intros e k He Hk. unfold pp132, prob_of. rewrite (nth_map_gen _ t131 e [] 0%nat) by exact He.
  rewrite nth_tab by exact Hk. reflexivity.
Qed.
Lemma F132 : own_prob_floor y131 pp132.
Proof. intros e He. cbn in He. do 10 (destruct e as [|e]; [decided|]). lia. Qed.
Definition ds132 : ModelLearn.dataset := {| ds_labels := y131; ds_pred_probs := Some pp132; ds_cv := Raise OtherError |}.
Definition kw132 := {| kw_filter := None; kw_cj := None; kw_min := Some 1%nat; kw_frac := 1;
  kw_ntr := None; kw_jobs := 1; kw_sched_c := []; kw_sched_n := []; kw_unsupported := false |}.
Definition cfg132 low := {| low_memory := low; cv_n_folds := 5; pulearning := None; converge_latent_estimates := false |}.
Definition w132 := {| w_given := None; w_in_clf_kwargs := false; w_final := None; w_supported := true |}.
(** ten examples, features 20..29; three labels are wrong; one third of the examples of each of the true classes 0 and
    1 is labelled wrongly, one quarter of class 2 *)
Example C132_training_example : exists s' tr df,
  fit argsort_ins (fun m => Ok m) (fun _ => Serial) (cfg132 false) 0%nat [20;21;22;23;24;25;26;27;28;29]%nat Arr ds132
    None None None None w132 (new_object kw132 (SelfConfidence, false)) = (s', Ok (tr, df)) /\
  tr_X tr = [20;21;23;24;26;27;28]%nat /\ tr_labels tr = [0;0;1;1;2;2;2]%nat /\
  option_map (map Qred) (tr_weights tr) = Some [3 # 2; 3 # 2; 3 # 2; 3 # 2; 4 # 3; 4 # 3; 4 # 3] /\
  correct_examples y131 t131 = [0;1;3;4;6;7;8]%nat.
Proof. do 3 eexists. split; [vm_compute; reflexivity|]. repeat split; vm_compute; reflexivity. Qed.
Example C132_low_memory_example : exists s' tr df,
  fit argsort_ins (fun m => Ok m) (fun _ => Serial) (cfg132 true) 0%nat [20;21;22;23;24;25;26;27;28;29]%nat Arr ds132
    None None None None w132 (new_object kw132 (SelfConfidence, false)) = (s', Ok (tr, df)) /\
  tr_X tr = [20;21;23;24;26;27;28]%nat.
Proof. do 3 eexists. split; vm_compute; reflexivity. Qed.
Example C132_batched_example :
  find_label_issues_batched argsort_ins y131 pp132 3 4 NormalizedMargin false false (fun _ => Serial) = Ok (mask_of 10 [2; 5; 9]%nat).
Proof. vm_compute. reflexivity. Qed.
(** the same ten examples as two sentences, and as one image of two rows *)
Definition cut {A} (l : list A) : list (list A) := [firstn 4 l; skipn 4 l].
Example C132_tokens_example : exists issues,
  token_find_label_issues argsort_ins (cut y131) (cut pp132) 3 SelfConfidence None ConfidentLearning opts131 = Ok issues /\
  Permutation issues [(0, 2); (1, 1); (1, 5)]%nat /\
  concat (cut y131) = y131 /\ concat (cut pp132) = pp132 /\ concat (cut t131) = t131.
Proof. eexists. split; [vm_compute; reflexivity|]. split; [apply Permutation_refl|]. repeat split. Qed.
Definition image132 (l : list nat) : arr3 nat := {| sN := 1; sH := 2; sW := 5; at3 := fun _ i j => nth (i * 5 + j) l 0%nat |}.
Definition probs132 : arr4 := {| tN := 1; tK := 3; tH := 2; tW := 5; at4 := fun _ k i j => nth k (nth (i * 5 + j) pp132 []) 0 |}.
Example C132_pixels_example :
  all_labels (image132 y131) = y131 /\ all_labels (image132 t131) = t131 /\ all_rows probs132 = pp132 /\
  exists issues, seg_find_label_issues argsort_ins (image132 y131) probs132 None (fun _ => Serial) 1 = Ok issues /\
    map (fun i => map (at3 issues 0 i) (seq 0 5)) (seq 0 2) =
    [[false; false; true; false; false]; [true; false; false; false; true]].
Proof. do 3 (split; [vm_compute; reflexivity|]). eexists. split; [vm_compute; reflexivity|]. vm_compute. reflexivity. Qed.
(** six examples, two classes; class 0 is missing on example 1, class 1 is wrongly given to example 4 *)
Definition mlt132 : list (list nat) := [[0]; [0; 1]; [1]; [0]; []; [0; 1]]%nat.
Definition mly132 : list (list nat) := [[0]; [1]; [1]; [0]; [1]; [0; 1]]%nat.
Definition mlp132 : list (list Q) := map (fun l => tab 2 (fun c => if mem c l then 9 # 10 else 2 # 10)) mlt132.
Definition mlo132 : ml_options := {| ml_frac_noise := 1; ml_num_to_remove := None; ml_min_examples := 1;
  ml_confident_joint := None; ml_n_jobs := 1; ml_sched := fun _ => ([], []) |}.
Example C132_multilabel_example :
  issues_per_class argsort_ins mly132 mlp132 2 ConfidentLearning mlo132 None =
    Ok [mask_of 6 [1]%nat; mask_of 6 [4]%nat] /\
  ml_find_label_issues argsort_ins mly132 mlp132 2 ConfidentLearning mlo132 None = Ok (mask_of 6 [1; 4]%nat).
Proof. split; vm_compute; reflexivity. Qed.
Example C132_multilabel_hypotheses : ml_dataset 2 mly132 mlp132 /\ (forall c, (c < 2)%nat -> mixed mly132 c) /\
  ml_uniform 2 mlt132 mlp132 (fun _ => 9 # 10) (fun _ => 2 # 10).
Proof.
  split; [|split].
  - split; [reflexivity|discriminate| | |].
    + intros l k Hl Hk. cbn in Hl. repeat (destruct Hl as [<-|Hl]; [cbn in Hk; intuition lia|]). destruct Hl.
    + intros r Hr. apply in_map_iff in Hr as (l & <- & _). apply tab_length.
    + intros r x Hr Hx. apply in_map_iff in Hr as (l & <- & _). apply in_tab in Hx as (c & _ & ->).
      destruct (mem c l); split; decided.
  - intros c Hc. destruct c as [|[|c]]; [| |lia]; (split; [exists 5%nat|first [exists 2%nat; split; [cbn; lia|unfold has_class; cbn; intuition lia]|exists 0%nat]]);
      try (split; [cbn; lia|]); unfold has_class; cbn; intuition lia.
  - intros e c He Hc. unfold mlp132, prob_of. rewrite (nth_map_gen _ mlt132 e [] [] He), nth_tab by exact Hc.
    pose proof (mem_iff c (nth e mlt132 [])) as M. unfold has_class. split; intro H.
    + apply M in H. rewrite H. reflexivity.
    + destruct (mem c (nth e mlt132 [])); [|reflexivity]. exfalso. apply H, M. reflexivity.
Qed.
