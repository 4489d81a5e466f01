(** * Properties of multi-annotator consensus (C35-C37, C67-C70) *)
From Coq Require Import QArith List Bool Arith Permutation Lia Lqa.
From Verif Require Import Base SpecCount ModelMultiannotator SpecMultiannotator ProofMultiannotator.
Import ListNotations.
Open Scope Q_scope.

(** ** C35 majority vote *)

(** Whatever the random choices, the vote of an example is one of its most frequent labels; among those it
    has the largest predicted probability; among those it is the rarest in the data set; among those its
    supporters are the most reliable. *)
Theorem C35_majority_vote rnd t M pp Kpp verbose mv :
  (forall r, In r t -> length r = M) -> (forall r, In r t -> exists k, In (Some k) r) ->
  get_majority_vote_label rnd t M pp Kpp verbose = Ok mv ->
  length mv = length t /\ forall i, (i < length t)%nat ->
    plurality (nth i t []) (nth i mv 0%nat) /\
    (forall p, pp = Some p -> forall k, plurality (nth i t []) k -> mget p i k <= mget p i (nth i mv 0%nat)) /\
    (forall k, plurality (nth i t []) k -> (forall p, pp = Some p -> mget p i k == mget p i (nth i mv 0%nat)) ->
       (total_votes t (nth i mv 0%nat) <= total_votes t k)%nat) /\
    (forall rel k s s', reliabilities (num_classes t pp Kpp) M t rel ->
       plurality (nth i t []) k -> (forall p, pp = Some p -> mget p i k == mget p i (nth i mv 0%nat)) ->
       total_votes t k = total_votes t (nth i mv 0%nat) ->
       support rel (nth i t []) k s -> support rel (nth i t []) (nth i mv 0%nat) s' -> s <= s').
Proof. exact (C35_plurality_full rnd t M pp Kpp verbose mv). Qed.
Print Assumptions C35_majority_vote.

(** The vote succeeds as soon as one example has a clear winner. *)
Theorem C35_total rnd t M K pp r0 k0 :
  annotations M K t -> In r0 t -> clear_winner r0 k0 ->
  (exists mv, get_majority_vote_label rnd t M (Some pp) K false = Ok mv) /\
  (exists mv, get_majority_vote_label rnd t M None K false = Ok mv).
Proof. exact (C35_total_full rnd t M K pp r0 k0). Qed.
Print Assumptions C35_total.

(** Every label that survives all the tie-breaks can be the random choice. *)
Theorem C35_random_choice t M pp Kpp i k :
  annotations M (num_classes t pp Kpp) t -> (i < length t)%nat ->
  (exists r0 k0, In r0 t /\ clear_winner r0 k0) ->
  plurality (nth i t []) k ->
  (forall p, pp = Some p -> forall k', plurality (nth i t []) k' -> mget p i k' <= mget p i k) ->
  (forall k', plurality (nth i t []) k' -> (forall p, pp = Some p -> mget p i k' == mget p i k) ->
     (total_votes t k <= total_votes t k')%nat) ->
  (forall rel k' s s', reliabilities (num_classes t pp Kpp) M t rel ->
     plurality (nth i t []) k' -> (forall p, pp = Some p -> mget p i k' == mget p i k) ->
     total_votes t k' = total_votes t k ->
     support rel (nth i t []) k' s' -> support rel (nth i t []) k s -> s' <= s) ->
  exists rnd mv, get_majority_vote_label rnd t M pp Kpp false = Ok mv /\ nth i mv 0%nat = k.
Proof. exact (C35_random_full t M pp Kpp i k). Qed.
Print Assumptions C35_random_choice.

Notation a0 := (Some 0%nat). Notation a1 := (Some 1%nat). Notation a2 := (Some 2%nat).
(** Without any clear winner a surviving tie makes the function raise. *)
Theorem C35_all_tied_raises rnd : get_majority_vote_label rnd [[a0; a1]] 2 None 0 false = Raise ValueError.
Proof. reflexivity. Qed.
Print Assumptions C35_all_tied_raises.

Definition tbl : list row := [[a0; a0; a1]; [a1; None; a1]; [a2; a1; a2]; [a0; a1; None]].
Definition pri : list (list Q) := [[1#2; 1#4; 1#4]; [1#4; 1#2; 1#4]; [1#4; 1#4; 1#2]; [1#3; 1#3; 1#3]].
Example tbl_ok : annotations 3 3 tbl /\ has_overlap tbl /\ every_annotator_used 3 tbl /\ clear_winner [a0; a0; a1] 0.
Proof.
  split; [|split; [|split]].
  - constructor.
    + intros r [<-|[<-|[<-|[<-|[]]]]]; reflexivity.
    + intros r [<-|[<-|[<-|[<-|[]]]]]; eexists; left; reflexivity.
    + intros r k [<-|[<-|[<-|[<-|[]]]]] H; simpl in H; repeat destruct H as [H|H]; try discriminate H; try (injection H as <-; lia); destruct H.
  - exists [a0; a0; a1], 0%nat, 1%nat. split; [left; auto|]. split; [discriminate|]. split; eexists; reflexivity.
  - intros [|[|[|j]]] Hj; try lia; exists [a0; a0; a1]; eexists; (split; [left; reflexivity|reflexivity]).
  - split; [vm_compute; lia|]. intros [|[|k]] Hk; [congruence|vm_compute; lia|]. unfold votes. cbn. lia.
Qed.
Example pri_ok : distributions 4 3 pri.
Proof.
  split; [reflexivity|]. intros rw [<-|[<-|[<-|[<-|[]]]]]; (split; [reflexivity|]; split; [|reflexivity]);
    intros x [<-|[<-|[<-|[]]]]; discriminate.
Qed.
(** the tie of the last example is broken towards class 0, the rarest (3 votes against 5) *)
Example C35_example : get_majority_vote_label (fun _ => 0%nat) tbl 3 None 0 true = Ok [0; 1; 2; 0]%nat /\
  plurality [a0; a1; None] 1%nat.
Proof. split; [reflexivity|]. split; [vm_compute; lia|]. intros [|[|k]]; unfold votes; cbn; lia. Qed.
(** [np.random.choice] decides: two labels with the same number of votes, equal predictions, equal frequency
    and equally reliable supporters *)
Example C35_random_example :
  let t := [[a0; a1]; [a2; a2]] in
  get_majority_vote_label (fun _ => 0%nat) t 2 None 0 false = Ok [0; 2]%nat /\
  get_majority_vote_label (fun _ => 1%nat) t 2 None 0 false = Ok [1; 2]%nat.
Proof. split; reflexivity. Qed.

(** ** C36 consensus labels, qualities and posteriors *)
Theorem C36_consensus fsqrt rnd t M K prior method info :
  (forall r, In r t -> length r = M) -> (2 <= K)%nat -> distributions (length t) K prior ->
  (forall x, 0 < x -> 0 < fsqrt x) ->
  get_label_quality_multiannotator fsqrt rnd t M K prior method = Ok info ->
  length (c_label info) = length t /\ (forall k, In k (c_label info) -> (k < K)%nat) /\
  length (c_quality info) = length t /\ (forall q, In q (c_quality info) -> 0 <= q /\ q <= 1) /\
  length (c_agreement info) = length t /\ (forall q, In q (c_agreement info) -> 0 <= q /\ q <= 1) /\
  distributions (length t) K (post (c_post info)) /\
  length (model_weights (c_post info)) = 1%nat /\ (forall w, In w (model_weights (c_post info)) -> 0 < w) /\
  length (annot_weights (c_post info)) = M /\ (forall w, In w (annot_weights (c_post info)) -> 0 < w /\ w <= 1) /\
  (forall i, (i < length t)%nat -> nth i (c_quality info) 0 = mget (post (c_post info)) i (nth i (c_label info) 0%nat)).
Proof.
  exact (fun HW HK HD Hs H => proj1 (proj2 (proj2 (label_quality_inv fsqrt rnd t M K [prior] prior method info HW HK
    (fun E => nil_cons (eq_sym E)) (fun p Hp => match Hp with or_introl E => eq_ind prior (distributions (length t) K) HD p E | or_intror F => match F with end end) Hs H)))).
Qed.
Print Assumptions C36_consensus.

Theorem C36_ensemble fsqrt rnd t M K priors info :
  (forall r, In r t -> length r = M) -> (2 <= K)%nat -> priors <> [] ->
  (forall p, In p priors -> distributions (length t) K p) -> (forall x, 0 < x -> 0 < fsqrt x) ->
  get_label_quality_multiannotator_ensemble fsqrt rnd t M K priors = Ok info ->
  length (c_label info) = length t /\ (forall k, In k (c_label info) -> (k < K)%nat) /\
  length (c_quality info) = length t /\ (forall q, In q (c_quality info) -> 0 <= q /\ q <= 1) /\
  length (c_agreement info) = length t /\ (forall q, In q (c_agreement info) -> 0 <= q /\ q <= 1) /\
  distributions (length t) K (post (c_post info)) /\
  length (model_weights (c_post info)) = length priors /\ (forall w, In w (model_weights (c_post info)) -> 0 < w) /\
  length (annot_weights (c_post info)) = M /\ (forall w, In w (annot_weights (c_post info)) -> 0 < w /\ w <= 1) /\
  (forall i, (i < length t)%nat -> nth i (c_quality info) 0 = mget (post (c_post info)) i (nth i (c_label info) 0%nat)).
Proof.
  exact (fun HW HK Hne HD Hs H => proj1 (proj2 (proj2 (label_quality_inv fsqrt rnd t M K priors _ BestQuality info HW HK Hne HD Hs H)))).
Qed.
Print Assumptions C36_ensemble.

Theorem C36_total fsqrt rnd t M K prior method r0 k0 :
  annotations M K t -> has_overlap t -> every_annotator_used M t -> In r0 t -> clear_winner r0 k0 ->
  (2 <= K)%nat -> distributions (length t) K prior -> (forall x, 0 < x -> 0 < fsqrt x) ->
  exists info, get_label_quality_multiannotator fsqrt rnd t M K prior method = Ok info.
Proof.
  exact (fun HA HO HU Hr Hc HK HD Hs => label_quality_total fsqrt rnd t M K [prior] prior method r0 k0 HA HO HU Hr Hc HK
    (fun E => nil_cons (eq_sym E)) (proj1 HD) (fun p Hp => match Hp with or_introl E => eq_ind prior (distributions (length t) K) HD p E | or_intror F => match F with end end) Hs).
Qed.
Print Assumptions C36_total.
Theorem C36_total_ensemble fsqrt rnd t M K priors r0 k0 :
  annotations M K t -> has_overlap t -> every_annotator_used M t -> In r0 t -> clear_winner r0 k0 ->
  (2 <= K)%nat -> priors <> [] -> (forall p, In p priors -> distributions (length t) K p) -> (forall x, 0 < x -> 0 < fsqrt x) ->
  exists info, get_label_quality_multiannotator_ensemble fsqrt rnd t M K priors = Ok info.
Proof.
  exact (fun HA HO HU Hr Hc HK Hne HD Hs => label_quality_total fsqrt rnd t M K priors _ BestQuality r0 k0 HA HO HU Hr Hc HK
    Hne (average_priors_length (length t) K priors) HD Hs).
Qed.
Print Assumptions C36_total_ensemble.
Definition show (r : res consensus_info) :=
  match r with
  | Ok i => Some (c_label i, map Qred (c_quality i), map Qred (annot_weights (c_post i)))
  | Raise _ => None
  end.
Example C36_example : show (get_label_quality_multiannotator (fun x => x) (fun _ => 0%nat) tbl 3 3 pri BestQuality) =
  show (get_label_quality_multiannotator_ensemble (fun x => x) (fun _ => 0%nat) tbl 3 3 [pri]) /\
  match show (get_label_quality_multiannotator (fun x => x) (fun _ => 0%nat) tbl 3 3 pri BestQuality) with
  | Some (l, _, _) => l = [0; 1; 2; 0]%nat | None => False end.
Proof. split; vm_compute; reflexivity. Qed.

(** ** C67 a vote supports its class *)

(** With consensus_method="majority_vote": if two examples have the same predicted probabilities and were
    labelled by the same annotators, and everyone voting for [k] in the first also does in the second, the
    posterior probability of [k] is at least as large in the second. *)
Theorem C67_votes_support_partial fsqrt rnd t M K prior info i i' k :
  (forall r, In r t -> length r = M) -> (2 <= K)%nat -> distributions (length t) K prior -> (forall x, 0 < x -> 0 < fsqrt x) ->
  get_label_quality_multiannotator fsqrt rnd t M K prior MajorityVote = Ok info ->
  (i < length t)%nat -> (i' < length t)%nat -> (k < K)%nat -> nth i prior [] = nth i' prior [] ->
  (forall j, annotators_of (nth i t []) j <-> annotators_of (nth i' t []) j) ->
  (forall j, nth j (nth i t []) None = Some k -> nth j (nth i' t []) None = Some k) ->
  mget (post (c_post info)) i k <= mget (post (c_post info)) i' k.
Proof. exact (C67_full fsqrt rnd t M K prior info i i' k). Qed.
Print Assumptions C67_votes_support_partial.

(** With the default consensus_method="best_quality" one more vote for a class can lower its posterior. *)
Definition tbl4 : list row := [[a0; a0; a1; a1]; [a0; a0; a0; a1]].
Definition pri4 : list (list Q) := [[0; 0; 1]; [0; 0; 1]].
Definition sqrt4 (x : Q) : Q := if Qeq_bool x 4 then 2 else x.
Theorem C67_best_quality_refuted :
  exists info, get_label_quality_multiannotator sqrt4 (fun _ => 0%nat) tbl4 4 3 pri4 BestQuality = Ok info /\
  nth 0 pri4 [] = nth 1 pri4 [] /\
  (forall j, annotators_of (nth 0 tbl4 []) j <-> annotators_of (nth 1 tbl4 []) j) /\
  (forall j, nth j (nth 0 tbl4 []) None = Some 0%nat -> nth j (nth 1 tbl4 []) None = Some 0%nat) /\
  mget (post (c_post info)) 1 0 < mget (post (c_post info)) 0 0.
Proof.
  eexists. split; [vm_compute; reflexivity|]. split; [reflexivity|]. split; [|split; [|reflexivity]].
  - intros [|[|[|[|j]]]]; split; intros [k H]; destruct j || idtac; try discriminate H; eexists; reflexivity.
  - intros [|[|[|[|j]]]]; simpl; auto; destruct j; auto; discriminate.
Qed.
Print Assumptions C67_best_quality_refuted.
Example C67_example : exists info, get_label_quality_multiannotator sqrt4 (fun _ => 0%nat) tbl4 4 3 pri4 MajorityVote = Ok info /\
  mget (post (c_post info)) 0 0 < mget (post (c_post info)) 1 0.
Proof. eexists. split; [vm_compute; reflexivity|reflexivity]. Qed.

(** ** C70 best_quality takes the most probable class *)
Theorem C70_best_quality fsqrt rnd t M K prior info :
  (forall r, In r t -> length r = M) -> (2 <= K)%nat -> distributions (length t) K prior -> (forall x, 0 < x -> 0 < fsqrt x) ->
  get_label_quality_multiannotator fsqrt rnd t M K prior BestQuality = Ok info ->
  exists minfo, get_label_quality_multiannotator fsqrt rnd t M K prior MajorityVote = Ok minfo /\
  forall i, (i < length t)%nat ->
    let best k := (k < K)%nat /\ forall k', (k' < K)%nat -> mget (post (c_post minfo)) i k' <= mget (post (c_post minfo)) i k in
    (forall k, best k -> (forall k', best k' -> k' = k) -> nth i (c_label info) 0%nat = k) /\
    (forall k k', best k -> best k' -> k <> k' -> nth i (c_label info) 0%nat = nth i (c_label minfo) 0%nat).
Proof. exact (C70_full fsqrt rnd t M K prior info). Qed.
Print Assumptions C70_best_quality.

(** When two classes tie for the largest posterior the majority vote is kept even if it is far below. *)
Definition tbl5 : list row := [[a0; a0; a1; a2]; [a1; a1; a0; a2]; [a2; a2; a0; a1]].
Definition pri5 : list (list Q) := [[0; 1#2; 1#2]; [0; 1; 0]; [0; 0; 1]].
Theorem C70_tie_refuted :
  exists info minfo, get_label_quality_multiannotator sqrt4 (fun _ => 0%nat) tbl5 4 3 pri5 BestQuality = Ok info /\
  get_label_quality_multiannotator sqrt4 (fun _ => 0%nat) tbl5 4 3 pri5 MajorityVote = Ok minfo /\
  nth 0 (c_label info) 0%nat = 0%nat /\
  mget (post (c_post minfo)) 0 0 < (1#1000) /\ (49#100) < mget (post (c_post minfo)) 0 1 /\ (49#100) < mget (post (c_post minfo)) 0 2.
Proof. eexists. eexists. split; [vm_compute; reflexivity|]. split; [vm_compute; reflexivity|]. repeat split. Qed.
Print Assumptions C70_tie_refuted.

(** ** C37 active learning scores *)
Theorem C37_active_learning fsqrt rnd t M K prior unl s u :
  (forall r, In r t -> length r = M) -> (2 <= K)%nat -> distributions (length t) K prior ->
  (forall rw, In rw unl -> distribution K rw) -> (forall x, 0 < x -> 0 < fsqrt x) ->
  get_active_learning_scores fsqrt rnd t M K prior unl = Ok (s, u) ->
  exists q,
   ((exists info, get_label_quality_multiannotator fsqrt rnd t M K prior BestQuality = Ok info /\ q = c_quality info) \/
    ((forall r, In r t -> num_annotations r = 1%nat) /\ length q = length t /\
     forall i k, (i < length t)%nat -> In (Some k) (nth i t []) -> nth i q 0 = mget prior i k)) /\
   length s = length t /\ length u = length unl /\
   (forall i, (i < length t)%nat ->
      (1 / Qnat K <= nth i q 0 -> 1 / Qnat K <= nth i s 0 /\ nth i s 0 <= nth i q 0) /\
      (nth i q 0 <= 1 / Qnat K -> nth i q 0 <= nth i s 0 /\ nth i s 0 <= 1 / Qnat K)) /\
   (forall i i', (i < length t)%nat -> (i' < length t)%nat ->
      (forall j, annotators_of (nth i t []) j -> annotators_of (nth i' t []) j) ->
      1 / Qnat K <= nth i' q 0 -> nth i q 0 <= nth i' q 0 ->
      nth i s 0 <= nth i' s 0 /\
      (1 / Qnat K < nth i' q 0 -> (exists j, ~ annotators_of (nth i t []) j /\ annotators_of (nth i' t []) j) -> nth i s 0 < nth i' s 0)) /\
   (forall i, (i < length unl)%nat -> 1 / Qnat K <= nth i u 0 /\ nth i u 0 <= qmaximum (nth i unl [])) /\
   (forall i i', (i < length unl)%nat -> (i' < length unl)%nat ->
      (nth i u 0 <= nth i' u 0 <-> qmaximum (nth i unl []) <= qmaximum (nth i' unl []))) /\
   (forall i i', (i < length unl)%nat -> (i' < length t)%nat -> qmaximum (nth i unl []) <= nth i' q 0 -> nth i u 0 <= nth i' s 0).
Proof. exact (C37_full fsqrt rnd t M K prior unl s u). Qed.
Print Assumptions C37_active_learning.
Example C37_example : exists s u, get_active_learning_scores (fun x => x) (fun _ => 0%nat) tbl 3 3 pri [[1#2; 1#2; 0]; [1; 0; 0]] = Ok (s, u) /\
  nth 3 s 0 < nth 0 s 0 /\ nth 0 u 0 < nth 1 u 0.
Proof. eexists. eexists. split; [vm_compute; reflexivity|split; reflexivity]. Qed.

(** ** C68 annotator statistics *)
Theorem C68_annotator_stats fsqrt rnd t M K prior method info j :
  (forall r, In r t -> length r = M) -> (2 <= K)%nat -> distributions (length t) K prior -> (forall x, 0 < x -> 0 < fsqrt x) ->
  get_label_quality_multiannotator fsqrt rnd t M K prior method = Ok info -> (j < M)%nat ->
  let st := annotator_stats t info j in let c := c_label info in let w := st_worst st in
  st_num st = n_labelled t j /\ (1 <= st_num st)%nat /\
  (exists a, st_agreement st = Some a /\ a == Qnat (n_agree t c j) / Qnat (n_labelled t j)) /\
  (forall q, st_quality st = Some q -> 0 <= q /\ q <= 1) /\
  (1 <= n_gave t j w)%nat /\
  (forall k, (1 <= n_gave t j k)%nat -> (n_right t c j w * n_gave t j k <= n_right t c j k * n_gave t j w)%nat) /\
  (forall k, (1 <= n_gave t j k)%nat -> (n_right t c j w * n_gave t j k = n_right t c j k * n_gave t j w)%nat -> (n_gave t j k <= n_gave t j w)%nat) /\
  (forall k a b, (1 <= n_gave t j k)%nat -> (n_right t c j w * n_gave t j k = n_right t c j k * n_gave t j w)%nat -> n_gave t j k = n_gave t j w ->
     is_average (qualities_given t (c_quality info) j k) a -> is_average (qualities_given t (c_quality info) j w) b -> a <= b).
Proof. exact (C68_full fsqrt rnd t M K prior method info j). Qed.
Print Assumptions C68_annotator_stats.
Example C68_example : exists info, get_label_quality_multiannotator (fun x => x) (fun _ => 0%nat) tbl 3 3 pri BestQuality = Ok info /\
  map (fun j => (st_worst (annotator_stats tbl info j), st_num (annotator_stats tbl info j), option_map Qred (st_agreement (annotator_stats tbl info j)))) [0; 1; 2]%nat =
  [(0%nat, 4%nat, Some 1); (1%nat, 3%nat, Some (1#3)); (1%nat, 3%nat, Some (2#3))].
Proof. eexists. split; [vm_compute; reflexivity|vm_compute; reflexivity]. Qed.

(** ** C69 the order of the annotators does not matter *)
Theorem C69_majority_vote_order rnd t M p pp Kpp : Permutation p (seq 0 M) -> (forall r, In r t -> length r = M) ->
  get_majority_vote_label rnd (map (reorder p) t) M pp Kpp false = get_majority_vote_label rnd t M pp Kpp false.
Proof. exact (C69_vote_full rnd t M p pp Kpp). Qed.
Print Assumptions C69_majority_vote_order.
Theorem C69_annotator_order M p : Permutation p (seq 0 M) -> forall t, (forall r, In r t -> length r = M) ->
  forall fsqrt rnd K prior method info, (2 <= K)%nat -> distributions (length t) K prior -> (forall x, 0 < x -> 0 < fsqrt x) ->
  get_label_quality_multiannotator fsqrt rnd t M K prior method = Ok info ->
  exists info', get_label_quality_multiannotator fsqrt rnd (map (reorder p) t) M K prior method = Ok info' /\
    c_label info' = c_label info /\ Forall2 Qeq (c_quality info') (c_quality info) /\ c_agreement info' = c_agreement info /\
    same_rows (post (c_post info')) (post (c_post info)) /\ model_weights (c_post info') = model_weights (c_post info) /\
    forall j, (j < M)%nat -> nth j (annot_weights (c_post info')) 0 == nth (nth j p 0%nat) (annot_weights (c_post info)) 0.
Proof.
  exact (fun Hp t HW fsqrt rnd K prior method info HK HD Hs => C69_full M p Hp t HW fsqrt rnd K [prior] prior method info HK
    (fun E => nil_cons (eq_sym E)) (fun q Hq => match Hq with or_introl E => eq_ind prior (distributions (length t) K) HD q E | or_intror F => match F with end end) Hs).
Qed.
Print Assumptions C69_annotator_order.
Theorem C69_annotator_order_ensemble M p : Permutation p (seq 0 M) -> forall t, (forall r, In r t -> length r = M) ->
  forall fsqrt rnd K priors info, (2 <= K)%nat -> priors <> [] -> (forall q, In q priors -> distributions (length t) K q) -> (forall x, 0 < x -> 0 < fsqrt x) ->
  get_label_quality_multiannotator_ensemble fsqrt rnd t M K priors = Ok info ->
  exists info', get_label_quality_multiannotator_ensemble fsqrt rnd (map (reorder p) t) M K priors = Ok info' /\
    c_label info' = c_label info /\ Forall2 Qeq (c_quality info') (c_quality info) /\ c_agreement info' = c_agreement info /\
    same_rows (post (c_post info')) (post (c_post info)) /\ model_weights (c_post info') = model_weights (c_post info) /\
    forall j, (j < M)%nat -> nth j (annot_weights (c_post info')) 0 == nth (nth j p 0%nat) (annot_weights (c_post info)) 0.
Proof. exact (C69_ensemble_full M p). Qed.
Print Assumptions C69_annotator_order_ensemble.
Example C69_example :
  Permutation [2; 0; 1]%nat (seq 0 3) /\ map (reorder [2; 0; 1]%nat) tbl <> tbl /\
  match show (get_label_quality_multiannotator (fun x => x) (fun _ => 0%nat) tbl 3 3 pri BestQuality),
        show (get_label_quality_multiannotator (fun x => x) (fun _ => 0%nat) (map (reorder [2; 0; 1]%nat) tbl) 3 3 pri BestQuality) with
  | Some (l, q, [w0; w1; w2]), Some (l', q', w') => l' = l /\ q' = q /\ w' = [w2; w0; w1] | _, _ => False end.
Proof.
  split; [|split; [discriminate|vm_compute; repeat split]].
  apply Permutation_sym. change (Permutation [0; 1; 2]%nat [2; 0; 1]%nat). apply (Permutation_app_comm [0; 1]%nat [2]%nat).
Qed.
