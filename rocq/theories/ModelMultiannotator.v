(** * Model of cleanlab/multiannotator.py (consensus, CROWDLAB, annotator statistics, active learning)

    The annotation table is a list of rows (examples); a row holds one entry per annotator, [None] being
    NaN.  [M] is the number of annotators (columns), [K] the number of classes.  NaN results of numpy
    are [None].  [np.sqrt] is an argument [fsqrt] and [np.random.choice] an argument [rnd]: the theorems
    hold for whatever they return.  DataFrame handling, printing and warnings are not modelled. *)
From Coq Require Import QArith Qabs List ZArith Bool Arith.
From Verif Require Import Base ModelUtil ModelCount ModelRank.
Import ListNotations.
Open Scope Q_scope.

Notation table := (list (list (option nat))).

(** [labels == k] (False for NaN), [~np.isnan(labels)]. *)
Definition is_label (k : nat) (o : option nat) : bool :=
  match o with Some l => Nat.eqb l k | None => false end.
Definition present (o : option nat) : bool := match o with Some _ => true | None => false end.

(** [np.sum(~np.isnan(labels_multiannotator), axis=1)] for one row; [labels == k] counted. *)
Definition num_annotations (r : list (option nat)) : nat := count_true (map present r).
Definition label_total (k : nat) (r : list (option nat)) : nat := count_true (map (is_label k) r).

(** all non-NaN entries ([ravel] followed by dropping NaN). *)
Definition given (r : list (option nat)) : list nat :=
  flat_map (fun o => match o with Some l => [l] | None => [] end) r.
Definition all_given (t : table) : list nat := flat_map given t.

(** cleanlab/internal/multiannotator_utils.py:19-125 [assert_valid_inputs_multiannotator] (type, ndim and
    string checks omitted; [pp] = None when no pred_probs are passed, otherwise its (length, columns)). *)
Definition assert_valid_multiannotator (t : table) (M : nat) (pp : option (nat * nat))
           (allow_single_label : bool) : res unit :=
  if existsb (fun r => negb (existsb present r)) t then Raise ValueError
  else if existsb (fun j => negb (existsb (fun r => present (nth j r None)) t)) (seq 0 M)
  then Raise ValueError
  else if (negb allow_single_label && Nat.leb M 1)%bool then Raise ValueError
  else if (negb allow_single_label && forallb (fun r => Nat.eqb (num_annotations r) 1) t)%bool
  then Raise ValueError
  else match all_given t with
       | [] => Raise ValueError                                  (* min of an empty sequence *)
       | ls => match pp with
               | None => Ok tt
               | Some (n, K) =>
                   if negb (Nat.eqb n (length t)) then Raise ValueError
                   else if Nat.ltb K (nmax ls + 1) then Raise ValueError
                   else Ok tt
               end
       end.

(** ** Majority vote, cleanlab/multiannotator.py:897-1060 [get_majority_vote_label] *)

(** lines 947-962: the labels attaining the row maximum of [label_count], in increasing order. *)
Definition modes (K : nat) (r : list (option nat)) : list nat :=
  let counts := tab K (fun k => label_total k r) in
  filter (fun k => Nat.eqb (nth k counts 0%nat) (nmax counts)) (seq 0 K).

(** State of one example: its entry of [majority_vote_label] is set, or it is a key of [tied_idx]. *)
Inductive vote := Decided (k : nat) | Tied (cands : list nat).
Definition settle (cands : list nat) : vote :=
  match cands with [k] => Decided k | _ => Tied cands end.
(** one tie-breaking pass over [tied_idx] (lines 981-990, 994-1004, 1026-1042). *)
Definition tiebreak (f : list nat -> list nat) (v : vote) : vote :=
  match v with Decided k => Decided k | Tied c => settle (f c) end.

(** [label_mode[np.where(score == np.max(score))[0]]] and the same with [np.min]. *)
Definition keep_max (score : nat -> Q) (cands : list nat) : list nat :=
  filter (fun k => Qeq_bool (score k) (qmaximum (map score cands))) cands.
Definition keep_min (score : nat -> Q) (cands : list nat) : list nat :=
  filter (fun k => Qeq_bool (score k) (qminimum (map score cands))) cands.

(** line 995: [label_count.sum(axis=0)]. *)
Definition class_frequency (t : table) (k : nat) : Q := Qnat (nsum (map (label_total k) t)).

(** lines 1021-1024 (and 1337-1347): NaN entries replaced by the mean of the others; [None] when all the
    entries are NaN (the mean of an empty array is NaN). *)
Definition known (l : list (option Q)) : list Q :=
  flat_map (fun o => match o with Some q => [q] | None => [] end) l.
Definition impute (l : list (option Q)) : option (list Q) :=
  match known l with
  | [] => None
  | q => Some (map (fun o => match o with Some x => x | None => qmean q end) l)
  end.

(** lines 1008-1019: [pairs] are the non-tied rows with their majority vote label. *)
Definition agreement_nontied (M : nat) (pairs : list (list (option nat) * nat)) : list (option Q) :=
  tab M (fun j =>
    let mine := filter (fun p => present (nth j (fst p) None)) pairs in
    match mine with
    | [] => None
    | _ => Some (qmean (map (fun p => if is_label (snd p) (nth j (fst p) None) then 1 else 0) mine))
    end).

(** lines 1027-1036: mean score of the annotators who gave the label [k] to this example. *)
Definition who_gave (k : nat) (r : list (option nat)) : list nat :=
  filter (fun j => is_label k (nth j r None)) (seq 0 (length r)).
Definition label_score (scores : list Q) (r : list (option nat)) (k : nat) : Q :=
  qmean (take_idx 0 scores (who_gave k r)).

(** lines 1037-1042: with NaN scores the comparison with the maximum selects nothing. *)
Definition keep_agreeing (agr : option (list Q)) (r : list (option nat)) (cands : list nat) : list nat :=
  match agr with None => [] | Some s => keep_max (label_score s r) cands end.

(** lines 1044-1050: [np.random.choice(label_mode)] for example [i]; an empty array raises. *)
Definition draw (rnd : nat -> nat) (i : nat) (v : vote) : res nat :=
  match v with
  | Decided k => Ok k
  | Tied [] => Raise ValueError
  | Tied c => Ok (nth (Nat.modulo (rnd i) (length c)) c 0%nat)
  end.

Definition nontied_pairs (K : nat) (t : table) : list (list (option nat) * nat) :=
  flat_map (fun r => match settle (modes K r) with Decided k => [(r, k)] | Tied _ => [] end) t.

Definition vote_of (K M : nat) (t : table) (pp : option (list (list Q))) (i : nat)
           (r : list (option nat)) : vote :=
  let v0 := settle (modes K r) in
  let v1 := match pp with
            | None => v0
            | Some p => tiebreak (keep_max (fun k => mget p i k)) v0
            end in
  let v2 := tiebreak (keep_min (class_frequency t)) v1 in
  tiebreak (keep_agreeing (impute (agreement_nontied M (nontied_pairs K t))) r) v2.

(** lines 942-1060.  [Kpp] is [pred_probs.shape[1]].  Without validation a label that is not a column of
    [pred_probs] is an IndexError at line 954. *)
Definition get_majority_vote_label (rnd : nat -> nat) (t : table) (M : nat)
           (pp : option (list (list Q))) (Kpp : nat) (verbose : bool) : res (list nat) :=
  do _ <- (if verbose
           then assert_valid_multiannotator t M (match pp with None => None | Some p => Some (length p, Kpp) end)
                                            false
           else Ok tt) ;
  match pp, all_given t with
  | None, [] => Raise ValueError
  | _, ls =>
    let K := match pp with None => (nmax ls + 1)%nat | Some _ => Kpp end in
    if Nat.eqb K 0 then Raise ValueError
    else if existsb (fun l => Nat.leb K l) ls then Raise IndexError
    else rmap (fun ir => draw rnd (fst ir) (vote_of K M t pp (fst ir) (snd ir)))
              (combine (seq 0 (length t)) t)
  end.

(** ** Agreement statistics *)

(** cleanlab/multiannotator.py:1276-1301 [_get_annotator_agreement_with_consensus]. *)
Definition agreement_with_consensus (t : table) (consensus : list nat) : list Q :=
  map (fun rc => Qnat (label_total (snd rc) (fst rc)) / Qnat (num_annotations (fst rc)))
      (combine t consensus).

(** [np.average(x, weights=w)]. *)
Definition waverage (x w : list Q) : Q :=
  qsum (map (fun p => fst p * snd p) (combine x w)) / qsum w.

(** cleanlab/multiannotator.py:1352-1391 [_get_single_annotator_agreement] on the rows labelled by
    annotator [j]. *)
Definition agreement_in_row (j : nat) (r : list (option nat)) : Q :=
  if Nat.ltb 1 (num_annotations r)
  then (match nth j r None with
        | Some l => Qnat (label_total l r)
        | None => 0
        end - 1) / Qnat (num_annotations r - 1)
  else 0.
Definition single_annotator_agreement (t : table) (j : nat) : option Q :=
  let rows := filter (fun r => present (nth j r None)) t in
  let w := map (fun r => Qnat (num_annotations r - 1)) rows in
  if Qeq_bool (qsum w) 0 then None
  else Some (waverage (map (agreement_in_row j) rows) w).

(** cleanlab/multiannotator.py:1304-1349 [_get_annotator_agreement_with_annotators]. *)
Definition agreement_with_annotators (t : table) (M : nat) : option (list Q) :=
  impute (tab M (single_annotator_agreement t)).

(** ** CROWDLAB posterior *)

Record posterior := mk_posterior {
  post : list (list Q);            (* post_pred_probs *)
  model_weights : list Q;          (* one per model; a single one for the non-ensemble version *)
  annot_weights : list Q           (* annotator_weight *)
}.

Definition indicator (b : bool) : Q := if b then 1 else 0.
Definition multi (t : table) : list bool := map (fun r => negb (Nat.eqb (num_annotations r) 1)) t.

(** lines 1454-1455. *)
Definition consensus_likelihood (t : table) (consensus : list nat) : Q :=
  qmean (select (multi t) (agreement_with_consensus t consensus)).
Definition non_consensus_likelihood (K : nat) (cl : Q) : Q := (1 - cl) / (Qnat K - 1).

(** lines 1463-1470. *)
Definition most_likely_class_error (t : table) (consensus : list nat) (K : nat) : Q :=
  let sub := select (multi t) consensus in
  let mode := argmax (tab K (fun k => Qnat (count k sub))) in
  clip_lo CLIPPING_LOWER_BOUND (qmean (map (fun c => indicator (negb (Nat.eqb c mode))) sub)).

(** lines 1473-1479. *)
Definition adjusted_agreement (mlce : Q) (agr : list Q) : list Q :=
  map (fun a => clip_lo CLIPPING_LOWER_BOUND (1 - (1 - a) / mlce)) agr.

(** lines 1481-1484. *)
Definition model_weight (fsqrt : Q -> Q) (t : table) (consensus : list nat) (mlce : Q)
           (prior : list (list Q)) : Q :=
  let err := qmean (map (fun pc => indicator (negb (Nat.eqb (argmax (fst pc)) (snd pc))))
                        (combine (select (multi t) prior) (select (multi t) consensus))) in
  qmax (1 - err / mlce) CLIPPING_LOWER_BOUND * fsqrt (qmean (map (fun r => Qnat (num_annotations r)) t)).

(** lines 1486-1503 for one example and one class: [wl] pairs each annotator's weight with their entry. *)
Definition vote_weight (cl ncl : Q) (k : nat) (wl : Q * option nat) : Q :=
  match snd wl with
  | None => 0
  | Some l => if Nat.eqb l k then fst wl * cl else fst wl * ncl
  end.
Definition annotation_weight (aw : list Q) (r : list (option nat)) : Q :=
  qsum (map (fun wl : Q * option nat => if present (snd wl) then fst wl else 0) (combine aw r)).
Definition posterior_row (K : nat) (cl ncl : Q) (mws : list Q) (aw : list Q) (priors : list (list Q))
           (r : list (option nat)) : list Q :=
  tab K (fun k =>
    (qsum (map (fun mp => fst mp * nth k (snd mp) 0) (combine mws priors)) +
     qsum (map (vote_weight cl ncl k) (combine aw r)))
    / (annotation_weight aw r + qsum mws)).

(** lines 1394-1506 [_get_post_pred_probs_and_weights] with quality_method="crowdlab" ([priors] = one
    matrix) and lines 1527-1638 [_get_post_pred_probs_and_weights_ensemble] (one matrix per model; the
    [np.average] of lines 1620-1631 is the same quotient).  If no example has several annotations the
    code computes NaN everywhere ([Raise OtherError] here). *)
Definition crowdlab (fsqrt : Q -> Q) (t : table) (M K : nat) (consensus : list nat)
           (priors : list (list (list Q))) : res posterior :=
  let cl := consensus_likelihood t consensus in
  let mlce := most_likely_class_error t consensus K in
  match agreement_with_annotators t M with
  | None => Raise OtherError
  | Some agr =>
    let aw := adjusted_agreement mlce agr in
    let mws := map (model_weight fsqrt t consensus mlce) priors in
    Ok (mk_posterior
          (map (fun ir => posterior_row K cl (non_consensus_likelihood K cl) mws aw
                                        (map (fun p => nth (fst ir) p []) priors) (snd ir))
               (combine (seq 0 (length t)) t))
          mws aw)
  end.

(** ** Consensus labels with their quality, cleanlab/multiannotator.py:26-348 and 351-561 *)

Record consensus_info := mk_consensus {
  c_label : list nat; c_quality : list Q; c_agreement : list Q; c_post : posterior
}.

(** lines 1093-1178 [_get_consensus_stats] with quality_method="crowdlab" and the default (self-confidence)
    label quality score, lines 1681-1684. *)
Definition consensus_stats (fsqrt : Q -> Q) (t : table) (M K : nat) (priors : list (list (list Q)))
           (consensus : list nat) : res consensus_info :=
  do p <- crowdlab fsqrt t M K consensus priors ;
  do q <- get_label_quality_scores consensus (post p) K SelfConfidence false ;
  Ok (mk_consensus consensus q (agreement_with_consensus t consensus) p).

(** lines 228-237: the unique class of largest posterior, the majority vote otherwise. *)
Definition best_quality_label (p : list (list Q)) (mv : list nat) : list nat :=
  map (fun rc =>
         match filter (fun k => Qeq_bool (nth k (fst rc) 0) (qmaximum (fst rc)))
                      (seq 0 (length (fst rc))) with
         | [k] => k
         | _ => snd rc
         end) (combine p mv).

Inductive consensus_method := MajorityVote | BestQuality.

(** lines 444 [np.mean(pred_probs, axis=0)]. *)
Definition average_priors (N K : nat) (priors : list (list (list Q))) : list (list Q) :=
  tab N (fun i => tab K (fun k => qmean (map (fun p => mget p i k) priors))).

(** [get_label_quality_multiannotator] (no temperature scaling) for one consensus method;
    [votes_prior] is what the majority vote sees: [pred_probs] itself, or the ensemble average. *)
Definition label_quality_core (fsqrt : Q -> Q) (rnd : nat -> nat) (t : table) (M K : nat)
           (priors : list (list (list Q))) (votes_prior : list (list Q)) (method : consensus_method)
  : res consensus_info :=
  do _ <- assert_valid_multiannotator t M (Some (length votes_prior, K)) false ;
  do mv <- get_majority_vote_label rnd t M (Some votes_prior) K false ;
  do info <- consensus_stats fsqrt t M K priors mv ;
  match method with
  | MajorityVote => Ok info
  | BestQuality => consensus_stats fsqrt t M K priors (best_quality_label (post (c_post info)) mv)
  end.
Definition get_label_quality_multiannotator fsqrt rnd t M K (prior : list (list Q)) method :=
  label_quality_core fsqrt rnd t M K [prior] prior method.
Definition get_label_quality_multiannotator_ensemble fsqrt rnd t M K (priors : list (list (list Q))) :=
  label_quality_core fsqrt rnd t M K priors (average_priors (length t) K priors) BestQuality.

(** ** Annotator statistics *)

(** rows and consensus labels of the examples annotator [j] labelled (within [t]). *)
Definition labelled_by (j : nat) (t : table) (consensus : list nat) : list (nat * nat) :=
  flat_map (fun rc : list (option nat) * nat => match nth j (fst rc) None with Some l => [(l, snd rc)] | None => [] end)
           (combine t consensus).
Definition agrees (lc : nat * nat) : Q := indicator (Nat.eqb (fst lc) (snd lc)).
Definition mean_opt (l : list Q) : option Q := match l with [] => None | _ => Some (qmean l) end.

(** lines 1249-1253 (agreement_with_consensus of _get_annotator_stats). *)
Definition annotator_agreement (t : table) (consensus : list nat) (j : nat) : option Q :=
  mean_opt (map agrees (labelled_by j t consensus)).

(** lines 1722-1836 [_get_annotator_quality] with quality_method="crowdlab". *)
Definition annotator_quality (t : table) (consensus : list nat) (pp : list (list Q)) (mw : Q) (aw : list Q)
           (j : nat) : option Q :=
  let lqs := mean_opt (flat_map (fun rp : list (option nat) * list Q =>
                                   match nth j (fst rp) None with Some l => [nth l (snd rp) 0] | None => [] end)
                                (combine t pp)) in
  let agr := annotator_agreement (select (multi t) t) (select (multi t) consensus) j in
  let frac := qmean (map (fun r => Qnat (num_annotations r)) t) / Qnat (length aw) in
  let w := mw / (mw + qsum aw * frac) in
  match lqs, agr with
  | Some q, Some a => Some (w * q + (1 - w) * a)
  | _, _ => None
  end.

(** lines 1874-1923 [_get_single_annotator_worst_class]: [pairs] = (given label, consensus label),
    [quality] the consensus quality score of the same examples. *)
Definition class_accuracy (pairs : list (nat * nat)) (k : nat) : Q :=
  qmean (map agrees (filter (fun lc => Nat.eqb (fst lc) k) pairs)).
Definition class_quality (pairs : list (nat * nat)) (quality : list Q) (k : nat) : Q :=
  qmean (map snd (filter (fun lq => Nat.eqb (fst (fst lq)) k) (combine pairs quality))).
Definition worst_class (pairs : list (nat * nat)) (quality : list Q) : nat :=
  let classes := unique (map fst pairs) in
  let lowest := keep_min (class_accuracy pairs) classes in
  match lowest with
  | [k] => k
  | _ =>
    let frequent := keep_max (fun k => Qnat (count k (map fst pairs))) lowest in
    match frequent with
    | [k] => k
    | _ => hd 0%nat (keep_max (class_quality pairs quality) frequent)
    end
  end.

Definition labelled_quality j (t : table) (q : list Q) : list Q :=
  flat_map (fun rq : list (option nat) * Q => if present (nth j (fst rq) None) then [snd rq] else []) (combine t q).

(** lines 1181-1273 [_get_annotator_stats]: the row of annotator [j]; the final sort of the rows by
    quality is not modelled. *)
Record annotator_row := mk_annotator_row {
  st_quality : option Q; st_agreement : option Q; st_worst : nat; st_num : nat
}.
Definition annotator_stats (t : table) (info : consensus_info) (j : nat) : annotator_row :=
  mk_annotator_row
    (annotator_quality t (c_label info) (post (c_post info)) (qsum (model_weights (c_post info)))
                       (annot_weights (c_post info)) j)
    (annotator_agreement t (c_label info) j)
    (worst_class (labelled_by j t (c_label info)) (labelled_quality j t (c_quality info)))
    (count_true (map (fun r => present (nth j r None)) t)).

(** ** Active learning, cleanlab/multiannotator.py:684-726 and 842-894 *)

(** lines 685-692 (and 843-850, where [mw] is the sum of the model weights). *)
Definition active_score (K : nat) (aw : list Q) (mw avg : Q) (quality : Q) (r : list (option nat)) : Q :=
  waverage [quality; 1 / Qnat K] [annotation_weight aw r + mw; avg].

(** lines 710-721: unlabelled examples, [top] the largest calibrated probability. *)
Definition active_score_unlabeled (K : nat) (mw avg : Q) (row : list Q) : Q :=
  waverage [qmaximum row; 1 / Qnat K] [mw; avg].

(** [get_active_learning_scores]: [prior] are the predicted probabilities after temperature scaling (the
    scaling itself is modelled in ModelTemperature). Lines 646-661 are the case of one annotation per
    example. *)
Definition get_active_learning_scores (fsqrt : Q -> Q) (rnd : nat -> nat) (t : table) (M K : nat)
           (prior : list (list Q)) (unlabeled : list (list Q)) : res (list Q * list Q) :=
  do qwa <- (if forallb (fun r => Nat.eqb (num_annotations r) 1) t then
               do _ <- assert_valid_multiannotator t M (Some (length prior, K)) true ;
               do c <- get_majority_vote_label rnd t M (Some prior) K false ;
               do q <- get_label_quality_scores c prior K SelfConfidence false ;
               Ok (q, 1, repeat 1 M)
             else
               do info <- get_label_quality_multiannotator fsqrt rnd t M K prior BestQuality ;
               Ok (c_quality info, qsum (model_weights (c_post info)), annot_weights (c_post info))) ;
  let '(q, mw, aw) := qwa in
  Ok (map (fun qr => active_score K aw mw (qmean aw) (fst qr) (snd qr)) (combine q t),
      map (active_score_unlabeled K mw (qmean aw)) unlabeled).
