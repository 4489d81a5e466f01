(** * Vocabulary for the CleanLearning properties *)
From Coq Require Import QArith List ZArith Bool Arith.
From Verif Require Import Base ModelRank ModelFilter ModelBatched ModelLearn.
Import ListNotations.
Open Scope Q_scope.

(** the positions not flagged, in order *)
Definition unflagged (m : list bool) : list nat :=
  filter (fun i => negb (nth i m false)) (seq 0 (length m)).

(** the weight of an example with given label [l]: the inverse of the probability that an example of class [l] is
    labelled correctly, at most 1000 (and 1 for classes the object does not know of) *)
Definition label_weight (noise : matrix) (K l : nat) : Q :=
  if Nat.ltb l K then / qmax (nth l (nth l noise []) 0) (1 # 1000) else 1.

(** [m] are the flags meant by the caller's [label_issues] argument *)
Definition flags_of_arg (a : issues_arg) (n : nat) (m : list bool) : Prop :=
  match a with
  | DFArg df => d_issue df = Some (BoolCol m)
  | BoolArg b => m = b
  | IntArg idx => forall i, (i < n)%nat -> (nth i m false = true <->
                    In (Z.of_nat i) idx \/ In (Z.of_nat i - Z.of_nat n)%Z idx)
  | OtherArg => False
  end.

(** the weights of the final training, for the examples [kept] *)
Definition right_weights (w : weights_arg) (noise : option matrix) (K : nat) (labels : list nat) (kept : list nat)
    (tw : option (list Q)) : Prop :=
  match w_final w, w_given w with
  | Some f, _ => tw = Some f
  | None, Some sw => tw = Some (map (fun i => nth i sw 0) kept)
  | None, None =>
      match noise, w_supported w with
      | Some nm, true => tw = Some (map (fun i => label_weight nm K (nth i labels 0%nat)) kept)
      | _, _ => tw = None
      end
  end.

(** ** Histories *)
(** calls on one object; fit is called with arbitrary features *)
Inductive call :=
  | Find (ds : dataset) (thresholds : option (list Q)) (noise inverse : option matrix) (save : bool)
  | Fit (X : list nat) (k : container) (ds : dataset) (thresholds : option (list Q)) (noise inverse : option matrix)
        (label_issues : option issues_arg) (w : weights_arg).
Definition run_call srt minv js cfg (c : call) (s : clstate) : clstate :=
  match c with
  | Find ds th nm im sv => fst (find_label_issues srt minv js cfg ds th nm im sv s)
  | Fit X k ds th nm im li w => fst (fit srt minv js cfg 0%nat X k ds th nm im li w s)
  end.
Definition run_calls srt minv js cfg (cs : list call) (s : clstate) : clstate :=
  fold_left (fun s c => run_call srt minv js cfg c s) cs s.

(** the table that filter.find_label_issues and get_label_quality_scores give with the keyword arguments [kw] *)
Definition table_with srt (kw : kwargs) (qk : score_method * bool) (ds : dataset) (t : issues_df) : Prop :=
  exists pp m q, get_pred_probs ds = Ok pp /\
    ModelFilter.find_label_issues srt (ds_labels ds) pp (width pp) (filter_of kw) (options_of kw) = Ok m /\
    get_label_quality_scores (ds_labels ds) pp (width pp) (fst qk) (snd qk) = Ok q /\
    t = {| d_len := length (ds_labels ds); d_issue := Some (BoolCol m); d_quality := Some q;
           d_given := Some (ds_labels ds); d_predicted := Some (map argmax pp); d_weight := None |}.

(** the same, spelled out: the predicted probabilities are the caller's, otherwise cross-validated ones; the filter
    is prune_by_noise_rate unless the object was given another; 10 examples per class are kept unless the object was
    given another number; [joint]: the confident joint used, if any *)
Definition searched srt (kw : kwargs) (joint : option matrix) (qk : score_method * bool) (ds : dataset) (t : issues_df) : Prop :=
  exists pp m q, match ds_pred_probs ds with Some given => Ok given | None => ds_cv ds end = Ok pp /\
    ModelFilter.find_label_issues srt (ds_labels ds) pp (length (nth 0 pp []))
      (match kw_filter kw with Some f => f | None => PruneByNoiseRate end)
      {| frac_noise := kw_frac kw; num_to_remove_per_class := kw_ntr kw;
         min_examples_per_class := match kw_min kw with Some n => n | None => 10%nat end;
         confident_joint := joint; n_jobs := kw_jobs kw; sched_c := kw_sched_c kw; sched_n := kw_sched_n kw |} = Ok m /\
    get_label_quality_scores (ds_labels ds) pp (length (nth 0 pp [])) (fst qk) (snd qk) = Ok q /\
    t = {| d_len := length (ds_labels ds); d_issue := Some (BoolCol m); d_quality := Some q;
           d_given := Some (ds_labels ds); d_predicted := Some (map argmax pp); d_weight := None |}.

(** [label_issues] arguments that cannot be meant for [labels] *)
Definition bad_arg (a : issues_arg) (labels : list nat) : Prop :=
  match a with
  | DFArg df => d_issue df = None \/ d_len df <> length labels \/
      (exists g i, d_given df = Some g /\ (i < length g)%nat /\ (i < length labels)%nat /\ nth i g 0%nat <> nth i labels 0%nat)
  | BoolArg m => length m <> length labels
  | IntArg idx => ~ NoDup idx
  | OtherArg => True
  end.
