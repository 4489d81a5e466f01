(** * Datalab's label check for multi-label data: datalab/internal/issue_manager/multilabel/label.py
    The two functions it calls are those of ModelMultilabel; of the aggregators only the exponential moving average
    is modelled, as there.  Keyword arguments are a dictionary of names and values. *)
From Coq Require Import QArith String List Bool Arith.
From Verif Require Import Base ModelRank ModelPool ModelFilter ModelBatched ModelMultilabel ModelLabels.
Import ListNotations.
Open Scope Q_scope.

Inductive value :=
| VNone
| VFilter (f : filter_method)
| VNumber (q : Q)
| VNumbers (l : list Q)
| VCount (n : nat)
| VJoint (m : list (list (list Q)))
| VBool (b : bool)
| VMethod (m : score_method)
| VAlpha (a : option Q)                       (* {"method": "exponential_moving_average", "alpha": a} *)
| VOther.
Definition kwargs := list (string * value).
Definition kget (k : string) (kw : kwargs) : option value := option_map snd (find (fun e => String.eqb (fst e) k) kw).

(** label.py:52-73 [_process_find_label_issues_kwargs], 75-86 [_process_get_label_quality_scores_kwargs] *)
Definition find_names : list string :=
  ["filter_by"; "frac_noise"; "num_to_remove_per_class"; "min_examples_per_class"; "confident_joint"; "n_jobs"; "verbose";
   "low_memory"]%string.
Definition score_names : list string := ["method"; "adjust_pred_probs"; "aggregator_kwargs"]%string.
Definition is_none (v : value) : bool := match v with VNone => true | _ => false end.
Definition process (accepted : list string) (kw : kwargs) : kwargs :=
  filter (fun e => existsb (String.eqb (fst e)) accepted && negb (is_none (snd e))) kw.

(** An argument with its default value; a value of another type is a type error. *)
Definition arg {A} (k : string) (kw : kwargs) (default : A) (read : value -> option A) : res A :=
  match kget k kw with
  | None => Ok default
  | Some v => match read v with Some a => Ok a | None => Raise TypeError end
  end.

Section Check.
  Variable srt : list Q -> list nat.
  Variable cores : nat.                                      (* n_jobs=None *)
  Variable sched : nat -> list nat * list nat.               (* what the process pools do *)
  Variable js : nat -> nat -> jobs.

  (** multilabel_classification/filter.py:13-26: the defaults *)
  Definition call_find (labels : list (list nat)) (pp : list (list Q)) (K : nat) (kw : kwargs) : res (list bool) :=
    do flt <- arg "filter_by" kw PruneByNoiseRate (fun v => match v with VFilter f => Some f | _ => None end) ;
    do frac <- arg "frac_noise" kw 1 (fun v => match v with VNumber q => Some q | _ => None end) ;
    do num <- arg "num_to_remove_per_class" kw None (fun v => match v with VNumbers l => Some (Some l) | _ => None end) ;
    do least <- arg "min_examples_per_class" kw 1%nat (fun v => match v with VCount n => Some n | _ => None end) ;
    do cj <- arg "confident_joint" kw None (fun v => match v with VJoint m => Some (Some m) | _ => None end) ;
    do n <- arg "n_jobs" kw cores (fun v => match v with VCount n => Some n | _ => None end) ;
    do low <- arg "low_memory" kw false (fun v => match v with VBool b => Some b | _ => None end) ;
    ml_find_label_issues srt labels pp K flt
      {| ml_frac_noise := frac; ml_num_to_remove := num; ml_min_examples := least; ml_confident_joint := cj;
         ml_n_jobs := n; ml_sched := sched |} (if low : bool then Some js else None).
  (** multilabel_classification/rank.py:53-60: the defaults *)
  Definition call_scores (labels : list (list nat)) (pp : list (list Q)) (K : nat) (kw : kwargs) : res (list Q) :=
    do method <- arg "method" kw SelfConfidence (fun v => match v with VMethod m => Some m | _ => None end) ;
    do adjust <- arg "adjust_pred_probs" kw false (fun v => match v with VBool b => Some b | _ => None end) ;
    do alpha <- arg "aggregator_kwargs" kw (Some (4 # 5)) (fun v => match v with VAlpha a => Some a | _ => None end) ;
    ml_label_quality_scores srt labels pp K method adjust alpha.

  (** label.py:89-135 [find_issues], [collect_info] *)
  Record outcome := {
    o_flags : list bool;
    o_scores : list Q;
    o_summary : Q;
    o_given : list (list nat);
    o_predicted : list (list nat) }.
  Definition predicted_labels (pp : list (list Q)) : list (list nat) :=
    onehot2int (map (map (fun p => if Qltb (1 # 2) p then 1%nat else 0%nat)) pp).
  Definition multilabel_find_issues (labels : list (list nat)) (pp : list (list Q)) (K : nat) (kw : kwargs) : res outcome :=
    let predicted := predicted_labels pp in
    do flags <- call_find labels pp K (process find_names kw) ;
    do scores <- call_scores labels pp K (process score_names kw) ;
    Ok {| o_flags := flags; o_scores := scores; o_summary := qmean scores; o_given := labels; o_predicted := predicted |}.
End Check.
