(** * C174: the options of the multi-label scores *)
From Coq Require Import QArith String Ascii List Bool Arith Lia.
From Verif Require Import Base ModelUtil ModelRank ModelPool ModelFilter ModelMultilabel ModelDatalab ModelScorer SpecFilter SpecScorer ProofScorer.
Import ListNotations.
Open Scope Q_scope.

(** The name of the scoring method may be written in capitals or not; any other name is a ValueError, with every aggregator. *)
Theorem C174_names : forall method b, from_str method = Ok b <-> same_word method (score_name b).
Proof. exact names_full. Qed.
Print Assumptions C174_names.
Theorem C174_name_error : forall srt softmin custom entropy labels pp K method adjust kw, assert_valid_multilabel labels pp K = Ok tt ->
  (forall b, ~ same_word method (score_name b)) ->
  quality_scores srt softmin custom entropy labels pp K method adjust kw = Raise ValueError /\
  quality_scores_per_class entropy labels pp K method adjust = Raise ValueError.
Proof. exact method_error. Qed.
Print Assumptions C174_name_error.
(** No aggregator_kwargs, or an empty dictionary, means the moving average with weight 0.8. *)
Theorem C174_default : forall srt softmin custom entropy labels pp K method adjust,
  quality_scores srt softmin custom entropy labels pp K method adjust None =
  quality_scores srt softmin custom entropy labels pp K method adjust (Some [("method", KStr "exponential_moving_average"); ("alpha", KNum (4 # 5))]%string) /\
  quality_scores srt softmin custom entropy labels pp K method adjust (Some []) = quality_scores srt softmin custom entropy labels pp K method adjust None.
Proof. exact default_full. Qed.
Print Assumptions C174_default.
(** Asking for the moving average, by name or by the function, gives the scores of C64 with the weight of the dictionary. *)
Theorem C174_moving_average : forall srt softmin custom entropy labels pp K method m adjust d a, d <> [] -> asks_ema d -> no_reserved d -> weight d a ->
  same_word method (score_name (Standard m)) ->
  quality_scores srt softmin custom entropy labels pp K method adjust (Some d) = ml_label_quality_scores srt labels pp K m adjust a.
Proof. exact ema_full. Qed.
Print Assumptions C174_moving_average.
(** All other entries of the dictionary are ignored. *)
Theorem C174_ignored : forall srt softmin custom entropy labels pp K method adjust d d', d <> [] -> d' <> [] -> asks_ema d -> asks_ema d' ->
  no_reserved d -> no_reserved d' -> lookup "alpha" d = lookup "alpha" d' ->
  quality_scores srt softmin custom entropy labels pp K method adjust (Some d) = quality_scores srt softmin custom entropy labels pp K method adjust (Some d').
Proof. exact ignored_full. Qed.
Print Assumptions C174_ignored.
(** softmin is applied to the class scores with the temperature of the dictionary, 0.1 if there is none. *)
Theorem C174_softmin : forall srt softmin custom entropy labels pp K method adjust d, d <> [] -> no_reserved d ->
  lookup "method" d = Some (KStr "softmin") \/ lookup "method" d = Some (KFun Softmin) -> check_onehot (int2onehot labels K) pp K = Ok tt ->
  quality_scores srt softmin custom entropy labels pp K method adjust (Some d) =
  do cs <- quality_scores_per_class entropy labels pp K method adjust ; softmin (match lookup "temperature" d with Some v => v | None => KNum (1 # 10) end) cs.
Proof. exact softmin_full. Qed.
Print Assumptions C174_softmin.
(** A function of the user is called with the matrix of class scores and the entries of the dictionary, except that axis is always 1. *)
Theorem C174_custom : forall srt softmin custom entropy labels pp K method adjust d f s cs, d <> [] -> lookup "self" d = None ->
  lookup "method" d = Some (KFun (Custom f)) ->
  quality_scores srt softmin custom entropy labels pp K method adjust (Some d) = Ok s ->
  quality_scores_per_class entropy labels pp K method adjust = Ok cs ->
  exists kw, custom f cs kw = Ok s /\ lookup "axis" kw = Some (KNum 1) /\
    forall k, k <> "method"%string -> k <> "axis"%string -> lookup k kw = lookup k d.
Proof. exact custom_full. Qed.
Print Assumptions C174_custom.
(** Dictionaries that are refused. *)
Theorem C174_refused : forall srt softmin custom entropy labels pp K method adjust d, d <> [] -> assert_valid_multilabel labels pp K = Ok tt ->
  (exists b, same_word method (score_name b)) ->
  (lookup "method" d = None -> quality_scores srt softmin custom entropy labels pp K method adjust (Some d) = Raise TypeError) /\
  (forall s, lookup "self" d = None -> lookup "method" d = Some (KStr s) -> s <> "exponential_moving_average"%string -> s <> "softmin"%string ->
     quality_scores srt softmin custom entropy labels pp K method adjust (Some d) = Raise ValueError) /\
  (forall v, lookup "method" d = Some v -> (v = KNone \/ v = KOther \/ exists q, v = KNum q) ->
     quality_scores srt softmin custom entropy labels pp K method adjust (Some d) = Raise TypeError).
Proof. exact refused_full. Qed.
Print Assumptions C174_refused.
(** The entropy score cannot be combined with adjusted probabilities. *)
Theorem C174_entropy_adjusted : forall srt softmin custom entropy labels pp K method kw, (1 <= K)%nat -> same_word method (score_name Entropy) ->
  (forall s, quality_scores srt softmin custom entropy labels pp K method true kw <> Ok s) /\
  (forall s, quality_scores_per_class entropy labels pp K method true <> Ok s).
Proof. exact entropy_adjust. Qed.
Print Assumptions C174_entropy_adjusted.
Theorem C174_entropy_error : forall entropy labels pp K method, (1 <= K)%nat -> same_word method (score_name Entropy) ->
  assert_valid_multilabel labels pp K = Ok tt -> quality_scores_per_class entropy labels pp K method true = Raise ValueError.
Proof. exact entropy_adjust_error. Qed.
Print Assumptions C174_entropy_error.
(** Without adjusting, it is the entropy score of the one-vs-rest problem of each class. *)
Theorem C174_entropy : forall entropy labels pp K method, same_word method (score_name Entropy) -> assert_valid_multilabel labels pp K = Ok tt ->
  exists s, quality_scores_per_class entropy labels pp K method false = Ok s /\ length s = length labels /\
    forall e, (e < length labels)%nat -> length (nth e s []) = K /\ forall c, (c < K)%nat ->
      nth c (nth e s []) 0 = nth e (entropy (map (fun l => if mem c l then 1%nat else 0%nat) labels) (map (fun r => [1 - nth c r 0; nth c r 0]) pp)) 0.
Proof. exact entropy_scores. Qed.
Print Assumptions C174_entropy.
Theorem C174_per_class : forall entropy labels pp K method m adjust, same_word method (score_name (Standard m)) ->
  quality_scores_per_class entropy labels pp K method adjust = ml_label_quality_scores_per_class labels pp K m adjust.
Proof. exact per_class_full. Qed.
Print Assumptions C174_per_class.

Definition no_softmin (_ : kwvalue) (s : list (list Q)) : res (list Q) := Ok (map qminimum s).
Definition worst (_ : nat) (s : list (list Q)) (_ : kwdict) : res (list Q) := Ok (map qminimum s).
Definition no_entropy (_ : list nat) (_ : list (list Q)) : list Q := [].
Definition run174 (method : string) (kw : option kwdict) : res (list Q) :=
  match quality_scores argsort_ins no_softmin worst no_entropy [[1]; [0; 2]]%nat [[1#10; 9#10; 1#10]; [4#10; 1#10; 9#10]] 3 method false kw with
  | Ok s => Ok (map Qred s) | Raise e => Raise e
  end.
(** Naming the documented default method without its weight does not give the default scores, and a misspelt weight is not noticed. *)
Theorem C174_weight_refuted : run174 "self_confidence" None = Ok [9#10; 1#2] /\
  run174 "self_confidence" (Some [("method", KStr "exponential_moving_average")]%string) = Ok [9#10; 13#20] /\
  run174 "self_confidence" (Some [("method", KStr "exponential_moving_average"); ("alhpa", KNum (4 # 5))]%string) = Ok [9#10; 13#20].
Proof. repeat split; vm_compute; reflexivity. Qed.
Print Assumptions C174_weight_refuted.
Example C174_example :
  run174 "Self_Confidence" (Some [("alpha", KNum (4 # 5)); ("axis", KNum 0); ("method", KFun Ema)]%string) = Ok [9#10; 1#2] /\
  run174 "NORMALIZED_MARGIN" (Some [("method", KFun (Custom 0))]%string) = Ok [9#10; 2#5] /\
  run174 "selfconfidence" None = Raise ValueError /\
  run174 "self_confidence" (Some [("alpha", KNum (4 # 5))]%string) = Raise TypeError /\
  run174 "self_confidence" (Some [("method", KStr "mean")]%string) = Raise ValueError /\
  run174 "self_confidence" (Some [("method", KNum 1)]%string) = Raise TypeError /\
  run174 "self_confidence" (Some [("method", KStr "exponential_moving_average"); ("alpha", KNum (3 # 2))]%string) = Raise ValueError /\
  run174 "self_confidence" (Some [("method", KStr "exponential_moving_average"); ("s", KNone)]%string) = Raise TypeError.
Proof. repeat split; vm_compute; reflexivity. Qed.
Example C174_hypotheses :
  asks_ema [("alpha", KNum (4 # 5)); ("axis", KNum 0); ("method", KFun Ema)]%string /\
  no_reserved [("alpha", KNum (4 # 5)); ("axis", KNum 0); ("method", KFun Ema)]%string /\
  weight [("alpha", KNum (4 # 5)); ("axis", KNum 0); ("method", KFun Ema)]%string (Some (4 # 5)) /\
  same_word "Self_Confidence" (score_name (Standard SelfConfidence)) /\
  check_onehot (int2onehot [[1]; [0; 2]]%nat 3) [[1#10; 9#10; 1#10]; [4#10; 1#10; 9#10]] 3 = Ok tt.
Proof.
  split; [now right|]. split; [split; reflexivity|]. split; [right; right; exists (4 # 5); split; reflexivity|]. split; [|reflexivity].
  apply names_full. reflexivity.
Qed.
