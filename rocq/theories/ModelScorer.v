(** * Model of the options of the multi-label scores: cleanlab/internal/multilabel_scorer.py:65-131, 236-300, 328-340 and
      cleanlab/multilabel_classification/rank.py:37-50, 53-179

    Strings are ASCII strings.  Functions passed by the user, [softmin] and the entropy score are arguments of the model. *)
From Coq Require Import QArith String Ascii List Bool Arith.
From Verif Require Import Base ModelUtil ModelRank ModelMultilabel ModelDatalab.
Import ListNotations.
Open Scope Q_scope.

(** str.upper *)
Definition upper_char (c : ascii) : ascii :=
  let n := nat_of_ascii c in if (Nat.leb 97 n && Nat.leb n 122)%bool then ascii_of_nat (n - 32) else c.
Fixpoint upper (s : string) : string := match s with EmptyString => EmptyString | String c t => String (upper_char c) (upper t) end.

Inductive base_scorer := Standard (m : score_method) | Entropy.
(** multilabel_scorer.py:102-131 [ClassLabelScorer.from_str] *)
Definition from_str (method : string) : res base_scorer :=
  if String.eqb (upper method) "SELF_CONFIDENCE" then Ok (Standard SelfConfidence)
  else if String.eqb (upper method) "NORMALIZED_MARGIN" then Ok (Standard NormalizedMargin)
  else if String.eqb (upper method) "CONFIDENCE_WEIGHTED_ENTROPY" then Ok Entropy
  else Raise ValueError.

(** the function that aggregates: one of the two of cleanlab, or one of the user *)
Inductive agg_fun := Ema | Softmin | Custom (f : nat).
(** the value of a keyword argument *)
Inductive kwvalue := KNum (q : Q) | KNone | KStr (s : string) | KFun (g : agg_fun) | KOther.
Definition kwdict := list (string * kwvalue).
Definition without (k : string) (d : kwdict) : kwdict := filter (fun kv => negb (String.eqb (fst kv) k)) d.

Section Scorer.
Variable srt : list Q -> list nat.
Variable softmin : kwvalue -> list (list Q) -> res (list Q).                        (* by its [temperature]; [KNum (1 # 10)] when absent *)
Variable custom : nat -> list (list Q) -> kwdict -> res (list Q).
Variable entropy : list nat -> list (list Q) -> list Q.

(** multilabel_scorer.py:256-273 [Aggregator.__init__] called with the entries of a dictionary as arguments *)
Definition make_aggregator (kwargs : kwdict) : res (agg_fun * kwdict) :=
  match lookup "self" kwargs with
  | Some _ => Raise TypeError                                                       (* two values for [self] *)
  | None =>
      match lookup "method" kwargs with
      | None => Raise TypeError                                                     (* a missing argument *)
      | Some v =>
          do g <- match v with
                  | KStr s => if String.eqb s "exponential_moving_average" then Ok Ema
                              else if String.eqb s "softmin" then Ok Softmin else Raise ValueError
                  | KFun g => Ok g
                  | _ => Raise TypeError
                  end ;
          Ok (g, without "method" kwargs)
      end
  end.
(** multilabel_scorer.py:281-297 [Aggregator.__call__] without further arguments *)
Definition call_aggregator (a : agg_fun * kwdict) (scores : list (list Q)) : res (list Q) :=
  let '(g, kwargs) := a in
  let updated_kwargs := without "axis" kwargs ++ [("axis"%string, KNum 1)] in
  match g with
  | Ema =>
      match lookup "s" updated_kwargs with
      | Some _ => Raise TypeError
      | None =>
          do alpha <- match lookup "alpha" updated_kwargs with
                      | None | Some KNone => Ok None
                      | Some (KNum q) => Ok (Some q)
                      | Some _ => Raise TypeError
                      end ;
          rmap (exponential_moving_average srt alpha) scores
      end
  | Softmin =>
      match lookup "s" updated_kwargs with
      | Some _ => Raise TypeError
      | None => softmin (match lookup "temperature" updated_kwargs with Some v => v | None => KNum (1 # 10) end) scores
      end
  | Custom f => custom f scores updated_kwargs
  end.
(** multilabel_scorer.py:65-100, 444-488: the scores of every class *)
Definition scorer_class_scores (b : base_scorer) (adjust : bool) (y : list (list nat)) (pp : list (list Q)) (K : nat) : res (list (list Q)) :=
  match b with
  | Standard m => class_scores y pp K m adjust
  | Entropy =>
      if adjust then match K with O => Ok (map (fun _ => []) y) | _ => Raise ValueError end
      else let cols := map (fun c => entropy (ncol c y) (stack_complement (col c pp))) (seq 0 K) in
           Ok (tab (length y) (fun e => map (fun s => nth e s 0) cols))
  end.
(** rank.py:37-50 [_create_multilabel_scorer]; [None] and an empty dictionary mean the default of [MultilabelScorer] *)
Definition create_multilabel_scorer (method : string) (aggregator_kwargs : option kwdict) : res (base_scorer * (agg_fun * kwdict)) :=
  do b <- from_str method ;
  do a <- match aggregator_kwargs with
          | None | Some [] => Ok (Ema, [("alpha"%string, KNum (4 # 5))])
          | Some d => make_aggregator d
          end ;
  Ok (b, a).
(** rank.py:53-121 [get_label_quality_scores] *)
Definition quality_scores (labels : list (list nat)) (pp : list (list Q)) (K : nat) (method : string) (adjust : bool)
           (aggregator_kwargs : option kwdict) : res (list Q) :=
  do _ <- assert_valid_multilabel labels pp K ;
  let y := int2onehot labels K in
  do sc <- create_multilabel_scorer method aggregator_kwargs ;
  let '(b, a) := sc in
  do _ <- check_onehot y pp K ;
  do s <- scorer_class_scores b adjust y pp K ;
  call_aggregator a s.
(** rank.py:124-179 [get_label_quality_scores_per_class] *)
Definition quality_scores_per_class (labels : list (list nat)) (pp : list (list Q)) (K : nat) (method : string) (adjust : bool) : res (list (list Q)) :=
  do _ <- assert_valid_multilabel labels pp K ;
  do sc <- create_multilabel_scorer method None ;
  scorer_class_scores (fst sc) adjust (int2onehot labels K) pp K.
End Scorer.
