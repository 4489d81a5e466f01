(** * Vocabulary for the regression CleanLearning object *)
From Coq Require Import QArith List ZArith Bool Arith String.
From Verif Require Import Base ModelUtil ModelRegression ModelRegLearn.
From Verif Require ModelLearn SpecLearn.
Import ListNotations.
Open Scope Q_scope.

(** the targets are at least two numbers, one for each row of features *)
Definition usable {A} (X : features A) (y : targets) : Prop :=
  (2 <= List.length (y_values y))%nat /\ (forall v, In v (y_values y) -> v <> None) /\
  List.length (x_rows X) = List.length (y_values y).

(** weights are not among the keyword arguments, and weights given are one per example and of use to the model *)
Definition weights_usable {A} (accepts_weights : bool) (X : features A) (w : option (list Q)) (kw kwf : dict) : Prop :=
  lookup "sample_weight" kw = None /\ lookup "sample_weight" kwf = None /\
  forall l, w = Some l -> accepts_weights = true /\ List.length l = List.length (x_rows X).

(** the table fits the targets: as many rows, flags of type bool, and the given labels (if in the table) are the targets *)
Definition fits (f : frame) (y : targets) : Prop :=
  f_len f = List.length (y_values y) /\ (exists m, f_issue f = Some (ModelLearn.BoolCol m) /\ List.length m = f_len f) /\
  forall g, f_given f = Some g -> List.length g = f_len f /\
    forall i, (i < List.length g)%nat -> exists a b, nth i g None = Some a /\ nth i (y_values y) None = Some b /\ a == b.

(** ** Histories *)
Inductive call (A : Type) :=
  | Find (X : features A) (y : targets) (kw : dict) (o : find_kwargs)
  | Fit (X : features A) (y : targets) (li : option issues_arg) (w : option (list Q)) (o : find_kwargs) (kw kwf : dict)
  | SaveSpace.
Arguments Find {A}. Arguments Fit {A}. Arguments SaveSpace {A}.
Definition run_call {A} (d : A) srt sq ex model folds aw trains cvn nb alea kl (c : call A) (s : object A) : object A :=
  match c with
  | Find X y kw o => fst (find_label_issues d srt sq ex model folds cvn nb alea kl X y kw o s)
  | Fit X y li w o kw kwf => fst (fit d srt sq ex model folds aw trains cvn nb alea kl X y li w o kw kwf s)
  | SaveSpace => save_space s
  end.
