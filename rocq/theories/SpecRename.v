(** * Vocabulary for renaming the classes of multi-annotator data (C151) *)
From Coq Require Import QArith List Bool Arith.
From Verif Require Import Base ModelMultiannotator SpecMultiannotator SpecSymmetry SpecRows.
Import ListNotations.
Open Scope Q_scope.

(** class [k] is renamed to the [k]-th entry of [names] in an annotation table *)
Definition renamed_table (names : list nat) (t : list row) : list row :=
  map (map (option_map (fun l => nth l names 0%nat))) t.
(** ... and in a matrix of probabilities up to equality of numbers *)
Definition renamed_matrix (names : list nat) (p p' : list (list Q)) : Prop :=
  Forall2 (fun row row' => length row' = length row /\ forall k, (k < length row)%nat -> nth (nth k names 0%nat) row' 0 == nth k row 0) p p'.
(** no row attains its largest probability twice *)
Definition clear_prediction (p : list (list Q)) : Prop :=
  forall row i j, In row p -> (i < length row)%nat -> (j < length row)%nat -> i <> j -> nth i row 0 == nth j row 0 ->
    exists h, (h < length row)%nat /\ nth i row 0 < nth h row 0.
(** no two labels of annotator [j] are tied in how often they were given, how often rightly, and in the quality of the consensus *)
Definition distinct_classes (t : list row) (c : list nat) (q : list Q) (j : nat) : Prop :=
  forall k1 k2, (1 <= n_gave t j k1)%nat -> n_gave t j k1 = n_gave t j k2 -> n_right t c j k1 = n_right t c j k2 ->
    qsum (qualities_given t q j k1) == qsum (qualities_given t q j k2) -> k1 = k2.
(** the consensus of the renamed data: labels and posterior renamed, the numbers equal *)
Definition renamed_consensus (names : list nat) (info' info : consensus_info) : Prop :=
  c_label info' = renamed_labels names (c_label info) /\ Forall2 Qeq (c_quality info') (c_quality info) /\ c_agreement info' = c_agreement info /\
  renamed_matrix names (post (c_post info)) (post (c_post info')) /\
  Forall2 Qeq (model_weights (c_post info')) (model_weights (c_post info)) /\ Forall2 Qeq (annot_weights (c_post info')) (annot_weights (c_post info)).
(** the statistics of every annotator: the numbers equal, the worst class renamed when it is not one of several *)
Definition renamed_stats (names : list nat) (M : nat) (t : list row) (info' info : consensus_info) : Prop :=
  forall j, (j < M)%nat -> let st' := annotator_stats (renamed_table names t) info' j in let st := annotator_stats t info j in
    same_value (st_quality st') (st_quality st) /\ same_value (st_agreement st') (st_agreement st) /\ st_num st' = st_num st /\
    (distinct_classes t (c_label info) (c_quality info) j -> st_worst st' = nth (st_worst st) names 0%nat).
