(** * Vocabulary for the properties of get_info, the report and the registry *)
From Coq Require Import String QArith List Bool Arith Sorted Permutation.
From Verif Require Import Base ModelLabels ModelDatalab SpecDatalab ModelReport.
Import ListNotations.
Open Scope string_scope.
Open Scope list_scope.
Open Scope nat_scope.

Section Spec.
Context {A W : Type}.
(** the info that a Datalab holds about a check *)
Definition stored (st : store A W) (s : string) : option (idict A W) :=
  match lookup s (top st) with Some loc => Some (nth loc (objs st) []) | None => None end.
Definition valid_store (st : store A W) : Prop := forall s loc, lookup s (top st) = Some loc -> loc < length (objs st).
(** what the caller sees in a dictionary *)
Definition content (st : store A W) (h : handle) : idict A W := match h with At loc => nth loc (objs st) [] | Outer => [] end.
Definition caller_writes (h : handle) (ws : list (string * string * pyval A W)) (st : store A W) : store A W :=
  fold_left (fun st w => caller_write h (fst (fst w)) (snd (fst w)) (snd w) st) ws st.

(** a list of integers *)
Definition ints (l : list nat) : list (pyval A W) := map PInt l.
(** names of examples *)
Definition names (l : list A) : list (pyval A W) := map (fun x => PName (Some x)) l.

(** the [k] examples of lowest score, lowest first *)
Definition shows_lowest (k : nat) (sc : list Q) (ex : list nat) : Prop :=
  NoDup ex /\ length ex = Nat.min k (length sc) /\ (forall i, In i ex -> i < length sc) /\
  StronglySorted (fun i j => (nth i sc 0 <= nth j sc 0)%Q) ex /\
  (forall i j, In i ex -> j < length sc -> ~ In j ex -> (nth i sc 0 <= nth j sc 0)%Q).
(** pandas [sort_values(by="num_issues", ascending=False)], ties in any order *)
Definition sorts_by_num (f : list row -> list row) : Prop :=
  forall l, Permutation (f l) l /\ StronglySorted (fun x y => r_num y <= r_num x) (f l).

(** what the report prints for a value: never ends, if it is a list (or array of one dimension) of lists that
    have not all the same length, or an empty list *)
Definition entries_of (v : pyval A W) : option (list (pyval A W)) :=
  match v with PList l | PArr 1 l => Some l | _ => None end.
Definition unprintable (v : pyval A W) : Prop :=
  exists l, entries_of v = Some l /\ (forall x, In x l -> exists r, x = PList r) /\
            (l = [] \/ exists a b, In (PList a) l /\ In (PList b) l /\ length a <> length b).

(** the checks of images, which the report only lists in the table *)
Definition image_checks : list string :=
  ["dark"; "light"; "low_information"; "odd_aspect_ratio"; "odd_size"; "grayscale"; "blurry"].
(** the checks whose info contains labels *)
Definition about_labels (t : task) (s : string) : Prop :=
  s = "label" /\ t <> Regression \/ s = "class_imbalance" /\ t = Classification.
(** the check [s] has its own section in the report *)
Definition reported (show_all : bool) (st : data_issues (idict A W)) (s : string) : Prop :=
  ~ In s image_checks /\ exists r, In r (issue_summary st) /\ r_type r = s /\ (show_all = true \/ 0 < r_num r).

(** the info of a built-in check contains what its [collect_info] stores; the label columns are as long as the
    data *)
Definition has_entries (n : nat) (v : pyval A W) : Prop := exists l, (v = PList l \/ v = PArr 1 l) /\ length l = n.
Definition builtin_info (t : task) (n : nat) (s : string) (i : idict A W) : Prop :=
  (forall ks k kd, lookup s (collected t) = Some ks -> In (k, kd) ks -> exists v, lookup k i = Some v /\ has_kind kd v = true) /\
  (s = "label" -> forall k, k = "given_label" \/ k = "predicted_label" ->
     exists v, lookup k i = Some v /\ has_entries n v /\
       (t = Multilabel -> forall l x, v = PList l \/ v = PArr 1 l -> In x l -> exists m, has_entries m x)) /\
  (s = "class_imbalance" -> exists v, lookup "given_label" i = Some v /\ has_entries n v) /\
  (s = "class_imbalance" -> lookup "predicted_label" i = None) /\
  (s = "near_duplicate" -> forall k v, k = "near_duplicate_sets" \/ k = "distance_to_nearest_neighbor" ->
     lookup k i = Some v -> has_entries n v).
End Spec.

(** the entry of the info that the report of a built-in check contains from a verbosity level on, and the level
    from which on it contains all *)
Inductive printed_from (t : task) : string -> string -> nat -> Prop :=
| from_outlier : printed_from t "outlier" "average_ood_score" 2
| from_classes : t = Classification -> printed_from t "label" "classes_by_label_quality" 3
| from_overlapping : t = Classification -> printed_from t "label" "overlapping_classes" 3
| from_duplicate : printed_from t "near_duplicate" "threshold" 2
| from_noniid : printed_from t "non_iid" "p-value" 0
| from_imbalance : printed_from t "class_imbalance" "Rarest Class" 0
| from_group : printed_from t "underperforming_group" "threshold" 2
| from_valuation : printed_from t "data_valuation" "average_data_valuation" 3
| from_null : printed_from t "null" "most_common_issue" 2.
Definition four_levels (s : string) : Prop := s = "outlier" \/ s = "label" \/ s = "data_valuation".
Definition prints_all (s : string) (v : nat) : Prop := four_levels s /\ v = 4 \/ ~ four_levels s /\ v = 3.

Section RegistrySpec.
Context {C : Type} (is_manager : C -> bool) (issue_name : C -> string).
(** the class registered last for a task under a name, among the accepted calls *)
Definition task_name (t : task) : string :=
  match t with Classification => "classification" | Regression => "regression" | Multilabel => "multilabel" end.
Definition last_registered (t : task) (s : string) (calls : list (C * string)) (c : option C) : Prop :=
  match c with
  | Some c => exists a b, calls = a ++ (c, task_name t) :: b /\ is_manager c = true /\ issue_name c = s /\
      forall c', In (c', task_name t) b -> is_manager c' = true -> issue_name c' <> s
  | None => forall c', In (c', task_name t) calls -> is_manager c' = true -> issue_name c' <> s
  end.
End RegistrySpec.
