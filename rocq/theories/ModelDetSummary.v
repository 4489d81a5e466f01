(** * Model of the data set summaries in cleanlab/object_detection/summary.py:48-236 *)
From Coq Require Import String QArith Qround List ZArith Bool Arith.
From Verif Require Import Base ModelUtil ModelBatched ModelDetection.
Import ListNotations.
Open Scope Q_scope.

(** summary.py:96-101 [object_counts_per_image] *)
Definition object_counts_per_image (dist : box -> box -> Q) (labels : list image_label) (predictions : list image_pred) : list nat * list nat :=
  let auxiliary_inputs := aux_inputs dist ALPHA labels predictions in
  (map (fun a => length (a_labs a)) auxiliary_inputs, map (fun a => length (a_preds a)) auxiliary_inputs).

(** summary.py:229-236 [get_sorted_bbox_count_idxs]; Python's sort is stable, also with reverse=True *)
Fixpoint insert_desc {A} (key : A -> nat) (x : A) (l : list A) : list A :=
  match l with [] => [x] | y :: t => if Nat.leb (key y) (key x) then x :: y :: t else y :: insert_desc key x t end.
Definition sorted_desc {A} (key : A -> nat) (l : list A) : list A := fold_right (insert_desc key) [] l.
Definition enumerate {A} (l : list A) : list (nat * A) := combine (seq 0 (length l)) l.
Definition get_sorted_bbox_count_idxs (dist : box -> box -> Q) labels predictions : list (nat * nat) * list (nat * nat) :=
  let c := object_counts_per_image dist labels predictions in
  (sorted_desc snd (enumerate (fst c)), sorted_desc snd (enumerate (snd c))).

(** keys of the returned dictionaries: the class number, or its name when [class_names] is given; [class_names] is a dictionary *)
Inductive class_key := KIdx (k : nat) | KName (s : string).
Definition key_eqb (a b : class_key) : bool :=
  match a, b with KIdx x, KIdx y => Nat.eqb x y | KName s, KName t => String.eqb s t | _, _ => false end.
Definition key_of (class_names : option (nat -> option string)) (cl : nat) : option class_key :=
  match class_names with None => Some (KIdx cl) | Some f => option_map KName (f cl) end.
(** a defaultdict with insertion order: [d[k] = f(d[k])] *)
Fixpoint dict_upd {V} (d : list (class_key * V)) (k : class_key) (dflt : V) (f : V -> V) : list (class_key * V) :=
  match d with
  | [] => [(k, f dflt)]
  | (k', v) :: t => if key_eqb k k' then (k', f v) :: t else (k', v) :: dict_upd t k dflt f
  end.

(** summary.py:659-666 [_get_bbox_areas]: classes without a name are skipped *)
Definition bbox_area (b : box) : Q := (bx2 b - bx1 b) * (by2 b - by1 b).
Definition get_bbox_areas class_names (boxes : list (nat * box)) (d : list (class_key * list Q)) : list (class_key * list Q) :=
  fold_left (fun d cb => match key_of class_names (fst cb) with None => d | Some k => dict_upd d k [] (fun l => l ++ [bbox_area (snd cb)]) end) boxes d.
Definition pred_boxes (a : aux) : list (nat * box) := map (fun p => (fst p, fst (snd p))) (a_preds a).
(** summary.py:141-154 [bounding_box_size_distribution] *)
Definition bounding_box_size_distribution (dist : box -> box -> Q) labels predictions class_names (sort : bool) :=
  let auxiliary_inputs := aux_inputs dist ALPHA labels predictions in
  let lab_area := fold_left (fun d a => get_bbox_areas class_names (a_labs a) d) auxiliary_inputs [] in
  let pred_area := fold_left (fun d a => get_bbox_areas class_names (pred_boxes a) d) auxiliary_inputs [] in
  if sort then (sorted_desc (fun kv => length (snd kv)) lab_area, sorted_desc (fun kv => length (snd kv)) pred_area) else (lab_area, pred_area).

(** summary.py:669-674 [_get_class_instances]: [class_names[str(cl)]] raises KeyError *)
Definition get_class_instances class_names (classes : list nat) (d : list (class_key * nat)) : res (list (class_key * nat)) :=
  rfold (fun d cl => match key_of class_names cl with None => Raise KeyError | Some k => Ok (dict_upd d k 0%nat S) end) classes d.
(** summary.py:653-656 [_normalize_by_total]: rounded to two decimals *)
Definition round2 (q : Q) : Q := inject_Z (round_half_even (q * 100)) / 100.
Definition normalize_by_total (d : list (class_key * nat)) : list (class_key * Q) :=
  let total := nsum (map snd d) in map (fun kv => (fst kv, round2 (Qnat (snd kv) / (Qnat total + EPSILON)))) d.
(** summary.py:190-203 [class_label_distribution]; both counts are updated image by image *)
Definition class_label_distribution (dist : box -> box -> Q) labels predictions class_names : res (list (class_key * Q) * list (class_key * Q)) :=
  let auxiliary_inputs := aux_inputs dist ALPHA labels predictions in
  do freqs <- rfold (fun lp a =>
      do lab_freq <- get_class_instances class_names (map fst (a_labs a)) (fst lp) ;
      do pred_freq <- get_class_instances class_names (map fst (a_preds a)) (snd lp) ;
      Ok (lab_freq, pred_freq)) auxiliary_inputs ([], []) ;
  Ok (normalize_by_total (fst freqs), normalize_by_total (snd freqs)).
