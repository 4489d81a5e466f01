(** * Model of the helpers of cleanlab/internal/util.py that count classes (113-191 and 518-560) *)
From Coq Require Import List ZArith Bool Arith.
From Verif Require Import Base.
Import ListNotations.
Open Scope nat_scope.

(** [np.unique]: the different values in increasing order *)
Fixpoint insert_class (z : Z) (l : list Z) : list Z :=
  match l with
  | [] => [z]
  | y :: t => if Z.ltb z y then z :: y :: t else if Z.eqb z y then l else y :: insert_class z t
  end.
Definition unique_classes (l : list Z) : list Z := fold_right insert_class [] l.
Definition count_class (z : Z) (l : list Z) : nat := length (filter (Z.eqb z) l).

(** [total_counts[unique_classes] = counts], one class: a negative index counts from the end, an index out of
    range raises *)
Definition put_count (acc : res (list nat)) (vc : Z * nat) : res (list nat) :=
  do a <- acc ;
  let n := Z.of_nat (length a) in
  let i := if Z.ltb (fst vc) 0 then (fst vc + n)%Z else fst vc in
  if (Z.leb 0 i && Z.ltb i n)%bool then Ok (upd a (Z.to_nat i) (snd vc)) else Raise IndexError.

(** util.py:113-168 [value_counts] of a list of labels without [multi_label]; labels that are no integers
    ([integers = false]) are represented by numbers in the same order.  The array of an empty list has no
    integer type. *)
Definition value_counts (integers : bool) (x : list Z) (num_classes : option nat) : res (list nat) :=
  let unique_classes := unique_classes x in
  let counts := map (fun v => count_class v x) unique_classes in
  match num_classes with
  | None => Ok counts
  | Some K =>
      if Nat.eqb K (length unique_classes) then Ok counts
      else match unique_classes with
           | [] => Ok (repeat 0 K)
           | _ => if integers then
                    if Z.leb (Z.of_nat K) (last unique_classes 0%Z) then Raise ValueError
                    else fold_left put_count (combine unique_classes counts) (Ok (repeat 0 K))
                  else if Nat.ltb K (length counts) then Raise ValueError
                       else Ok (counts ++ repeat 0 (K - length counts))
           end
  end.
(** the same with [multi_label=True]: the lists of labels are joined *)
Definition value_counts_multi (x : list (list Z)) (num_classes : option nat) : res (list nat) :=
  value_counts true (concat x) num_classes.

(** One entry of [labels]: a label or a list of labels. *)
Inductive entry := One (z : Z) | Many (l : list Z).
Definition is_many (e : entry) : bool := match e with Many _ => true | One _ => false end.
(** util.py:548-560 [get_unique_classes]: [list] of a number raises TypeError, and so does a set with a list in it *)
Definition get_unique_classes (labels : list entry) (multi_label : option bool) : res (list Z) :=
  let multi := match multi_label with Some b => b | None => existsb is_many labels end in
  if multi then do ls <- rmap (fun e => match e with Many l => Ok l | One _ => Raise TypeError end) labels ;
                Ok (unique_classes (concat ls))
  else do ls <- rmap (fun e => match e with One z => Ok z | Many _ => Raise TypeError end) labels ;
       Ok (unique_classes ls).
(** util.py:537-545 [num_unique_classes] *)
Definition num_unique_classes (labels : list entry) (multi_label : option bool) : res nat :=
  do u <- get_unique_classes labels multi_label ; Ok (length u).
(** util.py:518-535 [get_num_classes]; [pred_probs] has that many columns, [label_matrix] that shape *)
Definition get_num_classes (labels : option (list entry)) (pred_probs : option nat) (label_matrix : option (nat * nat))
  (multi_label : option bool) : res nat :=
  match pred_probs, label_matrix, labels with
  | Some K, _, _ => Ok K
  | None, Some (a, b), _ => if negb (Nat.eqb a b) then Raise ValueError else Ok a
  | None, None, None => Raise ValueError
  | None, None, Some l => num_unique_classes l multi_label
  end.
(** util.py:180-191 [get_missing_classes] *)
Definition get_missing_classes (labels : list entry) (pred_probs num_classes : option nat) (multi_label : option bool) : res (list nat) :=
  match pred_probs, num_classes with
  | None, None | Some _, Some _ => Raise ValueError
  | Some K, None | None, Some K =>
      do u <- get_unique_classes labels multi_label ;
      Ok (filter (fun k => negb (existsb (Z.eqb (Z.of_nat k)) u)) (seq 0 K))
  end.
