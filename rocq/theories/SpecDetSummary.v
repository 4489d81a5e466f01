(** * Vocabulary of the object detection summaries *)
From Coq Require Import String QArith Qabs List ZArith Bool Arith Sorted Permutation.
From Verif Require Import Base ModelDetection ModelDetSummary SpecDisplay.
Import ListNotations.
Open Scope Q_scope.

(** class [cl] is reported under [k] *)
Definition reported (names : option (nat -> option string)) (cl : nat) (k : class_key) : Prop :=
  match names with None => k = KIdx cl | Some f => exists s, f cl = Some s /\ k = KName s end.
(** every predicted box of an image with its class, class after class *)
Fixpoint boxes_from (k : nat) (p : image_pred) : list (nat * box) :=
  match p with [] => [] | ds :: t => map (fun d => (k, fst d)) ds ++ boxes_from (S k) t end.
(** width times height *)
Definition size (b : box) : Q := (bx2 b - bx1 b) * (by2 b - by1 b).
(** [d] maps every reported class that occurs among [boxes] to the sizes of its boxes in their order *)
Definition sizes_by_class names (boxes : list (nat * box)) (d : list (class_key * list Q)) : Prop :=
  NoDup (map fst d) /\
  forall k v, In (k, v) d <-> exists sel, those (fun cb => reported names (fst cb) k) boxes sel /\ sel <> [] /\ v = map (fun cb => size (snd cb)) sel.
(** [d] maps every reported class that occurs to its share of [classes], rounded to two decimals *)
Definition shares names (classes : list nat) (d : list (class_key * Q)) : Prop :=
  NoDup (map fst d) /\
  (forall k v, In (k, v) d -> exists sel z, those (fun c => reported names c k) classes sel /\ sel <> [] /\ v == inject_Z z / 100 /\ 0 <= v <= 1 /\
     Qabs (v - Qnat (length sel) / Qnat (length classes)) <= (1 # 200) + (1 # 1000000)) /\
  (forall c k, In c classes -> reported names c k -> exists v, In (k, v) d).
(** most boxes first, ties in the order of the images *)
Definition most_first (counts : list nat) (l : list (nat * nat)) : Prop :=
  (forall i n, In (i, n) l <-> nth_error counts i = Some n) /\
  StronglySorted (fun a b => (snd b < snd a)%nat \/ (snd a = snd b /\ fst a < fst b)%nat) l.
