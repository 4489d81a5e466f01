(** * C108, C109: formats of multi-annotator labels, and which of them are accepted *)
From Coq Require Import String QArith List ZArith Bool Arith Sorted Lia.
From Verif Require Import Base ModelLabels ModelWide SpecLabels SpecWide ModelMultiannotator SpecMultiannotator ProofLabels ProofWide.
Import ListNotations.
Open Scope nat_scope.

(** C108: the wide table has a row per task and a column per annotator, in increasing order, and holds exactly the labels of the long table; an annotator
    labelling a task twice raises ValueError. *)
Theorem C108_convert : forall {T A L : Type} (leb_t : T -> T -> bool) (leb_a : A -> A -> bool), total_order leb_t -> total_order leb_a ->
  forall long : list (T * A * option L),
  (one_label_each long -> exists tasks annotators m, convert_long_to_wide leb_t leb_a long = Ok (tasks, annotators, m) /\
     increasing leb_t tasks /\ increasing leb_a annotators /\
     (forall t, In t tasks <-> exists a l, In (t, a, l) long) /\ (forall a, In a annotators <-> exists t l, In (t, a, l) long) /\
     length m = length tasks /\ (forall r, In r m -> length r = length annotators) /\
     (forall i j t a, nth_error tasks i = Some t -> nth_error annotators j = Some a -> forall l, at_cell m i j = Some l <-> In (t, a, Some l) long)) /\
  (~ one_label_each long -> convert_long_to_wide leb_t leb_a long = Raise ValueError).
Proof. exact @wide_full. Qed.
Print Assumptions C108_convert.

(** C108: integer labels become their rank among the labels that occur, missing ones stay missing, and the returned map gives the label back. *)
Theorem C108_format_integers : forall labels, exists m inv names, format_ints labels = (m, inv) /\ inv = combine (seq 0 (length names)) names /\
    increasing Z.leb names /\ (forall x, In x names <-> occurs labels x) /\
    Forall2 (Forall2 (fun o c => match o with None => c = None | Some x => exists k, c = Some (New k) /\ nth_error names k = Some x end)) labels m.
Proof. exact format_ints_full. Qed.
Print Assumptions C108_format_integers.
(** the same for names, unless a class is called "nan" *)
Theorem C108_format_strings : forall labels, ~ occurs labels "nan"%string -> exists m inv names, format_strings labels = (m, inv) /\ inv = combine (seq 0 (length names)) names /\
    increasing String.leb names /\ (forall x, In x names <-> occurs labels x) /\
    Forall2 (Forall2 (fun o c => match o with None => c = None | Some x => exists k, c = Some (New k) /\ nth_error names k = Some x end)) labels m.
Proof. exact format_strings_full. Qed.
Print Assumptions C108_format_strings.
(** C108: a class called "nan" and fractional labels are left as they are. *)
Theorem C108_unformatted : format_strings [[Some "a"; Some "nan"]]%string = ([[Some (New 0); Some (Old "nan"%string)]], [(0, "a"%string)]) /\
  format_floats [[Some (1 # 2)%Q; Some (3 # 2)%Q; Some 2%Q]] = ([[Some (Old (1 # 2)%Q); Some (Old (3 # 2)%Q); Some (New 2)]], [(0, 0%Q); (1, 1%Q); (2, 2%Q)]).
Proof. split; vm_compute; reflexivity. Qed.
Print Assumptions C108_unformatted.

Example C108_example :
  convert_long_to_wide Nat.leb Nat.leb [(7, 1, Some "x"); (3, 2, Some "y"); (7, 2, None); (3, 1, Some "x")]%string
    = Ok ([3; 7], [1; 2], [[Some "x"; Some "y"]; [Some "x"; None]]%string) /\
  convert_long_to_wide Nat.leb Nat.leb [(7, 1, Some "x"); (7, 1, Some "x")]%string = Raise ValueError /\
  format_ints [[Some 5%Z; None]; [Some (-1)%Z; Some 5%Z]] = ([[Some (New 1); None]; [Some (New 0); Some (New 1)]], [(0, (-1)%Z); (1, 5%Z)]) /\
  total_order Nat.leb.
Proof. split; [vm_compute; reflexivity|]. split; [vm_compute; reflexivity|]. split; [vm_compute; reflexivity|exact nat_order]. Qed.

(** C109: a table of class numbers is accepted exactly when it is not empty, every example and every annotator has a label, some example has two labels
    (unless single labels are allowed), and the predictions, if any, have a row per example and a column for every class; all rejections are ValueErrors. *)
Theorem C109_accepted : forall t M pp allow_single_label, (forall r, In r t -> length r = M) ->
  (assert_valid_multiannotator t M pp allow_single_label = Ok tt <->
   t <> [] /\ (forall r, In r t -> exists k, In (Some k) r) /\ every_annotator_used M t /\ (allow_single_label = true \/ has_overlap t) /\
   (forall n K, pp = Some (n, K) -> n = length t /\ forall r k, In r t -> In (Some k) r -> k < K)) /\
  (assert_valid_multiannotator t M pp allow_single_label = Ok tt \/ assert_valid_multiannotator t M pp allow_single_label = Raise ValueError).
Proof. exact accepted_full. Qed.
Print Assumptions C109_accepted.
Example C109_example :
  assert_valid_multiannotator [[Some 0; None]; [Some 2; Some 1]] 2 (Some (2, 3)) false = Ok tt /\
  assert_valid_multiannotator [[Some 0; None]; [Some 2; Some 1]] 2 (Some (2, 2)) false = Raise ValueError /\
  assert_valid_multiannotator [[Some 0; None]; [None; Some 1]] 2 None false = Raise ValueError /\
  assert_valid_multiannotator [[Some 0; None]; [None; Some 1]] 2 None true = Ok tt /\
  assert_valid_multiannotator [[Some 0; None]; [Some 1; None]] 2 None true = Raise ValueError.
Proof. repeat split; vm_compute; reflexivity. Qed.
