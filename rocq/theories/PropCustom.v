(** * Property C175: defining custom checks *)
From Coq Require Import String List Bool Arith ZArith Lia.
From Verif Require Import Base BaseFacts ModelDatalab ModelCustom SpecCustom ProofCustom.
Import ListNotations.
Open Scope string_scope.
Open Scope list_scope.

(** a class statement is accepted if and only if the class is abstract, or names the check and any verbosity
    levels written in it are lists of strings *)
Theorem C175_accepted c b : (exists c', define_class c b = Ok c') <->
  b_abstract b = true \/ (b_name b <> None /\ forall l, b_levels b = Some l -> strings_only l).
Proof. exact (accepted_full c b). Qed.
Print Assumptions C175_accepted.

(** otherwise ValueError for the levels, TypeError for the name *)
Theorem C175_errors c b : b_abstract b = false ->
  ((exists l, b_levels b = Some l /\ ~ strings_only l) -> define_class c b = Raise ValueError) /\
  ((forall l, b_levels b = Some l -> strings_only l) -> b_name b = None -> define_class c b = Raise TypeError).
Proof. exact (errors_full c b). Qed.
Print Assumptions C175_errors.

(** the scores of the check are in the column of its name, whatever the class or its ancestors say, and its
    verbosity levels are its own, or else its parent's *)
Theorem C175_attributes c b c' : define_class c b = Ok c' -> b_abstract b = false ->
  exists n, b_name b = Some n /\ attribute b_name c' = Some n /\ attribute b_key c' = Some (score_column n) /\
    attribute b_levels c' = match b_levels b with Some l => Some l | None => attribute b_levels c end.
Proof. exact (attributes_full c b c'). Qed.
Print Assumptions C175_attributes.

(** a class derived from IssueManager through classes that are not abstract has lists of strings as levels *)
Theorem C175_levels bs c : derive issue_manager bs = Ok c -> (forall b, In b bs -> b_abstract b = false) ->
  exists l, attribute b_levels c = Some l /\ strings_only l.
Proof. intros E Ha. exact (derive_levels bs issue_manager c E Ha (ex_intro _ _ (conj eq_refl default_strings))). Qed.
Print Assumptions C175_levels.

(** the report accepts the levels of the check and one more than the highest *)
Theorem C175_unsupported c l columns info v : attribute b_levels c = Some l ->
  (l = [] -> shown_info c columns info v = Raise ValueError) /\
  forall t, is_top l t -> ~ In v (map fst l) -> v <> t -> shown_info c columns info v = Raise ValueError.
Proof.
  intros E. split; [intros El; apply empty_full; rewrite E, El; reflexivity|].
  intros t. exact (unsupported_full c l columns info v t E).
Qed.
Print Assumptions C175_unsupported.

(** with levels 0, 1, 2, ... in this order the report at level v shows the entries of the levels up to v and,
    one above the highest, all the info, without what is already shown as a column *)
Theorem C175_shown c l columns info (v : nat) : attribute b_levels c = Some l -> l <> [] -> strings_only l -> numbered l -> v <= length l ->
  (forall k s, listed l k s -> (k <= Z.of_nat v)%Z -> ~ In s columns -> In s info) ->
  exists ks, shown_info c columns info (Z.of_nat v) = Ok ks /\ NoDup ks /\
    forall s, In s ks <-> ((exists k, listed l k s /\ (k <= Z.of_nat v)%Z) \/ v = length l /\ In s info) /\ ~ In s columns.
Proof. exact (numbered_full c l columns info v). Qed.
Print Assumptions C175_shown.

(** an entry of these levels that the check does not store is a KeyError *)
Theorem C175_missing c l columns info (v : nat) k s : attribute b_levels c = Some l -> strings_only l -> numbered l -> v <= length l ->
  listed l k s -> (k <= Z.of_nat v)%Z -> ~ In s columns -> ~ In s info -> shown_info c columns info (Z.of_nat v) = Raise KeyError.
Proof. exact (numbered_missing c l columns info v k s). Qed.
Print Assumptions C175_missing.

(** one above the highest level all the info is shown, however the levels are numbered *)
Theorem C175_top c l columns info t : attribute b_levels c = Some l -> is_top l t -> strings_only l ->
  NoDup (map fst l) -> (forall k, In k (map fst l) -> (0 <= k)%Z) ->
  (forall k s, listed l k s -> ~ In s columns -> In s info) ->
  exists ks, shown_info c columns info t = Ok ks /\ NoDup ks /\ forall s, In s ks <-> In s info /\ ~ In s columns.
Proof. exact (top_full c l columns info t). Qed.
Print Assumptions C175_top.

Definition custom (l : levels) : class := Body false (Some "mine") (Some "mine_score") (Some l) :: issue_manager.

(** with levels that do not start at 0 the report shows entries of higher levels *)
Theorem C175_higher_refuted : ~ (forall c l columns info v ks s, attribute b_levels c = Some l -> strings_only l -> NoDup (map fst l) ->
  In v (map fst l) -> shown_info c columns info v = Ok ks -> In s ks -> exists k, listed l k s /\ (k <= v)%Z).
Proof.
  intros H. pose (l := [(1%Z, Listed [Key "a"]); (2%Z, Listed [Key "b"])]).
  assert (A : NoDup (map fst l)) by (repeat constructor; cbn; intuition congruence).
  destruct (H (custom l) l [] ["a"; "b"] 1%Z ["a"; "b"] "b" eq_refl (proj1 (levels_strings l) eq_refl) A
    (or_introl eq_refl) eq_refl (or_intror (or_introl eq_refl))) as (k & (ks & [E|[E|[]]] & Hs) & Hk); injection E as <- <-.
  - destruct Hs as [Hs|[]]. discriminate.
  - lia.
Qed.
Print Assumptions C175_higher_refuted.

(** with levels in another order it leaves out entries of the requested level *)
Theorem C175_order_refuted : ~ (forall c l columns info v ks s, attribute b_levels c = Some l -> strings_only l -> NoDup (map fst l) ->
  shown_info c columns info v = Ok ks -> listed l v s -> ~ In s columns -> In s ks).
Proof.
  intros H. pose (l := [(1%Z, Listed [Key "a"]); (0%Z, Listed [Key "b"])]).
  assert (A : NoDup (map fst l)) by (repeat constructor; cbn; intuition congruence).
  destruct (H (custom l) l [] ["a"; "b"] 0%Z ["a"] "b" eq_refl (proj1 (levels_strings l) eq_refl) A eq_refl
    (ex_intro _ _ (conj (or_intror (or_introl eq_refl)) (or_introl eq_refl))) (fun x => x)) as [E|[]]. discriminate.
Qed.
Print Assumptions C175_order_refuted.

(** a class that inherits its name from another check is refused *)
Theorem C175_inherited_name_refuted : ~ (forall c b, attribute b_name (b :: c) <> None -> b_levels b = None -> exists c', define_class c b = Ok c').
Proof.
  intros H. destruct (H (custom default_levels) (Body false None None None) ltac:(discriminate) eq_refl) as [c' E]. discriminate.
Qed.
Print Assumptions C175_inherited_name_refuted.

(** levels inherited from an abstract class are not checked *)
Theorem C175_inherited_levels_refuted : ~ (forall bs c, derive issue_manager bs = Ok c -> exists l, attribute b_levels c = Some l /\ strings_only l).
Proof.
  intros H. destruct (H [Body true None None (Some [(0%Z, Iterable [Key "a"; Key "b"])]); Body false (Some "mine") None None] _ eq_refl) as (l & E & Hl).
  injection E as <-. destruct (Hl 0%Z _ (or_introl eq_refl)) as [ks E]. discriminate.
Qed.
Print Assumptions C175_inherited_levels_refuted.

(** ** examples *)
Definition three : levels := [(0%Z, Listed []); (1%Z, Listed [Key "mean"; Key "is_mine_issue"]); (2%Z, Listed [Key "limit"])].
Example C175_example_defined :
  define_class issue_manager (Body false (Some "mine") (Some "other") (Some three)) =
    Ok (Body false (Some "mine") (Some "mine_score") (Some three) :: issue_manager) /\
  define_class issue_manager (Body false None None None) = Raise TypeError /\
  define_class issue_manager (Body false None None (Some [(0%Z, Listed [NotString])])) = Raise ValueError /\
  define_class issue_manager (Body false (Some "mine") None (Some [(0%Z, Iterable [Key "a"])])) = Raise ValueError.
Proof. repeat split; reflexivity. Qed.
Example C175_example_numbered : numbered three /\ strings_only three /\ is_top three 3 /\ derive issue_manager [Body false (Some "mine") None (Some three); Body false (Some "child") None None] =
  Ok [Body false (Some "child") (Some "child_score") None; Body false (Some "mine") (Some "mine_score") (Some three); Body true None None (Some default_levels)].
Proof.
  split; [reflexivity|]. split; [apply levels_strings; reflexivity|]. split; [apply top_spec; reflexivity|reflexivity].
Qed.
Example C175_example_shown :
  let cols := ["is_mine_issue"; "mine_score"] in let info := ["mean"; "limit"; "rest"] in
  shown_info (custom three) cols info 0 = Ok [] /\ shown_info (custom three) cols info 1 = Ok ["mean"] /\
  shown_info (custom three) cols info 2 = Ok ["mean"; "limit"] /\ shown_info (custom three) cols info 3 = Ok ["mean"; "limit"; "rest"] /\
  shown_info (custom three) cols info 4 = Raise ValueError /\ shown_info (custom three) cols ["limit"] 2 = Raise KeyError.
Proof. repeat split; reflexivity. Qed.
