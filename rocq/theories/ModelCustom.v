(** * Model of the definition of custom checks (cleanlab/datalab/internal/issue_manager/issue_manager.py:24-132)
    and of the verbosity levels in their report (issue_manager.py:240-255, 281-288, 313-314). *)
From Coq Require Import String List Bool Arith ZArith.
From Verif Require Import Base ModelDatalab.
Import ListNotations.
Open Scope string_scope.
Open Scope list_scope.

(** what may be written at a verbosity level: a list, something else to iterate over (a string, a tuple), or
    something else; the entries are strings or not *)
Inductive entry := Key (s : string) | NotString.
Inductive level_value := Listed (l : list entry) | Iterable (l : list entry) | NotIterable.
(** a dictionary of verbosity levels, in the order of its entries *)
Definition levels := list (Z * level_value).

(** The body of a class statement: whether [ABC] is among its bases, and the attributes assigned in it. *)
Record body := Body { b_abstract : bool; b_name : option string; b_key : option string; b_levels : option levels }.
(** A class: its body and those of its ancestors, nearest first (single inheritance). *)
Definition class := list body.
(** attribute access *)
Fixpoint attribute {X} (f : body -> option X) (c : class) : option X :=
  match c with [] => None | b :: c' => match f b with Some x => Some x | None => attribute f c' end end.

(** issue_manager.py:27-32 and 107-112 *)
Definition default_levels : levels := [(0, Listed []); (1, Listed []); (2, Listed []); (3, Listed [])]%Z.
(** issue_manager.py:66-128 [IssueManager] *)
Definition issue_manager : class := [Body true None None (Some default_levels)].

Definition is_key (e : entry) : bool := match e with Key _ => true | NotString => false end.
(** issue_manager.py:45-56, one level *)
Definition level_ok (v : level_value) : bool := match v with Listed l => forallb is_key l | _ => false end.
(** issue_manager.py:34-64 [IssueManagerMeta.__new__] *)
Definition new_body (b : body) : res body :=
  if b_abstract b then Ok b else
  let lv := match b_levels b with Some l => l | None => default_levels end in
  if negb (forallb (fun e => level_ok (snd e)) lv) then Raise ValueError else
  match b_name b with
  | None => Raise TypeError
  | Some n => Ok (Body false (Some n) (Some (n ++ "_score")%string) (b_levels b))
  end.
(** [class X(parent): ...] *)
Definition define_class (parent : class) (b : body) : res class :=
  do b' <- new_body b ; Ok (b' :: parent).
(** a sequence of class statements, each deriving from the one before *)
Fixpoint derive (c : class) (bs : list body) : res class :=
  match bs with [] => Ok c | b :: bs' => do c' <- define_class c b ; derive c' bs' end.

(** Python's [l[:k]] *)
Definition upto {X} (k : Z) (l : list X) : list X :=
  if (k <? 0)%Z then firstn (length l - Z.to_nat (- k)) l else firstn (Z.to_nat k) l.
(** [max] of a non-empty list *)
Definition zmax (x : Z) (l : list Z) : Z := fold_left Z.max l x.
(** [chain.from_iterable] *)
Definition entries (v : level_value) : res (list entry) :=
  match v with Listed l | Iterable l => Ok l | NotIterable => Raise TypeError end.

(** issue_manager.py:240-247 and 281-288, 313-314: the info entries shown at a verbosity; [columns]: the columns
    of the issues and the entries to omit; [info]: the keys of the info *)
Definition shown_info (c : class) (columns info : list string) (verbosity : Z) : res (list string) :=
  match attribute b_levels c with
  | None => Raise OtherError
  | Some [] => Raise ValueError
  | Some ((k, v) :: lv) =>
      let top := (zmax k (map fst lv) + 1)%Z in
      if negb (existsb (Z.eqb verbosity) (k :: map fst lv ++ [top])) then Raise ValueError else
      do es <- rmap entries (upto (verbosity + 1) (v :: map snd lv)) ;
      let named := filter (fun e => match e with Key s => negb (smem s columns) | NotString => true end) (concat es) in
      do ks <- rmap (fun e => match e with
                              | Key s => if smem s info then Ok s else Raise KeyError
                              | NotString => Raise KeyError
                              end) named ;
      Ok (nodup string_dec (ks ++ if Z.eqb verbosity top then filter (fun s => negb (smem s columns)) info else []))
  end.
