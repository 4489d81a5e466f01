(** * Vocabulary for audits of image datasets *)
From Coq Require Import String QArith List Bool Arith.
From Verif Require Import Base ModelDatalab ModelImage.
Import ListNotations.
Open Scope string_scope.
Open Scope list_scope.

Definition image_key (k : string) : Prop := k = "image_issue_types" \/ k = "spurious_correlations".

(** [d'] is the dictionary [d] without its two image entries *)
Inductive plain_part : list (string * value) -> list (string * value) -> Prop :=
| Plain_nil : plain_part [] []
| Plain_keep k v d d' : ~ image_key k -> plain_part d d' -> plain_part ((k, v) :: d) ((k, v) :: d')
| Plain_drop k v d d' : image_key k -> plain_part d d' -> plain_part ((k, v) :: d) d'.

(** an image check without parameters gets the parameters of the default check of that name, one with parameters gets exactly those *)
Definition effective (asked used : string * value) : Prop :=
  fst used = fst asked /\
  (snd used = snd asked /\ truthy (snd asked) = true \/
   truthy (snd asked) = false /\ In (fst asked, snd used) default_image_checks).
(** [l]: the image checks a call asks for, in order *)
Definition asks_images (types : option (list (string * value))) (l : list (string * value)) : Prop :=
  match types with
  | None => l = default_image_checks
  | Some d => match lookup "image_issue_types" d with
              | None => l = []
              | Some v => exists entries, v = VDict entries /\ Forall2 effective entries l
              end
  end.
(** the call asks for spurious correlations with this threshold *)
Definition asks_spurious (types : option (list (string * value))) (threshold : value) : Prop :=
  match types with
  | None => threshold = VNum (3 # 10)
  | Some d => exists p, lookup "spurious_correlations" d = Some (VDict p) /\
              (lookup "threshold" p = Some threshold \/ lookup "threshold" p = None /\ threshold = VNum (3 # 10))
  end.
Definition no_spurious (types : option (list (string * value))) : Prop :=
  exists d, types = Some d /\ lookup "spurious_correlations" d = None.
(** some default image check has a score in the Imagelab *)
Definition scored {V} (lab : imagelab V) : Prop :=
  exists name p, In (name, p) default_image_checks /\ In (name ++ "_score")%string (keys (i_frame lab)).
(** the columns of the Imagelab whose name ends in _score *)
Definition score_columns (f g : frame) : Prop :=
  exists keep, g = filter keep f /\ forall c, keep c = true <-> exists t, fst c = (t ++ "_score")%string.
(** everything but the info about spurious correlations is the same *)
Definition same_but_spurious {V} (a b : data_issues V) : Prop :=
  d_rows a = d_rows b /\ issues a = issues b /\ issue_summary a = issue_summary b /\ statistics a = statistics b /\
  health_score a = health_score b /\ forall k, k <> "spurious_correlations" -> lookup k (info a) = lookup k (info b).
