(** * Model of an audit of an image dataset: cleanlab/datalab/internal/adapter/imagelab.py:310-431 with datalab.py:335-352 *)
From Coq Require Import String QArith List Bool Arith.
From Verif Require Import Base ModelDatalab.
Import ListNotations.
Open Scope string_scope.
Open Scope list_scope.

(** what the [issue_types] dictionary of a user holds *)
Inductive value := VNone | VNum (q : Q) | VDict (entries : list (string * value)).
(** Python's truth of a value *)
Definition truthy (v : value) : bool :=
  match v with VNone => false | VNum q => negb (Qeq_bool q 0) | VDict [] => false | VDict _ => true end.

(** adapter/constants.py:7-17 [DEFAULT_CLEANVISION_ISSUES] *)
Definition default_image_checks : list (string * value) :=
  [("dark", VDict []); ("light", VDict []); ("low_information", VDict [("threshold", VNum (15 # 100))]);
   ("odd_aspect_ratio", VDict []); ("odd_size", VDict []); ("grayscale", VDict []); ("blurry", VDict [])].
(** adapter/constants.py:1-5 [SPURIOUS_CORRELATION_ISSUE] *)
Definition default_spurious_threshold : value := VNum (3 # 10).

(** imagelab.py:316-330 [_get_imagelab_issue_types]; a value without [.items()] raises AttributeError *)
Definition image_checks (types : option (list (string * value))) : res (option (list (string * value))) :=
  match types with
  | None => Ok (Some default_image_checks)
  | Some d =>
    match lookup "image_issue_types" d with
    | None => Ok None
    | Some (VDict entries) =>
        do l <- rmap (fun e => if truthy (snd e) then Ok e
                               else match lookup (fst e) default_image_checks with
                                    | Some p => Ok (fst e, p)
                                    | None => Raise KeyError
                                    end) entries ;
        Ok (Some l)
    | Some _ => Raise OtherError
    end
  end.

(** imagelab.py:340-345: what is left for the ordinary checks *)
Definition ordinary (types : option (list (string * value))) : option (list (string * value)) :=
  match types with
  | Some (e :: d) => Some (filter (fun kv => negb (smem (fst kv) ["image_issue_types"; "spurious_correlations"])) (e :: d))
  | other => other
  end.

(** [col.endswith(suffix)] *)
Definition ends_with (suffix s : string) : bool :=
  String.eqb (substring (String.length s - String.length suffix) (String.length suffix) s) suffix
  && Nat.leb (String.length suffix) (String.length s).

Section Image.
Context {V : Type}.
(** [base types]: IssueFinder.find_issues with these issue types (ModelDatalab); it raises only before any check ran.
    [lab_find checks]: Imagelab.find_issues; the flag says whether it completed.
    [lab_stats]: the statistics of the Imagelab.
    [correlate columns threshold]: handle_spurious_correlations on the score columns; [None]: it raises. *)
Variable base : option (list (string * value)) -> data_issues V -> res (data_issues V).
Variable lab_find : list (string * value) -> imagelab V -> imagelab V * bool.
Variable lab_stats : imagelab V -> list (string * V).
Variable correlate : frame -> value -> option V.

(** imagelab.py:353-367: the image checks; an exception is printed. After a KeyError for a missing info the tables would
    already be changed: a completed Imagelab has the info of its checks, so this is not modelled. *)
Definition run_image_checks (checks : option (list (string * value))) (st : data_issues V) (lab : imagelab V)
  : data_issues V * imagelab V :=
  match checks with
  | None | Some [] => (st, lab)
  | Some l =>
    match lab_find l lab with
    | (lab', false) => (st, lab')
    | (lab', true) =>
        let st' := DI (d_rows st) (issues st) (issue_summary st) (info st)
                      (dict_update (statistics st) (lab_stats lab')) (health_score st) in
        (match collect_imagelab lab' (keys l) st' with Ok st'' => st'' | Raise _ => st' end, lab')
    end
  end.

(** imagelab.py:373-382: is there any score to correlate *)
Definition has_image_scores (lab : imagelab V) : bool :=
  existsb (fun t => smem (score_column t) (keys (i_frame lab))) (keys default_image_checks).

(** imagelab.py:387-399; a value without [.get] raises AttributeError *)
Definition spurious_threshold (types : option (list (string * value))) : res value :=
  match types with
  | None | Some [] => Ok default_spurious_threshold
  | Some d =>
    match lookup "spurious_correlations" d with
    | Some (VDict p) => Ok (match lookup "threshold" p with Some v => v | None => default_spurious_threshold end)
    | Some _ => Raise OtherError
    | None => Raise KeyError
    end
  end.

(** imagelab.py:401-411 with 414-431 *)
Definition run_spurious (has_labels : bool) (threshold : value) (st : data_issues V) (lab : imagelab V) : data_issues V :=
  if has_labels then
    match correlate (filter (fun c => ends_with "_score" (fst c)) (i_frame lab)) threshold with
    | Some v => DI (d_rows st) (issues st) (issue_summary st) (dict_set "spurious_correlations" v (info st))
                   (statistics st) (health_score st)
    | None => st
    end
  else st.

(** imagelab.py:332-411 [ImagelabIssueFinderAdapter.find_issues]; the states are returned even when the call raises *)
Definition adapter_find (has_labels : bool) (types : option (list (string * value))) (st : data_issues V) (lab : imagelab V)
  : data_issues V * imagelab V * res unit :=
  match base (ordinary types) st with
  | Raise e => (st, lab, Raise e)
  | Ok st1 =>
    match image_checks types with
    | Raise e => (st1, lab, Raise e)
    | Ok checks =>
      let (st2, lab2) := run_image_checks checks st1 lab in
      let asked := match types with None | Some [] => true | Some d => smem "spurious_correlations" (keys d) end in
      if negb asked then (st2, lab2, Ok tt)
      else if negb (has_image_scores lab2) then (st2, lab2, Ok tt)
      else match spurious_threshold types with
           | Raise e => (st2, lab2, Raise e)
           | Ok threshold => (run_spurious has_labels threshold st2 lab2, lab2, Ok tt)
           end
    end
  end.

(** datalab.py:335-352 [Datalab.find_issues] of an image dataset: no issue types, nothing happens *)
Definition image_audit (has_labels : bool) (types : option (list (string * value))) (st : data_issues V) (lab : imagelab V)
  : data_issues V * imagelab V * res unit :=
  match types with
  | Some [] => (st, lab, Ok tt)
  | _ => adapter_find has_labels types st lab
  end.
End Image.
