(** * C119: audits of image datasets *)
From Coq Require Import String QArith List Bool Arith.
From Verif Require Import Base ModelDatalab ModelImage SpecImage ProofImage.
Import ListNotations.
Open Scope string_scope.
Open Scope list_scope.

(** In all theorems [base] is the audit of the ordinary checks, [lab_find] CleanVision's own search (its state afterwards and
    whether it completed), [correlate] the computation of the correlations; nothing is assumed about them. *)

(** a request without image entries does what it does for a dataset without images *)
Theorem C119_plain V base lab_find lab_stats correlate has_labels d (st : data_issues V) lab : d <> [] ->
  lookup "image_issue_types" d = None -> lookup "spurious_correlations" d = None ->
  image_audit base lab_find lab_stats correlate has_labels (Some d) st lab =
  match base (Some d) st with Ok st' => (st', lab, Ok tt) | Raise e => (st, lab, Raise e) end.
Proof. exact (audit_plain base lab_find lab_stats correlate has_labels d st lab). Qed.

(** when the ordinary part of the request is rejected, nothing is checked *)
Theorem C119_rejected V base lab_find lab_stats correlate has_labels types d' (st : data_issues V) lab e : types <> Some [] ->
  match types with None => d' = None | Some d => exists p, d' = Some p /\ plain_part d p end ->
  base d' st = Raise e -> image_audit base lab_find lab_stats correlate has_labels types st lab = (st, lab, Raise e).
Proof. exact (audit_rejected base lab_find lab_stats correlate has_labels types d' st lab e). Qed.

(** a correctly spelled request completes whatever CleanVision and the correlations do; the image checks run are those asked for *)
Theorem C119_images V base lab_find lab_stats correlate has_labels types l d' (st : data_issues V) st1 lab : types <> Some [] ->
  match types with None => d' = None | Some d => exists p, d' = Some p /\ plain_part d p end ->
  base d' st = Ok st1 -> asks_images types l -> (no_spurious types \/ exists t, asks_spurious types t) ->
  exists st' lab', image_audit base lab_find lab_stats correlate has_labels types st lab = (st', lab', Ok tt) /\
    (l = [] -> lab' = lab /\ same_but_spurious st' st1) /\
    (l <> [] -> lab' = fst (lab_find l lab) /\
       (snd (lab_find l lab) = false -> same_but_spurious st' st1) /\
       (snd (lab_find l lab) = true -> forall st2,
          collect_imagelab lab' (map fst l)
            (DI (d_rows st1) (issues st1) (issue_summary st1) (info st1) (dict_update (statistics st1) (lab_stats lab')) (health_score st1)) = Ok st2 ->
          same_but_spurious st' st2)).
Proof. exact (audit_tables base lab_find lab_stats correlate has_labels types l d' st st1 lab). Qed.

(** when the spurious correlations are replaced and by what *)
Theorem C119_spurious V base lab_find lab_stats correlate has_labels types l d' (st : data_issues V) st1 lab st' lab' r : types <> Some [] ->
  match types with None => d' = None | Some d => exists p, d' = Some p /\ plain_part d p end ->
  base d' st = Ok st1 -> asks_images types l ->
  image_audit base lab_find lab_stats correlate has_labels types st lab = (st', lab', r) ->
  ~ In "spurious_correlations" (map fst l) ->
  let before := lookup "spurious_correlations" (info st1) in
  (no_spurious types -> lookup "spurious_correlations" (info st') = before) /\
  (forall t g, asks_spurious types t -> score_columns (i_frame lab') g ->
     (has_labels = true -> scored lab' -> forall v, correlate g t = Some v -> lookup "spurious_correlations" (info st') = Some v) /\
     (has_labels = false \/ ~ scored lab' \/ correlate g t = None -> lookup "spurious_correlations" (info st') = before)).
Proof. exact (audit_spurious base lab_find lab_stats correlate has_labels types l d' st st1 lab st' lab' r). Qed.

(** finding: naming an image check that is not one of the seven defaults without parameters raises KeyError, after the ordinary
    checks were run and stored, and no image check runs *)
Theorem C119_unknown V base lab_find lab_stats correlate has_labels d entries name p d' (st : data_issues V) st1 lab :
  plain_part d d' -> base (Some d') st = Ok st1 ->
  lookup "image_issue_types" d = Some (VDict entries) -> In (name, p) entries -> truthy p = false ->
  ~ In name (keys default_image_checks) ->
  image_audit base lab_find lab_stats correlate has_labels (Some d) st lab = (st1, lab, Raise KeyError).
Proof. exact (audit_unknown base lab_find lab_stats correlate has_labels d entries name p d' st st1 lab). Qed.

(** ** a dataset of two images *)
Definition ex_base (types : option (list (string * value))) (st : data_issues nat) : res (data_issues nat) :=
  match types with
  | Some d => if forallb (fun kv => String.eqb (fst kv) "label") d then Ok st else Raise ValueError
  | None => Ok st
  end.
Definition ex_find (ok : bool) (checks : list (string * value)) (lab : imagelab nat) : imagelab nat * bool :=
  (Imagelab 2 (flat_map (fun c => [(flag_column (fst c), [CFlag false; CFlag true]); (score_column (fst c), [CNum 1; CNum 0])]) checks)
            (map (fun c => Row (fst c) (1 # 2) 0) checks) (map (fun c => (fst c, 7%nat)) checks), ok).
Definition ex_correlate (ok : bool) (f : frame) (t : value) : option nat := if ok then Some (length f) else None.
Definition ex_lab : imagelab nat := Imagelab 2 [] [] [].
Definition ex_state : data_issues nat := init_issues 2 [].
Definition ex_types : list (string * value) :=
  [("label", VDict []); ("image_issue_types", VDict [("dark", VDict []); ("low_information", VDict [])]);
   ("spurious_correlations", VDict [("threshold", VNum (1 # 2))])].

Example C119_example_hypotheses : plain_part ex_types [("label", VDict [])] /\
  asks_images (Some ex_types) [("dark", VDict []); ("low_information", VDict [("threshold", VNum (15 # 100))])] /\
  asks_spurious (Some ex_types) (VNum (1 # 2)).
Proof.
  split; [apply plain_part_filter; reflexivity|]. split.
  - exists [("dark", VDict []); ("low_information", VDict [])]. split; [reflexivity|].
    constructor; [|constructor; [|constructor]]; (split; [reflexivity|right; split; [reflexivity|cbn; tauto]]).
  - exists [("threshold", VNum (1 # 2))]. split; [reflexivity|now left].
Qed.
Example C119_example : exists st', image_audit ex_base (ex_find true) (fun _ => []) (ex_correlate true) true (Some ex_types) ex_state ex_lab
    = (st', fst (ex_find true [("dark", VDict []); ("low_information", VDict [("threshold", VNum (15 # 100))])] ex_lab), Ok tt) /\
  map fst (issues st') = ["is_dark_issue"; "dark_score"; "is_low_information_issue"; "low_information_score"] /\
  info st' = [("dark", 7%nat); ("low_information", 7%nat); ("spurious_correlations", 2%nat)].
Proof. eexists. split; [reflexivity|]. now split. Qed.
(** CleanVision fails: the call completes and keeps what there was *)
Example C119_example_failure : exists lab', image_audit ex_base (ex_find false) (fun _ => []) (ex_correlate false) true None ex_state ex_lab
    = (ex_state, lab', Ok tt).
Proof. eexists. reflexivity. Qed.
Example C119_example_rejected : image_audit ex_base (ex_find true) (fun _ => []) (ex_correlate true) true (Some (("labels", VDict []) :: ex_types)) ex_state ex_lab
    = (ex_state, ex_lab, Raise ValueError).
Proof. reflexivity. Qed.

(** near_duplicates is a check of CleanVision, but {"near_duplicates": {}} is not accepted *)
Example C119_unknown_refuted : image_audit ex_base (ex_find true) (fun _ => []) (ex_correlate true) true
    (Some [("image_issue_types", VDict [("dark", VDict []); ("near_duplicates", VDict [])])]) ex_state ex_lab
    = (ex_state, ex_lab, Raise KeyError).
Proof. reflexivity. Qed.
(** finding: giving one parameter of a check drops its other default parameters *)
Theorem C119_defaults_dropped_refuted : exists types l,
  asks_images (Some types) l /\ lookup "image_issue_types" types = Some (VDict [("low_information", VDict [("normalizing_factor", VNum 1)])]) /\
  In ("low_information", VDict [("threshold", VNum (15 # 100))]) default_image_checks /\
  l = [("low_information", VDict [("normalizing_factor", VNum 1)])].
Proof.
  eexists [("image_issue_types", VDict [("low_information", VDict [("normalizing_factor", VNum 1)])])], _. split; [|split; [reflexivity|split; [cbn; tauto|reflexivity]]].
  eexists. split; [reflexivity|]. constructor; [|constructor]. split; [reflexivity|]. left. now split.
Qed.
(** finding: when the correlations cannot be computed, those of an earlier audit are still reported, here of other labels or
    another threshold, and the call does not fail *)
Theorem C119_stale_refuted : exists st1 lab1 st2 lab2,
  image_audit ex_base (ex_find true) (fun _ => []) (ex_correlate true) true None ex_state ex_lab = (st1, lab1, Ok tt) /\
  image_audit ex_base (ex_find true) (fun _ => []) (ex_correlate false) true
    (Some [("spurious_correlations", VDict [("threshold", VNum (1 # 10))])]) st1 lab1 = (st2, lab2, Ok tt) /\
  lookup "spurious_correlations" (info st2) = Some 7%nat /\ lookup "spurious_correlations" (info st1) = Some 7%nat.
Proof. do 4 eexists. split; [reflexivity|]. split; [reflexivity|]. now split. Qed.
(** finding: without labels, asking for spurious correlations does nothing and does not fail *)
Theorem C119_unlabelled_refuted : exists st1 lab1,
  image_audit ex_base (ex_find true) (fun _ => []) (ex_correlate true) false None ex_state ex_lab = (st1, lab1, Ok tt) /\
  asks_spurious None (VNum (3 # 10)) /\ scored lab1 /\ lookup "spurious_correlations" (info st1) = None.
Proof. do 2 eexists. split; [reflexivity|]. split; [reflexivity|]. split; [apply scored_iff; reflexivity|reflexivity]. Qed.

Print Assumptions C119_plain.
Print Assumptions C119_rejected.
Print Assumptions C119_images.
Print Assumptions C119_spurious.
Print Assumptions C119_unknown.
Print Assumptions C119_defaults_dropped_refuted.
Print Assumptions C119_stale_refuted.
Print Assumptions C119_unlabelled_refuted.
