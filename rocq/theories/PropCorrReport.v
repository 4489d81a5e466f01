(** * C154: the correlation report of an image audit *)
From Coq Require Import String QArith Lqa List Bool Arith Lia.
From Verif Require Import Base BaseFacts ModelDatalab ModelImage SpecImage ModelCorrReport SpecCorrReport ProofImage ProofCorrReport.
Import ListNotations.
Open Scope string_scope.
Open Scope list_scope.

(** nothing is printed exactly if no correlations were computed, the threshold is false for Python, or no score is below it *)
Theorem C154_silent (st : data_issues entry) : correlation_report st = Ok None <->
  (lookup "spurious_correlations" (info st) = None \/ lookup "spurious_correlations" (info st) = Some EOther \/
   exists df th, lookup "spurious_correlations" (info st) = Some (ECorr df th) /\
     (truthy th = false \/ df = [] \/ exists q, th = VNum q /\ forall e, In e df -> (q <= snd e)%Q)).
Proof. exact (report_silent st). Qed.
Print Assumptions C154_silent.

(** what is printed: the properties below the threshold in their order, without "_score", each with the first image of lowest and the first of highest score *)
Theorem C154_shown (st : data_issues entry) s : correlation_report st = Ok (Some s) ->
  exists df q, lookup "spurious_correlations" (info st) = Some (ECorr df (VNum q)) /\ ~ (q == 0)%Q /\
    (NoDup (map fst df) -> forall props, below q df props ->
       props <> [] /\ Forall2 table_row props (shown_table s) /\ Forall2 (image_pair (issues st)) props (shown_images s)).
Proof. exact (report_shown st s). Qed.
Print Assumptions C154_shown.

(** the printed name is determined by the column, and is the name of the check unless that contains "_score" itself *)
Theorem C154_names : (forall s t t', stripped s t -> stripped s t' -> t = t') /\
  (forall name, contains "_score" name = false -> stripped (name ++ "_score")%string name).
Proof. exact (conj strip_unique strip_score). Qed.
Print Assumptions C154_names.

(** after an audit of labelled images whose checks completed the report does not fail, and it is about the scores the Imagelab holds *)
Theorem C154_audit base lab_find lab_stats accuracy labels types l d' (st st1 st2 st' : data_issues entry) lab lab' r q : types <> Some [] ->
  match types with None => d' = None | Some d => exists p, d' = Some p /\ plain_part d p end ->
  base d' st = Ok st1 -> asks_images types l -> l <> [] -> ~ In "spurious_correlations" (map fst l) -> asks_spurious types (VNum q) ->
  image_audit base lab_find lab_stats (correlate_images accuracy labels) true types st lab = (st', lab', r) ->
  snd (lab_find l lab) = true ->
  collect_imagelab lab' (map fst l)
    (DI (d_rows st1) (issues st1) (issue_summary st1) (info st1) (dict_update (statistics st1) (lab_stats lab')) (health_score st1)) = Ok st2 ->
  scored lab' -> NoDup (keys (i_frame lab')) -> (forall c, In c (i_frame lab') -> exists a, accuracy (snd c) = Some a) ->
  (1 <= d_rows st1)%nat -> (forall c, In c (issues st') -> exists i x, holds_number (snd c) i x) ->
  (exists s, correlation_report st' = Ok s) /\
  exists df g, lookup "spurious_correlations" (info st') = Some (ECorr df (VNum q)) /\ score_columns (i_frame lab') g /\
    Forall2 (fun c e => fst e = fst c /\ exists a, accuracy (snd c) = Some a /\ snd e = relative_room (baseline labels) a) g df.
Proof. exact (audit_report base lab_find lab_stats accuracy labels types l d' st st1 st2 st' lab lab' r q). Qed.
Print Assumptions C154_audit.

(** ** four images of two classes: dark images are all of class 1 *)
Definition rp_base (types : option (list (string * value))) (st : data_issues entry) : res (data_issues entry) := Ok st.
Definition rp_find (ok : bool) (checks : list (string * value)) (lab : imagelab entry) : imagelab entry * bool :=
  (Imagelab 4 (flat_map (fun c => [(flag_column (fst c), [CFlag false; CFlag true; CFlag true; CFlag false]);
                                   (score_column (fst c), [CNum (9 # 10); CNum (1 # 10); CNum (1 # 10); CNum (8 # 10)])]) checks)
            (map (fun c => Row (fst c) (1 # 2) 0) checks) (map (fun c => (fst c, EOther)) checks), ok).
Definition rp_acc (col : list cell) : option Q := Some 1%Q.
Definition rp_types : list (string * value) := [("image_issue_types", VDict [("dark", VDict [])]); ("spurious_correlations", VDict [])].
Definition rp_lab : imagelab entry := Imagelab 4 [] [] [].
Example C154_example : exists st' lab',
  image_audit rp_base (rp_find true) (fun _ => []) (correlate_images rp_acc [0; 1; 1; 0]%nat) true (Some rp_types) (init_issues 4 []) rp_lab = (st', lab', Ok tt) /\
  correlation_report st' = Ok (Some (Shown [("dark", 0 # 4)] [("dark", ((1%nat, 1 # 10), (0%nat, 9 # 10)))])) /\
  asks_images (Some rp_types) [("dark", VDict [])] /\ asks_spurious (Some rp_types) (VNum (3 # 10)) /\ scored lab' /\ NoDup (keys (i_frame lab')).
Proof.
  do 2 eexists. split; [reflexivity|]. split; [vm_compute; reflexivity|]. split.
  { eexists. split; [reflexivity|]. constructor; [|constructor]. split; [reflexivity|]. right. split; [reflexivity|cbn; tauto]. }
  split; [eexists; split; [reflexivity|]; now right|]. split; [apply scored_iff; reflexivity|]. cbn.
  constructor; [cbn; intuition discriminate|]. constructor; [cbn; tauto|constructor].
Qed.

(** finding: when CleanVision fails after it has scored the images, the correlations are computed all the same but its columns are not in the table of
    issues, and the report raises KeyError *)
Theorem C154_failed_refuted : exists st' lab',
  image_audit rp_base (rp_find false) (fun _ => []) (correlate_images rp_acc [0; 1; 1; 0]%nat) true (Some rp_types)
    (DI 4 [("is_label_issue", [CFlag false; CFlag false; CFlag false; CFlag false])] [] [] [] None) rp_lab = (st', lab', Ok tt) /\
  correlation_report st' = Raise KeyError.
Proof. do 2 eexists. split; [reflexivity|]. vm_compute. reflexivity. Qed.
(** finding: a check whose name contains "_score" is printed under the name of another check *)
Theorem C154_same_name_refuted : stripped "my_score_score" "my" /\ stripped "my_score" "my".
Proof. exact (conj (drop_stripped "my_score_score") (drop_stripped "my_score")). Qed.
(** finding: a threshold of 0 switches the report off, although scores can be negative (three images of class 2, one of class 0: the baseline is 2/4;
    six of class 9 alone: the baseline is 9/6 and the score negative) *)
Theorem C154_zero_refuted : exists df, correlate_images (fun _ => Some (1 # 2)) [9; 9; 9; 9; 9; 9]%nat [("dark_score", [])] (VNum 0) = Some (ECorr df (VNum 0)) /\
  (forall e, In e df -> (snd e < 0)%Q) /\ df <> [] /\
  correlation_report (DI 6 [("dark_score", [CNum 1])] [] [("spurious_correlations", ECorr df (VNum 0))] [] None) = Ok None.
Proof. eexists. split; [reflexivity|]. split; [intros e [<-|[]]; vm_compute; reflexivity|]. split; [discriminate|]. vm_compute. reflexivity. Qed.
