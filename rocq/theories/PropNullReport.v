(** * Property C160: what the report says about missing values *)
From Coq Require Import String QArith List Bool Arith Lia.
From Verif Require Import Base BaseFacts ModelDatalab SpecDatalab ModelReport SpecReport ModelNullReport SpecNullReport ProofNullReport PropReport.
From Verif Require ModelChecks.
Import ListNotations.
Open Scope string_scope.
Open Scope list_scope.
Open Scope nat_scope.

(** In all theorems the latest run of the null check was on [features], at least one column wide. *)

(** the section about null values says how many rows lack all values (the examples with the issue), and how many lack some *)
Theorem C160_notes {A W V} n (stats : list (string * idict A W)) history : well_formed_log n (all_outcomes (init_issues n stats) history) ->
  forall cols (features : list (list (option V))) rep out argsort fuel t (d : labels A) levels_of k v s,
  0 < cols -> (forall r, In r features -> length r = cols) -> ModelChecks.null_check cols features = Ok rep ->
  latest "null" (all_outcomes (init_issues n stats) history) (Some out) ->
  m_frame out = [(flag_column "null", map CFlag (ModelChecks.flags rep)); (score_column "null", map CNum (ModelChecks.scores rep))] ->
  check_report argsort fuel t d levels_of k v (audit n stats history) "null" = Ok s ->
  exists full partial a b, rows_having all_missing features full /\ rows_having some_missing features partial /\
    null_section argsort fuel t d levels_of k v (audit n stats history) = Ok (s, (a, b)) /\ mentions a full /\ mentions b partial /\ s_count s = full.
Proof. exact (notes_full n stats history). Qed.
Print Assumptions C160_notes.

(** the report has that section exactly if all issues are to be shown or some row lacks all values *)
Theorem C160_section {A W V} n (stats : list (string * idict A W)) history : well_formed_log n (all_outcomes (init_issues n stats) history) ->
  forall cols (features : list (list (option V))) rep out sort_rows argsort fuel t (d : labels A) levels_of show_all k v rows sections,
  0 < cols -> (forall r, In r features -> length r = cols) -> ModelChecks.null_check cols features = Ok rep ->
  latest "null" (all_outcomes (init_issues n stats) history) (Some out) ->
  m_frame out = [(flag_column "null", map CFlag (ModelChecks.flags rep)); (score_column "null", map CNum (ModelChecks.scores rep))] ->
  sorts_by_num sort_rows -> argsort_ok argsort ->
  get_report sort_rows argsort fuel t d levels_of show_all k v (audit n stats history) = Ok (Report rows sections) ->
  (In "null" (map s_name sections) <-> show_all = true \/ exists r, In r features /\ all_missing r).
Proof. exact (section_iff n stats history). Qed.
Print Assumptions C160_section.

(** a check of two columns *)
Definition null_run (features : list (list (option nat))) : check (idict nat unit) :=
  ("null", fun _ => match ModelChecks.null_check 2 features with
     | Ok rep => Some (Out (length features) [(flag_column "null", map CFlag (ModelChecks.flags rep)); (score_column "null", map CNum (ModelChecks.scores rep))]
                    (ModelChecks.summary rep) [("most_common_issue", PDict true)] [])
     | Raise _ => None
     end).
(** so a table in which every row lacks a value, but no row lacks all, is reported as free of issues *)
Theorem C160_silent_refuted : exists features : list (list (option nat)), features <> [] /\ (forall r, In r features -> length r = 2) /\
  (forall r, In r features -> some_missing r) /\
  get_report sort_rows_ins argsort_ins 1 Classification (Labels 0 []) (builtin_levels Classification) false 2 2 (audit (length features) [] [[null_run features]]) = Ok NoIssues.
Proof.
  exists [[Some 1; None]; [None; Some 2]]. split; [discriminate|]. split; [intros r [<-|[<-|[]]]; reflexivity|].
  split; [intros r [<-|[<-|[]]]; (split; [cbn; auto|eexists; cbn; eauto])|]. vm_compute. reflexivity.
Qed.
Print Assumptions C160_silent_refuted.

Definition null_table : list (list (option nat)) := [[Some 1; None]; [None; None]; [Some 1; Some 2]; [None; Some 3]; [None; None]; [Some 4; None]].
Example C160_hypotheses : exists rep out, ModelChecks.null_check 2 null_table = Ok rep /\
  latest "null" (all_outcomes (init_issues 6 []) [[null_run null_table]]) (Some out) /\ well_formed_log 6 (all_outcomes (init_issues 6 []) [[null_run null_table]]) /\
  m_frame out = [(flag_column "null", map CFlag (ModelChecks.flags rep)); (score_column "null", map CNum (ModelChecks.scores rep))].
Proof.
  eexists. eexists. split; [reflexivity|]. split; [exists [], []; split; [reflexivity|intros ? []]|]. split; [|reflexivity].
  intros s out [H|[]]. injection H as <- <-. split; [reflexivity|].
  pose (rep := match ModelChecks.null_check 2 null_table with Ok r => r | Raise _ => ModelChecks.Report [] [] 0%Q end).
  exists (ModelChecks.flags rep), (ModelChecks.scores rep). repeat split.
Qed.
Example C160_example : exists s,
  null_section argsort_ins 1 Classification (Labels 0 []) (builtin_levels Classification) 2 2 (audit 6 [] [[null_run null_table]]) = Ok (s, (Some 2, Some 3)) /\
  s_count s = 2 /\ s_examples s = [1; 4].
Proof. eexists. split; [vm_compute; reflexivity|]. split; reflexivity. Qed.
