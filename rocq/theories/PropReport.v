(** * Properties C110 to C113: what Datalab shows *)
From Coq Require Import String QArith List Bool Arith Sorted Permutation Lia.
From Verif Require Import Base BaseFacts ModelLabels SpecLabels ProofLabels ModelDatalab SpecDatalab ProofDatalab ModelReport SpecReport ProofReport.
Import ListNotations.
Open Scope string_scope.
Open Scope list_scope.
Open Scope nat_scope.

(** ** C110 *)
(** asking for the info of a check changes nothing that is stored, and whatever the caller writes into the
    dictionary they got, asking again gives the same *)
Theorem C110_private {A W} t (d : labels A) s (st st' : store A W) r :
  valid_store st -> get_info t d (Some s) st = (st', r) ->
  (forall s', stored st' s' = stored st s') /\
  forall h, r = Ok h -> forall ws,
    let st2 := caller_writes h ws st' in
    (forall s', stored st2 s' = stored st s') /\
    exists st3 h', get_info t d (Some s) st2 = (st3, Ok h') /\ content st3 h' = content st' h.
Proof. exact (private_full t d s st st' r). Qed.
Print Assumptions C110_private.

(** nothing is given out about a check that was not run, nor labels that are not there *)
Theorem C110_errors {A W} t (d : labels A) s (st : store A W) : valid_store st ->
  match stored st s with
  | None => snd (get_info t d (Some s) st) = Raise ValueError
  | Some i => (about_labels t s -> l_count d = 0 \/ l_map d = [] -> snd (get_info t d (Some s) st) = Raise ValueError) /\
      (~ about_labels t s -> exists h, snd (get_info t d (Some s) st) = Ok h /\ content (fst (get_info t d (Some s) st)) h = i)
  end.
Proof. exact (info_errors t d s st). Qed.
Print Assumptions C110_errors.

(** without a name the dictionary of the Datalab itself is returned *)
Theorem C110_unnamed_refuted : ~ (forall t (d : labels string) (st st' : store string nat) h s k v s',
  valid_store st -> get_info t d None st = (st', Ok h) -> stored (caller_write h s k v st') s' = stored st s').
Proof.
  intros H. specialize (H Regression (Labels 0 []) (Store [[("k", PInt 1)]] [("label", 0)]) _ _ "label" "k" (PInt 2) "label"
    ltac:(intros s loc; cbn; destruct (String.eqb s "label"); [intros E; injection E as <-; lia|discriminate]) eq_refl).
  discriminate H.
Qed.
Print Assumptions C110_unnamed_refuted.

(** the labels come back as the user wrote them, the predictions as the names of the predicted classes *)
Theorem C110_names {A W} (leb : A -> A -> bool) labs f m s (st : store A W) i p v : total_order leb -> labs <> [] ->
  format_labels leb labs = Ok (f, m) -> valid_store st -> stored st s = Some i -> s = "label" \/ s = "class_imbalance" ->
  lookup "given_label" i = Some v -> v = PList (ints f) \/ v = PArr 1 (ints f) ->
  (lookup "predicted_label" i = None \/
   p <> [] /\ (forall k, In k p -> k < length m) /\ exists u, lookup "predicted_label" i = Some u /\ (u = PList (ints p) \/ u = PArr 1 (ints p))) ->
  exists st' loc cn, get_info Classification (Labels (length f) m) (Some s) st = (st', Ok (At loc)) /\
    m = combine (seq 0 (length cn)) cn /\ NoDup cn /\ (forall x, In x cn <-> In x labs) /\
    let i' := content st' (At loc) in
    lookup "given_label" i' = Some (PArr 1 (names labs)) /\
    (lookup "predicted_label" i = None -> lookup "predicted_label" i' = None) /\
    (lookup "predicted_label" i <> None -> exists ys, lookup "predicted_label" i' = Some (PArr 1 (names ys)) /\
       Forall2 (fun k y => nth_error cn k = Some y) p ys) /\
    lookup "class_names" i' = Some (PList (names cn)) /\
    forall k, k <> "given_label" -> k <> "predicted_label" -> k <> "class_names" -> lookup k i' = lookup k i.
Proof. exact (names_full leb labs f m s st i p v). Qed.
Print Assumptions C110_names.

Theorem C110_multilabel_names {A W} (leb : A -> A -> bool) labs f m (st : store A W) i p : total_order leb -> concat labs <> [] ->
  format_multilabels leb labs = Ok (f, m) -> valid_store st -> stored st "label" = Some i ->
  lookup "given_label" i = Some (PList (map (fun s => PList (ints s)) f)) ->
  lookup "predicted_label" i = Some (PList (map (fun s => PList (ints s)) p)) ->
  exists st' loc, get_info Multilabel (Labels (length f) m) (Some "label") st = (st', Ok (At loc)) /\
    let i' := content st' (At loc) in
    lookup "given_label" i' = Some (PList (map (fun s => PList (names s)) labs)) /\
    lookup "predicted_label" i' = Some (PList (map (fun s => PList (map (fun k => PName (inv_get m k)) s)) p)) /\
    forall k, k <> "given_label" -> k <> "predicted_label" -> k <> "class_names" -> lookup k i' = lookup k i.
Proof. exact (multi_names_full leb labs f m st i p). Qed.
Print Assumptions C110_multilabel_names.

(** the same in the table of label issues, row by row beside flags and scores *)
Theorem C110_label_table {A W} n (stats : list (string * idict A W)) history (leb : A -> A -> bool) labs f m p out :
  let log := all_outcomes (init_issues n stats) history in
  total_order leb -> format_labels leb labs = Ok (f, m) ->
  length labs = n -> 0 < n -> well_formed_log n log -> latest "label" log (Some out) ->
  lookup "given_label" (m_info out) = Some (PList (ints f)) -> lookup "predicted_label" (m_info out) = Some (PList (ints p)) ->
  length p = n -> (forall k, In k p -> k < length m) ->
  exists cols cn ys fl sc, get_issues_table Classification (Labels n m) "label" (audit n stats history) =
      Ok (cols, [("given_label", PArr 1 (names labs)); ("predicted_label", PArr 1 (names ys))]) /\
    m = combine (seq 0 (length cn)) cn /\ Forall2 (fun k y => nth_error cn k = Some y) p ys /\
    m_frame out = [(flag_column "label", map CFlag fl); (score_column "label", map CNum sc)] /\
    lookup (flag_column "label") cols = Some (map CFlag fl) /\ lookup (score_column "label") cols = Some (map CNum sc).
Proof. exact (label_table_full n stats history leb labs f m p out). Qed.
Print Assumptions C110_label_table.

Definition ex_store : store nat unit := Store [[("given_label", PList (ints [1; 0; 1])); ("predicted_label", PList (ints [0; 0; 1]))]] [("label", 0)].
Example C110_example : format_labels Nat.leb [30; 10; 30] = Ok ([1; 0; 1], [(0, 10); (1, 30)]) /\ valid_store ex_store /\
  let r := get_info Classification (Labels 3 [(0, 10); (1, 30)]) (Some "label") ex_store in
  content (fst r) (At 1) = [("given_label", PArr 1 (names [30; 10; 30])); ("predicted_label", PArr 1 (names [10; 10; 30]));
                            ("class_names", PList (names [10; 30]))] /\ snd r = Ok (At 1).
Proof.
  split; [reflexivity|]. split; [|split; reflexivity].
  intros s loc. cbn. destruct (String.eqb s "label"); [intros E; injection E as <-; lia|discriminate].
Qed.
Example C110_example_multi : let st : store nat unit := Store [[("given_label", PList [PList (ints [1; 0]); PList []]); ("predicted_label", PList [PList (ints [0]); PList []])]] [("label", 0)] in
  let r := get_info Multilabel (Labels 2 [(0, 10); (1, 30)]) (Some "label") st in
  format_multilabels Nat.leb [[30; 10]; []] = Ok ([[1; 0]; []], [(0, 10); (1, 30)]) /\
  lookup "given_label" (content (fst r) (At 1)) = Some (PList [PList (names [30; 10]); PList []]).
Proof. split; reflexivity. Qed.

(** ** C111 *)
Theorem C111_contents {A W} n (stats : list (string * idict A W)) history sort_rows argsort fuel t (d : labels A) levels_of show_all k v x :
  let log := all_outcomes (init_issues n stats) history in
  let st := audit n stats history in
  well_formed_log n log -> sorts_by_num sort_rows -> argsort_ok argsort ->
  get_report sort_rows argsort fuel t d levels_of show_all k v st = Ok x ->
  match x with
  | NoIssues => show_all = false /\ issue_summary st <> [] /\ forall r, In r (issue_summary st) -> r_num r = 0
  | Report rows sections =>
      (forall r, In r rows <-> In r (issue_summary st) /\ (show_all = true \/ 0 < r_num r)) /\
      NoDup (map r_type rows) /\ StronglySorted (fun a b => r_num b <= r_num a) rows /\
      map s_name sections = filter (fun s => negb (smem s image_checks)) (map r_type rows) /\
      forall s, In s sections -> exists out fl sc, latest (s_name s) log (Some out) /\
        m_frame out = [(flag_column (s_name s), map CFlag fl); (score_column (s_name s), map CNum sc)] /\
        s_count s = count_true fl /\ s_score s = m_score out /\ shows_lowest k sc (s_examples s)
  end.
Proof. intros log st H1 H2 H3. exact (contents_full n stats history H1 sort_rows argsort fuel H2 H3 t d levels_of show_all k v x). Qed.
Print Assumptions C111_contents.

Theorem C111_no_issues {A W} n (stats : list (string * idict A W)) history sort_rows argsort fuel t (d : labels A) levels_of show_all k v :
  let st := audit n stats history in
  well_formed_log n (all_outcomes (init_issues n stats) history) -> sorts_by_num sort_rows -> argsort_ok argsort ->
  (get_report sort_rows argsort fuel t d levels_of show_all k v st = Ok NoIssues <->
   show_all = false /\ issue_summary st <> [] /\ forall r, In r (issue_summary st) -> r_num r = 0).
Proof. intros st H1 H2 H3. exact (empty_full n stats history H1 sort_rows argsort fuel H2 H3 t d levels_of show_all k v). Qed.
Print Assumptions C111_no_issues.

Definition ex_check (name : string) (fl : list bool) (sc : list Q) (s : Q) (i : idict nat unit) : check (idict nat unit) :=
  (name, fun _ => Some (Out (length fl) [(flag_column name, map CFlag fl); (score_column name, map CNum sc)] s i [])).
Definition ex_history : list (list (check (idict nat unit))) :=
  [[ex_check "near_duplicate" [false; true; false] [1; 0; 1]%Q (1 # 2) [("threshold", POther tt)];
    ex_check "outlier" [false; false; false] [1; 1; 1]%Q 1%Q [("average_ood_score", POther tt)];
    ex_check "null" [true; true; false] [1 # 2; 0; 1]%Q (1 # 2) [("most_common_issue", PDict true)];
    ex_check "dark" [true; false; false] [0; 1; 1]%Q 1%Q []]].
Example C111_hypotheses : well_formed_log 3 (all_outcomes (init_issues 3 []) ex_history).
Proof.
  intros s out H. cbn [all_outcomes outcomes ex_history fst snd app ex_check] in H.
  destruct H as [H|[H|[H|[H|[]]]]]; injection H as <- <-; (split; [reflexivity|]).
  - exists [false; true; false], [1; 0; 1]%Q. repeat split.
  - exists [false; false; false], [1; 1; 1]%Q. repeat split.
  - exists [true; true; false], [1 # 2; 0; 1]%Q. repeat split.
  - exists [true; false; false], [0; 1; 1]%Q. repeat split.
Qed.
(** insertion sort by decreasing number of issues *)
Fixpoint insert_row (r : row) (l : list row) : list row :=
  match l with [] => [r] | x :: l' => if Nat.leb (r_num x) (r_num r) then r :: l else x :: insert_row r l' end.
Definition sort_rows_ins (l : list row) : list row := fold_right insert_row [] l.
Example C111_hypotheses_sort : sorts_by_num sort_rows_ins.
Proof.
  intros l. induction l as [|r l (P & S0)]; [split; constructor|]. cbn [sort_rows_ins fold_right]. fold (sort_rows_ins l).
  assert (G : forall l', StronglySorted (fun x y => r_num y <= r_num x) l' ->
     Permutation (insert_row r l') (r :: l') /\ StronglySorted (fun x y => r_num y <= r_num x) (insert_row r l')).
  { clear. induction l' as [|x l' IH]; intros S0; [split; [reflexivity|repeat constructor]|]. cbn [insert_row].
    inversion S0 as [|? ? S1 F]; subst. destruct (Nat.leb_spec (r_num x) (r_num r)) as [H|H].
    - split; [reflexivity|]. constructor; [exact S0|]. constructor; [exact H|]. rewrite Forall_forall in *. intros y Hy. specialize (F y Hy). lia.
    - destruct (IH S1) as (P & S2). split; [rewrite P; apply perm_swap|]. constructor; [exact S2|]. rewrite Forall_forall in *. intros y Hy.
      apply (Permutation_in _ P) in Hy. destruct Hy as [<-|Hy]; [lia|now apply F]. }
  destruct (G _ S0) as (G1 & G2). split; [|exact G2]. rewrite G1. now constructor.
Qed.
Example C111_example : get_report sort_rows_ins argsort_ins 1 Classification (Labels 0 []) (builtin_levels Classification) false 2 2 (audit 3 [] ex_history) =
  Ok (Report [Row "null" (1 # 2) 2; Row "near_duplicate" (1 # 2) 1; Row "dark" 1%Q 1]
        [Section_ "null" 2 (1 # 2) [1; 0] [("most_common_issue", Some ShownJson)];
         Section_ "near_duplicate" 1 (1 # 2) [1; 0] [("threshold", Some (ShownText (POther tt)))]]).
Proof. vm_compute. reflexivity. Qed.

(** ** C112 *)
(** which entries of the info a section prints, and how *)
Theorem C112_info_shown {A W} n (stats : list (string * idict A W)) history argsort fuel t (d : labels A) levels_of k v s x :
  let st := audit n stats history in
  check_report argsort fuel t d levels_of k v st s = Ok x ->
  exists levels i0 i cols extra, levels_of s = Some levels /\ v <= length levels /\ lookup s (info st) = Some i0 /\
    show_info t d s i0 = Ok i /\ get_issues_table t d s st = Ok (cols, extra) /\
    (forall key, In key (map fst (s_info x)) <->
       ~ In key (keys cols) /\ ~ In key (keys extra) /\
       ((exists l, l <= v /\ In key (nth l levels [])) \/ v = length levels /\ In key (keys i))) /\
    forall key sh, In (key, sh) (s_info x) -> exists y, lookup key i = Some y /\ show_entry fuel key y = Ok sh.
Proof. exact (info_shown_full n stats history argsort fuel t d levels_of k v s x). Qed.
Print Assumptions C112_info_shown.

(** lists are cut after the given number of entries; printing does not end exactly for empty lists and for
    lists of lists of different lengths *)
Theorem C112_printed_values {A W} m (v : pyval A W) : (unprintable v -> forall fuel, truncate fuel m v = Raise Diverges) /\
  (~ unprintable v -> forall fuel, 3 <= fuel -> exists s, truncate fuel m v = Ok s /\
     forall l dots, s = ShownList l dots -> exists e, entries_of v = Some e /\ l = firstn m e /\ (dots = true <-> m < length e)).
Proof. exact (truncate_full m v). Qed.
Print Assumptions C112_printed_values.

(** for the built-in checks these are *)
Theorem C112_builtin_printed {A W} n (stats : list (string * idict A W)) history argsort fuel t (d : labels A) k v s x :
  let st := audit n stats history in
  check_report argsort fuel t d (builtin_levels t) k v st s = Ok x ->
  exists i cols extra, lookup s (info st) <> None /\ get_issues_table t d s st = Ok (cols, extra) /\
    (forall i0, lookup s (info st) = Some i0 -> show_info t d s i0 = Ok i) /\
    forall key, In key (map fst (s_info x)) <-> ~ In key (keys cols) /\ ~ In key (keys extra) /\
      ((exists l, l <= v /\ printed_from t s key l) \/ prints_all s v /\ In key (keys i)).
Proof. exact (builtin_printed n stats history argsort fuel t d k v s x). Qed.
Print Assumptions C112_builtin_printed.

(** with the built-in checks the report succeeds at the verbosity levels 0 to 2, and at level 3 as far as the
    checks have four *)
Theorem C112_builtin_partial {A W} n (stats : list (string * idict A W)) history sort_rows argsort fuel t (d : labels A) show_all k v :
  let log := all_outcomes (init_issues n stats) history in
  0 < n -> well_formed_log n log -> sorts_by_num sort_rows -> 1 <= fuel ->
  (v <= 2 \/ v = 3 /\ forall s out, latest s log (Some out) -> ~ In s image_checks -> four_levels s) ->
  (forall s out, latest s log (Some out) -> ~ In s image_checks -> In s (registry t) /\ builtin_info t n s (m_info out)) ->
  (forall s out, latest s log (Some out) -> is_named t s = true -> available d = true) ->
  exists x, get_report sort_rows argsort fuel t d (builtin_levels t) show_all k v (audit n stats history) = Ok x.
Proof. exact (builtin_full n stats history sort_rows argsort fuel t d show_all k v). Qed.
Print Assumptions C112_builtin_partial.

(** but not at the higher levels: never with an underperforming group, and at level 4 never with any check that
    has three levels *)
Theorem C112_underperforming_refuted {A W} n (stats : list (string * idict A W)) history sort_rows argsort fuel (d : labels A) show_all k :
  let log := all_outcomes (init_issues n stats) history in
  let st := audit n stats history in
  well_formed_log n log -> sorts_by_num sort_rows ->
  reported show_all st "underperforming_group" ->
  (forall out, latest "underperforming_group" log (Some out) -> builtin_info Classification n "underperforming_group" (m_info out) /\
     ~ In "clustering" (keys (issues st))) ->
  forall v x, 3 <= v -> get_report sort_rows argsort fuel Classification d (builtin_levels Classification) show_all k v st <> Ok x.
Proof. exact (underperforming_fails n stats history sort_rows argsort fuel d show_all k). Qed.
Print Assumptions C112_underperforming_refuted.

Theorem C112_too_verbose_refuted {A W} n (stats : list (string * idict A W)) history sort_rows argsort fuel t (d : labels A) levels_of show_all k v s levels :
  let st := audit n stats history in
  sorts_by_num sort_rows -> reported show_all st s -> levels_of s = Some levels -> length levels < v ->
  forall x, get_report sort_rows argsort fuel t d levels_of show_all k v st <> Ok x.
Proof. intros st H. exact (too_verbose n stats history sort_rows argsort fuel H t d levels_of show_all k v s levels). Qed.
Print Assumptions C112_too_verbose_refuted.

Example C112_example_values : truncate 5 4 (PList [PInt 1; PInt 2; PInt 3; PInt 4; PInt 5] : pyval nat nat) =
    Ok (ShownList [PInt 1; PInt 2; PInt 3; PInt 4] true) /\
  truncate 5 4 (PList [PList [PInt 1]; PList [PInt 2]] : pyval nat nat) = Ok (ShownArray 2) /\
  unprintable (PList [PList [PInt 1]; PList []] : pyval nat nat) /\ unprintable (PList [] : pyval nat nat).
Proof.
  split; [reflexivity|]. split; [reflexivity|]. split.
  - exists [PList [PInt 1]; PList []]. split; [reflexivity|]. split; [intros x [<-|[<-|[]]]; eauto|].
    right. exists [PInt 1], []. split; [now left|]. split; [right; now left|]. discriminate.
  - exists []. split; [reflexivity|]. split; [intros x []|now left].
Qed.
Example C112_hypotheses : forall s out, latest s (all_outcomes (init_issues 3 []) ex_history) (Some out) -> ~ In s image_checks ->
  In s (registry Classification) /\ builtin_info Classification 3 s (m_info out).
Proof.
  intros s out (a & b & E & _) Ni.
  assert (I : In (s, Some out) (all_outcomes (init_issues 3 []) ex_history)) by (rewrite E; apply in_or_app; right; now left).
  cbn [all_outcomes outcomes ex_history fst snd app ex_check] in I.
  destruct I as [H|[H|[H|[H|[]]]]]; injection H as <- <-; [| | |exfalso; apply Ni; now left];
    (split; [cbn; tauto|]); cbn [m_info];
    (split; [intros ks k kd Hk Ik; vm_compute in Hk; injection Hk as <-; destruct Ik as [Ik|[]]; injection Ik as <- <-; eexists; split; reflexivity|]);
    repeat (split; [discriminate|]); try discriminate.
  intros _ k v [->| ->] Hk; discriminate.
Qed.
(** a classification Datalab with the label check only, at level 3 *)
Definition ex_label_run : list (list (check (idict nat unit))) :=
  [[ex_check "label" [false; true; false] [1; 0; 1]%Q (1 # 2)
     [("given_label", PList (ints [1; 0; 1])); ("predicted_label", PList (ints [1; 1; 1]));
      ("classes_by_label_quality", PFrame 2); ("overlapping_classes", PFrame 7); ("confident_joint", PArr 2 [])]]].
Example C112_example_label : get_report sort_rows_ins argsort_ins 1 Classification (Labels 3 [(0, 10); (1, 30)]) (builtin_levels Classification) false 1 3 (audit 3 [] ex_label_run) =
  Ok (Report [Row "label" (1 # 2) 1]
        [Section_ "label" 1 (1 # 2) [1] [("classes_by_label_quality", Some (ShownRows 2 false)); ("overlapping_classes", Some (ShownRows 5 true))]]).
Proof. vm_compute. reflexivity. Qed.
Example C112_hypotheses_label : forall s out, latest s (all_outcomes (init_issues 3 []) ex_label_run) (Some out) -> ~ In s image_checks ->
  four_levels s /\ In s (registry Classification) /\ builtin_info Classification 3 s (m_info out).
Proof.
  intros s out (a & b & E & _) Ni.
  assert (I : In (s, Some out) (all_outcomes (init_issues 3 []) ex_label_run)) by (rewrite E; apply in_or_app; right; now left).
  cbn [all_outcomes outcomes ex_label_run fst snd app ex_check] in I. destruct I as [H|[]]; injection H as <- <-.
  split; [right; now left|]. split; [cbn; tauto|]. cbn [m_info].
  split; [intros ks k kd Hk Ik; vm_compute in Hk; injection Hk as <-; destruct Ik as [Ik|[Ik|[]]]; injection Ik as <- <-; eexists; split; reflexivity|].
  split; [|repeat (split; [discriminate|]); discriminate].
  intros _ k [->| ->]; eexists; (split; [reflexivity|]); (split; [eexists; split; [left; reflexivity|reflexivity]|discriminate]).
Qed.
Definition ex_group : list (list (check (idict nat unit))) :=
  [[ex_check "underperforming_group" [true; false; false] [0; 1; 1]%Q (1 # 2) [("threshold", POther tt); ("clustering", PDict false)]]].
Example C112_hypotheses_group : reported false (audit 3 [] ex_group) "underperforming_group" /\
  ~ In "clustering" (keys (issues (audit 3 [] ex_group))) /\
  get_report sort_rows_ins argsort_ins 5 Classification (Labels 0 []) (builtin_levels Classification) false 2 3 (audit 3 [] ex_group) = Raise TypeError /\
  get_report sort_rows_ins argsort_ins 5 Classification (Labels 0 []) (builtin_levels Classification) false 2 4 (audit 3 [] ex_group) = Raise ValueError.
Proof.
  split; [split; [vm_compute; intuition discriminate|]|split; [vm_compute; intuition discriminate|split; vm_compute; reflexivity]].
  exists (Row "underperforming_group" (1 # 2) 1). vm_compute. split; [now left|]. split; [reflexivity|]. right. constructor.
Qed.

(** ** C113 *)
Theorem C113_registry {C} (is_manager : C -> bool) (issue_name : C -> string) t s r calls o :
  last_registered is_manager issue_name t s calls o ->
  from_str s t (register_all is_manager issue_name calls r) = match o with Some c => Ok c | None => from_str s t r end.
Proof. exact (registry_full is_manager issue_name t s r calls o). Qed.
Print Assumptions C113_registry.

Theorem C113_rejected {C} (is_manager : C -> bool) (issue_name : C -> string) c tn r :
  ((exists r', register is_manager issue_name c tn r = Ok r') <-> is_manager c = true /\ exists t, tn = task_name t) /\
  (~ (is_manager c = true /\ exists t, tn = task_name t) -> register is_manager issue_name c tn r = Raise ValueError).
Proof. exact (conj (register_ok is_manager issue_name c tn r) (register_raises is_manager issue_name c tn r)). Qed.
Print Assumptions C113_rejected.

(** the listed names are those that are known; any other raises *)
Theorem C113_unknown {C} t s (r : registries C) :
  (In s (list_possible_issue_types t r) <-> exists c, from_str s t r = Ok c) /\
  (~ In s (list_possible_issue_types t r) -> from_str s t r = Raise ValueError).
Proof. exact (unknown_full t s r). Qed.
Print Assumptions C113_unknown.

Example C113_example : let r0 := Reg [("label", 0)] [("label", 1)] [] in
  let calls := [(7, "classification"); (8, "regression"); (9, "classification"); (10, "image")] in
  let r := register_all (fun c => negb (Nat.eqb c 9)) (fun c => if Nat.eqb c 7 then "label" else "mine") calls r0 in
  from_str "label" Classification r = Ok 7 /\ from_str "label" Regression r = Ok 1 /\ from_str "mine" Regression r = Ok 8 /\
  from_str "mine" Classification r = Raise ValueError.
Proof. repeat split. Qed.
