(** * Datalab: tables over histories, arguments of the checks, saving and loading, image checks *)
From Coq Require Import String QArith List Bool Arith Lia Lqa.
From Verif Require Import Base BaseFacts ModelDatalab SpecDatalab ProofDatalab ProofDatalab2 ProofDatalab3.
Import ListNotations.
Open Scope string_scope.
Open Scope list_scope.

(** ** C44 *)
(** the tables show the latest successful run of every check; [latest] of a check that never succeeded is [None] *)
Theorem C44_latest V n (stats : list (string * V)) history t :
  let log := all_outcomes (init_issues n stats) history in
  let st := audit n stats history in
  well_formed_log n log -> forall o, latest t log o ->
  match o with
  | None => get_issue_summary (Some t) st = Raise ValueError /\ lookup (flag_column t) (issues st) = None /\
            lookup (score_column t) (issues st) = None /\ lookup t (info st) = None
  | Some out => exists fl sc, m_frame out = [(flag_column t, map CFlag fl); (score_column t, map CNum sc)] /\
            get_issue_summary (Some t) st = Ok [Row t (m_score out) (count_true fl)] /\
            lookup (flag_column t) (issues st) = Some (map CFlag fl) /\
            lookup (score_column t) (issues st) = Some (map CNum sc) /\
            lookup t (info st) = Some (m_info out)
  end.
Proof. exact (audit_latest n stats history t). Qed.
Theorem C44_one_row V n (stats : list (string * V)) history :
  well_formed_log n (all_outcomes (init_issues n stats) history) ->
  let st := audit n stats history in
  d_rows st = n /\ NoDup (map r_type (issue_summary st)) /\
  (forall r, In r (issue_summary st) -> exists fl, lookup (flag_column (r_type r)) (issues st) = Some (map CFlag fl) /\
     length fl = n /\ r_num r = count_true fl).
Proof. exact (audit_one_row n stats history). Qed.
(** a check that raises at its turn might as well not have been requested *)
Theorem C44_failures V n (stats : list (string * V)) before a c b after :
  snd c (fold_left run_check a (audit n stats before)) = None ->
  audit n stats (before ++ [a ++ c :: b] ++ after) = audit n stats (before ++ [a ++ b] ++ after).
Proof. exact (audit_skip n stats before a c b after). Qed.
Theorem C44_health V n (stats : list (string * V)) history :
  health_score (audit n stats history) =
  match issue_summary (audit n stats history) with [] => None | rows => Some (qmean (map r_score rows)) end.
Proof. exact (audit_healthy n stats history). Qed.
Theorem C44_statistics V n (stats : list (string * V)) history :
  statistics (audit n stats history) =
  fold_left dict_update (map m_stats (successes (all_outcomes (init_issues n stats) history))) stats.
Proof. exact (history_stats history (init_issues n stats)). Qed.

Definition ex_out (name : string) (fl : list bool) (sc : list Q) (s : Q) : manager_out nat :=
  Out (length fl) [(flag_column name, map CFlag fl); (score_column name, map CNum sc)] s (length fl) [].
Definition ex_history : list (list (check nat)) :=
  [[("label", fun _ => Some (ex_out "label" [true; false] [0; 1] (1 # 2))); ("outlier", fun _ => None)];
   [("outlier", fun st => Some (ex_out "outlier" [false; Nat.ltb 0 (length (issues st))] [1; 0] (1 # 4)));
    ("label", fun _ => Some (ex_out "label" [true; true] [0; 0] 0))];
   [("label", fun _ => None)]].
Lemma ex_out_well_formed name fl sc s : length sc = length fl -> well_formed (length fl) name (ex_out name fl sc s).
Proof. intros H. split; [reflexivity|]. exists fl, sc. auto. Qed.
Example C44_hypotheses : well_formed_log 2 (all_outcomes (init_issues 2 []) ex_history).
Proof.
  intros t out [H|[H|[H|[H|[H|[]]]]]]; try discriminate H; injection H as <- <-;
    match goal with |- well_formed _ ?t (ex_out _ ?fl ?sc ?s) => exact (ex_out_well_formed t fl sc s eq_refl) end.
Qed.
Example C44_example : issue_summary (audit 2 [] ex_history) = [Row "outlier" (1 # 4) 1; Row "label" 0 2] /\
  health_score (audit 2 [] ex_history) = Some (qmean [1 # 4; 0]).
Proof. vm_compute. split; reflexivity. Qed.

(** a (custom) check whose table lacks its flag column fails while being recorded and takes the previous row with it *)
Theorem C44_malformed_check_refuted : ~ (forall (n : nat) (stats : list (string * nat)) history c out,
  well_formed_log n (all_outcomes (init_issues n stats) history) ->
  snd c (audit n stats history) = Some out ->
  snd (collect_issues (fst c) out (audit n stats history)) = false ->
  issue_summary (audit n stats (history ++ [[c]])) = issue_summary (audit n stats history)).
Proof.
  intros H.
  specialize (H 2%nat [] [[("mine", fun _ => Some (ex_out "mine" [true; false] [0; 1]%Q (1 # 2)))]]
                ("mine", fun _ => Some (Out 2 [("mine_score", [CNum 0; CNum 1])] 0%Q 0%nat []))
                (Out 2 [("mine_score", [CNum 0; CNum 1])] 0%Q 0%nat [])).
  assert (Hw : well_formed_log 2 (all_outcomes (init_issues 2 []) [[("mine", fun _ : data_issues nat => Some (ex_out "mine" [true; false] [0; 1]%Q (1 # 2)))]])).
  { intros t out [E|[]]. injection E as <- <-. split; [reflexivity|]. exists [true; false], [0; 1]%Q. repeat split. }
  specialize (H Hw eq_refl eq_refl). vm_compute in H. discriminate.
Qed.

(** ** C78 *)
Theorem C78_builtin_partial V n (stats : list (string * V)) history t :
  let log := all_outcomes (init_issues n stats) history in
  (0 < n)%nat -> well_formed_log n log -> (forall t' o, In (t', o) log -> In t' builtin_names) ->
  forall out, latest t log (Some out) ->
  exists cols fl sc, get_issues (Some t) (audit n stats history) = Ok cols /\
    m_frame out = [(flag_column t, map CFlag fl); (score_column t, map CNum sc)] /\
    NoDup (keys cols) /\ (forall c, In c cols <-> c = (flag_column t, map CFlag fl) \/ c = (score_column t, map CNum sc)).
Proof. exact (audit_get_issues V n stats history t). Qed.
Example C78_example : get_issues (Some "label") (audit 2 [] ex_history) =
  Ok [("is_label_issue", [CFlag true; CFlag true]); ("label_score", [CNum 0; CNum 0])].
Proof. vm_compute. reflexivity. Qed.
Example C78_hypotheses : forall t' o, In (t', o) (all_outcomes (init_issues 2 []) ex_history) -> In t' builtin_names.
Proof. intros t' o H. cbn in H. repeat destruct H as [H|H]; try (injection H as <- <-; cbn; tauto); destruct H. Qed.
(** columns are selected by substring, so a check whose name contains another one's name leaks into it *)
Theorem C78_substring_refuted : ~ (forall (n : nat) (stats : list (string * nat)) history t out cols,
  well_formed_log n (all_outcomes (init_issues n stats) history) ->
  latest t (all_outcomes (init_issues n stats) history) (Some out) ->
  get_issues (Some t) (audit n stats history) = Ok cols ->
  forall c, In c cols -> fst c = flag_column t \/ fst c = score_column t).
Proof.
  intros H.
  set (h := [[("label", fun _ : data_issues nat => Some (ex_out "label" [true] [0]%Q (1 # 2)));
              ("label_length", fun _ => Some (ex_out "label_length" [false] [1]%Q (1 # 2)))]]).
  specialize (H 1%nat [] h "label" (ex_out "label" [true] [0]%Q (1 # 2))
    [("is_label_issue", [CFlag true]); ("label_score", [CNum 0]); ("is_label_length_issue", [CFlag false]); ("label_length_score", [CNum 1])]).
  assert (Hw : well_formed_log 1 (all_outcomes (init_issues 1 []) h)).
  { intros t out [E|[E|[]]]; injection E as <- <-; (split; [reflexivity|]); [exists [true], [0]%Q|exists [false], [1]%Q]; repeat split. }
  assert (Hl : latest "label" (all_outcomes (init_issues 1 []) h) (Some (ex_out "label" [true] [0]%Q (1 # 2)))).
  { exists [], [("label_length", Some (ex_out "label_length" [false] [1]%Q (1 # 2)))]. split; [reflexivity|].
    intros out' [E|[]]. discriminate. }
  specialize (H Hw Hl ltac:(vm_compute; reflexivity) ("is_label_length_issue", [CFlag false])).
  destruct H as [H|H]; [cbn; tauto|discriminate|discriminate].
Qed.

(** ** C45 *)
(** the nested dictionaries are unchanged when no issue types are given, or when they already contain every
    input of the call that their check can take *)
Theorem C45_unchanged_partial V t has_labels (pred_probs features knn_graph : option V) h types :
  (types = None \/ exists ts, types = Some ts /\ forall name r k, In (name, r) ts -> takes t name k ->
     input t pred_probs features knn_graph k <> None -> In k (keys (deref h r))) ->
  fst (checks_to_run t has_labels pred_probs features knn_graph h types) = h.
Proof. exact (heap_unchanged t has_labels pred_probs features knn_graph h types). Qed.
(** entries that the caller wrote are never changed *)
Theorem C45_entries_kept_partial V t has_labels (pred_probs features knn_graph : option V) h types r k v :
  lookup k (deref h r) = Some v ->
  lookup k (deref (fst (checks_to_run t has_labels pred_probs features knn_graph h types)) r) = Some v.
Proof. exact (heap_keeps t has_labels pred_probs features knn_graph h types r k v). Qed.
(** in every other case the caller's dictionary is changed, and a later call with other inputs silently
    uses the inputs of the earlier call *)
Theorem C45_modified_refuted V t has_labels (pp f g pp' f' g' : option V) h ts name r k v :
  NoDup (keys ts) -> NoDup (map snd ts) ->
  (forall e, In e ts -> (snd e < length h)%nat /\ NoDup (keys (deref h (snd e)))) ->
  (forall e, In e ts -> In (fst e) (registry t)) ->
  In (name, r) ts -> takes t name k -> input t pp f g k = Some v -> ~ In k (keys (deref h r)) ->
  let h' := fst (checks_to_run t has_labels pp f g h (Some ts)) in
  h' <> h /\ exists l, snd (checks_to_run t has_labels pp' f' g' h' (Some ts)) = Ok l /\
    forall a, In (name, a) l -> value_of k a = Some v.
Proof. exact (heap_stale t has_labels pp f g pp' f' g' h ts name r k v). Qed.
(** [issue_types = {"outlier": {}}] used with features 1 and then with features 2 *)
Example C45_example : let ts := [("outlier", 0%nat)] in
  let first := checks_to_run Classification true None (Some 1%nat) None [[]] (Some ts) in
  fst first = [[("features", Some 1%nat)]] /\
  snd (checks_to_run Classification true None (Some 2%nat) None (fst first) (Some ts)) = Ok [("outlier", [("features", Some 1%nat)])].
Proof. vm_compute. split; reflexivity. Qed.

(** ** C79 *)
(** no issue types given: the default checks that can be computed from what is there *)
Theorem C79_default V t has_labels (pred_probs features knn_graph : option V) h :
  exists l, checks_to_run t has_labels pred_probs features knn_graph h None = (h, Ok l) /\ NoDup (keys l) /\
  forall name, In name (keys l) <->
    usable t pred_probs features knn_graph name /\ (needs_labels t name -> has_labels = true).
Proof. exact (default_checks t has_labels pred_probs features knn_graph h). Qed.
(** issue types given: explicit arguments win, the other arguments of the check come from the call *)
Theorem C79_explicit V t has_labels (pp f g : option V) h ts : NoDup (keys ts) -> NoDup (map snd ts) ->
  (forall e, In e ts -> (snd e < length h)%nat /\ NoDup (keys (deref h (snd e)))) ->
  (forall e, In e ts -> In (fst e) (registry t)) ->
  exists l, snd (checks_to_run t has_labels pp f g h (Some ts)) = Ok l /\ NoDup (keys l) /\
    (forall name a, In (name, a) l -> exists r, In (name, r) ts /\
       (forall k v, In (k, v) a -> v <> None) /\
       forall k, (In k (keys (deref h r)) -> value_of k a = value_of k (deref h r)) /\
                 (~ In k (keys (deref h r)) -> takes t name k -> value_of k a = input t pp f g k) /\
                 (~ In k (keys (deref h r)) -> ~ takes t name k -> value_of k a = None)) /\
    (forall name, In name (keys ts) -> ~ In name (keys l) ->
       (name = "label" /\ t <> Regression /\ has_labels = false) \/
       (name = "class_imbalance" /\ t = Classification /\ has_labels = false) \/ name = "underperforming_group") /\
    (forall name, In name (keys l) -> In name (keys ts) /\ (name = "label" -> t <> Regression -> has_labels = true) /\
       (name = "class_imbalance" -> t = Classification -> has_labels = true)).
Proof. exact (explicit_checks t has_labels pp f g h ts). Qed.
Theorem C79_underperforming V t has_labels (pp f g : option V) h ts r : NoDup (keys ts) -> NoDup (map snd ts) ->
  (forall e, In e ts -> (snd e < length h)%nat /\ NoDup (keys (deref h (snd e)))) ->
  (forall e, In e ts -> In (fst e) (registry t)) -> In ("underperforming_group", r) ts ->
  exists l, snd (checks_to_run t has_labels pp f g h (Some ts)) = Ok l /\
    let val k := if smem k (keys (deref h r)) then value_of k (deref h r)
                 else if String.eqb k "cluster_ids" then None else input t pp f g k in
    (In "underperforming_group" (keys l) <->
     val "pred_probs" <> None /\ (val "features" <> None \/ val "knn_graph" <> None \/ val "cluster_ids" <> None)).
Proof. exact (explicit_underperforming t has_labels pp f g h ts r). Qed.
Example C79_example : snd (checks_to_run Classification false (Some 1%nat) (Some 2%nat) None
    [[("k", Some 7%nat); ("features", None)]; []; [("cluster_ids", Some 9%nat); ("features", None)]]
    (Some [("outlier", 0%nat); ("label", 1%nat); ("underperforming_group", 2%nat)])) =
  Ok [("outlier", [("k", Some 7%nat); ("pred_probs", Some 1%nat)]);
      ("underperforming_group", [("cluster_ids", Some 9%nat); ("pred_probs", Some 1%nat)])].
Proof. vm_compute. reflexivity. Qed.
Example C79_example_default : exists l, snd (checks_to_run Multilabel true (Some 1%nat) None (Some 2%nat) [] None) = Ok l /\
  keys l = ["label"; "outlier"; "near_duplicate"; "non_iid"].
Proof. eexists. split; vm_compute; reflexivity. Qed.
(** The rule that without labels the outlier check is not run from predicted probabilities alone (issue_finder.py
    448-463) never applies: [self.task == "classification"] compares an Enum member with a string. *)
Theorem C79_outlier_without_labels_refuted V (p : V) : ~ (forall l,
  snd (checks_to_run Classification false (Some p) None None [] None) = Ok l -> ~ In "outlier" (keys l)).
Proof. intros H. refine (H _ eq_refl _). cbn. tauto. Qed.

(** ** C46 *)
Theorem C46_no_overwrite obj byte (pickle csv_issues csv_summary dataset : obj -> list byte) d o :
  save pickle csv_issues csv_summary dataset (Some d) o false = Raise FileExistsError /\
  save_states pickle csv_issues csv_summary dataset (Some d) o false = Raise FileExistsError.
Proof. exact (save_exists pickle csv_issues csv_summary dataset d o). Qed.
Theorem C46_roundtrip obj byte (pickle : obj -> list byte) (unpickle : list byte -> option obj)
    (csv_issues csv_summary dataset : obj -> list byte) (set_data : obj -> obj) (hash_of labels_of : obj -> nat) :
  (forall o, unpickle (pickle o) = Some o) -> forall p o force,
  (p = None \/ force = true -> exists p', save pickle csv_issues csv_summary dataset p o force = Ok p') /\
  forall p' data, save pickle csv_issues csv_summary dataset p o force = Ok p' ->
  load unpickle set_data hash_of labels_of p' data =
  match data with
  | None => Ok o
  | Some (hash, n) => if Nat.eqb hash (hash_of o) && Nat.eqb n (labels_of o) then Ok (set_data o) else Raise ValueError
  end.
Proof.
  exact (fun R p o force => conj
    (fun H => ex_intro _ _ (save_spec pickle csv_issues csv_summary dataset p o force H))
    (fun p' data => load_saved pickle unpickle csv_issues csv_summary dataset set_data hash_of labels_of R p o force p' data)).
Qed.
(** after a crash anywhere in a save: the old object, the new object, or (missing) an object file that is
    absent or cut short *)
Theorem C46_crash_partial obj byte (pickle : obj -> list byte) (unpickle : list byte -> option obj)
    (csv_issues csv_summary dataset : obj -> list byte) (set_data : obj -> obj) (hash_of labels_of : obj -> nat) :
  (forall o, unpickle (pickle o) = Some o) -> forall p o force states s,
  save_states pickle csv_issues csv_summary dataset p o force = Ok states -> In s states ->
  let loaded q := load unpickle set_data hash_of labels_of q None in
  loaded s = loaded p \/ loaded s = Ok o \/ (s = Some empty_folder /\ p = None) \/
  (exists d c, s = Some d /\ f_object d = Some c /\ truncation c (pickle o)).
Proof. exact (crash_states pickle unpickle csv_issues csv_summary dataset set_data hash_of labels_of). Qed.
Theorem C46_forced_crash_refuted obj byte (pickle : obj -> list byte) (unpickle : list byte -> option obj)
    (csv_issues csv_summary dataset : obj -> list byte) (set_data : obj -> obj) (hash_of labels_of : obj -> nat) d old o :
  load unpickle set_data hash_of labels_of (Some d) None = Ok old ->
  pickle o <> [] -> (forall c, truncation c (pickle o) -> unpickle c = None) ->
  exists states s, save_states pickle csv_issues csv_summary dataset (Some d) o true = Ok states /\ In s states /\
    load unpickle set_data hash_of labels_of s None = Raise OtherError.
Proof. exact (crash_loses pickle unpickle csv_issues csv_summary dataset set_data hash_of labels_of d old o). Qed.
(** a Datalab without labels can not be loaded together with its (non-empty) dataset *)
Theorem C46_unlabelled_reload_refuted obj byte (pickle : obj -> list byte) (unpickle : list byte -> option obj)
    (csv_issues csv_summary dataset : obj -> list byte) (set_data : obj -> obj) (hash_of labels_of : obj -> nat) :
  (forall o, unpickle (pickle o) = Some o) -> forall p o force p' n,
  save pickle csv_issues csv_summary dataset p o force = Ok p' -> labels_of o = 0%nat -> (0 < n)%nat ->
  load unpickle set_data hash_of labels_of p' (Some (hash_of o, n)) = Raise ValueError.
Proof. exact (reload_unlabelled pickle unpickle csv_issues csv_summary dataset set_data hash_of labels_of). Qed.
Definition ex_pickle (o : nat) : list nat := [o; o].
Definition ex_unpickle (c : list nat) : option nat := match c with [a; b] => if Nat.eqb a b then Some a else None | _ => None end.
Example C46_hypotheses : (forall o, ex_unpickle (ex_pickle o) = Some o) /\
  (forall o c, truncation c (ex_pickle o) -> ex_unpickle c = None).
Proof.
  split; [intros o; cbn; now rewrite Nat.eqb_refl|]. intros o c (x & r & E).
  destruct c as [|a [|b [|d c]]]; try reflexivity. exfalso. apply (f_equal (@length _)) in E. cbn in E. lia.
Qed.
Example C46_example : exists p', save ex_pickle (fun _ => [1%nat]) (fun _ => [2%nat]) (fun _ => [3%nat]) None 5%nat false = Ok p' /\
  load ex_unpickle S (fun o => o) (fun _ => 3%nat) p' None = Ok 5%nat /\
  load ex_unpickle S (fun o => o) (fun _ => 3%nat) p' (Some (5, 3)%nat) = Ok 6%nat /\
  load ex_unpickle S (fun o => o) (fun _ => 3%nat) p' (Some (4, 3)%nat) = Raise ValueError.
Proof. eexists. split; [reflexivity|]. repeat split. Qed.

(** ** C81 *)
Theorem C81_rows_partial V (lab : imagelab V) types st st' : collect_imagelab lab types st = Ok st' ->
  NoDup (map r_type (issue_summary st)) -> NoDup (map r_type (i_summary lab)) ->
  (forall r, In r (i_summary lab) -> In (r_type r) types) ->
  NoDup (map r_type (issue_summary st')) /\
  (forall r, ~ In (r_type r) types -> (In r (issue_summary st') <-> In r (issue_summary st))) /\
  (forall r, In (r_type r) types -> (In r (issue_summary st') <-> In r (i_summary lab) /\ (10 * r_num r <= d_rows st)%nat)).
Proof. exact (imagelab_rows lab types st st'). Qed.
(** [k] of [n] images flagged *)
Definition ex_image_columns (name : string) (n k : nat) : frame :=
  [(flag_column name, map CFlag (repeat true k ++ repeat false (n - k))); (score_column name, repeat (CNum 1) n)].
Definition ex_lab (n : nat) (found : list (string * nat)) : imagelab nat :=
  Imagelab n (flat_map (fun e => ex_image_columns (fst e) n (snd e)) found)
           (map (fun e => Row (fst e) 1 (snd e)) found) (map (fun e => (fst e, 0%nat)) found).
Example C81_example : exists st', collect_imagelab (ex_lab 20 [("dark", 2%nat); ("light", 3%nat)]) ["dark"; "light"] (init_issues 20 []) = Ok st' /\
  issue_summary st' = [Row "dark" 1 2].
Proof. eexists. split; vm_compute; reflexivity. Qed.
(** an Imagelab that still lists a check of an earlier call produces a second row for it *)
Theorem C81_duplicate_rows_refuted : exists (lab1 lab2 : imagelab nat) st1 st2,
  collect_imagelab lab1 ["dark"] (init_issues 20 []) = Ok st1 /\ collect_imagelab lab2 ["light"] st1 = Ok st2 /\
  NoDup (map r_type (i_summary lab1)) /\ NoDup (map r_type (i_summary lab2)) /\ ~ NoDup (map r_type (issue_summary st2)).
Proof.
  exists (ex_lab 20 [("dark", 2%nat)]), (ex_lab 20 [("dark", 2%nat); ("light", 1%nat)]). do 2 eexists.
  split; [vm_compute; reflexivity|]. split; [vm_compute; reflexivity|].
  split; [cbn; repeat (constructor; [cbn; intuition discriminate|]); constructor|].
  split; [cbn; repeat (constructor; [cbn; intuition discriminate|]); constructor|].
  cbn. intros H. inversion H. cbn in *. tauto.
Qed.
(** a check whose row was left out because too many images are affected keeps its old columns for ever *)
Theorem C81_stale_column_refuted : exists (lab1 lab2 : imagelab nat) st1 st2 col,
  collect_imagelab lab1 ["dark"] (init_issues 20 []) = Ok st1 /\ collect_imagelab lab2 ["dark"] st1 = Ok st2 /\
  issue_summary st2 = [Row "dark" 1 1] /\ lookup (flag_column "dark") (issues st2) = Some col /\ num_true col = 3%nat.
Proof.
  exists (ex_lab 20 [("dark", 3%nat)]), (ex_lab 20 [("dark", 1%nat)]). do 3 eexists.
  split; [vm_compute; reflexivity|]. split; [vm_compute; reflexivity|]. split; [reflexivity|]. split; [vm_compute; reflexivity|]. reflexivity.
Qed.
(** the health score is not updated by the image checks *)
Theorem C81_health_refuted : exists (lab : imagelab nat) st st', collect_imagelab lab ["dark"] st = Ok st' /\
  issue_summary st' <> [] /\ health_score st' = None.
Proof.
  exists (ex_lab 20 [("dark", 2%nat)]), (init_issues 20 []). eexists. split; [vm_compute; reflexivity|]. split; [discriminate|reflexivity].
Qed.

(** ** C80 *)
Open Scope Q_scope.
Theorem C80_scores_partial labels accuracies : labels <> [] -> (forall y, In y labels -> (y < length labels)%nat) ->
  (forall e, In e accuracies -> 0 <= snd e <= 1) ->
  keys (correlations accuracies labels) = keys accuracies /\
  (forall e, In e (correlations accuracies labels) -> 0 <= snd e <= 1) /\
  (forall p a p' a', In (p, a) accuracies -> In (p', a') accuracies -> a <= a' ->
     relative_room (baseline labels) a' <= relative_room (baseline labels) a) /\
  (forall thr p, In p (correlated_properties thr (correlations accuracies labels)) <->
     exists a, In (p, a) accuracies /\ relative_room (baseline labels) a < thr).
Proof. exact (correlations_spec labels accuracies). Qed.
(** what the baseline is: the identifier of the (first) most frequent class over the number of labels *)
Theorem C80_baseline_value labels : labels <> [] -> exists c, In c labels /\
  (forall d, (count d labels <= count c labels)%nat) /\ (forall d, (d < c)%nat -> (count d labels < count c labels)%nat) /\
  baseline labels = Qnat c / Qnat (length labels).
Proof. exact (baseline_value labels). Qed.
(** it is not the accuracy of always predicting the most frequent class *)
Theorem C80_baseline_refuted : ~ (forall labels p, majority_fraction labels p -> baseline labels == p).
Proof.
  intros H. specialize (H [0; 0; 0; 1]%nat (3 # 4)).
  assert (Hm : majority_fraction [0; 0; 0; 1]%nat (3 # 4)).
  { exists 0%nat. split; [cbn; tauto|]. split; [|reflexivity]. intros d Hd. cbn in Hd. destruct Hd as [<-|[<-|[<-|[<-|[]]]]]; cbn; lia. }
  specialize (H Hm). vm_compute in H. discriminate.
Qed.
(** renaming the classes changes which properties are reported: a classifier that is no better than the most
    frequent class is reported with one naming and not with the other (default threshold 0.3) *)
Theorem C80_renaming_refuted :
  correlated_properties (3 # 10) (correlations [("dark_score", 3 # 4)] [0; 0; 0; 1]%nat) = ["dark_score"] /\
  correlated_properties (3 # 10) (correlations [("dark_score", 3 # 4)] [1; 1; 1; 0]%nat) = [].
Proof. vm_compute. split; reflexivity. Qed.
Example C80_example : exists s, correlations [("dark_score", 1 # 2); ("light_score", 9 # 10)] [1; 1; 0; 2; 1]%nat = [("dark_score", s); ("light_score", 5 # 40)] /\ s == 5 # 8.
Proof. eexists. split; [vm_compute; reflexivity|reflexivity]. Qed.

Print Assumptions C44_latest.
Print Assumptions C44_one_row.
Print Assumptions C44_failures.
Print Assumptions C44_health.
Print Assumptions C44_statistics.
Print Assumptions C44_malformed_check_refuted.
Print Assumptions C78_builtin_partial.
Print Assumptions C78_substring_refuted.
Print Assumptions C45_unchanged_partial.
Print Assumptions C45_entries_kept_partial.
Print Assumptions C45_modified_refuted.
Print Assumptions C79_default.
Print Assumptions C79_explicit.
Print Assumptions C79_underperforming.
Print Assumptions C79_outlier_without_labels_refuted.
Print Assumptions C46_no_overwrite.
Print Assumptions C46_roundtrip.
Print Assumptions C46_crash_partial.
Print Assumptions C46_forced_crash_refuted.
Print Assumptions C46_unlabelled_reload_refuted.
Print Assumptions C81_rows_partial.
Print Assumptions C81_duplicate_rows_refuted.
Print Assumptions C81_stale_column_refuted.
Print Assumptions C81_health_refuted.
Print Assumptions C80_scores_partial.
Print Assumptions C80_baseline_value.
Print Assumptions C80_baseline_refuted.
Print Assumptions C80_renaming_refuted.
