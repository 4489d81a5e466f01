(** * Model of cleanlab/classification.py [CleanLearning]: find_label_issues, fit and the state between calls *)
From Coq Require Import QArith Qabs Qround List ZArith Bool Arith.
From Verif Require Import Base ModelUtil ModelCount ModelRank ModelPool ModelFilter ModelLatent ModelBatched.
Import ListNotations.
Open Scope Q_scope.

Definition matrix := list (list Q).

(** [find_label_issues_kwargs]: keyword arguments of filter.find_label_issues ([None]: not given).
    [kw_unsupported]: [return_indices_ranked_by] or [multi_label] is among them. *)
Record kwargs := {
  kw_filter : option filter_method;
  kw_cj : option matrix;
  kw_min : option nat;
  kw_frac : Q;
  kw_ntr : option (list Q);
  kw_jobs : nat;
  kw_sched_c : list nat;
  kw_sched_n : list nat;
  kw_unsupported : bool }.

(** A column [is_label_issue]: booleans, or integers (as read back from a text file). *)
Inductive flag_col := BoolCol (m : list bool) | IntCol (z : list Z).
(** A table of label issues: its number of rows and its columns. *)
Record issues_df := {
  d_len : nat;
  d_issue : option flag_col;
  d_quality : option (list Q);
  d_given : option (list nat);
  d_predicted : option (list nat);
  d_weight : option (list Q) }.
Definition set_quality (df : issues_df) (q : list Q) : issues_df :=
  {| d_len := d_len df; d_issue := d_issue df; d_quality := Some q; d_given := d_given df;
     d_predicted := d_predicted df; d_weight := d_weight df |}.
Definition set_weight (df : issues_df) (w : list Q) : issues_df :=
  {| d_len := d_len df; d_issue := d_issue df; d_quality := d_quality df; d_given := d_given df;
     d_predicted := d_predicted df; d_weight := Some w |}.

(** The attributes of the object (classification.py:245-264) read or written by the modelled methods;
    [None] is Python's None. *)
Record clstate := {
  c_kwargs : option kwargs;
  c_quality_kwargs : option (score_method * bool);
  c_cj : option matrix;
  c_py : option (list Q);
  c_noise : option matrix;
  c_inverse : option matrix;
  c_num_classes : option nat;
  c_table : option issues_df }.

(** Settings never changed by the methods. *)
Record settings := {
  low_memory : bool;
  cv_n_folds : nat;
  pulearning : option bool;          (** [Some true]: class 1, [Some false]: class 0 *)
  converge_latent_estimates : bool }.

(** classification.py:205-264 [__init__]. *)
Definition new_object (kw : kwargs) (qk : score_method * bool) : clstate :=
  {| c_kwargs := Some kw; c_quality_kwargs := Some qk; c_cj := None; c_py := None; c_noise := None;
     c_inverse := None; c_num_classes := None; c_table := None |}.

Definition set_kwargs s x := {| c_kwargs := Some x; c_quality_kwargs := c_quality_kwargs s; c_cj := c_cj s; c_py := c_py s;
  c_noise := c_noise s; c_inverse := c_inverse s; c_num_classes := c_num_classes s; c_table := c_table s |}.
Definition set_cj s x := {| c_kwargs := c_kwargs s; c_quality_kwargs := c_quality_kwargs s; c_cj := Some x; c_py := c_py s;
  c_noise := c_noise s; c_inverse := c_inverse s; c_num_classes := c_num_classes s; c_table := c_table s |}.
Definition set_py s x := {| c_kwargs := c_kwargs s; c_quality_kwargs := c_quality_kwargs s; c_cj := c_cj s; c_py := Some x;
  c_noise := c_noise s; c_inverse := c_inverse s; c_num_classes := c_num_classes s; c_table := c_table s |}.
Definition set_noise s x := {| c_kwargs := c_kwargs s; c_quality_kwargs := c_quality_kwargs s; c_cj := c_cj s; c_py := c_py s;
  c_noise := Some x; c_inverse := c_inverse s; c_num_classes := c_num_classes s; c_table := c_table s |}.
Definition set_inverse s x := {| c_kwargs := c_kwargs s; c_quality_kwargs := c_quality_kwargs s; c_cj := c_cj s; c_py := c_py s;
  c_noise := c_noise s; c_inverse := Some x; c_num_classes := c_num_classes s; c_table := c_table s |}.
Definition set_num_classes s x := {| c_kwargs := c_kwargs s; c_quality_kwargs := c_quality_kwargs s; c_cj := c_cj s; c_py := c_py s;
  c_noise := c_noise s; c_inverse := c_inverse s; c_num_classes := Some x; c_table := c_table s |}.
Definition set_table s x := {| c_kwargs := c_kwargs s; c_quality_kwargs := c_quality_kwargs s; c_cj := c_cj s; c_py := c_py s;
  c_noise := c_noise s; c_inverse := c_inverse s; c_num_classes := c_num_classes s; c_table := Some x |}.

(** ** Methods: they change the object even when they raise *)
Definition M (A : Type) := clstate -> clstate * res A.
Definition mret {A} (a : A) : M A := fun s => (s, Ok a).
Definition lift {A} (r : res A) : M A := fun s => (s, r).
Definition modify (f : clstate -> clstate) : M unit := fun s => (f s, Ok tt).
Definition get {A} (f : clstate -> A) : M A := fun s => (s, Ok (f s)).
Definition mbind {A B} (m : M A) (f : A -> M B) : M B :=
  fun s => match m s with (s', Ok a) => f a s' | (s', Raise e) => (s', Raise e) end.
Notation "'mdo' x <- e ; f" := (mbind e (fun x => f)) (at level 200, x name, e at level 100, f at level 200).
Definition fail {A} (e : exn) : M A := lift (Raise e).

(** classification.py:969-992 [save_space]. *)
Definition save_space : M unit := modify (fun _ =>
  {| c_kwargs := None; c_quality_kwargs := None; c_cj := None; c_py := None; c_noise := None; c_inverse := None;
     c_num_classes := None; c_table := None |}).

(** classification.py:996-1021 [_process_label_issues_kwargs]. *)
Definition with_min (kw : kwargs) : kwargs :=
  {| kw_filter := kw_filter kw; kw_cj := kw_cj kw;
     kw_min := Some (match kw_min kw with Some m => m | None => 10%nat end);
     kw_frac := kw_frac kw; kw_ntr := kw_ntr kw; kw_jobs := kw_jobs kw; kw_sched_c := kw_sched_c kw;
     kw_sched_n := kw_sched_n kw; kw_unsupported := kw_unsupported kw |}.
Definition with_cj (kw : kwargs) (cj : matrix) : kwargs :=
  {| kw_filter := kw_filter kw; kw_cj := Some cj; kw_min := kw_min kw; kw_frac := kw_frac kw; kw_ntr := kw_ntr kw;
     kw_jobs := kw_jobs kw; kw_sched_c := kw_sched_c kw; kw_sched_n := kw_sched_n kw;
     kw_unsupported := kw_unsupported kw |}.
Definition process_label_issues_kwargs : M unit :=
  mdo kw <- get c_kwargs ;
  match kw with
  | None => fail TypeError                                               (* {**DEFAULT, **None} *)
  | Some kw =>
      if kw_unsupported kw then fail ValueError
      else mdo _ <- (match kw_cj kw with Some cj => modify (fun s => set_cj s cj) | None => mret tt end) ;
           modify (fun s => set_kwargs s (with_min kw))
  end.

(** the options handed to filter.find_label_issues *)
Definition filter_of (kw : kwargs) : filter_method :=
  match kw_filter kw with Some f => f | None => PruneByNoiseRate end.
Definition options_of (kw : kwargs) : options :=
  {| frac_noise := kw_frac kw; num_to_remove_per_class := kw_ntr kw;
     min_examples_per_class := match kw_min kw with Some m => m | None => 1%nat end;
     confident_joint := kw_cj kw; n_jobs := kw_jobs kw; sched_c := kw_sched_c kw; sched_n := kw_sched_n kw |}.

(** A dataset: given labels, predicted probabilities if the caller has them, and what cross-validation of the
    object's classifier on the features would yield. *)
Record dataset := {
  ds_labels : list nat;
  ds_pred_probs : option matrix;
  ds_cv : res matrix }.

Section Learn.
  Variable srt : list Q -> list nat.                      (** [np.argsort] *)
  Variable minv : matrix -> res matrix.                   (** [np.linalg.inv] *)
  Variable js : nat -> jobs.                              (** how find_label_issues_batched runs its batches *)
  Variable cfg : settings.

  Definition width (pp : matrix) : nat := length (nth 0 pp []).

  (** validation.py:13-112 [assert_valid_inputs]; the checks on the features are not modelled. *)
  Definition valid_inputs (ds : dataset) : res unit :=
    match ds_pred_probs ds with
    | Some pp => assert_valid_inputs (ds_labels ds) pp (width pp) false
    | None => if Nat.ltb (length (unique (ds_labels ds))) 2 then Raise ValueError else Ok tt
    end.
  Definition low_trace (m : option matrix) : bool :=
    match m with Some m => Qle_bool (trace m) 1 | None => false end.
  (** util.py:518-535 [get_num_classes]. *)
  Definition get_num_classes (ds : dataset) (label_matrix : option matrix) : res nat :=
    match ds_pred_probs ds, label_matrix with
    | Some pp, _ => Ok (width pp)
    | None, Some m => if Nat.eqb (length m) (width m) then Ok (length m) else Raise ValueError
    | None, None => Ok (length (unique (ds_labels ds)))
    end.
  (** classification.py:763: [value_counts(labels) / len(labels)], one entry per class present. *)
  Definition class_freqs (labels : list nat) : list Q :=
    map (fun c => Qnat (count c labels) / Qnat (length labels)) (unique labels).

  Definition get_pred_probs (ds : dataset) : res matrix :=
    match ds_pred_probs ds with Some pp => Ok pp | None => ds_cv ds end.

  (** classification.py:893-903 (in place, so the keyword argument changes with the attribute). *)
  Definition set_entry (m : matrix) (i j : nat) (v : Q) : matrix := upd m i (upd (nth i m []) j v).
  Definition pu_adjust (p : bool) : M unit :=
    let a := if p then 1%nat else 0%nat in
    let b := (1 - a)%nat in
    modify (fun s =>
      let s := match c_noise s with Some m => set_noise s (set_entry (set_entry m a b 0) b b 1) | None => s end in
      let s := match c_inverse s with Some m => set_inverse s (set_entry (set_entry m b a 0) a a 1) | None => s end in
      match c_cj s with
      | Some m =>
          let m' := set_entry (set_entry m a b 0) b b 1 in
          let s := set_cj s m' in
          match c_kwargs s with
          | Some kw => match kw_cj kw with Some _ => set_kwargs s (with_cj kw m') | None => s end
          | None => s
          end
      | None => s
      end).

  (** classification.py:802-891: noise rates and confident joint; returns the predicted probabilities. *)
  Definition estimate_noise (ds : dataset) (thresholds : option (list Q)) (noise inverse : option matrix)
    : M matrix :=
    let labels := ds_labels ds in
    let ps := class_freqs labels in
    mdo cj <- get c_cj ;
    mdo noise <- (match cj with
                  | Some cj =>
                      mdo l <- lift (estimate_latent cj labels LCnt false) ;
                      let '(py, nm, _) := l in
                      mdo _ <- modify (fun s => set_py s py) ;
                      mret (Some nm)
                  | None => mret noise
                  end) ;
    mdo _ <- (match noise with
              | None => mret tt
              | Some nm =>
                  mdo _ <- modify (fun s => set_noise s nm) ;
                  match inverse with
                  | Some _ => mret tt
                  | None =>
                      mdo inv <- lift (minv nm) ;
                      mdo _ <- (if Nat.eqb (length ps) (length nm) then mret tt else fail ValueError) ;
                      let r := compute_py_inv_noise_matrix inv ps nm in
                      modify (fun s => set_inverse (set_py s (fst r)) (snd r))
                  end
              end) ;
    mdo _ <- (match inverse with
              | None => mret tt
              | Some im =>
                  mdo _ <- modify (fun s => set_inverse s im) ;
                  match noise with
                  | Some _ => mret tt
                  | None =>
                      mdo _ <- (if Nat.eqb (length ps) (length im) then mret tt else fail ValueError) ;
                      modify (fun s => set_noise s (compute_noise_matrix_from_inverse ps im None))
                  end
              end) ;
    mdo pp <- lift (get_pred_probs ds) ;
    mdo _ <- (match noise, inverse with
              | None, None =>
                  mdo r <- lift (compute_confident_joint srt labels pp (width pp) thresholds true) ;
                  let cj := zmat_to_q (fst r) in
                  mdo l <- lift (estimate_latent cj labels LCnt (converge_latent_estimates cfg)) ;
                  let '(py, nm, im) := l in
                  modify (fun s => set_cj (set_inverse (set_noise (set_py s py) nm) im) cj)
              | _, _ => mret tt
              end) ;
    mdo cj <- get c_cj ;
    mdo _ <- (match cj with
              | Some _ => mret tt
              | None =>
                  mdo r <- lift (compute_confident_joint srt labels pp (width pp) thresholds true) ;
                  modify (fun s => set_cj s (zmat_to_q (fst r)))
              end) ;
    mret pp.

  (** classification.py:905-909. *)
  Definition remember_joint : M unit := modify (fun s =>
    match c_kwargs s, c_cj s with
    | Some kw, Some cj =>
        match kw_cj kw, kw_filter kw with
        | None, Some ConfidentLearning => s
        | None, _ => set_kwargs s (with_cj kw cj)
        | Some _, _ => s
        end
    | _, _ => s
    end).

  (** classification.py:675-947 [find_label_issues] ([save]: [save_space=False]). *)
  Definition find_label_issues (ds : dataset) (thresholds : option (list Q)) (noise inverse : option matrix)
             (save : bool) : M issues_df :=
    let labels := ds_labels ds in
    mdo _ <- lift (valid_inputs ds) ;
    if (low_trace noise || low_trace inverse)%bool then fail ValueError
    else
      mdo K <- lift (get_num_classes ds (match noise with Some m => Some m | None => inverse end)) ;
      mdo _ <- modify (fun s => set_num_classes s K) ;
      if (match ds_pred_probs ds with None => true | Some _ => false end
          && Nat.ltb (length labels) (cv_n_folds cfg * K))%bool then fail ValueError
      else
        mdo r <- (if low_memory cfg
                  then mdo pp <- lift (get_pred_probs ds) ;
                       mdo m <- lift (find_label_issues_batched srt labels pp (width pp) (100 * 100) SelfConfidence
                                        false false js) ;
                       mret (pp, m)
                  else mdo _ <- process_label_issues_kwargs ;
                       mdo pp <- estimate_noise ds thresholds noise inverse ;
                       mdo _ <- (match pulearning cfg with
                                 | Some p => if Nat.eqb K 2 then pu_adjust p else mret tt
                                 | None => mret tt end) ;
                       mdo _ <- remember_joint ;
                       mdo kw <- get c_kwargs ;
                       match kw with
                       | None => fail TypeError
                       | Some kw =>
                           mdo m <- lift (ModelFilter.find_label_issues srt labels pp (width pp) (filter_of kw)
                                            (options_of kw)) ;
                           mret (pp, m)
                       end) ;
        let pp := fst r in
        mdo qk <- get c_quality_kwargs ;
        match qk with
        | None => fail TypeError
        | Some (method, adjust) =>
            mdo q <- lift (get_label_quality_scores labels pp (width pp) method adjust) ;
            let df := {| d_len := length labels; d_issue := Some (BoolCol (snd r)); d_quality := Some q;
                         d_given := Some labels; d_predicted := Some (map argmax pp); d_weight := None |} in
            mdo _ <- (if save then modify (fun s => set_table s df) else mret tt) ;
            mret df
        end.

  (** ** fit *)
  Inductive container := Arr | Lst.       (** labels in a numpy array / pandas Series, or in a Python list *)
  Inductive issues_arg := DFArg (df : issues_df) | BoolArg (m : list bool) | IntArg (idx : list Z) | OtherArg.

  Definition only_issues (m : list bool) : issues_df :=
    {| d_len := length m; d_issue := Some (BoolCol m); d_quality := None; d_given := None; d_predicted := None;
       d_weight := None |}.

  (** a Python/numpy index of an array of length [n] *)
  Definition wrap_index (n : nat) (i : Z) : res nat :=
    if (Z.leb (- Z.of_nat n) i && Z.ltb i (Z.of_nat n))%bool
    then Ok (Z.to_nat (if Z.ltb i 0 then i + Z.of_nat n else i)%Z)
    else Raise IndexError.

  (** classification.py:1023-1062 [_process_label_issues_arg]. *)
  Definition process_label_issues_arg (arg : issues_arg) (labels : list nat) : res issues_df :=
    match arg with
    | DFArg df =>
        match d_issue df with
        | None => Raise ValueError
        | Some _ =>
            if negb (Nat.eqb (d_len df) (length labels)) then Raise ValueError
            else match d_given df with
                 | Some g => if existsb (fun ab => negb (Nat.eqb (fst ab) (snd ab))) (combine g labels)
                             then Raise ValueError else Ok df
                 | None => Ok df
                 end
        end
    | BoolArg m => if Nat.eqb (length m) (length labels) then Ok (only_issues m) else Raise ValueError
    | IntArg idx =>
        if negb (Nat.eqb (length (nodup Z.eq_dec idx)) (length idx)) then Raise ValueError
        else do idx <- rmap (wrap_index (length labels)) idx ; Ok (only_issues (mask_of (length labels) idx))
    | OtherArg => Raise ValueError
    end.

  (** numpy indexing with [np.invert(flags)]: the complement of booleans, [-z - 1] for integers. *)
  Definition np_subset {A} (d : A) (c : flag_col) (l : list A) : res (list A) :=
    match c with
    | BoolCol m => if Nat.eqb (length m) (length l) then Ok (select (map negb m) l) else Raise IndexError
    | IntCol z => do idx <- rmap (fun z => wrap_index (length l) (- z - 1)%Z) z ; Ok (take_idx d l idx)
    end.
  (** util.py:455-468 [subset_data] of an array. *)
  Definition subset_data {A} (d : A) (c : flag_col) (l : list A) : res (list A) :=
    match np_subset d c l with Ok r => Ok r | Raise _ => Raise TypeError end.
  (** util.py:444-452 [subset_labels]. *)
  Definition truthy (c : flag_col) : list bool :=
    match c with BoolCol m => map negb m | IntCol z => map (fun z => negb (Z.eqb (- z - 1) 0)) z end.
  Definition list_comprehension (c : flag_col) (labels : list nat) : res (list nat) :=
    if Nat.leb (length labels) (length (truthy c)) then Ok (select (truthy c) labels) else Raise TypeError.
  Definition subset_labels (k : container) (c : flag_col) (labels : list nat) : res (container * list nat) :=
    match k with
    | Arr => match np_subset 0%nat c labels with
             | Ok r => Ok (Arr, r)
             | Raise _ => do r <- list_comprehension c labels ; Ok (Lst, r)
             end
    | Lst => do r <- list_comprehension c labels ; Ok (Lst, r)
    end.

  (** classification.py:527-532: [labels_cleaned == k] selects nothing when the labels are a list. *)
  Definition auto_weights (k : container) (K : nat) (noise : matrix) (labels : list nat) : res (list Q) :=
    if Nat.ltb (length noise) K then Raise IndexError
    else Ok (map (fun l => match k with
                           | Lst => 1
                           | Arr => if Nat.ltb l K then / qmax (mget noise l l) (1 # 1000) else 1
                           end) labels).
  (** classification.py:534-537. *)
  Definition expand_weights (n : nat) (c : flag_col) (w : list Q) : res (list Q) :=
    match c with
    | BoolCol m => Ok (scatter (map negb m) (repeat 0 n) w)
    | IntCol z => do idx <- rmap (fun z => wrap_index n (- z - 1)%Z) z ;
                  if Nat.eqb (length idx) (length w)
                  then Ok (fold_left (fun a iw => upd a (fst iw) (snd iw)) (combine idx w) (repeat 0 n))
                  else Raise ValueError
    end.

  Record training (A : Type) := {
    tr_X : list A;
    tr_labels : list nat;
    tr_weights : option (list Q) }.
  Arguments tr_X {A}. Arguments tr_labels {A}. Arguments tr_weights {A}.

  (** What the caller passes to [fit] about weights: [sample_weight]; whether [clf_kwargs] has one; the one in
      [clf_final_kwargs]; whether the classifier's [fit] has such a parameter. *)
  Record weights_arg := {
    w_given : option (list Q);
    w_in_clf_kwargs : bool;
    w_final : option (list Q);
    w_supported : bool }.

  (** classification.py:265-582 [fit]: the call to the classifier's [fit] and the issues table (the caller's own
      object when a DataFrame was passed). *)
  Definition fit {A} (d : A) (X : list A) (k : container) (ds : dataset) (thresholds : option (list Q))
             (noise inverse : option matrix) (label_issues : option issues_arg) (w : weights_arg)
    : M (training A * issues_df) :=
    let labels := ds_labels ds in
    if w_in_clf_kwargs w then fail ValueError
    else if (match w_given w with Some _ => negb (w_supported w) | None => false end) then fail ValueError
    else
      mdo arg <- (match label_issues with
                  | None => mdo df <- find_label_issues ds thresholds noise inverse true ; mret (DFArg df)
                  | Some a =>
                      mdo _ <- lift (valid_inputs ds) ;
                      mdo nc <- get c_num_classes ;
                      mdo _ <- (match nc with
                                | Some _ => mret tt
                                | None =>
                                    mdo K <- lift (get_num_classes ds (match noise with Some m => Some m | None => inverse end)) ;
                                    modify (fun s => set_num_classes s K)
                                end) ;
                      mret a
                  end) ;
      mdo df <- lift (process_label_issues_arg arg labels) ;
      mdo _ <- modify (fun s => set_table s df) ;
      mdo df <- (match d_quality df, ds_pred_probs ds with
                 | None, Some pp =>
                     mdo qk <- get c_quality_kwargs ;
                     match qk with
                     | None => fail TypeError
                     | Some (method, adjust) =>
                         mdo q <- lift (get_label_quality_scores labels pp (width pp) method adjust) ;
                         mdo _ <- modify (fun s => set_table s (set_quality df q)) ;
                         mret (set_quality df q)
                     end
                 | _, _ => mret df
                 end) ;
      match d_issue df with
      | None => fail KeyError
      | Some c =>
          mdo kl <- lift (subset_labels k c labels) ;
          mdo x_cleaned <- lift (subset_data d c X) ;
          mdo noise_matrix <- get c_noise ;
          mdo nc <- get c_num_classes ;
          match w_given w, w_final w, noise_matrix with
          | _, Some f, _ =>
              mret ({| tr_X := x_cleaned; tr_labels := snd kl; tr_weights := Some f |}, df)
          | Some sw, None, _ =>
              mdo sw' <- lift (np_subset 0 c sw) ;
              mret ({| tr_X := x_cleaned; tr_labels := snd kl; tr_weights := Some sw' |}, df)
          | None, None, Some nm =>
              if w_supported w then
                mdo aw <- lift (auto_weights (fst kl) (match nc with Some K => K | None => 0%nat end) nm (snd kl)) ;
                mdo ew <- lift (expand_weights (length labels) c aw) ;
                mdo _ <- modify (fun s => set_table s (set_weight df ew)) ;
                mret ({| tr_X := x_cleaned; tr_labels := snd kl; tr_weights := Some aw |}, set_weight df ew)
              else mret ({| tr_X := x_cleaned; tr_labels := snd kl; tr_weights := None |}, df)
          | None, None, None =>
              mret ({| tr_X := x_cleaned; tr_labels := snd kl; tr_weights := None |}, df)
          end
      end.
End Learn.
Arguments tr_X {A}. Arguments tr_labels {A}. Arguments tr_weights {A}.
