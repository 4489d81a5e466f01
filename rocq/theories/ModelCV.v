(** * Model of the two cross-validation loops: cleanlab/count.py:888-1056 and
    cleanlab/regression/learn.py:625-726 *)
From Coq Require Import QArith Qabs Qround List ZArith Bool Arith.
From Verif Require Import Base ModelUtil ModelCount ModelBatched.
Import ListNotations.
Open Scope Q_scope.

(** numpy [a[idx] = vals] for an integer index array: positions assigned in order. *)
Fixpoint assign_at {V} (idx : list nat) (vals a : list V) : list V :=
  match idx, vals with
  | i :: idx', v :: vals' => assign_at idx' vals' (upd a i v)
  | _, _ => a
  end.

(** [KFold.split] / [StratifiedKFold.split]: the training indices of a fold are all others, in order. *)
Definition train_idx (n : nat) (holdout : list nat) : list nat :=
  filter (fun i => negb (mem i holdout)) (seq 0 n).

Section Classification.
  Context {A : Type}.
  Variable d : A.
  (** a fresh clone of the classifier fitted on (features, labels), then [predict_proba] on the third
      argument; extra keyword arguments ([clf_kwargs], validation data) are constant and part of it. *)
  Variable fit_predict : list A -> list nat -> list A -> list (list Q).
  (** the order in which the set of missing classes is iterated. *)
  Variable set_order : list nat -> list nat.

  Definition one_hot (w c : nat) : list Q := tab w (fun j => if Nat.eqb j c then 1 else 0).

  (** cleanlab/count.py:1012-1033: the classes without training example, each with the position in the
      holdout fold of the example that is duplicated; nothing for a torch dataset. *)
  Definition duplicates (torch : bool) (K : nat) (s_train s_holdout : list nat) : res (list (nat * nat)) :=
    if (torch || Nat.eqb (length (unique s_train)) K)%bool then Ok []
    else rmap (fun c => match where_ (map (Nat.eqb c) s_holdout) with
                        | [] => Raise IndexError
                        | i :: _ => Ok (c, i)
                        end)
              (set_order (filter (fun c => negb (mem c s_train)) (seq 0 K))).

  (** cleanlab/count.py:998-1053: one fold; the rows are written into [pred_probs]. *)
  Definition cv_fold (torch : bool) (X : list A) (labels : list nat) (K : nat)
             (pred_probs : list (list Q)) (holdout : list nat) : res (list (list Q)) :=
    let tr := train_idx (length labels) holdout in
    let X_train := take_idx d X tr in
    let s_train := take_idx 0%nat labels tr in
    let X_holdout := take_idx d X holdout in
    let s_holdout := take_idx 0%nat labels holdout in
    do dups <- duplicates torch K s_train s_holdout ;
    let X_train := X_train ++ map (fun ci => nth (snd ci) X_holdout d) dups in
    let s_train := s_train ++ map (fun ci => nth (snd ci) s_holdout 0%nat) dups in
    let cv := fit_predict X_train s_train X_holdout in
    let w := length (nth 0 cv []) in
    let cv := fold_left (fun cv ci => upd cv (snd ci) (one_hot w (fst ci))) dups cv in
    if (Nat.eqb (length cv) (length holdout) && forallb (fun r => Nat.eqb (length r) K) cv)%bool
    then Ok (assign_at holdout cv pred_probs) else Raise ValueError.

  (** cleanlab/count.py:980-1053: the predicted probabilities of
      [estimate_confident_joint_and_cv_pred_proba], [folds] being the holdout sets of the
      [StratifiedKFold] split.  The confident joint computed from them is [compute_confident_joint]. *)
  Definition cv_pred_probs (torch : bool) (X : list A) (labels : list nat) (folds : list (list nat))
    : res (list (list Q)) :=
    let K := length (unique labels) in
    if Nat.ltb K 2 then Raise ValueError                                 (* assert_valid_class_labels *)
    else if (Nat.eqb (length X) 0 || negb (Nat.eqb (length X) (length labels)))%bool then Raise ValueError
    else rfold (cv_fold torch X labels K) folds (repeat (repeat 0 K) (length labels)).

  (** cleanlab/count.py:888-1056 [estimate_confident_joint_and_cv_pred_proba]. *)
  Definition estimate_confident_joint_and_cv_pred_proba (srt : list Q -> list nat) (torch : bool)
             (X : list A) (labels : list nat) (folds : list (list nat)) (thresholds : option (list Q))
             (calibrate : bool) : res (list (list Z) * list (list Q)) :=
    do pp <- cv_pred_probs torch X labels folds ;
    do r <- compute_confident_joint srt labels pp (length (unique labels)) thresholds calibrate ;
    Ok (fst r, pp).
End Classification.

Section Regression.
  Context {A : Type}.
  Variable d : A.
  (** a fresh clone of the model fitted on (features, targets), as a prediction function. *)
  Variable fit : list A -> list Q -> list A -> list Q.

  (** [math.ceil]. *)
  Definition ceil_nat (q : Q) : nat := Z.to_nat (Qceiling q).

  (** cleanlab/regression/learn.py:664-687: (examples cross-validated, examples left out). *)
  Definition cv_split (n : nat) (sorted_index : option (list nat)) (k : Q) : res (list nat * list nat) :=
    if (Qltb k 0 || Qltb 1 k)%bool then Raise ValueError
    else if Qeq_bool k 0
         then Ok (match sorted_index with Some s => s | None => seq 0 n end, [])
         else match sorted_index with
              | None => Raise ValueError
              | Some s =>
                  let num_to_drop := ceil_nat (Qnat (length s) * k) in
                  Ok (firstn (length s - num_to_drop) s, skipn (length s - num_to_drop) s)
              end.

  (** cleanlab/regression/learn.py:693-720: one fold, positions [holdout] of [in_sample]; the predictions
      for the left-out examples are appended as a column. *)
  Definition reg_fold (X : list A) (y : list Q) (in_sample out_of_sample : list nat)
             (st : list Q * list (list Q)) (holdout : list nat) : res (list Q * list (list Q)) :=
    let tr := take_idx 0%nat in_sample (train_idx (length in_sample) holdout) in
    let ho := take_idx 0%nat in_sample holdout in
    let model := fit (take_idx d X tr) (take_idx 0 y tr) in
    let p := model (take_idx d X ho) in
    if Nat.eqb (length p) (length ho)
    then Ok (assign_at ho p (fst st), snd st ++ [model (take_idx d X out_of_sample)])
    else Raise ValueError.

  (** cleanlab/regression/learn.py:625-726 [_get_cv_predictions]; [folds]: the holdout sets of the
      [KFold] split of the positions of the cross-validated examples. *)
  Definition get_cv_predictions (X : list A) (y : list Q) (sorted_index : option (list nat)) (k : Q)
             (cv_n_folds : nat) (folds : nat -> list (list nat)) : res (list Q) :=
    do io <- cv_split (length y) sorted_index k ;
    let '(in_sample, out_of_sample) := io in
    if Nat.ltb (length in_sample) cv_n_folds then Raise ValueError
    else
      do st <- rfold (reg_fold X y in_sample out_of_sample) (folds (length in_sample))
                     (repeat 0 (length y), []) ;
      let avg := tab (length out_of_sample) (fun i => qmean (map (fun c => nth i c 0) (snd st))) in
      Ok (assign_at out_of_sample avg (fst st)).
End Regression.
