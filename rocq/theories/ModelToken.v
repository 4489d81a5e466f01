(** * Model of cleanlab/token_classification/*.py and the numeric part of
    cleanlab/internal/token_classification_utils.py

    A nested list (one inner list per sentence) is a list of lists; a token is a Coq [string]. *)
From Coq Require Import String QArith Reals List ZArith Bool Arith.
From Verif Require Import Base ModelUtil ModelCount ModelRank ModelFilter ModelBatched ModelEntropy ModelOutlier.
Import ListNotations.
Open Scope Q_scope.

(** token_classification/filter.py:96-98: [mapping_flatten], the (sentence, token) pair of every flat position. *)
Definition mapping_flatten (lengths : list nat) : list (nat * nat) :=
  concat (map (fun il => map (fun j => (fst il, j)) (seq 0 (snd il)))
              (combine (seq 0 (length lengths)) lengths)).

(** filter.py:100: [mapping_flatten[issue]] for one flat position. *)
Definition lookup_issue (m : list (nat * nat)) (p : nat) : res (nat * nat) :=
  match nth_error m p with Some x => Ok x | None => Raise IndexError end.

(** token_classification/filter.py:78-101, given the flat issue finder. *)
Definition token_issues (main : list nat -> list (list Q) -> res (list nat))
           (labels : list (list nat)) (pred_probs : list (list (list Q))) : res (list (nat * nat)) :=
  do issues_main <- main (concat labels) (concat pred_probs) ;
  rmap (lookup_issue (mapping_flatten (map (@length nat) labels))) issues_main.

(** token_classification/filter.py:15-101 [find_label_issues]; [Some js] is [low_memory=True], [js] being the
    way the batches run (default batch size 10000). *)
Definition token_find_label_issues (srt : list Q -> list nat) (labels : list (list nat))
           (pred_probs : list (list (list Q))) (K : nat) (rank_by : score_method) (low_memory : option (nat -> jobs))
           (flt : filter_method) (o : options) : res (list (nat * nat)) :=
  match low_memory with
  | Some js =>
      token_issues (fun l p => find_label_issues_batched_indices srt l p K (2 * 5000)%nat rank_by false false js)
                   labels pred_probs
  | None => token_issues (fun l p => find_label_issues_ranked srt l p K flt o rank_by false) labels pred_probs
  end.

(** token_classification/rank.py:112-114 [nested_list]: cut a flat array into sentences again. *)
Fixpoint nested_list {A} (x : list A) (lengths : list nat) : list (list A) :=
  match lengths with
  | [] => []
  | n :: t => firstn n x :: nested_list (skipn n x) t
  end.

(** [np.min] of one sentence; numpy raises on an empty one. *)
Definition min_sentence (scores : list Q) : res Q :=
  match scores with [] => Raise ValueError | _ => Ok (qminimum scores) end.

(** token_classification/rank.py:15-132 [get_label_quality_scores], sentence_score_method = "min":
    (sentence scores, per-token scores). *)
Definition token_get_label_quality_scores (labels : list (list nat)) (pred_probs : list (list (list Q))) (K : nat)
           (method : score_method) : res (list Q * list (list Q)) :=
  do token_scores <- get_label_quality_scores (concat labels) (concat pred_probs) K method false ;
  let scores_nl := nested_list token_scores (map (@length nat) labels) in
  do sentence_scores <- rmap min_sentence scores_nl ;
  Ok (sentence_scores, scores_nl).

(** token_classification/rank.py:205-215: the pairs below the threshold with their scores. *)
Definition low_tokens (token_scores : list (list Q)) (threshold : Q) : list (nat * nat * Q) :=
  concat (map (fun irow =>
     filter (fun t => Qltb (snd t) threshold)
       (map (fun js => (fst irow, fst js, snd js))
            (combine (seq 0 (length (snd irow))) (snd irow))))
     (combine (seq 0 (length token_scores)) token_scores)).

(** token_classification/rank.py:224-227: the cutoff loop; [Raise IndexError] when [ranking[cutoff]] is read
    past the end (the bound is tested second). *)
Fixpoint cutoff_loop (scores : list Q) (threshold : Q) (rest : list nat) (cutoff : nat) : res nat :=
  match rest with
  | [] => Raise IndexError
  | r :: t => if Qltb (nth r scores 0) threshold then cutoff_loop scores threshold t (S cutoff) else Ok cutoff
  end.

(** token_classification/rank.py:135-228 [issues_from_scores]; an empty [token_scores] counts as absent. *)
Inductive token_or_sentence := TokenIssues (l : list (nat * nat)) | SentenceIssues (l : list nat).
Definition token_issues_from_scores (srt : list Q -> list nat) (sentence_scores : list Q)
           (token_scores : list (list Q)) (threshold : Q) : res token_or_sentence :=
  match token_scores with
  | _ :: _ =>
      let issues := low_tokens token_scores threshold in
      Ok (TokenIssues (map fst (take_idx ((0, 0)%nat, 0) issues (srt (map snd issues)))))
  | [] =>
      let ranking := srt sentence_scores in
      do cutoff <- cutoff_loop sentence_scores threshold ranking 0 ;
      Ok (SentenceIssues (firstn cutoff ranking))
  end.

(** internal/token_classification_utils.py:165-210 [merge_probs] with [maps[i]] an integer; the division by
    a row sum of zero gives numpy's nan, here [Raise ZeroDivision]. *)
Definition zmaximum (l : list Z) : Z := match l with [] => 0%Z | x :: t => fold_left Z.max t x end.
Definition merge_row (map_size : nat) (maps : list Z) (row : list Q) : list Q :=
  fold_left (fun acc i =>
      if Z.leb 0 (nth i maps 0%Z)
      then upd acc (Z.to_nat (nth i maps 0%Z)) (nth (Z.to_nat (nth i maps 0%Z)) acc 0 + nth i row 0)
      else acc)
    (seq 0 (length row)) (repeat 0 map_size).
Definition merge_probs (probs : list (list Q)) (K : nat) (maps : list Z) : res (list (list Q)) :=
  match maps with
  | [] => Raise ValueError
  | _ =>
    if Z.ltb (zmaximum maps + 1) 0 then Raise ValueError
    else if Nat.ltb (length maps) K then Raise IndexError
    else
    let merged := map (merge_row (Z.to_nat (zmaximum maps + 1)) maps) probs in
    if existsb (Z.eqb (-1)) maps
    then rmap (fun row => if (Qeq_bool (qsum row) 0 && negb (Nat.eqb (length row) 0))%bool then Raise ZeroDivision
                          else Ok (map (fun x => x / qsum row) row)) merged
    else Ok merged
  end.

(** internal/token_classification_utils.py:135-162 [mapping]; Python also accepts [-len(maps) <= x < 0],
    entities are class indices here. *)
Definition mapping (entities : list nat) (maps : list Z) : res (list Z) :=
  rmap (fun x => match nth_error maps x with Some v => Ok v | None => Raise IndexError end) entities.

(** internal/token_classification_utils.py:49-90 [filter_sentence]. *)
Definition default_condition (s : string) : bool :=
  (Nat.ltb 1 (String.length s) && match index 0 "#" s with None => true | Some _ => false end)%bool.
Definition filter_sentence (sentences : list string) (condition : option (string -> bool)) : list string * list bool :=
  let mask := map (match condition with Some c => c | None => default_condition end) sentences in
  (map snd (filter fst (combine mask sentences)), mask).

(** token_classification/summary.py:302-345 [filter_by_token]; [lower] is [str.lower]. *)
Definition token_at (tokens : list (list string)) (ij : nat * nat) : res string :=
  match nth_error tokens (fst ij) with
  | Some sentence => match nth_error sentence (snd ij) with Some w => Ok w | None => Raise IndexError end
  | None => Raise IndexError
  end.
Fixpoint filter_by_token (lower : string -> string) (token : string) (issues : list (nat * nat))
         (tokens : list (list string)) : res (list (nat * nat)) :=
  match issues with
  | [] => Ok []
  | ij :: t =>
      do w <- token_at tokens ij ;
      do r <- filter_by_token lower token t tokens ;
      Ok (if String.eqb (lower token) (lower w) then ij :: r else r)
  end.

(** Python dict with insertion order: [if w not in count: count[w] = d], then [count[w] = f(count[w])]. *)
Fixpoint dict_update {V} (count : list (string * V)) (w : string) (d : V) (f : V -> V) : list (string * V) :=
  match count with
  | [] => [(w, f d)]
  | (w', v) :: t => if String.eqb w w' then (w', f v) :: t else (w', v) :: dict_update t w d f
  end.

(** [sorted(info, key=count, reverse=True)] through any argsort of the negated counts. *)
Definition sort_desc {A} (srt : list Q -> list nat) (key : A -> nat) (d : A) (info : list A) : list A :=
  take_idx d info (srt (map (fun r => - Qnat (key r)) info)).

(** token_classification/summary.py:216-239 [common_label_issues] without labels or predictions: the rows of
    the returned DataFrame (printing and the [top] that only limits printing are left out). *)
Fixpoint count_words (issues : list (nat * nat)) (tokens : list (list string)) (count : list (string * nat))
  : res (list (string * nat)) :=
  match issues with
  | [] => Ok count
  | ij :: t => do w <- token_at tokens ij ; count_words t tokens (dict_update count w 0%nat S)
  end.
Definition common_tokens (srt : list Q -> list nat) (issues : list (nat * nat)) (tokens : list (list string))
  : res (list (string * nat)) :=
  do count <- count_words issues tokens [] ;
  Ok (sort_desc srt snd (EmptyString, 0%nat) count).

(** token_classification/summary.py:247-299 [common_label_issues] with labels and predictions: rows
    (token, given label, predicted label, number), classes by index. *)
Definition nget2 (m : list (list nat)) (i j : nat) : nat := nth j (nth i m []) 0%nat.
Definition bump2 (i j : nat) (m : list (list nat)) : list (list nat) :=
  upd m i (upd (nth i m []) j (S (nget2 m i j))).
Definition at2 {A} (x : list (list A)) (ij : nat * nat) : res A :=
  match nth_error x (fst ij) with
  | Some s => match nth_error s (snd ij) with Some v => Ok v | None => Raise IndexError end
  | None => Raise IndexError
  end.
Definition excluded (exclude : list (nat * nat)) (l p : nat) : bool :=
  existsb (fun e => (Nat.eqb (fst e) l && Nat.eqb (snd e) p)%bool) exclude.
Fixpoint count_swaps (n : nat) (issues : list (nat * nat)) (tokens : list (list string)) (labels : list (list nat))
         (pred_probs : list (list (list Q))) (exclude : list (nat * nat)) (count : list (string * list (list nat)))
  : res (list (string * list (list nat))) :=
  match issues with
  | [] => Ok count
  | ij :: t =>
      do w <- token_at tokens ij ;
      do l <- at2 labels ij ;
      do row <- at2 pred_probs ij ;
      let p := argmax row in
      if excluded exclude l p
      then count_swaps n t tokens labels pred_probs exclude
             (dict_update count w (repeat (repeat 0%nat n) n) (fun m => m))
      else if (Nat.leb n l || Nat.leb n p)%bool then Raise IndexError
      else count_swaps n t tokens labels pred_probs exclude
             (dict_update count w (repeat (repeat 0%nat n) n) (bump2 l p))
  end.
Definition swap_rows (n : nat) (count : list (string * list (list nat))) : list (string * nat * nat * nat) :=
  concat (map (fun wm => concat (map (fun i =>
     map (fun j => (fst wm, i, j, nget2 (snd wm) i j))
       (filter (fun j => Nat.ltb 0 (nget2 (snd wm) i j)) (seq 0 n))) (seq 0 n))) count).
Definition common_swaps (srt : list Q -> list nat) (issues : list (nat * nat)) (tokens : list (list string))
           (labels : list (list nat)) (pred_probs : list (list (list Q))) (exclude : list (nat * nat))
  : res (list (string * nat * nat * nat)) :=
  match pred_probs with
  | (row :: _) :: _ =>
      let n := length row in
      do count <- count_swaps n issues tokens labels pred_probs exclude [] ;
      Ok (sort_desc srt snd (EmptyString, 0%nat, 0%nat, 0%nat) (swap_rows n count))
  | _ => Raise OtherError
  end.

(** token_classification/rank.py:231-274 [_softmin_sentence_score] for a finite positive temperature, through
    cleanlab/internal/numerics.py:7-39 [softmax] with [shift=True]; over the reals. *)
Open Scope R_scope.
Definition softmax_t (eps temperature : R) (x : list R) : list R :=
  let x1 := map (fun v => v / Rmax temperature eps) x in
  let x2 := map (fun v => v - rmaximum x1) x1 in
  map (fun v => exp v / rsum (map exp x2)) x2.
Definition rdot (a b : list R) : R := rsum (map (fun p => fst p * snd p) (combine a b)).
Definition softmin_sentence (eps temperature : R) (scores : list R) : res R :=
  match scores with
  | [] => Raise ValueError
  | _ => Ok (rdot scores (softmax_t eps temperature (map (fun s => 1 - s) scores)))
  end.
