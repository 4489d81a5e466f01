(** * Model of cleanlab/datalab/internal/issue_manager/noniid.py *)
From Coq Require Import QArith Qreals Qabs Reals List Bool Arith.
From Verif Require Import Base.
Import ListNotations.
Open Scope Q_scope.

(** np.sort of an integer array *)
Fixpoint ins_nat (x : nat) (l : list nat) : list nat :=
  match l with [] => [x] | y :: t => if Nat.leb x y then x :: l else y :: ins_nat x t end.
Definition sort_nat (l : list nat) : list nat := fold_right ins_nat [] l.

(** |a - b| *)
Definition absdiff (a b : nat) : nat := (a - b) + (b - a).
(** np.cumsum *)
Fixpoint cumsum_from (acc : Q) (l : list Q) : list Q :=
  match l with [] => [] | x :: t => (acc + x) :: cumsum_from (acc + x) t end.
Definition cumsum (l : list Q) : list Q := cumsum_from 0 l.

(** noniid.py:190-191: row i holds the index distances of example i to its neighbours *)
Definition neighbor_index_distances (nb : list (list nat)) : list (list nat) :=
  map (fun ir => map (absdiff (fst ir)) (snd ir)) (combine (seq 0 (length nb)) nb).

(** noniid.py:434-440: probability of each distance 1 .. N-1 between two examples, and its cumulative sum *)
Definition background_distribution (N : nat) : list Q :=
  map (fun j => Qnat (N - j) / (Qnat N * Qnat (N - 1) / 2)) (seq 1 (N - 1)).
Definition background_cdf (N : nat) : list Q := cumsum (background_distribution N).
(** background_cdf[s - 1]; index -1 is the last entry *)
Definition background_at (N s : nat) : Q :=
  nth (match s with O => length (background_cdf N) - 1 | S x => x end) (background_cdf N) 0.

(** noniid.py:426-446 [_get_statistics] of the flattened distances *)
Definition ks_statistic (N : nat) (dist : list nat) : res Q :=
  let sorted := sort_nat dist ++ [(N - 1)%nat] in
  if existsb (fun s => Nat.leb (length (background_cdf N)) (s - 1)) sorted then Raise IndexError
  else Ok (qmaximum (map (fun ks => Qabs (Qnat (fst ks) / Qnat (length sorted - 1) - background_at N (snd ks)))
                         (combine (seq 0 (length sorted)) sorted))).

(** noniid.py:279-286: index distances after renaming the examples by [perm] *)
Definition permuted_distances (perm : list nat) (nb : list (list nat)) : list nat :=
  flat_map (fun ir => map (fun j => absdiff (nth (fst ir) perm 0%nat) (nth j perm 0%nat)) (snd ir))
           (combine (seq 0 (length nb)) nb).

(** noniid.py:267-299 [_permutation_test]; [kde stats x] is the mass above [x] (up to 100) of scipy's Gaussian
    kernel density estimate of [stats]; [perms] are the random permutations *)
Definition permutation_test (kde : list Q -> Q -> Q) (perms : list (list nat)) (nb : list (list nat)) (observed : Q) : res Q :=
  do stats <- rmap (fun p => ks_statistic (length nb) (permuted_distances p nb)) perms ;
  Ok (kde stats observed).

(** noniid.py:301-406: the area statistic of one example *)
(** :353-356 *)
Definition double_distance (N i : nat) : nat := if Nat.ltb ((N - 1) / 2) i then (N - 1 - i)%nat else i.
(** :361-393: area under the background CDF up to distance s *)
Definition background_area (N d s : nat) : Q :=
  let area_beginning := Qnat d * Qnat d / Qnat (N - 1) in
  if Nat.leb s d then Qnat s * Qnat s / Qnat (N - 1)
  else if Nat.leb s (N - d - 1) then
    area_beginning + (1 # 2) * ((Qnat s + 3 * Qnat d) * (Qnat s - Qnat d) / Qnat (N - 1))
  else
    let length := Qnat N - 2 * Qnat d - 1 in
    let a := 2 * Qnat d / Qnat (N - 1) in
    area_beginning + (1 # 2) * (a + 1) * length + (Qnat s - (Qnat N - Qnat d - 1)).
(** :369-371, 396-406: consecutive entries of the sorted distances (0 before the first) *)
Fixpoint area_diffs (N d K k prev : nat) (s : list nat) : list Q :=
  match s with
  | [] => []
  | x :: t => Qabs (Qnat k / Qnat K * (Qnat x - Qnat prev) -
                    (background_area N d x - (match k with O => 0 | S _ => background_area N d prev end)))
              :: area_diffs N d K (S k) x t
  end.
Definition area_statistic (N i : nat) (dist : list nat) : Q :=
  qsum (area_diffs N (double_distance N i) (length dist) 0 0 (sort_nat dist ++ [(N - 1)%nat])).
(** :409-411 *)
Definition normalizer (N i : nat) : nat := if Nat.ltb (N - i) i then i else (N - i)%nat.
(** :413-414 *)
Definition score_of (N i : nat) (dist : list nat) : R :=
  (tanh (- 1 * Q2R (area_statistic N i dist / Qnat (normalizer N i))) + 1)%R.
Definition score_dataset (nb : list (list nat)) : list R :=
  map (fun ir => score_of (length nb) (fst ir) (snd ir))
      (combine (seq 0 (length nb)) (neighbor_index_distances nb)).

(** np.argmin of a real array *)
Fixpoint rargmin_from (best : nat) (bv : R) (i : nat) (l : list R) : nat :=
  match l with
  | [] => best
  | x :: t => if Rlt_dec x bv then rargmin_from i x (S i) t else rargmin_from best bv (S i) t
  end.
Definition rargmin (l : list R) : nat := match l with [] => 0%nat | x :: t => rargmin_from 0 x 1 t end.

(** noniid.py:186-208, the end of [find_issues] on the neighbours of the (given or built) graph:
    issue mask, scores and the summary score.  An empty dataset is refused by np.max / argmin. *)
Definition find_issues (kde : list Q -> Q -> Q) (perms : list (list nat)) (significance_threshold : Q)
  (nb : list (list nat)) : res (list bool * list R * Q) :=
  do stat <- ks_statistic (length nb) (concat (neighbor_index_distances nb)) ;
  do p <- permutation_test kde perms nb stat ;
  let scores := score_dataset nb in
  let none := map (fun _ => false) nb in
  Ok (if Qltb p significance_threshold then upd none (rargmin scores) true else none, scores, p).
