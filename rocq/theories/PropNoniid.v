(** * Properties C82-C84: the non-IID check of Datalab *)
From Coq Require Import QArith Qabs Qreals Reals List Bool Arith Permutation Sorted Lia.
From Verif Require Import Base ModelNoniid SpecNoniid ProofNoniid.
Import ListNotations.
Open Scope Q_scope.

(** ** C82 *)
Theorem C82_statistic : forall nb, neighbour_table nb -> nb <> [] ->
  exists D, ks_statistic (length nb) (concat (neighbor_index_distances nb)) = Ok D /\ 0 <= D <= 1 /\
    (forall x, Qabs (neighbour_cdf (distances_of nb) x - pair_cdf (length nb) x) <= D + 1 / Qnat (length (distances_of nb))) /\
    (exists x, D <= Qabs (neighbour_cdf (distances_of nb) x - pair_cdf (length nb) x) + 2 / Qnat (length nb)).
Proof. exact C82_statistic_full. Qed.
Print Assumptions C82_statistic.

Theorem C82_permutations : forall kde perms thr nb,
  neighbour_table nb -> nb <> [] -> Forall (reordering (length nb)) perms ->
  exists mask scores stats observed,
    find_issues kde perms thr nb = Ok (mask, scores, kde stats observed) /\
    ks_statistic (length nb) (distances_of nb) = Ok observed /\
    Forall2 (fun p s => forall nb', reordered p nb nb' -> ks_statistic (length nb) (distances_of nb') = Ok s) perms stats.
Proof. exact C82_permutations_full. Qed.
Print Assumptions C82_permutations.

(** six examples in two runs of three: neighbours are close, and a shuffled order *)
Definition ex_runs : list (list nat) := [[1; 2]; [0; 2]; [1; 0]; [4; 5]; [3; 5]; [4; 3]]%nat.
Definition ex_order : list nat := [3; 0; 5; 1; 4; 2]%nat.
Definition ex_runs' : list (list nat) := [[3; 5]; [4; 2]; [4; 1]; [0; 5]; [1; 2]; [0; 3]]%nat.
Example C82_example :
  neighbour_table ex_runs /\ reordering 6 ex_order /\ reordered ex_order ex_runs ex_runs' /\
  ks_statistic 6 (distances_of ex_runs) = ks_statistic 6 [1; 2; 1; 1; 1; 2; 1; 2; 1; 1; 1; 2]%nat /\
  rmap (fun l => rbind (ks_statistic 6 l) (fun q => Ok (Qred q))) [distances_of ex_runs; distances_of ex_runs'] = Ok [1 # 3; 13 # 30].
Proof.
  split; [|split; [|split; [|split]]].
  - intros i Hi. cbn in Hi. do 6 (destruct i as [|i]; [split; [discriminate|]; cbn; intros j Hj; repeat (destruct Hj as [<-|Hj]; [lia|]); destruct Hj|]). lia.
  - unfold reordering, ex_order. cbn. apply NoDup_Permutation.
    + repeat constructor; cbn; intuition discriminate.
    + repeat constructor; cbn; intuition discriminate.
    + intros x. cbn. intuition (subst; auto 10).
  - split; [reflexivity|]. intros i Hi. cbn in Hi. do 6 (destruct i as [|i]; [reflexivity|]). lia.
  - reflexivity.
  - vm_compute. reflexivity.
Qed.

(** ** C83 *)
Theorem C83_flags : forall kde perms thr nb mask scores p,
  neighbour_table nb -> nb <> [] -> find_issues kde perms thr nb = Ok (mask, scores, p) ->
  length mask = length nb /\ length scores = length nb /\
  (forall i, (i < length nb)%nat ->
     (nth i mask false = true <->
      p < thr /\ (forall j, (j < length nb)%nat -> (nth i scores 0 <= nth j scores 0)%R) /\
      (forall j, (j < i)%nat -> (nth i scores 0 < nth j scores 0)%R))) /\
  (forall i, (i < length nb)%nat -> (1 - tanh 2 < nth i scores 0 <= 1)%R).
Proof. exact C83_flags_full. Qed.
Print Assumptions C83_flags.

Theorem C83_scores : forall kde perms thr nb mask scores p i s,
  neighbour_table nb -> find_issues kde perms thr nb = Ok (mask, scores, p) -> (i < length nb)%nat ->
  Permutation s (map (fun j => Nat.max i j - Nat.min i j)%nat (nth i nb [])) -> StronglySorted le s ->
  exists S : Q,
    S == qsum (map (fun k => let here := nth k (s ++ [(length nb - 1)%nat]) 0%nat in
                              let before := nth k (0%nat :: s) 0%nat in
                              Qabs (Qnat k / Qnat (length s) * (Qnat here - Qnat before) -
                                    (example_area (length nb) i here - example_area (length nb) i before)))
                   (seq 0 (length s + 1))) /\
    0 <= S <= Qnat (length nb - 1) /\
    nth i scores 0%R = (1 - tanh (Q2R S / INR (Nat.max i (length nb - i))))%R.
Proof. exact C83_scores_full. Qed.
Print Assumptions C83_scores.

(** the first example of [ex_runs]: its neighbours are at distances 1 and 2 *)
Example C83_example :
  Permutation [1; 2]%nat (map (fun j => Nat.max 0 j - Nat.min 0 j)%nat (nth 0 ex_runs [])) /\ StronglySorted le [1; 2]%nat /\
  map (fun x => Qred (example_area 6 0 x)) [0; 1; 2; 5]%nat = [0; 1 # 10; 2 # 5; 5 # 2] /\
  map (fun x => Qred (example_area 6 2 x)) [0; 1; 2; 3; 5]%nat = [0; 1 # 5; 4 # 5; 17 # 10; 37 # 10] /\
  Qred (area_statistic 6 0 [1; 2]%nat) = 6 # 5.
Proof.
  split; [cbn; auto|]. split; [repeat constructor|]. vm_compute. auto.
Qed.

(** ** C84 *)
Theorem C84_statistic : forall nb, neighbour_table nb ->
  ks_statistic (length (mirror nb)) (concat (neighbor_index_distances (mirror nb))) =
  ks_statistic (length nb) (concat (neighbor_index_distances nb)).
Proof. exact C84_statistic_full. Qed.
Print Assumptions C84_statistic.

(** the unnormalised statistic of an example is the same in both directions; the normalisation is not *)
Theorem C84_scores_partial : forall nb i, neighbour_table nb -> (i < length nb)%nat ->
  exists S : Q, 0 <= S /\
    nth i (score_dataset nb) 0%R = (1 - tanh (Q2R (S / Qnat (Nat.max i (length nb - i)))))%R /\
    nth (length nb - 1 - i) (score_dataset (mirror nb)) 0%R =
      (1 - tanh (Q2R (S / Qnat (Nat.max (length nb - 1 - i) (i + 1)))))%R.
Proof. exact C84_scores_full. Qed.
Print Assumptions C84_scores_partial.

(** a dataset that reads the same in both directions: the last example is flagged, never the first *)
Theorem C84_direction_refuted :
  exists nb, neighbour_table nb /\ mirror nb = nb /\
    (nth 3 (score_dataset nb) 0 < nth 0 (score_dataset nb) 0)%R /\
    (forall kde perms thr mask scores p, find_issues kde perms thr nb = Ok (mask, scores, p) -> p < thr ->
       mask = [false; false; false; true]).
Proof. exact C84_refuted_full. Qed.
Print Assumptions C84_direction_refuted.
