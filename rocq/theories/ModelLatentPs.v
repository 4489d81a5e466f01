(** * Model of cleanlab/internal/latent_algebra.py:18-36 *)
From Coq Require Import QArith List.
From Verif Require Import Base ModelUtil ModelLatent.
Import ListNotations.
Open Scope Q_scope.

(** [compute_ps_py_inv_noise_matrix]; [value_counts(labels)] without num_classes counts the classes that occur, in
    increasing order; [inv] is [np.linalg.inv(noise_matrix)] *)
Definition compute_ps_py_inv_noise_matrix (inv : list (list Q)) (labels : list nat) (noise_matrix : list (list Q))
  : list Q * list Q * list (list Q) :=
  let ps := map (fun c => Qnat (count c labels) / Qnat (length labels)) (unique labels) in
  let r := compute_py_inv_noise_matrix inv ps noise_matrix in
  (ps, fst r, snd r).
