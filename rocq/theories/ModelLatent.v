(** * Model of cleanlab/internal/latent_algebra.py and the latent estimates of cleanlab/count.py *)
From Coq Require Import QArith Qabs Qround List ZArith Bool Arith.
From Verif Require Import Base ModelUtil ModelCount.
Import ListNotations.
Open Scope Q_scope.

(** cleanlab/internal/latent_algebra.py:66-113 [compute_inv_noise_matrix] (K x K [noise_matrix],
    [noise_matrix * py] multiplies column y by py[y]; [joint.T / clip(ps)] divides column s by ps[s]). *)
Definition joint_of (noise_matrix : list (list Q)) (py : list Q) : list (list Q) :=
  let K := length noise_matrix in
  tab K (fun s => tab K (fun y => mget noise_matrix s y * nth y py 0)).
Definition compute_inv_noise_matrix (py : list Q) (noise_matrix : list (list Q)) (ps : option (list Q))
  : list (list Q) :=
  let K := length noise_matrix in
  let joint := joint_of noise_matrix py in
  let ps := match ps with Some p => p | None => map qsum joint end in
  clip_noise_rates (tab K (fun y => tab K (fun s => mget joint s y / clip_lo TINY_VALUE (nth s ps 0)))).

(** cleanlab/internal/latent_algebra.py:116-173 [compute_noise_matrix_from_inverse]. *)
Definition compute_noise_matrix_from_inverse (ps : list Q) (inverse : list (list Q)) (py : option (list Q))
  : list (list Q) :=
  let K := length inverse in
  let joint := tab K (fun s => tab K (fun y => mget inverse y s * nth s ps 0)) in
  let py := match py with Some p => p | None => tab K (fun y => qsum (col y joint)) end in
  clip_noise_rates (tab K (fun s => tab K (fun y => mget joint s y / clip_lo TINY_VALUE (nth y py 0)))).

(** cleanlab/internal/latent_algebra.py:176-256 [compute_py].  [Eqn inv]: the matrix returned by
    [np.linalg.inv(noise_matrix)] is an argument. *)
Inductive py_method := Cnt | Eqn (inv : list (list Q)) | Marginal (true_labels_class_counts : list Q) | MarginalPs.
Definition dot (a b : list Q) : Q := qsum (map (fun xy => fst xy * snd xy) (combine a b)).
Definition compute_py (ps : list Q) (noise_matrix inverse : list (list Q)) (m : py_method) : list Q :=
  let K := length noise_matrix in
  let py :=
    match m with
    | Cnt => tab K (fun k => mget inverse k k / clip_lo TINY_VALUE (mget noise_matrix k k) * nth k ps 0)
    | Eqn inv => map (fun row => dot row ps) inv
    | Marginal cnts => map (fun c => c / clip_lo TINY_VALUE (qsum cnts)) cnts
    | MarginalPs => map (fun row => dot row ps) inverse
    end in
  clip_values py CLIPPING_LOWER_BOUND 1 1.

(** cleanlab/internal/latent_algebra.py:39-63 [compute_py_inv_noise_matrix]; [inv] is
    [np.linalg.inv(noise_matrix)]. *)
Definition compute_py_inv_noise_matrix (inv : list (list Q)) (ps : list Q) (noise_matrix : list (list Q))
  : list Q * list (list Q) :=
  let py := clip_values (map (fun row => dot row ps) inv) CLIPPING_LOWER_BOUND 1 1 in
  (py, compute_inv_noise_matrix py noise_matrix (Some ps)).

(** cleanlab/internal/latent_algebra.py:259-312 [compute_pyx], one row per example. *)
Definition compute_pyx (pred_probs noise_matrix inverse : list (list Q)) : list (list Q) :=
  let K := length noise_matrix in
  map (fun row =>
         clip_values (tab K (fun k => nth k row 0 * mget inverse k k
                                      / clip_lo TINY_VALUE (mget noise_matrix k k))) 0 1 1) pred_probs.

(** cleanlab/count.py:1331-1404 [_converge_estimates]: [i] inner and [j] outer iterations
    (5 and 3 by default). *)
Fixpoint converge_inner (i : nat) (ps py : list Q) (noise inverse : list (list Q)) : list Q * list (list Q) :=
  match i with
  | O => (py, inverse)
  | S i' =>
      let inverse := compute_inv_noise_matrix py noise (Some ps) in
      let py := compute_py ps noise inverse Cnt in
      converge_inner i' ps py noise inverse
  end.
Fixpoint converge_estimates (j i : nat) (ps py : list Q) (noise inverse : list (list Q))
  : list Q * list (list Q) * list (list Q) :=
  match j with
  | O => (py, noise, inverse)
  | S j' =>
      let r := converge_inner i ps py noise inverse in
      let noise := compute_noise_matrix_from_inverse ps (snd r) (Some (fst r)) in
      converge_estimates j' i ps (fst r) noise (snd r)
  end.

(** cleanlab/count.py:715-796 [estimate_latent] ([py_method] in cnt, marginal, marginal_ps). *)
Inductive latent_method := LCnt | LMarginal | LMarginalPs.
Definition estimate_latent (cj : list (list Q)) (labels : list nat) (m : latent_method) (converge : bool)
  : res (list Q * list (list Q) * list (list Q)) :=
  let K := length cj in
  do label_counts <- value_counts labels K ;
  let ps := map (fun c => Qnat c / Qnat (length labels)) label_counts in
  let labels_class_counts := map qsum cj in
  let true_labels_class_counts := tab K (fun y => qsum (col y cj)) in
  let noise := tab K (fun s => tab K (fun y =>
                 mget cj s y / clip_lo TINY_VALUE (nth y true_labels_class_counts 0))) in
  let inverse := tab K (fun y => tab K (fun s =>
                 mget cj s y / clip_lo TINY_VALUE (nth s labels_class_counts 0))) in
  let py := compute_py ps noise inverse
              (match m with LCnt => Cnt | LMarginal => Marginal true_labels_class_counts
                          | LMarginalPs => MarginalPs end) in
  let noise := clip_noise_rates noise in
  let inverse := clip_noise_rates inverse in
  if converge then
    let '(py, noise, inverse) := converge_estimates 3 5 ps py noise inverse in
    Ok (clip_values py (1 # 100000) 1 1, clip_noise_rates noise, clip_noise_rates inverse)
  else Ok (py, noise, inverse).
