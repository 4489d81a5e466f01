(** * Property C184: optional inputs of the noise-matrix algebra, and the equivalences its comments claim *)
From Coq Require Import QArith List ZArith Bool Arith Lia Lqa.
From Verif Require Import Base ModelUtil ModelCount ModelLatent ModelLatentPs SpecCount SpecLatent SpecFactor SpecOptional ProofOptional.
Import ListNotations.
Open Scope Q_scope.

(** "ps is easily computable from py and should only be provided if it has already been precomputed" *)
Theorem C184_ps_optional : forall K N py ps, length N = K -> (forall s, (s < K)%nat -> nth s ps 0 == times_vector K N py s) ->
  meq (compute_inv_noise_matrix py N (Some ps)) (compute_inv_noise_matrix py N None).
Proof. exact inverse_ps. Qed.
Theorem C184_py_optional : forall K I ps py, length I = K -> (forall y, (y < K)%nat -> nth y py 0 == times_vector K I ps y) ->
  meq (compute_noise_matrix_from_inverse ps I (Some py)) (compute_noise_matrix_from_inverse ps I None).
Proof. exact noise_py. Qed.

(** "Equivalently: py = (true_labels_class_counts / labels_class_counts) * ps" (latent_algebra.py:240): so for
    py_method="cnt" when no diagonal entry vanishes *)
Theorem C184_cnt_by_counts : forall K cj labels, nonneg_square K cj -> labels <> [] -> (forall l, In l labels -> (l < K)%nat) ->
  (forall k, (k < K)%nat -> TINY_VALUE <= row_total K cj k /\ TINY_VALUE <= col_total K cj k /\ TINY_VALUE * col_total K cj k <= mget cj k k) ->
  exists r, estimate_latent cj labels LCnt false = Ok r /\ length (latent_py r) = K /\
    let raw := fun k => col_total K cj k / row_total K cj k * share labels k in
    forall k, (k < K)%nat -> nth k (latent_py r) 0 == bounded (raw k) / qsum (tab K (fun j => bounded (raw j))).
Proof. exact cnt_counts. Qed.

(** compute_ps_py_inv_noise_matrix: exact when the labels have exactly the distribution the noise matrix gives them *)
Theorem C184_from_labels : forall K N q labels inv, column_stochastic K N -> positive_distribution K q -> left_inverse K inv N ->
  (1 <= K)%nat -> (forall k, In k labels <-> (k < K)%nat) ->
  (forall y, (y < K)%nat -> 1 # 1000000 <= nth y q 0) ->
  (forall s, (s < K)%nat -> TINY_VALUE <= given_p K N q s) ->
  (forall s y, (s < K)%nat -> (y < K)%nat -> s <> y -> joint_p N q s y <= (9999 # 10000) * given_p K N q s) ->
  (forall s, (s < K)%nat -> share labels s == given_p K N q s) ->
  exists ps py I, compute_ps_py_inv_noise_matrix inv labels N = (ps, py, I) /\
    ps = tab K (share labels) /\ veq py q /\ column_stochastic K I /\
    (forall y s, (y < K)%nat -> (s < K)%nat -> mget I y s == joint_p N q s y / given_p K N q s).
Proof. exact from_labels. Qed.

(** With an empty diagonal entry the two formulas differ: by counts class 0 has probability 1/6 before normalizing,
    py_method="cnt" gives it less than one in 100000. *)
Theorem C184_cnt_zero_diagonal_refuted : exists cj labels r, nonneg_square 2 cj /\ labels <> [] /\ (forall l, In l labels -> (l < 2)%nat) /\
  (forall k, (k < 2)%nat -> 1 <= row_total 2 cj k /\ 1 <= col_total 2 cj k) /\
  estimate_latent cj labels LCnt false = Ok r /\
  col_total 2 cj 0 / row_total 2 cj 0 * share labels 0 == 1 # 6 /\ nth 0 (latent_py r) 0 < 1 # 100000.
Proof.
  exists [[0; 2]; [1; 3]], [0; 0; 1; 1; 1; 1]%nat. eexists.
  split; [split; [reflexivity|split]|].
  - intros r [<-|[<-|[]]]; reflexivity.
  - intros r x [<-|[<-|[]]] [<-|[<-|[]]]; vm_compute; discriminate.
  - split; [discriminate|]. split; [intros l Hl; cbn in Hl; lia|].
    split; [intros [|[|k]] Hk; [split; vm_compute; discriminate..|lia]|].
    split; [vm_compute; reflexivity|]. split; vm_compute; reflexivity.
Qed.

(** 16 labels: 6 of class 0 and 10 of class 1; true classes 1/4 and 3/4 *)
Definition ex_N : list (list Q) := [[9 # 10; 1 # 5]; [1 # 10; 4 # 5]].
Definition ex_labels : list nat := repeat 0%nat 6 ++ repeat 1%nat 10.
Definition ex_inv : list (list Q) := [[8 # 7; - 2 # 7]; [- 1 # 7; 9 # 7]].
Example C184_example :
  let '(ps, py, inverse) := compute_ps_py_inv_noise_matrix ex_inv ex_labels ex_N in
  veq ps [3 # 8; 5 # 8] /\ veq py [1 # 4; 3 # 4] /\ meq inverse [[3 # 5; 1 # 25]; [2 # 5; 24 # 25]] /\
  (forall s, (s < 2)%nat -> share ex_labels s == given_p 2 ex_N [1 # 4; 3 # 4] s) /\ left_inverse 2 ex_inv ex_N.
Proof.
  cbv beta iota zeta delta [compute_ps_py_inv_noise_matrix].
  split; [vm_compute; repeat constructor|]. split; [vm_compute; repeat constructor|]. split; [vm_compute; repeat constructor|].
  split; [intros [|[|s]] Hs; [reflexivity..|lia]|].
  split; [reflexivity|]. split; [intros r [<-|[<-|[]]]; reflexivity|].
  intros [|[|i]] [|[|j]] Hi Hj; try lia; reflexivity.
Qed.
Example C184_example_cnt : exists r, estimate_latent [[2; 1]; [1; 4]] [0; 0; 0; 1; 1; 1; 1; 1]%nat LCnt false = Ok r /\
  veq (latent_py r) [3 # 8; 5 # 8].
Proof. eexists. split; [vm_compute; reflexivity|]. vm_compute. repeat constructor. Qed.

Print Assumptions C184_ps_optional.
Print Assumptions C184_py_optional.
Print Assumptions C184_cnt_by_counts.
Print Assumptions C184_from_labels.
