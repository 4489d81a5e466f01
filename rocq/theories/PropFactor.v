(** * Property C180: which proportions of a confident joint the latent estimates use *)
From Coq Require Import QArith List ZArith Bool Arith Lia Lqa.
From Verif Require Import Base ModelUtil ModelCount ModelLatent SpecFactor ProofFactor.
Import ListNotations.
Open Scope Q_scope.

(** An overall factor does not matter: for every py_method, with and without converge_latent_estimates. *)
Theorem C180_scale : forall K c cj cj' labels m converge, count_matrix K cj -> count_matrix K cj' -> 0 < c ->
  times (fun _ _ => c) cj cj' ->
  same_latent (estimate_latent cj labels m converge) (estimate_latent cj' labels m converge).
Proof. exact scale_latent. Qed.

(** A factor for each given label does not matter to the inverse noise matrix (and so not to the prior with
    py_method="marginal_ps"). *)
Theorem C180_rows : forall K f cj cj' labels m r r', count_matrix K cj -> count_matrix K cj' ->
  (forall i, 0 < f i) -> times (fun i _ => f i) cj cj' ->
  estimate_latent cj labels m false = Ok r -> estimate_latent cj' labels m false = Ok r' ->
  meq (latent_inverse r) (latent_inverse r') /\ (m = LMarginalPs -> veq (latent_py r) (latent_py r')).
Proof. exact rows_latent. Qed.

(** A factor for each true label does not matter to the noise matrix. *)
Theorem C180_columns : forall K f cj cj' labels m r r', count_matrix K cj -> count_matrix K cj' ->
  (forall j, 0 < f j) -> times (fun _ j => f j) cj cj' ->
  estimate_latent cj labels m false = Ok r -> estimate_latent cj' labels m false = Ok r' ->
  meq (latent_noise r) (latent_noise r').
Proof. exact columns_latent. Qed.

Definition ex_labels : list nat := [0; 0; 0; 1; 1]%nat.
Definition ex_cj : list (list Q) := [[2; 1]; [0; 2]].
Definition ex_scaled : list (list Q) := [[6; 3]; [0; 6]].
Definition ex_rows : list (list Q) := [[6; 3]; [0; 2]].
Ltac cm := split; [reflexivity|]; split; [let r := fresh in intros r [<-|[<-|[]]]; reflexivity|]; split;
  [let i := fresh in let j := fresh in intros i j; destruct i as [|[|[|i]]], j as [|[|[|j]]]; cbn; discriminate|]; split;
  [let r := fresh in intros r [<-|[<-|[]]]; right; vm_compute; discriminate|let j := fresh in intros j Hj; destruct j as [|[|j]]; [right; vm_compute; discriminate..|lia]].
Example ex_count : count_matrix 2 ex_cj.
Proof. cm. Qed.
Example ex_count_scaled : count_matrix 2 ex_scaled.
Proof. cm. Qed.
Example ex_count_rows : count_matrix 2 ex_rows.
Proof. cm. Qed.
Example C180_example : times (fun _ _ => 3) ex_cj ex_scaled.
Proof. intros [|[|[|i]]] [|[|[|j]]]; reflexivity. Qed.
Definition show (r : res (list Q * list (list Q) * list (list Q))) :=
  match r with Ok (p, n, i) => Ok (map Qred p, map (map Qred) n, map (map Qred) i) | Raise e => Raise e end.
Example C180_example_values :
  show (estimate_latent ex_cj ex_labels LCnt false) = Ok ([2 # 5; 3 # 5], [[1; 1 # 3]; [0; 2 # 3]], [[2 # 3; 0]; [1 # 3; 1]]) /\
  show (estimate_latent ex_scaled ex_labels LCnt false) = Ok ([2 # 5; 3 # 5], [[1; 1 # 3]; [0; 2 # 3]], [[2 # 3; 0]; [1 # 3; 1]]).
Proof. split; vm_compute; reflexivity. Qed.

(** With a factor for each given label the prior (py_method="cnt", the default) and the noise matrix do change,
    although both matrices have the same calibrated confident joint. *)
Theorem C180_rows_refuted : exists labels cj cj' f r r',
  count_matrix 2 cj /\ count_matrix 2 cj' /\ (forall i, 0 < f i) /\ times (fun i _ => f i) cj cj' /\
  calibrate_confident_joint argsort_ins cj labels = calibrate_confident_joint argsort_ins cj' labels /\
  estimate_latent cj labels LCnt false = Ok r /\ estimate_latent cj' labels LCnt false = Ok r' /\
  nth 0 (latent_py r) 0 == 2 # 5 /\ nth 0 (latent_py r') 0 == 2 # 7 /\
  mget (latent_noise r) 0 1 == 1 # 3 /\ mget (latent_noise r') 0 1 == 3 # 5.
Proof.
  exists ex_labels, ex_cj, ex_rows, (fun i => match i with O => 3 | _ => 1 end).
  eexists. eexists. split; [exact ex_count|]. split; [exact ex_count_rows|]. split; [intros [|i]; reflexivity|].
  split; [intros [|[|[|i]]] [|[|[|j]]]; reflexivity|]. split; [vm_compute; reflexivity|].
  split; [vm_compute; reflexivity|]. split; [vm_compute; reflexivity|].
  repeat split; vm_compute; reflexivity.
Qed.

Print Assumptions C180_scale.
Print Assumptions C180_rows.
Print Assumptions C180_columns.
Print Assumptions C180_rows_refuted.
