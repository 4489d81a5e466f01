(** * Properties C18-C20, C57: latent noise estimates *)
From Coq Require Import QArith Qabs Qround List ZArith Bool Arith Lia.
From Verif Require Import Base BaseFacts ModelUtil ModelCount ModelLatent SpecCount SpecLatent ProofLatent.
Import ListNotations.
Open Scope Q_scope.

(** ** C18 *)
(** no convergence iterations (the default) *)
Theorem C18_latent_estimates : forall K cj labels m, (0 < K)%nat -> nonneg_square K cj ->
  labels <> [] -> (forall l, In l labels -> (l < K)%nat) ->
  (forall s, (s < K)%nat -> TINY_VALUE <= qsum (tab K (fun y => mget cj s y))) ->
  (forall y, (y < K)%nat -> TINY_VALUE <= qsum (tab K (fun s => mget cj s y))) ->
  exists py N I, estimate_latent cj labels m false = Ok (py, N, I) /\
    positive_distribution K py /\ column_stochastic K N /\ column_stochastic K I.
Proof. exact C18_plain_full. Qed.
Print Assumptions C18_latent_estimates.

(** with the convergence iterations: every class occurs in the labels, at most 10^6 classes, at most 10^12
    labels and counted examples *)
Theorem C18_converged_estimates_partial : forall K cj labels m, (0 < K)%nat -> Qnat K <= 1000000 ->
  count_matrix K 1000000000000 cj ->
  (forall l, In l labels -> (l < K)%nat) -> (forall k, (k < K)%nat -> In k labels) ->
  Qnat (length labels) <= 1000000000000 ->
  exists py N I, estimate_latent cj labels m true = Ok (py, N, I) /\
    positive_distribution K py /\ column_stochastic K N /\ column_stochastic K I.
Proof. exact C18_converged_full. Qed.
Print Assumptions C18_converged_estimates_partial.

(** with the convergence iterations and a class [s] missing from the labels, the returned inverse noise matrix
    has an all-zero column, whatever the confident joint *)
Theorem C18_converged_missing_class_refuted : forall K cj labels m s, nonneg_square K cj -> labels <> [] ->
  (forall l, In l labels -> (l < K)%nat) -> (s < K)%nat -> ~ In s labels ->
  exists py N I, estimate_latent cj labels m true = Ok (py, N, I) /\
    (forall y, (y < K)%nat -> mget I y s == 0) /\ ~ column_stochastic K I.
Proof. exact C18_missing_full. Qed.
Print Assumptions C18_converged_missing_class_refuted.

Definition ex18_cj : list (list Q) := [[5; 1; 0]; [2; 7; 1]; [0; 1; 3]].
Definition ex18_labels : list nat := [0; 0; 1; 2; 1; 1; 2; 0; 1; 2]%nat.
Lemma ex18_square : nonneg_square 3 ex18_cj.
Proof.
  split; [reflexivity|]. split.
  - intros r [<-|[<-|[<-|[]]]]; reflexivity.
  - intros r x [<-|[<-|[<-|[]]]] [<-|[<-|[<-|[]]]]; vm_compute; discriminate.
Qed.
Lemma lt3 (P : nat -> Prop) : P 0%nat -> P 1%nat -> P 2%nat -> forall k, (k < 3)%nat -> P k.
Proof. intros P0 P1 P2 [|[|[|k]]] Hk; auto. lia. Qed.
Lemma lt2 (P : nat -> Prop) : P 0%nat -> P 1%nat -> forall k, (k < 2)%nat -> P k.
Proof. intros P0 P1 [|[|k]] Hk; auto. lia. Qed.
Lemma lt22 (P : nat -> nat -> Prop) : P 0%nat 0%nat -> P 0%nat 1%nat -> P 1%nat 0%nat -> P 1%nat 1%nat ->
  forall i j, (i < 2)%nat -> (j < 2)%nat -> P i j.
Proof. intros H00 H01 H10 H11 [|[|i]] [|[|j]] Hi Hj; auto; lia. Qed.
Lemma ex18_labels_ok : forall l, In l ex18_labels -> (l < 3)%nat.
Proof. intros l H. simpl in H. repeat (destruct H as [<-|H]; [lia|]). destruct H. Qed.

Example C18_example : exists py N I, estimate_latent ex18_cj ex18_labels LCnt false = Ok (py, N, I) /\
    positive_distribution 3 py /\ column_stochastic 3 N /\ column_stochastic 3 I.
Proof.
  apply C18_latent_estimates; try lia.
  - exact ex18_square.
  - discriminate.
  - exact ex18_labels_ok.
  - apply lt3; vm_compute; discriminate.
  - apply lt3; vm_compute; discriminate.
Qed.
Example C18_converged_example : exists py N I, estimate_latent ex18_cj ex18_labels LMarginalPs true = Ok (py, N, I) /\
    positive_distribution 3 py /\ column_stochastic 3 N /\ column_stochastic 3 I.
Proof.
  apply C18_converged_estimates_partial; try lia.
  - vm_compute; discriminate.
  - split; [exact ex18_square|]. split; [|split; [|split]].
    + intros r x [<-|[<-|[<-|[]]]] [<-|[<-|[<-|[]]]]; try (right; vm_compute; discriminate); left; reflexivity.
    + apply lt3; reflexivity.
    + apply lt3; reflexivity.
    + vm_compute; discriminate.
  - exact ex18_labels_ok.
  - apply lt3; simpl; auto 10.
  - vm_compute; discriminate.
Qed.
Example C18_missing_example : exists py N I,
  estimate_latent ex18_cj [0; 1; 1; 0]%nat LCnt true = Ok (py, N, I) /\
  (forall y, (y < 3)%nat -> mget I y 2 == 0) /\ ~ column_stochastic 3 I.
Proof.
  apply C18_converged_missing_class_refuted; try lia.
  - exact ex18_square.
  - discriminate.
  - intros l H. simpl in H. lia.
  - simpl. lia.
Qed.

(** ** C19 *)
Theorem C19_bayes : forall K N py, column_stochastic K N -> positive_distribution K py ->
  (forall y, (y < K)%nat -> 1 # 1000000 <= nth y py 0) ->
  (forall s y, (s < K)%nat -> (y < K)%nat -> s <> y -> mget N s y <= 9999 # 10000) ->
  (forall s, (s < K)%nat -> TINY_VALUE <= mget N s s) ->
  (forall s, (s < K)%nat -> TINY_VALUE <= given_p K N py s) ->
  (forall s y, (s < K)%nat -> (y < K)%nat -> s <> y -> joint_p N py s y <= (9999 # 10000) * given_p K N py s) ->
  let ps := tab K (given_p K N py) in
  let I := compute_inv_noise_matrix py N None in
  (column_stochastic K I /\
   (forall y s, (y < K)%nat -> (s < K)%nat -> mget I y s == joint_p N py s y / given_p K N py s)) /\
  (forall s y, (s < K)%nat -> (y < K)%nat ->
     mget (compute_noise_matrix_from_inverse ps I None) s y == mget N s y) /\
  Forall2 Qeq (compute_py ps N I Cnt) py /\
  Forall2 Qeq (compute_py ps N I MarginalPs) py /\
  (forall c, 1 <= c -> Forall2 Qeq (compute_py ps N I (Marginal (map (fun p => c * p) py))) py) /\
  (forall inv, length inv = K -> (forall r, In r inv -> length r = K) ->
     (forall i j, (i < K)%nat -> (j < K)%nat ->
        qsum (tab K (fun s => mget inv i s * mget N s j)) == if Nat.eqb i j then 1 else 0) ->
     Forall2 Qeq (compute_py ps N I (Eqn inv)) py).
Proof. exact C19_full. Qed.
Print Assumptions C19_bayes.

Definition ex19_N : list (list Q) := [[9 # 10; 1 # 5]; [1 # 10; 4 # 5]].
Definition ex19_py : list Q := [1 # 4; 3 # 4].
Example C19_example :
  mget (compute_inv_noise_matrix ex19_py ex19_N None) 0 0 == (9 # 40) / (3 # 8) /\
  Forall2 Qeq (compute_py (tab 2 (given_p 2 ex19_N ex19_py)) ex19_N
     (compute_inv_noise_matrix ex19_py ex19_N None) (Eqn [[8 # 7; - 2 # 7]; [- 1 # 7; 9 # 7]])) ex19_py.
Proof.
  assert (HN : column_stochastic 2 ex19_N).
  { split; [split; [reflexivity|split]|].
    - intros r [<-|[<-|[]]]; reflexivity.
    - intros r x [<-|[<-|[]]] [<-|[<-|[]]]; vm_compute; discriminate.
    - apply lt2; reflexivity. }
  assert (Hp : positive_distribution 2 ex19_py).
  { split; [reflexivity|]. split; [|reflexivity]. intros x [<-|[<-|[]]]; reflexivity. }
  destruct (C19_bayes 2 ex19_N ex19_py HN Hp) as ((_ & A) & _ & _ & _ & _ & B).
  - apply lt2; vm_compute; discriminate.
  - intros s y Hs Hy; pattern s, y; apply lt22; try assumption; intros; try congruence; vm_compute; discriminate.
  - apply lt2; vm_compute; discriminate.
  - apply lt2; vm_compute; discriminate.
  - intros s y Hs Hy; pattern s, y; apply lt22; try assumption; intros; try congruence; vm_compute; discriminate.
  - split.
    + rewrite A by lia. vm_compute. reflexivity.
    + apply B; [reflexivity| |].
      * intros r [<-|[<-|[]]]; reflexivity.
      * intros i j Hi Hj; pattern i, j; apply lt22; try assumption; reflexivity.
Qed.

(** ** C20 *)
Theorem C20_noise_free_class : forall K m c, column_stochastic K m -> (c < K)%nat ->
  let r := remove_noise_from_class m c in
  column_stochastic K r /\
  (forall y, (y < K)%nat -> y <> c -> mget r c y == 0) /\
  (forall s y, (s < K)%nat -> (y < K)%nat -> s <> y -> s <> c -> mget r s y == mget m s y).
Proof. exact C20_full. Qed.
Print Assumptions C20_noise_free_class.
Example C20_example :
  map (map Qred) (remove_noise_from_class [[7 # 10; 1 # 5; 1 # 10]; [1 # 5; 4 # 5; 1 # 10]; [1 # 10; 0; 4 # 5]] 0)
  = [[7 # 10; 0; 0]; [1 # 5; 1; 1 # 10]; [1 # 10; 0; 9 # 10]].
Proof. vm_compute. reflexivity. Qed.

(** ** C57 *)
Theorem C57_pyx_rows : forall K pp N I, length N = K ->
  (forall k, (k < K)%nat -> 0 <= mget N k k <= 1) ->
  (forall r, In r pp -> length r = K /\ (forall x, In x r -> 0 <= x)) ->
  (forall k, (k < K)%nat -> 0 <= mget I k k) ->
  (forall r, In r pp -> exists k, (k < K)%nat /\ TINY_VALUE <= nth k r 0 * mget I k k) ->
  length (compute_pyx pp N I) = length pp /\
  forall e, (e < length pp)%nat ->
    let out := nth e (compute_pyx pp N I) [] in
    length out = K /\ (forall v, In v out -> 0 <= v /\ v <= 1) /\ qsum out == 1 /\
    (forall k, (k < K)%nat -> nth k (nth e pp []) 0 == 0 -> nth k out 0 == 0) /\
    ((forall k, (k < K)%nat -> mget N k k == 1 /\ mget I k k == 1) -> qsum (nth e pp []) == 1 ->
       Forall2 Qeq out (nth e pp [])).
Proof. exact C57_full. Qed.
Print Assumptions C57_pyx_rows.
Example C57_example :
  map (map Qred) (compute_pyx [[1 # 4; 3 # 4]; [1; 0]] ex19_N [[9 # 11; 1 # 9]; [2 # 11; 8 # 9]])
  = [[3 # 14; 11 # 14]; [1; 0]].
Proof. vm_compute. reflexivity. Qed.
