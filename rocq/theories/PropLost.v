(** * C178: the caution about classes that the consensus labels no longer contain *)
From Coq Require Import QArith List Bool Arith Lia.
From Verif Require Import Base ModelMultiannotator ModelLost SpecMultiannotator SpecLost ProofLost.
Import ListNotations.

(** get_majority_vote_label prints the caution exactly if some class given by an annotator is the majority label
    of no example; it names exactly these classes.  With verbose=False nothing is printed. *)
Theorem C178_majority_caution : forall rnd t M pp Kpp verbose mv w,
  majority_vote_output rnd t M pp Kpp verbose = Ok (mv, w) ->
  get_majority_vote_label rnd t M pp Kpp verbose = Ok mv /\ w <> Some [] /\
  (verbose = false -> w = None) /\ (verbose = true -> lists (fun c => annotated t c /\ ~ In c mv) (named w)).
Proof. exact majority_caution_full. Qed.
Print Assumptions C178_majority_caution.

(** the same for get_label_quality_multiannotator, either consensus method *)
Theorem C178_quality_caution : forall fsqrt rnd t M K prior method verbose info w,
  label_quality_output fsqrt rnd t M K prior method verbose = Ok (info, w) ->
  get_label_quality_multiannotator fsqrt rnd t M K prior method = Ok info /\ w <> Some [] /\
  (verbose = false -> w = None) /\ (verbose = true -> lists (fun c => annotated t c /\ ~ In c (c_label info)) (named w)).
Proof. exact quality_caution_full. Qed.
Print Assumptions C178_quality_caution.

(** majority vote: a class that is named was nowhere given more often than every other class, and the number of
    classes has been reduced by the number of classes named *)
Theorem C178_majority_lost : forall rnd t M pp Kpp mv w,
  (forall r, In r t -> length r = M) -> majority_vote_output rnd t M pp Kpp true = Ok (mv, w) ->
  (forall c, In c (named w) -> forall r, In r t -> exists k, k <> c /\ plurality r k) /\
  (forall lA lB, lists (annotated t) lA -> lists (fun c => In c mv) lB -> length lA = (length lB + length (named w))%nat).
Proof. exact majority_lost_full. Qed.
Print Assumptions C178_majority_lost.

Theorem C178_quality_majority_lost : forall fsqrt rnd t M K prior info w,
  (forall r, In r t -> length r = M) -> label_quality_output fsqrt rnd t M K prior MajorityVote true = Ok (info, w) ->
  (forall c, In c (named w) -> forall r, In r t -> exists k, k <> c /\ plurality r k) /\
  (forall lA lB, lists (annotated t) lA -> lists (fun c => In c (c_label info)) lB -> length lA = (length lB + length (named w))%nat).
Proof. exact quality_lost_full. Qed.
Print Assumptions C178_quality_majority_lost.

(** consensus_method="best_quality" (the default): the caution says that the number of classes was reduced,
    although it was not, and names a class although it is the only label the example was given *)
Theorem C178_best_quality_refuted : exists fsqrt rnd t M K prior info cs lA lB,
  (forall r, In r t -> length r = M) /\
  (let mean := qmean (map (fun r => Qnat (num_annotations r)) t) in (fsqrt mean * fsqrt mean == mean)%Q) /\
  label_quality_output fsqrt rnd t M K prior BestQuality true = Ok (info, Some cs) /\
  lists (annotated t) lA /\ lists (fun c => In c (c_label info)) lB /\ length lA = length lB /\
  exists c r, In c cs /\ In r t /\ clear_winner r c.
Proof.
  destruct (label_quality_output ex178_sqrt (fun _ => 0%nat) ex178_t 5 4 ex178_p BestQuality true) as [[info w]|] eqn:E; [|vm_compute in E; discriminate E].
  assert (EL : c_label info = [0; 1; 0; 3]%nat /\ w = Some [2]%nat).
  { assert (G : match label_quality_output ex178_sqrt (fun _ => 0%nat) ex178_t 5 4 ex178_p BestQuality true with
                | Ok (i, x) => c_label i = [0; 1; 0; 3]%nat /\ x = Some [2]%nat | _ => False end) by (vm_compute; auto).
    rewrite E in G. exact G. }
  destruct EL as (EL & ->).
  exists ex178_sqrt, (fun _ => 0%nat), ex178_t, 5%nat, 4%nat, ex178_p, info, [2]%nat, [0; 1; 2]%nat, [0; 1; 3]%nat.
  split; [intros r [<-|[<-|[<-|[<-|[]]]]]; reflexivity|]. split; [vm_compute; reflexivity|]. split; [exact E|].
  split; [|split; [|split; [reflexivity|]]].
  - split; [repeat constructor; cbn; lia|]. intros c. split.
    + intros [<-|[<-|[<-|[]]]]; [exists (nth 0 ex178_t [])|exists (nth 1 ex178_t [])|exists (nth 3 ex178_t [])]; cbn; tauto.
    + intros (r & [<-|[<-|[<-|[<-|[]]]]] & Hr); cbn in Hr; repeat destruct Hr as [Hr|Hr]; try discriminate Hr; try (injection Hr as <-; cbn; tauto); destruct Hr.
  - rewrite EL. split; [repeat constructor; cbn; lia|]. intros c. cbn. tauto.
  - exists 2%nat, (nth 3 ex178_t []). split; [left; auto|]. split; [cbn; tauto|]. split; [vm_compute; lia|].
    intros [|[|[|k]]] Hk; try congruence; vm_compute; try lia. 
Qed.
Print Assumptions C178_best_quality_refuted.

(** ** the hypotheses are met: an outvoted class is named *)
Example C178_example : majority_vote_output (fun _ => 0%nat) ex178_v 3 None 0 true = Ok ([0; 1; 0]%nat, Some [2]%nat) /\
  (forall r, In r ex178_v -> length r = 3%nat) /\
  exists info, label_quality_output (fun x => x) (fun _ => 0%nat) ex178_v 3 3
    [[1 # 2; 1 # 4; 1 # 4]; [1 # 4; 1 # 2; 1 # 4]; [1 # 2; 1 # 4; 1 # 4]]%Q MajorityVote true = Ok (info, Some [2]%nat).
Proof.
  split; [vm_compute; reflexivity|]. split; [intros r [<-|[<-|[<-|[]]]]; reflexivity|]. eexists. vm_compute. reflexivity.
Qed.
