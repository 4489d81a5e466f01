(** * C16: exactly which averages the ensemble scores are *)
From Coq Require Import QArith List Bool Arith Lia Lqa.
From Verif Require Import Base BaseFacts ModelUtil ModelCount ModelRank SpecCount SpecFilter ProofEnsemble.
Import ListNotations.
Open Scope Q_scope.

(** uniform weights: the mean over the models; accuracy weights: the mean weighted with the fractions of examples whose
    given label each model predicts *)
Theorem C16_formula : forall K labels pps method adjust ens,
  (get_label_quality_ensemble_scores labels pps K method adjust Uniform = Ok ens ->
   exists scores, Forall2 (fun pp s => get_label_quality_scores labels pp K method adjust = Ok s) pps scores /\
     length ens = length labels /\
     forall e, (e < length labels)%nat -> nth e ens 0 * Qnat (length pps) == qsum (map (fun s => nth e s 0) scores)) /\
  ((forall pp, In pp pps -> dataset K labels pp) -> get_label_quality_ensemble_scores labels pps K method adjust Accuracy = Ok ens ->
   exists scores accs, Forall2 (fun pp s => get_label_quality_scores labels pp K method adjust = Ok s) pps scores /\
     Forall2 (fun pp a => exists n, holds_for (length labels) (fun e => most_likely (row_of pp e) (label_of labels e)) n /\
                                    a * Qnat (length labels) == Qnat n) pps accs /\
     0 < qsum accs /\ length ens = length labels /\
     forall e, (e < length labels)%nat ->
       nth e ens 0 * qsum accs == qsum (tab (length pps) (fun i => nth i accs 0 * nth e (nth i scores []) 0))).
Proof. exact formula_full. Qed.
Print Assumptions C16_formula.

(** two models, one right for all three examples, the other for one of them: weights 3/4 and 1/4 *)
Example C16_formula_example :
  (do r <- get_label_quality_ensemble_scores [0; 1; 0]%nat
     [[[9 # 10; 1 # 10]; [2 # 10; 8 # 10]; [1; 0]]; [[1 # 2; 1 # 2]; [1; 0]; [1 # 10; 9 # 10]]] 2 SelfConfidence false Accuracy ;
   Ok (map Qred r)) = Ok [4 # 5; 3 # 5; 31 # 40].
Proof. vm_compute. reflexivity. Qed.
