(** * Further theorems added after trying wrong programs: C53 *)
From Coq Require Import QArith Qreals Reals List ZArith Bool Arith Lia.
From Verif Require Import Base BaseFacts ModelDetection SpecDetection SpecTight ProofTight3.
Import ListNotations.
Open Scope Q_scope.

(** ** C53: a box annotated with a class the model has no column for is an error, and always the same one *)
Theorem C53_unknown_class : forall dist srt labels predictions check K l k b, length labels = length predictions -> (0 < K)%nat ->
  (forall p, In p predictions -> length p = K) -> In l labels -> In (k, b) l -> (K <= k)%nat ->
  find_label_issues_mask dist srt labels predictions check = Raise KeyError.
Proof. exact unknown_class. Qed.
Print Assumptions C53_unknown_class.
Example C53_unknown_class_example :
  find_label_issues_mask (fun _ _ => 0) argsort_ins [[(1%nat, mk_box 0 0 2 2)]] [[[(mk_box 0 0 2 2, 1#2)]]] true = Raise KeyError /\
  exists m, find_label_issues_mask (fun _ _ => 0) argsort_ins [[(0%nat, mk_box 0 0 2 2)]] [[[(mk_box 0 0 2 2, 1#2)]]] true = Ok m.
Proof. split; [vm_compute; reflexivity|eexists; vm_compute; reflexivity]. Qed.

(** ** C53: the score of an image, from the scores of its boxes *)
Theorem C53_formula : forall dist labels predictions w check K, detection_inputs K labels predictions -> valid_weights w = true ->
  exists scores, detection_scores dist labels predictions w check = Ok scores /\ length scores = length labels /\
  forall i, (i < length labels)%nat ->
    let tiny := Q2R (1 # 10 ^ 100) in
    (nth i scores 0 =
      exp (Q2R (w_overlooked w) * ln (tiny + soft_average (numbers (nth i (compute_overlooked_box_scores dist (9 # 10) (95 # 100) labels predictions) [])))
         + Q2R (w_badloc w) * ln (tiny + soft_average (map Q2R (nth i (compute_badloc_box_scores dist (9 # 10) (1 # 2) labels predictions) [])))
         + Q2R (w_swap w) * ln (tiny + soft_average (map Q2R (nth i (compute_swap_box_scores dist (9 # 10) (95 # 100) check labels predictions) [])))))%R.
Proof. exact score_formula. Qed.
Print Assumptions C53_formula.
