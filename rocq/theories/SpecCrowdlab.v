(** * Vocabulary for what CROWDLAB computes (C153) *)
From Coq Require Import QArith List Bool Arith.
From Verif Require Import Base ModelMultiannotator SpecCount SpecMultiannotator.
Import ListNotations.
Open Scope Q_scope.

(** the labels given to an example; those given by the annotators other than [j] *)
Definition labels_of (r : row) : list nat := labels_in [r].
Definition others (j : nat) (r : row) : row := firstn j r ++ skipn (S j) r.
(** one entry per label another annotator gave to an example annotator [j] labelled: 1 if it is the label [j] gave *)
Definition meetings (t : list row) (j : nat) : list Q :=
  flat_map (fun r => match nth j r None with
                     | None => []
                     | Some l => map (fun l' => if Nat.eqb l' l then 1 else 0) (labels_of (others j r))
                     end) t.
(** how often the other annotators agree with [j]; who never met anyone gets the average of those who did *)
Definition agreement_rates (M : nat) (t : list row) (rate : nat -> Q) : Prop :=
  forall j, (j < M)%nat ->
    (meetings t j <> [] -> is_average (meetings t j) (rate j)) /\
    (meetings t j = [] -> is_average (map rate (filter (fun i => negb (Nat.eqb (length (meetings t i)) 0)) (seq 0 M))) (rate j)).
(** the examples with several labels *)
Definition overlap (t : list row) : list nat :=
  filter (fun i => Nat.leb 2 (length (labels_of (nth i t [])))) (seq 0 (length t)).
(** over those: the average share of the labels equal to the consensus *)
Definition consensus_rate (t : list row) (c : list nat) (cl : Q) : Prop :=
  is_average (map (fun i => Qnat (votes (nth i t []) (nth i c 0%nat)) / Qnat (length (labels_of (nth i t [])))) (overlap t)) cl.
(** the share of those whose consensus label is not [g i], at least 1e-6 where it is used as a denominator *)
Definition error_rate (t : list row) (c : list nat) (g : nat -> nat) (e : Q) : Prop :=
  is_average (map (fun i => if Nat.eqb (g i) (nth i c 0%nat) then 0 else 1) (overlap t)) e.
(** the class that is the consensus most often among those *)
Definition commonest (K : nat) (t : list row) (c : list nat) (m : nat) : Prop :=
  (m < K)%nat /\ forall k, (k < K)%nat -> (count k (map (fun i => nth i c 0) (overlap t)) <= count m (map (fun i => nth i c 0) (overlap t)))%nat.
(** the weights of the annotators who labelled the example *)
Definition weight_present (w : nat -> Q) (r : row) : Q :=
  qsum (map (fun j => match nth j r None with Some _ => w j | None => 0 end) (seq 0 (length r))).
(** their votes for class [k]: a label counts [cl] for its class and [ncl] for every other *)
Definition vote_sum (w : nat -> Q) (cl ncl : Q) (r : row) (k : nat) : Q :=
  qsum (map (fun j => match nth j r None with Some l => w j * (if Nat.eqb l k then cl else ncl) | None => 0 end) (seq 0 (length r))).
(** the average number of labels per example *)
Definition labels_per_example (t : list row) (a : Q) : Prop := is_average (map (fun r => Qnat (length (labels_of r))) t) a.
(** the posterior probabilities of the labels annotator [j] gave *)
Definition own_posteriors (t : list row) (pp : list (list Q)) (j : nat) : list Q :=
  flat_map (fun i => match nth j (nth i t []) None with Some l => [nth l (nth i pp []) 0] | None => [] end) (seq 0 (length t)).
(** over the examples with several labels which [j] labelled: 1 where [j] gave the consensus label *)
Definition own_agreements (t : list row) (c : list nat) (j : nat) : list Q :=
  flat_map (fun i => match nth j (nth i t []) None with Some l => [if Nat.eqb l (nth i c 0%nat) then 1 else 0] | None => [] end) (overlap t).

(** everything [get_label_quality_multiannotator] returns besides the consensus labels themselves *)
Definition crowdlab_facts (fsqrt : Q -> Q) (t : list row) (M K : nat) (priors : list (list (list Q))) (info : consensus_info) : Prop :=
  let c := c_label info in
  let aw := annot_weights (c_post info) in let mw := model_weights (c_post info) in let pp := post (c_post info) in
  exists rate cl m e0 avg,
    agreement_rates M t rate /\ consensus_rate t c cl /\ commonest K t c m /\ error_rate t c (fun _ => m) e0 /\ labels_per_example t avg /\
    let e := qmax e0 (1 # 1000000) in
    length aw = M /\ (forall j, (j < M)%nat -> nth j aw 0 == qmax (1 - (1 - rate j) / e) (1 # 1000000)) /\
    length mw = length priors /\
    (forall a, (a < length priors)%nat -> exists ea, error_rate t c (fun i => argmax (nth i (nth a priors []) [])) ea /\
       nth a mw 0 == qmax (1 - ea / e) (1 # 1000000) * fsqrt avg) /\
    (forall i k, (i < length t)%nat -> (k < K)%nat ->
       nth k (nth i pp []) 0 ==
       (qsum (map (fun a => nth a mw 0 * nth k (nth i (nth a priors []) []) 0) (seq 0 (length priors)))
        + vote_sum (fun j => nth j aw 0) cl ((1 - cl) / (Qnat K - 1)) (nth i t []) k)
       / (weight_present (fun j => nth j aw 0) (nth i t []) + qsum mw)) /\
    (forall i, (i < length t)%nat -> nth i (c_quality info) 0 == nth (nth i c 0%nat) (nth i pp []) 0).

(** the quality of annotator [j]: the average posterior of their labels and how often they agree with the consensus where others labelled too, weighted *)
Definition annotator_facts (t : list row) (info : consensus_info) (j : nat) : Prop :=
  let mw := qsum (model_weights (c_post info)) in let aw := annot_weights (c_post info) in
  match st_quality (annotator_stats t info j) with
  | None => own_agreements t (c_label info) j = []
  | Some q => exists lq a avg, is_average (own_posteriors t (post (c_post info)) j) lq /\ is_average (own_agreements t (c_label info) j) a /\
      labels_per_example t avg /\
      let v := mw / (mw + qsum aw * (avg / Qnat (length aw))) in q == v * lq + (1 - v) * a
  end.
(** the scores of active learning from the quality [q] of the consensus, the weight [mw] of the model and those of the annotators *)
Definition active_facts (t : list row) (K : nat) (unl : list (list Q)) (q : list Q) (mw : Q) (aw : list Q) (s u : list Q) : Prop :=
  exists avg, is_average aw avg /\ length s = length t /\ length u = length unl /\
    (forall i, (i < length t)%nat -> let w := weight_present (fun j => nth j aw 0) (nth i t []) + mw in
       nth i s 0 == (w * nth i q 0 + avg * (1 / Qnat K)) / (w + avg)) /\
    (forall i, (i < length unl)%nat -> nth i u 0 == (mw * qmaximum (nth i unl []) + avg * (1 / Qnat K)) / (mw + avg)).
