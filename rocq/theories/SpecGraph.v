(** * Vocabulary for the shared neighbour graph *)
From Coq Require Import QArith List Bool Arith.
From Verif Require Import Base ModelKnn ModelGraph.
Import ListNotations.

(** all checks get the same features and metric (or none) and no graph *)
Definition same_inputs (f : feats) (mo : option metric) (cs : list (check * args)) : Prop :=
  forall c a, In (c, a) cs -> a_features a = Some f /\ a_graph a = None /\ a_metric a = mo.

(** the graph built from the features [f] for one of the requested numbers of neighbours [ks] *)
Definition built_from E B (f : feats) (mo : option metric) (ks : list nat) (g : graph * nat) (mt : metric) : Prop :=
  exists k, In k ks /\ create_knn_graph E B (Some f) (Some k) mo true = Ok (fst g, snd g, mt).

(** neighbours on a line: the [k] closest other examples by the first feature *)
Definition line_distance (m : metric) (x y : Q) : Q :=
  let d := Qred (if Qle_bool x y then y - x else x - y) in
  match m with OtherM _ => Qred (10 * d) | _ => d end.
Definition line_backend (k : nat) (m : metric) (f : list (list Q)) : graph :=
  let pick i :=
    let others := filter (fun j => negb (Nat.eqb j i)) (seq 0 (length f)) in
    let ds := map (fun j => line_distance m (hd 0%Q (nth i f [])) (hd 0%Q (nth j f []))) others in
    let order := firstn k (argsort_ins ds) in
    (take_idx 0%Q ds order, take_idx 0%nat others order) in
  (map (fun i => fst (pick i)) (seq 0 (length f)), map (fun i => snd (pick i)) (seq 0 (length f))).
