(** * C97 and C98: temperature scaling of predicted probabilities *)
From Coq Require Import Reals List Bool Arith Lia Lra.
From Verif Require Import Base ModelMultiannotator ModelAgreement ModelOutlier ModelTemperature SpecMultiannotator SpecAgreement SpecTemperature ProofTemperature.
Import ListNotations.
Open Scope R_scope.

(** C97: scaling an arbitrary row with an arbitrary temperature gives a distribution without zeros. *)
Theorem C97_distribution : forall temp row, row <> [] ->
  length (temp_scale_row temp row) = length row /\
  (forall x, In x (temp_scale_row temp row) -> 0 < x <= 1) /\
  total (temp_scale_row temp row) = 1.
Proof. exact (fun temp row H => scaled_dist row H temp). Qed.

(** C97: the order of the classes never changes; a strictly larger probability stays strictly larger (if above 1e-30). *)
Theorem C97_order : forall temp row i j, (i < length row)%nat -> (j < length row)%nat ->
  (nth i row 0 <= nth j row 0 -> nth i (temp_scale_row temp row) 0 <= nth j (temp_scale_row temp row) 0) /\
  (nth i row 0 < nth j row 0 -> / 10 ^ 30 < nth j row 0 -> nth i (temp_scale_row temp row) 0 < nth j (temp_scale_row temp row) 0).
Proof.
  intros temp row i j Hi Hj. assert (H : row <> []) by (destruct row; [simpl in Hi; lia|discriminate]).
  exact (conj (scaled_le row H temp i j Hi Hj) (scaled_lt row H temp i j Hi Hj)).
Qed.

(** C97: temperature 1 changes nothing. *)
Theorem C97_identity : forall K row, prob_row K row -> (1 <= K)%nat -> (forall x, In x row -> / 10 ^ 30 <= x) -> temp_scale_row 1 row = row.
Proof.
  intros K row (L & _ & S) HK Hx. assert (H : row <> []) by (destruct row; [simpl in L; lia|discriminate]).
  exact (scaled_identity row H 1 eq_refl Hx S).
Qed.

(** C97: the confidence in the top class decreases with the temperature. *)
Theorem C97_confidence : forall row temp temp' j, top_class row j -> / 1000000 <= temp -> temp <= temp' ->
  nth j (temp_scale_row temp' row) 0 <= nth j (temp_scale_row temp row) 0.
Proof. exact sharpen_full. Qed.

(** C97: temperatures below 1 sharpen, those above 1 smooth. *)
Theorem C97_sharpen_smooth : forall row temp j, prob_row (length row) row -> (forall x, In x row -> / 10 ^ 30 <= x) -> top_class row j ->
  / 1000000 <= temp ->
  (temp <= 1 -> nth j row 0 <= nth j (temp_scale_row temp row) 0) /\
  (1 <= temp -> nth j (temp_scale_row temp row) 0 <= nth j row 0).
Proof. exact relative_full. Qed.

(** every row of a matrix is scaled by itself *)
Theorem C97_rows : forall pred_probs temp i, (i < length pred_probs)%nat ->
  length (temp_scale_pred_probs pred_probs temp) = length pred_probs /\
  nth i (temp_scale_pred_probs pred_probs temp) [] = temp_scale_row temp (nth i pred_probs []).
Proof. exact rows_full. Qed.

Example C97_example : top_class [3 / 10; 6 / 10; 1 / 10] 1 /\ prob_row 3 [3 / 10; 6 / 10; 1 / 10] /\
  forall x, In x [3 / 10; 6 / 10; 1 / 10] -> / 10 ^ 30 <= x.
Proof.
  split; [split; [simpl; lia|]|split; [split; [reflexivity|split; [|unfold total; simpl; lra]]|]].
  - intros [|[|[|i]]] H; simpl in *; try lra; lia.
  - intros x [<-|[<-|[<-|[]]]]; lra.
  - assert (/ 10 ^ 30 <= / 10) by (apply Rinv_le_contravar; simpl; lra). intros x [<-|[<-|[<-|[]]]]; lra.
Qed.
(** the temperature 1/2 squares the probabilities *)
Example C97_example_half : nth 0 (temp_scale_row (/ 2) [3 / 4; 1 / 4]) 0 = 9 / 10.
Proof. exact half_example. Qed.

(** C98 (partial): the temperature found lies in the searched range, and no searched temperature has a lower average cross entropy --
    provided the annotators' labels are counted correctly (integers, or no gaps), and unless the last coarse temperature is
    the best; then the temperature found is below it.  Missing: see the two refutations. *)
Theorem C98_best_partial : forall ty M K t pp coarse n,
  ty = Integers \/ (forall r, In r t -> no_gaps r) ->
  annotations M K t -> length pp = length t -> (forall p, In p pp -> prob_row K p) ->
  temperatures coarse -> (2 <= length coarse)%nat -> (1 <= n)%nat ->
  exists T, find_best_temp_scaler ty t K pp coarse n = Ok T /\
    nth 0 coarse 0 <= T <= nth (length coarse - 1) coarse 0 /\
    let cost := mean_cross_entropy K t pp in
    ((forall c, In c coarse -> cost T <= cost c) \/
     ((forall j, (j < length coarse - 1)%nat -> cost (nth (length coarse - 1) coarse 0) < cost (nth j coarse 0)) /\
      nth (length coarse - 2) coarse 0 <= T < nth (length coarse - 1) coarse 0)) /\
    exists i, (i < length coarse)%nat /\ (forall c, In c coarse -> cost (nth i coarse 0) <= cost c) /\
      (forall m, (0 < i)%nat -> (m < n)%nat -> cost T <= cost (nth (i - 1) coarse 0 + INR m / INR n * (nth i coarse 0 - nth (i - 1) coarse 0))) /\
      (forall m, (i < length coarse - 1)%nat -> (m <= n)%nat -> cost T <= cost (nth i coarse 0 + INR m / INR n * (nth (i + 1) coarse 0 - nth i coarse 0))).
Proof. exact search_full. Qed.

(** C98 (partial), with the default arguments: the coarse temperatures are 0.1, 0.2, 0.5, 0.8, 1, 2, 3, 5 and 8 *)
Theorem C98_default_partial : forall ty M K t pp,
  ty = Integers \/ (forall r, In r t -> no_gaps r) ->
  annotations M K t -> length pp = length t -> (forall p, In p pp -> prob_row K p) ->
  exists T, find_best_temp_scaler ty t K pp default_search 4 = Ok T /\ / 10 <= T <= 8 /\
    let cost := mean_cross_entropy K t pp in
    ((forall c, In c [/ 10; / 5; / 2; 4 / 5; 1; 2; 3; 5; 8] -> cost T <= cost c) \/
     ((forall c, In c [/ 10; / 5; / 2; 4 / 5; 1; 2; 3; 5] -> cost 8 < cost c) /\ 5 <= T < 8)).
Proof. exact default_full. Qed.

(** C98 refuted, 1: with the default arguments the best coarse temperature 8 cannot be returned. *)
Theorem C98_last_refuted : exists t pp T,
  annotations 2 2 t /\ length pp = length t /\ (forall p, In p pp -> prob_row 2 p) /\
  find_best_temp_scaler Integers t 2 pp default_search 4 = Ok T /\
  In 8 default_search /\ mean_cross_entropy 2 t pp 8 < mean_cross_entropy 2 t pp T.
Proof.
  exists split_table, split_pred, (29 / 4). destruct split_result as (A & B).
  assert (I : In 8 default_search) by (unfold default_search; cbn [In]; do 8 right; left; reflexivity).
  exact (conj split_annotations (conj eq_refl (conj split_prob (conj A (conj I B))))).
Qed.

(** C98 refuted, 2: two annotators agree with a confident prediction of class 2.  With integer labels the predictions are sharpened;
    with the same labels as floats they are flattened, which is worse than leaving them alone. *)
Theorem C98_floats_refuted : exists t pp,
  annotations 2 3 t /\ length pp = length t /\ (forall p, In p pp -> prob_row 3 p) /\
  find_best_temp_scaler Integers t 3 pp default_search 4 = Ok (/ 10) /\
  find_best_temp_scaler Floats t 3 pp default_search 4 = Ok (29 / 4) /\
  mean_cross_entropy 3 t pp 1 < mean_cross_entropy 3 t pp (29 / 4).
Proof.
  exists (agree_table 2), sure_pred.
  exact (conj (agree_annotations 2 ltac:(lia)) (conj eq_refl (conj sure_prob agree_result))).
Qed.

Example C98_example : temperatures default_search /\ annotations 2 2 split_table /\ forall p, In p split_pred -> prob_row 2 p.
Proof. exact (conj default_temperatures (conj split_annotations split_prob)). Qed.

Print Assumptions C97_distribution.
Print Assumptions C97_order.
Print Assumptions C97_identity.
Print Assumptions C97_confidence.
Print Assumptions C97_sharpen_smooth.
Print Assumptions C97_rows.
Print Assumptions C98_best_partial.
Print Assumptions C98_last_refuted.
Print Assumptions C98_floats_refuted.
