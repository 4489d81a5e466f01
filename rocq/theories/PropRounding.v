(** * Property C162: sum-preserving rounding gives the closest integers with the required sum *)
From Coq Require Import QArith Qabs List Bool Arith ZArith Lia Lqa.
From Verif Require Import Base BaseFacts ModelUtil ModelCount SpecCount SpecRounding ProofRounding.
Import ListNotations.
Open Scope Q_scope.

(** Whatever [round_preserving_sum] returns, after however many rounds of its loop, is at least as close to the numbers
    as any other integers with the same sum, for every convex cost of an error. *)
Theorem C162_best : forall srt fuel xs zs, argsort_ok srt ->
  round_preserving_sum_fuel srt fuel xs = Ok zs -> best_rounding xs zs.
Proof. exact best_sum. Qed.
Print Assumptions C162_best.

(** In particular the total absolute error, the total squared error and the largest error are as small as possible. *)
Theorem C162_usual_errors : forall xs zs ws, best_rounding xs zs -> length ws = length xs -> zsum ws = zsum zs ->
  rounding_cost Qabs xs zs <= rounding_cost Qabs xs ws /\
  rounding_cost (fun e => e * e) xs zs <= rounding_cost (fun e => e * e) xs ws /\
  forall t, (forall i, (i < length xs)%nat -> Qabs (inject_Z (nth i ws 0%Z) - nth i xs 0) <= t) ->
    forall i, (i < length xs)%nat -> Qabs (inject_Z (nth i zs 0%Z) - nth i xs 0) <= t.
Proof. exact costs_full. Qed.
Print Assumptions C162_usual_errors.

Theorem C162_rows : forall srt m zm, argsort_ok srt ->
  round_preserving_row_totals srt m = Ok zm -> Forall2 best_rounding m zm.
Proof. exact best_rows. Qed.
Print Assumptions C162_rows.

(** Each row of the calibrated confident joint is the closest row of integers to the counts of confident examples
    scaled to the number of examples given that label. *)
Theorem C162_calibrated : forall srt K cj labels zm, argsort_ok srt ->
  length cj = K -> (forall r, In r cj -> length r = K) ->
  (forall r x, In r cj -> In x r -> 0 <= x) ->
  (forall i, (i < K)%nat -> In i labels -> TINY_VALUE <= qsum (nth i cj [])) ->
  labels <> [] -> (forall l, In l labels -> (l < K)%nat) ->
  calibrate_confident_joint srt cj labels = Ok zm ->
  forall i, (i < K)%nat ->
    best_rounding (map (fun x => x * Qnat (n_labelled i labels) / qsum (nth i cj [])) (nth i cj [])) (nth i zm []).
Proof. exact calibrate_best. Qed.
Print Assumptions C162_calibrated.

(** Five numbers of 2/5 have sum 2: two of them are rounded up, and any other way costs at least as much. *)
Example C162_example : round_preserving_sum argsort_ins [2#5; 2#5; 2#5; 2#5; 2#5] = Ok [0; 0; 0; 1; 1]%Z.
Proof. vm_compute. reflexivity. Qed.
Example C162_example_cost :
  rounding_cost Qabs [2#5; 2#5; 2#5; 2#5; 2#5] [0; 0; 0; 1; 1]%Z == 12#5 /\
  rounding_cost Qabs [2#5; 2#5; 2#5; 2#5; 2#5] [0; 0; 0; 0; 2]%Z == 16#5.
Proof. split; vm_compute; reflexivity. Qed.

(** Closeness depends on which entries are changed: changing the entry with the smallest residual would not do. *)
Example C162_not_any_rounding : ~ best_rounding [3#10; 1#10; 6#10] [0; 1; 0]%Z.
Proof.
  intros (_ & H). specialize (H Qabs [0; 0; 1]%Z convex_abs eq_refl eq_refl). vm_compute in H. apply H. reflexivity.
Qed.
