(** * Property C148: repeating the checks of a Datalab, and their order *)
From Coq Require Import QArith List Bool Arith Permutation.
From Verif Require Import Base BaseFacts ModelKnn ModelGraph SpecGraph ModelOutlier ModelOutlierCheck ProofRerun SpecRerun SpecKnn.
Import ListNotations.
Open Scope nat_scope.

(** Several checks on the same features, the first of which asks for the largest number of neighbours: doing all of them
    again, any number of times, gives each of them the same graph and leaves the same statistics *)
Theorem C148_rerun E B rest f mo c a cs G st1 n : same_inputs f mo ((c, a) :: cs) -> at_most (a_k a) cs ->
  run_check E B rest c a empty_store = Ok (Some G, st1) ->
  run_checks E B rest (again (S n) ((c, a) :: cs)) empty_store =
  (again (S n) (fst (run_checks E B rest ((c, a) :: cs) empty_store)), snd (run_checks E B rest ((c, a) :: cs) empty_store)).
Proof. exact (rerun E B rest f mo c a cs G st1 n). Qed.
Print Assumptions C148_rerun.

(** ... and the order of the other checks does not matter *)
Theorem C148_order E B rest f mo c a cs cs' G st1 : same_inputs f mo ((c, a) :: cs) -> at_most (a_k a) cs -> Permutation cs cs' ->
  run_check E B rest c a empty_store = Ok (Some G, st1) ->
  snd (run_checks E B rest ((c, a) :: cs') empty_store) = snd (run_checks E B rest ((c, a) :: cs) empty_store) /\
  Permutation (combine cs (tl (fst (run_checks E B rest ((c, a) :: cs) empty_store))))
              (combine cs' (tl (fst (run_checks E B rest ((c, a) :: cs') empty_store)))).
Proof. exact (any_order E B rest f mo c a cs cs' G st1). Qed.
Print Assumptions C148_order.

(** ... nor which other checks are done *)
Theorem C148_alone E B rest f mo c a cs G st1 i c' a' : same_inputs f mo ((c, a) :: cs) -> at_most (a_k a) cs ->
  run_check E B rest c a empty_store = Ok (Some G, st1) -> nth_error cs i = Some (c', a') ->
  nth_error (fst (run_checks E B rest ((c, a) :: cs) empty_store)) (S i) =
  nth_error (fst (run_checks E B rest [(c, a); (c', a')] empty_store)) 1.
Proof. exact (alone E B rest f mo c a cs G st1 i c' a'). Qed.
Print Assumptions C148_alone.

(** ** What happens otherwise *)
Definition C148_env := concrete_env argsort_ins.
Definition C148_rows : feats := Feats [[0]; [1]; [2]; [3]; [4]; [5]; [6]; [7]; [100]; [101]]%Q 1.
Definition C148_args k : args := Args k None (Some C148_rows) None None false.
Definition C148_fine (c : check) (a : args) (g : option (graph * nat)) : bool := true.
(** the flags of an outlier check working on a graph *)
Definition C148_flags (r : option (res (option (graph * nat)))) : option (list bool) :=
  match r with
  | Some (Ok (Some g)) => match threshold_and_issue_column argsort_ins (fst (fst g)) None with Ok t => Some (snd t) | Raise _ => None end
  | _ => None
  end.
(** An outlier check with few neighbours followed by a near-duplicate check with more: doing both again flags other
    outliers, because the second outlier check finds the larger graph stored *)
Theorem C148_more_neighbors_refuted :
  let cs := [(Outlier, C148_args 1); (NearDuplicate, C148_args 2)] in
  let first := run_checks C148_env line_backend C148_fine cs empty_store in
  let second := run_checks C148_env line_backend C148_fine cs (snd first) in
  C148_flags (nth_error (fst first) 0) = Some [false; false; false; false; false; false; false; false; false; false] /\
  C148_flags (nth_error (fst second) 0) = Some [false; false; false; false; false; false; false; false; true; true].
Proof. split; vm_compute; reflexivity. Qed.
Print Assumptions C148_more_neighbors_refuted.
(** ... and asking for the near-duplicate check first flags other outliers, too *)
Theorem C148_order_refuted :
  let first := run_checks C148_env line_backend C148_fine [(Outlier, C148_args 1); (NearDuplicate, C148_args 2)] empty_store in
  let other := run_checks C148_env line_backend C148_fine [(NearDuplicate, C148_args 2); (Outlier, C148_args 1)] empty_store in
  C148_flags (nth_error (fst first) 0) <> C148_flags (nth_error (fst other) 1).
Proof. vm_compute. discriminate. Qed.
Print Assumptions C148_order_refuted.

(** ** A concrete case *)
Example C148_example : exists G st,
  let cs := [(NonIid, C148_args 1); (Outlier, C148_args 2)] in
  same_inputs C148_rows None ((NearDuplicate, C148_args 2) :: cs) /\ at_most 2 cs /\
  run_check C148_env line_backend C148_fine NearDuplicate (C148_args 2) empty_store = Ok (Some G, st) /\
  C148_flags (nth_error (fst (run_checks C148_env line_backend C148_fine ((NearDuplicate, C148_args 2) :: cs) empty_store)) 2) =
    Some [false; false; false; false; false; false; false; false; true; true].
Proof.
  do 2 eexists. cbv zeta. split; [|split; [|split; [vm_compute; reflexivity|vm_compute; reflexivity]]].
  - intros c a [H|[H|[H|[]]]]; injection H as <- <-; auto.
  - intros c a [H|[H|[]]]; injection H as <- <-; cbn; auto.
Qed.
