(** * Model of multiannotator.get_active_learning_scores_ensemble and of the calibration in get_label_quality_multiannotator_ensemble

    Both functions assign to [pred_probs[i]], that is to the arrays of the caller, so arrays live in a heap and are passed by reference (an index into the
    heap); two arguments may be the same array.  Overlapping views of one array are not modelled.  Finding the temperature (modelled in ModelTemperature) and
    scaling with it are arguments [best] and [scale]; [one] is the temperature 1.0.  Types, dimensions, printing and warnings are not modelled. *)
From Coq Require Import QArith List ZArith Bool Arith.
From Verif Require Import Base ModelUtil ModelCount ModelRank ModelMultiannotator.
Import ListNotations.
Open Scope Q_scope.

(** a numpy array of shape (P, N, K): the matrices of the P models; N and K are known even when P = 0 *)
Record array := mk_array { a_models : list (list (list Q)); a_N : nat; a_K : nat }.
Definition heap := list array.
Definition empty_array : array := mk_array [] 0 0.
Definition load (h : heap) (r : nat) : array := nth r h empty_array.
Definition set_nth {A} (i : nat) (x : A) (l : list A) : list A := firstn i l ++ match skipn i l with [] => [] | _ :: t => x :: t end.
(** [a[i] = m] for the array [r] *)
Definition store_model (h : heap) (r i : nat) (m : list (list Q)) : heap :=
  let a := load h r in set_nth r (mk_array (set_nth i m (a_models a)) (a_N a) (a_K a)) h.

(** computations which may change the heap and may raise *)
Definition st (A : Type) : Type := heap -> heap * res A.
Definition ret {A} (x : A) : st A := fun h => (h, Ok x).
Definition fail {A} (e : exn) : st A := fun h => (h, Raise e).
Definition bind {A B} (m : st A) (f : A -> st B) : st B :=
  fun h => match m h with (h', Ok x) => f x h' | (h', Raise e) => (h', Raise e) end.
Definition lift_res {A} (r : res A) : st A := fun h => (h, r).
Definition read (r : nat) : st array := fun h => (h, Ok (load h r)).
Definition write (r i : nat) (m : list (list Q)) : st unit := fun h => (store_model h r i m, Ok tt).

Section Active.
Context {T : Type} (one : T) (best : table -> list (list Q) -> res T) (scale : T -> list (list Q) -> list (list Q)).
Context (fsqrt : Q -> Q) (rnd rnd' : nat -> nat).

(** multiannotator.py:820-824 (and 436-439): calibrate the models [is] of array [r] in place, collect the temperatures *)
Fixpoint calibrate (t : table) (r : nat) (is : list nat) : st (list T) :=
  match is with
  | [] => ret []
  | i :: is' =>
      bind (read r) (fun a =>
      bind (lift_res (best t (nth i (a_models a) []))) (fun temp =>
      bind (write r i (scale temp (nth i (a_models a) []))) (fun _ =>
      bind (calibrate t r is') (fun temps => ret (temp :: temps)))))
  end.
(** lines 867-870: scale the models [is] of the unlabelled array with the temperatures found on the labelled data *)
Fixpoint rescale (temps : list T) (r : nat) (is : list nat) : st unit :=
  match is with
  | [] => ret tt
  | i :: is' =>
      match nth_error temps i with
      | None => fail IndexError
      | Some temp => bind (read r) (fun a => bind (write r i (scale temp (nth i (a_models a) []))) (fun _ => rescale temps r is'))
      end
  end.

(** internal/multiannotator_utils.py:128-187 [assert_valid_pred_probs] with ensemble=True *)
Definition assert_valid_pred_probs (pp ppu : option nat) (h : heap) : res unit :=
  match pp, ppu with
  | None, None => Raise ValueError
  | Some r, Some u => if Nat.eqb (a_K (load h r)) (a_K (load h u)) then Ok tt else Raise ValueError
  | _, _ => Ok tt
  end.

(** lines 415-490 [get_label_quality_multiannotator_ensemble]: the check of the number of examples, then calibration if asked for, then
    [label_quality_core] *)
Definition label_quality_ensemble (t : table) (M : nat) (calibrate_probs : bool) (r : nat) : st consensus_info :=
  bind (read r) (fun a =>
  bind (lift_res (assert_valid_multiannotator t M (Some (a_N a, a_K a)) false)) (fun _ =>
  bind (if calibrate_probs then calibrate t r (seq 0 (length (a_models a))) else ret []) (fun _ =>
  bind (read r) (fun a' => lift_res (get_label_quality_multiannotator_ensemble fsqrt rnd t M (a_K a') (a_models a')))))).

(** what the labelled half (lines 772-851) leaves for the unlabelled half *)
Record weights := mk_weights { w_K : nat; w_temps : list T; w_models : list Q; w_avg : Q; w_scores : list Q }.

(** lines 773-851 *)
Definition labelled_half (t : table) (M r : nat) : st weights :=
  bind (read r) (fun a =>
  match a_models a with
  | [] => fail IndexError                                            (* pred_probs[0], line 796 *)
  | _ :: _ =>
    let K := a_K a in let P := length (a_models a) in
    bind (if forallb (fun row => Nat.eqb (num_annotations row) 1) t then
            bind (lift_res (assert_valid_multiannotator t M (Some (a_N a, K)) true)) (fun _ =>
            let avg := average_priors (a_N a) K (a_models a) in
            bind (lift_res (get_majority_vote_label rnd t M (Some avg) K false)) (fun c =>
            bind (lift_res (get_label_quality_scores c avg K SelfConfidence false)) (fun q =>
            ret (repeat one P, q, repeat 1 P, repeat 1 M))))
          else
            bind (calibrate t r (seq 0 P)) (fun temps =>
            bind (label_quality_ensemble t M false r) (fun info =>
            ret (temps, c_quality info, model_weights (c_post info), annot_weights (c_post info)))))
         (fun x => let '(temps, q, mw, aw) := x in
          ret (mk_weights K temps mw (qmean aw)
                 (map (fun qr => active_score K aw (qsum mw) (qmean aw) (fst qr) (snd qr)) (combine q t))))
  end).

(** lines 873-892 for the calibrated matrices [ms] of the unlabelled examples *)
Definition model_votes (N : nat) (ms : list (list (list Q))) : table := tab N (fun i => map (fun m => Some (argmax (nth i m []))) ms).
Definition modified_probs (N K : nat) (ms : list (list (list Q))) (mw : list Q) (avg : Q) : list (list Q) :=
  tab N (fun i => tab K (fun k => waverage (map (fun m => mget m i k) ms ++ [1 / Qnat K]) (mw ++ [avg]))).
Definition unlabelled_scores (w : weights) (a : array) : res (list Q) :=
  let ms := a_models a in
  if Nat.eqb (a_K a) 0 then Raise ValueError                          (* argmax of an empty sequence *)
  else
  do c <- get_majority_vote_label rnd' (model_votes (a_N a) ms) (length ms) (Some (average_priors (a_N a) (a_K a) ms)) (a_K a) true ;
  if negb (Nat.eqb (length ms) (length (w_models w))) then Raise ValueError    (* np.average: weights of another length *)
  else get_label_quality_scores c (modified_probs (a_N a) (a_K a) ms (w_models w) (w_avg w)) (a_K a) SelfConfidence false.

(** lines 729-894 [get_active_learning_scores_ensemble] *)
Definition active_ensemble (t : option table) (M : nat) (pp ppu : option nat) : st (list Q * list Q) :=
  bind (fun h => (h, assert_valid_pred_probs pp ppu h)) (fun _ =>
  bind (match pp, ppu with
        | Some r, _ => match t with None => fail ValueError | Some t => labelled_half t M r end
        | None, Some u =>
            bind (read u) (fun a => match a_models a with
                                    | [] => fail IndexError
                                    | _ :: _ => let P := length (a_models a) in ret (mk_weights (a_K a) (repeat one P) (repeat 1 P) 1 [])
                                    end)
        | None, None => fail ValueError
        end) (fun w =>
  match ppu with
  | None => ret (w_scores w, [])
  | Some u =>
      bind (read u) (fun a =>
      bind (rescale (w_temps w) u (seq 0 (length (a_models a)))) (fun _ =>
      bind (read u) (fun a' =>
      bind (lift_res (unlabelled_scores w a')) (fun s => ret (w_scores w, s)))))
  end)).
End Active.
