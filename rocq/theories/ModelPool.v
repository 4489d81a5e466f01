(** * Model of multiprocessing.Pool.map / imap with a chunk size (Python standard library) as it is used
    in cleanlab/filter.py:381-390, 404-413 and cleanlab/experimental/label_issues_batched.py.

    The task list is cut into consecutive chunks put on a queue; an idle worker takes the next chunk, a
    busy worker finishes its chunk and its results are stored by the parent at the position of the chunk.
    A schedule is any list of worker numbers: at each step that worker makes its next move.  The workers
    only read the arguments (they are forked processes), so a task's result is a function of its
    argument. *)
From Coq Require Import List Arith Bool.
From Verif Require Import Base.
Import ListNotations.

Section Pool.
Context {A B : Type} (f : A -> B).

(** cut into chunks of [c] (c >= 1); [fuel] = length suffices. *)
Fixpoint chunks_aux (fuel c : nat) (l : list A) : list (list A) :=
  match fuel with
  | O => []
  | S fuel' => match l with [] => [] | _ => firstn c l :: chunks_aux fuel' c (skipn c l) end
  end.
Definition chunks (c : nat) (l : list A) : list (list A) := chunks_aux (length l) c l.

(** [queue]: chunks not yet taken, with their numbers; [busy]: what each worker is doing;
    [done]: results delivered, by chunk number. *)
Record pool_state := { queue : list (nat * list A);
                       busy : list (option (nat * list A));
                       done : list (nat * list B) }.

Definition pool_init (workers c : nat) (args : list A) : pool_state :=
  let cs := chunks c args in
  {| queue := combine (seq 0 (length cs)) cs; busy := repeat None workers; done := [] |}.

Definition pool_step (s : pool_state) (w : nat) : pool_state :=
  match nth_error (busy s) w with
  | None => s                                              (* no such worker *)
  | Some None =>
      match queue s with
      | [] => s
      | ch :: q => {| queue := q; busy := upd (busy s) w (Some ch); done := done s |}
      end
  | Some (Some (i, ch)) =>
      {| queue := queue s; busy := upd (busy s) w None; done := (i, map f ch) :: done s |}
  end.

Definition pool_finished (s : pool_state) : bool :=
  match queue s with
  | [] => forallb (fun b => match b with None => true | Some _ => false end) (busy s)
  | _ => false
  end.

(** the parent reads the results back by chunk number. *)
Fixpoint lookup_chunk (i : nat) (d : list (nat * list B)) : list B :=
  match d with
  | [] => []
  | (j, r) :: t => if Nat.eqb i j then r else lookup_chunk i t
  end.

(** [Pool(workers).map(f, args, chunksize=c)] under schedule [sched]; [Diverges]: not finished yet. *)
Definition pool_map (workers c : nat) (sched : list nat) (args : list A) : res (list B) :=
  let s := fold_left pool_step sched (pool_init workers c args) in
  if pool_finished s
  then Ok (concat (map (fun i => lookup_chunk i (done s)) (seq 0 (length (chunks c args)))))
  else Raise Diverges.
End Pool.
