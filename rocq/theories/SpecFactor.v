(** * Specification vocabulary for C180 (independent of the model) *)
From Coq Require Import QArith List.
From Verif Require Import Base.
Import ListNotations.
Open Scope Q_scope.

(** a K x K matrix of numbers that are not negative, whose rows and columns are zero or do not vanish numerically (1e-100) *)
Definition visible (q : Q) : Prop := q == 0 \/ 1 # (10 ^ 100) <= q.
Definition count_matrix (K : nat) (m : list (list Q)) : Prop :=
  length m = K /\ (forall r, In r m -> length r = K) /\ (forall i j, 0 <= mget m i j) /\
  (forall r, In r m -> visible (qsum r)) /\ (forall j, (j < K)%nat -> visible (qsum (col j m))).
(** entry (i, j) of the second matrix is [f i j] times that of the first one *)
Definition times (f : nat -> nat -> Q) (m m' : list (list Q)) : Prop :=
  forall i j, mget m' i j == f i j * mget m i j.

Definition veq (a b : list Q) : Prop := Forall2 Qeq a b.
Definition meq (a b : list (list Q)) : Prop := Forall2 veq a b.
(** both calls raise the same exception, or both return the same three estimates *)
Definition same_latent (r r' : res (list Q * list (list Q) * list (list Q))) : Prop :=
  match r, r' with
  | Ok (py, noise, inverse), Ok (py', noise', inverse') => veq py py' /\ meq noise noise' /\ meq inverse inverse'
  | Raise e, Raise e' => e = e'
  | _, _ => False
  end.
Definition latent_py (r : list Q * list (list Q) * list (list Q)) : list Q := fst (fst r).
Definition latent_noise (r : list Q * list (list Q) * list (list Q)) : list (list Q) := snd (fst r).
Definition latent_inverse (r : list Q * list (list Q) * list (list Q)) : list (list Q) := snd r.
