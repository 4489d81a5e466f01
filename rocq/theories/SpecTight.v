(** * Vocabulary of PropTight2 *)
From Coq Require Import QArith Qreals Reals List.
From Verif Require Import Base ModelEntropy ModelDetection.
Import ListNotations.
Open Scope R_scope.

(** the scores that are numbers *)
Definition numbers (l : list (option Q)) : list R := flat_map (fun o => match o with Some s => [Q2R s] | None => [] end) l.
(** the average in which a score [s] weighs [exp (-10 s)]; 1 when there is nothing to average *)
Definition soft_average (l : list R) : R :=
  match l with [] => 1 | _ => rsum (map (fun s => exp (-10 * s) * s) l) / rsum (map (fun s => exp (-10 * s)) l) end.
