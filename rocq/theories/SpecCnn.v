(** * Vocabulary for the CNN wrapper (C125, C126) *)
From Coq Require Import String List.
From Verif Require Import ModelCnn.
(** the data a call works on: those of the object, if it was created for some, otherwise those named in the call *)
Definition in_use {W} (o : @cnn W) (loader : option string) : option string :=
  match loader_of o with Some l => Some l | None => loader end.
Definition dataset_of {W} (o : @cnn W) (loader : string) : string :=
  match loader_of o with Some l => l | None => loader end.
