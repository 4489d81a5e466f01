(** * Vocabulary for C92 *)
From Coq Require Import QArith List.
From Verif Require Import Base ModelFilter.

(** the two calls of find_label_issues agree in every option but [frac_noise] *)
Definition same_but_frac (o o' : options) : Prop :=
  num_to_remove_per_class o = num_to_remove_per_class o' /\
  min_examples_per_class o = min_examples_per_class o' /\ confident_joint o = confident_joint o' /\
  n_jobs o = n_jobs o' /\ sched_c o = sched_c o' /\ sched_n o = sched_n o'.
