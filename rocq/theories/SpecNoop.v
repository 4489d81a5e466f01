(** * Vocabulary for C182: the same keyword arguments with another confident joint *)
From Coq Require Import QArith List.
From Verif Require Import Base ModelFilter.
Import ListNotations.

Definition with_cj (o : options) (cj : option (list (list Q))) : options :=
  {| frac_noise := frac_noise o; num_to_remove_per_class := num_to_remove_per_class o;
     min_examples_per_class := min_examples_per_class o; confident_joint := cj;
     n_jobs := n_jobs o; sched_c := sched_c o; sched_n := sched_n o |}.
