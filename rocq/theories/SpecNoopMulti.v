(** * Vocabulary for C182, multi-label data *)
From Coq Require Import QArith List.
From Verif Require Import Base ModelMultilabel.
Import ListNotations.

Definition ml_with_cj (o : ml_options) (cj : option (list (list (list Q)))) : ml_options :=
  {| ml_frac_noise := ml_frac_noise o; ml_num_to_remove := ml_num_to_remove o; ml_min_examples := ml_min_examples o;
     ml_confident_joint := cj; ml_n_jobs := ml_n_jobs o; ml_sched := ml_sched o |}.
