(** * Pooling of box scores as a public function *)
From Coq Require Import QArith Reals List.
From Verif Require Import Base ModelDetection.
Import ListNotations.

(** object_detection/rank.py:976-1014 [pool_box_scores_per_image]: one score per image; the default temperature is
    that of rank.py:522-537 [_get_valid_subtype_score_params] *)
Definition pool_box_scores_per_image (temperature : option Q) (box_scores : list (list (option Q))) : list R :=
  let t := match temperature with Some t => t | None => TEMPERATURE end in
  map (valid_score (Q2R t)) box_scores.
