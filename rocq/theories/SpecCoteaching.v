(** * Vocabulary for co-teaching *)
From Coq Require Import QArith List Bool Arith.
From Verif Require Import Base SpecBatchFlags.
Import ListNotations.
Open Scope Q_scope.

(** [v] is the average of the losses of the examples [idx], each counted with its weight *)
Definition weighted_average (losses weights : list Q) (idx : list nat) (v : Q) : Prop :=
  v * qsum (map (fun i => nth i weights 0) idx) == qsum (map (fun i => nth i weights 0 * nth i losses 0) idx).
(** weighted loss of every example *)
Definition weigh (losses weights : list Q) : list Q := tab (length losses) (fun i => nth i weights 0 * nth i losses 0).
