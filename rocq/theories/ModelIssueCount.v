(** * Model of cleanlab/count.py [num_label_issues]: the choice of estimation method (C91) *)
From Coq Require Import QArith List ZArith Bool Arith.
From Verif Require Import Base ModelUtil ModelCount ModelFilter.
Import ListNotations.
Open Scope Q_scope.

(** cleanlab/count.py:35-39 [valid_methods]; any other string is [OtherMethod]. *)
Inductive estimation_method : Set :=
| OffDiagonal | OffDiagonalCalibrated | OffDiagonalCustom | OtherMethod.

(** cleanlab/count.py:107-173 [num_label_issues], single-label ([multi_label=False]; the multi-label
    branch is modelled in ModelMultilabel).  Lines 117-123 (a confident joint passed together with a
    method that does not use it) only log a warning.  [confident_joint=None] stands for anything that
    is not an array.  The methods based on a joint end in [np.rint(..).astype(int)]. *)
Definition num_label_issues_method (srt : list Q -> list nat) (labels : list nat)
           (pred_probs : list (list Q)) (K : nat) (confident_joint : option (list (list Q)))
           (m : estimation_method) : res Z :=
  do _ <- assert_valid_inputs labels pred_probs K false ;
  match m with
  | OffDiagonal => do n <- num_label_issues_off_diagonal srt labels pred_probs K ; Ok (Z.of_nat n)
  | OffDiagonalCalibrated => num_label_issues_from_joint srt labels pred_probs K None
  | OffDiagonalCustom =>
      match confident_joint with
      | None => Raise ValueError
      | Some c => num_label_issues_from_joint srt labels pred_probs K (Some c)
      end
  | OtherMethod => Raise ValueError
  end.
