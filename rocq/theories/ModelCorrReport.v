(** * Model of the correlation report of an image audit: cleanlab/datalab/internal/adapter/imagelab.py:186-262 (CorrelationReporter), 265-308
    (ImagelabReporterAdapter) and 413-431 with spurious_correlation.py:18-46

    What is printed is a value: the table of correlated properties and, for each of them, the two images shown.  Drawing the images
    (CorrelationVisualizer) is not modelled. *)
From Coq Require Import String Ascii QArith List Bool Arith.
From Verif Require Import Base ModelDatalab ModelImage.
Import ListNotations.
Open Scope string_scope.
Open Scope list_scope.

(** an entry of [info]: the one of the spurious correlations (table of properties and scores, threshold), or another *)
Inductive entry := ECorr (df : list (string * Q)) (threshold : value) | EOther.

(** [accuracy column]: the mean cross-validated accuracy of the classifier which predicts the labels from this property (spurious_correlation.py:75-79);
    [None]: it raises *)
Fixpoint accuracies (accuracy : list cell -> option Q) (f : frame) : option (list (string * Q)) :=
  match f with
  | [] => Some []
  | c :: r => match accuracy (snd c), accuracies accuracy r with
              | Some a, Some l => Some ((fst c, a) :: l)
              | _, _ => None
              end
  end.
(** imagelab.py:413-431 [handle_spurious_correlations] with spurious_correlation.py:33-46: the scores are collected in a dictionary *)
Definition correlate_images (accuracy : list cell -> option Q) (labels : list nat) (f : frame) (threshold : value) : option entry :=
  match accuracies accuracy f with
  | Some accs => Some (ECorr (dict_update [] (correlations accs labels)) threshold)
  | None => None
  end.

(** [prop.replace("_score", "")]: [skip] characters of an occurrence are still to be dropped *)
Fixpoint drop_score (skip : nat) (s : string) : string :=
  match s with
  | EmptyString => EmptyString
  | String c r =>
      match skip with
      | S k => drop_score k r
      | O => if prefix "_score" s then drop_score 5 r else String c (drop_score 0 r)
      end
  end.
Definition display_name (prop : string) : string := drop_score 0 prop.

(** [Series.idxmin()], [Series.idxmax()]: the first of the smallest (largest) numbers, NaN left out; the value is kept beside the position *)
Definition number (c : cell) : option Q := match c with CFlag b => Some (if b then 1%Q else 0%Q) | CNum q => Some q | CNaN => None end.
Fixpoint extreme (better : Q -> Q -> bool) (i : nat) (best : option (nat * Q)) (col : list cell) : option (nat * Q) :=
  match col with
  | [] => best
  | c :: r =>
      extreme better (S i)
        (match number c, best with
         | None, _ => best
         | Some q, None => Some (i, q)
         | Some q, Some (_, b) => if better q b then Some (i, q) else best
         end) r
  end.
Definition idxmin (col : list cell) : option (nat * Q) := extreme (fun q b => Qltb q b) 0 None col.
Definition idxmax (col : list cell) : option (nat * Q) := extreme (fun q b => Qltb b q) 0 None col.

Record shown := Shown { shown_table : list (string * Q); shown_images : list (string * ((nat * Q) * (nat * Q))) }.

(** imagelab.py:225-235 [_visualize_extremes], [_visualize]: a missing column, and a column without numbers, raise KeyError *)
Definition show_extremes (issues : frame) (prop : string) : res (string * ((nat * Q) * (nat * Q))) :=
  match lookup prop issues with
  | None => Raise KeyError
  | Some col => match idxmin col, idxmax col with
                | Some lo, Some hi => Ok (display_name prop, (lo, hi))
                | _, _ => Raise KeyError
                end
  end.

(** imagelab.py:192-223 and 265-308: [None]: nothing is printed.  The exception of the constructor is swallowed by the adapter; a threshold which is not a
    number cannot be compared. *)
Definition correlation_report (st : data_issues entry) : res (option shown) :=
  match lookup "spurious_correlations" (info st) with
  | None | Some EOther => Ok None
  | Some (ECorr df threshold) =>
    if negb (truthy threshold) then Ok None else
    match threshold with
    | VNum q =>
      match correlated_properties q df with
      | [] => Ok None
      | props =>
        do issues <- get_issues None st ;
        do images <- rmap (show_extremes issues) props ;
        Ok (Some (Shown (map (fun e => (display_name (fst e), snd e)) (filter (fun e => smem (fst e) props) df)) images))
      end
    | _ => match df with [] => Ok None | _ => Raise TypeError end
    end
  end.
