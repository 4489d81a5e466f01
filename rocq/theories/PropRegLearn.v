(** * C117: what the regression CleanLearning object trains on and remembers *)
From Coq Require Import QArith List ZArith Bool Arith Lia String.
From Verif Require Import Base BaseFacts ModelUtil ModelCV ModelRegression ModelRegLearn SpecRegLearn ProofRegLearn.
From Verif Require ModelLearn SpecLearn PropRegression.
Import ListNotations.
Open Scope Q_scope.

(** When [fit] completes the wrapped model has been trained exactly once more: on the unflagged examples, in order, each
    with its own target and weight, with the keyword arguments of [model_final_kwargs] in front of those of [model_kwargs];
    the flags are the caller's (or those found), and the table with them can be retrieved. *)
Theorem C117_training : forall A (d : A) srt sq ex model folds aw trains cvn nb alea kl X y li w o kw kwf s s',
  fit d srt sq ex model folds aw trains cvn nb alea kl X y li w o kw kwf s = (s', Ok tt) ->
  exists f tr, get_label_issues s' = Some f /\ f_issue f = g_mask s' /\
  g_trained s' = g_trained s ++ [tr] /\
  (forall name, lookup name (tr_kwargs tr) = match lookup name kwf with Some v => Some v | None => lookup name kw end) /\
  lookup "sample_weight" (tr_kwargs tr) = None /\
  (match li with
   | Some (Frame f') => f = f'
   | Some (BoolArray _ m) => f_issue f = Some (ModelLearn.BoolCol m) /\ f_given f = Some (y_values y)
   | Some _ => False
   | None => exists s1, find_label_issues d srt sq ex model folds cvn nb alea kl X y kw o s = (s1, Ok f) /\
               g_k s' = g_k s1 /\ g_runs s' = S (g_runs s)
   end) /\
  forall m, f_issue f = Some (ModelLearn.BoolCol m) ->
    List.length m = List.length (y_values y) /\
    tr_X tr = map (fun i => nth i (x_rows X) d) (SpecLearn.unflagged m) /\
    tr_y tr = map (fun i => nth i (y_numbers y) 0) (SpecLearn.unflagged m) /\
    tr_weights tr = match w with Some w => Some (map (fun i => nth i w 0) (SpecLearn.unflagged m)) | None => None end.
Proof. exact @training_full. Qed.
Print Assumptions C117_training.

(** [fit] completes on usable inputs (features in an array, targets in a vector, a list or a DataFrame of one column). *)
Theorem C117_completes : forall A (d : A) srt sq ex model folds aw trains cvn nb alea kl X y li w o kw kwf s,
  usable X y -> weights_usable aw X w kw kwf -> x_is_list X = false -> y_in y <> Column -> (forall tr, trains tr = Ok tt) ->
  match li with
  | Some (Frame f) => fits f y
  | Some (BoolArray c m) => c = false /\ List.length m = List.length (y_values y)
  | Some _ => False
  | None => exists s1 f, find_label_issues d srt sq ex model folds cvn nb alea kl X y kw o s = (s1, Ok f) /\
              f_len f = List.length (y_values y)
  end ->
  snd (fit d srt sq ex model folds aw trains cvn nb alea kl X y li w o kw kwf s) = Ok tt.
Proof. exact @completes_full. Qed.
Print Assumptions C117_completes.

(** Wrong arguments are reported before anything happens: the object and the model are as before. *)
Theorem C117_rejects : forall A (d : A) srt sq ex model folds aw trains cvn nb alea kl X y li w o kw kwf s,
  ~ usable X y \/ ~ weights_usable aw X w kw kwf \/
  (exists f, li = Some (Frame f) /\ (f_issue f = None \/ f_len f <> List.length (y_values y) \/
     exists g i a b, f_given f = Some g /\ nth_error g i = Some (Some a) /\ nth_error (y_values y) i = Some (Some b) /\ ~ a == b)) \/
  (exists c m, li = Some (BoolArray c m) /\ List.length m <> List.length (y_values y)) \/
  li = Some OtherArray \/ li = Some NoArray ->
  fit d srt sq ex model folds aw trains cvn nb alea kl X y li w o kw kwf s = (s, Raise ValueError).
Proof. exact @rejects_full. Qed.
Print Assumptions C117_rejects.

(** Finding the issues first and passing the table to [fit] is the same as letting [fit] find them. *)
Theorem C117_two_steps : forall A (d : A) srt sq ex model folds aw trains cvn nb alea kl X y w o kw kwf s s1 t,
  weights_usable aw X w kw kwf ->
  find_label_issues d srt sq ex model folds cvn nb alea kl X y kw o s = (s1, Ok t) ->
  fit d srt sq ex model folds aw trains cvn nb alea kl X y None w o kw kwf s =
  fit d srt sq ex model folds aw trains cvn nb alea kl X y (Some (Frame t)) w o kw kwf s1.
Proof. exact @two_steps_full. Qed.
Print Assumptions C117_two_steps.

(** With the flags supplied, what [fit] does is independent of everything the object did before; no random run is used up,
    and the fraction [k] remains that of the last search (it does not describe the supplied flags). *)
Theorem C117_supplied : forall A (d : A) srt sq ex model folds aw trains cvn nb alea kl X y a w o kw kwf s1 s2,
  let run := fit d srt sq ex model folds aw trains cvn nb alea kl X y (Some a) w o kw kwf in
  snd (run s1) = snd (run s2) /\
  (forall u1 u2, run s1 = (u1, Ok tt) -> run s2 = (u2, Ok tt) ->
     get_label_issues u1 = get_label_issues u2 /\ exists tr, g_trained u1 = g_trained s1 ++ [tr] /\ g_trained u2 = g_trained s2 ++ [tr]) /\
  g_k (fst (run s1)) = g_k s1 /\ g_runs (fst (run s1)) = g_runs s1.
Proof. exact @supplied_full. Qed.
Print Assumptions C117_supplied.

(** No trace of earlier datasets: if every run shuffles the same way, the issues found and the model trained are the same
    after every two histories. *)
Theorem C117_no_memory : forall A (d : A) srt sq ex model folds aw trains cvn nb alea kl X y li w o kw kwf h1 h2,
  (forall i j, folds i = folds j) ->
  let call := run_call d srt sq ex model folds aw trains cvn nb alea kl in
  let s1 := fold_left (fun s c => call c s) h1 new_object in
  let s2 := fold_left (fun s c => call c s) h2 new_object in
  let find := find_label_issues d srt sq ex model folds cvn nb alea kl X y kw o in
  let run := fit d srt sq ex model folds aw trains cvn nb alea kl X y li w o kw kwf in
  snd (find s1) = snd (find s2) /\ snd (run s1) = snd (run s2) /\
  forall u1 u2, run s1 = (u1, Ok tt) -> run s2 = (u2, Ok tt) ->
    get_label_issues u1 = get_label_issues u2 /\ exists tr, g_trained u1 = g_trained s1 ++ [tr] /\ g_trained u2 = g_trained s2 ++ [tr].
Proof.
  exact (fun A d srt sq ex model folds aw trains cvn nb alea kl X y li w o kw kwf h1 h2 Hf =>
    conj (proj1 (find_indep d srt sq ex model folds cvn nb alea kl X y kw o _ _ Hf))
         (fit_indep d srt sq ex model folds aw trains cvn nb alea kl X y li w o kw kwf _ _ Hf)).
Qed.
Print Assumptions C117_no_memory.

(** After every history: the stored flags are those of the stored table, the last search not told to save space can be
    retrieved, and [save_space] removes it all but leaves the model alone. *)
Theorem C117_stored : forall A (d : A) srt sq ex model folds aw trains cvn nb alea kl cs,
  let call := run_call d srt sq ex model folds aw trains cvn nb alea kl in
  let s := fold_left (fun s c => call c s) cs new_object in
  g_mask s = match get_label_issues s with Some f => f_issue f | None => None end /\
  forall X y kw o s1 f, find_label_issues d srt sq ex model folds cvn nb alea kl X y kw o s = (s1, Ok f) ->
    get_label_issues s1 = (if k_save_space o then get_label_issues s else Some f) /\
    get_label_issues (save_space s1) = None /\ g_k (save_space s1) = None /\ g_mask (save_space s1) = None /\
    g_trained (save_space s1) = g_trained s1.
Proof.
  exact (fun A d srt sq ex model folds aw trains cvn nb alea kl cs =>
    conj (aligned_full d srt sq ex model folds aw trains cvn nb alea kl cs)
         (stored_full d srt sq ex model folds aw trains cvn nb alea kl cs new_object)).
Qed.
Print Assumptions C117_stored.

(** ** Concrete runs *)
Definition X6 : features Q := {| x_is_list := false; x_rows := PropRegression.X_ex |}.
Definition y6 (h : holder) : targets := {| y_in := h; y_values := map Some PropRegression.y_ex; y_int := false |}.
Definition options6 := {| k_uncertainty := Some (UScalar 1); k_coarse := [1#6; 1#3]; k_fine := 0; k_save_space := false |}.
Definition find6 := find_label_issues 0 Base.argsort_ins (fun x => x) PropRegression.exf (fun _ => PropRegression.line_model)
  (fun _ => PropRegression.folds_pad) 2 0 false (fun s : object Q => g_k s).
Definition fit6 := fit 0 Base.argsort_ins (fun x => x) PropRegression.exf (fun _ => PropRegression.line_model)
  (fun _ => PropRegression.folds_pad) true (fun _ => Ok tt) 2 0 false (fun s : object Q => g_k s).
(** the third target is flagged, and the model trained without it, with the weights of the others *)
Example C117_example : exists s' f,
  fit6 X6 (y6 PyList) None (Some [1;2;3;4;5;6]) options6 [("alpha"%string, 1%Z)] [("alpha"%string, 2%Z)] new_object = (s', Ok tt) /\
  get_label_issues s' = Some f /\ f_issue f = Some (ModelLearn.BoolCol [false; false; true; false; false; false]) /\
  g_trained s' = [{| tr_X := [0;1;3;4;5]; tr_y := [1;2;4;5;6]; tr_kwargs := [("alpha"%string, 2%Z); ("alpha"%string, 1%Z)]; tr_weights := Some [1;2;4;5;6] |}] /\
  usable X6 (y6 PyList) /\ weights_usable true X6 (Some [1;2;3;4;5;6]) [("alpha"%string, 1%Z)] [("alpha"%string, 2%Z)].
Proof.
  do 2 eexists. split; [vm_compute; reflexivity|]. split; [reflexivity|]. split; [vm_compute; reflexivity|]. split; [vm_compute; reflexivity|].
  split.
  - split; [cbn; lia|]. split; [|reflexivity]. intros v Hv. cbn in Hv. destruct Hv as [<-|[<-|[<-|[<-|[<-|[<-|[]]]]]]]; discriminate.
  - split; [reflexivity|]. split; [reflexivity|]. intros l E. injection E as <-. now split.
Qed.
(** one target is missing *)
Example C117_rejects_example :
  fit6 X6 {| y_in := Vector; y_values := [Some 1; Some 2; None; Some 4; Some 5; Some 6]; y_int := false |} None None options6 [] [] new_object
  = (new_object, Raise ValueError).
Proof. reflexivity. Qed.

(** Targets in an (N, 1) array pass the checks and issues are found and stored for them, but the training is refused, whatever
    the table: here with the table just found. *)
Theorem C117_column_refuted : exists s1 t s2,
  find6 X6 (y6 Column) [] options6 new_object = (s1, Ok t) /\
  fit6 X6 (y6 Column) None None options6 [] [] new_object = (s2, Raise ValueError) /\
  fit6 X6 (y6 Column) (Some (Frame t)) None options6 [] [] s1 = (s1, Raise ValueError) /\
  get_label_issues s2 = Some t /\ g_trained s2 = [].
Proof.
  do 3 eexists. split; [vm_compute; reflexivity|]. split; [vm_compute; reflexivity|]. split; [vm_compute; reflexivity|].
  split; vm_compute; reflexivity.
Qed.
Print Assumptions C117_column_refuted.

(** Features in a Python list: likewise, with a TypeError, and the stored table is already replaced. *)
Theorem C117_list_features_refuted : exists s1 t s2,
  let X := {| x_is_list := true; x_rows := PropRegression.X_ex |} in
  find6 X (y6 Vector) [] options6 new_object = (s1, Ok t) /\
  fit6 X (y6 Vector) (Some (BoolArray false (repeat false 6))) None options6 [] [] s1 = (s2, Raise TypeError) /\
  get_label_issues s2 <> get_label_issues s1 /\ g_trained s2 = [].
Proof.
  do 3 eexists. split; [vm_compute; reflexivity|]. split; [vm_compute; reflexivity|]. split; [|reflexivity]. vm_compute. discriminate.
Qed.
Print Assumptions C117_list_features_refuted.

(** Flags as integers (0 or 1, as read back from a file) pass the checks, but the model is trained on copies of the last rows. *)
Theorem C117_integer_flags_refuted : exists s',
  let table := {| f_len := 6; f_issue := Some (ModelLearn.IntCol [0; 0; 1; 0; 0; 0]%Z); f_quality := None; f_given := None; f_predicted := None |} in
  fit6 X6 (y6 Vector) (Some (Frame table)) None options6 [] [] new_object = (s', Ok tt) /\
  exists tr, g_trained s' = [tr] /\ tr_X tr = [5; 5; 4; 5; 5; 5] /\ tr_y tr = [6; 6; 5; 6; 6; 6].
Proof. eexists. split; [vm_compute; reflexivity|]. eexists. split; [vm_compute; reflexivity|]. now split. Qed.
Print Assumptions C117_integer_flags_refuted.
