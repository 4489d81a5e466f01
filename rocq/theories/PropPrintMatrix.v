(** * Property C186: the printed matrices can be read back *)
From Coq Require Import String Ascii.
From Coq Require Import QArith List Bool Arith Lia.
From Verif Require Import Base ModelPrintMatrix SpecPrintMatrix ProofPrintMatrix.
Import ListNotations.
Open Scope string_scope.

(** Square matrices: K + 6 lines; split at the tabs, the field of entry (i, j) stands in the line that starts with the row's
    name and below the header field with the column's name; the trace follows. *)
Theorem C186_printed : forall show rnd left top title short,
  (forall q, no_tab (show q) = true) -> no_tab left = true -> no_tab top = true -> no_tab (substring 0 6 short) = true ->
  forall K m, square K m -> (1 <= K)%nat ->
  exists lines, print_square_matrix show rnd (Table m) left top title short = (lines, None) /\ List.length lines = (K + 6)%nat /\
    fields (nth 2 lines "") = ((" " ++ substring 0 6 short) :: map (fun j => top ++ "=" ++ str j) (seq 0 K)) /\
    (forall i, (i < K)%nat -> fields (nth (4 + i) lines "") = ((left ++ "=" ++ str i ++ " |") :: map (fun z => show (rnd z)) (nth i m []))) /\
    (forall i j, (i < K)%nat -> (j < K)%nat ->
       nth (S j) (fields (nth 2 lines "")) "" = top ++ "=" ++ str j /\
       nth 0 (fields (nth (4 + i) lines "")) "" = left ++ "=" ++ str i ++ " |" /\
       nth (S j) (fields (nth (4 + i) lines "")) "" = show (rnd (mget m i j))) /\
    nth (4 + K) lines "" = TAB ++ "Trace(matrix) = " ++ show (rnd (qsum (tab K (fun i => mget m i i)))).
Proof. exact printed. Qed.

(** the three matrices: which variable is on the left and which on top *)
Theorem C186_names : forall show rnd K m i j, (forall q, no_tab (show q) = true) -> square K m -> (i < K)%nat -> (j < K)%nat ->
  let cell p := nth (S j) (fields (nth (4 + i) (fst p) "")) "" in
  let left p := nth 0 (fields (nth (4 + i) (fst p) "")) "" in
  let top p := nth (S j) (fields (nth 2 (fst p) "")) "" in
  let given_by_true p := cell p = show (rnd (mget m i j)) /\ left p = "s=" ++ str i ++ " |" /\ top p = "y=" ++ str j in
  given_by_true (print_noise_matrix show rnd (Table m)) /\ given_by_true (print_joint_matrix show rnd (Table m)) /\
  let p := print_inverse_noise_matrix show rnd (Table m) in
  cell p = show (rnd (mget m i j)) /\ left p = "y=" ++ str i ++ " |" /\ top p = "s=" ++ str j.
Proof.
  intros show rnd K m i j Hs Hm Hi Hj. cbv zeta.
  assert (G : forall left top title short, no_tab left = true -> no_tab top = true -> no_tab (substring 0 6 short) = true ->
    let p := print_square_matrix show rnd (Table m) left top title short in
    nth (S j) (fields (nth (4 + i) (fst p) "")) "" = show (rnd (mget m i j)) /\
    nth 0 (fields (nth (4 + i) (fst p) "")) "" = left ++ "=" ++ str i ++ " |" /\
    nth (S j) (fields (nth 2 (fst p) "")) "" = top ++ "=" ++ str j).
  { intros left top title short A B C. destruct (printed show rnd left top title short Hs A B C K m Hm) as (lines & E & _ & _ & _ & F & _); [lia|].
    cbv zeta. rewrite E. cbn [fst]. destruct (F i j Hi Hj) as (F1 & F2 & F3). auto. }
  split; [exact (G "s" "y" _ "p(s|y)" eq_refl eq_refl eq_refl)|]. split; [exact (G "s" "y" _ "p(s,y)" eq_refl eq_refl eq_refl)|].
  exact (G "y" "s" _ "p(y|s)" eq_refl eq_refl eq_refl).
Qed.

(** "Make sure matrix is 2d array": a one-dimensional array of two or more numbers is turned into one row, and printing
    stops with an IndexError after that row. *)
Theorem C186_vector_raises : forall show rnd v left top title short, (2 <= List.length v)%nat ->
  exists lines, print_square_matrix show rnd (Vector v) left top title short = (lines, Some IndexError) /\ List.length lines = 5%nat.
Proof. exact vector_raises. Qed.

Definition ex_show (q : Q) : string :=
  if Qeq_bool q (9 # 10) then "0.9" else if Qeq_bool q (1 # 10) then "0.1" else if Qeq_bool q (2 # 10) then "0.2"
  else if Qeq_bool q (8 # 10) then "0.8" else "1.7".
Example ex_show_no_tab : forall q, no_tab (ex_show q) = true.
Proof. intros q. unfold ex_show. repeat (destruct (Qeq_bool _ _); [reflexivity|]). reflexivity. Qed.
Example C186_example : print_noise_matrix ex_show (fun q => q) (Table [[9 # 10; 2 # 10]; [1 # 10; 8 # 10]]%Q) =
  ([""; " Noise Matrix (aka Noisy Channel) P(given_label|true_label) of shape (2, 2)"; " p(s|y)	y=0	y=1"; "	---	---";
    "s=0 |	0.9	0.2"; "s=1 |	0.1	0.8"; "	Trace(matrix) = 1.7"; ""], None).
Proof. vm_compute. reflexivity. Qed.
Example C186_example_vector : print_noise_matrix ex_show (fun q => q) (Vector [9 # 10; 1 # 10]%Q) =
  ([""; " Noise Matrix (aka Noisy Channel) P(given_label|true_label) of shape (1, 2)"; " p(s|y)	y=0	y=1"; "	---	---";
    "s=0 |	0.9	0.1"], Some IndexError).
Proof. vm_compute. reflexivity. Qed.

Print Assumptions C186_printed.
Print Assumptions C186_names.
Print Assumptions C186_vector_raises.
