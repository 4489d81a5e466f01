(** * Proofs for C186 *)
From Coq Require Import String Ascii DecimalString.
From Coq Require Import QArith List Bool Arith Lia.
From Verif Require Import Base BaseFacts ModelPrintMatrix SpecPrintMatrix.
Import ListNotations.
Open Scope string_scope.

Lemma append_assoc (a b c : string) : (a ++ b) ++ c = a ++ (b ++ c).
Proof. induction a; cbn; [reflexivity|]. rewrite IHa. reflexivity. Qed.
Lemma no_tab_app a b : no_tab (a ++ b) = (no_tab a && no_tab b)%bool.
Proof. induction a as [|c a IH]; cbn; [reflexivity|]. rewrite IH. apply andb_assoc. Qed.
Lemma no_tab_uint u : no_tab (NilEmpty.string_of_uint u) = true.
Proof. induction u; cbn; auto. Qed.
Lemma no_tab_str n : no_tab (str n) = true.
Proof. apply no_tab_uint. Qed.
Lemma fields_one s : no_tab s = true -> fields s = [s].
Proof.
  induction s as [|c s IH]; intros H; [reflexivity|]. cbn in *. apply andb_true_iff in H as (A & B). apply negb_true_iff in A. rewrite A, IH by auto. reflexivity.
Qed.
Lemma fields_tab s t : no_tab s = true -> fields (s ++ TAB ++ t) = s :: fields t.
Proof.
  induction s as [|c s IH]; intros H; [reflexivity|]. cbn in H. apply andb_true_iff in H as (A & B). apply negb_true_iff in A.
  change ((String c s ++ TAB ++ t)) with (String c (s ++ TAB ++ t)). cbn [fields]. rewrite A, IH by auto. reflexivity.
Qed.
Lemma fields_concat l : l <> [] -> (forall s, In s l -> no_tab s = true) -> fields (String.concat TAB l) = l.
Proof.
  induction l as [|s l IH]; intros N H; [congruence|]. destruct l as [|s' l].
  - apply fields_one, H. left; auto.
  - change (String.concat TAB (s :: s' :: l)) with (s ++ TAB ++ String.concat TAB (s' :: l)).
    rewrite fields_tab by (apply H; left; auto). rewrite IH; [reflexivity|discriminate|]. intros; apply H; right; auto.
Qed.
Lemma fields_header h l : no_tab h = true -> (forall s, In s l -> no_tab s = true) -> fields (h ++ sconcat (map (fun s => TAB ++ s) l)) = h :: l.
Proof.
  revert h. induction l as [|s l IH]; intros h Hh H.
  - cbn [map sconcat]. assert (E : forall x, x ++ "" = x) by (induction x as [|c x IHx]; cbn; [|rewrite IHx]; reflexivity). rewrite E. apply fields_one, Hh.
  - cbn [map sconcat]. rewrite append_assoc. rewrite fields_tab by auto. rewrite IH; [reflexivity|apply H; left; auto|intros; apply H; right; auto].
Qed.

Section Printed.
Variables (show : Q -> string) (rnd : Q -> Q) (left top title short : string).
Hypothesis Hshow : forall q, no_tab (show q) = true.
Hypothesis Hleft : no_tab left = true.
Hypothesis Htop : no_tab top = true.
Hypothesis Hshort : no_tab (substring 0 6 short) = true.

Theorem printed K m : square K m -> (1 <= K)%nat ->
  exists lines, print_square_matrix show rnd (Table m) left top title short = (lines, None) /\ List.length lines = (K + 6)%nat /\
    fields (nth 2 lines "") = ((" " ++ substring 0 6 short) :: map (fun j => top ++ "=" ++ str j) (seq 0 K)) /\
    (forall i, (i < K)%nat -> fields (nth (4 + i) lines "") = ((left ++ "=" ++ str i ++ " |") :: map (fun z => show (rnd z)) (nth i m []))) /\
    (forall i j, (i < K)%nat -> (j < K)%nat ->
       nth (S j) (fields (nth 2 lines "")) "" = top ++ "=" ++ str j /\
       nth 0 (fields (nth (4 + i) lines "")) "" = left ++ "=" ++ str i ++ " |" /\
       nth (S j) (fields (nth (4 + i) lines "")) "" = show (rnd (mget m i j))) /\
    nth (4 + K) lines "" = TAB ++ "Trace(matrix) = " ++ show (rnd (qsum (tab K (fun i => mget m i i)))).
Proof.
  intros (HK & Hr) H1. unfold print_square_matrix. rewrite HK, Nat.leb_refl.
  assert (HC : List.length (nth 0 m []) = K) by (apply Hr, nth_In; lia). rewrite HC, Nat.min_id. cbv zeta.
  eexists. split; [reflexivity|].
  assert (HH : fields (" " ++ substring 0 6 short ++ sconcat (map (fun i => TAB ++ top ++ "=" ++ str i) (seq 0 K))) =
               ((" " ++ substring 0 6 short) :: map (fun j => top ++ "=" ++ str j) (seq 0 K))).
  { rewrite <- append_assoc. rewrite <- (map_map (fun j => top ++ "=" ++ str j) (fun s => TAB ++ s)). apply fields_header.
    - rewrite no_tab_app, Hshort. reflexivity.
    - intros s Hs. apply in_map_iff in Hs as (j & <- & _). rewrite !no_tab_app, Htop, no_tab_str. reflexivity. }
  assert (HR : forall i, (i < K)%nat -> fields (left ++ "=" ++ str i ++ " |" ++ TAB ++ String.concat TAB (map (fun z => show (rnd z)) (nth i m []))) =
               ((left ++ "=" ++ str i ++ " |") :: map (fun z => show (rnd z)) (nth i m []))).
  { intros i Hi. replace (left ++ "=" ++ str i ++ " |" ++ TAB ++ String.concat TAB (map (fun z => show (rnd z)) (nth i m [])))
      with ((left ++ "=" ++ str i ++ " |") ++ TAB ++ String.concat TAB (map (fun z => show (rnd z)) (nth i m []))) by (rewrite !append_assoc; reflexivity).
    rewrite fields_tab by (rewrite !no_tab_app, Hleft, no_tab_str; reflexivity). f_equal. apply fields_concat.
    - assert (L : List.length (nth i m []) = K) by (apply Hr, nth_In; lia). destruct (nth i m []); [cbn in L; lia|discriminate].
    - intros s Hs. apply in_map_iff in Hs as (z & <- & _). apply Hshow. }
  match goal with |- context [List.app (map ?f (seq 0 K)) [?t; EmptyString]] => set (row := f); set (tr := t) end.
  match goal with |- List.length ?l = _ /\ _ => set (lines := l) end.
  assert (L2 : nth 2 lines "" = " " ++ substring 0 6 short ++ sconcat (map (fun i => TAB ++ top ++ "=" ++ str i) (seq 0 K))) by reflexivity.
  assert (LR : forall i, (i < K)%nat -> nth (4 + i) lines "" = row i).
  { intros i Hi. change (nth (4 + i) lines "") with (nth i (map row (seq 0 K) ++ [tr; EmptyString])%list "").
    rewrite app_nth1 by (rewrite map_length, seq_length; auto). rewrite (nth_map_gen row (seq 0 K) i "" 0%nat) by (rewrite seq_length; auto).
    rewrite seq_nth by auto. reflexivity. }
  split; [unfold lines; rewrite !app_length, map_length, seq_length; cbn; lia|].
  split; [rewrite L2; exact HH|].
  split; [intros i Hi; rewrite (LR i Hi); exact (HR i Hi)|].
  split.
  - intros i j Hi Hj. rewrite L2, HH, (LR i Hi). unfold row. rewrite (HR i Hi). cbn [nth].
    split; [|split; [reflexivity|]].
    + rewrite (nth_map_gen (fun j => top ++ "=" ++ str j) (seq 0 K) j "" 0%nat) by (rewrite seq_length; auto). rewrite seq_nth by auto. reflexivity.
    + assert (L : List.length (nth i m []) = K) by (apply Hr, nth_In; lia).
      rewrite (nth_map_gen (fun z => show (rnd z)) (nth i m []) j "" 0%Q) by lia. reflexivity.
  - change (nth (4 + K) lines "") with (nth K (map row (seq 0 K) ++ [tr; EmptyString])%list "").
    rewrite app_nth2 by (rewrite map_length, seq_length; auto). rewrite map_length, seq_length, Nat.sub_diag. reflexivity.
Qed.
End Printed.

(** one-dimensional input *)
Theorem vector_raises show rnd v left top title short : (2 <= List.length v)%nat ->
  exists lines, print_square_matrix show rnd (Vector v) left top title short = (lines, Some IndexError) /\ List.length lines = 5%nat.
Proof.
  intros H. unfold print_square_matrix. cbv zeta. destruct (Nat.leb_spec (List.length v) (List.length [v])) as [A|A]; [cbn in A; lia|].
  eexists. split; [reflexivity|]. reflexivity.
Qed.
