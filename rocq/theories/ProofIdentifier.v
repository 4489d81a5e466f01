(** * Proofs about identifier columns in different containers (C149) *)
From Coq Require Import QArith List ZArith Bool Arith Permutation Lia.
From Verif Require Import Base BaseFacts ModelChecks SpecChecks ProofChecks ModelIdentifier SpecIdentifier.
Import ListNotations.
Open Scope nat_scope.

Lemma column_same c : cells_size c <> 0 -> to_column c = frame_column c.
Proof. destruct c as [[|z v]|n]; cbn; auto. congruence. Qed.
Lemma containers cols : (forall c, In c cols -> cells_size c <> 0) ->
  find_identifiers (Dict cols) = find_identifiers (DataFrame cols) /\
  find_identifiers (ListOf (map ListOrArray cols)) = find_identifiers (DataFrame cols).
Proof.
  intros H. assert (E : map to_column cols = map frame_column cols) by (apply map_ext_in; intros; apply column_same; auto).
  unfold find_identifiers. split; cbn [prepare_features].
  - assert (X : existsb (fun c => Nat.eqb (cells_size c) 0) cols = false).
    { destruct (existsb _ cols) eqn:Ex; auto. apply existsb_exists in Ex. destruct Ex as (c & Hc & Hz). apply Nat.eqb_eq in Hz. destruct (H c Hc Hz). }
    rewrite X, E. reflexivity.
  - assert (X : existsb (fun e => match e with Neither => true | _ => false end) (map ListOrArray cols) = false).
    { clear. induction cols; cbn; auto. }
    rewrite X, map_map. cbn [rbind]. f_equal. exact E.
Qed.
Lemma int_array n columns : (forall c, In c columns -> length c = n) ->
  find_identifiers (IntArray (rows_of n columns) (length columns)) = find_identifiers (DataFrame (map Ints columns)).
Proof.
  intros H. unfold find_identifiers. cbn [prepare_features rbind]. f_equal. rewrite map_map. cbn [frame_column].
  assert (G : forall j, j < length columns -> map (fun row => nth j row 0%Z) (rows_of n columns) = nth j columns []).
  { intros j Hj. unfold rows_of. rewrite map_tab. apply list_eq_nth with (d := 0%Z).
    - rewrite tab_length. symmetry. apply H, nth_In; auto.
    - intros i Hi. rewrite tab_length in Hi. rewrite nth_tab by auto. rewrite (nth_map_gen _ _ _ _ []) by auto. reflexivity. }
  apply list_eq_nth with (d := OtherColumn 0).
  - rewrite tab_length, map_length. reflexivity.
  - intros j Hj. rewrite tab_length in Hj. rewrite nth_tab by auto. rewrite (nth_map_gen _ _ _ _ []) by auto. rewrite G by auto. reflexivity.
Qed.
Lemma numbering_run col : numbering col -> 2 <= length col -> consecutive_run col.
Proof.
  intros (c & P) L. exists c, (c + Z.of_nat (length col) - 1)%Z. split; [lia|]. intros z. split; intros H.
  - apply (Permutation_in _ P) in H. apply in_map_iff in H. destruct H as (i & <- & Hi). apply in_seq in Hi. lia.
  - apply (Permutation_in _ (Permutation_sym P)). apply in_map_iff. exists (Z.to_nat (z - c)). split; [lia|]. apply in_seq. lia.
Qed.
Lemma documented columns j col : nth_error columns j = Some (Ints col) -> numbering col -> 2 <= length col ->
  exists rep ids, find_identifiers (DataFrame columns) = Ok (rep, ids) /\ In j ids /\ summary rep = 0%Q.
Proof.
  intros Hj HN HL. unfold find_identifiers. cbn [prepare_features rbind].
  assert (NE : map frame_column columns <> []) by (destruct columns; [destruct j; discriminate|discriminate]).
  destruct (identifier_spec _ NE) as (rep & ids & E & _ & HI & HS & _). exists rep, ids. split; [exact E|].
  assert (J : In j ids).
  { apply HI. assert (HL' : j < length columns) by (apply nth_error_Some; congruence).
    split; [rewrite map_length; auto|]. exists col. split; [|apply numbering_run; auto].
    rewrite (nth_map_gen _ _ _ _ (Others 0)) by auto. rewrite (nth_error_nth _ _ (Others 0) Hj). reflexivity. }
  split; [exact J|]. apply HS. intros ->. destruct J.
Qed.
Lemma other_array nrows ncols : 0 < ncols -> exists rep, find_identifiers (OtherArray nrows ncols) = Ok (rep, []) /\ summary rep = 1%Q /\
  length (flags rep) = nrows.
Proof.
  intros H. unfold find_identifiers. cbn [prepare_features rbind]. assert (NE : repeat (OtherColumn nrows) ncols <> []) by (destruct ncols; [lia|discriminate]).
  destruct (identifier_spec _ NE) as (rep & ids & E & _ & HI & _ & HS & HF & _). exists rep.
  assert (J : ids = []).
  { destruct ids as [|j ids]; [reflexivity|]. exfalso. destruct (proj1 (HI j) (or_introl eq_refl)) as (A & v & B & _).
    rewrite repeat_length in A. assert (X : In (nth j (repeat (OtherColumn nrows) ncols) (OtherColumn 0)) (repeat (OtherColumn nrows) ncols)) by (apply nth_In; rewrite repeat_length; auto).
    apply repeat_spec in X. congruence. }
  subst ids. split; [exact E|]. split; [apply HS; reflexivity|]. rewrite HF. destruct ncols; [lia|reflexivity].
Qed.
