(** * C105, C106: span classification, display of token issues *)
From Coq Require Import String QArith List ZArith Bool Arith Lia Sorted.
From Coq Require Lqa.
From Verif Require Import Base BaseFacts ModelRank ModelFilter ModelToken ModelSpan ModelDisplay SpecToken SpecSpan SpecDisplay ProofSpan ProofDisplay.
Import ListNotations.
Open Scope Q_scope.

(** C105: the score of a token is the probability given to its label, that of a sentence the lowest among its tokens. *)
Theorem C105_scores : forall labels probs, span_data labels probs -> labels <> [] ->
  exists sentence_scores token_scores, span_get_label_quality_scores labels probs = Ok (sentence_scores, token_scores) /\
  map (@length Q) token_scores = map (@length nat) labels /\ length sentence_scores = length labels /\
  (forall ij, in_text (map (@length nat) labels) ij -> entry 0 token_scores ij = confidence labels probs ij) /\
  (forall i, (i < length labels)%nat ->
     (exists j, in_text (map (@length nat) labels) (i, j) /\ nth i sentence_scores 0 = confidence labels probs (i, j)) /\
     forall j, in_text (map (@length nat) labels) (i, j) -> nth i sentence_scores 0 <= confidence labels probs (i, j)).
Proof. exact span_scores_full. Qed.
Print Assumptions C105_scores.

(** C105: when both labels occur the finder returns different tokens, all of which the model thinks are wrongly labelled (by at least 1e-6), the worst
    first. *)
Theorem C105_issues : forall labels probs, span_data labels probs -> labels <> [] -> forall srt, argsort_ok srt -> both_labels labels ->
  exists issues, span_find_label_issues srt labels probs = Ok issues /\ NoDup issues /\
  (forall ij, In ij issues -> in_text (map (@length nat) labels) ij /\ confidence labels probs ij + (1 # 1000000) <= 1 - confidence labels probs ij) /\
  StronglySorted (fun a b => confidence labels probs a <= confidence labels probs b) issues.
Proof. exact span_find_full. Qed.
Print Assumptions C105_issues.

(** the example of the documentation *)
Definition ex105_labels : list (list nat) := [[0; 0; 1; 1]; [1; 1; 0]]%nat.
Definition ex105_probs : list (list Q) := [[9#10; 9#10; 9#10; 1#10]; [1#10; 1#10; 9#10]].
Example C105_example_data : span_data ex105_labels ex105_probs /\ both_labels ex105_labels.
Proof.
  split; [split; [reflexivity|]; split; [intros s [<-|[<-|[]]]; discriminate|]; split|].
  - intros s l [<-|[<-|[]]] H; simpl in H; intuition lia.
  - intros s p [<-|[<-|[]]] H; simpl in H; intuition (subst; Lqa.lra).
  - exists (0, 0)%nat, (0, 2)%nat. unfold in_text. simpl. repeat split; lia.
Qed.
Example C105_example : exists issues, span_find_label_issues argsort_ins ex105_labels ex105_probs = Ok issues /\ issues <> [] /\
  exists s t, span_get_label_quality_scores [[0; 1]]%nat [[1 # 4; 1 # 8]] = Ok (s, t) /\ s = [1 # 8] /\ map (map Qred) t = [[3 # 4; 1 # 8]].
Proof. eexists. split; [vm_compute; reflexivity|]. split; [discriminate|]. do 2 eexists. split; [vm_compute; reflexivity|]. split; reflexivity. Qed.

(** C106: with [top >= 1] what is printed is the first [top] issues that are not excluded, in order, each with its word, its given and its most likely
    class.  Missing: [top <= 0], see [C106_top_refuted]. *)
Theorem C106_shown_partial : forall issues tokens labels pred_probs exclude class_names,
  displayable argmax [] issues tokens labels pred_probs class_names -> forall top, issues <> [] -> (1 <= top)%Z ->
  exists kept out, those (fun ij => ~ left_out argmax [] labels pred_probs exclude ij) issues kept /\
    token_display_issues issues tokens labels pred_probs exclude class_names top = Ok out /\
    Forall2 (correct_entry argmax [] tokens labels pred_probs class_names) (firstn (Z.to_nat top) kept) out.
Proof. exact (@display_top (list Q) argmax []). Qed.
Print Assumptions C106_shown_partial.
(** C106: "maximum number of issues to be printed" fails for 0 (and below): everything is printed. *)
Theorem C106_top_refuted : forall issues tokens labels pred_probs exclude class_names,
  displayable argmax [] issues tokens labels pred_probs class_names -> forall top, issues <> [] -> (top <= 0)%Z ->
  exists kept out, those (fun ij => ~ left_out argmax [] labels pred_probs exclude ij) issues kept /\
    token_display_issues issues tokens labels pred_probs exclude class_names top = Ok out /\
    Forall2 (correct_entry argmax [] tokens labels pred_probs class_names) kept out.
Proof. exact (@display_nonpositive (list Q) argmax []). Qed.
Print Assumptions C106_top_refuted.
Theorem C106_nothing_to_show : forall tokens labels pred_probs exclude class_names top,
  token_display_issues [] tokens labels pred_probs exclude class_names top = Raise IndexError /\ token_display_sentences [] tokens top = Raise IndexError.
Proof. exact (fun _ _ _ _ _ _ => conj eq_refl eq_refl). Qed.
Print Assumptions C106_nothing_to_show.
Theorem C106_sentences : forall issues tokens top, issues <> [] -> (1 <= top)%Z -> (forall i, In i issues -> (i < length tokens)%nat) ->
  exists out, token_display_sentences issues tokens top = Ok out /\ out = map (fun i => nth i tokens []) (firstn (Z.to_nat top) issues).
Proof. exact sentences_full. Qed.
Print Assumptions C106_sentences.
(** C106: for spans the class printed as predicted is always class 0, whatever the probabilities. *)
Theorem C106_span_refuted : forall issues tokens labels probs exclude class_names,
  displayable (fun _ => 0%nat) 0 issues tokens labels probs class_names -> forall top, issues <> [] -> (1 <= top)%Z ->
  exists kept out, those (fun ij => ~ left_out (fun _ => 0%nat) 0 labels probs exclude ij) issues kept /\
    span_display_issues issues tokens labels probs exclude class_names top = Ok out /\
    Forall2 (correct_entry (fun _ => 0%nat) 0 tokens labels probs class_names) (firstn (Z.to_nat top) kept) out.
Proof. exact (@display_top Q (fun _ => 0%nat) 0). Qed.
Print Assumptions C106_span_refuted.

(** three issues, one excluded, [top = 1]; and with [top = 0] *)
Definition ex106_tokens : list (list string) := [["a"; "b"]; ["c"]]%string.
Definition ex106_labels : list (list nat) := [[0; 1]; [1]]%nat.
Definition ex106_probs : list (list (list Q)) := [[[1#4; 3#4]; [1#2; 1#2]]; [[9#10; 1#10]]].
Example C106_example :
  displayable argmax [] [(0, 0); (0, 1); (1, 0)]%nat ex106_tokens ex106_labels ex106_probs ["X"; "Y"]%string /\
  token_display_issues [(0, 0); (0, 1); (1, 0)]%nat ex106_tokens ex106_labels ex106_probs [(0, 1)]%nat ["X"; "Y"]%string 1
    = Ok [{| at_token := (0, 1)%nat; word := "b"; given := Some (ByName "Y"); predicted := Some (ByName "X") |}] /\
  (exists out, token_display_issues [(0, 0); (0, 1); (1, 0)]%nat ex106_tokens ex106_labels ex106_probs [] [] 0 = Ok out /\ length out = 3%nat) /\
  span_display_issues [(0, 1)]%nat ex106_tokens ex106_labels [[1#4; 9#10]; [1]] [] [] 20
    = Ok [{| at_token := (0, 1)%nat; word := "b"; given := Some (ByIndex 1); predicted := Some (ByIndex 0) |}].
Proof.
  split; [|split; [vm_compute; reflexivity|split; [eexists; split; vm_compute; reflexivity|vm_compute; reflexivity]]].
  split; intros; repeat match goal with H : In _ (_ :: _) |- _ => destruct H as [<-|H] | H : In _ [] |- _ => destruct H end;
    unfold in_text; vm_compute; repeat split; intros; lia.
Qed.
