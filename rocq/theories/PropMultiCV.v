(** * C139: cross-validated predicted probabilities for multi-label data *)
From Coq Require Import QArith List Bool Arith Lia Lqa Permutation.
From Verif Require Import Base BaseFacts ModelUtil ModelLabels ModelMultilabel ModelMultiCV SpecMultiCV ProofMultiCV.
Import ListNotations.
Open Scope Q_scope.

(** the splitter is given one number per set of classes: equal exactly for equal sets, numbered in order without gaps *)
Theorem C139_ids : forall K labels, indicators K labels ->
  length (multilabel_ids labels) = length labels /\
  (forall e e', (e < length labels)%nat -> (e' < length labels)%nat ->
     (nth e (multilabel_ids labels) 0%nat = nth e' (multilabel_ids labels) 0%nat <-> nth e labels [] = nth e' labels []) /\
     ((nth e (multilabel_ids labels) 0 < nth e' (multilabel_ids labels) 0)%nat <-> comes_before (nth e labels []) (nth e' labels []))) /\
  (forall i j, In i (multilabel_ids labels) -> (j <= i)%nat -> In j (multilabel_ids labels)).
Proof. exact C139_ids_full. Qed.
Print Assumptions C139_ids.

(** one row per example in the order of the data, each from a model fitted on the training part of the split that holds the example out *)
Theorem C139_out_of_sample : forall A (d : A) fit_predict split X labels K, row_per_example fit_predict -> indicators K labels -> divided K labels ->
  (forall ids, covers (length ids) (split ids)) ->
  exists pp, get_cross_validated_multilabel_pred_probs d fit_predict split X labels K = Ok pp /\ length pp = length labels /\
    forall e, (e < length labels)%nat -> exists s p, In s (split (multilabel_ids labels)) /\ nth_error (snd s) p = Some e /\
      nth e pp [] = nth p (fit_predict (rows_at d (fst s) X) (rows_at [] (fst s) labels) (rows_at d (snd s) X)) [].
Proof. exact C139_out_of_sample_full. Qed.
Print Assumptions C139_out_of_sample.

(** with a splitter that does not look at the labels (KFold), the label of an example has no influence on its own row *)
Theorem C139_own_label : forall A (d : A) fit_predict split X labels labels' K e pp pp', row_per_example fit_predict ->
  indicators K labels -> divided K labels -> indicators K labels' -> divided K labels' -> length labels' = length labels ->
  (forall ids, covers (length ids) (split ids)) -> (forall ids s i, In s (split ids) -> In i (fst s) -> ~ In i (snd s)) ->
  (forall ids ids', length ids = length ids' -> split ids = split ids') ->
  (forall i, i <> e -> nth i labels' [] = nth i labels []) -> (e < length labels)%nat ->
  get_cross_validated_multilabel_pred_probs d fit_predict split X labels K = Ok pp ->
  get_cross_validated_multilabel_pred_probs d fit_predict split X labels' K = Ok pp' ->
  nth e pp' [] = nth e pp [].
Proof. exact C139_own_label_full. Qed.
Print Assumptions C139_own_label.

(** test sets that overlap or leave an example out are rejected *)
Theorem C139_rejects : forall A (d : A) fit_predict X y K splits, ~ covers (length y) splits ->
  cross_val_predict d fit_predict X y K splits = Raise ValueError \/ cross_val_predict d fit_predict X y K splits = Raise IndexError.
Proof. exact C139_rejects_full. Qed.
Print Assumptions C139_rejects.

(** a class that every example has: the classifier is told that no example has it *)
Theorem C139_told : forall A (d : A) fit_predict X y K splits pp c, row_per_example fit_predict -> indicators K y -> (c < K)%nat ->
  (forall e, (e < length y)%nat -> with_class y c e) -> cross_val_predict d fit_predict X y K splits = Ok pp ->
  exists told, length told = length y /\ (forall e, (e < length y)%nat -> without_class told c e) /\
    forall s p e, In s splits -> nth_error (snd s) p = Some e ->
      nth e pp [] = nth p (fit_predict (rows_at d (fst s) X) (rows_at [] (fst s) told) (rows_at d (snd s) X)) [].
Proof. exact C139_told_full. Qed.
Print Assumptions C139_told.

(** the fractions of examples without and with a class *)
Theorem C139_prior : forall K y c, indicators K y -> (c < K)%nat ->
  exists idx, NoDup idx /\ (forall e, In e idx <-> without_class y c e) /\
    nth 0 (nth c (multilabel_py y K) []) 0 == Qnat (length idx) / Qnat (length y) /\
    nth 0 (nth c (multilabel_py y K) []) 0 + nth 1 (nth c (multilabel_py y K) []) 0 == 1 /\
    0 <= nth 0 (nth c (multilabel_py y K) []) 0 <= 1.
Proof. exact C139_prior_full. Qed.
Print Assumptions C139_prior.

(** a toy classifier: the fraction of training examples with the class *)
Definition fractions (Xt : list nat) (yt : list (list nat)) (Xh : list nat) : list (list Q) :=
  map (fun _ => tab 2 (fun c => Qred (Qnat (nsum (map (fun r => nth c r 0%nat) yt)) / Qnat (length yt)))) Xh.
Lemma fractions_rows : row_per_example fractions.
Proof. intros Xt yt Xh. apply map_length. Qed.
(** two folds: even and odd positions *)
Definition odd_even (ids : list nat) : list (list nat * list nat) :=
  let ev := filter Nat.even (seq 0 (length ids)) in let od := filter Nat.odd (seq 0 (length ids)) in [(od, ev); (ev, od)].
Lemma odd_even_covers ids : covers (length ids) (odd_even ids).
Proof.
  unfold covers, odd_even. cbn. rewrite app_nil_r. induction (seq 0 (length ids)) as [|x l IH]; [constructor|]. cbn [filter]. unfold Nat.odd at 1.
  destruct (Nat.even x); cbn [negb]; [now constructor|]. symmetry. apply Permutation_cons_app. now symmetry.
Qed.
Lemma odd_even_apart ids s i : In s (odd_even ids) -> In i (fst s) -> ~ In i (snd s).
Proof.
  unfold odd_even. cbn. intros [<-|[<-|[]]]; cbn [fst snd]; rewrite !filter_In; unfold Nat.odd; intros (_ & A) (_ & B); rewrite ?A, ?B in *; discriminate.
Qed.
Definition ex139 : list (list nat) := [[1;0]; [0;1]; [1;1]; [0;1]; [1;1]]%nat.
Example C139_example : indicators 2 ex139 /\ divided 2 ex139 /\ multilabel_ids ex139 = [1; 0; 2; 0; 2]%nat /\
  (forall ids, covers (length ids) (odd_even ids)) /\ (forall ids s i, In s (odd_even ids) -> In i (fst s) -> ~ In i (snd s)) /\
  (forall ids ids', length ids = length ids' -> odd_even ids = odd_even ids') /\
  get_cross_validated_multilabel_pred_probs 0%nat fractions odd_even [0;0;0;0;0]%nat ex139 2 = Ok [[0; 1]; [1; 2#3]; [0; 1]; [1; 2#3]; [0; 1]].
Proof.
  split.
  { split; [discriminate|]. cbn. intros r H. repeat (destruct H as [<-|H]; [split; [reflexivity|]; cbn; intuition lia|]). destruct H. }
  split.
  { intros [|[|c]] Hc; [| |lia]; split; [exists 0%nat|exists 1%nat|exists 1%nat|exists 0%nat]; split; cbn; lia. }
  split; [reflexivity|]. split; [exact odd_even_covers|]. split; [exact odd_even_apart|]. split; [intros ids ids' E; unfold odd_even; now rewrite E|].
  vm_compute. reflexivity.
Qed.
Example C139_example_rejects : cross_val_predict 0%nat fractions [0;0;0]%nat [[1;0]; [0;1]; [1;1]]%nat 2 [([2], [0;1]); ([0], [1;2])]%nat = Raise ValueError.
Proof. reflexivity. Qed.

(** every example has class 0, and its predicted probability is 0 for all of them *)
Theorem C139_always_present_refuted : exists labels pp, indicators 2 labels /\ (forall e, (e < length labels)%nat -> with_class labels 0 e) /\
  get_cross_validated_multilabel_pred_probs 0%nat fractions odd_even [0;0;0;0]%nat labels 2 = Ok pp /\
  forall e, (e < length labels)%nat -> nth 0 (nth e pp []) 1 = 0.
Proof.
  exists [[1;0]; [1;1]; [1;1]; [1;0]]%nat. eexists. split.
  { split; [discriminate|]. cbn. intros r H. repeat (destruct H as [<-|H]; [split; [reflexivity|]; cbn; intuition lia|]). destruct H. }
  split; [intros e He; cbn in He; do 4 (destruct e as [|e]; [split; cbn; lia|]); lia|].
  split; [vm_compute; reflexivity|]. intros e He; cbn in He; do 4 (destruct e as [|e]; [reflexivity|]); lia.
Qed.
Print Assumptions C139_always_present_refuted.
