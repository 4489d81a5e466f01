(** * Proofs about the display of token issues *)
From Coq Require Import String QArith List ZArith Bool Arith Lia.
From Verif Require Import Base BaseFacts ModelToken ModelDisplay SpecToken SpecDisplay ProofToken.
Import ListNotations.
Open Scope Q_scope.

Lemma loop_full {A B} (show : A -> res (option B)) (K : A -> Prop) (E : A -> B -> Prop) : forall issues top shown,
  (forall x, In x issues -> (K x /\ exists v, show x = Ok (Some v) /\ E x v) \/ (~ K x /\ show x = Ok None)) ->
  exists kept out, those K issues kept /\ display_loop show top issues shown = Ok out /\
    Forall2 E (if Z.leb top (Z.of_nat shown) then kept else firstn (Z.to_nat top - shown) kept) out.
Proof.
  induction issues as [|x t IH]; intros top shown H.
  - exists [], []. split; [constructor|]. split; [reflexivity|]. destruct (Z.leb _ _); [constructor|]. rewrite firstn_nil. constructor.
  - cbn [display_loop]. destruct (H x (or_introl eq_refl)) as [(Hk & v & Hv & Ev)|(Hk & Hv)]; rewrite Hv; cbn [rbind].
    + destruct (Z.eqb_spec (Z.of_nat (S shown)) top) as [e|e].
      * destruct (IH top (S shown) (fun y Hy => H y (or_intror Hy))) as (kept & out & T & _ & _).
        exists (x :: kept), [v]. split; [constructor; auto|]. split; [reflexivity|].
        destruct (Z.leb_spec top (Z.of_nat shown)); [lia|]. replace (Z.to_nat top - shown)%nat with 1%nat by lia. simpl. repeat constructor; auto.
      * destruct (IH top (S shown) (fun y Hy => H y (or_intror Hy))) as (kept & out & T & -> & F).
        exists (x :: kept), (v :: out). split; [constructor; auto|]. split; [reflexivity|].
        destruct (Z.leb_spec top (Z.of_nat (S shown))), (Z.leb_spec top (Z.of_nat shown)); try lia; [constructor; auto|].
        replace (Z.to_nat top - shown)%nat with (S (Z.to_nat top - S shown)) by lia. simpl. constructor; auto.
    + destruct (IH top shown (fun y Hy => H y (or_intror Hy))) as (kept & out & T & -> & F).
      exists kept, out. split; [constructor; auto|]. split; [reflexivity|]. exact F.
Qed.

Lemma those_length {A} (K : A -> Prop) l m : those K l m -> (length m <= length l)%nat.
Proof. induction 1; simpl; lia. Qed.
Lemma at2_entry {A} (d : A) x ij : in_text (map (@length A) x) ij -> at2 x ij = Ok (entry d x ij).
Proof.
  intros (H1 & H2). rewrite map_length in H1. change 0%nat with (length (@nil A)) in H2. rewrite map_nth in H2. unfold at2, entry.
  rewrite (nth_error_nth' x [] H1), (nth_error_nth' _ d H2). reflexivity.
Qed.
Lemma token_at_entry x ij : in_text (map (@length string) x) ij -> token_at x ij = Ok (entry EmptyString x ij).
Proof. apply (at2_entry EmptyString). Qed.
Lemma excluded_spec ex l p : excluded ex l p = true <-> In (l, p) ex.
Proof.
  unfold excluded. rewrite existsb_exists. split.
  - intros ([a b] & H & E). apply andb_true_iff in E. destruct E as (E1 & E2). apply Nat.eqb_eq in E1, E2. simpl in *. subst. exact H.
  - intros H. exists (l, p). rewrite !Nat.eqb_refl. auto.
Qed.
Lemma name_ok names k : (names <> [] -> (k < length names)%nat) -> name_of names k = Ok (as_named names k).
Proof.
  intros H. unfold name_of, as_named. destruct names as [|s t]; [reflexivity|]. simpl length. simpl Nat.eqb. rewrite (nth_error_nth' (s :: t) EmptyString); [reflexivity|].
  apply H. discriminate.
Qed.

Section D.
Context {P : Type} (best : P -> nat) (dP : P).
Variables (issues : list (nat * nat)) (tokens : list (list string)) (labels : list (list nat)) (pps : list (list P)) (exclude : list (nat * nat)) (names : list string).
Hypothesis (D : displayable best dP issues tokens labels pps names).
Let K := fun ij => ~ left_out best dP labels pps exclude ij.
Let E := correct_entry best dP tokens labels pps names.

Lemma show_full : forall x, In x issues ->
  (K x /\ exists v, show_issue best tokens labels pps exclude names x = Ok (Some v) /\ E x v) \/ (~ K x /\ show_issue best tokens labels pps exclude names x = Ok None).
Proof.
  intros x Hx. unfold show_issue. rewrite (token_at_entry _ _ (d_tokens _ _ _ _ _ _ _ D x Hx)). cbn [rbind].
  pose proof (fun H => d_labels _ _ _ _ _ _ _ D H x Hx) as HL. pose proof (fun H => d_preds _ _ _ _ _ _ _ D H x Hx) as HP.
  unfold K, E, left_out, correct_entry. destruct pps as [|p0 pt] eqn:Ep, labels as [|l0 lt] eqn:El; cbn [given_if rbind length Nat.eqb].
  - left. split; [intros (_ & C & _); congruence|]. eexists. split; [reflexivity|]. auto.
  - destruct (HL ltac:(discriminate)) as (L1 & L2). rewrite (at2_entry 0%nat _ _ L1). cbn [rbind]. rewrite (name_ok _ _ L2). cbn [rbind].
    left. split; [intros (_ & C & _); congruence|]. eexists. split; [reflexivity|]. auto.
  - destruct (HP ltac:(discriminate)) as (L1 & L2). rewrite (at2_entry dP _ _ L1). cbn [rbind]. rewrite (name_ok _ _ L2). cbn [rbind].
    left. split; [intros (C & _); congruence|]. eexists. split; [reflexivity|]. auto.
  - destruct (HL ltac:(discriminate)) as (L1 & L2). rewrite (at2_entry 0%nat _ _ L1). cbn [rbind].
    destruct (HP ltac:(discriminate)) as (P1 & P2). rewrite (at2_entry dP _ _ P1). cbn [rbind].
    destruct (excluded exclude _ _) eqn:X.
    + right. split; [|reflexivity]. intros C. apply C. apply excluded_spec in X. repeat split; try discriminate. exact X.
    + rewrite (name_ok _ _ L2), (name_ok _ _ P2). cbn [rbind]. left. split.
      * intros (_ & _ & C). apply excluded_spec in C. congruence.
      * eexists. split; [reflexivity|]. auto.
Qed.

Lemma display_full top : issues <> [] -> exists kept out, those K issues kept /\ display best issues tokens labels pps exclude names top = Ok out /\
  Forall2 E (if Z.leb top 0 then kept else firstn (Z.to_nat top) kept) out.
Proof.
  intros Hn. destruct (loop_full (show_issue best tokens labels pps exclude names) K E issues (Z.min top (Z.of_nat (length issues))) 0 show_full) as (kept & out & T & O & F).
  exists kept, out. split; [exact T|]. split.
  - unfold display. destruct issues; [congruence|exact O].
  - pose proof (those_length _ _ _ T). assert (0 < length issues)%nat by (destruct issues; [congruence|simpl; lia]).
    simpl Z.of_nat in F. destruct (Z.leb_spec (Z.min top (Z.of_nat (length issues))) 0), (Z.leb_spec top 0); try lia; [exact F|].
    rewrite Nat.sub_0_r in F. destruct (Z.le_ge_cases top (Z.of_nat (length issues))).
    + rewrite Z.min_l in F by lia. exact F.
    + rewrite Z.min_r in F by lia. rewrite firstn_all2 in F by lia. rewrite firstn_all2 by lia. exact F.
Qed.
Lemma display_top top : issues <> [] -> (1 <= top)%Z -> exists kept out, those K issues kept /\ display best issues tokens labels pps exclude names top = Ok out /\
  Forall2 E (firstn (Z.to_nat top) kept) out.
Proof.
  intros Hn Ht. destruct (display_full top Hn) as (k & o & T & O & F). exists k, o. destruct (Z.leb_spec top 0); [lia|]. auto.
Qed.
Lemma display_nonpositive top : issues <> [] -> (top <= 0)%Z -> exists kept out, those K issues kept /\ display best issues tokens labels pps exclude names top = Ok out /\
  Forall2 E kept out.
Proof.
  intros Hn Ht. destruct (display_full top Hn) as (k & o & T & O & F). exists k, o. destruct (Z.leb_spec top 0); [|lia]. auto.
Qed.
End D.

Lemma those_all {A} (K : A -> Prop) : forall l m, (forall x, In x l -> K x) -> those K l m -> m = l.
Proof.
  induction l as [|a l IH]; intros m H T; inversion T; subst; auto.
  - f_equal. apply IH; auto. intros; apply H; right; auto.
  - exfalso. match goal with N : ~ K a |- _ => apply N end. apply H. left. reflexivity.
Qed.
Lemma sentences_full issues tokens top : issues <> [] -> (1 <= top)%Z -> (forall i, In i issues -> (i < length tokens)%nat) ->
  exists out, token_display_sentences issues tokens top = Ok out /\ out = map (fun i => nth i tokens []) (firstn (Z.to_nat top) issues).
Proof.
  intros Hn Ht Hi. destruct (loop_full (fun i => match nth_error tokens i with Some s => Ok (Some s) | None => Raise IndexError end) (fun _ => True)
    (fun i s => s = nth i tokens []) issues (Z.min top (Z.of_nat (length issues))) 0) as (kept & out & T & O & F).
  { intros i H. left. split; [exact I|]. rewrite (nth_error_nth' tokens [] (Hi i H)). eauto. }
  apply those_all in T; auto. subst kept. exists out. split; [unfold token_display_sentences; destruct issues; [congruence|exact O]|].
  assert (0 < length issues)%nat by (destruct issues; [congruence|simpl; lia]). simpl Z.of_nat in F.
  destruct (Z.leb_spec (Z.min top (Z.of_nat (length issues))) 0); [lia|]. rewrite Nat.sub_0_r in F.
  assert (G : Forall2 (fun i s => s = nth i tokens []) (firstn (Z.to_nat top) issues) out).
  { destruct (Z.le_ge_cases top (Z.of_nat (length issues))).
    - rewrite Z.min_l in F by lia. exact F.
    - rewrite Z.min_r in F by lia. rewrite firstn_all2 in F by lia. rewrite firstn_all2 by lia. exact F. }
  clear - G. induction G; simpl; [reflexivity|]. congruence.
Qed.
