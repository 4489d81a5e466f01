(** * C118: sentences, coloured words and processed tokens *)
From Coq Require Import String List NArith Bool Arith Lia.
From Verif Require Import Base BaseFacts ModelText SpecText ProofText.
Import ListNotations.

(** ** get_sentence *)
(** Nothing but white space is added or lost, and words without white space appear whole, in order, with at most one space in front. *)
Theorem C118_sentence : forall space_char, space_char 32%N = true -> forall words,
  filter (fun c => negb (space_char c)) (get_sentence space_char words) = filter (fun c => negb (space_char c)) (concat words).
Proof. exact sentence_letters. Qed.
Print Assumptions C118_sentence.
Theorem C118_words : forall space_char, space_char 32%N = true -> forall words,
  (forall w, In w words -> forall c, In c w -> space_char c = false) ->
  exists gaps, List.length gaps = List.length words /\ (forall g, In g gaps -> g = [] \/ g = [32%N]) /\
    get_sentence space_char words = lay gaps words.
Proof. exact sentence_laid. Qed.
Print Assumptions C118_words.

(** ** color_sentence *)
(** For a word without a backslash: the result is the sentence with the colour codes around some copies of the word and nothing
    else changed; a word that occurs is coloured somewhere.  If it occurs as a word of its own only such copies are coloured, and
    all of them that do not overlap one further left; otherwise the copies inside other words are. *)
Theorem C118_colour : forall word_char s w, w <> [] -> ~ In 92%N w ->
  exists pieces, pieces <> [] /\ s = join w pieces /\ color_sentence word_char s w = Ok (join (colored w) pieces) /\
    ((exists k, stands_at w s k) -> 2 <= List.length pieces) /\
    ((exists k, own_word word_char w s k) -> forall k, In k (joints w 0 pieces) -> own_word word_char w s k) /\
    (forall k, own_word word_char w s k -> exists k', In k' (joints w 0 pieces) /\ k' <= k < k' + List.length w) /\
    ((forall k, ~ own_word word_char w s k) -> forall k, stands_at w s k -> exists k', In k' (joints w 0 pieces) /\ k' <= k < k' + List.length w).
Proof. exact colour_full. Qed.
Print Assumptions C118_colour.
(** For a word made of word characters the coloured copies are exactly those that are words of their own. *)
Theorem C118_colour_words : forall word_char s w, w <> [] -> (forall c, In c w -> word_char c = true) -> ~ In 92%N w ->
  (exists k, own_word word_char w s k) ->
  exists pieces, pieces <> [] /\ s = join w pieces /\ color_sentence word_char s w = Ok (join (colored w) pieces) /\
    forall k, In k (joints w 0 pieces) <-> own_word word_char w s k.
Proof. exact colour_words. Qed.
Print Assumptions C118_colour_words.
(** In the sentence made of the tokens every token (no white space, no backslash) can be shown. *)
Theorem C118_shown : forall space_char, space_char 32%N = true -> forall word_char words w,
  (forall w, In w words -> forall c, In c w -> space_char c = false) -> In w words -> w <> [] -> ~ In 92%N w ->
  exists pieces, 2 <= List.length pieces /\ get_sentence space_char words = join w pieces /\
    color_sentence word_char (get_sentence space_char words) w = Ok (join (colored w) pieces).
Proof. exact shown_full. Qed.
Print Assumptions C118_shown.

(** ** process_token *)
(** The token is read from left to right; where a key begins, the first one of the list is replaced by its (last) value, and reading
    continues after it: replacements are not replaced again. *)
Theorem C118_process : forall token rules, rules <> [] -> (forall kv, In kv rules -> fst kv <> []) ->
  exists out, process_token token rules = Ok out /\ rewritten rules token out.
Proof. exact process_full. Qed.
Print Assumptions C118_process.
Theorem C118_process_unique : forall rules, (forall kv, In kv rules -> fst kv <> []) ->
  forall s o1 o2, rewritten rules s o1 -> rewritten rules s o2 -> o1 = o2.
Proof. exact rewritten_det. Qed.
Print Assumptions C118_process_unique.
(** With keys of one character every character is replaced on its own. *)
Theorem C118_process_chars : forall token rules, rules <> [] -> (forall kv, In kv rules -> List.length (fst kv) = 1) ->
  forall f, (forall c, In [c] (map fst rules) -> exists before after, rules = before ++ ([c], f c) :: after /\ ~ In [c] (map fst after)) ->
  (forall c, ~ In [c] (map fst rules) -> f c = [c]) ->
  process_token token rules = Ok (concat (map f token)).
Proof. exact process_chars. Qed.
Print Assumptions C118_process_chars.

(** ** Concrete cases *)
Definition ascii_word (c : N) : bool := (letter c || digit c || N.eqb c 95)%bool.
Definition ascii_space (c : N) : bool := (N.eqb c 32 || (N.leb 9 c && N.leb c 13))%bool.
Definition red (s : string) : text := colored (txt s).
Open Scope string_scope.
Example C118_sentence_example :
  get_sentence ascii_space [txt "It"; txt "'s"; txt "("; txt "well"; txt "-"; txt "known"; txt ")"; txt "."] = txt "It's (well - known).".
Proof. reflexivity. Qed.
Example C118_colour_example :
  color_sentence ascii_word (txt "This is a thesis. Is this?") (txt "is") = Ok (txt "This " ++ red "is" ++ txt " a thesis. Is this?")%list /\
  color_sentence ascii_word (txt "This thing") (txt "h") = Ok (txt "T" ++ red "h" ++ txt "is t" ++ red "h" ++ txt "ing")%list /\
  own_word ascii_word (txt "is") (txt "This is a thesis. Is this?") 5.
Proof.
  repeat split; try reflexivity; try (cbn; discriminate). exists (txt "This "), (txt " a thesis. Is this?"). now split.
Qed.
Example C118_process_example :
  process_token (txt "#Comment#") [(txt "#", [])] = Ok (txt "Comment") /\
  process_token (txt "Cleanlab") [(txt "C", txt "a"); (txt "a", txt "C")] = Ok (txt "aleCnlCb") /\
  process_token (txt "abab") [(txt "a", txt "x"); (txt "ab", txt "y")] = Ok (txt "xbxb").
Proof. repeat split. Qed.

(** ** Where it fails *)
(** The full stop of a sentence: the one inside the abbreviation is coloured, the token itself is not. *)
Theorem C118_full_stop_refuted : exists words, In (txt ".") words /\
  get_sentence ascii_space words = txt "The U.S is big." /\
  color_sentence ascii_word (get_sentence ascii_space words) (txt ".") = Ok (txt "The U" ++ red "." ++ txt "S is big.")%list.
Proof. exists [txt "The"; txt "U.S"; txt "is"; txt "big"; txt "."]. repeat split. cbn. auto 6. Qed.
Print Assumptions C118_full_stop_refuted.
(** A token with a backslash: an exception, or other text is shown. *)
Theorem C118_backslash_refuted :
  color_sentence ascii_word (txt "open C:\dir now") (txt "C:\dir") = Raise OtherError /\
  color_sentence ascii_word (txt "open C:\news now") (txt "C:\news") = Ok (txt "open " ++ colored (txt "C:" ++ [10%N] ++ txt "ews") ++ txt " now")%list.
Proof. split; reflexivity. Qed.
Print Assumptions C118_backslash_refuted.
(** No rules at all: an exception instead of the token. *)
Theorem C118_no_rules_refuted : forall token, process_token token [] = Raise KeyError.
Proof. exact (fun _ => eq_refl). Qed.
Print Assumptions C118_no_rules_refuted.
