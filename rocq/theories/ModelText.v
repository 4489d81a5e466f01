(** * Model of cleanlab/internal/token_classification_utils.py: get_sentence, process_token, color_sentence *)
From Coq Require Import List NArith Bool Arith String Ascii.
From Verif Require Import Base.
Import ListNotations.

(** Text: code points.  Which of them are word characters (regular expression class \w) and white space is left open. *)
Definition text := list N.
Definition txt (s : string) : text := map N_of_ascii (list_ascii_of_string s).

Fixpoint starts_with (w s : text) : bool :=
  match w, s with
  | [], _ => true
  | a :: w, b :: s => (N.eqb a b && starts_with w s)%bool
  | _ :: _, [] => false
  end.
(** [w in s] *)
Fixpoint contains (w s : text) : bool :=
  (starts_with w s || match s with [] => false | _ :: s => contains w s end)%bool.

(** Replacing, from left to right, the occurrences of [w] (not empty) that satisfy [test]; [prev] is the character before the
    present one, [skip] the number of characters of the last occurrence still to be passed over.  With the number of replacements. *)
Section Replace.
  Variable w new : text.
  Variable test : option N -> text -> bool.
  Fixpoint replace_from (prev : option N) (skip : nat) (s : text) : text * nat :=
    match s with
    | [] => ([], 0)
    | c :: r =>
        match skip with
        | S k => replace_from (Some c) k r
        | O => if (starts_with w s && test prev s)%bool
               then let '(o, n) := replace_from (Some c) (List.length w - 1) r in (new ++ o, S n)
               else let '(o, n) := replace_from (Some c) 0 r in (c :: o, n)
        end
    end.
End Replace.
(** [s.replace(w, new)] *)
Definition str_replace (w new s : text) : text := fst (replace_from w new (fun _ _ => true) None 0 s).

(** string.punctuation *)
Definition punctuation : text :=
  [33; 34; 35; 36; 37; 38; 39; 40; 41; 42; 43; 44; 45; 46; 47; 58; 59; 60; 61; 62; 63; 64; 91; 92; 93; 94; 95; 96; 123; 124; 125; 126]%N.

Section Text.
  Variable word_char space_char : N -> bool.

  Fixpoint lstrip (s : text) : text :=
    match s with [] => [] | c :: r => if space_char c then lstrip r else s end.
  Definition strip (s : text) : text := rev (lstrip (rev (lstrip s))).

  Definition text_eqb (a b : text) : bool := (starts_with a b && Nat.eqb (List.length a) (List.length b))%bool.
  (** token_classification_utils.py:19-45 [get_sentence]; [word not in string.punctuation] asks for a substring *)
  Definition spaced (word : text) : text :=
    if (negb (contains word punctuation) || text_eqb word [45%N] || text_eqb word [40%N])%bool then 32%N :: word else word.
  Definition get_sentence (words : list text) : text :=
    let sentence := fold_left (fun s word => s ++ spaced word) words [] in
    strip (str_replace [40; 32]%N [40]%N (str_replace [32; 39]%N [39]%N sentence)).

  (** a word boundary (\b) between two characters, or at an end of the text *)
  Definition boundary (a b : option N) : bool :=
    let w o := match o with Some c => word_char c | None => false end in xorb (w a) (w b).
  Definition whole_word (w : text) (prev : option N) (s : text) : bool :=
    (boundary prev (hd_error s) && boundary (hd_error (rev w)) (hd_error (skipn (List.length w) s)))%bool.

  (** The replacement of re.subn is a template: a backslash starts an escape.  Known escapes give one character, an unknown one of
      a letter is an error, one of another character is kept.  Of digits and the letter g (references to groups, octal numbers)
      only the error of a missing group is modelled. *)
  Definition letter (c : N) : bool := ((N.leb 65 c && N.leb c 90) || (N.leb 97 c && N.leb c 122))%bool.
  Definition digit (c : N) : bool := (N.leb 48 c && N.leb c 57)%bool.
  Definition escape (c : N) : option N :=
    match c with
    | 92%N => Some 92%N | 97%N => Some 7%N | 98%N => Some 8%N | 102%N => Some 12%N | 110%N => Some 10%N
    | 114%N => Some 13%N | 116%N => Some 9%N | 118%N => Some 11%N | _ => None
    end.
  Fixpoint expand (t : text) : res text :=
    match t with
    | [] => Ok []
    | c :: r =>
        if N.eqb c 92 then
          match r with
          | [] => Raise OtherError
          | e :: r => match escape e with
                      | Some x => do o <- expand r ; Ok (x :: o)
                      | None => if (letter e || digit e)%bool then Raise OtherError else do o <- expand r ; Ok (c :: e :: o)
                      end
          end
        else do o <- expand r ; Ok (c :: o)
    end.

  (** token_classification_utils.py:248-275 [_replace_sentence]; for the empty word see the design document *)
  Definition replace_sentence (sentence word new_word : text) : res text :=
    do template <- expand new_word ;
    let '(new_sentence, n) := replace_from word template (whole_word word) None 0 sentence in
    if Nat.eqb n 0 then Ok (str_replace word new_word sentence) else Ok new_sentence.
  (** [termcolor.colored(word, "red", force_color=True)] *)
  Definition colored (word : text) : text := [27; 91; 51; 49; 109]%N ++ word ++ [27; 91; 48; 109]%N.
  (** token_classification_utils.py:213-245 [color_sentence] *)
  Definition color_sentence (sentence word : text) : res text := replace_sentence sentence word (colored word).

  (** token_classification_utils.py:93-130 [process_token]: the keys of the dictionary in order of first mention, the last value of
      each.  With no rule the empty pattern matches and is not found in the dictionary.  Empty keys are not modelled. *)
  Definition value_of (rules : list (text * text)) (k : text) : text :=
    fold_left (fun v kv => if text_eqb k (fst kv) then snd kv else v) rules [].
  Fixpoint process_from (rules : list (text * text)) (skip : nat) (s : text) : text :=
    match s with
    | [] => []
    | c :: r =>
        match skip with
        | S k => process_from rules k r
        | O => match find (fun kv => starts_with (fst kv) s) rules with
               | Some (k, _) => value_of rules k ++ process_from rules (List.length k - 1) r
               | None => c :: process_from rules 0 r
               end
        end
    end.
  Definition process_token (token : text) (rules : list (text * text)) : res text :=
    match rules with [] => Raise KeyError | _ => Ok (process_from rules 0 token) end.
End Text.
