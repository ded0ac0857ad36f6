(** * C66: the words of a script are read as they are written.

    [lex_in s t] is what the reader of scripts takes next from the text [t] at the place [s] (a state of its tables);
    [allows s x] says that a token [x] may stand there. [SpecLex.v] says what the tokens look like. *)

From Coq Require Import NArith Ascii String Bool List.
From Verif Require Import Base FlAst FlTables FlParse FlRead SpecLex LexProofs.
Import ListNotations.

(** Looking for a token always ends; the blanks before it, its text and what is left are the text that was looked at; the
    blanks are blanks and the token is spelled as tokens of its kind are. *)
Theorem C66_tokens_are_pieces_of_the_text_partial s t :
  lex_in s t <> AheadLoop /\
  forall b, lex_in s t = Ahead b ->
    t = t_blank b ++ t_text b ++ t_rest b /\ forallb blank (t_blank b) = true /\ spelled (t_sym b) (t_text b).
Proof. exact (conj (lex_in_ends s t) (lex_in_proper s t)). Qed.
Print Assumptions C66_tokens_are_pieces_of_the_text_partial.

Example C66_pieces_case :
  lex_in 1 (lit "   print x") = Ahead (Token T_print (lit "   ") (lit "print") (lit " x")).
Proof. vm_compute. reflexivity. Qed.

(** Names and numbers are taken as far as they go, and where a statement may begin so are keywords. *)
Theorem C66_words_are_whole_partial s t b :
  lex_in s t = Ahead b ->
  (t_sym b = T_identifier_token1 -> stops (t_rest b)) /\
  (t_sym b = T_number -> match t_rest b with [] => True | c :: _ => digit c = false end) /\
  (allows s T_print = true -> keyword (t_sym b) = true -> stops (t_rest b)).
Proof.
  exact (fun E => conj (lex_in_name_whole s t b E)
                    (conj (lex_in_number_whole s t b E) (fun A => lex_in_keyword_whole s t b A E))).
Qed.
Print Assumptions C66_words_are_whole_partial.

Example C66_whole_case :
  lex_in 1 (lit "printer = 1") = Ahead (Token T_identifier_token1 [] (lit "printer") (lit " = 1")) /\
  allows 1 T_print = true.
Proof. vm_compute. split; reflexivity. Qed.

(** What may stand at a place is found there, after any spaces: a name as a name or as the keyword of that spelling, a
    number, a string, the end of a line, and a keyword or sign that a blank follows. *)
Theorem C66_words_are_found_partial s b :
  spaces b ->
  (forall w r, allows s T_identifier_token1 = true -> is_name w = true -> stops r ->
     exists x, lex_in s (b ++ w ++ r) = Ahead (Token x b w r) /\ (x = T_identifier_token1 \/ word x = Some w)) /\
  (forall w r, allows s T_number = true -> w <> [] -> forallb digit w = true ->
     match r with [] => True | c :: _ => digit c = false end ->
     lex_in s (b ++ w ++ r) = Ahead (Token T_number b w r)) /\
  (forall w r, allows s T_string = true -> quotable w ->
     lex_in s (b ++ ([""""%char] ++ w ++ [""""%char]) ++ r) =
     Ahead (Token T_string b ([""""%char] ++ w ++ [""""%char]) r)) /\
  (forall r, allows s T_LF = true -> match r with [] => True | c :: _ => c <> LF end ->
     lex_in s (b ++ [LF] ++ r) = Ahead (Token T_LF b [LF] r)) /\
  (forall x w r, s <> 0%N -> allows s x = true -> word x = Some w -> x <> T_POUND_POUND ->
     match r with [] => True | c :: _ => blank c = true end ->
     lex_in s (b ++ w ++ r) = Ahead (Token x b w r)).
Proof.
  exact (fun B =>
    conj (fun w r A N St => name_found s w b r A N B St)
   (conj (fun w r A N D H => number_found s w b r A N D B H)
   (conj (fun w r A Q => string_found s w b r A Q B)
   (conj (fun r A H => newline_found s b r A B H)
         (fun x w r Z A W P H => word_found s x w b r Z A W P B H))))).
Qed.
Print Assumptions C66_words_are_found_partial.

Example C66_found_case :
  forallb (allows 16) [T_identifier_token1; T_number; T_string; T_LBRACK] = true /\
  forallb (allows 107) [T_LF; T_STAR; T_power_operator] = true /\ spaces (lit "  ") /\
  quotable (lit "a\""b") /\ is_name (lit "_x1") = true.
Proof.
  repeat split; try (vm_compute; reflexivity).
  change (lit "a\""b") with ((([] ++ ["a"%char]) ++ ["\"%char; """"%char]) ++ ["b"%char]).
  repeat (first [apply quotable_nil|apply quotable_plain; [|discriminate..]|apply quotable_escape; [|reflexivity]]).
Qed.

(** The full property, that keywords are whole words and that a comment ends with its line, is false of the code. After an
    expression "fn", "class", "pure" and "static" are taken off the front of a longer word, and "let" and "proto" too
    after a qualifier: "print 1 fnord() { … }" prints and then declares a function "ord", "static letter = 1" declares
    "ter". *)
Theorem C66_keywords_are_whole_refuted :
  exists s t b, lex_in s t = Ahead b /\ keyword (t_sym b) = true /\ ~ stops (t_rest b).
Proof. exact keyword_cut. Qed.
Print Assumptions C66_keywords_are_whole_refuted.

Example C66_keyword_inside_a_word :
  script_in (lit "print 1 fnord() { print 2 }" ++ [LF]) =
  Some [SPrint (ENum (lit "1")); SFun false (lit "ord") [] [SPrint (ENum (lit "2"))]] /\
  script_in (lit "static letter = 1" ++ [LF]) = Some [SLet true (lit "ter") (Some (ENum (lit "1")))].
Proof. vm_compute. split; reflexivity. Qed.

(** A "#" that ends its line makes a comment of the whole next line. *)
Theorem C66_comments_end_with_their_line_refuted :
  exists s t b u, lex_in s t = Ahead b /\ t_sym b = T_comment /\ t = lit "#" ++ [LF] ++ u /\ t_rest b <> [LF] ++ u.
Proof. exact comment_runs_on. Qed.
Print Assumptions C66_comments_end_with_their_line_refuted.

Example C66_an_empty_comment_takes_a_line :
  script_in (lit "#" ++ [LF] ++ lit "print 1" ++ [LF] ++ lit "print 2" ++ [LF]) = Some [SPrint (ENum (lit "2"))].
Proof. vm_compute. reflexivity. Qed.
