(** * Characters: how the lexer reads a text (src/flamingo/runtime/lexer.c, unicode.h, unicode/utf8.h).

    [FlParse.lex] takes a text byte by byte; here are the functions as they are, character by character. *)

From Coq Require Import NArith ZArith Ascii String Bool List.
From Verif Require Import Base FlAst FlTables FlParse FlRead.
Import ListNotations.
Local Open Scope N_scope.

(** unicode/utf8.h 90, 107: [U8_LEAD3_T1_BITS], [U8_LEAD4_T1_BITS]. *)
Definition lead3_bits : list N := [32; 48; 48; 48; 48; 48; 48; 48; 48; 48; 48; 48; 48; 16; 48; 48].
Definition lead4_bits : list N := [0; 0; 0; 0; 0; 0; 0; 0; 30; 15; 15; 15; 0; 0; 0; 0].

(** unicode.h 19: [TS_DECODE_ERROR]. lexer.c 100-102: one byte is taken. *)
Definition ill_formed : Z * nat := ((-1)%Z, 1%nat).

(** unicode/utf8.h 400-403: the last trail byte, [n] bytes having been taken. [x << 6 | y] is written as [64 * x + y] where [y] has six bits. *)
Definition trail (b : N) : bool := (128 <=? b) && (b <=? 191).
Definition last_trail (c : N) (n : nat) (t : bytes) : Z * nat :=
  match t with
  | b :: _ => let b := N_of_ascii b in if trail b then (Z.of_N (64 * c + (b - 128)), S n) else ill_formed
  | [] => ill_formed
  end.

(** unicode/utf8.h 380-408 [U8_INTERNAL_NEXT_OR_SUB], unicode.h 31-39 [ts_decode_utf8], lexer.c 74-103 [ts_lexer__get_lookahead]: the character at the start of the text and how many bytes it has. Reading it again from a new chunk (lexer.c 93-98) makes
    no difference, since there is one chunk, up to the end (runtime/parser.c 87-102 [ts_string_input_read]). *)
Definition next_char (t : bytes) : Z * nat :=
  match t with
  | [] => (0%Z, 1%nat)
  | b :: t1 =>
    let c := N_of_ascii b in
    if c <? 128 then (Z.of_N c, 1%nat)
    else match t1 with
    | [] => ill_formed
    | b1 :: t2 =>
      let x := N_of_ascii b1 in
      if 224 <=? c then
        if c <? 240 then
          if N.testbit (nth (N.to_nat (c mod 16)) lead3_bits 0) (x / 32) then last_trail (64 * (c mod 16) + x mod 64) 2 t2 else ill_formed
        else if (c - 240 <=? 4) && N.testbit (nth (N.to_nat (x / 16)) lead4_bits 0) (c - 240) then
          match t2 with
          | b2 :: t3 => let y := N_of_ascii b2 in if trail y then last_trail (64 * (64 * (c - 240) + x mod 64) + (y - 128)) 3 t3 else ill_formed
          | [] => ill_formed
          end
        else ill_formed
      else if 194 <=? c then last_trail (c mod 32) 1 t1 else ill_formed
    end
  end.

(** The tests of parser.c 1449-2790 [ts_lex] on a character. *)
Fixpoint holds_char (c : cond) (eof : bool) (la : Z) : bool :=
  match c with
  | CEof => eof
  | CEq n => (la =? Z.of_N n)%Z
  | CNe n => negb (la =? Z.of_N n)%Z
  | CIn lo hi => ((Z.of_N lo <=? la) && (la <=? Z.of_N hi))%Z
  | COr a b => holds_char a eof la || holds_char b eof la
  | CAnd a b => holds_char a eof la && holds_char b eof la
  end.
Fixpoint pick_char (l : list (cond * move)) (eof : bool) (la : Z) : option move :=
  match l with
  | [] => None
  | (c, m) :: l' => if holds_char c eof la then Some m else pick_char l' eof la
  end.

(** As [FlParse.lex_run], with lexer.c 159-206 [ts_lexer__do_advance]: a character is taken with all its bytes. *)
Fixpoint lex_chars_run (fuel : nat) (k : N) (t blank taken : bytes) (best : option token) : lexed :=
  match fuel with
  | O => LexLoop
  | S fuel' =>
    let (acc, tests) := lex_state k in
    let best' := match acc with Some x => Some (Token x (rev blank) (rev taken) t) | None => best end in
    let (la, n) := next_char t in
    match pick_char tests (at_eof t) la with
    | None => match best' with Some b => Found b | None => NotFound end
    | Some (Advance k') => lex_chars_run fuel' k' (skipn n t) blank (rev (firstn n t) ++ taken) best'
    | Some (Skip k') => lex_chars_run fuel' k' (skipn n t) (rev (firstn n t) ++ taken ++ blank) [] best'
    end
  end.
Definition lex_chars (k : N) (t : bytes) : lexed := lex_chars_run (length t + 3) k t [] [] None.

(** runtime/parser.c 505-694 [ts_parser__lex], as [FlParse.lex_in]. *)
Definition lex_chars_in (s : N) (t : bytes) : ahead :=
  match lex_mode s with
  | None => NullAhead
  | Some m =>
    match lex_chars m t with
    | Found k => Ahead k
    | LexLoop => AheadLoop
    | NotFound => match lex_chars 0 t with Found k => Ahead k | NotFound => NoToken | LexLoop => AheadLoop end
    end
  end.

(** lexer.c 24, 337-350 [ts_lexer_start] at the start of the text: [BYTE_ORDER_MARK] is skipped. *)
Definition skip_mark (t : bytes) : bytes :=
  let (la, n) := next_char t in if (la =? 65279)%Z then skipn n t else t.

(** The parser on characters: as [FlParse.advance], [turns], [parse] and [FlRead.script_in], with the lexer above. *)
Definition advance_chars (stk : stack) (la : option ahead) (t : bytes) : turn :=
  advance stk (Some (match la with Some a => a | None => lex_chars_in (state stk) t end)) t.
Fixpoint turns_chars (fuel : nat) (stk : stack) (la : option ahead) (t : bytes) : parsed :=
  match fuel with
  | O => NoFuel
  | S fuel' =>
    match advance_chars stk la t with
    | Next stk' la' t' => turns_chars fuel' stk' la' t'
    | Done r => r
    end
  end.
Definition parse_chars (t : bytes) : parsed := turns_chars (parse_fuel t) [] None (skip_mark t).
Definition read_script (t : bytes) : option (list stmt) :=
  match parse_chars t with Parsed r => script_of r | _ => None end.
