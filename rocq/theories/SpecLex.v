(** * The words of a Flamingo script: what its tokens look like. *)

From Coq Require Import NArith Ascii String Bool List.
From Verif Require Import Base FlTables.
Import ListNotations.

(** ** Bytes *)

Definition between (lo hi : N) (c : ascii) : bool := ((lo <=? N_of_ascii c) && (N_of_ascii c <=? hi))%N.

(** Tab, newline, vertical tab, form feed, carriage return, space. *)
Definition blank (c : ascii) : bool := between 9 13 c || Ascii.eqb c " ".

Definition digit (c : ascii) : bool := between 48 57 c.

Definition letter (c : ascii) : bool := between 65 90 c || between 97 122 c || Ascii.eqb c "_".

Definition wordly (c : ascii) : bool := letter c || digit c.

Definition LF : ascii := ascii_of_nat 10.

(** A byte of a line: neither a newline nor NUL. *)
Definition inline (c : ascii) : bool := negb (Ascii.eqb c LF) && negb (Ascii.eqb c NUL).

(** ** Tokens *)

(** The tokens with one spelling. *)
Definition word (x : sym) : option bytes :=
  match x with
  | T_SEMI => Some (lit ";") | T_POUND_POUND => Some (lit "##") | T_LBRACE => Some (lit "{") | T_RBRACE => Some (lit "}")
  | T_import => Some (lit "import") | T_DOT => Some (lit ".") | T_static => Some (lit "static")
  | T_pure => Some (lit "pure") | T_proto => Some (lit "proto") | T_LPAREN => Some (lit "(")
  | T_RPAREN => Some (lit ")") | T_DASH_GT => Some (lit "->") | T_fn => Some (lit "fn") | T_PIPE => Some (lit "|")
  | T_class => Some (lit "class") | T_print => Some (lit "print") | T_assert => Some (lit "assert")
  | T_return => Some (lit "return") | T_vec => Some (lit "vec") | T_map => Some (lit "map") | T_LT => Some (lit "<")
  | T_GT => Some (lit ">") | T_COMMA => Some (lit ",") | T_COLON => Some (lit ":") | T_let => Some (lit "let")
  | T_EQ => Some (lit "=") | T_DASH => Some (lit "-") | T_BANG => Some (lit "!") | T_power_operator => Some (lit "**")
  | T_STAR => Some (lit "*") | T_SLASH => Some (lit "/") | T_PERCENT => Some (lit "%") | T_PLUS => Some (lit "+")
  | T_EQ_EQ => Some (lit "==") | T_BANG_EQ => Some (lit "!=") | T_LT_EQ => Some (lit "<=") | T_GT_EQ => Some (lit ">=")
  | T_and_operator => Some (lit "&&") | T_PIPE_PIPE => Some (lit "||") | T_CARET_CARET => Some (lit "^^")
  | T_LBRACK => Some (lit "[") | T_RBRACK => Some (lit "]") | T_PLUS_PLUS => Some (lit "++")
  | T_EQ_EQ_EQ => Some (lit "===") | T_any => Some (lit "any") | T_int => Some (lit "int") | T_str => Some (lit "str")
  | T_bool => Some (lit "bool") | T_void => Some (lit "void") | T_true => Some (lit "true") | T_false => Some (lit "false")
  | T_error => Some (lit "error") | T_none => Some (lit "none")
  | _ => None
  end.

(** A name: letters, digits and underscores, not a digit first. *)
Definition is_name (s : bytes) : bool :=
  match s with
  | [] => false
  | c :: s' => letter c && forallb wordly s'
  end.

(** The inside of a string: no quote, no NUL, and a backslash only before another byte of the line. *)
Inductive quotable : bytes -> Prop :=
| quotable_nil : quotable []
| quotable_plain s c : quotable s -> c <> """"%char -> c <> "\"%char -> c <> NUL -> quotable (s ++ [c])
| quotable_escape s c : quotable s -> inline c = true -> quotable (s ++ ["\"%char; c]).

(** How a token may be spelled. A comment is a "#", a byte that is not another "#", and the rest of the line after that
    byte. What follows "##" is the rest of the line. In that place blanks belong to the token after them. *)
Inductive spelled : sym -> bytes -> Prop :=
| spelled_word x w : word x = Some w -> spelled x w
| spelled_end : spelled T_end []
| spelled_name s : is_name s = true -> spelled T_identifier_token1 s
| spelled_number s : s <> [] -> forallb digit s = true -> spelled T_number s
| spelled_string s : quotable s -> spelled T_string ([""""%char] ++ s ++ [""""%char])
| spelled_newlines s : s <> [] -> forallb (Ascii.eqb LF) s = true -> spelled T_LF s
| spelled_comment b c s :
    forallb blank b = true -> c <> "#"%char -> c <> NUL -> forallb inline s = true ->
    spelled T_comment (b ++ ["#"%char; c] ++ s)
| spelled_doc s : forallb inline s = true -> spelled T_doc_comment_content s
| spelled_doc_mark b : forallb blank b = true -> spelled T_POUND_POUND (b ++ lit "##").

(** The tokens that are spelled like names. *)
Definition keyword (x : sym) : bool :=
  match word x with Some w => is_name w | None => false end.

(** The text after a token does not go on with a byte of a name. *)
Definition stops (r : bytes) : Prop :=
  match r with [] => True | c :: _ => wordly c = false end.

(** Blanks without a line break. *)
Definition spaces (b : bytes) : Prop := forallb (fun c => blank c && negb (Ascii.eqb c LF)) b = true.
