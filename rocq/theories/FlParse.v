(** * Reading a script: the lexer and the parser of Flamingo.

    [flamingo_create] (flamingo.c 64-150) gives the text of a script to tree-sitter, whose runtime
    (src/flamingo/runtime) runs the tables of [FlTables.v]. This is the run of the runtime on a text without syntax
    errors. What is left out:
    - error recovery: a text at which the tables have no action is [Rejected], where tree-sitter makes up a tree with
      error nodes (runtime/parser.c 1092-1515);
    - what only serves parsing a text again after an edit, several stack versions at a time (the tables never ask for
      two, [one_action] of ParseProofs.v), time limits, external scanners and keyword lexers, of which Flamingo has none
      (parser.c 15300 on);
    - characters of several bytes, which are taken like as many bytes: Utf8.v has the lexer as it is, C73 is that this makes no
      difference; positions in rows and columns; texts of 4 GiB and more. *)

From Coq Require Import NArith Ascii String Bool List.
From Verif Require Import Base FlTables.
Import ListNotations.
Local Open Scope N_scope.

(** ** The lexer *)

(** runtime/lexer.c 67-103 [ts_lexer__get_lookahead]: the next character, NUL at the end. *)
Definition lookahead (t : bytes) : N :=
  match t with [] => 0 | c :: _ => N_of_ascii c end.

Definition at_eof (t : bytes) : bool :=
  match t with [] => true | _ => false end.

(** The tests of parser.c 1449-2790 [ts_lex]. *)
Fixpoint holds (c : cond) (eof : bool) (la : N) : bool :=
  match c with
  | CEof => eof
  | CEq n => la =? n
  | CNe n => negb (la =? n)
  | CIn lo hi => (lo <=? la) && (la <=? hi)
  | COr a b => holds a eof la || holds b eof la
  | CAnd a b => holds a eof la && holds b eof la
  end.

Fixpoint pick (l : list (cond * move)) (eof : bool) (la : N) : option move :=
  match l with
  | [] => None
  | (c, m) :: l' => if holds c eof la then Some m else pick l' eof la
  end.

Definition lex_state (k : N) : option sym * list (cond * move) :=
  nth (N.to_nat k) lex_states (None, []).

(** A token: its symbol, the blanks before it, its text and what follows it. *)
Record token := Token { t_sym : sym; t_blank : bytes; t_text : bytes; t_rest : bytes }.

Inductive lexed := Found (k : token) | NotFound | LexLoop.

(** parser.c 1449-2790 [ts_lex] with the macros of tree_sitter/parser.h 128-164 and the functions of runtime/lexer.c
    152-260, 337-380. [blank] and [taken] are the skipped and the consumed bytes so far, last first; [best] is the token
    of the last ACCEPT_TOKEN. At the end of the text [advance] does not move. *)
Fixpoint lex_run (fuel : nat) (k : N) (t blank taken : bytes) (best : option token) : lexed :=
  match fuel with
  | O => LexLoop
  | S fuel' =>
    let (acc, tests) := lex_state k in
    let best' := match acc with Some x => Some (Token x (rev blank) (rev taken) t) | None => best end in
    match pick tests (at_eof t) (lookahead t) with
    | None => match best' with Some b => Found b | None => NotFound end
    | Some (Advance k') =>
      match t with
      | [] => lex_run fuel' k' [] blank taken best'
      | c :: t' => lex_run fuel' k' t' blank (c :: taken) best'
      end
    | Some (Skip k') =>
      match t with
      | [] => lex_run fuel' k' [] (taken ++ blank) [] best'
      | c :: t' => lex_run fuel' k' t' (c :: taken ++ blank) [] best'
      end
    end
  end.

Definition lex (k : N) (t : bytes) : lexed := lex_run (length t + 3) k t [] [] None.

(** runtime/parser.c 505-694 [ts_parser__lex]: in the mode of the state, and if this finds nothing in that of the error
    state 0. [NoToken] is the error leaf of 618-632. *)
Inductive ahead := Ahead (k : token) | NullAhead | NoToken | AheadLoop.

Definition lex_mode (s : N) : option N := nth (N.to_nat s) lex_modes (Some 0).

Definition lex_in (s : N) (t : bytes) : ahead :=
  match lex_mode s with
  | None => NullAhead
  | Some m =>
    match lex m t with
    | Found k => Ahead k
    | LexLoop => AheadLoop
    | NotFound => match lex 0 t with Found k => Ahead k | NotFound => NoToken | LexLoop => AheadLoop end
    end
  end.

(** ** The parser *)

(** The nodes of a tree: tokens, and inner nodes with their production and children. [extra]: comments and the end of the
    text, which may stand anywhere. *)
Inductive tree :=
| Leaf (x : sym) (blank text : bytes) (extra : bool)
| Node (x : sym) (p : N) (cs : list tree) (extra : bool).

Definition root (t : tree) : sym := match t with Leaf x _ _ _ | Node x _ _ _ => x end.

Definition extra (t : tree) : bool := match t with Leaf _ _ _ e | Node _ _ _ e => e end.

Definition sym_eqb (x y : sym) : bool := code x =? code y.

Definition row (s : N) : list (list action * list sym) * list (N * list sym) := nth (N.to_nat s) rows ([], []).

Fixpoint entry {A : Type} (l : list (A * list sym)) (x : sym) : option A :=
  match l with
  | [] => None
  | (a, xs) :: l' => if existsb (sym_eqb x) xs then Some a else entry l' x
  end.

(** runtime/language.c 35-53 [ts_language_table_entry], runtime/language.h 79-99 [ts_language_lookup]. *)
Definition actions (s : N) (x : sym) : list action :=
  match entry (fst (row s)) x with Some l => l | None => [] end.

(** runtime/language.c [ts_language_next_state] on nonterminals; 0 is the absent entry. *)
Definition goto (s : N) (x : sym) : N :=
  match entry (snd (row s)) x with Some k => k | None => 0 end.

(** The stack: states with the tree that leads to each, top first. runtime/stack.c 434: the bottom is state 1. *)
Definition stack := list (N * tree).

Definition state (stk : stack) : N := match stk with [] => 1 | (s, _) :: _ => s end.

(** runtime/stack.c 324-395, 514-525 [ts_stack_pop_count]: [n] trees and the extra ones above and between them. *)
Fixpoint pop (n : nat) (stk : stack) (acc : list tree) : option (list tree * stack) :=
  match n, stk with
  | O, _ => Some (acc, stk)
  | S _, [] => None
  | S m, (_, t) :: stk' => pop (if extra t then n else m) stk' (t :: acc)
  end.

(** runtime/subtree.c 93-108 [ts_subtree_array_remove_trailing_extras]. *)
Fixpoint split_extras (cs : list tree) : list tree * list tree :=
  match cs with
  | [] => ([], [])
  | c :: cs' =>
    match split_extras cs' with
    | ([], es) => if extra c then ([], c :: es) else ([c], es)
    | (ds, es) => (c :: ds, es)
    end
  end.

(** runtime/parser.c 924-1037 [ts_parser__reduce]. [ended]: the lookahead is null, at the end of a "##" comment. *)
Definition reduce (x : sym) (n : nat) (p : N) (ended : bool) (stk : stack) : option stack :=
  match pop n stk [] with
  | None => None
  | Some (cs, stk') =>
    let (ds, es) := split_extras cs in
    let s := state stk' in
    let s' := goto s x in
    Some (rev (map (fun e => (s', e)) es) ++ (s', Node x p ds (ended && (s' =? s))) :: stk')
  end.

(** runtime/parser.c 1039-1090 [ts_parser__accept]: the children of the last tree that is not extra, with the extra trees
    before and after it, among them the end of the text (runtime/subtree.c 172). *)
Fixpoint split_last (cs : list tree) : option (list tree * tree * list tree) :=
  match cs with
  | [] => None
  | c :: cs' =>
    match split_last cs' with
    | Some (a, t, b) => Some (c :: a, t, b)
    | None => if extra c then None else Some ([], c, cs')
    end
  end.

Definition accept (end_ : tree) (stk : stack) : option tree :=
  match split_last (rev (map snd stk) ++ [end_]) with
  | Some (a, Node x p cs e, b) => Some (Node x p (a ++ cs ++ b) false)
  | _ => None
  end.

(** What comes out: a tree, or a syntax error, or (which ParseProofs.v rules out) a table that does not fit the stack. *)
Inductive parsed := Parsed (t : tree) | Rejected | Stuck | NoFuel.

(** One turn of the loop of runtime/parser.c 1516-1732 [ts_parser__advance] with the stack, the lookahead (if there is one
    already) and the text after the stack. Repeated shifts are passed over (1586). *)
Inductive turn := Next (stk : stack) (la : option ahead) (t : bytes) | Done (r : parsed).

Fixpoint first_action (l : list action) : option action :=
  match l with
  | [] => None
  | ShiftRepeat _ :: l' => first_action l'
  | a :: _ => Some a
  end.

Definition advance (stk : stack) (la : option ahead) (t : bytes) : turn :=
  let s := state stk in
  let a := match la with Some a => a | None => lex_in s t end in
  match a with
  | AheadLoop => Done NoFuel
  | NoToken => Done Rejected
  | Ahead k =>
    match first_action (actions s (t_sym k)) with
    | Some (Shift s') => Next ((s', Leaf (t_sym k) (t_blank k) (t_text k) false) :: stk) None (t_rest k)
    | Some ShiftExtra => Next ((s, Leaf (t_sym k) (t_blank k) (t_text k) true) :: stk) None (t_rest k)
    | Some (Reduce x n p) =>
      match reduce x n p false stk with Some stk' => Next stk' (Some a) t | None => Done Stuck end
    | Some Accept =>
      match accept (Leaf (t_sym k) (t_blank k) (t_text k) true) stk with
      | Some r => Done (Parsed r)
      | None => Done Stuck
      end
    | Some (ShiftRepeat _) | Some Recover | None => Done Rejected
    end
  | NullAhead =>
    match first_action (actions s T_end) with
    | Some (Reduce x n p) =>
      match reduce x n p true stk with Some stk' => Next stk' None t | None => Done Stuck end
    | _ => Done Stuck
    end
  end.

(** runtime/parser.c 1996-2120 [ts_parser_parse]. *)
Fixpoint turns (fuel : nat) (stk : stack) (la : option ahead) (t : bytes) : parsed :=
  match fuel with
  | O => NoFuel
  | S fuel' =>
    match advance stk la t with
    | Next stk' la' t' => turns fuel' stk' la' t'
    | Done r => r
    end
  end.

(** Enough turns for every text ([parse_ok] of ParseProofs.v). *)
Definition parse_fuel (t : bytes) : nat := 40 * (length t + 2).

(** runtime/lexer.c 337-350 [ts_lexer_start] skips a byte order mark at the start of the text. *)
Definition drop_mark (t : bytes) : bytes :=
  match t with
  | a :: b :: c :: t' =>
    if (N_of_ascii a =? 239) && (N_of_ascii b =? 187) && (N_of_ascii c =? 191) then t' else t
  | _ => t
  end.

Definition parse (t : bytes) : parsed :=
  turns (parse_fuel t) [] None (drop_mark t).
