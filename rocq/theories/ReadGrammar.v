(** * The grammar of scripts in the order in which the parser reads it: a certificate for ReadProofs.v.

    [shapes] splits the nonterminals of SpecGrammar.v into categories by how tightly operators bind and by where a
    statement may end; [fine_table] lists, for every category, the states in which the parser may come to read it and
    the tokens that may follow. [fine_check] runs the tables of FlTables.v over all of this. *)

From Coq Require Import NArith Arith Ascii String Bool List.
From Verif Require Import Base FlTables FlParse SpecLex LexProofs SpecSyntax.
Import ListNotations.
Local Open Scope nat_scope.

Inductive cat :=
| CE (m : nat) | CO (m : nat)       (* expressions with operators from level [m] on; [CO]: a unary operator or a lambda may end them *)
| CArgs | CArg1 | CArgList | CItem | CItem1 | CItems | CType | CParam | CParam1 | CParamsR | CParams | CQual | CQuals
| CPath | CStmt | CClosed | CLine | CLines | CBlock | CBlock1 | CBlockL | CSource.

Definition cat_eq_dec (a b : cat) : {a = b} + {a <> b}.
Proof. decide equality; apply Nat.eq_dec. Defined.

Definition cat_eqb (a b : cat) : bool := if cat_eq_dec a b then true else false.

(** A token, after which the line may be broken or not; a category; a node. *)
Inductive form := Tk (x : sym) (brk : bool) | Ct (c : cat) | Nd (x : sym) (l : list form).

Definition top (c : cat) : sym :=
  match c with
  | CE _ | CO _ => N_expression
  | CArgs | CArg1 => N_arg_list_repeat1
  | CArgList => N_arg_list
  | CItem => N_map_item
  | CItem1 | CItems => N_map_repeat1
  | CType => N_type
  | CParam => N_param
  | CParam1 | CParamsR => N_param_list_repeat1
  | CParams => N_param_list
  | CQual | CQuals => N_qualifier_list_repeat1
  | CPath => N_import_path
  | CStmt => N_statement
  | CClosed => N__line_insensitive_statement
  | CLine | CLines => N__statement_list
  | CBlock | CBlock1 | CBlockL => N_block
  | CSource => N_source_file
  end.

Definition root_of (f : form) : sym := match f with Tk x _ => x | Ct c => top c | Nd x _ => x end.

Definition tk (x : sym) : form := Tk x (breaks x).

Definition ident : form := Nd N_identifier [tk T_identifier_token1].

Definition ex (f : form) : form := Nd N_expression [f].

Definition X : form := Ct (CO 1).

Definition operator (m : nat) (x : sym) : form :=
  match m with
  | 1 => Nd N_or_operator [tk x]
  | 3 => Nd N_comparative_operator [tk x]
  | 4 => Nd N_additive_operator [tk x]
  | 5 => Nd N_multiplicative_operator [tk x]
  | _ => tk x
  end.

(** Nothing, more, a comma, or both. *)
Definition tails (c : cat) : list (list form) := [[]; [tk T_COMMA]; [Ct c]; [Ct c; tk T_COMMA]].

Definition signs (x : sym) : list (list form) := [[]; [tk x; Ct CType]].

Definition signatures : list (list form) :=
  [[]; [tk T_LPAREN; tk T_RPAREN]; [tk T_LPAREN; Ct CParams; tk T_RPAREN]].

Definition qualifieds : list (list form) := [[]; [Nd N_qualifier_list [Ct CQuals]]].

Definition initials : list (list form) := [[]; [tk T_EQ; X]].

Fixpoint product (ls : list (list (list form))) : list (list form) :=
  match ls with
  | [] => [[]]
  | l :: ls' => flat_map (fun a => map (app a) (product ls')) l
  end.

Definition access : form := Nd N_access [Ct (CE 7); tk T_DOT; ident].

Definition index : form := Nd N_index [Ct (CE 7); tk T_LBRACK; X; tk T_RBRACK].

Definition atoms : list form :=
  [ ex (Nd N_literal [tk T_none]); ex (Nd N_literal [tk T_number]); ex (Nd N_literal [tk T_string]);
    ex (Nd N_literal [Nd N_bool [tk T_true]]); ex (Nd N_literal [Nd N_bool [tk T_false]]); ex ident;
    ex (Nd N_parenthesized_expression [tk T_LPAREN; X; tk T_RPAREN]);
    ex (Nd N_vec [tk T_LBRACK; tk T_RBRACK]); ex (Nd N_map [tk T_LBRACE; tk T_RBRACE]);
    ex (Nd N_call [Ct (CE 7); tk T_LPAREN; tk T_RPAREN]);
    ex (Nd N_call [Ct (CE 7); tk T_LPAREN; Ct CArgList; tk T_RPAREN]);
    ex access; ex index ] ++
  map (fun r => ex (Nd N_vec (tk T_LBRACK :: X :: r ++ [tk T_RBRACK]))) (tails CArgs) ++
  map (fun r => ex (Nd N_map (tk T_LBRACE :: Ct CItem :: r ++ [tk T_RBRACE]))) (tails CItems).

Definition opens : list form :=
  [ ex (Nd N_unary_expression [Nd N_unary_operator [tk T_DASH]; X]);
    ex (Nd N_unary_expression [Nd N_unary_operator [tk T_BANG]; X]);
    ex (Nd N_lambda [tk T_PIPE; tk T_PIPE; X]); ex (Nd N_lambda [tk T_PIPE; Ct CParams; tk T_PIPE; X]);
    ex (Nd N_lambda [tk T_PIPE; tk T_PIPE; Ct CBlockL]); ex (Nd N_lambda [tk T_PIPE; Ct CParams; tk T_PIPE; Ct CBlockL]) ].

Definition binary (m : nat) (right : nat -> cat) : list form :=
  map (fun x => ex (Nd N_binary_expression [Ct (CE m); operator m x; Ct (right (S m))])) (operators m).

Definition bodies (brk : bool) : list form :=
  [Nd N_block [tk T_LBRACE; Ct CLines; Tk T_RBRACE brk]; Nd N_block [tk T_LBRACE; Ct CStmt; Tk T_RBRACE brk]].

Definition statements : list form :=
  [ X; Nd N_print [tk T_print; X]; Nd N_assert [tk T_assert; X]; Nd N_return [tk T_return]; Nd N_return [tk T_return; X];
    Nd N_assignment [ident; tk T_EQ; X]; Nd N_assignment [access; tk T_EQ; X]; Nd N_assignment [index; tk T_EQ; X];
    Nd N_import [tk T_import; Ct CPath]; Nd N_import [tk T_import; Nd N_import_relative_dot [tk T_DOT]; Ct CPath] ] ++
  map (Nd N_var_decl) (product [qualifieds; [[tk T_let; ident]]; signs T_COLON; initials]) ++
  map (Nd N_proto) (product [qualifieds; [[tk T_proto; ident]]; signatures; signs T_DASH_GT]).

Definition shapes (c : cat) : list form :=
  match c with
  | CE 7 => atoms
  | CE m => Ct (CE (S m)) :: binary m CE
  | CO 7 => Ct (CE 7) :: opens
  | CO m => Ct (CE m) :: Ct (CO (S m)) :: binary m CO
  | CArg1 => [Nd N_arg_list_repeat1 [tk T_COMMA; X]]
  | CArgs => [Ct CArg1; Nd N_arg_list_repeat1 [Ct CArgs; Ct CArg1]]
  | CArgList => map (fun r => Nd N_arg_list (X :: r)) (tails CArgs)
  | CItem => [Nd N_map_item [X; tk T_COLON; X]]
  | CItem1 => [Nd N_map_repeat1 [tk T_COMMA; Ct CItem]]
  | CItems => [Ct CItem1; Nd N_map_repeat1 [Ct CItems; Ct CItem1]]
  | CType =>
    [ Nd N_type [Nd N_type_name [ident]]; Nd N_type [Nd N_type_name [tk T_vec]]; Nd N_type [Nd N_type_name [tk T_map]];
      Nd N_type [tk T_vec; tk T_LT; Ct CType; tk T_GT];
      Nd N_type [tk T_map; tk T_LT; Ct CType; tk T_COMMA; Ct CType; tk T_GT] ] ++
    map (fun x => Nd N_type [Nd N_type_name [Nd N_identifier [Nd N_primitive_type [tk x]]]])
      [T_any; T_int; T_str; T_bool; T_void]
  | CParam => map (fun r => Nd N_param (ident :: r)) (signs T_COLON)
  | CParam1 => [Nd N_param_list_repeat1 [tk T_COMMA; Ct CParam]]
  | CParamsR => [Ct CParam1; Nd N_param_list_repeat1 [Ct CParamsR; Ct CParam1]]
  | CParams => map (fun r => Nd N_param_list (Ct CParam :: r)) (tails CParamsR)
  | CQual => map (fun x => Nd N_qualifier_list_repeat1 [Nd N_qualifier [tk x]]) [T_static; T_pure]
  | CQuals => [Ct CQual; Nd N_qualifier_list_repeat1 [Ct CQuals; Ct CQual]]
  | CPath => [Nd N_import_path [ident]; Nd N_import_path [ident; tk T_DOT; Ct CPath]]
  | CStmt => map (fun f => Nd N_statement [f]) statements
  | CClosed =>
    map (fun f => Nd N__line_insensitive_statement [f])
      (Ct CBlock1 ::
       map (Nd N_class_declaration) (product [[[tk T_class; ident]]; signatures; [[Ct CBlock]]]) ++
       map (Nd N_function_declaration)
         (product [qualifieds; [[tk T_fn; ident]]; signatures; signs T_DASH_GT; [[Ct CBlock]]]))
  | CLine => [Nd N__statement_list [Ct CClosed]; Nd N__statement_list [Ct CStmt; tk T_LF];
              Nd N__statement_list [Ct CStmt; tk T_SEMI]]
  | CLines => [Ct CLine; Nd N__statement_list [Ct CLines; Ct CLine]]
  | CBlock => Nd N_block [tk T_LBRACE; Tk T_RBRACE true] :: bodies true
  | CBlock1 => bodies true
  | CBlockL => bodies false
  | CSource => [Nd N_source_file [Ct CLines]]
  end.

(** The production of a node by the roots of its children; 0 if not listed. *)
Definition productions : list (sym * list sym * N) := [
  (N_import, [T_import; N_import_path], 1%N);
  (N_import_path, [N_identifier], 2%N);
  (N_proto, [T_proto; N_identifier], 3%N);
  (N_proto, [T_proto; N_identifier; T_LPAREN; T_RPAREN], 3%N);
  (N_var_decl, [T_let; N_identifier], 3%N);
  (N_param, [N_identifier], 4%N);
  (N_print, [T_print; N_expression], 5%N);
  (N_assert, [T_assert; N_expression], 6%N);
  (N_return, [T_return; N_expression], 7%N);
  (N_unary_expression, [N_unary_operator; N_expression], 8%N);
  (N_block, [T_LBRACE; N__statement_list; T_RBRACE], 9%N);
  (N_block, [T_LBRACE; N_statement; T_RBRACE], 9%N);
  (N_import, [T_import; N_import_relative_dot; N_import_path], 10%N);
  (N_parenthesized_expression, [T_LPAREN; N_expression; T_RPAREN], 11%N);
  (N_class_declaration, [T_class; N_identifier; N_block], 12%N);
  (N_function_declaration, [T_fn; N_identifier; N_block], 12%N);
  (N_lambda, [T_PIPE; T_PIPE; N_block], 13%N);
  (N_lambda, [T_PIPE; T_PIPE; N_expression], 13%N);
  (N_proto, [N_qualifier_list; T_proto; N_identifier], 14%N);
  (N_proto, [N_qualifier_list; T_proto; N_identifier; T_LPAREN; T_RPAREN], 14%N);
  (N_var_decl, [N_qualifier_list; T_let; N_identifier], 14%N);
  (N_access, [N_expression; T_DOT; N_identifier], 15%N);
  (N_call, [N_expression; T_LPAREN; T_RPAREN], 16%N);
  (N_binary_expression, [N_expression; N_additive_operator; N_expression], 17%N);
  (N_binary_expression, [N_expression; T_and_operator; N_expression], 17%N);
  (N_binary_expression, [N_expression; N_comparative_operator; N_expression], 17%N);
  (N_binary_expression, [N_expression; N_multiplicative_operator; N_expression], 17%N);
  (N_binary_expression, [N_expression; N_or_operator; N_expression], 17%N);
  (N_binary_expression, [N_expression; T_power_operator; N_expression], 17%N);
  (N_assignment, [N_access; T_EQ; N_expression], 18%N);
  (N_assignment, [N_identifier; T_EQ; N_expression], 18%N);
  (N_assignment, [N_index; T_EQ; N_expression], 18%N);
  (N_map_item, [N_expression; T_COLON; N_expression], 19%N);
  (N_import_path, [N_identifier; T_DOT; N_import_path], 20%N);
  (N_proto, [T_proto; N_identifier; T_DASH_GT; N_type], 21%N);
  (N_lambda, [T_PIPE; N_param_list; T_PIPE; N_block], 22%N);
  (N_lambda, [T_PIPE; N_param_list; T_PIPE; N_expression], 22%N);
  (N_param, [N_identifier; T_COLON; N_type], 23%N);
  (N_var_decl, [T_let; N_identifier; T_COLON; N_type], 24%N);
  (N_var_decl, [T_let; N_identifier; T_EQ; N_expression], 25%N);
  (N_function_declaration, [N_qualifier_list; T_fn; N_identifier; N_block], 26%N);
  (N_call, [N_expression; T_LPAREN; N_arg_list; T_RPAREN], 27%N);
  (N_index, [N_expression; T_LBRACK; N_expression; T_RBRACK], 29%N);
  (N_proto, [T_proto; N_identifier; T_LPAREN; N_param_list; T_RPAREN], 30%N);
  (N_class_declaration, [T_class; N_identifier; T_LPAREN; T_RPAREN; N_block], 31%N);
  (N_function_declaration, [T_fn; N_identifier; T_LPAREN; T_RPAREN; N_block], 31%N);
  (N_function_declaration, [T_fn; N_identifier; T_DASH_GT; N_type; N_block], 32%N);
  (N_proto, [N_qualifier_list; T_proto; N_identifier; T_DASH_GT; N_type], 33%N);
  (N_var_decl, [N_qualifier_list; T_let; N_identifier; T_COLON; N_type], 34%N);
  (N_var_decl, [N_qualifier_list; T_let; N_identifier; T_EQ; N_expression], 35%N);
  (N_proto, [T_proto; N_identifier; T_LPAREN; T_RPAREN; T_DASH_GT; N_type], 38%N);
  (N_class_declaration, [T_class; N_identifier; T_LPAREN; N_param_list; T_RPAREN; N_block], 39%N);
  (N_function_declaration, [T_fn; N_identifier; T_LPAREN; N_param_list; T_RPAREN; N_block], 39%N);
  (N_var_decl, [T_let; N_identifier; T_COLON; N_type; T_EQ; N_expression], 40%N);
  (N_proto, [N_qualifier_list; T_proto; N_identifier; T_LPAREN; N_param_list; T_RPAREN], 41%N);
  (N_function_declaration, [N_qualifier_list; T_fn; N_identifier; T_LPAREN; T_RPAREN; N_block], 42%N);
  (N_function_declaration, [N_qualifier_list; T_fn; N_identifier; T_DASH_GT; N_type; N_block], 43%N);
  (N_proto, [T_proto; N_identifier; T_LPAREN; N_param_list; T_RPAREN; T_DASH_GT; N_type], 45%N);
  (N_function_declaration, [T_fn; N_identifier; T_LPAREN; T_RPAREN; T_DASH_GT; N_type; N_block], 46%N);
  (N_proto, [N_qualifier_list; T_proto; N_identifier; T_LPAREN; T_RPAREN; T_DASH_GT; N_type], 47%N);
  (N_function_declaration, [N_qualifier_list; T_fn; N_identifier; T_LPAREN; N_param_list; T_RPAREN; N_block], 48%N);
  (N_var_decl, [N_qualifier_list; T_let; N_identifier; T_COLON; N_type; T_EQ; N_expression], 49%N);
  (N_function_declaration, [T_fn; N_identifier; T_LPAREN; N_param_list; T_RPAREN; T_DASH_GT; N_type; N_block], 50%N);
  (N_proto, [N_qualifier_list; T_proto; N_identifier; T_LPAREN; N_param_list; T_RPAREN; T_DASH_GT; N_type], 51%N);
  (N_function_declaration, [N_qualifier_list; T_fn; N_identifier; T_LPAREN; T_RPAREN; T_DASH_GT; N_type; N_block], 52%N);
  (N_function_declaration, [N_qualifier_list; T_fn; N_identifier; T_LPAREN; N_param_list; T_RPAREN; T_DASH_GT; N_type; N_block], 53%N)
].


Definition syms_eqb (a b : list sym) : bool := (length a =? length b) && forallb (fun p => sym_eqb (fst p) (snd p)) (combine a b).

Definition production (x : sym) (w : list sym) : N :=
  match find (fun e => sym_eqb x (fst (fst e)) && syms_eqb w (snd (fst e))) productions with
  | Some (_, _, p) => p
  | None => 0%N
  end.

(** ** What each category starts with *)

Definition xs0 : list sym :=
  [T_LBRACE; T_LPAREN; T_LBRACK; T_identifier_token1; T_number; T_string; T_true; T_false; T_error; T_none].
Definition xs1 : list sym :=
  [T_LBRACE; T_LPAREN; T_PIPE; T_DASH; T_BANG; T_LBRACK; T_identifier_token1; T_number; T_string; T_true; T_false;
  T_error; T_none].
Definition xs2 : list sym :=
  [T_COMMA].
Definition xs3 : list sym :=
  [T_vec; T_map; T_any; T_int; T_str; T_bool; T_void; T_identifier_token1].
Definition xs4 : list sym :=
  [T_identifier_token1].
Definition xs5 : list sym :=
  [T_static; T_pure].
Definition xs6 : list sym :=
  [T_LBRACE; T_import; T_static; T_pure; T_proto; T_LPAREN; T_PIPE; T_print; T_assert; T_return; T_let; T_DASH;
  T_BANG; T_LBRACK; T_identifier_token1; T_number; T_string; T_true; T_false; T_error; T_none].
Definition xs7 : list sym :=
  [T_LBRACE; T_static; T_pure; T_fn; T_class].
Definition xs8 : list sym :=
  [T_LBRACE; T_import; T_static; T_pure; T_proto; T_LPAREN; T_fn; T_PIPE; T_class; T_print; T_assert; T_return;
  T_let; T_DASH; T_BANG; T_LBRACK; T_identifier_token1; T_number; T_string; T_true; T_false; T_error; T_none].
Definition xs9 : list sym :=
  [T_LBRACE].
Definition xs10 : list sym :=
  [T_SEMI; T_LF; T_DOT; T_LPAREN; T_LT; T_GT; T_DASH; T_power_operator; T_STAR; T_SLASH; T_PERCENT; T_PLUS; T_EQ_EQ;
  T_BANG_EQ; T_LT_EQ; T_GT_EQ; T_and_operator; T_PIPE_PIPE; T_CARET_CARET; T_LBRACK].
Definition xs11 : list sym :=
  [T_SEMI; T_LF; T_RBRACE; T_DOT; T_LPAREN; T_LT; T_GT; T_COLON; T_DASH; T_power_operator; T_STAR; T_SLASH;
  T_PERCENT; T_PLUS; T_EQ_EQ; T_BANG_EQ; T_LT_EQ; T_GT_EQ; T_and_operator; T_PIPE_PIPE; T_CARET_CARET; T_LBRACK].
Definition xs12 : list sym :=
  [T_SEMI; T_LF; T_RBRACE; T_DOT; T_LPAREN; T_LT; T_GT; T_DASH; T_power_operator; T_STAR; T_SLASH; T_PERCENT; T_PLUS;
  T_EQ_EQ; T_BANG_EQ; T_LT_EQ; T_GT_EQ; T_and_operator; T_PIPE_PIPE; T_CARET_CARET; T_LBRACK].
Definition xs13 : list sym :=
  [T_DOT; T_LPAREN; T_LT; T_GT; T_COLON; T_DASH; T_power_operator; T_STAR; T_SLASH; T_PERCENT; T_PLUS; T_EQ_EQ;
  T_BANG_EQ; T_LT_EQ; T_GT_EQ; T_and_operator; T_PIPE_PIPE; T_CARET_CARET; T_LBRACK].
Definition xs14 : list sym :=
  [T_DOT; T_LPAREN; T_RPAREN; T_LT; T_GT; T_COMMA; T_DASH; T_power_operator; T_STAR; T_SLASH; T_PERCENT; T_PLUS;
  T_EQ_EQ; T_BANG_EQ; T_LT_EQ; T_GT_EQ; T_and_operator; T_PIPE_PIPE; T_CARET_CARET; T_LBRACK].
Definition xs15 : list sym :=
  [T_DOT; T_LPAREN; T_LT; T_GT; T_COMMA; T_DASH; T_power_operator; T_STAR; T_SLASH; T_PERCENT; T_PLUS; T_EQ_EQ;
  T_BANG_EQ; T_LT_EQ; T_GT_EQ; T_and_operator; T_PIPE_PIPE; T_CARET_CARET; T_LBRACK; T_RBRACK].
Definition xs16 : list sym :=
  [T_DOT; T_LPAREN; T_LT; T_GT; T_DASH; T_power_operator; T_STAR; T_SLASH; T_PERCENT; T_PLUS; T_EQ_EQ; T_BANG_EQ;
  T_LT_EQ; T_GT_EQ; T_and_operator; T_PIPE_PIPE; T_CARET_CARET; T_LBRACK; T_RBRACK].
Definition xs17 : list sym :=
  [T_RBRACE; T_DOT; T_LPAREN; T_RPAREN; T_LT; T_GT; T_COMMA; T_COLON; T_DASH; T_power_operator; T_STAR; T_SLASH;
  T_PERCENT; T_PLUS; T_EQ_EQ; T_BANG_EQ; T_LT_EQ; T_GT_EQ; T_and_operator; T_PIPE_PIPE; T_CARET_CARET; T_LBRACK;
  T_RBRACK].
Definition xs18 : list sym :=
  [T_RBRACE; T_DOT; T_LPAREN; T_LT; T_GT; T_COMMA; T_DASH; T_power_operator; T_STAR; T_SLASH; T_PERCENT; T_PLUS;
  T_EQ_EQ; T_BANG_EQ; T_LT_EQ; T_GT_EQ; T_and_operator; T_PIPE_PIPE; T_CARET_CARET; T_LBRACK].
Definition xs19 : list sym :=
  [T_DOT; T_LPAREN; T_RPAREN; T_LT; T_GT; T_DASH; T_power_operator; T_STAR; T_SLASH; T_PERCENT; T_PLUS; T_EQ_EQ;
  T_BANG_EQ; T_LT_EQ; T_GT_EQ; T_and_operator; T_PIPE_PIPE; T_CARET_CARET; T_LBRACK].
Definition xs20 : list sym :=
  [T_SEMI; T_LF; T_LT; T_GT; T_DASH; T_power_operator; T_STAR; T_SLASH; T_PERCENT; T_PLUS; T_EQ_EQ; T_BANG_EQ;
  T_LT_EQ; T_GT_EQ; T_and_operator; T_PIPE_PIPE; T_CARET_CARET].
Definition xs21 : list sym :=
  [T_SEMI; T_LF; T_RBRACE; T_LT; T_GT; T_COLON; T_DASH; T_power_operator; T_STAR; T_SLASH; T_PERCENT; T_PLUS;
  T_EQ_EQ; T_BANG_EQ; T_LT_EQ; T_GT_EQ; T_and_operator; T_PIPE_PIPE; T_CARET_CARET].
Definition xs22 : list sym :=
  [T_SEMI; T_LF; T_RBRACE; T_LT; T_GT; T_DASH; T_power_operator; T_STAR; T_SLASH; T_PERCENT; T_PLUS; T_EQ_EQ;
  T_BANG_EQ; T_LT_EQ; T_GT_EQ; T_and_operator; T_PIPE_PIPE; T_CARET_CARET].
Definition xs23 : list sym :=
  [T_LT; T_GT; T_COLON; T_DASH; T_power_operator; T_STAR; T_SLASH; T_PERCENT; T_PLUS; T_EQ_EQ; T_BANG_EQ; T_LT_EQ;
  T_GT_EQ; T_and_operator; T_PIPE_PIPE; T_CARET_CARET].
Definition xs24 : list sym :=
  [T_RPAREN; T_LT; T_GT; T_COMMA; T_DASH; T_power_operator; T_STAR; T_SLASH; T_PERCENT; T_PLUS; T_EQ_EQ; T_BANG_EQ;
  T_LT_EQ; T_GT_EQ; T_and_operator; T_PIPE_PIPE; T_CARET_CARET].
Definition xs25 : list sym :=
  [T_LT; T_GT; T_COMMA; T_DASH; T_power_operator; T_STAR; T_SLASH; T_PERCENT; T_PLUS; T_EQ_EQ; T_BANG_EQ; T_LT_EQ;
  T_GT_EQ; T_and_operator; T_PIPE_PIPE; T_CARET_CARET; T_RBRACK].
Definition xs26 : list sym :=
  [T_LT; T_GT; T_DASH; T_power_operator; T_STAR; T_SLASH; T_PERCENT; T_PLUS; T_EQ_EQ; T_BANG_EQ; T_LT_EQ; T_GT_EQ;
  T_and_operator; T_PIPE_PIPE; T_CARET_CARET; T_RBRACK].
Definition xs27 : list sym :=
  [T_RBRACE; T_RPAREN; T_LT; T_GT; T_COMMA; T_COLON; T_DASH; T_power_operator; T_STAR; T_SLASH; T_PERCENT; T_PLUS;
  T_EQ_EQ; T_BANG_EQ; T_LT_EQ; T_GT_EQ; T_and_operator; T_PIPE_PIPE; T_CARET_CARET; T_RBRACK].
Definition xs28 : list sym :=
  [T_RBRACE; T_LT; T_GT; T_COMMA; T_DASH; T_power_operator; T_STAR; T_SLASH; T_PERCENT; T_PLUS; T_EQ_EQ; T_BANG_EQ;
  T_LT_EQ; T_GT_EQ; T_and_operator; T_PIPE_PIPE; T_CARET_CARET].
Definition xs29 : list sym :=
  [T_RPAREN; T_LT; T_GT; T_DASH; T_power_operator; T_STAR; T_SLASH; T_PERCENT; T_PLUS; T_EQ_EQ; T_BANG_EQ; T_LT_EQ;
  T_GT_EQ; T_and_operator; T_PIPE_PIPE; T_CARET_CARET].
Definition xs30 : list sym :=
  [T_SEMI; T_LF; T_LT; T_GT; T_DASH; T_STAR; T_SLASH; T_PERCENT; T_PLUS; T_EQ_EQ; T_BANG_EQ; T_LT_EQ; T_GT_EQ;
  T_and_operator; T_PIPE_PIPE; T_CARET_CARET].
Definition xs31 : list sym :=
  [T_SEMI; T_LF; T_RBRACE; T_LT; T_GT; T_COLON; T_DASH; T_STAR; T_SLASH; T_PERCENT; T_PLUS; T_EQ_EQ; T_BANG_EQ;
  T_LT_EQ; T_GT_EQ; T_and_operator; T_PIPE_PIPE; T_CARET_CARET].
Definition xs32 : list sym :=
  [T_SEMI; T_LF; T_RBRACE; T_LT; T_GT; T_DASH; T_STAR; T_SLASH; T_PERCENT; T_PLUS; T_EQ_EQ; T_BANG_EQ; T_LT_EQ;
  T_GT_EQ; T_and_operator; T_PIPE_PIPE; T_CARET_CARET].
Definition xs33 : list sym :=
  [T_LT; T_GT; T_COLON; T_DASH; T_STAR; T_SLASH; T_PERCENT; T_PLUS; T_EQ_EQ; T_BANG_EQ; T_LT_EQ; T_GT_EQ;
  T_and_operator; T_PIPE_PIPE; T_CARET_CARET].
Definition xs34 : list sym :=
  [T_RPAREN; T_LT; T_GT; T_COMMA; T_DASH; T_STAR; T_SLASH; T_PERCENT; T_PLUS; T_EQ_EQ; T_BANG_EQ; T_LT_EQ; T_GT_EQ;
  T_and_operator; T_PIPE_PIPE; T_CARET_CARET].
Definition xs35 : list sym :=
  [T_LT; T_GT; T_COMMA; T_DASH; T_STAR; T_SLASH; T_PERCENT; T_PLUS; T_EQ_EQ; T_BANG_EQ; T_LT_EQ; T_GT_EQ;
  T_and_operator; T_PIPE_PIPE; T_CARET_CARET; T_RBRACK].
Definition xs36 : list sym :=
  [T_LT; T_GT; T_DASH; T_STAR; T_SLASH; T_PERCENT; T_PLUS; T_EQ_EQ; T_BANG_EQ; T_LT_EQ; T_GT_EQ; T_and_operator;
  T_PIPE_PIPE; T_CARET_CARET; T_RBRACK].
Definition xs37 : list sym :=
  [T_RBRACE; T_RPAREN; T_LT; T_GT; T_COMMA; T_COLON; T_DASH; T_STAR; T_SLASH; T_PERCENT; T_PLUS; T_EQ_EQ; T_BANG_EQ;
  T_LT_EQ; T_GT_EQ; T_and_operator; T_PIPE_PIPE; T_CARET_CARET; T_RBRACK].
Definition xs38 : list sym :=
  [T_RBRACE; T_LT; T_GT; T_COMMA; T_DASH; T_STAR; T_SLASH; T_PERCENT; T_PLUS; T_EQ_EQ; T_BANG_EQ; T_LT_EQ; T_GT_EQ;
  T_and_operator; T_PIPE_PIPE; T_CARET_CARET].
Definition xs39 : list sym :=
  [T_RPAREN; T_LT; T_GT; T_DASH; T_STAR; T_SLASH; T_PERCENT; T_PLUS; T_EQ_EQ; T_BANG_EQ; T_LT_EQ; T_GT_EQ;
  T_and_operator; T_PIPE_PIPE; T_CARET_CARET].
Definition xs40 : list sym :=
  [T_SEMI; T_LF; T_LT; T_GT; T_DASH; T_PLUS; T_EQ_EQ; T_BANG_EQ; T_LT_EQ; T_GT_EQ; T_and_operator; T_PIPE_PIPE;
  T_CARET_CARET].
Definition xs41 : list sym :=
  [T_SEMI; T_LF; T_RBRACE; T_LT; T_GT; T_COLON; T_DASH; T_PLUS; T_EQ_EQ; T_BANG_EQ; T_LT_EQ; T_GT_EQ; T_and_operator;
  T_PIPE_PIPE; T_CARET_CARET].
Definition xs42 : list sym :=
  [T_SEMI; T_LF; T_RBRACE; T_LT; T_GT; T_DASH; T_PLUS; T_EQ_EQ; T_BANG_EQ; T_LT_EQ; T_GT_EQ; T_and_operator;
  T_PIPE_PIPE; T_CARET_CARET].
Definition xs43 : list sym :=
  [T_LT; T_GT; T_COLON; T_DASH; T_PLUS; T_EQ_EQ; T_BANG_EQ; T_LT_EQ; T_GT_EQ; T_and_operator; T_PIPE_PIPE;
  T_CARET_CARET].
Definition xs44 : list sym :=
  [T_RPAREN; T_LT; T_GT; T_COMMA; T_DASH; T_PLUS; T_EQ_EQ; T_BANG_EQ; T_LT_EQ; T_GT_EQ; T_and_operator; T_PIPE_PIPE;
  T_CARET_CARET].
Definition xs45 : list sym :=
  [T_LT; T_GT; T_COMMA; T_DASH; T_PLUS; T_EQ_EQ; T_BANG_EQ; T_LT_EQ; T_GT_EQ; T_and_operator; T_PIPE_PIPE;
  T_CARET_CARET; T_RBRACK].
Definition xs46 : list sym :=
  [T_LT; T_GT; T_DASH; T_PLUS; T_EQ_EQ; T_BANG_EQ; T_LT_EQ; T_GT_EQ; T_and_operator; T_PIPE_PIPE; T_CARET_CARET;
  T_RBRACK].
Definition xs47 : list sym :=
  [T_RBRACE; T_RPAREN; T_LT; T_GT; T_COMMA; T_COLON; T_DASH; T_PLUS; T_EQ_EQ; T_BANG_EQ; T_LT_EQ; T_GT_EQ;
  T_and_operator; T_PIPE_PIPE; T_CARET_CARET; T_RBRACK].
Definition xs48 : list sym :=
  [T_RBRACE; T_LT; T_GT; T_COMMA; T_DASH; T_PLUS; T_EQ_EQ; T_BANG_EQ; T_LT_EQ; T_GT_EQ; T_and_operator; T_PIPE_PIPE;
  T_CARET_CARET].
Definition xs49 : list sym :=
  [T_RPAREN; T_LT; T_GT; T_DASH; T_PLUS; T_EQ_EQ; T_BANG_EQ; T_LT_EQ; T_GT_EQ; T_and_operator; T_PIPE_PIPE;
  T_CARET_CARET].
Definition xs50 : list sym :=
  [T_SEMI; T_LF; T_LT; T_GT; T_EQ_EQ; T_BANG_EQ; T_LT_EQ; T_GT_EQ; T_and_operator; T_PIPE_PIPE; T_CARET_CARET].
Definition xs51 : list sym :=
  [T_SEMI; T_LF; T_RBRACE; T_LT; T_GT; T_COLON; T_EQ_EQ; T_BANG_EQ; T_LT_EQ; T_GT_EQ; T_and_operator; T_PIPE_PIPE;
  T_CARET_CARET].
Definition xs52 : list sym :=
  [T_SEMI; T_LF; T_RBRACE; T_LT; T_GT; T_EQ_EQ; T_BANG_EQ; T_LT_EQ; T_GT_EQ; T_and_operator; T_PIPE_PIPE;
  T_CARET_CARET].
Definition xs53 : list sym :=
  [T_LT; T_GT; T_COLON; T_EQ_EQ; T_BANG_EQ; T_LT_EQ; T_GT_EQ; T_and_operator; T_PIPE_PIPE; T_CARET_CARET].
Definition xs54 : list sym :=
  [T_RPAREN; T_LT; T_GT; T_COMMA; T_EQ_EQ; T_BANG_EQ; T_LT_EQ; T_GT_EQ; T_and_operator; T_PIPE_PIPE; T_CARET_CARET].
Definition xs55 : list sym :=
  [T_LT; T_GT; T_COMMA; T_EQ_EQ; T_BANG_EQ; T_LT_EQ; T_GT_EQ; T_and_operator; T_PIPE_PIPE; T_CARET_CARET; T_RBRACK].
Definition xs56 : list sym :=
  [T_LT; T_GT; T_EQ_EQ; T_BANG_EQ; T_LT_EQ; T_GT_EQ; T_and_operator; T_PIPE_PIPE; T_CARET_CARET; T_RBRACK].
Definition xs57 : list sym :=
  [T_RBRACE; T_RPAREN; T_LT; T_GT; T_COMMA; T_COLON; T_EQ_EQ; T_BANG_EQ; T_LT_EQ; T_GT_EQ; T_and_operator;
  T_PIPE_PIPE; T_CARET_CARET; T_RBRACK].
Definition xs58 : list sym :=
  [T_RBRACE; T_LT; T_GT; T_COMMA; T_EQ_EQ; T_BANG_EQ; T_LT_EQ; T_GT_EQ; T_and_operator; T_PIPE_PIPE; T_CARET_CARET].
Definition xs59 : list sym :=
  [T_RPAREN; T_LT; T_GT; T_EQ_EQ; T_BANG_EQ; T_LT_EQ; T_GT_EQ; T_and_operator; T_PIPE_PIPE; T_CARET_CARET].
Definition xs60 : list sym :=
  [T_SEMI; T_LF; T_and_operator; T_PIPE_PIPE; T_CARET_CARET].
Definition xs61 : list sym :=
  [T_SEMI; T_LF; T_RBRACE; T_COLON; T_and_operator; T_PIPE_PIPE; T_CARET_CARET].
Definition xs62 : list sym :=
  [T_SEMI; T_LF; T_RBRACE; T_and_operator; T_PIPE_PIPE; T_CARET_CARET].
Definition xs63 : list sym :=
  [T_COLON; T_and_operator; T_PIPE_PIPE; T_CARET_CARET].
Definition xs64 : list sym :=
  [T_RPAREN; T_COMMA; T_and_operator; T_PIPE_PIPE; T_CARET_CARET].
Definition xs65 : list sym :=
  [T_COMMA; T_and_operator; T_PIPE_PIPE; T_CARET_CARET; T_RBRACK].
Definition xs66 : list sym :=
  [T_and_operator; T_PIPE_PIPE; T_CARET_CARET; T_RBRACK].
Definition xs67 : list sym :=
  [T_RBRACE; T_RPAREN; T_COMMA; T_COLON; T_and_operator; T_PIPE_PIPE; T_CARET_CARET; T_RBRACK].
Definition xs68 : list sym :=
  [T_RBRACE; T_COMMA; T_and_operator; T_PIPE_PIPE; T_CARET_CARET].
Definition xs69 : list sym :=
  [T_RPAREN; T_and_operator; T_PIPE_PIPE; T_CARET_CARET].
Definition xs70 : list sym :=
  [T_SEMI; T_LF; T_PIPE_PIPE; T_CARET_CARET].
Definition xs71 : list sym :=
  [T_SEMI; T_LF; T_RBRACE; T_COLON; T_PIPE_PIPE; T_CARET_CARET].
Definition xs72 : list sym :=
  [T_SEMI; T_LF; T_RBRACE; T_PIPE_PIPE; T_CARET_CARET].
Definition xs73 : list sym :=
  [T_COLON; T_PIPE_PIPE; T_CARET_CARET].
Definition xs74 : list sym :=
  [T_RPAREN; T_COMMA; T_PIPE_PIPE; T_CARET_CARET].
Definition xs75 : list sym :=
  [T_COMMA; T_PIPE_PIPE; T_CARET_CARET; T_RBRACK].
Definition xs76 : list sym :=
  [T_PIPE_PIPE; T_CARET_CARET; T_RBRACK].
Definition xs77 : list sym :=
  [T_RBRACE; T_RPAREN; T_COMMA; T_COLON; T_PIPE_PIPE; T_CARET_CARET; T_RBRACK].
Definition xs78 : list sym :=
  [T_RBRACE; T_COMMA; T_PIPE_PIPE; T_CARET_CARET].
Definition xs79 : list sym :=
  [T_RPAREN; T_PIPE_PIPE; T_CARET_CARET].
Definition xs80 : list sym :=
  [T_SEMI; T_LF].
Definition xs81 : list sym :=
  [T_SEMI; T_LF; T_RBRACE; T_COLON].
Definition xs82 : list sym :=
  [T_SEMI; T_LF; T_RBRACE].
Definition xs83 : list sym :=
  [T_COLON].
Definition xs84 : list sym :=
  [T_RPAREN; T_COMMA].
Definition xs85 : list sym :=
  [T_COMMA; T_RBRACK].
Definition xs86 : list sym :=
  [T_RBRACK].
Definition xs87 : list sym :=
  [T_RBRACE; T_RPAREN; T_COMMA; T_COLON; T_RBRACK].
Definition xs88 : list sym :=
  [T_RBRACE; T_COMMA].
Definition xs89 : list sym :=
  [T_RPAREN].
Definition xs90 : list sym :=
  [T_GT].
Definition xs91 : list sym :=
  [T_PIPE; T_COMMA].
Definition xs92 : list sym :=
  [T_SEMI; T_LF; T_RBRACE; T_EQ].
Definition xs93 : list sym :=
  [T_PIPE].
Definition xs94 : list sym :=
  [T_static; T_pure; T_proto; T_fn; T_let].
Definition xs95 : list sym :=
  [T_end; T_LBRACE; T_import; T_static; T_pure; T_proto; T_LPAREN; T_fn; T_PIPE; T_class; T_print; T_assert;
  T_return; T_let; T_DASH; T_BANG; T_LBRACK; T_identifier_token1; T_number; T_string; T_true; T_false; T_error;
  T_none].
Definition xs96 : list sym :=
  [T_LBRACE; T_RBRACE; T_import; T_static; T_pure; T_proto; T_LPAREN; T_fn; T_PIPE; T_class; T_print; T_assert;
  T_return; T_let; T_DASH; T_BANG; T_LBRACK; T_identifier_token1; T_number; T_string; T_true; T_false; T_error;
  T_none].
Definition xs97 : list sym :=
  [T_end; T_LBRACE; T_RBRACE; T_import; T_static; T_pure; T_proto; T_LPAREN; T_fn; T_PIPE; T_class; T_print;
  T_assert; T_return; T_let; T_DASH; T_BANG; T_LBRACK; T_identifier_token1; T_number; T_string; T_true; T_false;
  T_error; T_none].
Definition xs98 : list sym :=
  [T_end].


Definition starts_of : list (cat * list sym) :=
  [(CE 0, xs0); (CO 0, xs1); (CE 7, xs0); (CE 6, xs0); (CE 5, xs0); (CE 4, xs0); (CE 3, xs0); (CE 2, xs0); (CE 1,
  xs0); (CO 7, xs1); (CO 6, xs1); (CO 5, xs1); (CO 4, xs1); (CO 3, xs1); (CO 2, xs1); (CO 1, xs1); (CArgs, xs2);
  (CArg1, xs2); (CArgList, xs1); (CItem, xs1); (CItem1, xs2); (CItems, xs2); (CType, xs3); (CParam, xs4); (CParam1,
  xs2); (CParamsR, xs2); (CParams, xs4); (CQual, xs5); (CQuals, xs5); (CPath, xs4); (CStmt, xs6); (CClosed, xs7);
  (CLine, xs8); (CLines, xs8); (CBlock, xs9); (CBlock1, xs9); (CBlockL, xs9); (CSource, xs8)].

Definition lookup {A : Type} (c : cat) (l : list (cat * list A)) : list A :=
  match find (fun e => cat_eqb c (fst e)) l with Some (_, a) => a | None => [] end.

Fixpoint firsts (f : form) : list sym :=
  match f with
  | Tk x _ => [x]
  | Ct c => lookup c starts_of
  | Nd _ [] => []
  | Nd _ (g :: _) => firsts g
  end.

(** ** Where each category may be read, and before what *)

Definition fine_table : list (cat * list (N * list sym)) := [
  (CE 7, [
    (1%N, xs10); (2%N, xs11); (3%N, xs11); (4%N, xs11); (5%N, xs11); (6%N, xs10); (7%N, xs10); (9%N, xs10); (10%N,
    xs12); (11%N, xs10); (15%N, xs12); (16%N, xs13); (17%N, xs14); (18%N, xs13); (19%N, xs13); (20%N, xs13); (21%N,
    xs13); (22%N, xs13); (23%N, xs14); (24%N, xs15); (26%N, xs16); (27%N, xs15); (28%N, xs15); (29%N, xs14); (32%N,
    xs16); (33%N, xs15); (34%N, xs17); (36%N, xs15); (38%N, xs14); (39%N, xs11); (40%N, xs15); (41%N, xs17); (42%N,
    xs11); (43%N, xs18); (44%N, xs11); (45%N, xs17); (46%N, xs17); (47%N, xs17); (48%N, xs19); (49%N, xs12); (50%N,
    xs12); (51%N, xs12); (52%N, xs12); (53%N, xs11); (54%N, xs12); (55%N, xs11); (56%N, xs17); (57%N, xs12); (58%N,
    xs11); (59%N, xs11); (60%N, xs19); (61%N, xs17); (62%N, xs17); (63%N, xs11); (64%N, xs11); (65%N, xs12); (66%N,
    xs17)
  ]);
  (CE 6, [
    (1%N, xs20); (2%N, xs21); (3%N, xs21); (4%N, xs21); (5%N, xs21); (6%N, xs20); (7%N, xs20); (9%N, xs20); (10%N,
    xs22); (11%N, xs20); (15%N, xs22); (16%N, xs23); (17%N, xs24); (18%N, xs23); (19%N, xs23); (20%N, xs23); (21%N,
    xs23); (22%N, xs23); (23%N, xs24); (24%N, xs25); (26%N, xs26); (27%N, xs25); (28%N, xs25); (29%N, xs24); (32%N,
    xs26); (33%N, xs25); (34%N, xs27); (36%N, xs25); (38%N, xs24); (39%N, xs21); (40%N, xs25); (41%N, xs27); (42%N,
    xs21); (43%N, xs28); (44%N, xs21); (45%N, xs27); (47%N, xs27); (48%N, xs29); (49%N, xs22); (50%N, xs22); (51%N,
    xs22); (52%N, xs22); (53%N, xs21); (54%N, xs22); (55%N, xs21); (56%N, xs27); (57%N, xs22); (58%N, xs21); (59%N,
    xs21); (60%N, xs29); (61%N, xs27); (62%N, xs27); (63%N, xs21); (65%N, xs22); (66%N, xs27)
  ]);
  (CE 5, [
    (1%N, xs30); (2%N, xs31); (3%N, xs31); (4%N, xs31); (5%N, xs31); (6%N, xs30); (7%N, xs30); (9%N, xs30); (10%N,
    xs32); (11%N, xs30); (15%N, xs32); (16%N, xs33); (17%N, xs34); (18%N, xs33); (19%N, xs33); (20%N, xs33); (21%N,
    xs33); (22%N, xs33); (23%N, xs34); (24%N, xs35); (26%N, xs36); (27%N, xs35); (28%N, xs35); (29%N, xs34); (32%N,
    xs36); (33%N, xs35); (34%N, xs37); (36%N, xs35); (38%N, xs34); (39%N, xs31); (40%N, xs35); (41%N, xs37); (42%N,
    xs31); (43%N, xs38); (44%N, xs31); (45%N, xs37); (47%N, xs37); (48%N, xs39); (49%N, xs32); (50%N, xs32); (51%N,
    xs32); (52%N, xs32); (53%N, xs31); (54%N, xs32); (55%N, xs31); (57%N, xs32); (58%N, xs31); (60%N, xs39); (61%N,
    xs37); (62%N, xs37); (63%N, xs31); (65%N, xs32); (66%N, xs37)
  ]);
  (CE 4, [
    (1%N, xs40); (2%N, xs41); (3%N, xs41); (4%N, xs41); (5%N, xs41); (6%N, xs40); (7%N, xs40); (9%N, xs40); (10%N,
    xs42); (11%N, xs40); (15%N, xs42); (16%N, xs43); (17%N, xs44); (18%N, xs43); (19%N, xs43); (20%N, xs43); (21%N,
    xs43); (22%N, xs43); (23%N, xs44); (24%N, xs45); (26%N, xs46); (27%N, xs45); (28%N, xs45); (29%N, xs44); (32%N,
    xs46); (33%N, xs45); (34%N, xs47); (36%N, xs45); (38%N, xs44); (39%N, xs41); (40%N, xs45); (41%N, xs47); (42%N,
    xs41); (43%N, xs48); (44%N, xs41); (45%N, xs47); (47%N, xs47); (48%N, xs49); (49%N, xs42); (50%N, xs42); (51%N,
    xs42); (52%N, xs42); (53%N, xs41); (54%N, xs42); (55%N, xs41); (57%N, xs42); (60%N, xs49); (61%N, xs47); (63%N,
    xs41); (65%N, xs42); (66%N, xs47)
  ]);
  (CE 3, [
    (1%N, xs50); (2%N, xs51); (3%N, xs51); (4%N, xs51); (5%N, xs51); (6%N, xs50); (7%N, xs50); (9%N, xs50); (10%N,
    xs52); (11%N, xs50); (15%N, xs52); (16%N, xs53); (17%N, xs54); (18%N, xs53); (19%N, xs53); (20%N, xs53); (21%N,
    xs53); (22%N, xs53); (23%N, xs54); (24%N, xs55); (26%N, xs56); (27%N, xs55); (28%N, xs55); (29%N, xs54); (32%N,
    xs56); (33%N, xs55); (34%N, xs57); (36%N, xs55); (38%N, xs54); (39%N, xs51); (40%N, xs55); (41%N, xs57); (42%N,
    xs51); (43%N, xs58); (45%N, xs57); (47%N, xs57); (48%N, xs59); (49%N, xs52); (50%N, xs52); (51%N, xs52); (52%N,
    xs52); (53%N, xs51); (54%N, xs52); (55%N, xs51); (57%N, xs52); (60%N, xs59); (61%N, xs57); (63%N, xs51); (65%N,
    xs52)
  ]);
  (CE 2, [
    (1%N, xs60); (2%N, xs61); (3%N, xs61); (4%N, xs61); (5%N, xs61); (6%N, xs60); (7%N, xs60); (9%N, xs60); (10%N,
    xs62); (11%N, xs60); (15%N, xs62); (16%N, xs63); (17%N, xs64); (18%N, xs63); (19%N, xs63); (20%N, xs63); (21%N,
    xs63); (22%N, xs63); (23%N, xs64); (24%N, xs65); (26%N, xs66); (27%N, xs65); (28%N, xs65); (29%N, xs64); (32%N,
    xs66); (33%N, xs65); (34%N, xs67); (36%N, xs65); (38%N, xs64); (39%N, xs61); (40%N, xs65); (41%N, xs67); (42%N,
    xs61); (43%N, xs68); (47%N, xs67); (48%N, xs69); (49%N, xs62); (50%N, xs62); (51%N, xs62); (52%N, xs62); (53%N,
    xs61); (54%N, xs62); (55%N, xs61); (57%N, xs62); (60%N, xs69); (61%N, xs67); (65%N, xs62)
  ]);
  (CE 1, [
    (1%N, xs70); (2%N, xs71); (3%N, xs71); (4%N, xs71); (5%N, xs71); (6%N, xs70); (7%N, xs70); (9%N, xs70); (10%N,
    xs72); (11%N, xs70); (15%N, xs72); (16%N, xs73); (17%N, xs74); (18%N, xs73); (19%N, xs73); (20%N, xs73); (21%N,
    xs73); (22%N, xs73); (23%N, xs74); (24%N, xs75); (26%N, xs76); (27%N, xs75); (28%N, xs75); (29%N, xs74); (32%N,
    xs76); (33%N, xs75); (34%N, xs77); (36%N, xs75); (38%N, xs74); (39%N, xs71); (40%N, xs75); (41%N, xs77); (42%N,
    xs71); (43%N, xs78); (47%N, xs77); (48%N, xs79); (49%N, xs72); (50%N, xs72); (51%N, xs72); (52%N, xs72); (53%N,
    xs71); (54%N, xs72); (57%N, xs72); (60%N, xs79); (65%N, xs72)
  ]);
  (CO 7, [
    (1%N, xs80); (2%N, xs81); (3%N, xs81); (4%N, xs81); (5%N, xs81); (6%N, xs80); (7%N, xs80); (9%N, xs80); (10%N,
    xs82); (11%N, xs80); (15%N, xs82); (16%N, xs83); (17%N, xs84); (18%N, xs83); (19%N, xs83); (20%N, xs83); (21%N,
    xs83); (22%N, xs83); (23%N, xs84); (24%N, xs85); (26%N, xs86); (27%N, xs85); (28%N, xs85); (29%N, xs84); (32%N,
    xs86); (33%N, xs85); (34%N, xs87); (36%N, xs85); (38%N, xs84); (39%N, xs81); (40%N, xs85); (41%N, xs87); (42%N,
    xs81); (43%N, xs88); (44%N, xs81); (45%N, xs87); (46%N, xs87); (47%N, xs87); (48%N, xs89); (49%N, xs82); (50%N,
    xs82); (51%N, xs82); (52%N, xs82); (53%N, xs81); (54%N, xs82); (55%N, xs81); (56%N, xs87); (57%N, xs82); (58%N,
    xs81); (59%N, xs81); (60%N, xs89); (61%N, xs87); (62%N, xs87); (63%N, xs81); (64%N, xs81); (65%N, xs82); (66%N,
    xs87)
  ]);
  (CO 6, [
    (1%N, xs80); (2%N, xs81); (3%N, xs81); (4%N, xs81); (5%N, xs81); (6%N, xs80); (7%N, xs80); (9%N, xs80); (10%N,
    xs82); (11%N, xs80); (15%N, xs82); (16%N, xs83); (17%N, xs84); (18%N, xs83); (19%N, xs83); (20%N, xs83); (21%N,
    xs83); (22%N, xs83); (23%N, xs84); (24%N, xs85); (26%N, xs86); (27%N, xs85); (28%N, xs85); (29%N, xs84); (32%N,
    xs86); (33%N, xs85); (34%N, xs87); (36%N, xs85); (38%N, xs84); (39%N, xs81); (40%N, xs85); (41%N, xs87); (42%N,
    xs81); (43%N, xs88); (44%N, xs81); (45%N, xs87); (47%N, xs87); (48%N, xs89); (49%N, xs82); (50%N, xs82); (51%N,
    xs82); (52%N, xs82); (53%N, xs81); (54%N, xs82); (55%N, xs81); (56%N, xs87); (57%N, xs82); (58%N, xs81); (59%N,
    xs81); (60%N, xs89); (61%N, xs87); (62%N, xs87); (63%N, xs81); (65%N, xs82); (66%N, xs87)
  ]);
  (CO 5, [
    (1%N, xs80); (2%N, xs81); (3%N, xs81); (4%N, xs81); (5%N, xs81); (6%N, xs80); (7%N, xs80); (9%N, xs80); (10%N,
    xs82); (11%N, xs80); (15%N, xs82); (16%N, xs83); (17%N, xs84); (18%N, xs83); (19%N, xs83); (20%N, xs83); (21%N,
    xs83); (22%N, xs83); (23%N, xs84); (24%N, xs85); (26%N, xs86); (27%N, xs85); (28%N, xs85); (29%N, xs84); (32%N,
    xs86); (33%N, xs85); (34%N, xs87); (36%N, xs85); (38%N, xs84); (39%N, xs81); (40%N, xs85); (41%N, xs87); (42%N,
    xs81); (43%N, xs88); (44%N, xs81); (45%N, xs87); (47%N, xs87); (48%N, xs89); (49%N, xs82); (50%N, xs82); (51%N,
    xs82); (52%N, xs82); (53%N, xs81); (54%N, xs82); (55%N, xs81); (57%N, xs82); (58%N, xs81); (60%N, xs89); (61%N,
    xs87); (62%N, xs87); (63%N, xs81); (65%N, xs82); (66%N, xs87)
  ]);
  (CO 4, [
    (1%N, xs80); (2%N, xs81); (3%N, xs81); (4%N, xs81); (5%N, xs81); (6%N, xs80); (7%N, xs80); (9%N, xs80); (10%N,
    xs82); (11%N, xs80); (15%N, xs82); (16%N, xs83); (17%N, xs84); (18%N, xs83); (19%N, xs83); (20%N, xs83); (21%N,
    xs83); (22%N, xs83); (23%N, xs84); (24%N, xs85); (26%N, xs86); (27%N, xs85); (28%N, xs85); (29%N, xs84); (32%N,
    xs86); (33%N, xs85); (34%N, xs87); (36%N, xs85); (38%N, xs84); (39%N, xs81); (40%N, xs85); (41%N, xs87); (42%N,
    xs81); (43%N, xs88); (44%N, xs81); (45%N, xs87); (47%N, xs87); (48%N, xs89); (49%N, xs82); (50%N, xs82); (51%N,
    xs82); (52%N, xs82); (53%N, xs81); (54%N, xs82); (55%N, xs81); (57%N, xs82); (60%N, xs89); (61%N, xs87); (63%N,
    xs81); (65%N, xs82); (66%N, xs87)
  ]);
  (CO 3, [
    (1%N, xs80); (2%N, xs81); (3%N, xs81); (4%N, xs81); (5%N, xs81); (6%N, xs80); (7%N, xs80); (9%N, xs80); (10%N,
    xs82); (11%N, xs80); (15%N, xs82); (16%N, xs83); (17%N, xs84); (18%N, xs83); (19%N, xs83); (20%N, xs83); (21%N,
    xs83); (22%N, xs83); (23%N, xs84); (24%N, xs85); (26%N, xs86); (27%N, xs85); (28%N, xs85); (29%N, xs84); (32%N,
    xs86); (33%N, xs85); (34%N, xs87); (36%N, xs85); (38%N, xs84); (39%N, xs81); (40%N, xs85); (41%N, xs87); (42%N,
    xs81); (43%N, xs88); (45%N, xs87); (47%N, xs87); (48%N, xs89); (49%N, xs82); (50%N, xs82); (51%N, xs82); (52%N,
    xs82); (53%N, xs81); (54%N, xs82); (55%N, xs81); (57%N, xs82); (60%N, xs89); (61%N, xs87); (63%N, xs81); (65%N,
    xs82)
  ]);
  (CO 2, [
    (1%N, xs80); (2%N, xs81); (3%N, xs81); (4%N, xs81); (5%N, xs81); (6%N, xs80); (7%N, xs80); (9%N, xs80); (10%N,
    xs82); (11%N, xs80); (15%N, xs82); (16%N, xs83); (17%N, xs84); (18%N, xs83); (19%N, xs83); (20%N, xs83); (21%N,
    xs83); (22%N, xs83); (23%N, xs84); (24%N, xs85); (26%N, xs86); (27%N, xs85); (28%N, xs85); (29%N, xs84); (32%N,
    xs86); (33%N, xs85); (34%N, xs87); (36%N, xs85); (38%N, xs84); (39%N, xs81); (40%N, xs85); (41%N, xs87); (42%N,
    xs81); (43%N, xs88); (47%N, xs87); (48%N, xs89); (49%N, xs82); (50%N, xs82); (51%N, xs82); (52%N, xs82); (53%N,
    xs81); (54%N, xs82); (55%N, xs81); (57%N, xs82); (60%N, xs89); (61%N, xs87); (65%N, xs82)
  ]);
  (CO 1, [
    (1%N, xs80); (2%N, xs81); (3%N, xs81); (4%N, xs81); (5%N, xs81); (6%N, xs80); (7%N, xs80); (9%N, xs80); (10%N,
    xs82); (11%N, xs80); (15%N, xs82); (16%N, xs83); (17%N, xs84); (18%N, xs83); (19%N, xs83); (20%N, xs83); (21%N,
    xs83); (22%N, xs83); (23%N, xs84); (24%N, xs85); (26%N, xs86); (27%N, xs85); (28%N, xs85); (29%N, xs84); (32%N,
    xs86); (33%N, xs85); (34%N, xs87); (36%N, xs85); (38%N, xs84); (39%N, xs81); (40%N, xs85); (41%N, xs87); (42%N,
    xs81); (43%N, xs88); (47%N, xs87); (48%N, xs89); (49%N, xs82); (50%N, xs82); (51%N, xs82); (52%N, xs82); (53%N,
    xs81); (54%N, xs82); (57%N, xs82); (60%N, xs89); (65%N, xs82)
  ]);
  (CArgs, [
    (143%N, xs85); (147%N, xs84); (148%N, xs85)
  ]);
  (CArg1, [
    (143%N, xs85); (147%N, xs84); (148%N, xs85); (294%N, xs85); (296%N, xs84); (299%N, xs85)
  ]);
  (CArgList, [
    (17%N, xs89); (23%N, xs89)
  ]);
  (CItem, [
    (2%N, xs88); (3%N, xs88); (4%N, xs88); (5%N, xs88); (16%N, xs88); (18%N, xs88); (19%N, xs88); (20%N, xs88);
    (21%N, xs88); (22%N, xs88)
  ]);
  (CItem1, [
    (286%N, xs88); (288%N, xs88); (297%N, xs88); (305%N, xs88)
  ]);
  (CItems, [
    (286%N, xs88); (297%N, xs88)
  ]);
  (CType, [
    (192%N, xs9); (193%N, xs82); (194%N, xs9); (195%N, xs2); (196%N, xs90); (197%N, xs9); (198%N, xs82); (199%N,
    xs91); (200%N, xs90); (201%N, xs82); (202%N, xs82); (203%N, xs92); (204%N, xs84); (205%N, xs9); (206%N, xs82);
    (207%N, xs90); (208%N, xs9); (209%N, xs90); (210%N, xs82); (211%N, xs9); (212%N, xs2); (213%N, xs92)
  ]);
  (CParam, [
    (214%N, xs84); (215%N, xs91); (217%N, xs84); (219%N, xs91); (223%N, xs84); (224%N, xs84); (225%N, xs84); (228%N,
    xs91); (231%N, xs91); (232%N, xs84); (236%N, xs84)
  ]);
  (CParam1, [
    (284%N, xs84); (292%N, xs84); (293%N, xs91); (300%N, xs91)
  ]);
  (CParamsR, [
    (284%N, xs84); (300%N, xs91)
  ]);
  (CParams, [
    (214%N, xs89); (215%N, xs93); (217%N, xs89); (219%N, xs93); (223%N, xs89); (224%N, xs89); (225%N, xs89)
  ]);
  (CQual, [
    (1%N, xs94); (2%N, xs94); (3%N, xs94); (4%N, xs94); (5%N, xs94); (6%N, xs94); (7%N, xs94); (9%N, xs94); (10%N,
    xs94); (11%N, xs94); (268%N, xs94)
  ]);
  (CQuals, [
    (1%N, xs94); (2%N, xs94); (3%N, xs94); (4%N, xs94); (5%N, xs94); (6%N, xs94); (7%N, xs94); (9%N, xs94); (10%N,
    xs94); (11%N, xs94)
  ]);
  (CPath, [
    (220%N, xs82); (245%N, xs82); (250%N, xs82)
  ]);
  (CStmt, [
    (1%N, xs80); (2%N, xs82); (3%N, xs82); (4%N, xs82); (5%N, xs82); (6%N, xs80); (7%N, xs80); (9%N, xs80); (10%N,
    xs82); (11%N, xs80)
  ]);
  (CClosed, [
    (1%N, xs95); (2%N, xs96); (3%N, xs96); (4%N, xs96); (5%N, xs96); (6%N, xs96); (7%N, xs96); (9%N, xs96); (10%N,
    xs96); (11%N, xs95)
  ]);
  (CLine, [
    (1%N, xs95); (2%N, xs96); (3%N, xs96); (4%N, xs96); (5%N, xs96); (6%N, xs96); (7%N, xs96); (9%N, xs96); (10%N,
    xs96); (11%N, xs95)
  ]);
  (CLines, [
    (1%N, xs95); (2%N, xs96); (3%N, xs96); (4%N, xs96); (5%N, xs96); (10%N, xs96)
  ]);
  (CBlock, [
    (278%N, xs97); (281%N, xs97); (290%N, xs97); (301%N, xs97); (303%N, xs97); (304%N, xs97); (307%N, xs97); (308%N,
    xs97); (310%N, xs97); (311%N, xs97); (312%N, xs97); (313%N, xs97); (314%N, xs97); (315%N, xs97); (316%N, xs97)
  ]);
  (CBlock1, [
    (1%N, xs95); (2%N, xs96); (3%N, xs96); (4%N, xs96); (5%N, xs96); (6%N, xs96); (7%N, xs96); (9%N, xs96); (10%N,
    xs96); (11%N, xs95)
  ]);
  (CBlockL, [
    (34%N, xs87); (39%N, xs81); (41%N, xs87); (42%N, xs81)
  ]);
  (CSource, [
    (1%N, xs98)
  ])
].

Definition member (x : sym) (xs : list sym) : bool := existsb (sym_eqb x) xs.

Definition befores_of (c : cat) (p : N) : list sym :=
  match find (fun e => N.eqb p (fst e)) (lookup c fine_table) with Some (_, xs) => xs | None => [] end.

(** The blanks that are skipped in a state include line breaks. *)
Definition eats (s : N) : bool :=
  match lex_mode s with
  | Some m => skips m && match moves m [LF] with Some (Skip m') => N.eqb m' m | _ => false end
  | None => false
  end.

(** The state after some forms. *)
Definition run_all (run : form -> N -> list sym -> option N) (xs : list sym) : list form -> N -> option N :=
  fix go (l : list form) (q : N) : option N :=
    match l with
    | [] => Some q
    | g :: l' =>
      match run g q (match l' with [] => xs | h :: _ => firsts h end) with
      | Some q' => go l' q'
      | None => None
      end
    end.

(** The parser makes a node of the last [n] trees. *)
Definition reduces (q : N) (xs : list sym) (x : sym) (n : nat) (pr : N) : bool :=
  let r := fst (row q) in
  forallb (fun y =>
    match first_action (match entry r y with Some a => a | None => [] end) with
    | Some (Reduce x' n' pr') => sym_eqb x x' && (n =? n') && N.eqb pr pr'
    | _ => false
    end) xs.

(** The state after a form, read from state [p] before one of [xs]. *)
Fixpoint runs (f : form) (p : N) (xs : list sym) : option N :=
  match f with
  | Tk x brk =>
    match first_action (actions p x) with
    | Some (Shift s) => if (negb brk || eats s) && negb (N.eqb p 0) then Some s else None
    | _ => None
    end
  | Ct c =>
    let ys := befores_of c p in
    if forallb (fun x => member x ys) xs then Some (goto p (top c)) else None
  | Nd x l =>
    match run_all runs xs l p with
    | Some q =>
      if reduces q xs x (length l) (production x (map root_of l)) && negb (N.eqb q 0) && negb (N.eqb q 335) &&
         negb (match l with [] => true | _ => false end)
      then Some (goto p x) else None
    | None => None
    end
  end.

Definition fine (e : cat * list (N * list sym)) : bool :=
  let (c, l) := e in
  forallb (fun px =>
    let q := goto (fst px) (top c) in
    negb (N.eqb (fst px) 0) &&
    forallb (fun f => match runs f (fst px) (snd px) with Some q' => N.eqb q q' | None => false end) (shapes c)) l.

Lemma fine_check : forallb fine fine_table = true.
Proof. vm_compute. reflexivity. Qed.

Lemma firsts_check :
  forallb (fun e => forallb (fun f => forallb (fun x => member x (snd e)) (firsts f) &&
    negb (match firsts f with [] => true | _ => false end)) (shapes (fst e))) starts_of = true.
Proof. vm_compute. reflexivity. Qed.
