(** * The tables of the generated parser of Flamingo.

    src/flamingo/parser.c is written by tree-sitter from a grammar that is not in the repository: a table-driven lexer
    and an LR(1) parser. This file is a mechanical transcription of its tables, state by state and in the order of the
    source; [FlParse.v] models the functions of src/flamingo/runtime that run them. Two simplifications:
    - the parse actions are written where they are used instead of through their index in [ts_parse_actions];
    - the [reusable] flags (parser.c 14889-15300), which matter only for re-parsing an edited text, are left out. *)

From Coq Require Import NArith Ascii String List.
From Verif Require Import Base.
Import ListNotations.
Local Open Scope N_scope.

(** parser.c 19-129 [ts_symbol_identifiers]: the tokens ([T_], the first 60), then the nonterminals ([N_]). *)
Inductive sym :=
| T_end | T_SEMI | T_LF | T_comment | T_POUND_POUND | T_doc_comment_content
| T_LBRACE | T_RBRACE | T_import | T_DOT | T_static | T_pure
| T_proto | T_LPAREN | T_RPAREN | T_DASH_GT | T_fn | T_PIPE
| T_class | T_print | T_assert | T_return | T_vec | T_map
| T_LT | T_GT | T_COMMA | T_COLON | T_let | T_EQ
| T_DASH | T_BANG | T_power_operator | T_STAR | T_SLASH | T_PERCENT
| T_PLUS | T_EQ_EQ | T_BANG_EQ | T_LT_EQ | T_GT_EQ | T_and_operator
| T_PIPE_PIPE | T_CARET_CARET | T_LBRACK | T_RBRACK | T_PLUS_PLUS | T_EQ_EQ_EQ
| T_any | T_int | T_str | T_bool | T_void | T_identifier_token1
| T_number | T_string | T_true | T_false | T_error | T_none
| N_source_file | N__statement_list | N_doc_comment | N__line_insensitive_statement | N_statement | N_block
| N_import | N_import_path | N_import_relative_dot | N_qualifier | N_qualifier_list | N_proto
| N_function_declaration | N_lambda | N_class_declaration | N_print | N_assert | N_return
| N_expression | N_parenthesized_expression | N_access | N_call | N_type_name | N_type
| N_param | N_param_list | N_arg_list | N_literal | N_var_decl | N_assignment
| N_unary_operator | N_unary_expression | N_multiplicative_operator | N_additive_operator | N_comparative_operator | N_or_operator
| N_binary_expression | N_vec | N_index | N_slice | N_map_item | N_map
| N_overloadable_operator | N_primitive_type | N_identifier | N_bool | N_qualifier_list_repeat1 | N_param_list_repeat1
| N_arg_list_repeat1 | N_map_repeat1.

(** The numbers of the symbols in parser.c 19-129. *)
Definition code (x : sym) : N :=
  match x with
  | T_end => 0 | T_SEMI => 1 | T_LF => 2 | T_comment => 3 | T_POUND_POUND => 4 | T_doc_comment_content => 5
  | T_LBRACE => 6 | T_RBRACE => 7 | T_import => 8 | T_DOT => 9 | T_static => 10 | T_pure => 11
  | T_proto => 12 | T_LPAREN => 13 | T_RPAREN => 14 | T_DASH_GT => 15 | T_fn => 16 | T_PIPE => 17
  | T_class => 18 | T_print => 19 | T_assert => 20 | T_return => 21 | T_vec => 22 | T_map => 23
  | T_LT => 24 | T_GT => 25 | T_COMMA => 26 | T_COLON => 27 | T_let => 28 | T_EQ => 29
  | T_DASH => 30 | T_BANG => 31 | T_power_operator => 32 | T_STAR => 33 | T_SLASH => 34 | T_PERCENT => 35
  | T_PLUS => 36 | T_EQ_EQ => 37 | T_BANG_EQ => 38 | T_LT_EQ => 39 | T_GT_EQ => 40 | T_and_operator => 41
  | T_PIPE_PIPE => 42 | T_CARET_CARET => 43 | T_LBRACK => 44 | T_RBRACK => 45 | T_PLUS_PLUS => 46 | T_EQ_EQ_EQ => 47
  | T_any => 48 | T_int => 49 | T_str => 50 | T_bool => 51 | T_void => 52 | T_identifier_token1 => 53
  | T_number => 54 | T_string => 55 | T_true => 56 | T_false => 57 | T_error => 58 | T_none => 59
  | N_source_file => 60 | N__statement_list => 61 | N_doc_comment => 62 | N__line_insensitive_statement => 63 | N_statement => 64 | N_block => 65
  | N_import => 66 | N_import_path => 67 | N_import_relative_dot => 68 | N_qualifier => 69 | N_qualifier_list => 70 | N_proto => 71
  | N_function_declaration => 72 | N_lambda => 73 | N_class_declaration => 74 | N_print => 75 | N_assert => 76 | N_return => 77
  | N_expression => 78 | N_parenthesized_expression => 79 | N_access => 80 | N_call => 81 | N_type_name => 82 | N_type => 83
  | N_param => 84 | N_param_list => 85 | N_arg_list => 86 | N_literal => 87 | N_var_decl => 88 | N_assignment => 89
  | N_unary_operator => 90 | N_unary_expression => 91 | N_multiplicative_operator => 92 | N_additive_operator => 93 | N_comparative_operator => 94 | N_or_operator => 95
  | N_binary_expression => 96 | N_vec => 97 | N_index => 98 | N_slice => 99 | N_map_item => 100 | N_map => 101
  | N_overloadable_operator => 102 | N_primitive_type => 103 | N_identifier => 104 | N_bool => 105 | N_qualifier_list_repeat1 => 106 | N_param_list_repeat1 => 107
  | N_arg_list_repeat1 => 108 | N_map_repeat1 => 109
  end.

(** All the symbols, in this order. *)
Definition all_syms : list sym :=
  [
   T_end; T_SEMI; T_LF; T_comment; T_POUND_POUND; T_doc_comment_content;
   T_LBRACE; T_RBRACE; T_import; T_DOT; T_static; T_pure;
   T_proto; T_LPAREN; T_RPAREN; T_DASH_GT; T_fn; T_PIPE;
   T_class; T_print; T_assert; T_return; T_vec; T_map;
   T_LT; T_GT; T_COMMA; T_COLON; T_let; T_EQ;
   T_DASH; T_BANG; T_power_operator; T_STAR; T_SLASH; T_PERCENT;
   T_PLUS; T_EQ_EQ; T_BANG_EQ; T_LT_EQ; T_GT_EQ; T_and_operator;
   T_PIPE_PIPE; T_CARET_CARET; T_LBRACK; T_RBRACK; T_PLUS_PLUS; T_EQ_EQ_EQ;
   T_any; T_int; T_str; T_bool; T_void; T_identifier_token1;
   T_number; T_string; T_true; T_false; T_error; T_none;
   N_source_file; N__statement_list; N_doc_comment; N__line_insensitive_statement; N_statement; N_block;
   N_import; N_import_path; N_import_relative_dot; N_qualifier; N_qualifier_list; N_proto;
   N_function_declaration; N_lambda; N_class_declaration; N_print; N_assert; N_return;
   N_expression; N_parenthesized_expression; N_access; N_call; N_type_name; N_type;
   N_param; N_param_list; N_arg_list; N_literal; N_var_decl; N_assignment;
   N_unary_operator; N_unary_expression; N_multiplicative_operator; N_additive_operator; N_comparative_operator; N_or_operator;
   N_binary_expression; N_vec; N_index; N_slice; N_map_item; N_map;
   N_overloadable_operator; N_primitive_type; N_identifier; N_bool; N_qualifier_list_repeat1; N_param_list_repeat1;
   N_arg_list_repeat1; N_map_repeat1
  ].

(** parser.c 131-243 [ts_symbol_names]: the types of the nodes, as [ts_node_type] returns them. *)
Definition name (x : sym) : bytes :=
  match x with
  | T_end => lit "end"
  | T_SEMI => lit ";"
  | T_LF => [ascii_of_nat 10]
  | T_comment => lit "comment"
  | T_POUND_POUND => lit "##"
  | T_doc_comment_content => lit "doc_comment_content"
  | T_LBRACE => lit "{"
  | T_RBRACE => lit "}"
  | T_import => lit "import"
  | T_DOT => lit "."
  | T_static => lit "static"
  | T_pure => lit "pure"
  | T_proto => lit "proto"
  | T_LPAREN => lit "("
  | T_RPAREN => lit ")"
  | T_DASH_GT => lit "->"
  | T_fn => lit "fn"
  | T_PIPE => lit "|"
  | T_class => lit "class"
  | T_print => lit "print"
  | T_assert => lit "assert"
  | T_return => lit "return"
  | T_vec => lit "vec"
  | T_map => lit "map"
  | T_LT => lit "<"
  | T_GT => lit ">"
  | T_COMMA => lit ","
  | T_COLON => lit ":"
  | T_let => lit "let"
  | T_EQ => lit "="
  | T_DASH => lit "-"
  | T_BANG => lit "!"
  | T_power_operator => lit "power_operator"
  | T_STAR => lit "*"
  | T_SLASH => lit "/"
  | T_PERCENT => lit "%"
  | T_PLUS => lit "+"
  | T_EQ_EQ => lit "=="
  | T_BANG_EQ => lit "!="
  | T_LT_EQ => lit "<="
  | T_GT_EQ => lit ">="
  | T_and_operator => lit "and_operator"
  | T_PIPE_PIPE => lit "||"
  | T_CARET_CARET => lit "^^"
  | T_LBRACK => lit "["
  | T_RBRACK => lit "]"
  | T_PLUS_PLUS => lit "++"
  | T_EQ_EQ_EQ => lit "==="
  | T_any => lit "any"
  | T_int => lit "int"
  | T_str => lit "str"
  | T_bool => lit "bool"
  | T_void => lit "void"
  | T_identifier_token1 => lit "identifier_token1"
  | T_number => lit "number"
  | T_string => lit "string"
  | T_true => lit "true"
  | T_false => lit "false"
  | T_error => lit "error"
  | T_none => lit "none"
  | N_source_file => lit "source_file"
  | N__statement_list => lit "_statement_list"
  | N_doc_comment => lit "doc_comment"
  | N__line_insensitive_statement => lit "_line_insensitive_statement"
  | N_statement => lit "statement"
  | N_block => lit "block"
  | N_import => lit "import"
  | N_import_path => lit "import_path"
  | N_import_relative_dot => lit "import_relative_dot"
  | N_qualifier => lit "qualifier"
  | N_qualifier_list => lit "qualifier_list"
  | N_proto => lit "proto"
  | N_function_declaration => lit "function_declaration"
  | N_lambda => lit "lambda"
  | N_class_declaration => lit "class_declaration"
  | N_print => lit "print"
  | N_assert => lit "assert"
  | N_return => lit "return"
  | N_expression => lit "expression"
  | N_parenthesized_expression => lit "parenthesized_expression"
  | N_access => lit "access"
  | N_call => lit "call"
  | N_type_name => lit "type_name"
  | N_type => lit "type"
  | N_param => lit "param"
  | N_param_list => lit "param_list"
  | N_arg_list => lit "arg_list"
  | N_literal => lit "literal"
  | N_var_decl => lit "var_decl"
  | N_assignment => lit "assignment"
  | N_unary_operator => lit "unary_operator"
  | N_unary_expression => lit "unary_expression"
  | N_multiplicative_operator => lit "multiplicative_operator"
  | N_additive_operator => lit "additive_operator"
  | N_comparative_operator => lit "comparative_operator"
  | N_or_operator => lit "or_operator"
  | N_binary_expression => lit "binary_expression"
  | N_vec => lit "vec"
  | N_index => lit "index"
  | N_slice => lit "slice"
  | N_map_item => lit "map_item"
  | N_map => lit "map"
  | N_overloadable_operator => lit "overloadable_operator"
  | N_primitive_type => lit "primitive_type"
  | N_identifier => lit "identifier"
  | N_bool => lit "bool"
  | N_qualifier_list_repeat1 => lit "qualifier_list_repeat1"
  | N_param_list_repeat1 => lit "param_list_repeat1"
  | N_arg_list_repeat1 => lit "arg_list_repeat1"
  | N_map_repeat1 => lit "map_repeat1"
  end.

(** parser.c 357-799 [ts_symbol_metadata]. *)
Definition visible (x : sym) : bool :=
  match x with
  | T_end | T_identifier_token1 | N__statement_list | N__line_insensitive_statement | N_qualifier_list_repeat1 | N_param_list_repeat1 | N_arg_list_repeat1 | N_map_repeat1 => false
  | _ => true
  end.

Definition named (x : sym) : bool :=
  match x with
  | T_SEMI | T_LF | T_POUND_POUND | T_LBRACE | T_RBRACE | T_import
  | T_DOT | T_static | T_pure | T_proto | T_LPAREN | T_RPAREN
  | T_DASH_GT | T_fn | T_PIPE | T_class | T_print | T_assert
  | T_return | T_vec | T_map | T_LT | T_GT | T_COMMA
  | T_COLON | T_let | T_EQ | T_DASH | T_BANG | T_STAR
  | T_SLASH | T_PERCENT | T_PLUS | T_EQ_EQ | T_BANG_EQ | T_LT_EQ
  | T_GT_EQ | T_PIPE_PIPE | T_CARET_CARET | T_LBRACK | T_RBRACK | T_PLUS_PLUS
  | T_EQ_EQ_EQ | T_any | T_int | T_str | T_bool | T_void
  | T_identifier_token1 | T_true | T_false | T_error | N__statement_list | N_qualifier_list_repeat1
  | N_param_list_repeat1 | N_arg_list_repeat1 | N_map_repeat1
    => false
  | _ => true
  end.

(** parser.c 800-832 [ts_field_identifiers]. *)
Inductive field :=
| F_accessed | F_accessor | F_args | F_bit | F_body | F_callable
| F_expression | F_ident | F_index | F_indexed | F_initial | F_key
| F_left | F_msg | F_name | F_operand | F_operator | F_params
| F_path | F_qualifiers | F_relative | F_rest | F_ret_type | F_right
| F_rv | F_slice_begin | F_slice_end | F_test | F_type | F_value.

(** parser.c 867-1101 [ts_field_map_slices], [ts_field_map_entries]: the fields of a node made with a production, and the
    indices of the children that they name. *)
Definition fields (p : N) : list (field * nat) :=
  match p with
  | 1 => [(F_path, 1%nat)]
  | 2 => [(F_bit, 0%nat)]
  | 3 => [(F_name, 1%nat)]
  | 4 => [(F_ident, 0%nat)]
  | 5 => [(F_msg, 1%nat)]
  | 6 => [(F_test, 1%nat)]
  | 7 => [(F_rv, 1%nat)]
  | 8 => [(F_operand, 1%nat); (F_operator, 0%nat)]
  | 9 => [(F_body, 1%nat)]
  | 10 => [(F_path, 2%nat); (F_relative, 1%nat)]
  | 11 => [(F_expression, 1%nat)]
  | 12 => [(F_body, 2%nat); (F_name, 1%nat)]
  | 13 => [(F_body, 2%nat)]
  | 14 => [(F_name, 2%nat); (F_qualifiers, 0%nat)]
  | 15 => [(F_accessed, 0%nat); (F_accessor, 2%nat)]
  | 16 => [(F_callable, 0%nat)]
  | 17 => [(F_left, 0%nat); (F_operator, 1%nat); (F_right, 2%nat)]
  | 18 => [(F_left, 0%nat); (F_right, 2%nat)]
  | 19 => [(F_key, 0%nat); (F_value, 2%nat)]
  | 20 => [(F_bit, 0%nat); (F_rest, 2%nat)]
  | 21 => [(F_name, 1%nat); (F_ret_type, 3%nat)]
  | 22 => [(F_body, 3%nat); (F_params, 1%nat)]
  | 23 => [(F_ident, 0%nat); (F_type, 2%nat)]
  | 24 => [(F_name, 1%nat); (F_type, 3%nat)]
  | 25 => [(F_initial, 3%nat); (F_name, 1%nat)]
  | 26 => [(F_body, 3%nat); (F_name, 2%nat); (F_qualifiers, 0%nat)]
  | 27 => [(F_args, 2%nat); (F_callable, 0%nat)]
  | 28 => [(F_indexed, 0%nat)]
  | 29 => [(F_index, 2%nat); (F_indexed, 0%nat)]
  | 30 => [(F_name, 1%nat); (F_params, 3%nat)]
  | 31 => [(F_body, 4%nat); (F_name, 1%nat)]
  | 32 => [(F_body, 4%nat); (F_name, 1%nat); (F_ret_type, 3%nat)]
  | 33 => [(F_name, 2%nat); (F_qualifiers, 0%nat); (F_ret_type, 4%nat)]
  | 34 => [(F_name, 2%nat); (F_qualifiers, 0%nat); (F_type, 4%nat)]
  | 35 => [(F_initial, 4%nat); (F_name, 2%nat); (F_qualifiers, 0%nat)]
  | 36 => [(F_indexed, 0%nat); (F_slice_end, 3%nat)]
  | 37 => [(F_indexed, 0%nat); (F_slice_begin, 2%nat)]
  | 38 => [(F_name, 1%nat); (F_ret_type, 5%nat)]
  | 39 => [(F_body, 5%nat); (F_name, 1%nat); (F_params, 3%nat)]
  | 40 => [(F_initial, 5%nat); (F_name, 1%nat); (F_type, 3%nat)]
  | 41 => [(F_name, 2%nat); (F_params, 4%nat); (F_qualifiers, 0%nat)]
  | 42 => [(F_body, 5%nat); (F_name, 2%nat); (F_qualifiers, 0%nat)]
  | 43 => [(F_body, 5%nat); (F_name, 2%nat); (F_qualifiers, 0%nat); (F_ret_type, 4%nat)]
  | 44 => [(F_indexed, 0%nat); (F_slice_begin, 2%nat); (F_slice_end, 4%nat)]
  | 45 => [(F_name, 1%nat); (F_params, 3%nat); (F_ret_type, 6%nat)]
  | 46 => [(F_body, 6%nat); (F_name, 1%nat); (F_ret_type, 5%nat)]
  | 47 => [(F_name, 2%nat); (F_qualifiers, 0%nat); (F_ret_type, 6%nat)]
  | 48 => [(F_body, 6%nat); (F_name, 2%nat); (F_params, 4%nat); (F_qualifiers, 0%nat)]
  | 49 => [(F_initial, 6%nat); (F_name, 2%nat); (F_qualifiers, 0%nat); (F_type, 4%nat)]
  | 50 => [(F_body, 7%nat); (F_name, 1%nat); (F_params, 3%nat); (F_ret_type, 6%nat)]
  | 51 => [(F_name, 2%nat); (F_params, 4%nat); (F_qualifiers, 0%nat); (F_ret_type, 7%nat)]
  | 52 => [(F_body, 7%nat); (F_name, 2%nat); (F_qualifiers, 0%nat); (F_ret_type, 6%nat)]
  | 53 => [(F_body, 8%nat); (F_name, 2%nat); (F_params, 4%nat); (F_qualifiers, 0%nat); (F_ret_type, 7%nat)]
  | _ => []
  end.

(** The conditions of [ts_lex]: [CEof] is "eof", the others compare "lookahead". *)
Inductive cond :=
| CEof | CEq (n : N) | CNe (n : N) | CIn (lo hi : N) | COr (a b : cond) | CAnd (a b : cond).

(** tree_sitter/parser.h 128-164: ADVANCE and SKIP. *)
Inductive move := Advance (k : N) | Skip (k : N).

(** parser.c 1449-2790 [ts_lex]: for each state the token of its ACCEPT_TOKEN, if any, and its tests in order. *)
Definition lex_states : list (option sym * list (cond * move)) := [
  (* 0: parser.c 1453-1499 *)
  (None, [(CEof, Advance 43); (CEq 33, Advance 89); (CEq 34, Advance 8); (CEq 35, Advance 11); (CEq 37, Advance 93);
    (CEq 38, Advance 12); (CEq 40, Advance 62); (CEq 41, Advance 63); (CEq 42, Advance 91); (CEq 43, Advance 95);
    (CEq 44, Advance 80); (CEq 45, Advance 87); (CEq 46, Advance 55); (CEq 47, Advance 92); (CEq 58, Advance 81);
    (CEq 59, Advance 44); (CEq 60, Advance 77); (CEq 61, Advance 84); (CEq 62, Advance 79); (CEq 91, Advance 104);
    (CEq 93, Advance 105); (CEq 94, Advance 19); (CEq 97, Advance 136); (CEq 98, Advance 145); (CEq 99, Advance 133);
    (CEq 101, Advance 155); (CEq 102, Advance 113); (CEq 105, Advance 135); (CEq 108, Advance 126);
    (CEq 109, Advance 116); (CEq 110, Advance 142); (CEq 112, Advance 151); (CEq 114, Advance 127);
    (CEq 115, Advance 165); (CEq 116, Advance 152); (CEq 118, Advance 121); (CEq 123, Advance 52);
    (CEq 124, Advance 68); (CEq 125, Advance 53); (COr (CIn 9 13) (CEq 32), Skip 0); (CIn 48 57, Advance 180);
    (COr (CIn 65 90) (COr (CEq 95) (CIn 100 122)), Advance 179)]);
  (* 1: parser.c 1500-1529 *)
  (None, [(CEq 10, Advance 45); (CEq 33, Advance 88); (CEq 34, Advance 8); (CEq 35, Advance 11);
    (CEq 40, Advance 62); (CEq 45, Advance 86); (CEq 59, Advance 44); (CEq 91, Advance 104); (CEq 97, Advance 137);
    (CEq 98, Advance 145); (CEq 99, Advance 133); (CEq 101, Advance 155); (CEq 102, Advance 113);
    (CEq 105, Advance 139); (CEq 110, Advance 142); (CEq 112, Advance 175); (CEq 115, Advance 165);
    (CEq 116, Advance 152); (CEq 118, Advance 143); (CEq 123, Advance 52); (CEq 124, Advance 67);
    (CEq 125, Advance 53); (COr (CIn 9 13) (CEq 32), Skip 1); (CIn 48 57, Advance 180);
    (COr (CIn 65 90) (COr (CEq 95) (CIn 100 122)), Advance 179)]);
  (* 2: parser.c 1530-1558 *)
  (None, [(CEq 10, Advance 45); (CEq 33, Advance 14); (CEq 35, Advance 11); (CEq 37, Advance 93);
    (CEq 38, Advance 12); (CEq 40, Advance 62); (CEq 42, Advance 91); (CEq 43, Advance 94); (CEq 45, Advance 87);
    (CEq 46, Advance 55); (CEq 47, Advance 92); (CEq 58, Advance 81); (CEq 59, Advance 44); (CEq 60, Advance 77);
    (CEq 61, Advance 85); (CEq 62, Advance 79); (CEq 91, Advance 104); (CEq 94, Advance 19); (CEq 99, Advance 26);
    (CEq 102, Advance 27); (CEq 112, Advance 38); (CEq 115, Advance 36); (CEq 123, Advance 52);
    (CEq 124, Advance 39); (CEq 125, Advance 53); (COr (CIn 9 13) (CEq 32), Skip 2)]);
  (* 3: parser.c 1559-1587 *)
  (None, [(CEq 10, Advance 45); (CEq 33, Advance 14); (CEq 35, Advance 11); (CEq 37, Advance 93);
    (CEq 38, Advance 12); (CEq 40, Advance 62); (CEq 42, Advance 91); (CEq 43, Advance 94); (CEq 45, Advance 86);
    (CEq 46, Advance 55); (CEq 47, Advance 92); (CEq 58, Advance 81); (CEq 59, Advance 44); (CEq 60, Advance 77);
    (CEq 61, Advance 85); (CEq 62, Advance 79); (CEq 91, Advance 104); (CEq 94, Advance 19); (CEq 99, Advance 26);
    (CEq 102, Advance 27); (CEq 112, Advance 38); (CEq 115, Advance 36); (CEq 123, Advance 52);
    (CEq 124, Advance 39); (CEq 125, Advance 53); (COr (CIn 9 13) (CEq 32), Skip 3)]);
  (* 4: parser.c 1588-1602 *)
  (None, [(CEq 10, Advance 45); (CEq 35, Advance 11); (CEq 40, Advance 62); (CEq 45, Advance 18);
    (CEq 59, Advance 44); (CEq 99, Advance 26); (CEq 102, Advance 27); (CEq 112, Advance 38); (CEq 115, Advance 36);
    (CEq 123, Advance 52); (CEq 125, Advance 53); (COr (CIn 9 13) (CEq 32), Skip 4)]);
  (* 5: parser.c 1603-1631 *)
  (None, [(CEq 33, Advance 88); (CEq 34, Advance 8); (CEq 35, Advance 11); (CEq 40, Advance 62);
    (CEq 41, Advance 63); (CEq 45, Advance 86); (CEq 58, Advance 81); (CEq 91, Advance 104); (CEq 93, Advance 105);
    (CEq 97, Advance 137); (CEq 98, Advance 145); (CEq 101, Advance 155); (CEq 102, Advance 114);
    (CEq 105, Advance 139); (CEq 110, Advance 142); (CEq 115, Advance 174); (CEq 116, Advance 152);
    (CEq 118, Advance 143); (CEq 123, Advance 52); (CEq 124, Advance 67); (CEq 125, Advance 53);
    (COr (CIn 9 13) (CEq 32), Skip 5); (CIn 48 57, Advance 180);
    (COr (CIn 65 90) (COr (CEq 95) (CIn 99 122)), Advance 179)]);
  (* 6: parser.c 1632-1665 *)
  (None, [(CEq 33, Advance 14); (CEq 35, Advance 11); (CEq 37, Advance 93); (CEq 38, Advance 12);
    (CEq 40, Advance 62); (CEq 41, Advance 63); (CEq 42, Advance 91); (CEq 43, Advance 94); (CEq 44, Advance 80);
    (CEq 45, Advance 87); (CEq 46, Advance 55); (CEq 47, Advance 92); (CEq 58, Advance 81); (CEq 60, Advance 77);
    (CEq 61, Advance 16); (CEq 62, Advance 79); (CEq 91, Advance 104); (CEq 93, Advance 105); (CEq 94, Advance 19);
    (CEq 97, Advance 137); (CEq 98, Advance 145); (CEq 105, Advance 139); (CEq 115, Advance 174);
    (CEq 118, Advance 143); (CEq 123, Advance 52); (CEq 124, Advance 39); (CEq 125, Advance 53);
    (COr (CIn 9 13) (CEq 32), Skip 6); (COr (CIn 65 90) (COr (CEq 95) (CIn 99 122)), Advance 179)]);
  (* 7: parser.c 1666-1699 *)
  (None, [(CEq 33, Advance 14); (CEq 35, Advance 11); (CEq 37, Advance 93); (CEq 38, Advance 12);
    (CEq 40, Advance 62); (CEq 41, Advance 63); (CEq 42, Advance 91); (CEq 43, Advance 94); (CEq 44, Advance 80);
    (CEq 45, Advance 86); (CEq 46, Advance 55); (CEq 47, Advance 92); (CEq 58, Advance 81); (CEq 60, Advance 77);
    (CEq 61, Advance 16); (CEq 62, Advance 79); (CEq 91, Advance 104); (CEq 93, Advance 105); (CEq 94, Advance 19);
    (CEq 97, Advance 137); (CEq 98, Advance 145); (CEq 105, Advance 139); (CEq 109, Advance 116);
    (CEq 115, Advance 174); (CEq 118, Advance 121); (CEq 124, Advance 39); (CEq 125, Advance 53);
    (COr (CIn 9 13) (CEq 32), Skip 7); (COr (CIn 65 90) (COr (CEq 95) (CIn 99 122)), Advance 179)]);
  (* 8: parser.c 1700-1704 *)
  (None, [(CEq 34, Advance 181); (CEq 92, Advance 40); (CNe 0, Advance 8)]);
  (* 9: parser.c 1705-1723 *)
  (None, [(CEq 35, Advance 11); (CEq 40, Advance 62); (CEq 43, Advance 13); (CEq 45, Advance 18);
    (CEq 61, Advance 17); (CEq 97, Advance 137); (CEq 98, Advance 145); (CEq 105, Advance 139);
    (CEq 115, Advance 174); (CEq 118, Advance 143); (CEq 123, Advance 52); (CEq 124, Advance 67);
    (COr (CIn 9 13) (CEq 32), Skip 9); (COr (CIn 65 90) (COr (CEq 95) (CIn 99 122)), Advance 179)]);
  (* 10: parser.c 1724-1732 *)
  (None, [(CEq 35, Advance 11); (CEq 102, Advance 27); (CEq 108, Advance 24); (CEq 112, Advance 31);
    (CEq 115, Advance 36); (COr (CIn 9 13) (CEq 32), Skip 10)]);
  (* 11: parser.c 1733-1736 *)
  (None, [(CEq 35, Advance 47); (CNe 0, Advance 46)]);
  (* 12: parser.c 1737-1739 *)
  (None, [(CEq 38, Advance 101)]);
  (* 13: parser.c 1740-1742 *)
  (None, [(CEq 43, Advance 106)]);
  (* 14: parser.c 1743-1745 *)
  (None, [(CEq 61, Advance 98)]);
  (* 15: parser.c 1746-1748 *)
  (None, [(CEq 61, Advance 107)]);
  (* 16: parser.c 1749-1751 *)
  (None, [(CEq 61, Advance 96)]);
  (* 17: parser.c 1752-1754 *)
  (None, [(CEq 61, Advance 15)]);
  (* 18: parser.c 1755-1757 *)
  (None, [(CEq 62, Advance 64)]);
  (* 19: parser.c 1758-1760 *)
  (None, [(CEq 94, Advance 103)]);
  (* 20: parser.c 1761-1763 *)
  (None, [(CEq 97, Advance 33)]);
  (* 21: parser.c 1764-1766 *)
  (None, [(CEq 97, Advance 34)]);
  (* 22: parser.c 1767-1769 *)
  (None, [(CEq 99, Advance 56)]);
  (* 23: parser.c 1770-1772 *)
  (None, [(CEq 101, Advance 58)]);
  (* 24: parser.c 1773-1775 *)
  (None, [(CEq 101, Advance 35)]);
  (* 25: parser.c 1776-1778 *)
  (None, [(CEq 105, Advance 22)]);
  (* 26: parser.c 1779-1781 *)
  (None, [(CEq 108, Advance 20)]);
  (* 27: parser.c 1782-1784 *)
  (None, [(CEq 110, Advance 65)]);
  (* 28: parser.c 1785-1787 *)
  (None, [(CEq 111, Advance 60)]);
  (* 29: parser.c 1788-1790 *)
  (None, [(CEq 111, Advance 37)]);
  (* 30: parser.c 1791-1793 *)
  (None, [(CEq 114, Advance 23)]);
  (* 31: parser.c 1794-1797 *)
  (None, [(CEq 114, Advance 29); (CEq 117, Advance 30)]);
  (* 32: parser.c 1798-1800 *)
  (None, [(CEq 115, Advance 69)]);
  (* 33: parser.c 1801-1803 *)
  (None, [(CEq 115, Advance 32)]);
  (* 34: parser.c 1804-1806 *)
  (None, [(CEq 116, Advance 25)]);
  (* 35: parser.c 1807-1809 *)
  (None, [(CEq 116, Advance 82)]);
  (* 36: parser.c 1810-1812 *)
  (None, [(CEq 116, Advance 21)]);
  (* 37: parser.c 1813-1815 *)
  (None, [(CEq 116, Advance 28)]);
  (* 38: parser.c 1816-1818 *)
  (None, [(CEq 117, Advance 30)]);
  (* 39: parser.c 1819-1821 *)
  (None, [(CEq 124, Advance 102)]);
  (* 40: parser.c 1822-1825 *)
  (None, [(CAnd (CNe 0) (CNe 10), Advance 8)]);
  (* 41: parser.c 1826-1869 *)
  (None, [(CEof, Advance 43); (CEq 10, Advance 45); (CEq 33, Advance 89); (CEq 34, Advance 8); (CEq 35, Advance 11);
    (CEq 37, Advance 93); (CEq 38, Advance 12); (CEq 40, Advance 62); (CEq 42, Advance 91); (CEq 43, Advance 94);
    (CEq 45, Advance 86); (CEq 46, Advance 55); (CEq 47, Advance 92); (CEq 58, Advance 81); (CEq 59, Advance 44);
    (CEq 60, Advance 77); (CEq 61, Advance 16); (CEq 62, Advance 79); (CEq 91, Advance 104); (CEq 94, Advance 19);
    (CEq 97, Advance 136); (CEq 98, Advance 145); (CEq 99, Advance 133); (CEq 101, Advance 155);
    (CEq 102, Advance 113); (CEq 105, Advance 135); (CEq 108, Advance 126); (CEq 110, Advance 142);
    (CEq 112, Advance 151); (CEq 114, Advance 127); (CEq 115, Advance 165); (CEq 116, Advance 152);
    (CEq 118, Advance 143); (CEq 123, Advance 52); (CEq 124, Advance 68); (CEq 125, Advance 53);
    (COr (CIn 9 13) (CEq 32), Skip 41); (CIn 48 57, Advance 180);
    (COr (CIn 65 90) (COr (CEq 95) (CIn 100 122)), Advance 179)]);
  (* 42: parser.c 1870-1905 *)
  (None, [(CEof, Advance 43); (CEq 33, Advance 88); (CEq 34, Advance 8); (CEq 35, Advance 11); (CEq 40, Advance 62);
    (CEq 41, Advance 63); (CEq 44, Advance 80); (CEq 45, Advance 86); (CEq 58, Advance 81); (CEq 60, Advance 76);
    (CEq 62, Advance 78); (CEq 91, Advance 104); (CEq 97, Advance 136); (CEq 98, Advance 145); (CEq 99, Advance 133);
    (CEq 101, Advance 155); (CEq 102, Advance 113); (CEq 105, Advance 135); (CEq 108, Advance 126);
    (CEq 110, Advance 142); (CEq 112, Advance 151); (CEq 114, Advance 127); (CEq 115, Advance 165);
    (CEq 116, Advance 152); (CEq 118, Advance 143); (CEq 123, Advance 52); (CEq 124, Advance 67);
    (CEq 125, Advance 53); (COr (CIn 9 13) (CEq 32), Skip 42); (CIn 48 57, Advance 180);
    (COr (CIn 65 90) (COr (CEq 95) (CIn 100 122)), Advance 179)]);
  (* 43: parser.c 1906-1908 *)
  (Some T_end, []);
  (* 44: parser.c 1909-1911 *)
  (Some T_SEMI, []);
  (* 45: parser.c 1912-1915 *)
  (Some T_LF, [(CEq 10, Advance 45)]);
  (* 46: parser.c 1916-1920 *)
  (Some T_comment, [(CAnd (CNe 0) (CNe 10), Advance 46)]);
  (* 47: parser.c 1921-1923 *)
  (Some T_POUND_POUND, []);
  (* 48: parser.c 1924-1928 *)
  (Some T_POUND_POUND, [(CAnd (CNe 0) (CNe 10), Advance 51)]);
  (* 49: parser.c 1929-1934 *)
  (Some T_doc_comment_content, [(CEq 10, Advance 46); (CEq 35, Advance 48); (CNe 0, Advance 46)]);
  (* 50: parser.c 1935-1943 *)
  (Some T_doc_comment_content, [(CEq 35, Advance 49); (COr (CEq 9) (COr (CIn 11 13) (CEq 32)), Advance 50);
    (CAnd (CNe 0) (CNe 10), Advance 51)]);
  (* 51: parser.c 1944-1948 *)
  (Some T_doc_comment_content, [(CAnd (CNe 0) (CNe 10), Advance 51)]);
  (* 52: parser.c 1949-1951 *)
  (Some T_LBRACE, []);
  (* 53: parser.c 1952-1954 *)
  (Some T_RBRACE, []);
  (* 54: parser.c 1955-1961 *)
  (Some T_import, [(COr (CIn 48 57) (COr (CIn 65 90) (COr (CEq 95) (CIn 97 122))), Advance 179)]);
  (* 55: parser.c 1962-1964 *)
  (Some T_DOT, []);
  (* 56: parser.c 1965-1967 *)
  (Some T_static, []);
  (* 57: parser.c 1968-1974 *)
  (Some T_static, [(COr (CIn 48 57) (COr (CIn 65 90) (COr (CEq 95) (CIn 97 122))), Advance 179)]);
  (* 58: parser.c 1975-1977 *)
  (Some T_pure, []);
  (* 59: parser.c 1978-1984 *)
  (Some T_pure, [(COr (CIn 48 57) (COr (CIn 65 90) (COr (CEq 95) (CIn 97 122))), Advance 179)]);
  (* 60: parser.c 1985-1987 *)
  (Some T_proto, []);
  (* 61: parser.c 1988-1994 *)
  (Some T_proto, [(COr (CIn 48 57) (COr (CIn 65 90) (COr (CEq 95) (CIn 97 122))), Advance 179)]);
  (* 62: parser.c 1995-1997 *)
  (Some T_LPAREN, []);
  (* 63: parser.c 1998-2000 *)
  (Some T_RPAREN, []);
  (* 64: parser.c 2001-2003 *)
  (Some T_DASH_GT, []);
  (* 65: parser.c 2004-2006 *)
  (Some T_fn, []);
  (* 66: parser.c 2007-2013 *)
  (Some T_fn, [(COr (CIn 48 57) (COr (CIn 65 90) (COr (CEq 95) (CIn 97 122))), Advance 179)]);
  (* 67: parser.c 2014-2016 *)
  (Some T_PIPE, []);
  (* 68: parser.c 2017-2020 *)
  (Some T_PIPE, [(CEq 124, Advance 102)]);
  (* 69: parser.c 2021-2023 *)
  (Some T_class, []);
  (* 70: parser.c 2024-2030 *)
  (Some T_class, [(COr (CIn 48 57) (COr (CIn 65 90) (COr (CEq 95) (CIn 97 122))), Advance 179)]);
  (* 71: parser.c 2031-2037 *)
  (Some T_print, [(COr (CIn 48 57) (COr (CIn 65 90) (COr (CEq 95) (CIn 97 122))), Advance 179)]);
  (* 72: parser.c 2038-2044 *)
  (Some T_assert, [(COr (CIn 48 57) (COr (CIn 65 90) (COr (CEq 95) (CIn 97 122))), Advance 179)]);
  (* 73: parser.c 2045-2051 *)
  (Some T_return, [(COr (CIn 48 57) (COr (CIn 65 90) (COr (CEq 95) (CIn 97 122))), Advance 179)]);
  (* 74: parser.c 2052-2058 *)
  (Some T_vec, [(COr (CIn 48 57) (COr (CIn 65 90) (COr (CEq 95) (CIn 97 122))), Advance 179)]);
  (* 75: parser.c 2059-2065 *)
  (Some T_map, [(COr (CIn 48 57) (COr (CIn 65 90) (COr (CEq 95) (CIn 97 122))), Advance 179)]);
  (* 76: parser.c 2066-2068 *)
  (Some T_LT, []);
  (* 77: parser.c 2069-2072 *)
  (Some T_LT, [(CEq 61, Advance 99)]);
  (* 78: parser.c 2073-2075 *)
  (Some T_GT, []);
  (* 79: parser.c 2076-2079 *)
  (Some T_GT, [(CEq 61, Advance 100)]);
  (* 80: parser.c 2080-2082 *)
  (Some T_COMMA, []);
  (* 81: parser.c 2083-2085 *)
  (Some T_COLON, []);
  (* 82: parser.c 2086-2088 *)
  (Some T_let, []);
  (* 83: parser.c 2089-2095 *)
  (Some T_let, [(COr (CIn 48 57) (COr (CIn 65 90) (COr (CEq 95) (CIn 97 122))), Advance 179)]);
  (* 84: parser.c 2096-2099 *)
  (Some T_EQ, [(CEq 61, Advance 97)]);
  (* 85: parser.c 2100-2103 *)
  (Some T_EQ, [(CEq 61, Advance 96)]);
  (* 86: parser.c 2104-2106 *)
  (Some T_DASH, []);
  (* 87: parser.c 2107-2110 *)
  (Some T_DASH, [(CEq 62, Advance 64)]);
  (* 88: parser.c 2111-2113 *)
  (Some T_BANG, []);
  (* 89: parser.c 2114-2117 *)
  (Some T_BANG, [(CEq 61, Advance 98)]);
  (* 90: parser.c 2118-2120 *)
  (Some T_power_operator, []);
  (* 91: parser.c 2121-2124 *)
  (Some T_STAR, [(CEq 42, Advance 90)]);
  (* 92: parser.c 2125-2127 *)
  (Some T_SLASH, []);
  (* 93: parser.c 2128-2130 *)
  (Some T_PERCENT, []);
  (* 94: parser.c 2131-2133 *)
  (Some T_PLUS, []);
  (* 95: parser.c 2134-2137 *)
  (Some T_PLUS, [(CEq 43, Advance 106)]);
  (* 96: parser.c 2138-2140 *)
  (Some T_EQ_EQ, []);
  (* 97: parser.c 2141-2144 *)
  (Some T_EQ_EQ, [(CEq 61, Advance 107)]);
  (* 98: parser.c 2145-2147 *)
  (Some T_BANG_EQ, []);
  (* 99: parser.c 2148-2150 *)
  (Some T_LT_EQ, []);
  (* 100: parser.c 2151-2153 *)
  (Some T_GT_EQ, []);
  (* 101: parser.c 2154-2156 *)
  (Some T_and_operator, []);
  (* 102: parser.c 2157-2159 *)
  (Some T_PIPE_PIPE, []);
  (* 103: parser.c 2160-2162 *)
  (Some T_CARET_CARET, []);
  (* 104: parser.c 2163-2165 *)
  (Some T_LBRACK, []);
  (* 105: parser.c 2166-2168 *)
  (Some T_RBRACK, []);
  (* 106: parser.c 2169-2171 *)
  (Some T_PLUS_PLUS, []);
  (* 107: parser.c 2172-2174 *)
  (Some T_EQ_EQ_EQ, []);
  (* 108: parser.c 2175-2181 *)
  (Some T_any, [(COr (CIn 48 57) (COr (CIn 65 90) (COr (CEq 95) (CIn 97 122))), Advance 179)]);
  (* 109: parser.c 2182-2188 *)
  (Some T_int, [(COr (CIn 48 57) (COr (CIn 65 90) (COr (CEq 95) (CIn 97 122))), Advance 179)]);
  (* 110: parser.c 2189-2195 *)
  (Some T_str, [(COr (CIn 48 57) (COr (CIn 65 90) (COr (CEq 95) (CIn 97 122))), Advance 179)]);
  (* 111: parser.c 2196-2202 *)
  (Some T_bool, [(COr (CIn 48 57) (COr (CIn 65 90) (COr (CEq 95) (CIn 97 122))), Advance 179)]);
  (* 112: parser.c 2203-2209 *)
  (Some T_void, [(COr (CIn 48 57) (COr (CIn 65 90) (COr (CEq 95) (CIn 97 122))), Advance 179)]);
  (* 113: parser.c 2210-2218 *)
  (Some T_identifier_token1, [(CEq 97, Advance 134); (CEq 110, Advance 66);
    (COr (CIn 48 57) (COr (CIn 65 90) (COr (CEq 95) (CIn 98 122))), Advance 179)]);
  (* 114: parser.c 2219-2226 *)
  (Some T_identifier_token1, [(CEq 97, Advance 134);
    (COr (CIn 48 57) (COr (CIn 65 90) (COr (CEq 95) (CIn 98 122))), Advance 179)]);
  (* 115: parser.c 2227-2234 *)
  (Some T_identifier_token1, [(CEq 97, Advance 163);
    (COr (CIn 48 57) (COr (CIn 65 90) (COr (CEq 95) (CIn 98 122))), Advance 179)]);
  (* 116: parser.c 2235-2242 *)
  (Some T_identifier_token1, [(CEq 97, Advance 149);
    (COr (CIn 48 57) (COr (CIn 65 90) (COr (CEq 95) (CIn 98 122))), Advance 179)]);
  (* 117: parser.c 2243-2251 *)
  (Some T_identifier_token1, [(CEq 97, Advance 172); (CEq 114, Advance 110);
    (COr (CIn 48 57) (COr (CIn 65 90) (COr (CEq 95) (CIn 98 122))), Advance 179)]);
  (* 118: parser.c 2252-2259 *)
  (Some T_identifier_token1, [(CEq 99, Advance 74);
    (COr (CIn 48 57) (COr (CIn 65 90) (COr (CEq 95) (CIn 97 122))), Advance 179)]);
  (* 119: parser.c 2260-2267 *)
  (Some T_identifier_token1, [(CEq 99, Advance 57);
    (COr (CIn 48 57) (COr (CIn 65 90) (COr (CEq 95) (CIn 97 122))), Advance 179)]);
  (* 120: parser.c 2268-2275 *)
  (Some T_identifier_token1, [(CEq 100, Advance 112);
    (COr (CIn 48 57) (COr (CIn 65 90) (COr (CEq 95) (CIn 97 122))), Advance 179)]);
  (* 121: parser.c 2276-2284 *)
  (Some T_identifier_token1, [(CEq 101, Advance 118); (CEq 111, Advance 129);
    (COr (CIn 48 57) (COr (CIn 65 90) (COr (CEq 95) (CIn 97 122))), Advance 179)]);
  (* 122: parser.c 2285-2292 *)
  (Some T_identifier_token1, [(CEq 101, Advance 185);
    (COr (CIn 48 57) (COr (CIn 65 90) (COr (CEq 95) (CIn 97 122))), Advance 179)]);
  (* 123: parser.c 2293-2300 *)
  (Some T_identifier_token1, [(CEq 101, Advance 59);
    (COr (CIn 48 57) (COr (CIn 65 90) (COr (CEq 95) (CIn 97 122))), Advance 179)]);
  (* 124: parser.c 2301-2308 *)
  (Some T_identifier_token1, [(CEq 101, Advance 182);
    (COr (CIn 48 57) (COr (CIn 65 90) (COr (CEq 95) (CIn 97 122))), Advance 179)]);
  (* 125: parser.c 2309-2316 *)
  (Some T_identifier_token1, [(CEq 101, Advance 183);
    (COr (CIn 48 57) (COr (CIn 65 90) (COr (CEq 95) (CIn 97 122))), Advance 179)]);
  (* 126: parser.c 2317-2324 *)
  (Some T_identifier_token1, [(CEq 101, Advance 167);
    (COr (CIn 48 57) (COr (CIn 65 90) (COr (CEq 95) (CIn 97 122))), Advance 179)]);
  (* 127: parser.c 2325-2332 *)
  (Some T_identifier_token1, [(CEq 101, Advance 171);
    (COr (CIn 48 57) (COr (CIn 65 90) (COr (CEq 95) (CIn 97 122))), Advance 179)]);
  (* 128: parser.c 2333-2340 *)
  (Some T_identifier_token1, [(CEq 101, Advance 159);
    (COr (CIn 48 57) (COr (CIn 65 90) (COr (CEq 95) (CIn 97 122))), Advance 179)]);
  (* 129: parser.c 2341-2348 *)
  (Some T_identifier_token1, [(CEq 105, Advance 120);
    (COr (CIn 48 57) (COr (CIn 65 90) (COr (CEq 95) (CIn 97 122))), Advance 179)]);
  (* 130: parser.c 2349-2357 *)
  (Some T_identifier_token1, [(CEq 105, Advance 141); (CEq 111, Advance 173);
    (COr (CIn 48 57) (COr (CIn 65 90) (COr (CEq 95) (CIn 97 122))), Advance 179)]);
  (* 131: parser.c 2358-2365 *)
  (Some T_identifier_token1, [(CEq 105, Advance 119);
    (COr (CIn 48 57) (COr (CIn 65 90) (COr (CEq 95) (CIn 97 122))), Advance 179)]);
  (* 132: parser.c 2366-2373 *)
  (Some T_identifier_token1, [(CEq 108, Advance 111);
    (COr (CIn 48 57) (COr (CIn 65 90) (COr (CEq 95) (CIn 97 122))), Advance 179)]);
  (* 133: parser.c 2374-2381 *)
  (Some T_identifier_token1, [(CEq 108, Advance 115);
    (COr (CIn 48 57) (COr (CIn 65 90) (COr (CEq 95) (CIn 97 122))), Advance 179)]);
  (* 134: parser.c 2382-2389 *)
  (Some T_identifier_token1, [(CEq 108, Advance 164);
    (COr (CIn 48 57) (COr (CIn 65 90) (COr (CEq 95) (CIn 97 122))), Advance 179)]);
  (* 135: parser.c 2390-2398 *)
  (Some T_identifier_token1, [(CEq 109, Advance 150); (CEq 110, Advance 166);
    (COr (CIn 48 57) (COr (CIn 65 90) (COr (CEq 95) (CIn 97 122))), Advance 179)]);
  (* 136: parser.c 2399-2407 *)
  (Some T_identifier_token1, [(CEq 110, Advance 178); (CEq 115, Advance 162);
    (COr (CIn 48 57) (COr (CIn 65 90) (COr (CEq 95) (CIn 97 122))), Advance 179)]);
  (* 137: parser.c 2408-2415 *)
  (Some T_identifier_token1, [(CEq 110, Advance 178);
    (COr (CIn 48 57) (COr (CIn 65 90) (COr (CEq 95) (CIn 97 122))), Advance 179)]);
  (* 138: parser.c 2416-2423 *)
  (Some T_identifier_token1, [(CEq 110, Advance 73);
    (COr (CIn 48 57) (COr (CIn 65 90) (COr (CEq 95) (CIn 97 122))), Advance 179)]);
  (* 139: parser.c 2424-2431 *)
  (Some T_identifier_token1, [(CEq 110, Advance 166);
    (COr (CIn 48 57) (COr (CIn 65 90) (COr (CEq 95) (CIn 97 122))), Advance 179)]);
  (* 140: parser.c 2432-2439 *)
  (Some T_identifier_token1, [(CEq 110, Advance 122);
    (COr (CIn 48 57) (COr (CIn 65 90) (COr (CEq 95) (CIn 97 122))), Advance 179)]);
  (* 141: parser.c 2440-2447 *)
  (Some T_identifier_token1, [(CEq 110, Advance 168);
    (COr (CIn 48 57) (COr (CIn 65 90) (COr (CEq 95) (CIn 97 122))), Advance 179)]);
  (* 142: parser.c 2448-2455 *)
  (Some T_identifier_token1, [(CEq 111, Advance 140);
    (COr (CIn 48 57) (COr (CIn 65 90) (COr (CEq 95) (CIn 97 122))), Advance 179)]);
  (* 143: parser.c 2456-2463 *)
  (Some T_identifier_token1, [(CEq 111, Advance 129);
    (COr (CIn 48 57) (COr (CIn 65 90) (COr (CEq 95) (CIn 97 122))), Advance 179)]);
  (* 144: parser.c 2464-2471 *)
  (Some T_identifier_token1, [(CEq 111, Advance 61);
    (COr (CIn 48 57) (COr (CIn 65 90) (COr (CEq 95) (CIn 97 122))), Advance 179)]);
  (* 145: parser.c 2472-2479 *)
  (Some T_identifier_token1, [(CEq 111, Advance 146);
    (COr (CIn 48 57) (COr (CIn 65 90) (COr (CEq 95) (CIn 97 122))), Advance 179)]);
  (* 146: parser.c 2480-2487 *)
  (Some T_identifier_token1, [(CEq 111, Advance 132);
    (COr (CIn 48 57) (COr (CIn 65 90) (COr (CEq 95) (CIn 97 122))), Advance 179)]);
  (* 147: parser.c 2488-2495 *)
  (Some T_identifier_token1, [(CEq 111, Advance 154);
    (COr (CIn 48 57) (COr (CIn 65 90) (COr (CEq 95) (CIn 97 122))), Advance 179)]);
  (* 148: parser.c 2496-2503 *)
  (Some T_identifier_token1, [(CEq 111, Advance 160);
    (COr (CIn 48 57) (COr (CIn 65 90) (COr (CEq 95) (CIn 97 122))), Advance 179)]);
  (* 149: parser.c 2504-2511 *)
  (Some T_identifier_token1, [(CEq 112, Advance 75);
    (COr (CIn 48 57) (COr (CIn 65 90) (COr (CEq 95) (CIn 97 122))), Advance 179)]);
  (* 150: parser.c 2512-2519 *)
  (Some T_identifier_token1, [(CEq 112, Advance 148);
    (COr (CIn 48 57) (COr (CIn 65 90) (COr (CEq 95) (CIn 97 122))), Advance 179)]);
  (* 151: parser.c 2520-2528 *)
  (Some T_identifier_token1, [(CEq 114, Advance 130); (CEq 117, Advance 158);
    (COr (CIn 48 57) (COr (CIn 65 90) (COr (CEq 95) (CIn 97 122))), Advance 179)]);
  (* 152: parser.c 2529-2536 *)
  (Some T_identifier_token1, [(CEq 114, Advance 176);
    (COr (CIn 48 57) (COr (CIn 65 90) (COr (CEq 95) (CIn 97 122))), Advance 179)]);
  (* 153: parser.c 2537-2544 *)
  (Some T_identifier_token1, [(CEq 114, Advance 110);
    (COr (CIn 48 57) (COr (CIn 65 90) (COr (CEq 95) (CIn 97 122))), Advance 179)]);
  (* 154: parser.c 2545-2552 *)
  (Some T_identifier_token1, [(CEq 114, Advance 184);
    (COr (CIn 48 57) (COr (CIn 65 90) (COr (CEq 95) (CIn 97 122))), Advance 179)]);
  (* 155: parser.c 2553-2560 *)
  (Some T_identifier_token1, [(CEq 114, Advance 157);
    (COr (CIn 48 57) (COr (CIn 65 90) (COr (CEq 95) (CIn 97 122))), Advance 179)]);
  (* 156: parser.c 2561-2568 *)
  (Some T_identifier_token1, [(CEq 114, Advance 138);
    (COr (CIn 48 57) (COr (CIn 65 90) (COr (CEq 95) (CIn 97 122))), Advance 179)]);
  (* 157: parser.c 2569-2576 *)
  (Some T_identifier_token1, [(CEq 114, Advance 147);
    (COr (CIn 48 57) (COr (CIn 65 90) (COr (CEq 95) (CIn 97 122))), Advance 179)]);
  (* 158: parser.c 2577-2584 *)
  (Some T_identifier_token1, [(CEq 114, Advance 123);
    (COr (CIn 48 57) (COr (CIn 65 90) (COr (CEq 95) (CIn 97 122))), Advance 179)]);
  (* 159: parser.c 2585-2592 *)
  (Some T_identifier_token1, [(CEq 114, Advance 169);
    (COr (CIn 48 57) (COr (CIn 65 90) (COr (CEq 95) (CIn 97 122))), Advance 179)]);
  (* 160: parser.c 2593-2600 *)
  (Some T_identifier_token1, [(CEq 114, Advance 170);
    (COr (CIn 48 57) (COr (CIn 65 90) (COr (CEq 95) (CIn 97 122))), Advance 179)]);
  (* 161: parser.c 2601-2608 *)
  (Some T_identifier_token1, [(CEq 115, Advance 70);
    (COr (CIn 48 57) (COr (CIn 65 90) (COr (CEq 95) (CIn 97 122))), Advance 179)]);
  (* 162: parser.c 2609-2616 *)
  (Some T_identifier_token1, [(CEq 115, Advance 128);
    (COr (CIn 48 57) (COr (CIn 65 90) (COr (CEq 95) (CIn 97 122))), Advance 179)]);
  (* 163: parser.c 2617-2624 *)
  (Some T_identifier_token1, [(CEq 115, Advance 161);
    (COr (CIn 48 57) (COr (CIn 65 90) (COr (CEq 95) (CIn 97 122))), Advance 179)]);
  (* 164: parser.c 2625-2632 *)
  (Some T_identifier_token1, [(CEq 115, Advance 125);
    (COr (CIn 48 57) (COr (CIn 65 90) (COr (CEq 95) (CIn 97 122))), Advance 179)]);
  (* 165: parser.c 2633-2640 *)
  (Some T_identifier_token1, [(CEq 116, Advance 117);
    (COr (CIn 48 57) (COr (CIn 65 90) (COr (CEq 95) (CIn 97 122))), Advance 179)]);
  (* 166: parser.c 2641-2648 *)
  (Some T_identifier_token1, [(CEq 116, Advance 109);
    (COr (CIn 48 57) (COr (CIn 65 90) (COr (CEq 95) (CIn 97 122))), Advance 179)]);
  (* 167: parser.c 2649-2656 *)
  (Some T_identifier_token1, [(CEq 116, Advance 83);
    (COr (CIn 48 57) (COr (CIn 65 90) (COr (CEq 95) (CIn 97 122))), Advance 179)]);
  (* 168: parser.c 2657-2664 *)
  (Some T_identifier_token1, [(CEq 116, Advance 71);
    (COr (CIn 48 57) (COr (CIn 65 90) (COr (CEq 95) (CIn 97 122))), Advance 179)]);
  (* 169: parser.c 2665-2672 *)
  (Some T_identifier_token1, [(CEq 116, Advance 72);
    (COr (CIn 48 57) (COr (CIn 65 90) (COr (CEq 95) (CIn 97 122))), Advance 179)]);
  (* 170: parser.c 2673-2680 *)
  (Some T_identifier_token1, [(CEq 116, Advance 54);
    (COr (CIn 48 57) (COr (CIn 65 90) (COr (CEq 95) (CIn 97 122))), Advance 179)]);
  (* 171: parser.c 2681-2688 *)
  (Some T_identifier_token1, [(CEq 116, Advance 177);
    (COr (CIn 48 57) (COr (CIn 65 90) (COr (CEq 95) (CIn 97 122))), Advance 179)]);
  (* 172: parser.c 2689-2696 *)
  (Some T_identifier_token1, [(CEq 116, Advance 131);
    (COr (CIn 48 57) (COr (CIn 65 90) (COr (CEq 95) (CIn 97 122))), Advance 179)]);
  (* 173: parser.c 2697-2704 *)
  (Some T_identifier_token1, [(CEq 116, Advance 144);
    (COr (CIn 48 57) (COr (CIn 65 90) (COr (CEq 95) (CIn 97 122))), Advance 179)]);
  (* 174: parser.c 2705-2712 *)
  (Some T_identifier_token1, [(CEq 116, Advance 153);
    (COr (CIn 48 57) (COr (CIn 65 90) (COr (CEq 95) (CIn 97 122))), Advance 179)]);
  (* 175: parser.c 2713-2720 *)
  (Some T_identifier_token1, [(CEq 117, Advance 158);
    (COr (CIn 48 57) (COr (CIn 65 90) (COr (CEq 95) (CIn 97 122))), Advance 179)]);
  (* 176: parser.c 2721-2728 *)
  (Some T_identifier_token1, [(CEq 117, Advance 124);
    (COr (CIn 48 57) (COr (CIn 65 90) (COr (CEq 95) (CIn 97 122))), Advance 179)]);
  (* 177: parser.c 2729-2736 *)
  (Some T_identifier_token1, [(CEq 117, Advance 156);
    (COr (CIn 48 57) (COr (CIn 65 90) (COr (CEq 95) (CIn 97 122))), Advance 179)]);
  (* 178: parser.c 2737-2744 *)
  (Some T_identifier_token1, [(CEq 121, Advance 108);
    (COr (CIn 48 57) (COr (CIn 65 90) (COr (CEq 95) (CIn 97 122))), Advance 179)]);
  (* 179: parser.c 2745-2751 *)
  (Some T_identifier_token1, [(COr (CIn 48 57) (COr (CIn 65 90) (COr (CEq 95) (CIn 97 122))), Advance 179)]);
  (* 180: parser.c 2752-2755 *)
  (Some T_number, [(CIn 48 57, Advance 180)]);
  (* 181: parser.c 2756-2758 *)
  (Some T_string, []);
  (* 182: parser.c 2759-2765 *)
  (Some T_true, [(COr (CIn 48 57) (COr (CIn 65 90) (COr (CEq 95) (CIn 97 122))), Advance 179)]);
  (* 183: parser.c 2766-2772 *)
  (Some T_false, [(COr (CIn 48 57) (COr (CIn 65 90) (COr (CEq 95) (CIn 97 122))), Advance 179)]);
  (* 184: parser.c 2773-2779 *)
  (Some T_error, [(COr (CIn 48 57) (COr (CIn 65 90) (COr (CEq 95) (CIn 97 122))), Advance 179)]);
  (* 185: parser.c 2780-2786 *)
  (Some T_none, [(COr (CIn 48 57) (COr (CIn 65 90) (COr (CEq 95) (CIn 97 122))), Advance 179)])
].

(** parser.c 2792-3129 [ts_lex_modes]: the state in which the lexer starts in each state of the parser; [None] is
    "(TSStateId)(-1)", the end of a comment of the "##" kind. *)
Definition lex_modes : list (option N) := [
  Some 0; Some 42; Some 42; Some 42; Some 42; Some 42; Some 42; Some 42; Some 42; Some 42; Some 42; Some 42; Some 42; Some 41;
  Some 41; Some 1; Some 5; Some 5; Some 5; Some 5; Some 5; Some 5; Some 5; Some 5; Some 5; Some 5; Some 5; Some 5;
  Some 5; Some 5; Some 5; Some 5; Some 5; Some 5; Some 5; Some 5; Some 5; Some 5; Some 5; Some 5; Some 5; Some 5;
  Some 5; Some 5; Some 5; Some 5; Some 5; Some 5; Some 5; Some 5; Some 5; Some 5; Some 5; Some 5; Some 5; Some 5;
  Some 5; Some 5; Some 5; Some 5; Some 5; Some 5; Some 5; Some 5; Some 5; Some 5; Some 5; Some 5; Some 3; Some 3;
  Some 3; Some 3; Some 3; Some 3; Some 3; Some 3; Some 3; Some 3; Some 42; Some 42; Some 3; Some 3; Some 42; Some 42;
  Some 42; Some 42; Some 3; Some 3; Some 42; Some 42; Some 42; Some 42; Some 42; Some 3; Some 3; Some 42; Some 3; Some 42;
  Some 3; Some 42; Some 3; Some 42; Some 42; Some 42; Some 42; Some 42; Some 42; Some 2; Some 2; Some 3; Some 3; Some 3;
  Some 3; Some 7; Some 3; Some 3; Some 3; Some 3; Some 3; Some 3; Some 3; Some 7; Some 7; Some 7; Some 3; Some 3;
  Some 7; Some 3; Some 3; Some 3; Some 7; Some 3; Some 7; Some 7; Some 3; Some 3; Some 7; Some 3; Some 3; Some 3;
  Some 3; Some 3; Some 3; Some 7; Some 6; Some 7; Some 6; Some 7; Some 7; Some 7; Some 7; Some 7; Some 7; Some 7;
  Some 7; Some 7; Some 7; Some 7; Some 7; Some 7; Some 7; Some 7; Some 7; Some 7; Some 7; Some 7; Some 7; Some 7;
  Some 7; Some 7; Some 7; Some 7; Some 7; Some 7; Some 7; Some 7; Some 7; Some 7; Some 7; Some 7; Some 7; Some 7;
  Some 7; Some 5; Some 5; Some 5; Some 5; Some 5; Some 3; Some 3; Some 3; Some 3; Some 7; Some 7; Some 7; Some 7;
  Some 7; Some 7; Some 7; Some 7; Some 7; Some 7; Some 7; Some 7; Some 7; Some 7; Some 7; Some 7; Some 7; Some 7;
  Some 7; Some 7; Some 7; Some 7; Some 6; Some 9; Some 9; Some 6; Some 9; Some 9; Some 6; Some 9; Some 9; Some 6;
  Some 6; Some 6; Some 4; Some 3; Some 9; Some 4; Some 3; Some 9; Some 6; Some 3; Some 4; Some 3; Some 6; Some 3;
  Some 6; Some 4; Some 3; Some 4; Some 3; Some 6; Some 3; Some 6; Some 3; Some 4; Some 3; Some 3; Some 6; Some 4;
  Some 3; Some 3; Some 3; Some 6; Some 3; Some 6; Some 3; Some 6; Some 3; Some 3; Some 3; Some 3; Some 6; Some 3;
  Some 6; Some 10; Some 10; Some 6; Some 42; Some 42; Some 10; Some 42; Some 42; Some 10; Some 42; Some 42; Some 9; Some 42;
  Some 42; Some 9; Some 0; Some 42; Some 0; Some 9; Some 0; Some 42; Some 0; Some 42; Some 9; Some 0; Some 0; Some 42;
  Some 0; Some 10; Some 0; Some 0; Some 0; Some 0; Some 42; Some 9; Some 0; Some 9; Some 0; Some 0; Some 42; Some 9;
  Some 0; Some 0; Some 0; Some 0; Some 0; Some 0; Some 0; Some 0; Some 0; Some 0; Some 0; Some 42; Some 42; Some 42;
  Some 42; Some 42; Some 0; Some 0; Some 0; Some 0; Some 42; Some 0; Some 10; Some 50; Some 0; Some 0; Some 0; None
].

(** tree_sitter/parser.h 40-75, 166-230: the actions of the parser. [Reduce x n p]: [n] children become a node [x] by
    production [p]. *)
Inductive action :=
| Shift (k : N) | ShiftExtra | ShiftRepeat (k : N) | Reduce (x : sym) (n : nat) (p : N) | Accept | Recover.

(** parser.c 3131-14888 [ts_parse_table], [ts_small_parse_table], [ts_small_parse_table_map], with the entries of
    [ts_parse_actions] (14889-15300): for each state the actions on tokens and the states reached over nonterminals. *)
Definition rows : list (list (list action * list sym) * list (N * list sym)) := [
  (* 0: parser.c 3132-3192 *)
  ([([Recover], [T_end; T_SEMI; T_LBRACE; T_RBRACE; T_import; T_DOT; T_static; T_pure; T_proto; T_LPAREN; T_RPAREN; T_DASH_GT; T_fn; T_PIPE; T_class; T_print; T_assert; T_return; T_vec; T_map; T_LT; T_GT; T_COMMA; T_COLON; T_let; T_EQ; T_DASH; T_BANG; T_power_operator; T_STAR; T_SLASH; T_PERCENT; T_PLUS; T_EQ_EQ; T_BANG_EQ; T_LT_EQ; T_GT_EQ; T_and_operator; T_PIPE_PIPE; T_CARET_CARET; T_LBRACK; T_RBRACK; T_PLUS_PLUS; T_EQ_EQ_EQ; T_any; T_int; T_str; T_bool; T_void; T_identifier_token1; T_number; T_string; T_true; T_false; T_error; T_none]);
    ([ShiftExtra], [T_comment]); ([Shift 331], [T_POUND_POUND])],
   [(0, [N_doc_comment])]);
  (* 1: parser.c 3193-3259 *)
  ([([Reduce N_source_file 0 0], [T_end]); ([ShiftExtra], [T_comment]); ([Shift 331], [T_POUND_POUND]);
    ([Shift 3], [T_LBRACE]); ([Shift 220], [T_import]); ([Shift 275], [T_static; T_pure]); ([Shift 218], [T_proto]);
    ([Shift 48], [T_LPAREN]); ([Shift 216], [T_fn]); ([Shift 215], [T_PIPE]); ([Shift 266], [T_class]);
    ([Shift 50], [T_print]); ([Shift 51], [T_assert]); ([Shift 15], [T_return]); ([Shift 257], [T_let]);
    ([Shift 184], [T_DASH; T_BANG]); ([Shift 33], [T_LBRACK]); ([Shift 108], [T_any; T_int; T_str; T_bool; T_void]);
    ([Shift 107], [T_identifier_token1]); ([Shift 115], [T_number; T_string]);
    ([Shift 116], [T_true; T_false; T_error]); ([Shift 115], [T_none])],
   [(327, [N_source_file]); (11, [N__statement_list]); (1, [N_doc_comment]); (89, [N__line_insensitive_statement]);
    (191, [N_statement]); (88, [N_block; N_function_declaration; N_class_declaration]);
    (261, [N_import; N_proto; N_print; N_assert; N_return; N_var_decl; N_assignment]); (272, [N_qualifier]);
    (295, [N_qualifier_list]);
    (118, [N_lambda; N_parenthesized_expression; N_call; N_literal; N_unary_expression; N_binary_expression; N_vec; N_slice; N_map]);
    (86, [N_expression]); (110, [N_access; N_index; N_identifier]); (53, [N_unary_operator]);
    (107, [N_primitive_type]); (115, [N_bool]); (268, [N_qualifier_list_repeat1])]);
  (* 2: parser.c 3260-3326 *)
  ([([ShiftExtra], [T_comment]); ([Shift 331], [T_POUND_POUND]); ([Shift 3], [T_LBRACE]); ([Shift 137], [T_RBRACE]);
    ([Shift 220], [T_import]); ([Shift 275], [T_static; T_pure]); ([Shift 218], [T_proto]); ([Shift 48], [T_LPAREN]);
    ([Shift 216], [T_fn]); ([Shift 215], [T_PIPE]); ([Shift 266], [T_class]); ([Shift 50], [T_print]);
    ([Shift 51], [T_assert]); ([Shift 15], [T_return]); ([Shift 257], [T_let]); ([Shift 184], [T_DASH; T_BANG]);
    ([Shift 33], [T_LBRACK]); ([Shift 108], [T_any; T_int; T_str; T_bool; T_void]);
    ([Shift 107], [T_identifier_token1]); ([Shift 115], [T_number; T_string]);
    ([Shift 116], [T_true; T_false; T_error]); ([Shift 115], [T_none])],
   [(9, [N__statement_list]); (2, [N_doc_comment]); (89, [N__line_insensitive_statement]); (190, [N_statement]);
    (88, [N_block; N_function_declaration; N_class_declaration]);
    (261, [N_import; N_proto; N_print; N_assert; N_return; N_var_decl; N_assignment]); (272, [N_qualifier]);
    (295, [N_qualifier_list]);
    (118, [N_lambda; N_parenthesized_expression; N_call; N_literal; N_unary_expression; N_binary_expression; N_vec; N_slice; N_map]);
    (76, [N_expression]); (110, [N_access; N_index; N_identifier]); (53, [N_unary_operator]); (286, [N_map_item]);
    (107, [N_primitive_type]); (115, [N_bool]); (268, [N_qualifier_list_repeat1])]);
  (* 3: parser.c 3327-3393 *)
  ([([ShiftExtra], [T_comment]); ([Shift 331], [T_POUND_POUND]); ([Shift 3], [T_LBRACE]); ([Shift 13], [T_RBRACE]);
    ([Shift 220], [T_import]); ([Shift 275], [T_static; T_pure]); ([Shift 218], [T_proto]); ([Shift 48], [T_LPAREN]);
    ([Shift 216], [T_fn]); ([Shift 215], [T_PIPE]); ([Shift 266], [T_class]); ([Shift 50], [T_print]);
    ([Shift 51], [T_assert]); ([Shift 15], [T_return]); ([Shift 257], [T_let]); ([Shift 184], [T_DASH; T_BANG]);
    ([Shift 33], [T_LBRACK]); ([Shift 108], [T_any; T_int; T_str; T_bool; T_void]);
    ([Shift 107], [T_identifier_token1]); ([Shift 115], [T_number; T_string]);
    ([Shift 116], [T_true; T_false; T_error]); ([Shift 115], [T_none])],
   [(7, [N__statement_list]); (3, [N_doc_comment]); (89, [N__line_insensitive_statement]); (189, [N_statement]);
    (88, [N_block; N_function_declaration; N_class_declaration]);
    (261, [N_import; N_proto; N_print; N_assert; N_return; N_var_decl; N_assignment]); (272, [N_qualifier]);
    (295, [N_qualifier_list]);
    (118, [N_lambda; N_parenthesized_expression; N_call; N_literal; N_unary_expression; N_binary_expression; N_vec; N_slice; N_map]);
    (76, [N_expression]); (110, [N_access; N_index; N_identifier]); (53, [N_unary_operator]); (286, [N_map_item]);
    (107, [N_primitive_type]); (115, [N_bool]); (268, [N_qualifier_list_repeat1])]);
  (* 4: parser.c 3394-3460 *)
  ([([ShiftExtra], [T_comment]); ([Shift 331], [T_POUND_POUND]); ([Shift 3], [T_LBRACE]); ([Shift 14], [T_RBRACE]);
    ([Shift 220], [T_import]); ([Shift 275], [T_static; T_pure]); ([Shift 218], [T_proto]); ([Shift 48], [T_LPAREN]);
    ([Shift 216], [T_fn]); ([Shift 215], [T_PIPE]); ([Shift 266], [T_class]); ([Shift 50], [T_print]);
    ([Shift 51], [T_assert]); ([Shift 15], [T_return]); ([Shift 257], [T_let]); ([Shift 184], [T_DASH; T_BANG]);
    ([Shift 33], [T_LBRACK]); ([Shift 108], [T_any; T_int; T_str; T_bool; T_void]);
    ([Shift 107], [T_identifier_token1]); ([Shift 115], [T_number; T_string]);
    ([Shift 116], [T_true; T_false; T_error]); ([Shift 115], [T_none])],
   [(7, [N__statement_list]); (4, [N_doc_comment]); (89, [N__line_insensitive_statement]); (189, [N_statement]);
    (88, [N_block; N_function_declaration; N_class_declaration]);
    (261, [N_import; N_proto; N_print; N_assert; N_return; N_var_decl; N_assignment]); (272, [N_qualifier]);
    (295, [N_qualifier_list]);
    (118, [N_lambda; N_parenthesized_expression; N_call; N_literal; N_unary_expression; N_binary_expression; N_vec; N_slice; N_map]);
    (76, [N_expression]); (110, [N_access; N_index; N_identifier]); (53, [N_unary_operator]); (286, [N_map_item]);
    (107, [N_primitive_type]); (115, [N_bool]); (268, [N_qualifier_list_repeat1])]);
  (* 5: parser.c 3461-3527 *)
  ([([ShiftExtra], [T_comment]); ([Shift 331], [T_POUND_POUND]); ([Shift 3], [T_LBRACE]); ([Shift 180], [T_RBRACE]);
    ([Shift 220], [T_import]); ([Shift 275], [T_static; T_pure]); ([Shift 218], [T_proto]); ([Shift 48], [T_LPAREN]);
    ([Shift 216], [T_fn]); ([Shift 215], [T_PIPE]); ([Shift 266], [T_class]); ([Shift 50], [T_print]);
    ([Shift 51], [T_assert]); ([Shift 15], [T_return]); ([Shift 257], [T_let]); ([Shift 184], [T_DASH; T_BANG]);
    ([Shift 33], [T_LBRACK]); ([Shift 108], [T_any; T_int; T_str; T_bool; T_void]);
    ([Shift 107], [T_identifier_token1]); ([Shift 115], [T_number; T_string]);
    ([Shift 116], [T_true; T_false; T_error]); ([Shift 115], [T_none])],
   [(6, [N__statement_list]); (5, [N_doc_comment]); (89, [N__line_insensitive_statement]); (188, [N_statement]);
    (88, [N_block; N_function_declaration; N_class_declaration]);
    (261, [N_import; N_proto; N_print; N_assert; N_return; N_var_decl; N_assignment]); (272, [N_qualifier]);
    (295, [N_qualifier_list]);
    (118, [N_lambda; N_parenthesized_expression; N_call; N_literal; N_unary_expression; N_binary_expression; N_vec; N_slice; N_map]);
    (76, [N_expression]); (110, [N_access; N_index; N_identifier]); (53, [N_unary_operator]); (297, [N_map_item]);
    (107, [N_primitive_type]); (115, [N_bool]); (268, [N_qualifier_list_repeat1])]);
  (* 6: parser.c 3528-3593 *)
  ([([ShiftExtra], [T_comment]); ([Shift 331], [T_POUND_POUND]); ([Shift 4], [T_LBRACE]); ([Shift 181], [T_RBRACE]);
    ([Shift 220], [T_import]); ([Shift 275], [T_static; T_pure]); ([Shift 218], [T_proto]); ([Shift 48], [T_LPAREN]);
    ([Shift 216], [T_fn]); ([Shift 215], [T_PIPE]); ([Shift 266], [T_class]); ([Shift 50], [T_print]);
    ([Shift 51], [T_assert]); ([Shift 15], [T_return]); ([Shift 257], [T_let]); ([Shift 184], [T_DASH; T_BANG]);
    ([Shift 33], [T_LBRACK]); ([Shift 108], [T_any; T_int; T_str; T_bool; T_void]);
    ([Shift 107], [T_identifier_token1]); ([Shift 115], [T_number; T_string]);
    ([Shift 116], [T_true; T_false; T_error]); ([Shift 115], [T_none])],
   [(12, [N__statement_list]); (6, [N_doc_comment]); (89, [N__line_insensitive_statement]); (191, [N_statement]);
    (88, [N_block; N_function_declaration; N_class_declaration]);
    (261, [N_import; N_proto; N_print; N_assert; N_return; N_var_decl; N_assignment]); (272, [N_qualifier]);
    (295, [N_qualifier_list]);
    (118, [N_lambda; N_parenthesized_expression; N_call; N_literal; N_unary_expression; N_binary_expression; N_vec; N_slice; N_map]);
    (86, [N_expression]); (110, [N_access; N_index; N_identifier]); (53, [N_unary_operator]);
    (107, [N_primitive_type]); (115, [N_bool]); (268, [N_qualifier_list_repeat1])]);
  (* 7: parser.c 3594-3659 *)
  ([([ShiftExtra], [T_comment]); ([Shift 331], [T_POUND_POUND]); ([Shift 4], [T_LBRACE]); ([Shift 83], [T_RBRACE]);
    ([Shift 220], [T_import]); ([Shift 275], [T_static; T_pure]); ([Shift 218], [T_proto]); ([Shift 48], [T_LPAREN]);
    ([Shift 216], [T_fn]); ([Shift 215], [T_PIPE]); ([Shift 266], [T_class]); ([Shift 50], [T_print]);
    ([Shift 51], [T_assert]); ([Shift 15], [T_return]); ([Shift 257], [T_let]); ([Shift 184], [T_DASH; T_BANG]);
    ([Shift 33], [T_LBRACK]); ([Shift 108], [T_any; T_int; T_str; T_bool; T_void]);
    ([Shift 107], [T_identifier_token1]); ([Shift 115], [T_number; T_string]);
    ([Shift 116], [T_true; T_false; T_error]); ([Shift 115], [T_none])],
   [(12, [N__statement_list]); (7, [N_doc_comment]); (89, [N__line_insensitive_statement]); (191, [N_statement]);
    (88, [N_block; N_function_declaration; N_class_declaration]);
    (261, [N_import; N_proto; N_print; N_assert; N_return; N_var_decl; N_assignment]); (272, [N_qualifier]);
    (295, [N_qualifier_list]);
    (118, [N_lambda; N_parenthesized_expression; N_call; N_literal; N_unary_expression; N_binary_expression; N_vec; N_slice; N_map]);
    (86, [N_expression]); (110, [N_access; N_index; N_identifier]); (53, [N_unary_operator]);
    (107, [N_primitive_type]); (115, [N_bool]); (268, [N_qualifier_list_repeat1])]);
  (* 8: parser.c 3660-3725 *)
  ([([Reduce N__statement_list 2 0], [T_end]); ([ShiftExtra], [T_comment]); ([Shift 331], [T_POUND_POUND]);
    ([Reduce N__statement_list 2 0; ShiftRepeat 3], [T_LBRACE]);
    ([Reduce N__statement_list 2 0; ShiftRepeat 220], [T_import]);
    ([Reduce N__statement_list 2 0; ShiftRepeat 275], [T_static; T_pure]);
    ([Reduce N__statement_list 2 0; ShiftRepeat 218], [T_proto]);
    ([Reduce N__statement_list 2 0; ShiftRepeat 48], [T_LPAREN]);
    ([Reduce N__statement_list 2 0; ShiftRepeat 216], [T_fn]);
    ([Reduce N__statement_list 2 0; ShiftRepeat 215], [T_PIPE]);
    ([Reduce N__statement_list 2 0; ShiftRepeat 266], [T_class]);
    ([Reduce N__statement_list 2 0; ShiftRepeat 50], [T_print]);
    ([Reduce N__statement_list 2 0; ShiftRepeat 51], [T_assert]);
    ([Reduce N__statement_list 2 0; ShiftRepeat 15], [T_return]);
    ([Reduce N__statement_list 2 0; ShiftRepeat 257], [T_let]);
    ([Reduce N__statement_list 2 0; ShiftRepeat 184], [T_DASH; T_BANG]);
    ([Reduce N__statement_list 2 0; ShiftRepeat 33], [T_LBRACK]);
    ([Reduce N__statement_list 2 0; ShiftRepeat 108], [T_any; T_int; T_str; T_bool; T_void]);
    ([Reduce N__statement_list 2 0; ShiftRepeat 107], [T_identifier_token1]);
    ([Reduce N__statement_list 2 0; ShiftRepeat 115], [T_number; T_string]);
    ([Reduce N__statement_list 2 0; ShiftRepeat 116], [T_true; T_false; T_error]);
    ([Reduce N__statement_list 2 0; ShiftRepeat 115], [T_none])],
   [(8, [N__statement_list; N_doc_comment]); (89, [N__line_insensitive_statement]); (191, [N_statement]);
    (88, [N_block; N_function_declaration; N_class_declaration]);
    (261, [N_import; N_proto; N_print; N_assert; N_return; N_var_decl; N_assignment]); (272, [N_qualifier]);
    (295, [N_qualifier_list]);
    (118, [N_lambda; N_parenthesized_expression; N_call; N_literal; N_unary_expression; N_binary_expression; N_vec; N_slice; N_map]);
    (86, [N_expression]); (110, [N_access; N_index; N_identifier]); (53, [N_unary_operator]);
    (107, [N_primitive_type]); (115, [N_bool]); (268, [N_qualifier_list_repeat1])]);
  (* 9: parser.c 3726-3791 *)
  ([([ShiftExtra], [T_comment]); ([Shift 331], [T_POUND_POUND]); ([Shift 4], [T_LBRACE]); ([Shift 135], [T_RBRACE]);
    ([Shift 220], [T_import]); ([Shift 275], [T_static; T_pure]); ([Shift 218], [T_proto]); ([Shift 48], [T_LPAREN]);
    ([Shift 216], [T_fn]); ([Shift 215], [T_PIPE]); ([Shift 266], [T_class]); ([Shift 50], [T_print]);
    ([Shift 51], [T_assert]); ([Shift 15], [T_return]); ([Shift 257], [T_let]); ([Shift 184], [T_DASH; T_BANG]);
    ([Shift 33], [T_LBRACK]); ([Shift 108], [T_any; T_int; T_str; T_bool; T_void]);
    ([Shift 107], [T_identifier_token1]); ([Shift 115], [T_number; T_string]);
    ([Shift 116], [T_true; T_false; T_error]); ([Shift 115], [T_none])],
   [(12, [N__statement_list]); (9, [N_doc_comment]); (89, [N__line_insensitive_statement]); (191, [N_statement]);
    (88, [N_block; N_function_declaration; N_class_declaration]);
    (261, [N_import; N_proto; N_print; N_assert; N_return; N_var_decl; N_assignment]); (272, [N_qualifier]);
    (295, [N_qualifier_list]);
    (118, [N_lambda; N_parenthesized_expression; N_call; N_literal; N_unary_expression; N_binary_expression; N_vec; N_slice; N_map]);
    (86, [N_expression]); (110, [N_access; N_index; N_identifier]); (53, [N_unary_operator]);
    (107, [N_primitive_type]); (115, [N_bool]); (268, [N_qualifier_list_repeat1])]);
  (* 10: parser.c 3792-3857 *)
  ([([ShiftExtra], [T_comment]); ([Shift 331], [T_POUND_POUND]); ([Shift 3], [T_LBRACE]); ([Shift 85], [T_RBRACE]);
    ([Shift 220], [T_import]); ([Shift 275], [T_static; T_pure]); ([Shift 218], [T_proto]); ([Shift 48], [T_LPAREN]);
    ([Shift 216], [T_fn]); ([Shift 215], [T_PIPE]); ([Shift 266], [T_class]); ([Shift 50], [T_print]);
    ([Shift 51], [T_assert]); ([Shift 15], [T_return]); ([Shift 257], [T_let]); ([Shift 184], [T_DASH; T_BANG]);
    ([Shift 33], [T_LBRACK]); ([Shift 108], [T_any; T_int; T_str; T_bool; T_void]);
    ([Shift 107], [T_identifier_token1]); ([Shift 115], [T_number; T_string]);
    ([Shift 116], [T_true; T_false; T_error]); ([Shift 115], [T_none])],
   [(7, [N__statement_list]); (10, [N_doc_comment]); (89, [N__line_insensitive_statement]); (189, [N_statement]);
    (88, [N_block; N_function_declaration; N_class_declaration]);
    (261, [N_import; N_proto; N_print; N_assert; N_return; N_var_decl; N_assignment]); (272, [N_qualifier]);
    (295, [N_qualifier_list]);
    (118, [N_lambda; N_parenthesized_expression; N_call; N_literal; N_unary_expression; N_binary_expression; N_vec; N_slice; N_map]);
    (86, [N_expression]); (110, [N_access; N_index; N_identifier]); (53, [N_unary_operator]);
    (107, [N_primitive_type]); (115, [N_bool]); (268, [N_qualifier_list_repeat1])]);
  (* 11: parser.c 3858-3923 *)
  ([([Reduce N_source_file 1 0], [T_end]); ([ShiftExtra], [T_comment]); ([Shift 331], [T_POUND_POUND]);
    ([Shift 3], [T_LBRACE]); ([Shift 220], [T_import]); ([Shift 275], [T_static; T_pure]); ([Shift 218], [T_proto]);
    ([Shift 48], [T_LPAREN]); ([Shift 216], [T_fn]); ([Shift 215], [T_PIPE]); ([Shift 266], [T_class]);
    ([Shift 50], [T_print]); ([Shift 51], [T_assert]); ([Shift 15], [T_return]); ([Shift 257], [T_let]);
    ([Shift 184], [T_DASH; T_BANG]); ([Shift 33], [T_LBRACK]); ([Shift 108], [T_any; T_int; T_str; T_bool; T_void]);
    ([Shift 107], [T_identifier_token1]); ([Shift 115], [T_number; T_string]);
    ([Shift 116], [T_true; T_false; T_error]); ([Shift 115], [T_none])],
   [(8, [N__statement_list]); (11, [N_doc_comment]); (89, [N__line_insensitive_statement]); (191, [N_statement]);
    (88, [N_block; N_function_declaration; N_class_declaration]);
    (261, [N_import; N_proto; N_print; N_assert; N_return; N_var_decl; N_assignment]); (272, [N_qualifier]);
    (295, [N_qualifier_list]);
    (118, [N_lambda; N_parenthesized_expression; N_call; N_literal; N_unary_expression; N_binary_expression; N_vec; N_slice; N_map]);
    (86, [N_expression]); (110, [N_access; N_index; N_identifier]); (53, [N_unary_operator]);
    (107, [N_primitive_type]); (115, [N_bool]); (268, [N_qualifier_list_repeat1])]);
  (* 12: parser.c 3924-3990 *)
  ([([ShiftExtra], [T_comment]); ([Shift 331], [T_POUND_POUND]);
    ([Reduce N__statement_list 2 0; ShiftRepeat 4], [T_LBRACE]); ([Reduce N__statement_list 2 0], [T_RBRACE]);
    ([Reduce N__statement_list 2 0; ShiftRepeat 220], [T_import]);
    ([Reduce N__statement_list 2 0; ShiftRepeat 275], [T_static; T_pure]);
    ([Reduce N__statement_list 2 0; ShiftRepeat 218], [T_proto]);
    ([Reduce N__statement_list 2 0; ShiftRepeat 48], [T_LPAREN]);
    ([Reduce N__statement_list 2 0; ShiftRepeat 216], [T_fn]);
    ([Reduce N__statement_list 2 0; ShiftRepeat 215], [T_PIPE]);
    ([Reduce N__statement_list 2 0; ShiftRepeat 266], [T_class]);
    ([Reduce N__statement_list 2 0; ShiftRepeat 50], [T_print]);
    ([Reduce N__statement_list 2 0; ShiftRepeat 51], [T_assert]);
    ([Reduce N__statement_list 2 0; ShiftRepeat 15], [T_return]);
    ([Reduce N__statement_list 2 0; ShiftRepeat 257], [T_let]);
    ([Reduce N__statement_list 2 0; ShiftRepeat 184], [T_DASH; T_BANG]);
    ([Reduce N__statement_list 2 0; ShiftRepeat 33], [T_LBRACK]);
    ([Reduce N__statement_list 2 0; ShiftRepeat 108], [T_any; T_int; T_str; T_bool; T_void]);
    ([Reduce N__statement_list 2 0; ShiftRepeat 107], [T_identifier_token1]);
    ([Reduce N__statement_list 2 0; ShiftRepeat 115], [T_number; T_string]);
    ([Reduce N__statement_list 2 0; ShiftRepeat 116], [T_true; T_false; T_error]);
    ([Reduce N__statement_list 2 0; ShiftRepeat 115], [T_none])],
   [(12, [N__statement_list; N_doc_comment]); (89, [N__line_insensitive_statement]); (191, [N_statement]);
    (88, [N_block; N_function_declaration; N_class_declaration]);
    (261, [N_import; N_proto; N_print; N_assert; N_return; N_var_decl; N_assignment]); (272, [N_qualifier]);
    (295, [N_qualifier_list]);
    (118, [N_lambda; N_parenthesized_expression; N_call; N_literal; N_unary_expression; N_binary_expression; N_vec; N_slice; N_map]);
    (86, [N_expression]); (110, [N_access; N_index; N_identifier]); (53, [N_unary_operator]);
    (107, [N_primitive_type]); (115, [N_bool]); (268, [N_qualifier_list_repeat1])]);
  (* 13: parser.c 3993-4051 *)
  ([([Reduce N_block 2 0], [T_end]); ([Reduce N_map 2 0], [T_LF]); ([ShiftExtra], [T_comment]);
    ([Shift 331], [T_POUND_POUND]);
    ([Reduce N_block 2 0], [T_import; T_proto; T_PIPE; T_print; T_assert; T_return; T_let; T_BANG; T_any; T_int; T_str; T_bool; T_void; T_identifier_token1; T_number; T_string; T_true; T_false; T_error; T_none]);
    ([Reduce N_map 2 0], [T_SEMI; T_LBRACE; T_RBRACE; T_DOT; T_static; T_pure; T_LPAREN; T_fn; T_class; T_LT; T_GT; T_COLON; T_DASH; T_power_operator; T_STAR; T_SLASH; T_PERCENT; T_PLUS; T_EQ_EQ; T_BANG_EQ; T_LT_EQ; T_GT_EQ; T_and_operator; T_PIPE_PIPE; T_CARET_CARET; T_LBRACK])],
   [(13, [N_doc_comment])]);
  (* 14: parser.c 4052-4107 *)
  ([([Reduce N_map 2 0], [T_LF]); ([ShiftExtra], [T_comment]); ([Shift 331], [T_POUND_POUND]);
    ([Reduce N_block 2 0], [T_RBRACE; T_import; T_proto; T_PIPE; T_print; T_assert; T_return; T_let; T_BANG; T_any; T_int; T_str; T_bool; T_void; T_identifier_token1; T_number; T_string; T_true; T_false; T_error; T_none]);
    ([Reduce N_map 2 0], [T_SEMI; T_LBRACE; T_DOT; T_static; T_pure; T_LPAREN; T_fn; T_class; T_LT; T_GT; T_DASH; T_power_operator; T_STAR; T_SLASH; T_PERCENT; T_PLUS; T_EQ_EQ; T_BANG_EQ; T_LT_EQ; T_GT_EQ; T_and_operator; T_PIPE_PIPE; T_CARET_CARET; T_LBRACK])],
   [(14, [N_doc_comment])]);
  (* 15: parser.c 4108-4171 *)
  ([([Shift 107], [T_identifier_token1]); ([ShiftExtra], [T_comment]); ([Shift 331], [T_POUND_POUND]);
    ([Reduce N_return 1 0], [T_LF]); ([Shift 21], [T_LBRACE]); ([Shift 48], [T_LPAREN]); ([Shift 215], [T_PIPE]);
    ([Shift 33], [T_LBRACK]); ([Shift 184], [T_DASH; T_BANG]); ([Shift 116], [T_true; T_false; T_error]);
    ([Shift 115], [T_number; T_string; T_none]); ([Shift 108], [T_any; T_int; T_str; T_bool; T_void]);
    ([Reduce N_return 1 0], [T_SEMI; T_RBRACE; T_static; T_pure; T_fn; T_class])],
   [(15, [N_doc_comment]); (53, [N_unary_operator]); (93, [N_expression]); (107, [N_primitive_type]);
    (115, [N_bool]);
    (118, [N_lambda; N_parenthesized_expression; N_access; N_call; N_literal; N_unary_expression; N_binary_expression; N_vec; N_index; N_slice; N_map; N_identifier])]);
  (* 16: parser.c 4172-4231 *)
  ([([ShiftExtra], [T_comment]); ([Shift 331], [T_POUND_POUND]); ([Shift 18], [T_LBRACE]); ([Shift 129], [T_RBRACE]);
    ([Shift 60], [T_LPAREN]); ([Shift 219], [T_PIPE]); ([Shift 28], [T_LBRACK]);
    ([Shift 146], [T_identifier_token1]); ([Shift 157], [T_none]); ([Shift 184], [T_DASH; T_BANG]);
    ([Shift 157], [T_number; T_string]); ([Shift 156], [T_true; T_false; T_error]);
    ([Shift 144], [T_any; T_int; T_str; T_bool; T_void])],
   [(16, [N_doc_comment]); (47, [N_unary_operator]); (146, [N_primitive_type]); (157, [N_bool]);
    (168, [N_expression]); (309, [N_map_item]);
    (155, [N_lambda; N_parenthesized_expression; N_access; N_call; N_literal; N_unary_expression; N_binary_expression; N_vec; N_index; N_slice; N_map; N_identifier])]);
  (* 17: parser.c 4232-4291 *)
  ([([ShiftExtra], [T_comment]); ([Shift 331], [T_POUND_POUND]); ([Shift 18], [T_LBRACE]); ([Shift 60], [T_LPAREN]);
    ([Shift 219], [T_PIPE]); ([Shift 28], [T_LBRACK]); ([Shift 146], [T_identifier_token1]); ([Shift 157], [T_none]);
    ([Shift 124], [T_RPAREN]); ([Shift 184], [T_DASH; T_BANG]); ([Shift 157], [T_number; T_string]);
    ([Shift 156], [T_true; T_false; T_error]); ([Shift 144], [T_any; T_int; T_str; T_bool; T_void])],
   [(17, [N_doc_comment]); (47, [N_unary_operator]); (146, [N_primitive_type]); (147, [N_expression]);
    (157, [N_bool]); (329, [N_arg_list]);
    (155, [N_lambda; N_parenthesized_expression; N_access; N_call; N_literal; N_unary_expression; N_binary_expression; N_vec; N_index; N_slice; N_map; N_identifier])]);
  (* 18: parser.c 4292-4351 *)
  ([([ShiftExtra], [T_comment]); ([Shift 331], [T_POUND_POUND]); ([Shift 18], [T_LBRACE]); ([Shift 60], [T_LPAREN]);
    ([Shift 219], [T_PIPE]); ([Shift 28], [T_LBRACK]); ([Shift 146], [T_identifier_token1]); ([Shift 157], [T_none]);
    ([Shift 170], [T_RBRACE]); ([Shift 184], [T_DASH; T_BANG]); ([Shift 157], [T_number; T_string]);
    ([Shift 156], [T_true; T_false; T_error]); ([Shift 144], [T_any; T_int; T_str; T_bool; T_void])],
   [(18, [N_doc_comment]); (47, [N_unary_operator]); (146, [N_primitive_type]); (157, [N_bool]);
    (168, [N_expression]); (297, [N_map_item]);
    (155, [N_lambda; N_parenthesized_expression; N_access; N_call; N_literal; N_unary_expression; N_binary_expression; N_vec; N_index; N_slice; N_map; N_identifier])]);
  (* 19: parser.c 4352-4411 *)
  ([([ShiftExtra], [T_comment]); ([Shift 331], [T_POUND_POUND]); ([Shift 18], [T_LBRACE]); ([Shift 60], [T_LPAREN]);
    ([Shift 219], [T_PIPE]); ([Shift 28], [T_LBRACK]); ([Shift 146], [T_identifier_token1]); ([Shift 157], [T_none]);
    ([Shift 114], [T_RBRACE]); ([Shift 184], [T_DASH; T_BANG]); ([Shift 157], [T_number; T_string]);
    ([Shift 156], [T_true; T_false; T_error]); ([Shift 144], [T_any; T_int; T_str; T_bool; T_void])],
   [(19, [N_doc_comment]); (47, [N_unary_operator]); (146, [N_primitive_type]); (157, [N_bool]);
    (168, [N_expression]); (309, [N_map_item]);
    (155, [N_lambda; N_parenthesized_expression; N_access; N_call; N_literal; N_unary_expression; N_binary_expression; N_vec; N_index; N_slice; N_map; N_identifier])]);
  (* 20: parser.c 4412-4471 *)
  ([([ShiftExtra], [T_comment]); ([Shift 331], [T_POUND_POUND]); ([Shift 18], [T_LBRACE]); ([Shift 60], [T_LPAREN]);
    ([Shift 219], [T_PIPE]); ([Shift 28], [T_LBRACK]); ([Shift 146], [T_identifier_token1]); ([Shift 157], [T_none]);
    ([Shift 171], [T_RBRACE]); ([Shift 184], [T_DASH; T_BANG]); ([Shift 157], [T_number; T_string]);
    ([Shift 156], [T_true; T_false; T_error]); ([Shift 144], [T_any; T_int; T_str; T_bool; T_void])],
   [(20, [N_doc_comment]); (47, [N_unary_operator]); (146, [N_primitive_type]); (157, [N_bool]);
    (168, [N_expression]); (309, [N_map_item]);
    (155, [N_lambda; N_parenthesized_expression; N_access; N_call; N_literal; N_unary_expression; N_binary_expression; N_vec; N_index; N_slice; N_map; N_identifier])]);
  (* 21: parser.c 4472-4531 *)
  ([([ShiftExtra], [T_comment]); ([Shift 331], [T_POUND_POUND]); ([Shift 18], [T_LBRACE]); ([Shift 60], [T_LPAREN]);
    ([Shift 219], [T_PIPE]); ([Shift 28], [T_LBRACK]); ([Shift 146], [T_identifier_token1]); ([Shift 157], [T_none]);
    ([Shift 134], [T_RBRACE]); ([Shift 184], [T_DASH; T_BANG]); ([Shift 157], [T_number; T_string]);
    ([Shift 156], [T_true; T_false; T_error]); ([Shift 144], [T_any; T_int; T_str; T_bool; T_void])],
   [(21, [N_doc_comment]); (47, [N_unary_operator]); (146, [N_primitive_type]); (157, [N_bool]);
    (168, [N_expression]); (286, [N_map_item]);
    (155, [N_lambda; N_parenthesized_expression; N_access; N_call; N_literal; N_unary_expression; N_binary_expression; N_vec; N_index; N_slice; N_map; N_identifier])]);
  (* 22: parser.c 4532-4591 *)
  ([([ShiftExtra], [T_comment]); ([Shift 331], [T_POUND_POUND]); ([Shift 18], [T_LBRACE]); ([Shift 60], [T_LPAREN]);
    ([Shift 219], [T_PIPE]); ([Shift 28], [T_LBRACK]); ([Shift 146], [T_identifier_token1]); ([Shift 157], [T_none]);
    ([Shift 164], [T_RBRACE]); ([Shift 184], [T_DASH; T_BANG]); ([Shift 157], [T_number; T_string]);
    ([Shift 156], [T_true; T_false; T_error]); ([Shift 144], [T_any; T_int; T_str; T_bool; T_void])],
   [(22, [N_doc_comment]); (47, [N_unary_operator]); (146, [N_primitive_type]); (157, [N_bool]);
    (168, [N_expression]); (309, [N_map_item]);
    (155, [N_lambda; N_parenthesized_expression; N_access; N_call; N_literal; N_unary_expression; N_binary_expression; N_vec; N_index; N_slice; N_map; N_identifier])]);
  (* 23: parser.c 4592-4651 *)
  ([([ShiftExtra], [T_comment]); ([Shift 331], [T_POUND_POUND]); ([Shift 18], [T_LBRACE]); ([Shift 60], [T_LPAREN]);
    ([Shift 219], [T_PIPE]); ([Shift 28], [T_LBRACK]); ([Shift 146], [T_identifier_token1]); ([Shift 157], [T_none]);
    ([Shift 163], [T_RPAREN]); ([Shift 184], [T_DASH; T_BANG]); ([Shift 157], [T_number; T_string]);
    ([Shift 156], [T_true; T_false; T_error]); ([Shift 144], [T_any; T_int; T_str; T_bool; T_void])],
   [(23, [N_doc_comment]); (47, [N_unary_operator]); (146, [N_primitive_type]); (147, [N_expression]);
    (157, [N_bool]); (324, [N_arg_list]);
    (155, [N_lambda; N_parenthesized_expression; N_access; N_call; N_literal; N_unary_expression; N_binary_expression; N_vec; N_index; N_slice; N_map; N_identifier])]);
  (* 24: parser.c 4652-4709 *)
  ([([ShiftExtra], [T_comment]); ([Shift 331], [T_POUND_POUND]); ([Shift 18], [T_LBRACE]); ([Shift 60], [T_LPAREN]);
    ([Shift 219], [T_PIPE]); ([Shift 28], [T_LBRACK]); ([Shift 146], [T_identifier_token1]); ([Shift 157], [T_none]);
    ([Shift 176], [T_RBRACK]); ([Shift 184], [T_DASH; T_BANG]); ([Shift 157], [T_number; T_string]);
    ([Shift 156], [T_true; T_false; T_error]); ([Shift 144], [T_any; T_int; T_str; T_bool; T_void])],
   [(24, [N_doc_comment]); (47, [N_unary_operator]); (145, [N_expression]); (146, [N_primitive_type]);
    (157, [N_bool]);
    (155, [N_lambda; N_parenthesized_expression; N_access; N_call; N_literal; N_unary_expression; N_binary_expression; N_vec; N_index; N_slice; N_map; N_identifier])]);
  (* 25: parser.c 4710-4767 *)
  ([([ShiftExtra], [T_comment]); ([Shift 331], [T_POUND_POUND]); ([Shift 18], [T_LBRACE]); ([Shift 60], [T_LPAREN]);
    ([Shift 219], [T_PIPE]); ([Shift 28], [T_LBRACK]); ([Shift 146], [T_identifier_token1]); ([Shift 157], [T_none]);
    ([Shift 127], [T_RBRACK]); ([Shift 184], [T_DASH; T_BANG]); ([Shift 157], [T_number; T_string]);
    ([Shift 156], [T_true; T_false; T_error]); ([Shift 144], [T_any; T_int; T_str; T_bool; T_void])],
   [(25, [N_doc_comment]); (47, [N_unary_operator]); (146, [N_primitive_type]); (157, [N_bool]);
    (173, [N_expression]);
    (155, [N_lambda; N_parenthesized_expression; N_access; N_call; N_literal; N_unary_expression; N_binary_expression; N_vec; N_index; N_slice; N_map; N_identifier])]);
  (* 26: parser.c 4768-4825 *)
  ([([ShiftExtra], [T_comment]); ([Shift 331], [T_POUND_POUND]); ([Shift 18], [T_LBRACE]); ([Shift 60], [T_LPAREN]);
    ([Shift 219], [T_PIPE]); ([Shift 28], [T_LBRACK]); ([Shift 146], [T_identifier_token1]); ([Shift 157], [T_none]);
    ([Shift 35], [T_COLON]); ([Shift 184], [T_DASH; T_BANG]); ([Shift 157], [T_number; T_string]);
    ([Shift 156], [T_true; T_false; T_error]); ([Shift 144], [T_any; T_int; T_str; T_bool; T_void])],
   [(26, [N_doc_comment]); (47, [N_unary_operator]); (146, [N_primitive_type]); (151, [N_expression]);
    (157, [N_bool]);
    (155, [N_lambda; N_parenthesized_expression; N_access; N_call; N_literal; N_unary_expression; N_binary_expression; N_vec; N_index; N_slice; N_map; N_identifier])]);
  (* 27: parser.c 4826-4883 *)
  ([([ShiftExtra], [T_comment]); ([Shift 331], [T_POUND_POUND]); ([Shift 18], [T_LBRACE]); ([Shift 60], [T_LPAREN]);
    ([Shift 219], [T_PIPE]); ([Shift 28], [T_LBRACK]); ([Shift 146], [T_identifier_token1]); ([Shift 157], [T_none]);
    ([Shift 166], [T_RBRACK]); ([Shift 184], [T_DASH; T_BANG]); ([Shift 157], [T_number; T_string]);
    ([Shift 156], [T_true; T_false; T_error]); ([Shift 144], [T_any; T_int; T_str; T_bool; T_void])],
   [(27, [N_doc_comment]); (47, [N_unary_operator]); (145, [N_expression]); (146, [N_primitive_type]);
    (157, [N_bool]);
    (155, [N_lambda; N_parenthesized_expression; N_access; N_call; N_literal; N_unary_expression; N_binary_expression; N_vec; N_index; N_slice; N_map; N_identifier])]);
  (* 28: parser.c 4884-4941 *)
  ([([ShiftExtra], [T_comment]); ([Shift 331], [T_POUND_POUND]); ([Shift 18], [T_LBRACE]); ([Shift 60], [T_LPAREN]);
    ([Shift 219], [T_PIPE]); ([Shift 28], [T_LBRACK]); ([Shift 146], [T_identifier_token1]); ([Shift 157], [T_none]);
    ([Shift 182], [T_RBRACK]); ([Shift 184], [T_DASH; T_BANG]); ([Shift 157], [T_number; T_string]);
    ([Shift 156], [T_true; T_false; T_error]); ([Shift 144], [T_any; T_int; T_str; T_bool; T_void])],
   [(28, [N_doc_comment]); (47, [N_unary_operator]); (146, [N_primitive_type]); (148, [N_expression]);
    (157, [N_bool]);
    (155, [N_lambda; N_parenthesized_expression; N_access; N_call; N_literal; N_unary_expression; N_binary_expression; N_vec; N_index; N_slice; N_map; N_identifier])]);
  (* 29: parser.c 4942-4999 *)
  ([([ShiftExtra], [T_comment]); ([Shift 331], [T_POUND_POUND]); ([Shift 18], [T_LBRACE]); ([Shift 60], [T_LPAREN]);
    ([Shift 219], [T_PIPE]); ([Shift 28], [T_LBRACK]); ([Shift 146], [T_identifier_token1]); ([Shift 157], [T_none]);
    ([Reduce N_arg_list 2 0], [T_RPAREN]); ([Shift 184], [T_DASH; T_BANG]); ([Shift 157], [T_number; T_string]);
    ([Shift 156], [T_true; T_false; T_error]); ([Shift 144], [T_any; T_int; T_str; T_bool; T_void])],
   [(29, [N_doc_comment]); (47, [N_unary_operator]); (145, [N_expression]); (146, [N_primitive_type]);
    (157, [N_bool]);
    (155, [N_lambda; N_parenthesized_expression; N_access; N_call; N_literal; N_unary_expression; N_binary_expression; N_vec; N_index; N_slice; N_map; N_identifier])]);
  (* 30: parser.c 5000-5057 *)
  ([([ShiftExtra], [T_comment]); ([Shift 331], [T_POUND_POUND]); ([Shift 18], [T_LBRACE]); ([Shift 60], [T_LPAREN]);
    ([Shift 219], [T_PIPE]); ([Shift 28], [T_LBRACK]); ([Shift 146], [T_identifier_token1]); ([Shift 157], [T_none]);
    ([Shift 184], [T_DASH; T_BANG]); ([Shift 157], [T_number; T_string]); ([Shift 156], [T_true; T_false; T_error]);
    ([Shift 144], [T_any; T_int; T_str; T_bool; T_void])],
   [(30, [N_doc_comment]); (47, [N_unary_operator]); (146, [N_primitive_type]); (157, [N_bool]);
    (168, [N_expression]); (309, [N_map_item]);
    (155, [N_lambda; N_parenthesized_expression; N_access; N_call; N_literal; N_unary_expression; N_binary_expression; N_vec; N_index; N_slice; N_map; N_identifier])]);
  (* 31: parser.c 5058-5115 *)
  ([([ShiftExtra], [T_comment]); ([Shift 331], [T_POUND_POUND]); ([Shift 18], [T_LBRACE]); ([Shift 60], [T_LPAREN]);
    ([Shift 219], [T_PIPE]); ([Shift 28], [T_LBRACK]); ([Shift 146], [T_identifier_token1]); ([Shift 157], [T_none]);
    ([Shift 112], [T_RBRACK]); ([Shift 184], [T_DASH; T_BANG]); ([Shift 157], [T_number; T_string]);
    ([Shift 156], [T_true; T_false; T_error]); ([Shift 144], [T_any; T_int; T_str; T_bool; T_void])],
   [(31, [N_doc_comment]); (47, [N_unary_operator]); (146, [N_primitive_type]); (157, [N_bool]);
    (174, [N_expression]);
    (155, [N_lambda; N_parenthesized_expression; N_access; N_call; N_literal; N_unary_expression; N_binary_expression; N_vec; N_index; N_slice; N_map; N_identifier])]);
  (* 32: parser.c 5116-5173 *)
  ([([ShiftExtra], [T_comment]); ([Shift 331], [T_POUND_POUND]); ([Shift 18], [T_LBRACE]); ([Shift 60], [T_LPAREN]);
    ([Shift 219], [T_PIPE]); ([Shift 28], [T_LBRACK]); ([Shift 146], [T_identifier_token1]); ([Shift 157], [T_none]);
    ([Shift 31], [T_COLON]); ([Shift 184], [T_DASH; T_BANG]); ([Shift 157], [T_number; T_string]);
    ([Shift 156], [T_true; T_false; T_error]); ([Shift 144], [T_any; T_int; T_str; T_bool; T_void])],
   [(32, [N_doc_comment]); (47, [N_unary_operator]); (146, [N_primitive_type]); (150, [N_expression]);
    (157, [N_bool]);
    (155, [N_lambda; N_parenthesized_expression; N_access; N_call; N_literal; N_unary_expression; N_binary_expression; N_vec; N_index; N_slice; N_map; N_identifier])]);
  (* 33: parser.c 5174-5231 *)
  ([([ShiftExtra], [T_comment]); ([Shift 331], [T_POUND_POUND]); ([Shift 18], [T_LBRACE]); ([Shift 60], [T_LPAREN]);
    ([Shift 219], [T_PIPE]); ([Shift 28], [T_LBRACK]); ([Shift 146], [T_identifier_token1]); ([Shift 157], [T_none]);
    ([Shift 141], [T_RBRACK]); ([Shift 184], [T_DASH; T_BANG]); ([Shift 157], [T_number; T_string]);
    ([Shift 156], [T_true; T_false; T_error]); ([Shift 144], [T_any; T_int; T_str; T_bool; T_void])],
   [(33, [N_doc_comment]); (47, [N_unary_operator]); (143, [N_expression]); (146, [N_primitive_type]);
    (157, [N_bool]);
    (155, [N_lambda; N_parenthesized_expression; N_access; N_call; N_literal; N_unary_expression; N_binary_expression; N_vec; N_index; N_slice; N_map; N_identifier])]);
  (* 34: parser.c 5232-5289 *)
  ([([ShiftExtra], [T_comment]); ([Shift 331], [T_POUND_POUND]); ([Shift 60], [T_LPAREN]); ([Shift 219], [T_PIPE]);
    ([Shift 28], [T_LBRACK]); ([Shift 146], [T_identifier_token1]); ([Shift 157], [T_none]); ([Shift 5], [T_LBRACE]);
    ([Shift 184], [T_DASH; T_BANG]); ([Shift 157], [T_number; T_string]); ([Shift 156], [T_true; T_false; T_error]);
    ([Shift 144], [T_any; T_int; T_str; T_bool; T_void])],
   [(34, [N_doc_comment]); (47, [N_unary_operator]); (121, [N_expression]); (146, [N_primitive_type]);
    (157, [N_bool]); (165, [N_block]);
    (155, [N_lambda; N_parenthesized_expression; N_access; N_call; N_literal; N_unary_expression; N_binary_expression; N_vec; N_index; N_slice; N_map; N_identifier])]);
  (* 35: parser.c 5290-5347 *)
  ([([ShiftExtra], [T_comment]); ([Shift 331], [T_POUND_POUND]); ([Shift 18], [T_LBRACE]); ([Shift 60], [T_LPAREN]);
    ([Shift 219], [T_PIPE]); ([Shift 28], [T_LBRACK]); ([Shift 146], [T_identifier_token1]); ([Shift 157], [T_none]);
    ([Shift 152], [T_RBRACK]); ([Shift 184], [T_DASH; T_BANG]); ([Shift 157], [T_number; T_string]);
    ([Shift 156], [T_true; T_false; T_error]); ([Shift 144], [T_any; T_int; T_str; T_bool; T_void])],
   [(35, [N_doc_comment]); (47, [N_unary_operator]); (146, [N_primitive_type]); (157, [N_bool]);
    (175, [N_expression]);
    (155, [N_lambda; N_parenthesized_expression; N_access; N_call; N_literal; N_unary_expression; N_binary_expression; N_vec; N_index; N_slice; N_map; N_identifier])]);
  (* 36: parser.c 5348-5405 *)
  ([([ShiftExtra], [T_comment]); ([Shift 331], [T_POUND_POUND]); ([Shift 18], [T_LBRACE]); ([Shift 60], [T_LPAREN]);
    ([Shift 219], [T_PIPE]); ([Shift 28], [T_LBRACK]); ([Shift 146], [T_identifier_token1]); ([Shift 157], [T_none]);
    ([Shift 117], [T_RBRACK]); ([Shift 184], [T_DASH; T_BANG]); ([Shift 157], [T_number; T_string]);
    ([Shift 156], [T_true; T_false; T_error]); ([Shift 144], [T_any; T_int; T_str; T_bool; T_void])],
   [(36, [N_doc_comment]); (47, [N_unary_operator]); (145, [N_expression]); (146, [N_primitive_type]);
    (157, [N_bool]);
    (155, [N_lambda; N_parenthesized_expression; N_access; N_call; N_literal; N_unary_expression; N_binary_expression; N_vec; N_index; N_slice; N_map; N_identifier])]);
  (* 37: parser.c 5406-5463 *)
  ([([ShiftExtra], [T_comment]); ([Shift 331], [T_POUND_POUND]); ([Shift 18], [T_LBRACE]); ([Shift 60], [T_LPAREN]);
    ([Shift 219], [T_PIPE]); ([Shift 28], [T_LBRACK]); ([Shift 146], [T_identifier_token1]); ([Shift 157], [T_none]);
    ([Shift 178], [T_RBRACK]); ([Shift 184], [T_DASH; T_BANG]); ([Shift 157], [T_number; T_string]);
    ([Shift 156], [T_true; T_false; T_error]); ([Shift 144], [T_any; T_int; T_str; T_bool; T_void])],
   [(37, [N_doc_comment]); (47, [N_unary_operator]); (146, [N_primitive_type]); (157, [N_bool]);
    (172, [N_expression]);
    (155, [N_lambda; N_parenthesized_expression; N_access; N_call; N_literal; N_unary_expression; N_binary_expression; N_vec; N_index; N_slice; N_map; N_identifier])]);
  (* 38: parser.c 5464-5521 *)
  ([([ShiftExtra], [T_comment]); ([Shift 331], [T_POUND_POUND]); ([Shift 18], [T_LBRACE]); ([Shift 60], [T_LPAREN]);
    ([Shift 219], [T_PIPE]); ([Shift 28], [T_LBRACK]); ([Shift 146], [T_identifier_token1]); ([Shift 157], [T_none]);
    ([Reduce N_arg_list 3 0], [T_RPAREN]); ([Shift 184], [T_DASH; T_BANG]); ([Shift 157], [T_number; T_string]);
    ([Shift 156], [T_true; T_false; T_error]); ([Shift 144], [T_any; T_int; T_str; T_bool; T_void])],
   [(38, [N_doc_comment]); (47, [N_unary_operator]); (145, [N_expression]); (146, [N_primitive_type]);
    (157, [N_bool]);
    (155, [N_lambda; N_parenthesized_expression; N_access; N_call; N_literal; N_unary_expression; N_binary_expression; N_vec; N_index; N_slice; N_map; N_identifier])]);
  (* 39: parser.c 5522-5579 *)
  ([([ShiftExtra], [T_comment]); ([Shift 331], [T_POUND_POUND]); ([Shift 48], [T_LPAREN]); ([Shift 215], [T_PIPE]);
    ([Shift 33], [T_LBRACK]); ([Shift 107], [T_identifier_token1]); ([Shift 115], [T_none]); ([Shift 2], [T_LBRACE]);
    ([Shift 184], [T_DASH; T_BANG]); ([Shift 115], [T_number; T_string]); ([Shift 116], [T_true; T_false; T_error]);
    ([Shift 108], [T_any; T_int; T_str; T_bool; T_void])],
   [(39, [N_doc_comment]); (53, [N_unary_operator]); (74, [N_expression]); (107, [N_primitive_type]);
    (115, [N_bool]); (128, [N_block]);
    (118, [N_lambda; N_parenthesized_expression; N_access; N_call; N_literal; N_unary_expression; N_binary_expression; N_vec; N_index; N_slice; N_map; N_identifier])]);
  (* 40: parser.c 5580-5637 *)
  ([([ShiftExtra], [T_comment]); ([Shift 331], [T_POUND_POUND]); ([Shift 18], [T_LBRACE]); ([Shift 60], [T_LPAREN]);
    ([Shift 219], [T_PIPE]); ([Shift 28], [T_LBRACK]); ([Shift 146], [T_identifier_token1]); ([Shift 157], [T_none]);
    ([Shift 139], [T_RBRACK]); ([Shift 184], [T_DASH; T_BANG]); ([Shift 157], [T_number; T_string]);
    ([Shift 156], [T_true; T_false; T_error]); ([Shift 144], [T_any; T_int; T_str; T_bool; T_void])],
   [(40, [N_doc_comment]); (47, [N_unary_operator]); (145, [N_expression]); (146, [N_primitive_type]);
    (157, [N_bool]);
    (155, [N_lambda; N_parenthesized_expression; N_access; N_call; N_literal; N_unary_expression; N_binary_expression; N_vec; N_index; N_slice; N_map; N_identifier])]);
  (* 41: parser.c 5638-5695 *)
  ([([ShiftExtra], [T_comment]); ([Shift 331], [T_POUND_POUND]); ([Shift 60], [T_LPAREN]); ([Shift 219], [T_PIPE]);
    ([Shift 28], [T_LBRACK]); ([Shift 146], [T_identifier_token1]); ([Shift 157], [T_none]); ([Shift 5], [T_LBRACE]);
    ([Shift 184], [T_DASH; T_BANG]); ([Shift 157], [T_number; T_string]); ([Shift 156], [T_true; T_false; T_error]);
    ([Shift 144], [T_any; T_int; T_str; T_bool; T_void])],
   [(41, [N_doc_comment]); (47, [N_unary_operator]); (133, [N_expression]); (146, [N_primitive_type]);
    (157, [N_bool]); (160, [N_block]);
    (155, [N_lambda; N_parenthesized_expression; N_access; N_call; N_literal; N_unary_expression; N_binary_expression; N_vec; N_index; N_slice; N_map; N_identifier])]);
  (* 42: parser.c 5696-5753 *)
  ([([ShiftExtra], [T_comment]); ([Shift 331], [T_POUND_POUND]); ([Shift 48], [T_LPAREN]); ([Shift 215], [T_PIPE]);
    ([Shift 33], [T_LBRACK]); ([Shift 107], [T_identifier_token1]); ([Shift 115], [T_none]); ([Shift 2], [T_LBRACE]);
    ([Shift 184], [T_DASH; T_BANG]); ([Shift 115], [T_number; T_string]); ([Shift 116], [T_true; T_false; T_error]);
    ([Shift 108], [T_any; T_int; T_str; T_bool; T_void])],
   [(42, [N_doc_comment]); (53, [N_unary_operator]); (73, [N_expression]); (107, [N_primitive_type]);
    (115, [N_bool]); (120, [N_block]);
    (118, [N_lambda; N_parenthesized_expression; N_access; N_call; N_literal; N_unary_expression; N_binary_expression; N_vec; N_index; N_slice; N_map; N_identifier])]);
  (* 43: parser.c 5754-5809 *)
  ([([ShiftExtra], [T_comment]); ([Shift 331], [T_POUND_POUND]); ([Shift 18], [T_LBRACE]); ([Shift 60], [T_LPAREN]);
    ([Shift 219], [T_PIPE]); ([Shift 28], [T_LBRACK]); ([Shift 146], [T_identifier_token1]); ([Shift 157], [T_none]);
    ([Shift 184], [T_DASH; T_BANG]); ([Shift 157], [T_number; T_string]); ([Shift 156], [T_true; T_false; T_error]);
    ([Shift 144], [T_any; T_int; T_str; T_bool; T_void])],
   [(43, [N_doc_comment]); (47, [N_unary_operator]); (146, [N_primitive_type]); (149, [N_expression]);
    (157, [N_bool]);
    (155, [N_lambda; N_parenthesized_expression; N_access; N_call; N_literal; N_unary_expression; N_binary_expression; N_vec; N_index; N_slice; N_map; N_identifier])]);
  (* 44: parser.c 5810-5865 *)
  ([([ShiftExtra], [T_comment]); ([Shift 331], [T_POUND_POUND]); ([Shift 48], [T_LPAREN]); ([Shift 215], [T_PIPE]);
    ([Shift 33], [T_LBRACK]); ([Shift 107], [T_identifier_token1]); ([Shift 115], [T_none]);
    ([Shift 21], [T_LBRACE]); ([Shift 184], [T_DASH; T_BANG]); ([Shift 115], [T_number; T_string]);
    ([Shift 116], [T_true; T_false; T_error]); ([Shift 108], [T_any; T_int; T_str; T_bool; T_void])],
   [(44, [N_doc_comment]); (53, [N_unary_operator]); (70, [N_expression]); (107, [N_primitive_type]);
    (115, [N_bool]);
    (118, [N_lambda; N_parenthesized_expression; N_access; N_call; N_literal; N_unary_expression; N_binary_expression; N_vec; N_index; N_slice; N_map; N_identifier])]);
  (* 45: parser.c 5866-5921 *)
  ([([ShiftExtra], [T_comment]); ([Shift 331], [T_POUND_POUND]); ([Shift 18], [T_LBRACE]); ([Shift 60], [T_LPAREN]);
    ([Shift 219], [T_PIPE]); ([Shift 28], [T_LBRACK]); ([Shift 146], [T_identifier_token1]); ([Shift 157], [T_none]);
    ([Shift 184], [T_DASH; T_BANG]); ([Shift 157], [T_number; T_string]); ([Shift 156], [T_true; T_false; T_error]);
    ([Shift 144], [T_any; T_int; T_str; T_bool; T_void])],
   [(45, [N_doc_comment]); (47, [N_unary_operator]); (113, [N_expression]); (146, [N_primitive_type]);
    (157, [N_bool]);
    (155, [N_lambda; N_parenthesized_expression; N_access; N_call; N_literal; N_unary_expression; N_binary_expression; N_vec; N_index; N_slice; N_map; N_identifier])]);
  (* 46: parser.c 5922-5977 *)
  ([([ShiftExtra], [T_comment]); ([Shift 331], [T_POUND_POUND]); ([Shift 18], [T_LBRACE]); ([Shift 60], [T_LPAREN]);
    ([Shift 219], [T_PIPE]); ([Shift 28], [T_LBRACK]); ([Shift 146], [T_identifier_token1]); ([Shift 157], [T_none]);
    ([Shift 184], [T_DASH; T_BANG]); ([Shift 157], [T_number; T_string]); ([Shift 156], [T_true; T_false; T_error]);
    ([Shift 144], [T_any; T_int; T_str; T_bool; T_void])],
   [(46, [N_doc_comment]); (47, [N_unary_operator]); (132, [N_expression]); (146, [N_primitive_type]);
    (157, [N_bool]);
    (155, [N_lambda; N_parenthesized_expression; N_access; N_call; N_literal; N_unary_expression; N_binary_expression; N_vec; N_index; N_slice; N_map; N_identifier])]);
  (* 47: parser.c 5978-6032 *)
  ([([ShiftExtra], [T_comment]); ([Shift 331], [T_POUND_POUND]); ([Shift 18], [T_LBRACE]); ([Shift 60], [T_LPAREN]);
    ([Shift 219], [T_PIPE]); ([Shift 28], [T_LBRACK]); ([Shift 146], [T_identifier_token1]); ([Shift 157], [T_none]);
    ([Shift 184], [T_DASH; T_BANG]); ([Shift 157], [T_number; T_string]); ([Shift 156], [T_true; T_false; T_error]);
    ([Shift 144], [T_any; T_int; T_str; T_bool; T_void])],
   [(136, [N_expression]); (146, [N_primitive_type]); (157, [N_bool]); (47, [N_doc_comment; N_unary_operator]);
    (155, [N_lambda; N_parenthesized_expression; N_access; N_call; N_literal; N_unary_expression; N_binary_expression; N_vec; N_index; N_slice; N_map; N_identifier])]);
  (* 48: parser.c 6033-6088 *)
  ([([ShiftExtra], [T_comment]); ([Shift 331], [T_POUND_POUND]); ([Shift 18], [T_LBRACE]); ([Shift 60], [T_LPAREN]);
    ([Shift 219], [T_PIPE]); ([Shift 28], [T_LBRACK]); ([Shift 146], [T_identifier_token1]); ([Shift 157], [T_none]);
    ([Shift 184], [T_DASH; T_BANG]); ([Shift 157], [T_number; T_string]); ([Shift 156], [T_true; T_false; T_error]);
    ([Shift 144], [T_any; T_int; T_str; T_bool; T_void])],
   [(47, [N_unary_operator]); (48, [N_doc_comment]); (146, [N_primitive_type]); (154, [N_expression]);
    (157, [N_bool]);
    (155, [N_lambda; N_parenthesized_expression; N_access; N_call; N_literal; N_unary_expression; N_binary_expression; N_vec; N_index; N_slice; N_map; N_identifier])]);
  (* 49: parser.c 6089-6144 *)
  ([([ShiftExtra], [T_comment]); ([Shift 331], [T_POUND_POUND]); ([Shift 48], [T_LPAREN]); ([Shift 215], [T_PIPE]);
    ([Shift 33], [T_LBRACK]); ([Shift 107], [T_identifier_token1]); ([Shift 115], [T_none]);
    ([Shift 21], [T_LBRACE]); ([Shift 184], [T_DASH; T_BANG]); ([Shift 115], [T_number; T_string]);
    ([Shift 116], [T_true; T_false; T_error]); ([Shift 108], [T_any; T_int; T_str; T_bool; T_void])],
   [(49, [N_doc_comment]); (53, [N_unary_operator]); (94, [N_expression]); (107, [N_primitive_type]);
    (115, [N_bool]);
    (118, [N_lambda; N_parenthesized_expression; N_access; N_call; N_literal; N_unary_expression; N_binary_expression; N_vec; N_index; N_slice; N_map; N_identifier])]);
  (* 50: parser.c 6145-6200 *)
  ([([ShiftExtra], [T_comment]); ([Shift 331], [T_POUND_POUND]); ([Shift 48], [T_LPAREN]); ([Shift 215], [T_PIPE]);
    ([Shift 33], [T_LBRACK]); ([Shift 107], [T_identifier_token1]); ([Shift 115], [T_none]);
    ([Shift 21], [T_LBRACE]); ([Shift 184], [T_DASH; T_BANG]); ([Shift 115], [T_number; T_string]);
    ([Shift 116], [T_true; T_false; T_error]); ([Shift 108], [T_any; T_int; T_str; T_bool; T_void])],
   [(50, [N_doc_comment]); (53, [N_unary_operator]); (81, [N_expression]); (107, [N_primitive_type]);
    (115, [N_bool]);
    (118, [N_lambda; N_parenthesized_expression; N_access; N_call; N_literal; N_unary_expression; N_binary_expression; N_vec; N_index; N_slice; N_map; N_identifier])]);
  (* 51: parser.c 6201-6256 *)
  ([([ShiftExtra], [T_comment]); ([Shift 331], [T_POUND_POUND]); ([Shift 48], [T_LPAREN]); ([Shift 215], [T_PIPE]);
    ([Shift 33], [T_LBRACK]); ([Shift 107], [T_identifier_token1]); ([Shift 115], [T_none]);
    ([Shift 21], [T_LBRACE]); ([Shift 184], [T_DASH; T_BANG]); ([Shift 115], [T_number; T_string]);
    ([Shift 116], [T_true; T_false; T_error]); ([Shift 108], [T_any; T_int; T_str; T_bool; T_void])],
   [(51, [N_doc_comment]); (53, [N_unary_operator]); (80, [N_expression]); (107, [N_primitive_type]);
    (115, [N_bool]);
    (118, [N_lambda; N_parenthesized_expression; N_access; N_call; N_literal; N_unary_expression; N_binary_expression; N_vec; N_index; N_slice; N_map; N_identifier])]);
  (* 52: parser.c 6257-6312 *)
  ([([ShiftExtra], [T_comment]); ([Shift 331], [T_POUND_POUND]); ([Shift 48], [T_LPAREN]); ([Shift 215], [T_PIPE]);
    ([Shift 33], [T_LBRACK]); ([Shift 107], [T_identifier_token1]); ([Shift 115], [T_none]);
    ([Shift 21], [T_LBRACE]); ([Shift 184], [T_DASH; T_BANG]); ([Shift 115], [T_number; T_string]);
    ([Shift 116], [T_true; T_false; T_error]); ([Shift 108], [T_any; T_int; T_str; T_bool; T_void])],
   [(52, [N_doc_comment]); (53, [N_unary_operator]); (87, [N_expression]); (107, [N_primitive_type]);
    (115, [N_bool]);
    (118, [N_lambda; N_parenthesized_expression; N_access; N_call; N_literal; N_unary_expression; N_binary_expression; N_vec; N_index; N_slice; N_map; N_identifier])]);
  (* 53: parser.c 6313-6367 *)
  ([([ShiftExtra], [T_comment]); ([Shift 331], [T_POUND_POUND]); ([Shift 48], [T_LPAREN]); ([Shift 215], [T_PIPE]);
    ([Shift 33], [T_LBRACK]); ([Shift 107], [T_identifier_token1]); ([Shift 115], [T_none]);
    ([Shift 21], [T_LBRACE]); ([Shift 184], [T_DASH; T_BANG]); ([Shift 115], [T_number; T_string]);
    ([Shift 116], [T_true; T_false; T_error]); ([Shift 108], [T_any; T_int; T_str; T_bool; T_void])],
   [(68, [N_expression]); (107, [N_primitive_type]); (115, [N_bool]); (53, [N_doc_comment; N_unary_operator]);
    (118, [N_lambda; N_parenthesized_expression; N_access; N_call; N_literal; N_unary_expression; N_binary_expression; N_vec; N_index; N_slice; N_map; N_identifier])]);
  (* 54: parser.c 6368-6423 *)
  ([([ShiftExtra], [T_comment]); ([Shift 331], [T_POUND_POUND]); ([Shift 48], [T_LPAREN]); ([Shift 215], [T_PIPE]);
    ([Shift 33], [T_LBRACK]); ([Shift 107], [T_identifier_token1]); ([Shift 115], [T_none]);
    ([Shift 21], [T_LBRACE]); ([Shift 184], [T_DASH; T_BANG]); ([Shift 115], [T_number; T_string]);
    ([Shift 116], [T_true; T_false; T_error]); ([Shift 108], [T_any; T_int; T_str; T_bool; T_void])],
   [(53, [N_unary_operator]); (54, [N_doc_comment]); (98, [N_expression]); (107, [N_primitive_type]);
    (115, [N_bool]);
    (118, [N_lambda; N_parenthesized_expression; N_access; N_call; N_literal; N_unary_expression; N_binary_expression; N_vec; N_index; N_slice; N_map; N_identifier])]);
  (* 55: parser.c 6424-6479 *)
  ([([ShiftExtra], [T_comment]); ([Shift 331], [T_POUND_POUND]); ([Shift 48], [T_LPAREN]); ([Shift 215], [T_PIPE]);
    ([Shift 33], [T_LBRACK]); ([Shift 107], [T_identifier_token1]); ([Shift 115], [T_none]);
    ([Shift 21], [T_LBRACE]); ([Shift 184], [T_DASH; T_BANG]); ([Shift 115], [T_number; T_string]);
    ([Shift 116], [T_true; T_false; T_error]); ([Shift 108], [T_any; T_int; T_str; T_bool; T_void])],
   [(53, [N_unary_operator]); (55, [N_doc_comment]); (69, [N_expression]); (107, [N_primitive_type]);
    (115, [N_bool]);
    (118, [N_lambda; N_parenthesized_expression; N_access; N_call; N_literal; N_unary_expression; N_binary_expression; N_vec; N_index; N_slice; N_map; N_identifier])]);
  (* 56: parser.c 6480-6535 *)
  ([([ShiftExtra], [T_comment]); ([Shift 331], [T_POUND_POUND]); ([Shift 18], [T_LBRACE]); ([Shift 60], [T_LPAREN]);
    ([Shift 219], [T_PIPE]); ([Shift 28], [T_LBRACK]); ([Shift 146], [T_identifier_token1]); ([Shift 157], [T_none]);
    ([Shift 184], [T_DASH; T_BANG]); ([Shift 157], [T_number; T_string]); ([Shift 156], [T_true; T_false; T_error]);
    ([Shift 144], [T_any; T_int; T_str; T_bool; T_void])],
   [(47, [N_unary_operator]); (56, [N_doc_comment]); (130, [N_expression]); (146, [N_primitive_type]);
    (157, [N_bool]);
    (155, [N_lambda; N_parenthesized_expression; N_access; N_call; N_literal; N_unary_expression; N_binary_expression; N_vec; N_index; N_slice; N_map; N_identifier])]);
  (* 57: parser.c 6536-6591 *)
  ([([ShiftExtra], [T_comment]); ([Shift 331], [T_POUND_POUND]); ([Shift 48], [T_LPAREN]); ([Shift 215], [T_PIPE]);
    ([Shift 33], [T_LBRACK]); ([Shift 107], [T_identifier_token1]); ([Shift 115], [T_none]);
    ([Shift 21], [T_LBRACE]); ([Shift 184], [T_DASH; T_BANG]); ([Shift 115], [T_number; T_string]);
    ([Shift 116], [T_true; T_false; T_error]); ([Shift 108], [T_any; T_int; T_str; T_bool; T_void])],
   [(53, [N_unary_operator]); (57, [N_doc_comment]); (96, [N_expression]); (107, [N_primitive_type]);
    (115, [N_bool]);
    (118, [N_lambda; N_parenthesized_expression; N_access; N_call; N_literal; N_unary_expression; N_binary_expression; N_vec; N_index; N_slice; N_map; N_identifier])]);
  (* 58: parser.c 6592-6647 *)
  ([([ShiftExtra], [T_comment]); ([Shift 331], [T_POUND_POUND]); ([Shift 48], [T_LPAREN]); ([Shift 215], [T_PIPE]);
    ([Shift 33], [T_LBRACK]); ([Shift 107], [T_identifier_token1]); ([Shift 115], [T_none]);
    ([Shift 21], [T_LBRACE]); ([Shift 184], [T_DASH; T_BANG]); ([Shift 115], [T_number; T_string]);
    ([Shift 116], [T_true; T_false; T_error]); ([Shift 108], [T_any; T_int; T_str; T_bool; T_void])],
   [(53, [N_unary_operator]); (58, [N_doc_comment]); (71, [N_expression]); (107, [N_primitive_type]);
    (115, [N_bool]);
    (118, [N_lambda; N_parenthesized_expression; N_access; N_call; N_literal; N_unary_expression; N_binary_expression; N_vec; N_index; N_slice; N_map; N_identifier])]);
  (* 59: parser.c 6648-6703 *)
  ([([ShiftExtra], [T_comment]); ([Shift 331], [T_POUND_POUND]); ([Shift 48], [T_LPAREN]); ([Shift 215], [T_PIPE]);
    ([Shift 33], [T_LBRACK]); ([Shift 107], [T_identifier_token1]); ([Shift 115], [T_none]);
    ([Shift 21], [T_LBRACE]); ([Shift 184], [T_DASH; T_BANG]); ([Shift 115], [T_number; T_string]);
    ([Shift 116], [T_true; T_false; T_error]); ([Shift 108], [T_any; T_int; T_str; T_bool; T_void])],
   [(53, [N_unary_operator]); (59, [N_doc_comment]); (72, [N_expression]); (107, [N_primitive_type]);
    (115, [N_bool]);
    (118, [N_lambda; N_parenthesized_expression; N_access; N_call; N_literal; N_unary_expression; N_binary_expression; N_vec; N_index; N_slice; N_map; N_identifier])]);
  (* 60: parser.c 6704-6759 *)
  ([([ShiftExtra], [T_comment]); ([Shift 331], [T_POUND_POUND]); ([Shift 18], [T_LBRACE]); ([Shift 60], [T_LPAREN]);
    ([Shift 219], [T_PIPE]); ([Shift 28], [T_LBRACK]); ([Shift 146], [T_identifier_token1]); ([Shift 157], [T_none]);
    ([Shift 184], [T_DASH; T_BANG]); ([Shift 157], [T_number; T_string]); ([Shift 156], [T_true; T_false; T_error]);
    ([Shift 144], [T_any; T_int; T_str; T_bool; T_void])],
   [(47, [N_unary_operator]); (60, [N_doc_comment]); (146, [N_primitive_type]); (153, [N_expression]);
    (157, [N_bool]);
    (155, [N_lambda; N_parenthesized_expression; N_access; N_call; N_literal; N_unary_expression; N_binary_expression; N_vec; N_index; N_slice; N_map; N_identifier])]);
  (* 61: parser.c 6760-6815 *)
  ([([ShiftExtra], [T_comment]); ([Shift 331], [T_POUND_POUND]); ([Shift 18], [T_LBRACE]); ([Shift 60], [T_LPAREN]);
    ([Shift 219], [T_PIPE]); ([Shift 28], [T_LBRACK]); ([Shift 146], [T_identifier_token1]); ([Shift 157], [T_none]);
    ([Shift 184], [T_DASH; T_BANG]); ([Shift 157], [T_number; T_string]); ([Shift 156], [T_true; T_false; T_error]);
    ([Shift 144], [T_any; T_int; T_str; T_bool; T_void])],
   [(47, [N_unary_operator]); (61, [N_doc_comment]); (122, [N_expression]); (146, [N_primitive_type]);
    (157, [N_bool]);
    (155, [N_lambda; N_parenthesized_expression; N_access; N_call; N_literal; N_unary_expression; N_binary_expression; N_vec; N_index; N_slice; N_map; N_identifier])]);
  (* 62: parser.c 6816-6871 *)
  ([([ShiftExtra], [T_comment]); ([Shift 331], [T_POUND_POUND]); ([Shift 18], [T_LBRACE]); ([Shift 60], [T_LPAREN]);
    ([Shift 219], [T_PIPE]); ([Shift 28], [T_LBRACK]); ([Shift 146], [T_identifier_token1]); ([Shift 157], [T_none]);
    ([Shift 184], [T_DASH; T_BANG]); ([Shift 157], [T_number; T_string]); ([Shift 156], [T_true; T_false; T_error]);
    ([Shift 144], [T_any; T_int; T_str; T_bool; T_void])],
   [(47, [N_unary_operator]); (62, [N_doc_comment]); (126, [N_expression]); (146, [N_primitive_type]);
    (157, [N_bool]);
    (155, [N_lambda; N_parenthesized_expression; N_access; N_call; N_literal; N_unary_expression; N_binary_expression; N_vec; N_index; N_slice; N_map; N_identifier])]);
  (* 63: parser.c 6872-6927 *)
  ([([ShiftExtra], [T_comment]); ([Shift 331], [T_POUND_POUND]); ([Shift 48], [T_LPAREN]); ([Shift 215], [T_PIPE]);
    ([Shift 33], [T_LBRACK]); ([Shift 107], [T_identifier_token1]); ([Shift 115], [T_none]);
    ([Shift 21], [T_LBRACE]); ([Shift 184], [T_DASH; T_BANG]); ([Shift 115], [T_number; T_string]);
    ([Shift 116], [T_true; T_false; T_error]); ([Shift 108], [T_any; T_int; T_str; T_bool; T_void])],
   [(53, [N_unary_operator]); (63, [N_doc_comment]); (77, [N_expression]); (107, [N_primitive_type]);
    (115, [N_bool]);
    (118, [N_lambda; N_parenthesized_expression; N_access; N_call; N_literal; N_unary_expression; N_binary_expression; N_vec; N_index; N_slice; N_map; N_identifier])]);
  (* 64: parser.c 6928-6983 *)
  ([([ShiftExtra], [T_comment]); ([Shift 331], [T_POUND_POUND]); ([Shift 48], [T_LPAREN]); ([Shift 215], [T_PIPE]);
    ([Shift 33], [T_LBRACK]); ([Shift 107], [T_identifier_token1]); ([Shift 115], [T_none]);
    ([Shift 21], [T_LBRACE]); ([Shift 184], [T_DASH; T_BANG]); ([Shift 115], [T_number; T_string]);
    ([Shift 116], [T_true; T_false; T_error]); ([Shift 108], [T_any; T_int; T_str; T_bool; T_void])],
   [(53, [N_unary_operator]); (64, [N_doc_comment]); (75, [N_expression]); (107, [N_primitive_type]);
    (115, [N_bool]);
    (118, [N_lambda; N_parenthesized_expression; N_access; N_call; N_literal; N_unary_expression; N_binary_expression; N_vec; N_index; N_slice; N_map; N_identifier])]);
  (* 65: parser.c 6984-7039 *)
  ([([ShiftExtra], [T_comment]); ([Shift 331], [T_POUND_POUND]); ([Shift 48], [T_LPAREN]); ([Shift 215], [T_PIPE]);
    ([Shift 33], [T_LBRACK]); ([Shift 107], [T_identifier_token1]); ([Shift 115], [T_none]);
    ([Shift 21], [T_LBRACE]); ([Shift 184], [T_DASH; T_BANG]); ([Shift 115], [T_number; T_string]);
    ([Shift 116], [T_true; T_false; T_error]); ([Shift 108], [T_any; T_int; T_str; T_bool; T_void])],
   [(53, [N_unary_operator]); (65, [N_doc_comment]); (100, [N_expression]); (107, [N_primitive_type]);
    (115, [N_bool]);
    (118, [N_lambda; N_parenthesized_expression; N_access; N_call; N_literal; N_unary_expression; N_binary_expression; N_vec; N_index; N_slice; N_map; N_identifier])]);
  (* 66: parser.c 7040-7095 *)
  ([([ShiftExtra], [T_comment]); ([Shift 331], [T_POUND_POUND]); ([Shift 18], [T_LBRACE]); ([Shift 60], [T_LPAREN]);
    ([Shift 219], [T_PIPE]); ([Shift 28], [T_LBRACK]); ([Shift 146], [T_identifier_token1]); ([Shift 157], [T_none]);
    ([Shift 184], [T_DASH; T_BANG]); ([Shift 157], [T_number; T_string]); ([Shift 156], [T_true; T_false; T_error]);
    ([Shift 144], [T_any; T_int; T_str; T_bool; T_void])],
   [(47, [N_unary_operator]); (66, [N_doc_comment]); (123, [N_expression]); (146, [N_primitive_type]);
    (157, [N_bool]);
    (155, [N_lambda; N_parenthesized_expression; N_access; N_call; N_literal; N_unary_expression; N_binary_expression; N_vec; N_index; N_slice; N_map; N_identifier])]);
  (* 67: parser.c 7096-7151 *)
  ([([ShiftExtra], [T_comment]); ([Shift 331], [T_POUND_POUND]); ([Shift 18], [T_LBRACE]); ([Shift 60], [T_LPAREN]);
    ([Shift 219], [T_PIPE]); ([Shift 28], [T_LBRACK]); ([Shift 146], [T_identifier_token1]); ([Shift 157], [T_none]);
    ([Shift 184], [T_DASH; T_BANG]); ([Shift 157], [T_number; T_string]); ([Shift 156], [T_true; T_false; T_error]);
    ([Shift 144], [T_any; T_int; T_str; T_bool; T_void])],
   [(47, [N_unary_operator]); (67, [N_doc_comment]); (145, [N_expression]); (146, [N_primitive_type]);
    (157, [N_bool]);
    (155, [N_lambda; N_parenthesized_expression; N_access; N_call; N_literal; N_unary_expression; N_binary_expression; N_vec; N_index; N_slice; N_map; N_identifier])]);
  (* 68: parser.c 7152-7204 *)
  ([([ShiftExtra], [T_comment]); ([Shift 331], [T_POUND_POUND]); ([Reduce N_unary_expression 2 8], [T_LF]);
    ([Shift 259], [T_DOT]); ([Shift 17], [T_LPAREN]); ([Shift 64], [T_power_operator]);
    ([Shift 63], [T_and_operator]); ([Shift 32], [T_LBRACK]); ([Shift 183], [T_DASH; T_PLUS]);
    ([Shift 185], [T_PIPE_PIPE; T_CARET_CARET]); ([Shift 186], [T_STAR; T_SLASH; T_PERCENT]);
    ([Shift 187], [T_LT; T_GT; T_EQ_EQ; T_BANG_EQ; T_LT_EQ; T_GT_EQ]);
    ([Reduce N_unary_expression 2 8], [T_SEMI; T_LBRACE; T_RBRACE; T_static; T_pure; T_fn; T_class; T_COLON])],
   [(44, [N_comparative_operator]); (55, [N_or_operator]); (58, [N_additive_operator]);
    (59, [N_multiplicative_operator]); (68, [N_doc_comment])]);
  (* 69: parser.c 7205-7256 *)
  ([([ShiftExtra], [T_comment]); ([Shift 331], [T_POUND_POUND]); ([Shift 259], [T_DOT]); ([Shift 17], [T_LPAREN]);
    ([Shift 64], [T_power_operator]); ([Shift 63], [T_and_operator]); ([Shift 32], [T_LBRACK]);
    ([Reduce N_binary_expression 3 17], [T_LF]); ([Shift 183], [T_DASH; T_PLUS]);
    ([Shift 186], [T_STAR; T_SLASH; T_PERCENT]); ([Shift 187], [T_LT; T_GT; T_EQ_EQ; T_BANG_EQ; T_LT_EQ; T_GT_EQ]);
    ([Reduce N_binary_expression 3 17], [T_SEMI; T_LBRACE; T_RBRACE; T_static; T_pure; T_fn; T_class; T_COLON; T_PIPE_PIPE; T_CARET_CARET])],
   [(44, [N_comparative_operator]); (55, [N_or_operator]); (58, [N_additive_operator]);
    (59, [N_multiplicative_operator]); (69, [N_doc_comment])]);
  (* 70: parser.c 7257-7306 *)
  ([([ShiftExtra], [T_comment]); ([Shift 331], [T_POUND_POUND]); ([Shift 259], [T_DOT]); ([Shift 17], [T_LPAREN]);
    ([Shift 64], [T_power_operator]); ([Shift 32], [T_LBRACK]); ([Reduce N_binary_expression 3 17], [T_LF]);
    ([Shift 183], [T_DASH; T_PLUS]); ([Shift 186], [T_STAR; T_SLASH; T_PERCENT]);
    ([Reduce N_binary_expression 3 17], [T_SEMI; T_LBRACE; T_RBRACE; T_static; T_pure; T_fn; T_class; T_LT; T_GT; T_COLON; T_EQ_EQ; T_BANG_EQ; T_LT_EQ; T_GT_EQ; T_and_operator; T_PIPE_PIPE; T_CARET_CARET])],
   [(44, [N_comparative_operator]); (55, [N_or_operator]); (58, [N_additive_operator]);
    (59, [N_multiplicative_operator]); (70, [N_doc_comment])]);
  (* 71: parser.c 7307-7355 *)
  ([([ShiftExtra], [T_comment]); ([Shift 331], [T_POUND_POUND]); ([Shift 259], [T_DOT]); ([Shift 17], [T_LPAREN]);
    ([Shift 64], [T_power_operator]); ([Shift 32], [T_LBRACK]); ([Reduce N_binary_expression 3 17], [T_LF]);
    ([Shift 186], [T_STAR; T_SLASH; T_PERCENT]);
    ([Reduce N_binary_expression 3 17], [T_SEMI; T_LBRACE; T_RBRACE; T_static; T_pure; T_fn; T_class; T_LT; T_GT; T_COLON; T_DASH; T_PLUS; T_EQ_EQ; T_BANG_EQ; T_LT_EQ; T_GT_EQ; T_and_operator; T_PIPE_PIPE; T_CARET_CARET])],
   [(44, [N_comparative_operator]); (55, [N_or_operator]); (58, [N_additive_operator]);
    (59, [N_multiplicative_operator]); (71, [N_doc_comment])]);
  (* 72: parser.c 7356-7403 *)
  ([([ShiftExtra], [T_comment]); ([Shift 331], [T_POUND_POUND]); ([Shift 259], [T_DOT]); ([Shift 17], [T_LPAREN]);
    ([Shift 64], [T_power_operator]); ([Shift 32], [T_LBRACK]); ([Reduce N_binary_expression 3 17], [T_LF]);
    ([Reduce N_binary_expression 3 17], [T_SEMI; T_LBRACE; T_RBRACE; T_static; T_pure; T_fn; T_class; T_LT; T_GT; T_COLON; T_DASH; T_STAR; T_SLASH; T_PERCENT; T_PLUS; T_EQ_EQ; T_BANG_EQ; T_LT_EQ; T_GT_EQ; T_and_operator; T_PIPE_PIPE; T_CARET_CARET])],
   [(44, [N_comparative_operator]); (55, [N_or_operator]); (58, [N_additive_operator]);
    (59, [N_multiplicative_operator]); (72, [N_doc_comment])]);
  (* 73: parser.c 7404-7456 *)
  ([([ShiftExtra], [T_comment]); ([Shift 331], [T_POUND_POUND]); ([Shift 259], [T_DOT]); ([Shift 17], [T_LPAREN]);
    ([Shift 64], [T_power_operator]); ([Shift 63], [T_and_operator]); ([Shift 32], [T_LBRACK]);
    ([Reduce N_lambda 3 13], [T_LF]); ([Shift 183], [T_DASH; T_PLUS]); ([Shift 185], [T_PIPE_PIPE; T_CARET_CARET]);
    ([Shift 186], [T_STAR; T_SLASH; T_PERCENT]); ([Shift 187], [T_LT; T_GT; T_EQ_EQ; T_BANG_EQ; T_LT_EQ; T_GT_EQ]);
    ([Reduce N_lambda 3 13], [T_SEMI; T_LBRACE; T_RBRACE; T_static; T_pure; T_fn; T_class; T_COLON])],
   [(44, [N_comparative_operator]); (55, [N_or_operator]); (58, [N_additive_operator]);
    (59, [N_multiplicative_operator]); (73, [N_doc_comment])]);
  (* 74: parser.c 7457-7509 *)
  ([([ShiftExtra], [T_comment]); ([Shift 331], [T_POUND_POUND]); ([Shift 259], [T_DOT]); ([Shift 17], [T_LPAREN]);
    ([Shift 64], [T_power_operator]); ([Shift 63], [T_and_operator]); ([Shift 32], [T_LBRACK]);
    ([Reduce N_lambda 4 22], [T_LF]); ([Shift 183], [T_DASH; T_PLUS]); ([Shift 185], [T_PIPE_PIPE; T_CARET_CARET]);
    ([Shift 186], [T_STAR; T_SLASH; T_PERCENT]); ([Shift 187], [T_LT; T_GT; T_EQ_EQ; T_BANG_EQ; T_LT_EQ; T_GT_EQ]);
    ([Reduce N_lambda 4 22], [T_SEMI; T_LBRACE; T_RBRACE; T_static; T_pure; T_fn; T_class; T_COLON])],
   [(44, [N_comparative_operator]); (55, [N_or_operator]); (58, [N_additive_operator]);
    (59, [N_multiplicative_operator]); (74, [N_doc_comment])]);
  (* 75: parser.c 7510-7556 *)
  ([([ShiftExtra], [T_comment]); ([Shift 331], [T_POUND_POUND]); ([Shift 259], [T_DOT]); ([Shift 17], [T_LPAREN]);
    ([Shift 32], [T_LBRACK]); ([Reduce N_binary_expression 3 17], [T_LF]);
    ([Reduce N_binary_expression 3 17], [T_SEMI; T_LBRACE; T_RBRACE; T_static; T_pure; T_fn; T_class; T_LT; T_GT; T_COLON; T_DASH; T_power_operator; T_STAR; T_SLASH; T_PERCENT; T_PLUS; T_EQ_EQ; T_BANG_EQ; T_LT_EQ; T_GT_EQ; T_and_operator; T_PIPE_PIPE; T_CARET_CARET])],
   [(44, [N_comparative_operator]); (55, [N_or_operator]); (58, [N_additive_operator]);
    (59, [N_multiplicative_operator]); (75, [N_doc_comment])]);
  (* 76: parser.c 7557-7610 *)
  ([([ShiftExtra], [T_comment]); ([Shift 331], [T_POUND_POUND]); ([Shift 259], [T_DOT]); ([Shift 17], [T_LPAREN]);
    ([Shift 64], [T_power_operator]); ([Shift 63], [T_and_operator]); ([Shift 32], [T_LBRACK]);
    ([Reduce N_statement 1 0], [T_LF]); ([Shift 43], [T_COLON]); ([Shift 183], [T_DASH; T_PLUS]);
    ([Shift 185], [T_PIPE_PIPE; T_CARET_CARET]); ([Shift 186], [T_STAR; T_SLASH; T_PERCENT]);
    ([Shift 187], [T_LT; T_GT; T_EQ_EQ; T_BANG_EQ; T_LT_EQ; T_GT_EQ]);
    ([Reduce N_statement 1 0], [T_SEMI; T_LBRACE; T_RBRACE; T_static; T_pure; T_fn; T_class])],
   [(44, [N_comparative_operator]); (55, [N_or_operator]); (58, [N_additive_operator]);
    (59, [N_multiplicative_operator]); (76, [N_doc_comment])]);
  (* 77: parser.c 7611-7661 *)
  ([([ShiftExtra], [T_comment]); ([Shift 331], [T_POUND_POUND]); ([Shift 259], [T_DOT]); ([Shift 17], [T_LPAREN]);
    ([Shift 64], [T_power_operator]); ([Shift 32], [T_LBRACK]); ([Reduce N_binary_expression 3 17], [T_LF]);
    ([Shift 183], [T_DASH; T_PLUS]); ([Shift 186], [T_STAR; T_SLASH; T_PERCENT]);
    ([Shift 187], [T_LT; T_GT; T_EQ_EQ; T_BANG_EQ; T_LT_EQ; T_GT_EQ]);
    ([Reduce N_binary_expression 3 17], [T_SEMI; T_LBRACE; T_RBRACE; T_static; T_pure; T_fn; T_class; T_COLON; T_and_operator; T_PIPE_PIPE; T_CARET_CARET])],
   [(44, [N_comparative_operator]); (55, [N_or_operator]); (58, [N_additive_operator]);
    (59, [N_multiplicative_operator]); (77, [N_doc_comment])]);
  (* 78: parser.c 7662-7700 *)
  ([([ShiftExtra], [T_comment]); ([Shift 331], [T_POUND_POUND]);
    ([Reduce N_function_declaration 6 43], [T_end; T_LBRACE; T_RBRACE; T_LPAREN; T_PIPE; T_DASH; T_BANG; T_LBRACK; T_number; T_string]);
    ([Reduce N_function_declaration 6 43], [T_import; T_static; T_pure; T_proto; T_fn; T_class; T_print; T_assert; T_return; T_let; T_any; T_int; T_str; T_bool; T_void; T_identifier_token1; T_true; T_false; T_error; T_none])],
   [(78, [N_doc_comment])]);
  (* 79: parser.c 7701-7739 *)
  ([([ShiftExtra], [T_comment]); ([Shift 331], [T_POUND_POUND]);
    ([Reduce N_function_declaration 6 42], [T_end; T_LBRACE; T_RBRACE; T_LPAREN; T_PIPE; T_DASH; T_BANG; T_LBRACK; T_number; T_string]);
    ([Reduce N_function_declaration 6 42], [T_import; T_static; T_pure; T_proto; T_fn; T_class; T_print; T_assert; T_return; T_let; T_any; T_int; T_str; T_bool; T_void; T_identifier_token1; T_true; T_false; T_error; T_none])],
   [(79, [N_doc_comment])]);
  (* 80: parser.c 7740-7791 *)
  ([([ShiftExtra], [T_comment]); ([Shift 331], [T_POUND_POUND]); ([Shift 259], [T_DOT]); ([Shift 17], [T_LPAREN]);
    ([Shift 64], [T_power_operator]); ([Shift 63], [T_and_operator]); ([Shift 32], [T_LBRACK]);
    ([Reduce N_assert 2 6], [T_LF]); ([Shift 183], [T_DASH; T_PLUS]); ([Shift 185], [T_PIPE_PIPE; T_CARET_CARET]);
    ([Shift 186], [T_STAR; T_SLASH; T_PERCENT]); ([Shift 187], [T_LT; T_GT; T_EQ_EQ; T_BANG_EQ; T_LT_EQ; T_GT_EQ]);
    ([Reduce N_assert 2 6], [T_SEMI; T_LBRACE; T_RBRACE; T_static; T_pure; T_fn; T_class])],
   [(44, [N_comparative_operator]); (55, [N_or_operator]); (58, [N_additive_operator]);
    (59, [N_multiplicative_operator]); (80, [N_doc_comment])]);
  (* 81: parser.c 7792-7843 *)
  ([([ShiftExtra], [T_comment]); ([Shift 331], [T_POUND_POUND]); ([Shift 259], [T_DOT]); ([Shift 17], [T_LPAREN]);
    ([Shift 64], [T_power_operator]); ([Shift 63], [T_and_operator]); ([Shift 32], [T_LBRACK]);
    ([Reduce N_print 2 5], [T_LF]); ([Shift 183], [T_DASH; T_PLUS]); ([Shift 185], [T_PIPE_PIPE; T_CARET_CARET]);
    ([Shift 186], [T_STAR; T_SLASH; T_PERCENT]); ([Shift 187], [T_LT; T_GT; T_EQ_EQ; T_BANG_EQ; T_LT_EQ; T_GT_EQ]);
    ([Reduce N_print 2 5], [T_SEMI; T_LBRACE; T_RBRACE; T_static; T_pure; T_fn; T_class])],
   [(44, [N_comparative_operator]); (55, [N_or_operator]); (58, [N_additive_operator]);
    (59, [N_multiplicative_operator]); (81, [N_doc_comment])]);
  (* 82: parser.c 7844-7882 *)
  ([([ShiftExtra], [T_comment]); ([Shift 331], [T_POUND_POUND]);
    ([Reduce N_function_declaration 5 31], [T_end; T_LBRACE; T_RBRACE; T_LPAREN; T_PIPE; T_DASH; T_BANG; T_LBRACK; T_number; T_string]);
    ([Reduce N_function_declaration 5 31], [T_import; T_static; T_pure; T_proto; T_fn; T_class; T_print; T_assert; T_return; T_let; T_any; T_int; T_str; T_bool; T_void; T_identifier_token1; T_true; T_false; T_error; T_none])],
   [(82, [N_doc_comment])]);
  (* 83: parser.c 7883-7921 *)
  ([([ShiftExtra], [T_comment]); ([Shift 331], [T_POUND_POUND]);
    ([Reduce N_block 3 9], [T_end; T_LBRACE; T_RBRACE; T_LPAREN; T_PIPE; T_DASH; T_BANG; T_LBRACK; T_number; T_string]);
    ([Reduce N_block 3 9], [T_import; T_static; T_pure; T_proto; T_fn; T_class; T_print; T_assert; T_return; T_let; T_any; T_int; T_str; T_bool; T_void; T_identifier_token1; T_true; T_false; T_error; T_none])],
   [(83, [N_doc_comment])]);
  (* 84: parser.c 7922-7960 *)
  ([([ShiftExtra], [T_comment]); ([Shift 331], [T_POUND_POUND]);
    ([Reduce N_function_declaration 7 46], [T_end; T_LBRACE; T_RBRACE; T_LPAREN; T_PIPE; T_DASH; T_BANG; T_LBRACK; T_number; T_string]);
    ([Reduce N_function_declaration 7 46], [T_import; T_static; T_pure; T_proto; T_fn; T_class; T_print; T_assert; T_return; T_let; T_any; T_int; T_str; T_bool; T_void; T_identifier_token1; T_true; T_false; T_error; T_none])],
   [(84, [N_doc_comment])]);
  (* 85: parser.c 7961-7999 *)
  ([([ShiftExtra], [T_comment]); ([Shift 331], [T_POUND_POUND]);
    ([Reduce N_block 2 0], [T_end; T_LBRACE; T_RBRACE; T_LPAREN; T_PIPE; T_DASH; T_BANG; T_LBRACK; T_number; T_string]);
    ([Reduce N_block 2 0], [T_import; T_static; T_pure; T_proto; T_fn; T_class; T_print; T_assert; T_return; T_let; T_any; T_int; T_str; T_bool; T_void; T_identifier_token1; T_true; T_false; T_error; T_none])],
   [(85, [N_doc_comment])]);
  (* 86: parser.c 8000-8051 *)
  ([([ShiftExtra], [T_comment]); ([Shift 331], [T_POUND_POUND]); ([Shift 259], [T_DOT]); ([Shift 17], [T_LPAREN]);
    ([Shift 64], [T_power_operator]); ([Shift 63], [T_and_operator]); ([Shift 32], [T_LBRACK]);
    ([Reduce N_statement 1 0], [T_LF]); ([Shift 183], [T_DASH; T_PLUS]); ([Shift 185], [T_PIPE_PIPE; T_CARET_CARET]);
    ([Shift 186], [T_STAR; T_SLASH; T_PERCENT]); ([Shift 187], [T_LT; T_GT; T_EQ_EQ; T_BANG_EQ; T_LT_EQ; T_GT_EQ]);
    ([Reduce N_statement 1 0], [T_SEMI; T_LBRACE; T_RBRACE; T_static; T_pure; T_fn; T_class])],
   [(44, [N_comparative_operator]); (55, [N_or_operator]); (58, [N_additive_operator]);
    (59, [N_multiplicative_operator]); (86, [N_doc_comment])]);
  (* 87: parser.c 8052-8103 *)
  ([([ShiftExtra], [T_comment]); ([Shift 331], [T_POUND_POUND]); ([Shift 259], [T_DOT]); ([Shift 17], [T_LPAREN]);
    ([Shift 64], [T_power_operator]); ([Shift 63], [T_and_operator]); ([Shift 32], [T_LBRACK]);
    ([Reduce N_var_decl 5 35], [T_LF]); ([Shift 183], [T_DASH; T_PLUS]); ([Shift 185], [T_PIPE_PIPE; T_CARET_CARET]);
    ([Shift 186], [T_STAR; T_SLASH; T_PERCENT]); ([Shift 187], [T_LT; T_GT; T_EQ_EQ; T_BANG_EQ; T_LT_EQ; T_GT_EQ]);
    ([Reduce N_var_decl 5 35], [T_SEMI; T_LBRACE; T_RBRACE; T_static; T_pure; T_fn; T_class])],
   [(44, [N_comparative_operator]); (55, [N_or_operator]); (58, [N_additive_operator]);
    (59, [N_multiplicative_operator]); (87, [N_doc_comment])]);
  (* 88: parser.c 8104-8142 *)
  ([([ShiftExtra], [T_comment]); ([Shift 331], [T_POUND_POUND]);
    ([Reduce N__line_insensitive_statement 1 0], [T_end; T_LBRACE; T_RBRACE; T_LPAREN; T_PIPE; T_DASH; T_BANG; T_LBRACK; T_number; T_string]);
    ([Reduce N__line_insensitive_statement 1 0], [T_import; T_static; T_pure; T_proto; T_fn; T_class; T_print; T_assert; T_return; T_let; T_any; T_int; T_str; T_bool; T_void; T_identifier_token1; T_true; T_false; T_error; T_none])],
   [(88, [N_doc_comment])]);
  (* 89: parser.c 8143-8181 *)
  ([([ShiftExtra], [T_comment]); ([Shift 331], [T_POUND_POUND]);
    ([Reduce N__statement_list 1 0], [T_end; T_LBRACE; T_RBRACE; T_LPAREN; T_PIPE; T_DASH; T_BANG; T_LBRACK; T_number; T_string]);
    ([Reduce N__statement_list 1 0], [T_import; T_static; T_pure; T_proto; T_fn; T_class; T_print; T_assert; T_return; T_let; T_any; T_int; T_str; T_bool; T_void; T_identifier_token1; T_true; T_false; T_error; T_none])],
   [(89, [N_doc_comment])]);
  (* 90: parser.c 8182-8220 *)
  ([([ShiftExtra], [T_comment]); ([Shift 331], [T_POUND_POUND]);
    ([Reduce N_function_declaration 9 53], [T_end; T_LBRACE; T_RBRACE; T_LPAREN; T_PIPE; T_DASH; T_BANG; T_LBRACK; T_number; T_string]);
    ([Reduce N_function_declaration 9 53], [T_import; T_static; T_pure; T_proto; T_fn; T_class; T_print; T_assert; T_return; T_let; T_any; T_int; T_str; T_bool; T_void; T_identifier_token1; T_true; T_false; T_error; T_none])],
   [(90, [N_doc_comment])]);
  (* 91: parser.c 8221-8259 *)
  ([([ShiftExtra], [T_comment]); ([Shift 331], [T_POUND_POUND]);
    ([Reduce N_function_declaration 7 48], [T_end; T_LBRACE; T_RBRACE; T_LPAREN; T_PIPE; T_DASH; T_BANG; T_LBRACK; T_number; T_string]);
    ([Reduce N_function_declaration 7 48], [T_import; T_static; T_pure; T_proto; T_fn; T_class; T_print; T_assert; T_return; T_let; T_any; T_int; T_str; T_bool; T_void; T_identifier_token1; T_true; T_false; T_error; T_none])],
   [(91, [N_doc_comment])]);
  (* 92: parser.c 8260-8298 *)
  ([([ShiftExtra], [T_comment]); ([Shift 331], [T_POUND_POUND]);
    ([Reduce N_function_declaration 4 26], [T_end; T_LBRACE; T_RBRACE; T_LPAREN; T_PIPE; T_DASH; T_BANG; T_LBRACK; T_number; T_string]);
    ([Reduce N_function_declaration 4 26], [T_import; T_static; T_pure; T_proto; T_fn; T_class; T_print; T_assert; T_return; T_let; T_any; T_int; T_str; T_bool; T_void; T_identifier_token1; T_true; T_false; T_error; T_none])],
   [(92, [N_doc_comment])]);
  (* 93: parser.c 8299-8350 *)
  ([([ShiftExtra], [T_comment]); ([Shift 331], [T_POUND_POUND]); ([Shift 259], [T_DOT]); ([Shift 17], [T_LPAREN]);
    ([Shift 64], [T_power_operator]); ([Shift 63], [T_and_operator]); ([Shift 32], [T_LBRACK]);
    ([Reduce N_return 2 7], [T_LF]); ([Shift 183], [T_DASH; T_PLUS]); ([Shift 185], [T_PIPE_PIPE; T_CARET_CARET]);
    ([Shift 186], [T_STAR; T_SLASH; T_PERCENT]); ([Shift 187], [T_LT; T_GT; T_EQ_EQ; T_BANG_EQ; T_LT_EQ; T_GT_EQ]);
    ([Reduce N_return 2 7], [T_SEMI; T_LBRACE; T_RBRACE; T_static; T_pure; T_fn; T_class])],
   [(44, [N_comparative_operator]); (55, [N_or_operator]); (58, [N_additive_operator]);
    (59, [N_multiplicative_operator]); (93, [N_doc_comment])]);
  (* 94: parser.c 8351-8402 *)
  ([([ShiftExtra], [T_comment]); ([Shift 331], [T_POUND_POUND]); ([Shift 259], [T_DOT]); ([Shift 17], [T_LPAREN]);
    ([Shift 64], [T_power_operator]); ([Shift 63], [T_and_operator]); ([Shift 32], [T_LBRACK]);
    ([Reduce N_var_decl 4 25], [T_LF]); ([Shift 183], [T_DASH; T_PLUS]); ([Shift 185], [T_PIPE_PIPE; T_CARET_CARET]);
    ([Shift 186], [T_STAR; T_SLASH; T_PERCENT]); ([Shift 187], [T_LT; T_GT; T_EQ_EQ; T_BANG_EQ; T_LT_EQ; T_GT_EQ]);
    ([Reduce N_var_decl 4 25], [T_SEMI; T_LBRACE; T_RBRACE; T_static; T_pure; T_fn; T_class])],
   [(44, [N_comparative_operator]); (55, [N_or_operator]); (58, [N_additive_operator]);
    (59, [N_multiplicative_operator]); (94, [N_doc_comment])]);
  (* 95: parser.c 8403-8441 *)
  ([([ShiftExtra], [T_comment]); ([Shift 331], [T_POUND_POUND]);
    ([Reduce N__statement_list 2 0], [T_end; T_LBRACE; T_RBRACE; T_LPAREN; T_PIPE; T_DASH; T_BANG; T_LBRACK; T_number; T_string]);
    ([Reduce N__statement_list 2 0], [T_import; T_static; T_pure; T_proto; T_fn; T_class; T_print; T_assert; T_return; T_let; T_any; T_int; T_str; T_bool; T_void; T_identifier_token1; T_true; T_false; T_error; T_none])],
   [(95, [N_doc_comment])]);
  (* 96: parser.c 8442-8493 *)
  ([([ShiftExtra], [T_comment]); ([Shift 331], [T_POUND_POUND]); ([Shift 259], [T_DOT]); ([Shift 17], [T_LPAREN]);
    ([Shift 64], [T_power_operator]); ([Shift 63], [T_and_operator]); ([Shift 32], [T_LBRACK]);
    ([Reduce N_var_decl 7 49], [T_LF]); ([Shift 183], [T_DASH; T_PLUS]); ([Shift 185], [T_PIPE_PIPE; T_CARET_CARET]);
    ([Shift 186], [T_STAR; T_SLASH; T_PERCENT]); ([Shift 187], [T_LT; T_GT; T_EQ_EQ; T_BANG_EQ; T_LT_EQ; T_GT_EQ]);
    ([Reduce N_var_decl 7 49], [T_SEMI; T_LBRACE; T_RBRACE; T_static; T_pure; T_fn; T_class])],
   [(44, [N_comparative_operator]); (55, [N_or_operator]); (58, [N_additive_operator]);
    (59, [N_multiplicative_operator]); (96, [N_doc_comment])]);
  (* 97: parser.c 8494-8532 *)
  ([([ShiftExtra], [T_comment]); ([Shift 331], [T_POUND_POUND]);
    ([Reduce N_function_declaration 3 12], [T_end; T_LBRACE; T_RBRACE; T_LPAREN; T_PIPE; T_DASH; T_BANG; T_LBRACK; T_number; T_string]);
    ([Reduce N_function_declaration 3 12], [T_import; T_static; T_pure; T_proto; T_fn; T_class; T_print; T_assert; T_return; T_let; T_any; T_int; T_str; T_bool; T_void; T_identifier_token1; T_true; T_false; T_error; T_none])],
   [(97, [N_doc_comment])]);
  (* 98: parser.c 8533-8584 *)
  ([([ShiftExtra], [T_comment]); ([Shift 331], [T_POUND_POUND]); ([Shift 259], [T_DOT]); ([Shift 17], [T_LPAREN]);
    ([Shift 64], [T_power_operator]); ([Shift 63], [T_and_operator]); ([Shift 32], [T_LBRACK]);
    ([Reduce N_assignment 3 18], [T_LF]); ([Shift 183], [T_DASH; T_PLUS]);
    ([Shift 185], [T_PIPE_PIPE; T_CARET_CARET]); ([Shift 186], [T_STAR; T_SLASH; T_PERCENT]);
    ([Shift 187], [T_LT; T_GT; T_EQ_EQ; T_BANG_EQ; T_LT_EQ; T_GT_EQ]);
    ([Reduce N_assignment 3 18], [T_SEMI; T_LBRACE; T_RBRACE; T_static; T_pure; T_fn; T_class])],
   [(44, [N_comparative_operator]); (55, [N_or_operator]); (58, [N_additive_operator]);
    (59, [N_multiplicative_operator]); (98, [N_doc_comment])]);
  (* 99: parser.c 8585-8623 *)
  ([([ShiftExtra], [T_comment]); ([Shift 331], [T_POUND_POUND]);
    ([Reduce N_function_declaration 5 32], [T_end; T_LBRACE; T_RBRACE; T_LPAREN; T_PIPE; T_DASH; T_BANG; T_LBRACK; T_number; T_string]);
    ([Reduce N_function_declaration 5 32], [T_import; T_static; T_pure; T_proto; T_fn; T_class; T_print; T_assert; T_return; T_let; T_any; T_int; T_str; T_bool; T_void; T_identifier_token1; T_true; T_false; T_error; T_none])],
   [(99, [N_doc_comment])]);
  (* 100: parser.c 8624-8675 *)
  ([([ShiftExtra], [T_comment]); ([Shift 331], [T_POUND_POUND]); ([Shift 259], [T_DOT]); ([Shift 17], [T_LPAREN]);
    ([Shift 64], [T_power_operator]); ([Shift 63], [T_and_operator]); ([Shift 32], [T_LBRACK]);
    ([Reduce N_var_decl 6 40], [T_LF]); ([Shift 183], [T_DASH; T_PLUS]); ([Shift 185], [T_PIPE_PIPE; T_CARET_CARET]);
    ([Shift 186], [T_STAR; T_SLASH; T_PERCENT]); ([Shift 187], [T_LT; T_GT; T_EQ_EQ; T_BANG_EQ; T_LT_EQ; T_GT_EQ]);
    ([Reduce N_var_decl 6 40], [T_SEMI; T_LBRACE; T_RBRACE; T_static; T_pure; T_fn; T_class])],
   [(44, [N_comparative_operator]); (55, [N_or_operator]); (58, [N_additive_operator]);
    (59, [N_multiplicative_operator]); (100, [N_doc_comment])]);
  (* 101: parser.c 8676-8714 *)
  ([([ShiftExtra], [T_comment]); ([Shift 331], [T_POUND_POUND]);
    ([Reduce N_function_declaration 8 50], [T_end; T_LBRACE; T_RBRACE; T_LPAREN; T_PIPE; T_DASH; T_BANG; T_LBRACK; T_number; T_string]);
    ([Reduce N_function_declaration 8 50], [T_import; T_static; T_pure; T_proto; T_fn; T_class; T_print; T_assert; T_return; T_let; T_any; T_int; T_str; T_bool; T_void; T_identifier_token1; T_true; T_false; T_error; T_none])],
   [(101, [N_doc_comment])]);
  (* 102: parser.c 8715-8753 *)
  ([([ShiftExtra], [T_comment]); ([Shift 331], [T_POUND_POUND]);
    ([Reduce N_class_declaration 5 31], [T_end; T_LBRACE; T_RBRACE; T_LPAREN; T_PIPE; T_DASH; T_BANG; T_LBRACK; T_number; T_string]);
    ([Reduce N_class_declaration 5 31], [T_import; T_static; T_pure; T_proto; T_fn; T_class; T_print; T_assert; T_return; T_let; T_any; T_int; T_str; T_bool; T_void; T_identifier_token1; T_true; T_false; T_error; T_none])],
   [(102, [N_doc_comment])]);
  (* 103: parser.c 8754-8792 *)
  ([([ShiftExtra], [T_comment]); ([Shift 331], [T_POUND_POUND]);
    ([Reduce N_class_declaration 6 39], [T_end; T_LBRACE; T_RBRACE; T_LPAREN; T_PIPE; T_DASH; T_BANG; T_LBRACK; T_number; T_string]);
    ([Reduce N_class_declaration 6 39], [T_import; T_static; T_pure; T_proto; T_fn; T_class; T_print; T_assert; T_return; T_let; T_any; T_int; T_str; T_bool; T_void; T_identifier_token1; T_true; T_false; T_error; T_none])],
   [(103, [N_doc_comment])]);
  (* 104: parser.c 8793-8831 *)
  ([([ShiftExtra], [T_comment]); ([Shift 331], [T_POUND_POUND]);
    ([Reduce N_class_declaration 3 12], [T_end; T_LBRACE; T_RBRACE; T_LPAREN; T_PIPE; T_DASH; T_BANG; T_LBRACK; T_number; T_string]);
    ([Reduce N_class_declaration 3 12], [T_import; T_static; T_pure; T_proto; T_fn; T_class; T_print; T_assert; T_return; T_let; T_any; T_int; T_str; T_bool; T_void; T_identifier_token1; T_true; T_false; T_error; T_none])],
   [(104, [N_doc_comment])]);
  (* 105: parser.c 8832-8870 *)
  ([([ShiftExtra], [T_comment]); ([Shift 331], [T_POUND_POUND]);
    ([Reduce N_function_declaration 6 39], [T_end; T_LBRACE; T_RBRACE; T_LPAREN; T_PIPE; T_DASH; T_BANG; T_LBRACK; T_number; T_string]);
    ([Reduce N_function_declaration 6 39], [T_import; T_static; T_pure; T_proto; T_fn; T_class; T_print; T_assert; T_return; T_let; T_any; T_int; T_str; T_bool; T_void; T_identifier_token1; T_true; T_false; T_error; T_none])],
   [(105, [N_doc_comment])]);
  (* 106: parser.c 8871-8909 *)
  ([([ShiftExtra], [T_comment]); ([Shift 331], [T_POUND_POUND]);
    ([Reduce N_function_declaration 8 52], [T_end; T_LBRACE; T_RBRACE; T_LPAREN; T_PIPE; T_DASH; T_BANG; T_LBRACK; T_number; T_string]);
    ([Reduce N_function_declaration 8 52], [T_import; T_static; T_pure; T_proto; T_fn; T_class; T_print; T_assert; T_return; T_let; T_any; T_int; T_str; T_bool; T_void; T_identifier_token1; T_true; T_false; T_error; T_none])],
   [(106, [N_doc_comment])]);
  (* 107: parser.c 8910-8947 *)
  ([([ShiftExtra], [T_comment]); ([Shift 331], [T_POUND_POUND]); ([Reduce N_identifier 1 0], [T_LF]);
    ([Reduce N_identifier 1 0], [T_SEMI; T_LBRACE; T_RBRACE; T_DOT; T_static; T_pure; T_LPAREN; T_DASH_GT; T_fn; T_class; T_LT; T_GT; T_COLON; T_EQ; T_DASH; T_power_operator; T_STAR; T_SLASH; T_PERCENT; T_PLUS; T_EQ_EQ; T_BANG_EQ; T_LT_EQ; T_GT_EQ; T_and_operator; T_PIPE_PIPE; T_CARET_CARET; T_LBRACK])],
   [(107, [N_doc_comment])]);
  (* 108: parser.c 8948-8985 *)
  ([([ShiftExtra], [T_comment]); ([Shift 331], [T_POUND_POUND]); ([Reduce N_primitive_type 1 0], [T_LF]);
    ([Reduce N_primitive_type 1 0], [T_SEMI; T_LBRACE; T_RBRACE; T_DOT; T_static; T_pure; T_LPAREN; T_DASH_GT; T_fn; T_class; T_LT; T_GT; T_COLON; T_EQ; T_DASH; T_power_operator; T_STAR; T_SLASH; T_PERCENT; T_PLUS; T_EQ_EQ; T_BANG_EQ; T_LT_EQ; T_GT_EQ; T_and_operator; T_PIPE_PIPE; T_CARET_CARET; T_LBRACK])],
   [(108, [N_doc_comment])]);
  (* 109: parser.c 8986-9022 *)
  ([([ShiftExtra], [T_comment]); ([Shift 331], [T_POUND_POUND]); ([Reduce N_access 3 15], [T_LF]);
    ([Reduce N_access 3 15], [T_SEMI; T_LBRACE; T_RBRACE; T_DOT; T_static; T_pure; T_LPAREN; T_fn; T_class; T_LT; T_GT; T_COLON; T_EQ; T_DASH; T_power_operator; T_STAR; T_SLASH; T_PERCENT; T_PLUS; T_EQ_EQ; T_BANG_EQ; T_LT_EQ; T_GT_EQ; T_and_operator; T_PIPE_PIPE; T_CARET_CARET; T_LBRACK])],
   [(109, [N_doc_comment])]);
  (* 110: parser.c 9023-9060 *)
  ([([ShiftExtra], [T_comment]); ([Shift 331], [T_POUND_POUND]); ([Reduce N_expression 1 0], [T_LF]);
    ([Shift 54], [T_EQ]);
    ([Reduce N_expression 1 0], [T_SEMI; T_LBRACE; T_RBRACE; T_DOT; T_static; T_pure; T_LPAREN; T_fn; T_class; T_LT; T_GT; T_COLON; T_DASH; T_power_operator; T_STAR; T_SLASH; T_PERCENT; T_PLUS; T_EQ_EQ; T_BANG_EQ; T_LT_EQ; T_GT_EQ; T_and_operator; T_PIPE_PIPE; T_CARET_CARET; T_LBRACK])],
   [(110, [N_doc_comment])]);
  (* 111: parser.c 9061-9097 *)
  ([([ShiftExtra], [T_comment]); ([Shift 331], [T_POUND_POUND]); ([Reduce N_index 4 29], [T_LF]);
    ([Reduce N_index 4 29], [T_SEMI; T_LBRACE; T_RBRACE; T_DOT; T_static; T_pure; T_LPAREN; T_fn; T_class; T_LT; T_GT; T_COLON; T_EQ; T_DASH; T_power_operator; T_STAR; T_SLASH; T_PERCENT; T_PLUS; T_EQ_EQ; T_BANG_EQ; T_LT_EQ; T_GT_EQ; T_and_operator; T_PIPE_PIPE; T_CARET_CARET; T_LBRACK])],
   [(111, [N_doc_comment])]);
  (* 112: parser.c 9098-9133 *)
  ([([ShiftExtra], [T_comment]); ([Shift 331], [T_POUND_POUND]); ([Reduce N_slice 4 28], [T_LF]);
    ([Reduce N_slice 4 28], [T_SEMI; T_LBRACE; T_RBRACE; T_DOT; T_static; T_pure; T_LPAREN; T_fn; T_class; T_LT; T_GT; T_COLON; T_DASH; T_power_operator; T_STAR; T_SLASH; T_PERCENT; T_PLUS; T_EQ_EQ; T_BANG_EQ; T_LT_EQ; T_GT_EQ; T_and_operator; T_PIPE_PIPE; T_CARET_CARET; T_LBRACK])],
   [(112, [N_doc_comment])]);
  (* 113: parser.c 9134-9181 *)
  ([([ShiftExtra], [T_comment]); ([Shift 331], [T_POUND_POUND]); ([Shift 186], [T_STAR]); ([Shift 255], [T_DOT]);
    ([Shift 23], [T_LPAREN]); ([Shift 46], [T_power_operator]); ([Shift 26], [T_LBRACK]);
    ([Shift 187], [T_LT; T_GT]); ([Shift 183], [T_DASH; T_PLUS]); ([Shift 186], [T_SLASH; T_PERCENT]);
    ([Shift 187], [T_EQ_EQ; T_BANG_EQ; T_LT_EQ; T_GT_EQ]);
    ([Reduce N_binary_expression 3 17], [T_RBRACE; T_RPAREN; T_COMMA; T_COLON; T_and_operator; T_PIPE_PIPE; T_CARET_CARET; T_RBRACK])],
   [(56, [N_multiplicative_operator]); (61, [N_or_operator]); (62, [N_additive_operator]);
    (66, [N_comparative_operator]); (113, [N_doc_comment])]);
  (* 114: parser.c 9182-9217 *)
  ([([ShiftExtra], [T_comment]); ([Shift 331], [T_POUND_POUND]); ([Reduce N_map 5 0], [T_LF]);
    ([Reduce N_map 5 0], [T_SEMI; T_LBRACE; T_RBRACE; T_DOT; T_static; T_pure; T_LPAREN; T_fn; T_class; T_LT; T_GT; T_COLON; T_DASH; T_power_operator; T_STAR; T_SLASH; T_PERCENT; T_PLUS; T_EQ_EQ; T_BANG_EQ; T_LT_EQ; T_GT_EQ; T_and_operator; T_PIPE_PIPE; T_CARET_CARET; T_LBRACK])],
   [(114, [N_doc_comment])]);
  (* 115: parser.c 9218-9253 *)
  ([([ShiftExtra], [T_comment]); ([Shift 331], [T_POUND_POUND]); ([Reduce N_literal 1 0], [T_LF]);
    ([Reduce N_literal 1 0], [T_SEMI; T_LBRACE; T_RBRACE; T_DOT; T_static; T_pure; T_LPAREN; T_fn; T_class; T_LT; T_GT; T_COLON; T_DASH; T_power_operator; T_STAR; T_SLASH; T_PERCENT; T_PLUS; T_EQ_EQ; T_BANG_EQ; T_LT_EQ; T_GT_EQ; T_and_operator; T_PIPE_PIPE; T_CARET_CARET; T_LBRACK])],
   [(115, [N_doc_comment])]);
  (* 116: parser.c 9254-9289 *)
  ([([ShiftExtra], [T_comment]); ([Shift 331], [T_POUND_POUND]); ([Reduce N_bool 1 0], [T_LF]);
    ([Reduce N_bool 1 0], [T_SEMI; T_LBRACE; T_RBRACE; T_DOT; T_static; T_pure; T_LPAREN; T_fn; T_class; T_LT; T_GT; T_COLON; T_DASH; T_power_operator; T_STAR; T_SLASH; T_PERCENT; T_PLUS; T_EQ_EQ; T_BANG_EQ; T_LT_EQ; T_GT_EQ; T_and_operator; T_PIPE_PIPE; T_CARET_CARET; T_LBRACK])],
   [(116, [N_doc_comment])]);
  (* 117: parser.c 9290-9325 *)
  ([([ShiftExtra], [T_comment]); ([Shift 331], [T_POUND_POUND]); ([Reduce N_vec 5 0], [T_LF]);
    ([Reduce N_vec 5 0], [T_SEMI; T_LBRACE; T_RBRACE; T_DOT; T_static; T_pure; T_LPAREN; T_fn; T_class; T_LT; T_GT; T_COLON; T_DASH; T_power_operator; T_STAR; T_SLASH; T_PERCENT; T_PLUS; T_EQ_EQ; T_BANG_EQ; T_LT_EQ; T_GT_EQ; T_and_operator; T_PIPE_PIPE; T_CARET_CARET; T_LBRACK])],
   [(117, [N_doc_comment])]);
  (* 118: parser.c 9326-9361 *)
  ([([ShiftExtra], [T_comment]); ([Shift 331], [T_POUND_POUND]); ([Reduce N_expression 1 0], [T_LF]);
    ([Reduce N_expression 1 0], [T_SEMI; T_LBRACE; T_RBRACE; T_DOT; T_static; T_pure; T_LPAREN; T_fn; T_class; T_LT; T_GT; T_COLON; T_DASH; T_power_operator; T_STAR; T_SLASH; T_PERCENT; T_PLUS; T_EQ_EQ; T_BANG_EQ; T_LT_EQ; T_GT_EQ; T_and_operator; T_PIPE_PIPE; T_CARET_CARET; T_LBRACK])],
   [(118, [N_doc_comment])]);
  (* 119: parser.c 9362-9397 *)
  ([([ShiftExtra], [T_comment]); ([Shift 331], [T_POUND_POUND]); ([Reduce N_vec 3 0], [T_LF]);
    ([Reduce N_vec 3 0], [T_SEMI; T_LBRACE; T_RBRACE; T_DOT; T_static; T_pure; T_LPAREN; T_fn; T_class; T_LT; T_GT; T_COLON; T_DASH; T_power_operator; T_STAR; T_SLASH; T_PERCENT; T_PLUS; T_EQ_EQ; T_BANG_EQ; T_LT_EQ; T_GT_EQ; T_and_operator; T_PIPE_PIPE; T_CARET_CARET; T_LBRACK])],
   [(119, [N_doc_comment])]);
  (* 120: parser.c 9398-9433 *)
  ([([ShiftExtra], [T_comment]); ([Shift 331], [T_POUND_POUND]); ([Reduce N_lambda 3 13], [T_LF]);
    ([Reduce N_lambda 3 13], [T_SEMI; T_LBRACE; T_RBRACE; T_DOT; T_static; T_pure; T_LPAREN; T_fn; T_class; T_LT; T_GT; T_COLON; T_DASH; T_power_operator; T_STAR; T_SLASH; T_PERCENT; T_PLUS; T_EQ_EQ; T_BANG_EQ; T_LT_EQ; T_GT_EQ; T_and_operator; T_PIPE_PIPE; T_CARET_CARET; T_LBRACK])],
   [(120, [N_doc_comment])]);
  (* 121: parser.c 9434-9483 *)
  ([([ShiftExtra], [T_comment]); ([Shift 331], [T_POUND_POUND]); ([Shift 186], [T_STAR]); ([Shift 255], [T_DOT]);
    ([Shift 23], [T_LPAREN]); ([Shift 46], [T_power_operator]); ([Shift 26], [T_LBRACK]);
    ([Shift 45], [T_and_operator]); ([Shift 187], [T_LT; T_GT]); ([Shift 183], [T_DASH; T_PLUS]);
    ([Shift 186], [T_SLASH; T_PERCENT]); ([Shift 185], [T_PIPE_PIPE; T_CARET_CARET]);
    ([Shift 187], [T_EQ_EQ; T_BANG_EQ; T_LT_EQ; T_GT_EQ]);
    ([Reduce N_lambda 4 22], [T_RBRACE; T_RPAREN; T_COMMA; T_COLON; T_RBRACK])],
   [(56, [N_multiplicative_operator]); (61, [N_or_operator]); (62, [N_additive_operator]);
    (66, [N_comparative_operator]); (121, [N_doc_comment])]);
  (* 122: parser.c 9484-9532 *)
  ([([ShiftExtra], [T_comment]); ([Shift 331], [T_POUND_POUND]); ([Shift 186], [T_STAR]); ([Shift 255], [T_DOT]);
    ([Shift 23], [T_LPAREN]); ([Shift 46], [T_power_operator]); ([Shift 26], [T_LBRACK]);
    ([Shift 45], [T_and_operator]); ([Shift 187], [T_LT; T_GT]); ([Shift 183], [T_DASH; T_PLUS]);
    ([Shift 186], [T_SLASH; T_PERCENT]); ([Shift 187], [T_EQ_EQ; T_BANG_EQ; T_LT_EQ; T_GT_EQ]);
    ([Reduce N_binary_expression 3 17], [T_RBRACE; T_RPAREN; T_COMMA; T_COLON; T_PIPE_PIPE; T_CARET_CARET; T_RBRACK])],
   [(56, [N_multiplicative_operator]); (61, [N_or_operator]); (62, [N_additive_operator]);
    (66, [N_comparative_operator]); (122, [N_doc_comment])]);
  (* 123: parser.c 9533-9579 *)
  ([([ShiftExtra], [T_comment]); ([Shift 331], [T_POUND_POUND]); ([Shift 186], [T_STAR]); ([Shift 255], [T_DOT]);
    ([Shift 23], [T_LPAREN]); ([Shift 46], [T_power_operator]); ([Shift 26], [T_LBRACK]);
    ([Reduce N_binary_expression 3 17], [T_LT; T_GT]); ([Shift 183], [T_DASH; T_PLUS]);
    ([Shift 186], [T_SLASH; T_PERCENT]);
    ([Reduce N_binary_expression 3 17], [T_RBRACE; T_RPAREN; T_COMMA; T_COLON; T_EQ_EQ; T_BANG_EQ; T_LT_EQ; T_GT_EQ; T_and_operator; T_PIPE_PIPE; T_CARET_CARET; T_RBRACK])],
   [(56, [N_multiplicative_operator]); (61, [N_or_operator]); (62, [N_additive_operator]);
    (66, [N_comparative_operator]); (123, [N_doc_comment])]);
  (* 124: parser.c 9580-9615 *)
  ([([ShiftExtra], [T_comment]); ([Shift 331], [T_POUND_POUND]); ([Reduce N_call 3 16], [T_LF]);
    ([Reduce N_call 3 16], [T_SEMI; T_LBRACE; T_RBRACE; T_DOT; T_static; T_pure; T_LPAREN; T_fn; T_class; T_LT; T_GT; T_COLON; T_DASH; T_power_operator; T_STAR; T_SLASH; T_PERCENT; T_PLUS; T_EQ_EQ; T_BANG_EQ; T_LT_EQ; T_GT_EQ; T_and_operator; T_PIPE_PIPE; T_CARET_CARET; T_LBRACK])],
   [(124, [N_doc_comment])]);
  (* 125: parser.c 9616-9651 *)
  ([([ShiftExtra], [T_comment]); ([Shift 331], [T_POUND_POUND]); ([Reduce N_map 3 0], [T_LF]);
    ([Reduce N_map 3 0], [T_SEMI; T_LBRACE; T_RBRACE; T_DOT; T_static; T_pure; T_LPAREN; T_fn; T_class; T_LT; T_GT; T_COLON; T_DASH; T_power_operator; T_STAR; T_SLASH; T_PERCENT; T_PLUS; T_EQ_EQ; T_BANG_EQ; T_LT_EQ; T_GT_EQ; T_and_operator; T_PIPE_PIPE; T_CARET_CARET; T_LBRACK])],
   [(125, [N_doc_comment])]);
  (* 126: parser.c 9652-9697 *)
  ([([ShiftExtra], [T_comment]); ([Shift 331], [T_POUND_POUND]); ([Shift 186], [T_STAR]); ([Shift 255], [T_DOT]);
    ([Shift 23], [T_LPAREN]); ([Shift 46], [T_power_operator]); ([Shift 26], [T_LBRACK]);
    ([Reduce N_binary_expression 3 17], [T_LT; T_GT]); ([Shift 186], [T_SLASH; T_PERCENT]);
    ([Reduce N_binary_expression 3 17], [T_RBRACE; T_RPAREN; T_COMMA; T_COLON; T_DASH; T_PLUS; T_EQ_EQ; T_BANG_EQ; T_LT_EQ; T_GT_EQ; T_and_operator; T_PIPE_PIPE; T_CARET_CARET; T_RBRACK])],
   [(56, [N_multiplicative_operator]); (61, [N_or_operator]); (62, [N_additive_operator]);
    (66, [N_comparative_operator]); (126, [N_doc_comment])]);
  (* 127: parser.c 9698-9733 *)
  ([([ShiftExtra], [T_comment]); ([Shift 331], [T_POUND_POUND]); ([Reduce N_slice 5 37], [T_LF]);
    ([Reduce N_slice 5 37], [T_SEMI; T_LBRACE; T_RBRACE; T_DOT; T_static; T_pure; T_LPAREN; T_fn; T_class; T_LT; T_GT; T_COLON; T_DASH; T_power_operator; T_STAR; T_SLASH; T_PERCENT; T_PLUS; T_EQ_EQ; T_BANG_EQ; T_LT_EQ; T_GT_EQ; T_and_operator; T_PIPE_PIPE; T_CARET_CARET; T_LBRACK])],
   [(127, [N_doc_comment])]);
  (* 128: parser.c 9734-9769 *)
  ([([ShiftExtra], [T_comment]); ([Shift 331], [T_POUND_POUND]); ([Reduce N_lambda 4 22], [T_LF]);
    ([Reduce N_lambda 4 22], [T_SEMI; T_LBRACE; T_RBRACE; T_DOT; T_static; T_pure; T_LPAREN; T_fn; T_class; T_LT; T_GT; T_COLON; T_DASH; T_power_operator; T_STAR; T_SLASH; T_PERCENT; T_PLUS; T_EQ_EQ; T_BANG_EQ; T_LT_EQ; T_GT_EQ; T_and_operator; T_PIPE_PIPE; T_CARET_CARET; T_LBRACK])],
   [(128, [N_doc_comment])]);
  (* 129: parser.c 9770-9805 *)
  ([([ShiftExtra], [T_comment]); ([Shift 331], [T_POUND_POUND]); ([Reduce N_map 4 0], [T_LF]);
    ([Reduce N_map 4 0], [T_SEMI; T_LBRACE; T_RBRACE; T_DOT; T_static; T_pure; T_LPAREN; T_fn; T_class; T_LT; T_GT; T_COLON; T_DASH; T_power_operator; T_STAR; T_SLASH; T_PERCENT; T_PLUS; T_EQ_EQ; T_BANG_EQ; T_LT_EQ; T_GT_EQ; T_and_operator; T_PIPE_PIPE; T_CARET_CARET; T_LBRACK])],
   [(129, [N_doc_comment])]);
  (* 130: parser.c 9806-9849 *)
  ([([ShiftExtra], [T_comment]); ([Shift 331], [T_POUND_POUND]); ([Shift 255], [T_DOT]); ([Shift 23], [T_LPAREN]);
    ([Shift 46], [T_power_operator]); ([Shift 26], [T_LBRACK]);
    ([Reduce N_binary_expression 3 17], [T_LT; T_GT; T_STAR]);
    ([Reduce N_binary_expression 3 17], [T_RBRACE; T_RPAREN; T_COMMA; T_COLON; T_DASH; T_SLASH; T_PERCENT; T_PLUS; T_EQ_EQ; T_BANG_EQ; T_LT_EQ; T_GT_EQ; T_and_operator; T_PIPE_PIPE; T_CARET_CARET; T_RBRACK])],
   [(56, [N_multiplicative_operator]); (61, [N_or_operator]); (62, [N_additive_operator]);
    (66, [N_comparative_operator]); (130, [N_doc_comment])]);
  (* 131: parser.c 9850-9885 *)
  ([([ShiftExtra], [T_comment]); ([Shift 331], [T_POUND_POUND]); ([Reduce N_call 4 27], [T_LF]);
    ([Reduce N_call 4 27], [T_SEMI; T_LBRACE; T_RBRACE; T_DOT; T_static; T_pure; T_LPAREN; T_fn; T_class; T_LT; T_GT; T_COLON; T_DASH; T_power_operator; T_STAR; T_SLASH; T_PERCENT; T_PLUS; T_EQ_EQ; T_BANG_EQ; T_LT_EQ; T_GT_EQ; T_and_operator; T_PIPE_PIPE; T_CARET_CARET; T_LBRACK])],
   [(131, [N_doc_comment])]);
  (* 132: parser.c 9886-9928 *)
  ([([ShiftExtra], [T_comment]); ([Shift 331], [T_POUND_POUND]); ([Shift 255], [T_DOT]); ([Shift 23], [T_LPAREN]);
    ([Shift 26], [T_LBRACK]); ([Reduce N_binary_expression 3 17], [T_LT; T_GT; T_STAR]);
    ([Reduce N_binary_expression 3 17], [T_RBRACE; T_RPAREN; T_COMMA; T_COLON; T_DASH; T_power_operator; T_SLASH; T_PERCENT; T_PLUS; T_EQ_EQ; T_BANG_EQ; T_LT_EQ; T_GT_EQ; T_and_operator; T_PIPE_PIPE; T_CARET_CARET; T_RBRACK])],
   [(56, [N_multiplicative_operator]); (61, [N_or_operator]); (62, [N_additive_operator]);
    (66, [N_comparative_operator]); (132, [N_doc_comment])]);
  (* 133: parser.c 9929-9978 *)
  ([([ShiftExtra], [T_comment]); ([Shift 331], [T_POUND_POUND]); ([Shift 186], [T_STAR]); ([Shift 255], [T_DOT]);
    ([Shift 23], [T_LPAREN]); ([Shift 46], [T_power_operator]); ([Shift 26], [T_LBRACK]);
    ([Shift 45], [T_and_operator]); ([Shift 187], [T_LT; T_GT]); ([Shift 183], [T_DASH; T_PLUS]);
    ([Shift 186], [T_SLASH; T_PERCENT]); ([Shift 185], [T_PIPE_PIPE; T_CARET_CARET]);
    ([Shift 187], [T_EQ_EQ; T_BANG_EQ; T_LT_EQ; T_GT_EQ]);
    ([Reduce N_lambda 3 13], [T_RBRACE; T_RPAREN; T_COMMA; T_COLON; T_RBRACK])],
   [(56, [N_multiplicative_operator]); (61, [N_or_operator]); (62, [N_additive_operator]);
    (66, [N_comparative_operator]); (133, [N_doc_comment])]);
  (* 134: parser.c 9979-10014 *)
  ([([Reduce N_map 2 0], [T_LF]); ([ShiftExtra], [T_comment]); ([Shift 331], [T_POUND_POUND]);
    ([Reduce N_map 2 0], [T_SEMI; T_LBRACE; T_RBRACE; T_DOT; T_static; T_pure; T_LPAREN; T_fn; T_class; T_LT; T_GT; T_COLON; T_DASH; T_power_operator; T_STAR; T_SLASH; T_PERCENT; T_PLUS; T_EQ_EQ; T_BANG_EQ; T_LT_EQ; T_GT_EQ; T_and_operator; T_PIPE_PIPE; T_CARET_CARET; T_LBRACK])],
   [(134, [N_doc_comment])]);
  (* 135: parser.c 10015-10050 *)
  ([([ShiftExtra], [T_comment]); ([Shift 331], [T_POUND_POUND]); ([Reduce N_block 3 9], [T_LF]);
    ([Reduce N_block 3 9], [T_SEMI; T_LBRACE; T_RBRACE; T_DOT; T_static; T_pure; T_LPAREN; T_fn; T_class; T_LT; T_GT; T_COLON; T_DASH; T_power_operator; T_STAR; T_SLASH; T_PERCENT; T_PLUS; T_EQ_EQ; T_BANG_EQ; T_LT_EQ; T_GT_EQ; T_and_operator; T_PIPE_PIPE; T_CARET_CARET; T_LBRACK])],
   [(135, [N_doc_comment])]);
  (* 136: parser.c 10051-10100 *)
  ([([ShiftExtra], [T_comment]); ([Shift 331], [T_POUND_POUND]); ([Shift 186], [T_STAR]); ([Shift 255], [T_DOT]);
    ([Shift 23], [T_LPAREN]); ([Shift 46], [T_power_operator]); ([Shift 26], [T_LBRACK]);
    ([Shift 45], [T_and_operator]); ([Shift 187], [T_LT; T_GT]); ([Shift 183], [T_DASH; T_PLUS]);
    ([Shift 186], [T_SLASH; T_PERCENT]); ([Shift 185], [T_PIPE_PIPE; T_CARET_CARET]);
    ([Shift 187], [T_EQ_EQ; T_BANG_EQ; T_LT_EQ; T_GT_EQ]);
    ([Reduce N_unary_expression 2 8], [T_RBRACE; T_RPAREN; T_COMMA; T_COLON; T_RBRACK])],
   [(56, [N_multiplicative_operator]); (61, [N_or_operator]); (62, [N_additive_operator]);
    (66, [N_comparative_operator]); (136, [N_doc_comment])]);
  (* 137: parser.c 10101-10136 *)
  ([([Reduce N_map 2 0], [T_LF]); ([ShiftExtra], [T_comment]); ([Shift 331], [T_POUND_POUND]);
    ([Reduce N_map 2 0], [T_SEMI; T_LBRACE; T_RBRACE; T_DOT; T_static; T_pure; T_LPAREN; T_fn; T_class; T_LT; T_GT; T_COLON; T_DASH; T_power_operator; T_STAR; T_SLASH; T_PERCENT; T_PLUS; T_EQ_EQ; T_BANG_EQ; T_LT_EQ; T_GT_EQ; T_and_operator; T_PIPE_PIPE; T_CARET_CARET; T_LBRACK])],
   [(137, [N_doc_comment])]);
  (* 138: parser.c 10137-10172 *)
  ([([ShiftExtra], [T_comment]); ([Shift 331], [T_POUND_POUND]); ([Reduce N_parenthesized_expression 3 11], [T_LF]);
    ([Reduce N_parenthesized_expression 3 11], [T_SEMI; T_LBRACE; T_RBRACE; T_DOT; T_static; T_pure; T_LPAREN; T_fn; T_class; T_LT; T_GT; T_COLON; T_DASH; T_power_operator; T_STAR; T_SLASH; T_PERCENT; T_PLUS; T_EQ_EQ; T_BANG_EQ; T_LT_EQ; T_GT_EQ; T_and_operator; T_PIPE_PIPE; T_CARET_CARET; T_LBRACK])],
   [(138, [N_doc_comment])]);
  (* 139: parser.c 10173-10208 *)
  ([([ShiftExtra], [T_comment]); ([Shift 331], [T_POUND_POUND]); ([Reduce N_vec 4 0], [T_LF]);
    ([Reduce N_vec 4 0], [T_SEMI; T_LBRACE; T_RBRACE; T_DOT; T_static; T_pure; T_LPAREN; T_fn; T_class; T_LT; T_GT; T_COLON; T_DASH; T_power_operator; T_STAR; T_SLASH; T_PERCENT; T_PLUS; T_EQ_EQ; T_BANG_EQ; T_LT_EQ; T_GT_EQ; T_and_operator; T_PIPE_PIPE; T_CARET_CARET; T_LBRACK])],
   [(139, [N_doc_comment])]);
  (* 140: parser.c 10209-10244 *)
  ([([ShiftExtra], [T_comment]); ([Shift 331], [T_POUND_POUND]); ([Reduce N_slice 6 44], [T_LF]);
    ([Reduce N_slice 6 44], [T_SEMI; T_LBRACE; T_RBRACE; T_DOT; T_static; T_pure; T_LPAREN; T_fn; T_class; T_LT; T_GT; T_COLON; T_DASH; T_power_operator; T_STAR; T_SLASH; T_PERCENT; T_PLUS; T_EQ_EQ; T_BANG_EQ; T_LT_EQ; T_GT_EQ; T_and_operator; T_PIPE_PIPE; T_CARET_CARET; T_LBRACK])],
   [(140, [N_doc_comment])]);
  (* 141: parser.c 10245-10280 *)
  ([([ShiftExtra], [T_comment]); ([Shift 331], [T_POUND_POUND]); ([Reduce N_vec 2 0], [T_LF]);
    ([Reduce N_vec 2 0], [T_SEMI; T_LBRACE; T_RBRACE; T_DOT; T_static; T_pure; T_LPAREN; T_fn; T_class; T_LT; T_GT; T_COLON; T_DASH; T_power_operator; T_STAR; T_SLASH; T_PERCENT; T_PLUS; T_EQ_EQ; T_BANG_EQ; T_LT_EQ; T_GT_EQ; T_and_operator; T_PIPE_PIPE; T_CARET_CARET; T_LBRACK])],
   [(141, [N_doc_comment])]);
  (* 142: parser.c 10281-10316 *)
  ([([ShiftExtra], [T_comment]); ([Shift 331], [T_POUND_POUND]); ([Reduce N_slice 5 36], [T_LF]);
    ([Reduce N_slice 5 36], [T_SEMI; T_LBRACE; T_RBRACE; T_DOT; T_static; T_pure; T_LPAREN; T_fn; T_class; T_LT; T_GT; T_COLON; T_DASH; T_power_operator; T_STAR; T_SLASH; T_PERCENT; T_PLUS; T_EQ_EQ; T_BANG_EQ; T_LT_EQ; T_GT_EQ; T_and_operator; T_PIPE_PIPE; T_CARET_CARET; T_LBRACK])],
   [(142, [N_doc_comment])]);
  (* 143: parser.c 10317-10366 *)
  ([([ShiftExtra], [T_comment]); ([Shift 331], [T_POUND_POUND]); ([Shift 186], [T_STAR]); ([Shift 255], [T_DOT]);
    ([Shift 23], [T_LPAREN]); ([Shift 46], [T_power_operator]); ([Shift 26], [T_LBRACK]);
    ([Shift 45], [T_and_operator]); ([Shift 40], [T_COMMA]); ([Shift 119], [T_RBRACK]); ([Shift 187], [T_LT; T_GT]);
    ([Shift 183], [T_DASH; T_PLUS]); ([Shift 186], [T_SLASH; T_PERCENT]);
    ([Shift 185], [T_PIPE_PIPE; T_CARET_CARET]); ([Shift 187], [T_EQ_EQ; T_BANG_EQ; T_LT_EQ; T_GT_EQ])],
   [(56, [N_multiplicative_operator]); (61, [N_or_operator]); (62, [N_additive_operator]);
    (66, [N_comparative_operator]); (143, [N_doc_comment]); (294, [N_arg_list_repeat1])]);
  (* 144: parser.c 10367-10400 *)
  ([([ShiftExtra], [T_comment]); ([Shift 331], [T_POUND_POUND]);
    ([Reduce N_primitive_type 1 0], [T_LT; T_GT; T_DASH; T_STAR]);
    ([Reduce N_primitive_type 1 0], [T_LBRACE; T_RBRACE; T_DOT; T_LPAREN; T_RPAREN; T_DASH_GT; T_COMMA; T_COLON; T_power_operator; T_SLASH; T_PERCENT; T_PLUS; T_EQ_EQ; T_BANG_EQ; T_LT_EQ; T_GT_EQ; T_and_operator; T_PIPE_PIPE; T_CARET_CARET; T_LBRACK; T_RBRACK])],
   [(144, [N_doc_comment])]);
  (* 145: parser.c 10401-10448 *)
  ([([ShiftExtra], [T_comment]); ([Shift 331], [T_POUND_POUND]); ([Shift 186], [T_STAR]); ([Shift 255], [T_DOT]);
    ([Shift 23], [T_LPAREN]); ([Shift 46], [T_power_operator]); ([Shift 26], [T_LBRACK]);
    ([Shift 45], [T_and_operator]); ([Shift 187], [T_LT; T_GT]); ([Shift 183], [T_DASH; T_PLUS]);
    ([Shift 186], [T_SLASH; T_PERCENT]); ([Shift 185], [T_PIPE_PIPE; T_CARET_CARET]);
    ([Reduce N_arg_list_repeat1 2 0], [T_RPAREN; T_COMMA; T_RBRACK]);
    ([Shift 187], [T_EQ_EQ; T_BANG_EQ; T_LT_EQ; T_GT_EQ])],
   [(56, [N_multiplicative_operator]); (61, [N_or_operator]); (62, [N_additive_operator]);
    (66, [N_comparative_operator]); (145, [N_doc_comment])]);
  (* 146: parser.c 10449-10482 *)
  ([([ShiftExtra], [T_comment]); ([Shift 331], [T_POUND_POUND]);
    ([Reduce N_identifier 1 0], [T_LT; T_GT; T_DASH; T_STAR]);
    ([Reduce N_identifier 1 0], [T_LBRACE; T_RBRACE; T_DOT; T_LPAREN; T_RPAREN; T_DASH_GT; T_COMMA; T_COLON; T_power_operator; T_SLASH; T_PERCENT; T_PLUS; T_EQ_EQ; T_BANG_EQ; T_LT_EQ; T_GT_EQ; T_and_operator; T_PIPE_PIPE; T_CARET_CARET; T_LBRACK; T_RBRACK])],
   [(146, [N_doc_comment])]);
  (* 147: parser.c 10483-10532 *)
  ([([ShiftExtra], [T_comment]); ([Shift 331], [T_POUND_POUND]); ([Shift 186], [T_STAR]); ([Shift 255], [T_DOT]);
    ([Shift 23], [T_LPAREN]); ([Shift 46], [T_power_operator]); ([Shift 26], [T_LBRACK]);
    ([Shift 45], [T_and_operator]); ([Reduce N_arg_list 1 0], [T_RPAREN]); ([Shift 29], [T_COMMA]);
    ([Shift 187], [T_LT; T_GT]); ([Shift 183], [T_DASH; T_PLUS]); ([Shift 186], [T_SLASH; T_PERCENT]);
    ([Shift 185], [T_PIPE_PIPE; T_CARET_CARET]); ([Shift 187], [T_EQ_EQ; T_BANG_EQ; T_LT_EQ; T_GT_EQ])],
   [(56, [N_multiplicative_operator]); (61, [N_or_operator]); (62, [N_additive_operator]);
    (66, [N_comparative_operator]); (147, [N_doc_comment]); (296, [N_arg_list_repeat1])]);
  (* 148: parser.c 10533-10582 *)
  ([([ShiftExtra], [T_comment]); ([Shift 331], [T_POUND_POUND]); ([Shift 186], [T_STAR]); ([Shift 255], [T_DOT]);
    ([Shift 23], [T_LPAREN]); ([Shift 46], [T_power_operator]); ([Shift 26], [T_LBRACK]);
    ([Shift 45], [T_and_operator]); ([Shift 27], [T_COMMA]); ([Shift 161], [T_RBRACK]); ([Shift 187], [T_LT; T_GT]);
    ([Shift 183], [T_DASH; T_PLUS]); ([Shift 186], [T_SLASH; T_PERCENT]);
    ([Shift 185], [T_PIPE_PIPE; T_CARET_CARET]); ([Shift 187], [T_EQ_EQ; T_BANG_EQ; T_LT_EQ; T_GT_EQ])],
   [(56, [N_multiplicative_operator]); (61, [N_or_operator]); (62, [N_additive_operator]);
    (66, [N_comparative_operator]); (148, [N_doc_comment]); (299, [N_arg_list_repeat1])]);
  (* 149: parser.c 10583-10629 *)
  ([([ShiftExtra], [T_comment]); ([Shift 331], [T_POUND_POUND]); ([Shift 186], [T_STAR]); ([Shift 255], [T_DOT]);
    ([Shift 23], [T_LPAREN]); ([Shift 46], [T_power_operator]); ([Shift 26], [T_LBRACK]);
    ([Shift 45], [T_and_operator]); ([Shift 187], [T_LT; T_GT]); ([Shift 183], [T_DASH; T_PLUS]);
    ([Shift 186], [T_SLASH; T_PERCENT]); ([Shift 185], [T_PIPE_PIPE; T_CARET_CARET]);
    ([Reduce N_map_item 3 19], [T_RBRACE; T_COMMA]); ([Shift 187], [T_EQ_EQ; T_BANG_EQ; T_LT_EQ; T_GT_EQ])],
   [(56, [N_multiplicative_operator]); (61, [N_or_operator]); (62, [N_additive_operator]);
    (66, [N_comparative_operator]); (149, [N_doc_comment])]);
  (* 150: parser.c 10630-10677 *)
  ([([ShiftExtra], [T_comment]); ([Shift 331], [T_POUND_POUND]); ([Shift 186], [T_STAR]); ([Shift 255], [T_DOT]);
    ([Shift 23], [T_LPAREN]); ([Shift 46], [T_power_operator]); ([Shift 26], [T_LBRACK]);
    ([Shift 45], [T_and_operator]); ([Shift 25], [T_COLON]); ([Shift 111], [T_RBRACK]); ([Shift 187], [T_LT; T_GT]);
    ([Shift 183], [T_DASH; T_PLUS]); ([Shift 186], [T_SLASH; T_PERCENT]);
    ([Shift 185], [T_PIPE_PIPE; T_CARET_CARET]); ([Shift 187], [T_EQ_EQ; T_BANG_EQ; T_LT_EQ; T_GT_EQ])],
   [(56, [N_multiplicative_operator]); (61, [N_or_operator]); (62, [N_additive_operator]);
    (66, [N_comparative_operator]); (150, [N_doc_comment])]);
  (* 151: parser.c 10678-10725 *)
  ([([ShiftExtra], [T_comment]); ([Shift 331], [T_POUND_POUND]); ([Shift 186], [T_STAR]); ([Shift 255], [T_DOT]);
    ([Shift 23], [T_LPAREN]); ([Shift 46], [T_power_operator]); ([Shift 26], [T_LBRACK]);
    ([Shift 45], [T_and_operator]); ([Shift 37], [T_COLON]); ([Shift 169], [T_RBRACK]); ([Shift 187], [T_LT; T_GT]);
    ([Shift 183], [T_DASH; T_PLUS]); ([Shift 186], [T_SLASH; T_PERCENT]);
    ([Shift 185], [T_PIPE_PIPE; T_CARET_CARET]); ([Shift 187], [T_EQ_EQ; T_BANG_EQ; T_LT_EQ; T_GT_EQ])],
   [(56, [N_multiplicative_operator]); (61, [N_or_operator]); (62, [N_additive_operator]);
    (66, [N_comparative_operator]); (151, [N_doc_comment])]);
  (* 152: parser.c 10726-10757 *)
  ([([ShiftExtra], [T_comment]); ([Shift 331], [T_POUND_POUND]); ([Reduce N_slice 4 28], [T_LT; T_GT; T_STAR]);
    ([Reduce N_slice 4 28], [T_RBRACE; T_DOT; T_LPAREN; T_RPAREN; T_COMMA; T_COLON; T_DASH; T_power_operator; T_SLASH; T_PERCENT; T_PLUS; T_EQ_EQ; T_BANG_EQ; T_LT_EQ; T_GT_EQ; T_and_operator; T_PIPE_PIPE; T_CARET_CARET; T_LBRACK; T_RBRACK])],
   [(152, [N_doc_comment])]);
  (* 153: parser.c 10758-10803 *)
  ([([ShiftExtra], [T_comment]); ([Shift 331], [T_POUND_POUND]); ([Shift 186], [T_STAR]); ([Shift 255], [T_DOT]);
    ([Shift 23], [T_LPAREN]); ([Shift 46], [T_power_operator]); ([Shift 26], [T_LBRACK]);
    ([Shift 45], [T_and_operator]); ([Shift 159], [T_RPAREN]); ([Shift 187], [T_LT; T_GT]);
    ([Shift 183], [T_DASH; T_PLUS]); ([Shift 186], [T_SLASH; T_PERCENT]);
    ([Shift 185], [T_PIPE_PIPE; T_CARET_CARET]); ([Shift 187], [T_EQ_EQ; T_BANG_EQ; T_LT_EQ; T_GT_EQ])],
   [(56, [N_multiplicative_operator]); (61, [N_or_operator]); (62, [N_additive_operator]);
    (66, [N_comparative_operator]); (153, [N_doc_comment])]);
  (* 154: parser.c 10804-10849 *)
  ([([ShiftExtra], [T_comment]); ([Shift 331], [T_POUND_POUND]); ([Shift 186], [T_STAR]); ([Shift 255], [T_DOT]);
    ([Shift 23], [T_LPAREN]); ([Shift 46], [T_power_operator]); ([Shift 26], [T_LBRACK]);
    ([Shift 45], [T_and_operator]); ([Shift 138], [T_RPAREN]); ([Shift 187], [T_LT; T_GT]);
    ([Shift 183], [T_DASH; T_PLUS]); ([Shift 186], [T_SLASH; T_PERCENT]);
    ([Shift 185], [T_PIPE_PIPE; T_CARET_CARET]); ([Shift 187], [T_EQ_EQ; T_BANG_EQ; T_LT_EQ; T_GT_EQ])],
   [(56, [N_multiplicative_operator]); (61, [N_or_operator]); (62, [N_additive_operator]);
    (66, [N_comparative_operator]); (154, [N_doc_comment])]);
  (* 155: parser.c 10850-10881 *)
  ([([ShiftExtra], [T_comment]); ([Shift 331], [T_POUND_POUND]); ([Reduce N_expression 1 0], [T_LT; T_GT; T_STAR]);
    ([Reduce N_expression 1 0], [T_RBRACE; T_DOT; T_LPAREN; T_RPAREN; T_COMMA; T_COLON; T_DASH; T_power_operator; T_SLASH; T_PERCENT; T_PLUS; T_EQ_EQ; T_BANG_EQ; T_LT_EQ; T_GT_EQ; T_and_operator; T_PIPE_PIPE; T_CARET_CARET; T_LBRACK; T_RBRACK])],
   [(155, [N_doc_comment])]);
  (* 156: parser.c 10882-10913 *)
  ([([ShiftExtra], [T_comment]); ([Shift 331], [T_POUND_POUND]); ([Reduce N_bool 1 0], [T_LT; T_GT; T_STAR]);
    ([Reduce N_bool 1 0], [T_RBRACE; T_DOT; T_LPAREN; T_RPAREN; T_COMMA; T_COLON; T_DASH; T_power_operator; T_SLASH; T_PERCENT; T_PLUS; T_EQ_EQ; T_BANG_EQ; T_LT_EQ; T_GT_EQ; T_and_operator; T_PIPE_PIPE; T_CARET_CARET; T_LBRACK; T_RBRACK])],
   [(156, [N_doc_comment])]);
  (* 157: parser.c 10914-10945 *)
  ([([ShiftExtra], [T_comment]); ([Shift 331], [T_POUND_POUND]); ([Reduce N_literal 1 0], [T_LT; T_GT; T_STAR]);
    ([Reduce N_literal 1 0], [T_RBRACE; T_DOT; T_LPAREN; T_RPAREN; T_COMMA; T_COLON; T_DASH; T_power_operator; T_SLASH; T_PERCENT; T_PLUS; T_EQ_EQ; T_BANG_EQ; T_LT_EQ; T_GT_EQ; T_and_operator; T_PIPE_PIPE; T_CARET_CARET; T_LBRACK; T_RBRACK])],
   [(157, [N_doc_comment])]);
  (* 158: parser.c 10946-10977 *)
  ([([ShiftExtra], [T_comment]); ([Shift 331], [T_POUND_POUND]); ([Reduce N_map 3 0], [T_LT; T_GT; T_STAR]);
    ([Reduce N_map 3 0], [T_RBRACE; T_DOT; T_LPAREN; T_RPAREN; T_COMMA; T_COLON; T_DASH; T_power_operator; T_SLASH; T_PERCENT; T_PLUS; T_EQ_EQ; T_BANG_EQ; T_LT_EQ; T_GT_EQ; T_and_operator; T_PIPE_PIPE; T_CARET_CARET; T_LBRACK; T_RBRACK])],
   [(158, [N_doc_comment])]);
  (* 159: parser.c 10978-11009 *)
  ([([ShiftExtra], [T_comment]); ([Shift 331], [T_POUND_POUND]);
    ([Reduce N_parenthesized_expression 3 11], [T_LT; T_GT; T_STAR]);
    ([Reduce N_parenthesized_expression 3 11], [T_RBRACE; T_DOT; T_LPAREN; T_RPAREN; T_COMMA; T_COLON; T_DASH; T_power_operator; T_SLASH; T_PERCENT; T_PLUS; T_EQ_EQ; T_BANG_EQ; T_LT_EQ; T_GT_EQ; T_and_operator; T_PIPE_PIPE; T_CARET_CARET; T_LBRACK; T_RBRACK])],
   [(159, [N_doc_comment])]);
  (* 160: parser.c 11010-11041 *)
  ([([ShiftExtra], [T_comment]); ([Shift 331], [T_POUND_POUND]); ([Reduce N_lambda 3 13], [T_LT; T_GT; T_STAR]);
    ([Reduce N_lambda 3 13], [T_RBRACE; T_DOT; T_LPAREN; T_RPAREN; T_COMMA; T_COLON; T_DASH; T_power_operator; T_SLASH; T_PERCENT; T_PLUS; T_EQ_EQ; T_BANG_EQ; T_LT_EQ; T_GT_EQ; T_and_operator; T_PIPE_PIPE; T_CARET_CARET; T_LBRACK; T_RBRACK])],
   [(160, [N_doc_comment])]);
  (* 161: parser.c 11042-11073 *)
  ([([ShiftExtra], [T_comment]); ([Shift 331], [T_POUND_POUND]); ([Reduce N_vec 3 0], [T_LT; T_GT; T_STAR]);
    ([Reduce N_vec 3 0], [T_RBRACE; T_DOT; T_LPAREN; T_RPAREN; T_COMMA; T_COLON; T_DASH; T_power_operator; T_SLASH; T_PERCENT; T_PLUS; T_EQ_EQ; T_BANG_EQ; T_LT_EQ; T_GT_EQ; T_and_operator; T_PIPE_PIPE; T_CARET_CARET; T_LBRACK; T_RBRACK])],
   [(161, [N_doc_comment])]);
  (* 162: parser.c 11074-11105 *)
  ([([ShiftExtra], [T_comment]); ([Shift 331], [T_POUND_POUND]); ([Reduce N_access 3 15], [T_LT; T_GT; T_STAR]);
    ([Reduce N_access 3 15], [T_RBRACE; T_DOT; T_LPAREN; T_RPAREN; T_COMMA; T_COLON; T_DASH; T_power_operator; T_SLASH; T_PERCENT; T_PLUS; T_EQ_EQ; T_BANG_EQ; T_LT_EQ; T_GT_EQ; T_and_operator; T_PIPE_PIPE; T_CARET_CARET; T_LBRACK; T_RBRACK])],
   [(162, [N_doc_comment])]);
  (* 163: parser.c 11106-11137 *)
  ([([ShiftExtra], [T_comment]); ([Shift 331], [T_POUND_POUND]); ([Reduce N_call 3 16], [T_LT; T_GT; T_STAR]);
    ([Reduce N_call 3 16], [T_RBRACE; T_DOT; T_LPAREN; T_RPAREN; T_COMMA; T_COLON; T_DASH; T_power_operator; T_SLASH; T_PERCENT; T_PLUS; T_EQ_EQ; T_BANG_EQ; T_LT_EQ; T_GT_EQ; T_and_operator; T_PIPE_PIPE; T_CARET_CARET; T_LBRACK; T_RBRACK])],
   [(163, [N_doc_comment])]);
  (* 164: parser.c 11138-11169 *)
  ([([ShiftExtra], [T_comment]); ([Shift 331], [T_POUND_POUND]); ([Reduce N_map 4 0], [T_LT; T_GT; T_STAR]);
    ([Reduce N_map 4 0], [T_RBRACE; T_DOT; T_LPAREN; T_RPAREN; T_COMMA; T_COLON; T_DASH; T_power_operator; T_SLASH; T_PERCENT; T_PLUS; T_EQ_EQ; T_BANG_EQ; T_LT_EQ; T_GT_EQ; T_and_operator; T_PIPE_PIPE; T_CARET_CARET; T_LBRACK; T_RBRACK])],
   [(164, [N_doc_comment])]);
  (* 165: parser.c 11170-11201 *)
  ([([ShiftExtra], [T_comment]); ([Shift 331], [T_POUND_POUND]); ([Reduce N_lambda 4 22], [T_LT; T_GT; T_STAR]);
    ([Reduce N_lambda 4 22], [T_RBRACE; T_DOT; T_LPAREN; T_RPAREN; T_COMMA; T_COLON; T_DASH; T_power_operator; T_SLASH; T_PERCENT; T_PLUS; T_EQ_EQ; T_BANG_EQ; T_LT_EQ; T_GT_EQ; T_and_operator; T_PIPE_PIPE; T_CARET_CARET; T_LBRACK; T_RBRACK])],
   [(165, [N_doc_comment])]);
  (* 166: parser.c 11202-11233 *)
  ([([ShiftExtra], [T_comment]); ([Shift 331], [T_POUND_POUND]); ([Reduce N_vec 4 0], [T_LT; T_GT; T_STAR]);
    ([Reduce N_vec 4 0], [T_RBRACE; T_DOT; T_LPAREN; T_RPAREN; T_COMMA; T_COLON; T_DASH; T_power_operator; T_SLASH; T_PERCENT; T_PLUS; T_EQ_EQ; T_BANG_EQ; T_LT_EQ; T_GT_EQ; T_and_operator; T_PIPE_PIPE; T_CARET_CARET; T_LBRACK; T_RBRACK])],
   [(166, [N_doc_comment])]);
  (* 167: parser.c 11234-11265 *)
  ([([ShiftExtra], [T_comment]); ([Shift 331], [T_POUND_POUND]); ([Reduce N_call 4 27], [T_LT; T_GT; T_STAR]);
    ([Reduce N_call 4 27], [T_RBRACE; T_DOT; T_LPAREN; T_RPAREN; T_COMMA; T_COLON; T_DASH; T_power_operator; T_SLASH; T_PERCENT; T_PLUS; T_EQ_EQ; T_BANG_EQ; T_LT_EQ; T_GT_EQ; T_and_operator; T_PIPE_PIPE; T_CARET_CARET; T_LBRACK; T_RBRACK])],
   [(167, [N_doc_comment])]);
  (* 168: parser.c 11266-11311 *)
  ([([ShiftExtra], [T_comment]); ([Shift 331], [T_POUND_POUND]); ([Shift 186], [T_STAR]); ([Shift 255], [T_DOT]);
    ([Shift 23], [T_LPAREN]); ([Shift 46], [T_power_operator]); ([Shift 26], [T_LBRACK]);
    ([Shift 45], [T_and_operator]); ([Shift 43], [T_COLON]); ([Shift 187], [T_LT; T_GT]);
    ([Shift 183], [T_DASH; T_PLUS]); ([Shift 186], [T_SLASH; T_PERCENT]);
    ([Shift 185], [T_PIPE_PIPE; T_CARET_CARET]); ([Shift 187], [T_EQ_EQ; T_BANG_EQ; T_LT_EQ; T_GT_EQ])],
   [(56, [N_multiplicative_operator]); (61, [N_or_operator]); (62, [N_additive_operator]);
    (66, [N_comparative_operator]); (168, [N_doc_comment])]);
  (* 169: parser.c 11312-11343 *)
  ([([ShiftExtra], [T_comment]); ([Shift 331], [T_POUND_POUND]); ([Reduce N_index 4 29], [T_LT; T_GT; T_STAR]);
    ([Reduce N_index 4 29], [T_RBRACE; T_DOT; T_LPAREN; T_RPAREN; T_COMMA; T_COLON; T_DASH; T_power_operator; T_SLASH; T_PERCENT; T_PLUS; T_EQ_EQ; T_BANG_EQ; T_LT_EQ; T_GT_EQ; T_and_operator; T_PIPE_PIPE; T_CARET_CARET; T_LBRACK; T_RBRACK])],
   [(169, [N_doc_comment])]);
  (* 170: parser.c 11344-11375 *)
  ([([ShiftExtra], [T_comment]); ([Shift 331], [T_POUND_POUND]); ([Reduce N_map 2 0], [T_LT; T_GT; T_STAR]);
    ([Reduce N_map 2 0], [T_RBRACE; T_DOT; T_LPAREN; T_RPAREN; T_COMMA; T_COLON; T_DASH; T_power_operator; T_SLASH; T_PERCENT; T_PLUS; T_EQ_EQ; T_BANG_EQ; T_LT_EQ; T_GT_EQ; T_and_operator; T_PIPE_PIPE; T_CARET_CARET; T_LBRACK; T_RBRACK])],
   [(170, [N_doc_comment])]);
  (* 171: parser.c 11376-11407 *)
  ([([ShiftExtra], [T_comment]); ([Shift 331], [T_POUND_POUND]); ([Reduce N_map 5 0], [T_LT; T_GT; T_STAR]);
    ([Reduce N_map 5 0], [T_RBRACE; T_DOT; T_LPAREN; T_RPAREN; T_COMMA; T_COLON; T_DASH; T_power_operator; T_SLASH; T_PERCENT; T_PLUS; T_EQ_EQ; T_BANG_EQ; T_LT_EQ; T_GT_EQ; T_and_operator; T_PIPE_PIPE; T_CARET_CARET; T_LBRACK; T_RBRACK])],
   [(171, [N_doc_comment])]);
  (* 172: parser.c 11408-11453 *)
  ([([ShiftExtra], [T_comment]); ([Shift 331], [T_POUND_POUND]); ([Shift 186], [T_STAR]); ([Shift 255], [T_DOT]);
    ([Shift 23], [T_LPAREN]); ([Shift 46], [T_power_operator]); ([Shift 26], [T_LBRACK]);
    ([Shift 45], [T_and_operator]); ([Shift 179], [T_RBRACK]); ([Shift 187], [T_LT; T_GT]);
    ([Shift 183], [T_DASH; T_PLUS]); ([Shift 186], [T_SLASH; T_PERCENT]);
    ([Shift 185], [T_PIPE_PIPE; T_CARET_CARET]); ([Shift 187], [T_EQ_EQ; T_BANG_EQ; T_LT_EQ; T_GT_EQ])],
   [(56, [N_multiplicative_operator]); (61, [N_or_operator]); (62, [N_additive_operator]);
    (66, [N_comparative_operator]); (172, [N_doc_comment])]);
  (* 173: parser.c 11454-11499 *)
  ([([ShiftExtra], [T_comment]); ([Shift 331], [T_POUND_POUND]); ([Shift 186], [T_STAR]); ([Shift 255], [T_DOT]);
    ([Shift 23], [T_LPAREN]); ([Shift 46], [T_power_operator]); ([Shift 26], [T_LBRACK]);
    ([Shift 45], [T_and_operator]); ([Shift 140], [T_RBRACK]); ([Shift 187], [T_LT; T_GT]);
    ([Shift 183], [T_DASH; T_PLUS]); ([Shift 186], [T_SLASH; T_PERCENT]);
    ([Shift 185], [T_PIPE_PIPE; T_CARET_CARET]); ([Shift 187], [T_EQ_EQ; T_BANG_EQ; T_LT_EQ; T_GT_EQ])],
   [(56, [N_multiplicative_operator]); (61, [N_or_operator]); (62, [N_additive_operator]);
    (66, [N_comparative_operator]); (173, [N_doc_comment])]);
  (* 174: parser.c 11500-11545 *)
  ([([ShiftExtra], [T_comment]); ([Shift 331], [T_POUND_POUND]); ([Shift 186], [T_STAR]); ([Shift 255], [T_DOT]);
    ([Shift 23], [T_LPAREN]); ([Shift 46], [T_power_operator]); ([Shift 26], [T_LBRACK]);
    ([Shift 45], [T_and_operator]); ([Shift 142], [T_RBRACK]); ([Shift 187], [T_LT; T_GT]);
    ([Shift 183], [T_DASH; T_PLUS]); ([Shift 186], [T_SLASH; T_PERCENT]);
    ([Shift 185], [T_PIPE_PIPE; T_CARET_CARET]); ([Shift 187], [T_EQ_EQ; T_BANG_EQ; T_LT_EQ; T_GT_EQ])],
   [(56, [N_multiplicative_operator]); (61, [N_or_operator]); (62, [N_additive_operator]);
    (66, [N_comparative_operator]); (174, [N_doc_comment])]);
  (* 175: parser.c 11546-11591 *)
  ([([ShiftExtra], [T_comment]); ([Shift 331], [T_POUND_POUND]); ([Shift 186], [T_STAR]); ([Shift 255], [T_DOT]);
    ([Shift 23], [T_LPAREN]); ([Shift 46], [T_power_operator]); ([Shift 26], [T_LBRACK]);
    ([Shift 45], [T_and_operator]); ([Shift 177], [T_RBRACK]); ([Shift 187], [T_LT; T_GT]);
    ([Shift 183], [T_DASH; T_PLUS]); ([Shift 186], [T_SLASH; T_PERCENT]);
    ([Shift 185], [T_PIPE_PIPE; T_CARET_CARET]); ([Shift 187], [T_EQ_EQ; T_BANG_EQ; T_LT_EQ; T_GT_EQ])],
   [(56, [N_multiplicative_operator]); (61, [N_or_operator]); (62, [N_additive_operator]);
    (66, [N_comparative_operator]); (175, [N_doc_comment])]);
  (* 176: parser.c 11592-11623 *)
  ([([ShiftExtra], [T_comment]); ([Shift 331], [T_POUND_POUND]); ([Reduce N_vec 5 0], [T_LT; T_GT; T_STAR]);
    ([Reduce N_vec 5 0], [T_RBRACE; T_DOT; T_LPAREN; T_RPAREN; T_COMMA; T_COLON; T_DASH; T_power_operator; T_SLASH; T_PERCENT; T_PLUS; T_EQ_EQ; T_BANG_EQ; T_LT_EQ; T_GT_EQ; T_and_operator; T_PIPE_PIPE; T_CARET_CARET; T_LBRACK; T_RBRACK])],
   [(176, [N_doc_comment])]);
  (* 177: parser.c 11624-11655 *)
  ([([ShiftExtra], [T_comment]); ([Shift 331], [T_POUND_POUND]); ([Reduce N_slice 5 36], [T_LT; T_GT; T_STAR]);
    ([Reduce N_slice 5 36], [T_RBRACE; T_DOT; T_LPAREN; T_RPAREN; T_COMMA; T_COLON; T_DASH; T_power_operator; T_SLASH; T_PERCENT; T_PLUS; T_EQ_EQ; T_BANG_EQ; T_LT_EQ; T_GT_EQ; T_and_operator; T_PIPE_PIPE; T_CARET_CARET; T_LBRACK; T_RBRACK])],
   [(177, [N_doc_comment])]);
  (* 178: parser.c 11656-11687 *)
  ([([ShiftExtra], [T_comment]); ([Shift 331], [T_POUND_POUND]); ([Reduce N_slice 5 37], [T_LT; T_GT; T_STAR]);
    ([Reduce N_slice 5 37], [T_RBRACE; T_DOT; T_LPAREN; T_RPAREN; T_COMMA; T_COLON; T_DASH; T_power_operator; T_SLASH; T_PERCENT; T_PLUS; T_EQ_EQ; T_BANG_EQ; T_LT_EQ; T_GT_EQ; T_and_operator; T_PIPE_PIPE; T_CARET_CARET; T_LBRACK; T_RBRACK])],
   [(178, [N_doc_comment])]);
  (* 179: parser.c 11688-11719 *)
  ([([ShiftExtra], [T_comment]); ([Shift 331], [T_POUND_POUND]); ([Reduce N_slice 6 44], [T_LT; T_GT; T_STAR]);
    ([Reduce N_slice 6 44], [T_RBRACE; T_DOT; T_LPAREN; T_RPAREN; T_COMMA; T_COLON; T_DASH; T_power_operator; T_SLASH; T_PERCENT; T_PLUS; T_EQ_EQ; T_BANG_EQ; T_LT_EQ; T_GT_EQ; T_and_operator; T_PIPE_PIPE; T_CARET_CARET; T_LBRACK; T_RBRACK])],
   [(179, [N_doc_comment])]);
  (* 180: parser.c 11720-11751 *)
  ([([ShiftExtra], [T_comment]); ([Shift 331], [T_POUND_POUND]); ([Reduce N_map 2 0], [T_LT; T_GT; T_STAR]);
    ([Reduce N_map 2 0], [T_RBRACE; T_DOT; T_LPAREN; T_RPAREN; T_COMMA; T_COLON; T_DASH; T_power_operator; T_SLASH; T_PERCENT; T_PLUS; T_EQ_EQ; T_BANG_EQ; T_LT_EQ; T_GT_EQ; T_and_operator; T_PIPE_PIPE; T_CARET_CARET; T_LBRACK; T_RBRACK])],
   [(180, [N_doc_comment])]);
  (* 181: parser.c 11752-11783 *)
  ([([ShiftExtra], [T_comment]); ([Shift 331], [T_POUND_POUND]); ([Reduce N_block 3 9], [T_LT; T_GT; T_STAR]);
    ([Reduce N_block 3 9], [T_RBRACE; T_DOT; T_LPAREN; T_RPAREN; T_COMMA; T_COLON; T_DASH; T_power_operator; T_SLASH; T_PERCENT; T_PLUS; T_EQ_EQ; T_BANG_EQ; T_LT_EQ; T_GT_EQ; T_and_operator; T_PIPE_PIPE; T_CARET_CARET; T_LBRACK; T_RBRACK])],
   [(181, [N_doc_comment])]);
  (* 182: parser.c 11784-11815 *)
  ([([ShiftExtra], [T_comment]); ([Shift 331], [T_POUND_POUND]); ([Reduce N_vec 2 0], [T_LT; T_GT; T_STAR]);
    ([Reduce N_vec 2 0], [T_RBRACE; T_DOT; T_LPAREN; T_RPAREN; T_COMMA; T_COLON; T_DASH; T_power_operator; T_SLASH; T_PERCENT; T_PLUS; T_EQ_EQ; T_BANG_EQ; T_LT_EQ; T_GT_EQ; T_and_operator; T_PIPE_PIPE; T_CARET_CARET; T_LBRACK; T_RBRACK])],
   [(182, [N_doc_comment])]);
  (* 183: parser.c 11816-11842 *)
  ([([ShiftExtra], [T_comment]); ([Shift 331], [T_POUND_POUND]);
    ([Reduce N_additive_operator 1 0], [T_LBRACE; T_LPAREN; T_PIPE; T_DASH; T_BANG; T_LBRACK; T_number; T_string]);
    ([Reduce N_additive_operator 1 0], [T_any; T_int; T_str; T_bool; T_void; T_identifier_token1; T_true; T_false; T_error; T_none])],
   [(183, [N_doc_comment])]);
  (* 184: parser.c 11843-11869 *)
  ([([ShiftExtra], [T_comment]); ([Shift 331], [T_POUND_POUND]);
    ([Reduce N_unary_operator 1 0], [T_LBRACE; T_LPAREN; T_PIPE; T_DASH; T_BANG; T_LBRACK; T_number; T_string]);
    ([Reduce N_unary_operator 1 0], [T_any; T_int; T_str; T_bool; T_void; T_identifier_token1; T_true; T_false; T_error; T_none])],
   [(184, [N_doc_comment])]);
  (* 185: parser.c 11870-11896 *)
  ([([ShiftExtra], [T_comment]); ([Shift 331], [T_POUND_POUND]);
    ([Reduce N_or_operator 1 0], [T_LBRACE; T_LPAREN; T_PIPE; T_DASH; T_BANG; T_LBRACK; T_number; T_string]);
    ([Reduce N_or_operator 1 0], [T_any; T_int; T_str; T_bool; T_void; T_identifier_token1; T_true; T_false; T_error; T_none])],
   [(185, [N_doc_comment])]);
  (* 186: parser.c 11897-11923 *)
  ([([ShiftExtra], [T_comment]); ([Shift 331], [T_POUND_POUND]);
    ([Reduce N_multiplicative_operator 1 0], [T_LBRACE; T_LPAREN; T_PIPE; T_DASH; T_BANG; T_LBRACK; T_number; T_string]);
    ([Reduce N_multiplicative_operator 1 0], [T_any; T_int; T_str; T_bool; T_void; T_identifier_token1; T_true; T_false; T_error; T_none])],
   [(186, [N_doc_comment])]);
  (* 187: parser.c 11924-11950 *)
  ([([ShiftExtra], [T_comment]); ([Shift 331], [T_POUND_POUND]);
    ([Reduce N_comparative_operator 1 0], [T_LBRACE; T_LPAREN; T_PIPE; T_DASH; T_BANG; T_LBRACK; T_number; T_string]);
    ([Reduce N_comparative_operator 1 0], [T_any; T_int; T_str; T_bool; T_void; T_identifier_token1; T_true; T_false; T_error; T_none])],
   [(187, [N_doc_comment])]);
  (* 188: parser.c 11951-11984 *)
  ([([Shift 216], [T_fn]); ([Shift 266], [T_class]); ([ShiftExtra], [T_comment]); ([Shift 331], [T_POUND_POUND]);
    ([Shift 95], [T_SEMI]); ([Shift 95], [T_LF]); ([Shift 10], [T_LBRACE]); ([Shift 181], [T_RBRACE]);
    ([Shift 275], [T_static; T_pure])],
   [(95, [N__line_insensitive_statement]); (188, [N_doc_comment]); (268, [N_qualifier_list_repeat1]);
    (272, [N_qualifier]); (330, [N_qualifier_list]); (88, [N_block; N_function_declaration; N_class_declaration])]);
  (* 189: parser.c 11985-12018 *)
  ([([Shift 216], [T_fn]); ([Shift 266], [T_class]); ([ShiftExtra], [T_comment]); ([Shift 331], [T_POUND_POUND]);
    ([Shift 95], [T_SEMI]); ([Shift 95], [T_LF]); ([Shift 10], [T_LBRACE]); ([Shift 83], [T_RBRACE]);
    ([Shift 275], [T_static; T_pure])],
   [(95, [N__line_insensitive_statement]); (189, [N_doc_comment]); (268, [N_qualifier_list_repeat1]);
    (272, [N_qualifier]); (330, [N_qualifier_list]); (88, [N_block; N_function_declaration; N_class_declaration])]);
  (* 190: parser.c 12019-12052 *)
  ([([Shift 216], [T_fn]); ([Shift 266], [T_class]); ([ShiftExtra], [T_comment]); ([Shift 331], [T_POUND_POUND]);
    ([Shift 95], [T_SEMI]); ([Shift 95], [T_LF]); ([Shift 10], [T_LBRACE]); ([Shift 135], [T_RBRACE]);
    ([Shift 275], [T_static; T_pure])],
   [(95, [N__line_insensitive_statement]); (190, [N_doc_comment]); (268, [N_qualifier_list_repeat1]);
    (272, [N_qualifier]); (330, [N_qualifier_list]); (88, [N_block; N_function_declaration; N_class_declaration])]);
  (* 191: parser.c 12053-12084 *)
  ([([Shift 216], [T_fn]); ([Shift 266], [T_class]); ([ShiftExtra], [T_comment]); ([Shift 331], [T_POUND_POUND]);
    ([Shift 95], [T_SEMI]); ([Shift 95], [T_LF]); ([Shift 10], [T_LBRACE]); ([Shift 275], [T_static; T_pure])],
   [(95, [N__line_insensitive_statement]); (191, [N_doc_comment]); (268, [N_qualifier_list_repeat1]);
    (272, [N_qualifier]); (330, [N_qualifier_list]); (88, [N_block; N_function_declaration; N_class_declaration])]);
  (* 192: parser.c 12085-12111 *)
  ([([ShiftExtra], [T_comment]); ([Shift 331], [T_POUND_POUND]); ([Shift 146], [T_identifier_token1]);
    ([Shift 270], [T_vec]); ([Shift 271], [T_map]); ([Shift 144], [T_any; T_int; T_str; T_bool; T_void])],
   [(146, [N_primitive_type]); (192, [N_doc_comment]); (273, [N_identifier]); (274, [N_type_name]); (310, [N_type])]);
  (* 193: parser.c 12112-12138 *)
  ([([ShiftExtra], [T_comment]); ([Shift 331], [T_POUND_POUND]); ([Shift 107], [T_identifier_token1]);
    ([Shift 235], [T_vec]); ([Shift 227], [T_map]); ([Shift 108], [T_any; T_int; T_str; T_bool; T_void])],
   [(107, [N_primitive_type]); (193, [N_doc_comment]); (244, [N_identifier]); (246, [N_type_name]); (254, [N_type])]);
  (* 194: parser.c 12139-12165 *)
  ([([ShiftExtra], [T_comment]); ([Shift 331], [T_POUND_POUND]); ([Shift 146], [T_identifier_token1]);
    ([Shift 270], [T_vec]); ([Shift 271], [T_map]); ([Shift 144], [T_any; T_int; T_str; T_bool; T_void])],
   [(146, [N_primitive_type]); (194, [N_doc_comment]); (273, [N_identifier]); (274, [N_type_name]); (312, [N_type])]);
  (* 195: parser.c 12166-12192 *)
  ([([ShiftExtra], [T_comment]); ([Shift 331], [T_POUND_POUND]); ([Shift 146], [T_identifier_token1]);
    ([Shift 270], [T_vec]); ([Shift 271], [T_map]); ([Shift 144], [T_any; T_int; T_str; T_bool; T_void])],
   [(146, [N_primitive_type]); (195, [N_doc_comment]); (273, [N_identifier]); (274, [N_type_name]); (334, [N_type])]);
  (* 196: parser.c 12193-12219 *)
  ([([ShiftExtra], [T_comment]); ([Shift 331], [T_POUND_POUND]); ([Shift 270], [T_vec]); ([Shift 271], [T_map]);
    ([Shift 279], [T_identifier_token1]); ([Shift 280], [T_any; T_int; T_str; T_bool; T_void])],
   [(196, [N_doc_comment]); (273, [N_identifier]); (274, [N_type_name]); (279, [N_primitive_type]); (322, [N_type])]);
  (* 197: parser.c 12220-12246 *)
  ([([ShiftExtra], [T_comment]); ([Shift 331], [T_POUND_POUND]); ([Shift 146], [T_identifier_token1]);
    ([Shift 270], [T_vec]); ([Shift 271], [T_map]); ([Shift 144], [T_any; T_int; T_str; T_bool; T_void])],
   [(146, [N_primitive_type]); (197, [N_doc_comment]); (273, [N_identifier]); (274, [N_type_name]); (316, [N_type])]);
  (* 198: parser.c 12247-12273 *)
  ([([ShiftExtra], [T_comment]); ([Shift 331], [T_POUND_POUND]); ([Shift 107], [T_identifier_token1]);
    ([Shift 235], [T_vec]); ([Shift 227], [T_map]); ([Shift 108], [T_any; T_int; T_str; T_bool; T_void])],
   [(107, [N_primitive_type]); (198, [N_doc_comment]); (244, [N_identifier]); (246, [N_type_name]); (260, [N_type])]);
  (* 199: parser.c 12274-12300 *)
  ([([ShiftExtra], [T_comment]); ([Shift 331], [T_POUND_POUND]); ([Shift 270], [T_vec]); ([Shift 271], [T_map]);
    ([Shift 279], [T_identifier_token1]); ([Shift 280], [T_any; T_int; T_str; T_bool; T_void])],
   [(199, [N_doc_comment]); (273, [N_identifier]); (274, [N_type_name]); (279, [N_primitive_type]); (289, [N_type])]);
  (* 200: parser.c 12301-12327 *)
  ([([ShiftExtra], [T_comment]); ([Shift 331], [T_POUND_POUND]); ([Shift 270], [T_vec]); ([Shift 271], [T_map]);
    ([Shift 279], [T_identifier_token1]); ([Shift 280], [T_any; T_int; T_str; T_bool; T_void])],
   [(200, [N_doc_comment]); (273, [N_identifier]); (274, [N_type_name]); (279, [N_primitive_type]); (321, [N_type])]);
  (* 201: parser.c 12328-12354 *)
  ([([ShiftExtra], [T_comment]); ([Shift 331], [T_POUND_POUND]); ([Shift 107], [T_identifier_token1]);
    ([Shift 235], [T_vec]); ([Shift 227], [T_map]); ([Shift 108], [T_any; T_int; T_str; T_bool; T_void])],
   [(107, [N_primitive_type]); (201, [N_doc_comment]); (244, [N_identifier]); (246, [N_type_name]); (256, [N_type])]);
  (* 202: parser.c 12355-12381 *)
  ([([ShiftExtra], [T_comment]); ([Shift 331], [T_POUND_POUND]); ([Shift 107], [T_identifier_token1]);
    ([Shift 235], [T_vec]); ([Shift 227], [T_map]); ([Shift 108], [T_any; T_int; T_str; T_bool; T_void])],
   [(107, [N_primitive_type]); (202, [N_doc_comment]); (244, [N_identifier]); (246, [N_type_name]); (258, [N_type])]);
  (* 203: parser.c 12382-12408 *)
  ([([ShiftExtra], [T_comment]); ([Shift 331], [T_POUND_POUND]); ([Shift 107], [T_identifier_token1]);
    ([Shift 235], [T_vec]); ([Shift 227], [T_map]); ([Shift 108], [T_any; T_int; T_str; T_bool; T_void])],
   [(107, [N_primitive_type]); (203, [N_doc_comment]); (244, [N_identifier]); (246, [N_type_name]); (248, [N_type])]);
  (* 204: parser.c 12409-12435 *)
  ([([ShiftExtra], [T_comment]); ([Shift 331], [T_POUND_POUND]); ([Shift 146], [T_identifier_token1]);
    ([Shift 270], [T_vec]); ([Shift 271], [T_map]); ([Shift 144], [T_any; T_int; T_str; T_bool; T_void])],
   [(146, [N_primitive_type]); (204, [N_doc_comment]); (273, [N_identifier]); (274, [N_type_name]); (289, [N_type])]);
  (* 205: parser.c 12436-12462 *)
  ([([ShiftExtra], [T_comment]); ([Shift 331], [T_POUND_POUND]); ([Shift 146], [T_identifier_token1]);
    ([Shift 270], [T_vec]); ([Shift 271], [T_map]); ([Shift 144], [T_any; T_int; T_str; T_bool; T_void])],
   [(146, [N_primitive_type]); (205, [N_doc_comment]); (273, [N_identifier]); (274, [N_type_name]); (315, [N_type])]);
  (* 206: parser.c 12463-12489 *)
  ([([ShiftExtra], [T_comment]); ([Shift 331], [T_POUND_POUND]); ([Shift 107], [T_identifier_token1]);
    ([Shift 235], [T_vec]); ([Shift 227], [T_map]); ([Shift 108], [T_any; T_int; T_str; T_bool; T_void])],
   [(107, [N_primitive_type]); (206, [N_doc_comment]); (244, [N_identifier]); (246, [N_type_name]); (252, [N_type])]);
  (* 207: parser.c 12490-12516 *)
  ([([ShiftExtra], [T_comment]); ([Shift 331], [T_POUND_POUND]); ([Shift 270], [T_vec]); ([Shift 271], [T_map]);
    ([Shift 279], [T_identifier_token1]); ([Shift 280], [T_any; T_int; T_str; T_bool; T_void])],
   [(207, [N_doc_comment]); (273, [N_identifier]); (274, [N_type_name]); (279, [N_primitive_type]); (320, [N_type])]);
  (* 208: parser.c 12517-12543 *)
  ([([ShiftExtra], [T_comment]); ([Shift 331], [T_POUND_POUND]); ([Shift 146], [T_identifier_token1]);
    ([Shift 270], [T_vec]); ([Shift 271], [T_map]); ([Shift 144], [T_any; T_int; T_str; T_bool; T_void])],
   [(146, [N_primitive_type]); (208, [N_doc_comment]); (273, [N_identifier]); (274, [N_type_name]); (314, [N_type])]);
  (* 209: parser.c 12544-12570 *)
  ([([ShiftExtra], [T_comment]); ([Shift 331], [T_POUND_POUND]); ([Shift 270], [T_vec]); ([Shift 271], [T_map]);
    ([Shift 279], [T_identifier_token1]); ([Shift 280], [T_any; T_int; T_str; T_bool; T_void])],
   [(209, [N_doc_comment]); (273, [N_identifier]); (274, [N_type_name]); (279, [N_primitive_type]); (323, [N_type])]);
  (* 210: parser.c 12571-12597 *)
  ([([ShiftExtra], [T_comment]); ([Shift 331], [T_POUND_POUND]); ([Shift 107], [T_identifier_token1]);
    ([Shift 235], [T_vec]); ([Shift 227], [T_map]); ([Shift 108], [T_any; T_int; T_str; T_bool; T_void])],
   [(107, [N_primitive_type]); (210, [N_doc_comment]); (244, [N_identifier]); (246, [N_type_name]); (265, [N_type])]);
  (* 211: parser.c 12598-12624 *)
  ([([ShiftExtra], [T_comment]); ([Shift 331], [T_POUND_POUND]); ([Shift 146], [T_identifier_token1]);
    ([Shift 270], [T_vec]); ([Shift 271], [T_map]); ([Shift 144], [T_any; T_int; T_str; T_bool; T_void])],
   [(146, [N_primitive_type]); (211, [N_doc_comment]); (273, [N_identifier]); (274, [N_type_name]); (313, [N_type])]);
  (* 212: parser.c 12625-12651 *)
  ([([ShiftExtra], [T_comment]); ([Shift 331], [T_POUND_POUND]); ([Shift 146], [T_identifier_token1]);
    ([Shift 270], [T_vec]); ([Shift 271], [T_map]); ([Shift 144], [T_any; T_int; T_str; T_bool; T_void])],
   [(146, [N_primitive_type]); (212, [N_doc_comment]); (273, [N_identifier]); (274, [N_type_name]); (333, [N_type])]);
  (* 213: parser.c 12652-12678 *)
  ([([ShiftExtra], [T_comment]); ([Shift 331], [T_POUND_POUND]); ([Shift 107], [T_identifier_token1]);
    ([Shift 235], [T_vec]); ([Shift 227], [T_map]); ([Shift 108], [T_any; T_int; T_str; T_bool; T_void])],
   [(107, [N_primitive_type]); (213, [N_doc_comment]); (240, [N_type]); (244, [N_identifier]); (246, [N_type_name])]);
  (* 214: parser.c 12679-12703 *)
  ([([ShiftExtra], [T_comment]); ([Shift 331], [T_POUND_POUND]); ([Shift 146], [T_identifier_token1]);
    ([Shift 307], [T_RPAREN]); ([Shift 144], [T_any; T_int; T_str; T_bool; T_void])],
   [(146, [N_primitive_type]); (214, [N_doc_comment]); (284, [N_param]); (298, [N_identifier]); (326, [N_param_list])]);
  (* 215: parser.c 12704-12728 *)
  ([([ShiftExtra], [T_comment]); ([Shift 331], [T_POUND_POUND]); ([Shift 279], [T_identifier_token1]);
    ([Shift 42], [T_PIPE]); ([Shift 280], [T_any; T_int; T_str; T_bool; T_void])],
   [(215, [N_doc_comment]); (279, [N_primitive_type]); (300, [N_param]); (306, [N_identifier]); (319, [N_param_list])]);
  (* 216: parser.c 12729-12751 *)
  ([([ShiftExtra], [T_comment]); ([Shift 331], [T_POUND_POUND]); ([Shift 146], [T_identifier_token1]);
    ([Shift 285], [T_PLUS_PLUS; T_EQ_EQ_EQ]); ([Shift 144], [T_any; T_int; T_str; T_bool; T_void])],
   [(146, [N_primitive_type]); (216, [N_doc_comment]); (281, [N_overloadable_operator; N_identifier])]);
  (* 217: parser.c 12752-12776 *)
  ([([ShiftExtra], [T_comment]); ([Shift 331], [T_POUND_POUND]); ([Shift 146], [T_identifier_token1]);
    ([Shift 241], [T_RPAREN]); ([Shift 144], [T_any; T_int; T_str; T_bool; T_void])],
   [(146, [N_primitive_type]); (217, [N_doc_comment]); (284, [N_param]); (298, [N_identifier]); (317, [N_param_list])]);
  (* 218: parser.c 12777-12799 *)
  ([([ShiftExtra], [T_comment]); ([Shift 331], [T_POUND_POUND]); ([Shift 107], [T_identifier_token1]);
    ([Shift 234], [T_PLUS_PLUS; T_EQ_EQ_EQ]); ([Shift 108], [T_any; T_int; T_str; T_bool; T_void])],
   [(107, [N_primitive_type]); (218, [N_doc_comment]); (226, [N_overloadable_operator; N_identifier])]);
  (* 219: parser.c 12800-12824 *)
  ([([ShiftExtra], [T_comment]); ([Shift 331], [T_POUND_POUND]); ([Shift 279], [T_identifier_token1]);
    ([Shift 41], [T_PIPE]); ([Shift 280], [T_any; T_int; T_str; T_bool; T_void])],
   [(219, [N_doc_comment]); (279, [N_primitive_type]); (300, [N_param]); (306, [N_identifier]); (328, [N_param_list])]);
  (* 220: parser.c 12825-12849 *)
  ([([ShiftExtra], [T_comment]); ([Shift 331], [T_POUND_POUND]); ([Shift 107], [T_identifier_token1]);
    ([Shift 269], [T_DOT]); ([Shift 108], [T_any; T_int; T_str; T_bool; T_void])],
   [(107, [N_primitive_type]); (220, [N_doc_comment]); (249, [N_identifier]); (250, [N_import_relative_dot]);
    (253, [N_import_path])]);
  (* 221: parser.c 12850-12872 *)
  ([([ShiftExtra], [T_comment]); ([Shift 331], [T_POUND_POUND]); ([Shift 107], [T_identifier_token1]);
    ([Shift 234], [T_PLUS_PLUS; T_EQ_EQ_EQ]); ([Shift 108], [T_any; T_int; T_str; T_bool; T_void])],
   [(107, [N_primitive_type]); (221, [N_doc_comment]); (229, [N_overloadable_operator; N_identifier])]);
  (* 222: parser.c 12873-12895 *)
  ([([ShiftExtra], [T_comment]); ([Shift 331], [T_POUND_POUND]); ([Shift 146], [T_identifier_token1]);
    ([Shift 285], [T_PLUS_PLUS; T_EQ_EQ_EQ]); ([Shift 144], [T_any; T_int; T_str; T_bool; T_void])],
   [(146, [N_primitive_type]); (222, [N_doc_comment]); (278, [N_overloadable_operator; N_identifier])]);
  (* 223: parser.c 12896-12920 *)
  ([([ShiftExtra], [T_comment]); ([Shift 331], [T_POUND_POUND]); ([Shift 146], [T_identifier_token1]);
    ([Shift 290], [T_RPAREN]); ([Shift 144], [T_any; T_int; T_str; T_bool; T_void])],
   [(146, [N_primitive_type]); (223, [N_doc_comment]); (284, [N_param]); (298, [N_identifier]); (332, [N_param_list])]);
  (* 224: parser.c 12921-12945 *)
  ([([ShiftExtra], [T_comment]); ([Shift 331], [T_POUND_POUND]); ([Shift 146], [T_identifier_token1]);
    ([Shift 247], [T_RPAREN]); ([Shift 144], [T_any; T_int; T_str; T_bool; T_void])],
   [(146, [N_primitive_type]); (224, [N_doc_comment]); (284, [N_param]); (298, [N_identifier]); (318, [N_param_list])]);
  (* 225: parser.c 12946-12970 *)
  ([([ShiftExtra], [T_comment]); ([Shift 331], [T_POUND_POUND]); ([Shift 146], [T_identifier_token1]);
    ([Shift 311], [T_RPAREN]); ([Shift 144], [T_any; T_int; T_str; T_bool; T_void])],
   [(146, [N_primitive_type]); (225, [N_doc_comment]); (284, [N_param]); (298, [N_identifier]); (325, [N_param_list])]);
  (* 226: parser.c 12971-12991 *)
  ([([ShiftExtra], [T_comment]); ([Shift 331], [T_POUND_POUND]); ([Reduce N_proto 2 3], [T_LF]);
    ([Shift 224], [T_LPAREN]); ([Shift 202], [T_DASH_GT]);
    ([Reduce N_proto 2 3], [T_SEMI; T_LBRACE; T_RBRACE; T_static; T_pure; T_fn; T_class])],
   [(226, [N_doc_comment])]);
  (* 227: parser.c 12992-13011 *)
  ([([ShiftExtra], [T_comment]); ([Shift 331], [T_POUND_POUND]); ([Reduce N_type_name 1 0], [T_LF]);
    ([Shift 195], [T_LT]);
    ([Reduce N_type_name 1 0], [T_SEMI; T_LBRACE; T_RBRACE; T_static; T_pure; T_fn; T_class; T_EQ])],
   [(227, [N_doc_comment])]);
  (* 228: parser.c 13012-13034 *)
  ([([ShiftExtra], [T_comment]); ([Shift 331], [T_POUND_POUND]); ([Shift 279], [T_identifier_token1]);
    ([Reduce N_param_list 3 0], [T_PIPE]); ([Shift 280], [T_any; T_int; T_str; T_bool; T_void])],
   [(228, [N_doc_comment]); (279, [N_primitive_type]); (283, [N_param]); (306, [N_identifier])]);
  (* 229: parser.c 13035-13055 *)
  ([([ShiftExtra], [T_comment]); ([Shift 331], [T_POUND_POUND]); ([Reduce N_proto 3 14], [T_LF]);
    ([Shift 217], [T_LPAREN]); ([Shift 210], [T_DASH_GT]);
    ([Reduce N_proto 3 14], [T_SEMI; T_LBRACE; T_RBRACE; T_static; T_pure; T_fn; T_class])],
   [(229, [N_doc_comment])]);
  (* 230: parser.c 13056-13076 *)
  ([([ShiftExtra], [T_comment]); ([Shift 331], [T_POUND_POUND]); ([Reduce N_var_decl 3 14], [T_LF]);
    ([Shift 203], [T_COLON]); ([Shift 52], [T_EQ]);
    ([Reduce N_var_decl 3 14], [T_SEMI; T_LBRACE; T_RBRACE; T_static; T_pure; T_fn; T_class])],
   [(230, [N_doc_comment])]);
  (* 231: parser.c 13077-13099 *)
  ([([ShiftExtra], [T_comment]); ([Shift 331], [T_POUND_POUND]); ([Shift 279], [T_identifier_token1]);
    ([Reduce N_param_list 2 0], [T_PIPE]); ([Shift 280], [T_any; T_int; T_str; T_bool; T_void])],
   [(231, [N_doc_comment]); (279, [N_primitive_type]); (283, [N_param]); (306, [N_identifier])]);
  (* 232: parser.c 13100-13122 *)
  ([([ShiftExtra], [T_comment]); ([Shift 331], [T_POUND_POUND]); ([Shift 146], [T_identifier_token1]);
    ([Reduce N_param_list 2 0], [T_RPAREN]); ([Shift 144], [T_any; T_int; T_str; T_bool; T_void])],
   [(146, [N_primitive_type]); (232, [N_doc_comment]); (283, [N_param]); (298, [N_identifier])]);
  (* 233: parser.c 13123-13143 *)
  ([([ShiftExtra], [T_comment]); ([Shift 331], [T_POUND_POUND]); ([Reduce N_var_decl 2 3], [T_LF]);
    ([Shift 213], [T_COLON]); ([Shift 49], [T_EQ]);
    ([Reduce N_var_decl 2 3], [T_SEMI; T_LBRACE; T_RBRACE; T_static; T_pure; T_fn; T_class])],
   [(233, [N_doc_comment])]);
  (* 234: parser.c 13144-13162 *)
  ([([ShiftExtra], [T_comment]); ([Shift 331], [T_POUND_POUND]); ([Reduce N_overloadable_operator 1 0], [T_LF]);
    ([Reduce N_overloadable_operator 1 0], [T_SEMI; T_LBRACE; T_RBRACE; T_static; T_pure; T_LPAREN; T_DASH_GT; T_fn; T_class])],
   [(234, [N_doc_comment])]);
  (* 235: parser.c 13163-13182 *)
  ([([ShiftExtra], [T_comment]); ([Shift 331], [T_POUND_POUND]); ([Reduce N_type_name 1 0], [T_LF]);
    ([Shift 196], [T_LT]);
    ([Reduce N_type_name 1 0], [T_SEMI; T_LBRACE; T_RBRACE; T_static; T_pure; T_fn; T_class; T_EQ])],
   [(235, [N_doc_comment])]);
  (* 236: parser.c 13183-13205 *)
  ([([ShiftExtra], [T_comment]); ([Shift 331], [T_POUND_POUND]); ([Shift 146], [T_identifier_token1]);
    ([Reduce N_param_list 3 0], [T_RPAREN]); ([Shift 144], [T_any; T_int; T_str; T_bool; T_void])],
   [(146, [N_primitive_type]); (236, [N_doc_comment]); (283, [N_param]); (298, [N_identifier])]);
  (* 237: parser.c 13206-13223 *)
  ([([ShiftExtra], [T_comment]); ([Shift 331], [T_POUND_POUND]); ([Reduce N_type 4 0], [T_LF]);
    ([Reduce N_type 4 0], [T_SEMI; T_LBRACE; T_RBRACE; T_static; T_pure; T_fn; T_class; T_EQ])],
   [(237, [N_doc_comment])]);
  (* 238: parser.c 13224-13244 *)
  ([([ShiftExtra], [T_comment]); ([Shift 331], [T_POUND_POUND]); ([Shift 279], [T_identifier_token1]);
    ([Shift 280], [T_any; T_int; T_str; T_bool; T_void])],
   [(238, [N_doc_comment]); (279, [N_primitive_type]); (283, [N_param]); (306, [N_identifier])]);
  (* 239: parser.c 13245-13263 *)
  ([([ShiftExtra], [T_comment]); ([Shift 331], [T_POUND_POUND]); ([Reduce N_proto 6 41], [T_LF]);
    ([Shift 206], [T_DASH_GT]); ([Reduce N_proto 6 41], [T_SEMI; T_LBRACE; T_RBRACE; T_static; T_pure; T_fn; T_class])],
   [(239, [N_doc_comment])]);
  (* 240: parser.c 13264-13282 *)
  ([([ShiftExtra], [T_comment]); ([Shift 331], [T_POUND_POUND]); ([Reduce N_var_decl 4 24], [T_LF]);
    ([Shift 65], [T_EQ]); ([Reduce N_var_decl 4 24], [T_SEMI; T_LBRACE; T_RBRACE; T_static; T_pure; T_fn; T_class])],
   [(240, [N_doc_comment])]);
  (* 241: parser.c 13283-13301 *)
  ([([ShiftExtra], [T_comment]); ([Shift 331], [T_POUND_POUND]); ([Reduce N_proto 5 14], [T_LF]);
    ([Shift 193], [T_DASH_GT]); ([Reduce N_proto 5 14], [T_SEMI; T_LBRACE; T_RBRACE; T_static; T_pure; T_fn; T_class])],
   [(241, [N_doc_comment])]);
  (* 242: parser.c 13302-13319 *)
  ([([ShiftExtra], [T_comment]); ([Shift 331], [T_POUND_POUND]); ([Reduce N_type 6 0], [T_LF]);
    ([Reduce N_type 6 0], [T_SEMI; T_LBRACE; T_RBRACE; T_static; T_pure; T_fn; T_class; T_EQ])],
   [(242, [N_doc_comment])]);
  (* 243: parser.c 13320-13340 *)
  ([([ShiftExtra], [T_comment]); ([Shift 331], [T_POUND_POUND]); ([Shift 146], [T_identifier_token1]);
    ([Shift 144], [T_any; T_int; T_str; T_bool; T_void])],
   [(146, [N_primitive_type]); (243, [N_doc_comment]); (283, [N_param]); (298, [N_identifier])]);
  (* 244: parser.c 13341-13358 *)
  ([([ShiftExtra], [T_comment]); ([Shift 331], [T_POUND_POUND]); ([Reduce N_type_name 1 0], [T_LF]);
    ([Reduce N_type_name 1 0], [T_SEMI; T_LBRACE; T_RBRACE; T_static; T_pure; T_fn; T_class; T_EQ])],
   [(244, [N_doc_comment])]);
  (* 245: parser.c 13359-13379 *)
  ([([ShiftExtra], [T_comment]); ([Shift 331], [T_POUND_POUND]); ([Shift 107], [T_identifier_token1]);
    ([Shift 108], [T_any; T_int; T_str; T_bool; T_void])],
   [(107, [N_primitive_type]); (245, [N_doc_comment]); (249, [N_identifier]); (262, [N_import_path])]);
  (* 246: parser.c 13380-13397 *)
  ([([ShiftExtra], [T_comment]); ([Shift 331], [T_POUND_POUND]); ([Reduce N_type 1 0], [T_LF]);
    ([Reduce N_type 1 0], [T_SEMI; T_LBRACE; T_RBRACE; T_static; T_pure; T_fn; T_class; T_EQ])],
   [(246, [N_doc_comment])]);
  (* 247: parser.c 13398-13416 *)
  ([([ShiftExtra], [T_comment]); ([Shift 331], [T_POUND_POUND]); ([Reduce N_proto 4 3], [T_LF]);
    ([Shift 198], [T_DASH_GT]); ([Reduce N_proto 4 3], [T_SEMI; T_LBRACE; T_RBRACE; T_static; T_pure; T_fn; T_class])],
   [(247, [N_doc_comment])]);
  (* 248: parser.c 13417-13435 *)
  ([([ShiftExtra], [T_comment]); ([Shift 331], [T_POUND_POUND]); ([Reduce N_var_decl 5 34], [T_LF]);
    ([Shift 57], [T_EQ]); ([Reduce N_var_decl 5 34], [T_SEMI; T_LBRACE; T_RBRACE; T_static; T_pure; T_fn; T_class])],
   [(248, [N_doc_comment])]);
  (* 249: parser.c 13436-13454 *)
  ([([ShiftExtra], [T_comment]); ([Shift 331], [T_POUND_POUND]); ([Reduce N_import_path 1 2], [T_LF]);
    ([Shift 245], [T_DOT]);
    ([Reduce N_import_path 1 2], [T_SEMI; T_LBRACE; T_RBRACE; T_static; T_pure; T_fn; T_class])],
   [(249, [N_doc_comment])]);
  (* 250: parser.c 13455-13475 *)
  ([([ShiftExtra], [T_comment]); ([Shift 331], [T_POUND_POUND]); ([Shift 107], [T_identifier_token1]);
    ([Shift 108], [T_any; T_int; T_str; T_bool; T_void])],
   [(107, [N_primitive_type]); (249, [N_identifier]); (250, [N_doc_comment]); (263, [N_import_path])]);
  (* 251: parser.c 13476-13494 *)
  ([([ShiftExtra], [T_comment]); ([Shift 331], [T_POUND_POUND]); ([Reduce N_proto 5 30], [T_LF]);
    ([Shift 201], [T_DASH_GT]); ([Reduce N_proto 5 30], [T_SEMI; T_LBRACE; T_RBRACE; T_static; T_pure; T_fn; T_class])],
   [(251, [N_doc_comment])]);
  (* 252: parser.c 13495-13511 *)
  ([([ShiftExtra], [T_comment]); ([Shift 331], [T_POUND_POUND]); ([Reduce N_proto 8 51], [T_LF]);
    ([Reduce N_proto 8 51], [T_SEMI; T_LBRACE; T_RBRACE; T_static; T_pure; T_fn; T_class])],
   [(252, [N_doc_comment])]);
  (* 253: parser.c 13512-13528 *)
  ([([ShiftExtra], [T_comment]); ([Shift 331], [T_POUND_POUND]); ([Reduce N_import 2 1], [T_LF]);
    ([Reduce N_import 2 1], [T_SEMI; T_LBRACE; T_RBRACE; T_static; T_pure; T_fn; T_class])],
   [(253, [N_doc_comment])]);
  (* 254: parser.c 13529-13545 *)
  ([([ShiftExtra], [T_comment]); ([Shift 331], [T_POUND_POUND]); ([Reduce N_proto 7 47], [T_LF]);
    ([Reduce N_proto 7 47], [T_SEMI; T_LBRACE; T_RBRACE; T_static; T_pure; T_fn; T_class])],
   [(254, [N_doc_comment])]);
  (* 255: parser.c 13546-13564 *)
  ([([ShiftExtra], [T_comment]); ([Shift 331], [T_POUND_POUND]); ([Shift 146], [T_identifier_token1]);
    ([Shift 144], [T_any; T_int; T_str; T_bool; T_void])],
   [(146, [N_primitive_type]); (162, [N_identifier]); (255, [N_doc_comment])]);
  (* 256: parser.c 13565-13581 *)
  ([([ShiftExtra], [T_comment]); ([Shift 331], [T_POUND_POUND]); ([Reduce N_proto 7 45], [T_LF]);
    ([Reduce N_proto 7 45], [T_SEMI; T_LBRACE; T_RBRACE; T_static; T_pure; T_fn; T_class])],
   [(256, [N_doc_comment])]);
  (* 257: parser.c 13582-13600 *)
  ([([ShiftExtra], [T_comment]); ([Shift 331], [T_POUND_POUND]); ([Shift 107], [T_identifier_token1]);
    ([Shift 108], [T_any; T_int; T_str; T_bool; T_void])],
   [(107, [N_primitive_type]); (233, [N_identifier]); (257, [N_doc_comment])]);
  (* 258: parser.c 13601-13617 *)
  ([([ShiftExtra], [T_comment]); ([Shift 331], [T_POUND_POUND]); ([Reduce N_proto 4 21], [T_LF]);
    ([Reduce N_proto 4 21], [T_SEMI; T_LBRACE; T_RBRACE; T_static; T_pure; T_fn; T_class])],
   [(258, [N_doc_comment])]);
  (* 259: parser.c 13618-13636 *)
  ([([ShiftExtra], [T_comment]); ([Shift 331], [T_POUND_POUND]); ([Shift 107], [T_identifier_token1]);
    ([Shift 108], [T_any; T_int; T_str; T_bool; T_void])],
   [(107, [N_primitive_type]); (109, [N_identifier]); (259, [N_doc_comment])]);
  (* 260: parser.c 13637-13653 *)
  ([([ShiftExtra], [T_comment]); ([Shift 331], [T_POUND_POUND]); ([Reduce N_proto 6 38], [T_LF]);
    ([Reduce N_proto 6 38], [T_SEMI; T_LBRACE; T_RBRACE; T_static; T_pure; T_fn; T_class])],
   [(260, [N_doc_comment])]);
  (* 261: parser.c 13654-13670 *)
  ([([ShiftExtra], [T_comment]); ([Shift 331], [T_POUND_POUND]); ([Reduce N_statement 1 0], [T_LF]);
    ([Reduce N_statement 1 0], [T_SEMI; T_LBRACE; T_RBRACE; T_static; T_pure; T_fn; T_class])],
   [(261, [N_doc_comment])]);
  (* 262: parser.c 13671-13687 *)
  ([([ShiftExtra], [T_comment]); ([Shift 331], [T_POUND_POUND]); ([Reduce N_import_path 3 20], [T_LF]);
    ([Reduce N_import_path 3 20], [T_SEMI; T_LBRACE; T_RBRACE; T_static; T_pure; T_fn; T_class])],
   [(262, [N_doc_comment])]);
  (* 263: parser.c 13688-13704 *)
  ([([ShiftExtra], [T_comment]); ([Shift 331], [T_POUND_POUND]); ([Reduce N_import 3 10], [T_LF]);
    ([Reduce N_import 3 10], [T_SEMI; T_LBRACE; T_RBRACE; T_static; T_pure; T_fn; T_class])],
   [(263, [N_doc_comment])]);
  (* 264: parser.c 13705-13723 *)
  ([([ShiftExtra], [T_comment]); ([Shift 331], [T_POUND_POUND]); ([Shift 107], [T_identifier_token1]);
    ([Shift 108], [T_any; T_int; T_str; T_bool; T_void])],
   [(107, [N_primitive_type]); (230, [N_identifier]); (264, [N_doc_comment])]);
  (* 265: parser.c 13724-13740 *)
  ([([ShiftExtra], [T_comment]); ([Shift 331], [T_POUND_POUND]); ([Reduce N_proto 5 33], [T_LF]);
    ([Reduce N_proto 5 33], [T_SEMI; T_LBRACE; T_RBRACE; T_static; T_pure; T_fn; T_class])],
   [(265, [N_doc_comment])]);
  (* 266: parser.c 13741-13759 *)
  ([([ShiftExtra], [T_comment]); ([Shift 331], [T_POUND_POUND]); ([Shift 146], [T_identifier_token1]);
    ([Shift 144], [T_any; T_int; T_str; T_bool; T_void])],
   [(146, [N_primitive_type]); (266, [N_doc_comment]); (304, [N_identifier])]);
  (* 267: parser.c 13760-13776 *)
  ([([ShiftExtra], [T_comment]); ([Shift 331], [T_POUND_POUND]);
    ([Reduce N_qualifier_list_repeat1 2 0; ShiftRepeat 275], [T_static; T_pure]);
    ([Reduce N_qualifier_list_repeat1 2 0], [T_proto; T_fn; T_let])],
   [(272, [N_qualifier]); (267, [N_doc_comment; N_qualifier_list_repeat1])]);
  (* 268: parser.c 13777-13794 *)
  ([([ShiftExtra], [T_comment]); ([Shift 331], [T_POUND_POUND]); ([Shift 275], [T_static; T_pure]);
    ([Reduce N_qualifier_list 1 0], [T_proto; T_fn; T_let])],
   [(267, [N_qualifier_list_repeat1]); (268, [N_doc_comment]); (272, [N_qualifier])]);
  (* 269: parser.c 13795-13808 *)
  ([([ShiftExtra], [T_comment]); ([Shift 331], [T_POUND_POUND]);
    ([Reduce N_import_relative_dot 1 0], [T_any; T_int; T_str; T_bool; T_void; T_identifier_token1])],
   [(269, [N_doc_comment])]);
  (* 270: parser.c 13809-13823 *)
  ([([ShiftExtra], [T_comment]); ([Shift 331], [T_POUND_POUND]); ([Shift 207], [T_LT]);
    ([Reduce N_type_name 1 0], [T_LBRACE; T_RPAREN; T_PIPE; T_GT; T_COMMA])],
   [(270, [N_doc_comment])]);
  (* 271: parser.c 13824-13838 *)
  ([([ShiftExtra], [T_comment]); ([Shift 331], [T_POUND_POUND]); ([Shift 212], [T_LT]);
    ([Reduce N_type_name 1 0], [T_LBRACE; T_RPAREN; T_PIPE; T_GT; T_COMMA])],
   [(271, [N_doc_comment])]);
  (* 272: parser.c 13839-13851 *)
  ([([ShiftExtra], [T_comment]); ([Shift 331], [T_POUND_POUND]);
    ([Reduce N_qualifier_list_repeat1 1 0], [T_static; T_pure; T_proto; T_fn; T_let])],
   [(272, [N_doc_comment])]);
  (* 273: parser.c 13852-13864 *)
  ([([ShiftExtra], [T_comment]); ([Shift 331], [T_POUND_POUND]);
    ([Reduce N_type_name 1 0], [T_LBRACE; T_RPAREN; T_PIPE; T_GT; T_COMMA])],
   [(273, [N_doc_comment])]);
  (* 274: parser.c 13865-13877 *)
  ([([ShiftExtra], [T_comment]); ([Shift 331], [T_POUND_POUND]);
    ([Reduce N_type 1 0], [T_LBRACE; T_RPAREN; T_PIPE; T_GT; T_COMMA])],
   [(274, [N_doc_comment])]);
  (* 275: parser.c 13878-13890 *)
  ([([ShiftExtra], [T_comment]); ([Shift 331], [T_POUND_POUND]);
    ([Reduce N_qualifier 1 0], [T_static; T_pure; T_proto; T_fn; T_let])],
   [(275, [N_doc_comment])]);
  (* 276: parser.c 13891-13903 *)
  ([([ShiftExtra], [T_comment]); ([Shift 331], [T_POUND_POUND]);
    ([Reduce N_type 6 0], [T_LBRACE; T_RPAREN; T_PIPE; T_GT; T_COMMA])],
   [(276, [N_doc_comment])]);
  (* 277: parser.c 13904-13916 *)
  ([([ShiftExtra], [T_comment]); ([Shift 331], [T_POUND_POUND]);
    ([Reduce N_type 4 0], [T_LBRACE; T_RPAREN; T_PIPE; T_GT; T_COMMA])],
   [(277, [N_doc_comment])]);
  (* 278: parser.c 13917-13931 *)
  ([([ShiftExtra], [T_comment]); ([Shift 331], [T_POUND_POUND]); ([Shift 10], [T_LBRACE]); ([Shift 223], [T_LPAREN]);
    ([Shift 192], [T_DASH_GT])],
   [(92, [N_block]); (278, [N_doc_comment])]);
  (* 279: parser.c 13932-13943 *)
  ([([ShiftExtra], [T_comment]); ([Shift 331], [T_POUND_POUND]);
    ([Reduce N_identifier 1 0], [T_PIPE; T_GT; T_COMMA; T_COLON])],
   [(279, [N_doc_comment])]);
  (* 280: parser.c 13944-13955 *)
  ([([ShiftExtra], [T_comment]); ([Shift 331], [T_POUND_POUND]);
    ([Reduce N_primitive_type 1 0], [T_PIPE; T_GT; T_COMMA; T_COLON])],
   [(280, [N_doc_comment])]);
  (* 281: parser.c 13956-13970 *)
  ([([ShiftExtra], [T_comment]); ([Shift 331], [T_POUND_POUND]); ([Shift 10], [T_LBRACE]); ([Shift 214], [T_LPAREN]);
    ([Shift 208], [T_DASH_GT])],
   [(97, [N_block]); (281, [N_doc_comment])]);
  (* 282: parser.c 13971-13983 *)
  ([([ShiftExtra], [T_comment]); ([Shift 331], [T_POUND_POUND]);
    ([Reduce N_arg_list_repeat1 2 0; ShiftRepeat 67], [T_COMMA]);
    ([Reduce N_arg_list_repeat1 2 0], [T_RPAREN; T_RBRACK])],
   [(282, [N_doc_comment; N_arg_list_repeat1])]);
  (* 283: parser.c 13984-13994 *)
  ([([ShiftExtra], [T_comment]); ([Shift 331], [T_POUND_POUND]);
    ([Reduce N_param_list_repeat1 2 0], [T_RPAREN; T_PIPE; T_COMMA])],
   [(283, [N_doc_comment])]);
  (* 284: parser.c 13995-14007 *)
  ([([ShiftExtra], [T_comment]); ([Shift 331], [T_POUND_POUND]); ([Reduce N_param_list 1 0], [T_RPAREN]);
    ([Shift 232], [T_COMMA])],
   [(284, [N_doc_comment]); (292, [N_param_list_repeat1])]);
  (* 285: parser.c 14008-14018 *)
  ([([ShiftExtra], [T_comment]); ([Shift 331], [T_POUND_POUND]);
    ([Reduce N_overloadable_operator 1 0], [T_LBRACE; T_LPAREN; T_DASH_GT])],
   [(285, [N_doc_comment])]);
  (* 286: parser.c 14019-14031 *)
  ([([ShiftExtra], [T_comment]); ([Shift 331], [T_POUND_POUND]); ([Shift 125], [T_RBRACE]); ([Shift 16], [T_COMMA])],
   [(286, [N_doc_comment]); (288, [N_map_repeat1])]);
  (* 287: parser.c 14032-14043 *)
  ([([ShiftExtra], [T_comment]); ([Shift 331], [T_POUND_POUND]); ([Reduce N_param_list_repeat1 2 0], [T_PIPE]);
    ([Reduce N_param_list_repeat1 2 0; ShiftRepeat 238], [T_COMMA])],
   [(287, [N_doc_comment; N_param_list_repeat1])]);
  (* 288: parser.c 14044-14056 *)
  ([([ShiftExtra], [T_comment]); ([Shift 331], [T_POUND_POUND]); ([Shift 129], [T_RBRACE]); ([Shift 19], [T_COMMA])],
   [(288, [N_doc_comment]); (302, [N_map_repeat1])]);
  (* 289: parser.c 14057-14067 *)
  ([([ShiftExtra], [T_comment]); ([Shift 331], [T_POUND_POUND]); ([Reduce N_param 3 23], [T_RPAREN; T_PIPE; T_COMMA])],
   [(289, [N_doc_comment])]);
  (* 290: parser.c 14068-14080 *)
  ([([ShiftExtra], [T_comment]); ([Shift 331], [T_POUND_POUND]); ([Shift 10], [T_LBRACE]); ([Shift 211], [T_DASH_GT])],
   [(79, [N_block]); (290, [N_doc_comment])]);
  (* 291: parser.c 14081-14092 *)
  ([([ShiftExtra], [T_comment]); ([Shift 331], [T_POUND_POUND]); ([Reduce N_param_list_repeat1 2 0], [T_RPAREN]);
    ([Reduce N_param_list_repeat1 2 0; ShiftRepeat 243], [T_COMMA])],
   [(291, [N_doc_comment; N_param_list_repeat1])]);
  (* 292: parser.c 14093-14105 *)
  ([([ShiftExtra], [T_comment]); ([Shift 331], [T_POUND_POUND]); ([Reduce N_param_list 2 0], [T_RPAREN]);
    ([Shift 236], [T_COMMA])],
   [(291, [N_param_list_repeat1]); (292, [N_doc_comment])]);
  (* 293: parser.c 14106-14118 *)
  ([([ShiftExtra], [T_comment]); ([Shift 331], [T_POUND_POUND]); ([Reduce N_param_list 2 0], [T_PIPE]);
    ([Shift 228], [T_COMMA])],
   [(287, [N_param_list_repeat1]); (293, [N_doc_comment])]);
  (* 294: parser.c 14119-14131 *)
  ([([ShiftExtra], [T_comment]); ([Shift 331], [T_POUND_POUND]); ([Shift 139], [T_RBRACK]); ([Shift 36], [T_COMMA])],
   [(282, [N_arg_list_repeat1]); (294, [N_doc_comment])]);
  (* 295: parser.c 14132-14144 *)
  ([([ShiftExtra], [T_comment]); ([Shift 331], [T_POUND_POUND]); ([Shift 221], [T_proto]); ([Shift 222], [T_fn]);
    ([Shift 264], [T_let])],
   [(295, [N_doc_comment])]);
  (* 296: parser.c 14145-14157 *)
  ([([ShiftExtra], [T_comment]); ([Shift 331], [T_POUND_POUND]); ([Reduce N_arg_list 2 0], [T_RPAREN]);
    ([Shift 38], [T_COMMA])],
   [(282, [N_arg_list_repeat1]); (296, [N_doc_comment])]);
  (* 297: parser.c 14158-14170 *)
  ([([ShiftExtra], [T_comment]); ([Shift 331], [T_POUND_POUND]); ([Shift 158], [T_RBRACE]); ([Shift 22], [T_COMMA])],
   [(297, [N_doc_comment]); (305, [N_map_repeat1])]);
  (* 298: parser.c 14171-14182 *)
  ([([ShiftExtra], [T_comment]); ([Shift 331], [T_POUND_POUND]); ([Shift 204], [T_COLON]);
    ([Reduce N_param 1 4], [T_RPAREN; T_COMMA])],
   [(298, [N_doc_comment])]);
  (* 299: parser.c 14183-14195 *)
  ([([ShiftExtra], [T_comment]); ([Shift 331], [T_POUND_POUND]); ([Shift 166], [T_RBRACK]); ([Shift 24], [T_COMMA])],
   [(282, [N_arg_list_repeat1]); (299, [N_doc_comment])]);
  (* 300: parser.c 14196-14208 *)
  ([([ShiftExtra], [T_comment]); ([Shift 331], [T_POUND_POUND]); ([Reduce N_param_list 1 0], [T_PIPE]);
    ([Shift 231], [T_COMMA])],
   [(293, [N_param_list_repeat1]); (300, [N_doc_comment])]);
  (* 301: parser.c 14209-14221 *)
  ([([ShiftExtra], [T_comment]); ([Shift 331], [T_POUND_POUND]); ([Shift 10], [T_LBRACE]); ([Shift 205], [T_DASH_GT])],
   [(105, [N_block]); (301, [N_doc_comment])]);
  (* 302: parser.c 14222-14233 *)
  ([([ShiftExtra], [T_comment]); ([Shift 331], [T_POUND_POUND]); ([Reduce N_map_repeat1 2 0], [T_RBRACE]);
    ([Reduce N_map_repeat1 2 0; ShiftRepeat 30], [T_COMMA])],
   [(302, [N_doc_comment; N_map_repeat1])]);
  (* 303: parser.c 14234-14246 *)
  ([([ShiftExtra], [T_comment]); ([Shift 331], [T_POUND_POUND]); ([Shift 10], [T_LBRACE]); ([Shift 197], [T_DASH_GT])],
   [(91, [N_block]); (303, [N_doc_comment])]);
  (* 304: parser.c 14247-14259 *)
  ([([ShiftExtra], [T_comment]); ([Shift 331], [T_POUND_POUND]); ([Shift 10], [T_LBRACE]); ([Shift 225], [T_LPAREN])],
   [(104, [N_block]); (304, [N_doc_comment])]);
  (* 305: parser.c 14260-14272 *)
  ([([ShiftExtra], [T_comment]); ([Shift 331], [T_POUND_POUND]); ([Shift 164], [T_RBRACE]); ([Shift 20], [T_COMMA])],
   [(302, [N_map_repeat1]); (305, [N_doc_comment])]);
  (* 306: parser.c 14273-14284 *)
  ([([ShiftExtra], [T_comment]); ([Shift 331], [T_POUND_POUND]); ([Shift 199], [T_COLON]);
    ([Reduce N_param 1 4], [T_PIPE; T_COMMA])],
   [(306, [N_doc_comment])]);
  (* 307: parser.c 14285-14297 *)
  ([([ShiftExtra], [T_comment]); ([Shift 331], [T_POUND_POUND]); ([Shift 10], [T_LBRACE]); ([Shift 194], [T_DASH_GT])],
   [(82, [N_block]); (307, [N_doc_comment])]);
  (* 308: parser.c 14298-14308 *)
  ([([ShiftExtra], [T_comment]); ([Shift 331], [T_POUND_POUND]); ([Shift 10], [T_LBRACE])],
   [(103, [N_block]); (308, [N_doc_comment])]);
  (* 309: parser.c 14309-14318 *)
  ([([ShiftExtra], [T_comment]); ([Shift 331], [T_POUND_POUND]); ([Reduce N_map_repeat1 2 0], [T_RBRACE; T_COMMA])],
   [(309, [N_doc_comment])]);
  (* 310: parser.c 14319-14329 *)
  ([([ShiftExtra], [T_comment]); ([Shift 331], [T_POUND_POUND]); ([Shift 10], [T_LBRACE])],
   [(78, [N_block]); (310, [N_doc_comment])]);
  (* 311: parser.c 14330-14340 *)
  ([([ShiftExtra], [T_comment]); ([Shift 331], [T_POUND_POUND]); ([Shift 10], [T_LBRACE])],
   [(102, [N_block]); (311, [N_doc_comment])]);
  (* 312: parser.c 14341-14351 *)
  ([([ShiftExtra], [T_comment]); ([Shift 331], [T_POUND_POUND]); ([Shift 10], [T_LBRACE])],
   [(84, [N_block]); (312, [N_doc_comment])]);
  (* 313: parser.c 14352-14362 *)
  ([([ShiftExtra], [T_comment]); ([Shift 331], [T_POUND_POUND]); ([Shift 10], [T_LBRACE])],
   [(106, [N_block]); (313, [N_doc_comment])]);
  (* 314: parser.c 14363-14373 *)
  ([([ShiftExtra], [T_comment]); ([Shift 331], [T_POUND_POUND]); ([Shift 10], [T_LBRACE])],
   [(99, [N_block]); (314, [N_doc_comment])]);
  (* 315: parser.c 14374-14384 *)
  ([([ShiftExtra], [T_comment]); ([Shift 331], [T_POUND_POUND]); ([Shift 10], [T_LBRACE])],
   [(101, [N_block]); (315, [N_doc_comment])]);
  (* 316: parser.c 14385-14395 *)
  ([([ShiftExtra], [T_comment]); ([Shift 331], [T_POUND_POUND]); ([Shift 10], [T_LBRACE])],
   [(90, [N_block]); (316, [N_doc_comment])]);
  (* 317: parser.c 14396-14404 *)
  ([([ShiftExtra], [T_comment]); ([Shift 331], [T_POUND_POUND]); ([Shift 239], [T_RPAREN])],
   [(317, [N_doc_comment])]);
  (* 318: parser.c 14405-14413 *)
  ([([ShiftExtra], [T_comment]); ([Shift 331], [T_POUND_POUND]); ([Shift 251], [T_RPAREN])],
   [(318, [N_doc_comment])]);
  (* 319: parser.c 14414-14422 *)
  ([([ShiftExtra], [T_comment]); ([Shift 331], [T_POUND_POUND]); ([Shift 39], [T_PIPE])],
   [(319, [N_doc_comment])]);
  (* 320: parser.c 14423-14431 *)
  ([([ShiftExtra], [T_comment]); ([Shift 331], [T_POUND_POUND]); ([Shift 277], [T_GT])],
   [(320, [N_doc_comment])]);
  (* 321: parser.c 14432-14440 *)
  ([([ShiftExtra], [T_comment]); ([Shift 331], [T_POUND_POUND]); ([Shift 276], [T_GT])],
   [(321, [N_doc_comment])]);
  (* 322: parser.c 14441-14449 *)
  ([([ShiftExtra], [T_comment]); ([Shift 331], [T_POUND_POUND]); ([Shift 237], [T_GT])],
   [(322, [N_doc_comment])]);
  (* 323: parser.c 14450-14458 *)
  ([([ShiftExtra], [T_comment]); ([Shift 331], [T_POUND_POUND]); ([Shift 242], [T_GT])],
   [(323, [N_doc_comment])]);
  (* 324: parser.c 14459-14467 *)
  ([([ShiftExtra], [T_comment]); ([Shift 331], [T_POUND_POUND]); ([Shift 167], [T_RPAREN])],
   [(324, [N_doc_comment])]);
  (* 325: parser.c 14468-14476 *)
  ([([ShiftExtra], [T_comment]); ([Shift 331], [T_POUND_POUND]); ([Shift 308], [T_RPAREN])],
   [(325, [N_doc_comment])]);
  (* 326: parser.c 14477-14485 *)
  ([([ShiftExtra], [T_comment]); ([Shift 331], [T_POUND_POUND]); ([Shift 301], [T_RPAREN])],
   [(326, [N_doc_comment])]);
  (* 327: parser.c 14486-14494 *)
  ([([ShiftExtra], [T_comment]); ([Shift 331], [T_POUND_POUND]); ([Accept], [T_end])],
   [(327, [N_doc_comment])]);
  (* 328: parser.c 14495-14503 *)
  ([([ShiftExtra], [T_comment]); ([Shift 331], [T_POUND_POUND]); ([Shift 34], [T_PIPE])],
   [(328, [N_doc_comment])]);
  (* 329: parser.c 14504-14512 *)
  ([([ShiftExtra], [T_comment]); ([Shift 331], [T_POUND_POUND]); ([Shift 131], [T_RPAREN])],
   [(329, [N_doc_comment])]);
  (* 330: parser.c 14513-14521 *)
  ([([ShiftExtra], [T_comment]); ([Shift 331], [T_POUND_POUND]); ([Shift 222], [T_fn])],
   [(330, [N_doc_comment])]);
  (* 331: parser.c 14522-14530 *)
  ([([ShiftExtra], [T_comment]); ([Shift 331], [T_POUND_POUND]); ([Shift 335], [T_doc_comment_content])],
   [(331, [N_doc_comment])]);
  (* 332: parser.c 14531-14539 *)
  ([([ShiftExtra], [T_comment]); ([Shift 331], [T_POUND_POUND]); ([Shift 303], [T_RPAREN])],
   [(332, [N_doc_comment])]);
  (* 333: parser.c 14540-14548 *)
  ([([ShiftExtra], [T_comment]); ([Shift 331], [T_POUND_POUND]); ([Shift 200], [T_COMMA])],
   [(333, [N_doc_comment])]);
  (* 334: parser.c 14549-14557 *)
  ([([ShiftExtra], [T_comment]); ([Shift 331], [T_POUND_POUND]); ([Shift 209], [T_COMMA])],
   [(334, [N_doc_comment])]);
  (* 335: parser.c 14558-14560 *)
  ([([Reduce N_doc_comment 2 0], [T_end])],
   [])
].
