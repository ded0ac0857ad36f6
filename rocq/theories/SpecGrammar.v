(** * The grammar of Flamingo scripts, as the generated parser has it.

    The grammar from which parser.c was made is not in the repository; this is what its tables amount to. *)

From Coq Require Import NArith Ascii String Bool List.
From Verif Require Import Base FlTables FlParse.
Import ListNotations.

(** A right hand side: one of some symbols, or some symbols that may be left out. *)
Inductive part := One (xs : list sym) | Maybe (xs : list sym).

Fixpoint choices (ps : list part) : list (list sym) :=
  match ps with
  | [] => [[]]
  | One xs :: ps' => flat_map (fun x => map (cons x) (choices ps')) xs
  | Maybe xs :: ps' => choices ps' ++ map (app xs) (choices ps')
  end.

(** The right hand sides of a nonterminal. The symbols with "repeat1" stand for one or more of what they repeat. *)
Definition rules (x : sym) : list (list part) :=
  match x with
  | N_source_file => [[Maybe [N__statement_list]]]
  | N__statement_list =>
    [ [One [N__statement_list]; One [N__statement_list]];
      [One [N__line_insensitive_statement]];
      [One [N_statement]; One [T_LF; T_SEMI; N__line_insensitive_statement]] ]
  | N__line_insensitive_statement => [[One [N_block; N_class_declaration; N_function_declaration]]]
  | N_statement =>
    [[One [N_expression; N_print; N_assert; N_return; N_var_decl; N_assignment; N_import; N_proto]]]
  | N_block => [[One [T_LBRACE]; One [T_RBRACE]];
                [One [T_LBRACE]; One [N__statement_list; N_statement]; One [T_RBRACE]]]
  | N_print => [[One [T_print]; One [N_expression]]]
  | N_assert => [[One [T_assert]; One [N_expression]]]
  | N_return => [[One [T_return]; Maybe [N_expression]]]
  | N_import => [[One [T_import]; Maybe [N_import_relative_dot]; One [N_import_path]]]
  | N_import_path => [[One [N_identifier]; Maybe [T_DOT; N_import_path]]]
  | N_import_relative_dot => [[One [T_DOT]]]
  | N_var_decl => [[Maybe [N_qualifier_list]; One [T_let]; One [N_identifier]; Maybe [T_COLON; N_type]; Maybe [T_EQ; N_expression]]]
  | N_assignment => [[One [N_identifier; N_access; N_index]; One [T_EQ]; One [N_expression]]]
  | N_qualifier => [[One [T_static; T_pure]]]
  | N_qualifier_list => [[One [N_qualifier_list_repeat1]]]
  | N_proto => [ [Maybe [N_qualifier_list]; One [T_proto]; One [N_identifier; N_overloadable_operator]; Maybe [T_DASH_GT; N_type]];
                 [Maybe [N_qualifier_list]; One [T_proto]; One [N_identifier; N_overloadable_operator];
                  One [T_LPAREN]; Maybe [N_param_list]; One [T_RPAREN]; Maybe [T_DASH_GT; N_type]] ]
  | N_function_declaration =>
    [ [Maybe [N_qualifier_list]; One [T_fn]; One [N_identifier; N_overloadable_operator]; Maybe [T_DASH_GT; N_type]; One [N_block]];
      [Maybe [N_qualifier_list]; One [T_fn]; One [N_identifier; N_overloadable_operator];
       One [T_LPAREN]; Maybe [N_param_list]; One [T_RPAREN]; Maybe [T_DASH_GT; N_type]; One [N_block]] ]
  | N_class_declaration => [ [One [T_class]; One [N_identifier]; One [N_block]];
                             [One [T_class]; One [N_identifier]; One [T_LPAREN]; Maybe [N_param_list]; One [T_RPAREN]; One [N_block]] ]
  | N_lambda => [[One [T_PIPE]; Maybe [N_param_list]; One [T_PIPE]; One [N_block; N_expression]]]
  | N_param => [[One [N_identifier]; Maybe [T_COLON; N_type]]]
  | N_param_list => [[One [N_param]; Maybe [N_param_list_repeat1]; Maybe [T_COMMA]]]
  | N_arg_list => [[One [N_expression]; Maybe [N_arg_list_repeat1]; Maybe [T_COMMA]]]
  | N_type => [ [One [N_type_name]]; [One [T_vec]; One [T_LT]; One [N_type]; One [T_GT]];
                [One [T_map]; One [T_LT]; One [N_type]; One [T_COMMA]; One [N_type]; One [T_GT]] ]
  | N_type_name => [[One [N_identifier; T_vec; T_map]]]
  | N_expression =>
    [[One [N_literal; N_identifier; N_parenthesized_expression; N_lambda; N_vec; N_map; N_call; N_access; N_index;
           N_slice; N_unary_expression; N_binary_expression]]]
  | N_parenthesized_expression => [[One [T_LPAREN]; One [N_expression]; One [T_RPAREN]]]
  | N_access => [[One [N_expression]; One [T_DOT]; One [N_identifier]]]
  | N_call => [[One [N_expression]; One [T_LPAREN]; Maybe [N_arg_list]; One [T_RPAREN]]]
  | N_index => [[One [N_expression]; One [T_LBRACK]; One [N_expression]; One [T_RBRACK]]]
  | N_slice => [[One [N_expression]; One [T_LBRACK]; Maybe [N_expression]; One [T_COLON]; Maybe [N_expression]; One [T_RBRACK]]]
  | N_vec => [ [One [T_LBRACK]; One [T_RBRACK]];
               [One [T_LBRACK]; One [N_expression]; Maybe [N_arg_list_repeat1]; Maybe [T_COMMA]; One [T_RBRACK]] ]
  | N_map => [ [One [T_LBRACE]; One [T_RBRACE]];
               [One [T_LBRACE]; One [N_map_item]; Maybe [N_map_repeat1]; Maybe [T_COMMA]; One [T_RBRACE]] ]
  | N_map_item => [[One [N_expression]; One [T_COLON]; One [N_expression]]]
  | N_unary_expression => [[One [N_unary_operator]; One [N_expression]]]
  | N_unary_operator => [[One [T_DASH; T_BANG]]]
  | N_binary_expression =>
    [[One [N_expression];
      One [T_power_operator; N_multiplicative_operator; N_additive_operator; N_comparative_operator; T_and_operator; N_or_operator];
      One [N_expression]]]
  | N_multiplicative_operator => [[One [T_STAR; T_SLASH; T_PERCENT]]]
  | N_additive_operator => [[One [T_PLUS; T_DASH]]]
  | N_comparative_operator => [[One [T_EQ_EQ; T_BANG_EQ; T_LT; T_LT_EQ; T_GT; T_GT_EQ]]]
  | N_or_operator => [[One [T_PIPE_PIPE; T_CARET_CARET]]]
  | N_literal => [[One [T_none; N_bool; T_number; T_string]]]
  | N_bool => [[One [T_true; T_false; T_error]]]
  | N_identifier => [[One [T_identifier_token1; N_primitive_type]]]
  | N_primitive_type => [[One [T_any; T_int; T_str; T_bool; T_void]]]
  | N_overloadable_operator => [[One [T_PLUS_PLUS; T_EQ_EQ_EQ]]]
  | N_doc_comment => [[One [T_POUND_POUND]; One [T_doc_comment_content]]]
  | N_qualifier_list_repeat1 => [[One [N_qualifier]]; [One [N_qualifier_list_repeat1]; One [N_qualifier_list_repeat1]]]
  | N_param_list_repeat1 => [[One [T_COMMA]; One [N_param]]; [One [N_param_list_repeat1]; One [N_param_list_repeat1]]]
  | N_arg_list_repeat1 => [[One [T_COMMA]; One [N_expression]]; [One [N_arg_list_repeat1]; One [N_arg_list_repeat1]]]
  | N_map_repeat1 => [[One [T_COMMA]; One [N_map_item]]; [One [N_map_repeat1]; One [N_map_repeat1]]]
  | _ => []
  end.

Definition grammar (x : sym) : list (list sym) := flat_map choices (rules x).

(** The children that count: all but comments and the end of the text. *)
Definition proper_roots (cs : list tree) : list sym := map root (filter (fun c => negb (extra c)) cs).

(** A tree is built by the rules: the children of every inner node are a right hand side of its symbol; what may stand
    anywhere is a comment, a "##" comment or the end of the text. *)
Fixpoint by_the_rules (t : tree) : Prop :=
  match t with
  | Leaf x _ _ e => e = true -> x = T_comment \/ x = T_end
  | Node x _ cs e =>
    In (proper_roots cs) (grammar x) /\ (e = true -> x = N_doc_comment) /\
    (fix all (l : list tree) : Prop := match l with [] => True | c :: l' => by_the_rules c /\ all l' end) cs
  end.

(** The text of a tree: the blanks before its tokens and the tokens. *)
Fixpoint text (t : tree) : bytes :=
  match t with
  | Leaf _ b x _ => b ++ x
  | Node _ _ cs _ => flat_map text cs
  end.

(** Its tokens are spelled as they should, with only blanks between them. *)
Fixpoint tokens (t : tree) : list (sym * bytes * bytes) :=
  match t with
  | Leaf x b w _ => [(x, b, w)]
  | Node _ _ cs _ => flat_map tokens cs
  end.
