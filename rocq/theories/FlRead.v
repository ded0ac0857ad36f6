(** * From the tree of a script to its syntax.

    The functions of src/flamingo/grammar walk the nodes that the parser makes; the model of the interpreter
    ([FlInterp.v]) walks the trees of [FlAst.v]. This file relates the two: [script_of] gives the [FlAst] statements that
    stand for a tree of [FlParse.v], looking at the same children, fields and texts as those functions. It gives nothing
    for a tree at which some of them would end the program by an assertion or report an unexpected node (these are noted
    where they are tested), although a run that does not come there would not notice. *)

From Coq Require Import NArith Arith Ascii String Bool List.
From Verif Require Import Base FlAst FlTables FlParse.
Import ListNotations.
Local Open Scope nat_scope.

(** ** The text of a node *)

(** The tokens below a node: the blanks before each and its text. *)
Fixpoint leaves (t : tree) : list (bytes * bytes) :=
  match t with
  | Leaf _ b x _ => [(b, x)]
  | Node _ _ cs _ => flat_map leaves cs
  end.

Definition text_of (l : list (bytes * bytes)) : bytes := flat_map (fun bx => fst bx ++ snd bx) l.

(** runtime/node.c [ts_node_start_byte], [ts_node_end_byte]: from the start of the first token to the end of the last. *)
Definition source (t : tree) : bytes :=
  match leaves t with
  | [] => []
  | (_, x) :: l => x ++ text_of l
  end.

(** ** What a node stands for *)

Inductive value :=
| VNothing                                   (* a token, or a node without a meaning of its own *)
| VHidden (kids : list (tree * value))       (* a hidden node: its children count as those of its parent *)
| VExpr (e : expr)
| VLhs (l : lhs)
| VBoth (e : expr) (l : lhs)                 (* an access or an index: an expression or a place to assign to *)
| VBlock (ss : list stmt)
| VStmt (s : stmt)
| VSkip                                      (* a comment or the end of a statement *)
| VParam (x : bytes)
| VParams (xs : list bytes)
| VArgs (es : list expr)
| VItem (k v : expr)
| VPath (xs : list bytes)
| VStatic (b : bool).

Definition kid := (tree * value)%type.

(** runtime/node.c 60-160 [ts_node_child], [ts_node_child_count]: the children with those of hidden nodes in their place. *)
Definition kids (cs : list kid) : list kid :=
  flat_map (fun c => if visible (root (fst c)) then [c] else match snd c with VHidden l => l | _ => [] end) cs.

Definition named_kids (cs : list kid) : list kid := filter (fun c => named (root (fst c))) (kids cs).

(** runtime/node.c 547-617 [ts_node_child_by_field_id]: a field names a child by its index among those that are not extra.
    The fields that the interpreter asks for are never hidden nodes. *)
Definition field_eqb (f g : field) : bool :=
  match f, g with
  | F_accessed, F_accessed | F_accessor, F_accessor | F_args, F_args | F_bit, F_bit | F_body, F_body
  | F_callable, F_callable | F_expression, F_expression | F_ident, F_ident | F_index, F_index | F_indexed, F_indexed
  | F_initial, F_initial | F_key, F_key | F_left, F_left | F_msg, F_msg | F_name, F_name | F_operand, F_operand
  | F_operator, F_operator | F_params, F_params | F_path, F_path | F_qualifiers, F_qualifiers
  | F_relative, F_relative | F_rest, F_rest | F_ret_type, F_ret_type | F_right, F_right | F_rv, F_rv
  | F_slice_begin, F_slice_begin | F_slice_end, F_slice_end | F_test, F_test | F_type, F_type
  | F_value, F_value => true
  | _, _ => false
  end.

Definition field_of (f : field) (p : N) (cs : list kid) : option kid :=
  match find (fun e => field_eqb f (fst e)) (fields p) with
  | Some (_, i) => nth_error (filter (fun c => negb (extra (fst c))) cs) i
  | None => None
  end.

Definition value_of (o : option kid) : value := match o with Some c => snd c | None => VNothing end.

Definition expr_of (v : value) : option expr :=
  match v with VExpr e | VBoth e _ => Some e | _ => None end.

Definition lhs_of (v : value) : option lhs :=
  match v with VLhs l | VBoth _ l => Some l | _ => None end.

(** A name: the text of an identifier node. *)
Definition name_of (o : option kid) : option bytes :=
  match o with
  | Some c => if sym_eqb (root (fst c)) N_identifier then Some (source (fst c)) else None
  | None => None
  end.

Fixpoint all {A B : Type} (f : A -> option B) (l : list A) : option (list B) :=
  match l with
  | [] => Some []
  | a :: l' =>
    match f a, all f l' with
    | Some b, Some m => Some (b :: m)
    | _, _ => None
    end
  end.

(** grammar/block.h 8-34 [parse_block], flamingo.c 243-257 [parse]: statements, and what [parse_statement]
    (grammar/statement.h 20-28) passes over. *)
Definition stmts_of (l : list kid) : option (list stmt) :=
  option_map (@concat stmt)
    (all (fun c => match snd c with VStmt s => Some [s] | VSkip => Some [] | VBlock ss => Some [SBlock ss] | _ => None end) l).

(** grammar/literal.h 9-99 [parse_literal]: none, bools by their first byte, the digits of numbers, the text between the
    quotes of strings. *)
Definition literal_of (t : tree) : option expr :=
  match root t with
  | T_none => Some ENone
  | N_bool => Some (EBool match source t with c :: _ => Ascii.eqb c "t" | [] => false end)
  | T_number => Some (ENum (source t))
  | T_string => Some (EStr (removelast (tl (source t))))
  | _ => None
  end.

Definition opt_value {A : Type} (o : option kid) (f : value -> option A) : option (option A) :=
  match o with
  | None => Some None
  | Some c => option_map Some (f (snd c))
  end.

Definition params_of (o : option kid) : option (list bytes) :=
  match o with
  | None => Some []
  | Some c => match snd c with VParams xs => Some xs | _ => None end
  end.

Definition static_of (o : option kid) : bool :=
  match value_of o with VStatic b => b | _ => false end.

(** grammar/static.h 9-37 [check_is_static]: "strncmp(qualifier_name, "static", size)". *)
Definition is_static (l : list kid) : bool :=
  existsb (fun c => let q := source (fst c) in bytes_eqb q (firstn (length q) (lit "static"))) l.

Definition to_value {A : Type} (f : A -> value) (o : option A) : value :=
  match o with Some a => f a | None => VNothing end.

(** grammar/function_declaration.h 11-159 [parse_function_declaration]. Its assertion on the number of children holds of
    every number. *)
Definition fun_of (p : N) (cs : list kid) (make : bool -> bytes -> list bytes -> list stmt -> stmt) : value :=
  match name_of (field_of F_name p cs), params_of (field_of F_params p cs), value_of (field_of F_body p cs) with
  | Some x, Some ps, VBlock ss => VStmt (make (static_of (field_of F_qualifiers p cs)) x ps ss)
  | _, _, _ => VNothing
  end.

(** What a node stands for, from its symbol, production and children. *)
Definition build (x : sym) (p : N) (cs : list kid) : value :=
  let field f := field_of f p cs in
  let ex f := expr_of (value_of (field f)) in
  let count := length (kids cs) in
  let named_count := length (named_kids cs) in
  match x with
  | N_block =>                                        (* block.h 8-34 *)
    to_value VBlock (stmts_of (named_kids cs))
  | N_doc_comment => VSkip
  | N_statement =>                                    (* statement.h 48-91; 49 asserts one child *)
    match kids cs with
    | [(t, v)] =>
      match root t with
      | N_expression => to_value (fun e => VStmt (SExpr e)) (expr_of v)
      | _ => match v with VStmt s => VStmt s | _ => VNothing end
      end
    | _ => VNothing
    end
  | N_print =>                                        (* print.h 124-154; 125 asserts two children *)
    if count =? 2 then to_value (fun e => VStmt (SPrint e)) (ex F_msg) else VNothing
  | N_assert =>                                       (* assert.h 10-43; 11 asserts two children *)
    if count =? 2 then
      match field F_test with
      | Some (t, v) => to_value (fun e => VStmt (SAssert e (source t))) (expr_of v)
      | None => VNothing
      end
    else VNothing
  | N_return =>                                       (* return.h 10-62; 11 asserts one or two children *)
    if (count =? 1) || (count =? 2) then
      to_value (fun o => VStmt (SReturn o)) (opt_value (field F_rv) expr_of)
    else VNothing
  | N_var_decl =>                                     (* var_decl.h 10-89; 12 asserts one to three named children *)
    if (1 <=? named_count) && (named_count <=? 3) then
      match name_of (field F_name), opt_value (field F_initial) expr_of with
      | Some y, Some o => VStmt (SLet (static_of (field F_qualifiers)) y o)
      | _, _ => VNothing
      end
    else VNothing
  | N_assignment =>                                   (* assignment.h 14-105; 16 asserts three children *)
    if count =? 3 then
      match field F_left, ex F_right with
      | Some (t, v), Some e =>
        if sym_eqb (root t) N_identifier then VStmt (SAssign (LId (source t)) (source t) e)
        else to_value (fun l => VStmt (SAssign l (source t) e)) (lhs_of v)
      | _, _ => VNothing
      end
    else VNothing
  | N_import =>                                       (* import.h 157-232; 160 asserts two or three children *)
    if (count =? 2) || (count =? 3) then
      match value_of (field F_path) with
      | VPath xs => VStmt (SImport match field F_relative with Some _ => true | None => false end xs)
      | _ => VNothing
      end
    else VNothing
  | N_import_path =>                                  (* import.h 100-155; 102 asserts one or three children *)
    if (count =? 1) || (count =? 3) then
      match name_of (field F_bit), field F_rest with
      | Some y, None => VPath [y]
      | Some y, Some (_, VPath ys) => VPath (y :: ys)
      | _, _ => VNothing
      end
    else VNothing
  | N_function_declaration => fun_of p cs SFun        (* function_declaration.h 11-159 *)
  | N_class_declaration => fun_of p cs SClass
  | N_proto =>
    match name_of (field F_name), params_of (field F_params) with
    | Some y, Some ps => VStmt (SProto (static_of (field F_qualifiers)) y ps)
    | _, _ => VNothing
    end
  | N_qualifier_list => VStatic (is_static (kids cs))
  | N_param_list =>                                   (* params.h 6-21 reports other named children; call.h 44-57 *)
    to_value VParams (all (fun c => match snd c with VParam y => Some y | _ => None end) (named_kids cs))
  | N_param => to_value VParam (name_of (field F_ident))
  | N_expression =>                                   (* expr.h 17-75; 19 asserts one child *)
    match kids cs with
    | [(t, v)] =>
      match root t with
      | N_literal => to_value VExpr (expr_of v)
      | N_identifier =>                               (* identifier.h 8-30; 10 asserts that it has no children *)
        match v with VHidden [] => VExpr (EId (source t)) | _ => VNothing end
      | N_parenthesized_expression | N_lambda | N_vec | N_map | N_call | N_unary_expression | N_binary_expression
      | N_access | N_index => to_value VExpr (expr_of v)
      | y => VExpr (EOther (name y))                  (* expr.h 74 *)
      end
    | _ => VNothing
    end
  | N_identifier => VHidden (kids cs)
  | N_literal =>                                      (* literal.h 11 asserts one child *)
    match kids cs with
    | [(t, _)] => to_value VExpr (literal_of t)
    | _ => VNothing
    end
  | N_lambda =>                                       (* lambda.h 9-73 *)
    match params_of (field F_params), field F_body with
    | Some ps, Some (_, VBlock ss) => VExpr (ELambda ps (BBlock ss))
    | Some ps, Some (_, v) => to_value (fun e => VExpr (ELambda ps (BExpr e))) (expr_of v)
    | _, _ => VNothing
    end
  | N_vec =>                                          (* vec.h 16-33 passes over children that are not expressions *)
    to_value (fun es => VExpr (EVec es))
      (all (fun c => expr_of (snd c)) (filter (fun c => sym_eqb (root (fst c)) N_expression) (kids cs)))
  | N_map =>                                          (* map.h 17-40 passes over children that are not items *)
    to_value (fun kvs => VExpr (EMap kvs))
      (all (fun c => match snd c with VItem k v => Some (k, v) | _ => None end)
         (filter (fun c => sym_eqb (root (fst c)) N_map_item) (kids cs)))
  | N_map_item =>
    match ex F_key, ex F_value with
    | Some k, Some v => VItem k v
    | _, _ => VNothing
    end
  | N_call =>                                         (* grammar/call.h 10-88; 12 asserts three or four children *)
    if (count =? 3) || (count =? 4) then
      match ex F_callable, field F_args with
      | Some f, None => VExpr (ECall f [])
      | Some f, Some (_, VArgs es) => VExpr (ECall f es)
      | _, _ => VNothing
      end
    else VNothing
  | N_arg_list =>                                     (* grammar/call.h 55-61 reports other named children *)
    to_value VArgs
      (all (fun c => if sym_eqb (root (fst c)) N_expression then expr_of (snd c) else None) (named_kids cs))
  | N_parenthesized_expression => to_value (fun e => VExpr (EParen e)) (ex F_expression)
  | N_unary_expression =>                             (* unary_expr.h 13-90; 15 asserts two named children *)
    if named_count =? 2 then
      match field F_operator, ex F_operand with
      | Some (o, _), Some e => VExpr (EUn (source o) e)
      | _, _ => VNothing
      end
    else VNothing
  | N_binary_expression =>                            (* binary_expr.h 29-325; 31 asserts three named children *)
    if named_count =? 3 then
      match ex F_left, field F_operator, ex F_right with
      | Some l, Some (o, _), Some r => VExpr (EBin l (source o) r)
      | _, _, _ => VNothing
      end
    else VNothing
  | N_access =>                                       (* access.h 13-115; 15 asserts two named children *)
    if named_count =? 2 then
      match ex F_accessed, name_of (field F_accessor) with
      | Some e, Some y => VBoth (EAccess e y) (LAccess e y)
      | _, _ => VNothing
      end
    else VNothing
  | N_index =>                                        (* index.h 11-127 *)
    match ex F_indexed, ex F_index with
    | Some e, Some i => VBoth (EIndex e i) (LIndex e i)
    | _, _ => VNothing
    end
  | _ => if visible x then VNothing else VHidden (kids cs)
  end.

Fixpoint value_at (t : tree) : value :=
  match t with
  | Leaf x _ _ _ =>
    match x with
    | T_LF | T_SEMI | T_comment => VSkip               (* statement.h 24, 28 *)
    | _ => VNothing
    end
  | Node x p cs _ => build x p (map (fun c => (c, value_at c)) cs)
  end.

(** flamingo.c 243-257 [parse] runs every child of the root. *)
Definition script_of (t : tree) : option (list stmt) :=
  match t with
  | Node _ _ cs _ => stmts_of (kids (map (fun c => (c, value_at c)) cs))
  | Leaf _ _ _ _ => None
  end.

(** The script that a text is, if it is one. *)
Definition script_in (t : bytes) : option (list stmt) :=
  match parse t with Parsed r => script_of r | _ => None end.
