(** * Syntax trees of Flamingo, the language of build scripts.

    The interpreter of src/flamingo walks tree-sitter nodes. [FlParse.v] models the parser (parser.c, runtime/)
    and [FlRead.v] the way from its trees to these, which have one constructor per node type that the functions of
    src/flamingo/grammar tell apart. Names, operators and literals are the bytes of their nodes. Comments, line breaks,
    type annotations and the field checks that the grammar guarantees are left out. *)

From Coq Require Import ZArith Ascii String Lia Bool List.
From Verif Require Import Base.
Import ListNotations.

(** grammar/expr.h 17-75 [parse_expr] lists the kinds of expressions. *)
Inductive expr :=
| ENone
| EBool (b : bool)
| ENum (digits : bytes)
| EStr (s : bytes)                       (* the quotes removed *)
| EId (x : bytes)
| ELambda (ps : list bytes) (b : fbody)
| EVec (es : list expr)
| EMap (kvs : list (expr * expr))
| ECall (f : expr) (args : list expr)
| EParen (e : expr)
| EUn (op : bytes) (e : expr)
| EBin (l : expr) (op : bytes) (r : expr)
| EAccess (e : expr) (x : bytes)
| EIndex (e i : expr)
| EOther (type : bytes)                  (* any other node of the grammar: slices *)

(** The body of a function: a block or (for lambdas) an expression. *)
with fbody :=
| BBlock (ss : list stmt)
| BExpr (e : expr)

(** grammar/statement.h 17-91 [parse_statement]. [static]: the "static" qualifier. *)
with stmt :=
| SBlock (ss : list stmt)
| SFun (static : bool) (x : bytes) (ps : list bytes) (ss : list stmt)
| SClass (static : bool) (x : bytes) (ps : list bytes) (ss : list stmt)
| SProto (static : bool) (x : bytes) (ps : list bytes)
| SPrint (e : expr)
| SReturn (e : option expr)
| SAssert (e : expr) (text : bytes)          (* [text]: the source of [e] *)
| SLet (static : bool) (x : bytes) (e : option expr)
| SAssign (l : lhs) (text : bytes) (e : expr) (* [text]: the source of [l] *)
| SExpr (e : expr)
| SImport (relative : bool) (path : list bytes)

with lhs :=
| LId (x : bytes)
| LAccess (e : expr) (x : bytes)
| LIndex (e i : expr).
