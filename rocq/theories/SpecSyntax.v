(** * How Flamingo scripts are written: which tokens a statement or an expression may be, and how they are laid out. *)

From Coq Require Import NArith Arith Ascii String Bool List.
From Verif Require Import Base FlAst FlTables FlParse SpecLex.
Import ListNotations.
Local Open Scope nat_scope.

(** ** Tokens and layout *)

(** A token: its kind, the blanks before it, its text, and whether the line may be broken after it. *)
Record tok := Tok { k_sym : sym; k_blank : bytes; k_text : bytes; k_break : bool }.

(** A line may not be broken after names, literals, closing brackets, "return" and types. *)
Definition breaks (x : sym) : bool :=
  match x with
  | T_identifier_token1 | T_number | T_string | T_true | T_false | T_error | T_none
  | T_any | T_int | T_str | T_bool | T_void | T_vec | T_map
  | T_RBRACE | T_RPAREN | T_RBRACK | T_GT | T_return | T_PLUS_PLUS | T_EQ_EQ_EQ => false
  | _ => true
  end.

(** A keyword or sign. *)
Definition is (x : sym) (k : tok) : Prop := k_sym k = x /\ word x = Some (k_text k) /\ k_break k = breaks x.

(** The "}" that ends a block; after a statement a line may be broken, after a lambda not. *)
Definition closing (brk : bool) (k : tok) : Prop := k_sym k = T_RBRACE /\ k_text k = lit "}" /\ k_break k = brk.

(** A name that is no keyword. *)
Definition name_is (x : bytes) (k : tok) : Prop :=
  k_sym k = T_identifier_token1 /\ k_text k = x /\ k_break k = false /\ is_name x = true /\ forall y, word y <> Some x.

Definition number_is (d : bytes) (k : tok) : Prop :=
  k_sym k = T_number /\ k_text k = d /\ k_break k = false /\ d <> [] /\ forallb digit d = true.

Definition string_is (s : bytes) (k : tok) : Prop :=
  k_sym k = T_string /\ k_text k = [""""%char] ++ s ++ [""""%char] /\ k_break k = false /\ quotable s.

(** The end of a statement: one or more line ends, or a semicolon. *)
Definition end_is (k : tok) : Prop :=
  is T_SEMI k \/
  (k_sym k = T_LF /\ k_text k <> [] /\ forallb (Ascii.eqb LF) (k_text k) = true /\ k_break k = true).

(** A comment: a "#" and the rest of the line, which is not empty and does not start with another "#". *)
Definition comment_is (k : tok) : Prop :=
  exists c s, k_sym k = T_comment /\ k_text k = "#"%char :: c :: s /\ c <> "#"%char /\ forallb inline (c :: s) = true.

Definition comments (ks : list tok) : Prop := Forall comment_is ks.

(** The text of some tokens and what comes after them. *)
Definition written (ks : list tok) (e : bytes) : bytes := flat_map (fun k => k_blank k ++ k_text k) ks ++ e.

(** The same from the start of the first token: the text of a node. *)
Definition source_of (ks : list tok) : bytes :=
  match ks with
  | [] => []
  | k :: ks' => k_text k ++ written ks' []
  end.

(** The byte [c] right after the word [w] would be taken for a part of it or of a longer word. *)
Fixpoint starts (v w : bytes) : bool :=
  match w, v with
  | [], _ => true
  | c :: w', d :: v' => Ascii.eqb c d && starts v' w'
  | _, [] => false
  end.

Definition joins (w : bytes) (c : ascii) : bool :=
  (wordly (last w " "%char) && wordly c) ||
  existsb (fun x => match word x with Some v => starts v (w ++ [c]) | None => false end) all_syms.

Definition apart (k : tok) (r : bytes) : Prop :=
  match r with
  | [] => True
  | c :: _ =>
    match k_sym k with
    | T_identifier_token1 => wordly c = false
    | T_number => digit c = false
    | T_string => True
    | T_LF => c <> LF
    | T_comment => inline c = false
    | _ => joins (k_text k) c = false
    end
  end.

(** Tokens are laid out: with blanks between them wherever they would run into each other, and line breaks only where
    a line may be broken. [far]: it may be broken here. A comment goes to the end of its line and changes nothing about
    whether that line end counts. *)
Definition gap (far : bool) (b : bytes) : Prop := if far then forallb blank b = true else spaces b.

Definition onward (far : bool) (k : tok) : bool := match k_sym k with T_comment => far | _ => k_break k end.

Fixpoint laid (far : bool) (ks : list tok) (e : bytes) : Prop :=
  match ks with
  | [] => gap far e
  | k :: ks' => gap far (k_blank k) /\ apart k (written ks' e) /\ laid (onward far k) ks' e
  end.

(** ** Types, parameters and qualifiers *)

Inductive type_is : list tok -> Prop :=
| type_name x k : name_is x k -> type_is [k]
| type_word x k : In x [T_any; T_int; T_str; T_bool; T_void; T_vec; T_map] -> is x k -> type_is [k]
| type_vec a b ks c : is T_vec a -> is T_LT b -> type_is ks -> is T_GT c -> type_is (a :: b :: ks ++ [c])
| type_map a b ks c ks' d :
    is T_map a -> is T_LT b -> type_is ks -> is T_COMMA c -> type_is ks' -> is T_GT d ->
    type_is (a :: b :: ks ++ c :: ks' ++ [d]).

(** Nothing, or a sign and a type. *)
Inductive typed_is (x : sym) : list tok -> Prop :=
| typed_none : typed_is x []
| typed_some c ks : is x c -> type_is ks -> typed_is x (c :: ks).

Inductive param_is : bytes -> list tok -> Prop :=
| param_some x k ks : name_is x k -> typed_is T_COLON ks -> param_is x (k :: ks).

Inductive more_params : list bytes -> list tok -> Prop :=
| more_params_one c x ks : is T_COMMA c -> param_is x ks -> more_params [x] (c :: ks)
| more_params_next xs ks c x ks' :
    more_params xs ks -> is T_COMMA c -> param_is x ks' -> more_params (xs ++ [x]) (ks ++ c :: ks').

(** One or more things that commas separate; there may be one at the end. *)
Inductive rest_is {A : Type} (more : list A -> list tok -> Prop) : list A -> list tok -> Prop :=
| rest_none : rest_is more [] []
| rest_comma c : is T_COMMA c -> rest_is more [] [c]
| rest_more l ks : more l ks -> rest_is more l ks
| rest_more_comma l ks c : more l ks -> is T_COMMA c -> rest_is more l (ks ++ [c]).

Inductive params_is : list bytes -> list tok -> Prop :=
| params_some x ks xs ks' : param_is x ks -> rest_is more_params xs ks' -> params_is (x :: xs) (ks ++ ks').

(** The parameters of a function, a class or a prototype: they may be left out. *)
Inductive signature_is : list bytes -> list tok -> Prop :=
| signature_none : signature_is [] []
| signature_empty a b : is T_LPAREN a -> is T_RPAREN b -> signature_is [] [a; b]
| signature_some a xs ks b : is T_LPAREN a -> params_is xs ks -> is T_RPAREN b -> signature_is xs (a :: ks ++ [b]).

(** Those of a lambda, between its bars. *)
Inductive lambda_params : list bytes -> list tok -> Prop :=
| lambda_params_none : lambda_params [] []
| lambda_params_some xs ks : params_is xs ks -> lambda_params xs ks.

(** One or more of "static" and "pure". *)
Inductive more_qualifiers : bool -> list tok -> Prop :=
| more_qualifiers_one x k : In x [T_static; T_pure] -> is x k -> more_qualifiers (FlParse.sym_eqb x T_static) [k]
| more_qualifiers_next s ks x k :
    more_qualifiers s ks -> In x [T_static; T_pure] -> is x k ->
    more_qualifiers (s || FlParse.sym_eqb x T_static) (ks ++ [k]).

Inductive qualifiers_is : bool -> list tok -> Prop :=
| qualifiers_none : qualifiers_is false []
| qualifiers_some s ks : more_qualifiers s ks -> qualifiers_is s ks.

Inductive path_is : list bytes -> list tok -> Prop :=
| path_one x k : name_is x k -> path_is [x] [k]
| path_more x k d xs ks : name_is x k -> is T_DOT d -> path_is xs ks -> path_is (x :: xs) (k :: d :: ks).

(** ** Expressions and statements *)

(** How tightly binary operators bind; all of them take what is on their left first. *)
Definition operators (m : nat) : list sym :=
  match m with
  | 1 => [T_PIPE_PIPE; T_CARET_CARET]
  | 2 => [T_and_operator]
  | 3 => [T_EQ_EQ; T_BANG_EQ; T_LT; T_LT_EQ; T_GT; T_GT_EQ]
  | 4 => [T_PLUS; T_DASH]
  | 5 => [T_STAR; T_SLASH; T_PERCENT]
  | 6 => [T_power_operator]
  | _ => []
  end.

(** Comments, where [n] says that there may be some: in vectors and maps, but not in the arguments of a call. *)
Definition notes (n : bool) (cs : list tok) : Prop := comments cs /\ (n = false -> cs = []).

(** [expr_is open m e ks]: the tokens [ks] are the expression [e], whose operators bind at least as tightly as [m]; 7 is
    an expression without operators. [open]: it may end with a unary operator or a lambda and what they apply to, which
    is everything up to the end of the expression. *)
Inductive expr_is : bool -> nat -> expr -> list tok -> Prop :=
| is_none o m k : is T_none k -> expr_is o m ENone [k]
| is_true o m k : is T_true k -> expr_is o m (EBool true) [k]
| is_false o m k : is T_false k -> expr_is o m (EBool false) [k]
| is_number o m d k : number_is d k -> expr_is o m (ENum d) [k]
| is_string o m s k : string_is s k -> expr_is o m (EStr s) [k]
| is_id o m x k : name_is x k -> expr_is o m (EId x) [k]
| is_paren o m a cs e ks b :
    is T_LPAREN a -> comments cs -> expr_is true 1 e ks -> is T_RPAREN b -> expr_is o m (EParen e) (a :: cs ++ ks ++ [b])
| is_vec_empty o m a cs b : is T_LBRACK a -> comments cs -> is T_RBRACK b -> expr_is o m (EVec []) (a :: cs ++ [b])
| is_vec o m a cs es ks b :
    is T_LBRACK a -> comments cs -> list_is true es ks -> is T_RBRACK b -> expr_is o m (EVec es) (a :: cs ++ ks ++ [b])
| is_map_empty o m a cs b : is T_LBRACE a -> comments cs -> is T_RBRACE b -> expr_is o m (EMap []) (a :: cs ++ [b])
| is_map o m a cs kvs ks b :
    is T_LBRACE a -> comments cs -> items_is kvs ks -> is T_RBRACE b -> expr_is o m (EMap kvs) (a :: cs ++ ks ++ [b])
| is_call_empty o m f kf a b :
    expr_is false 7 f kf -> is T_LPAREN a -> is T_RPAREN b -> expr_is o m (ECall f []) (kf ++ [a; b])
| is_call o m f kf a es ks b :
    expr_is false 7 f kf -> is T_LPAREN a -> list_is false es ks -> is T_RPAREN b ->
    expr_is o m (ECall f es) (kf ++ a :: ks ++ [b])
| is_access o m e ke d x k :
    expr_is false 7 e ke -> is T_DOT d -> name_is x k -> expr_is o m (EAccess e x) (ke ++ [d; k])
| is_index o m e ke a cs i ks b :
    expr_is false 7 e ke -> is T_LBRACK a -> comments cs -> expr_is true 1 i ks -> is T_RBRACK b ->
    expr_is o m (EIndex e i) (ke ++ a :: cs ++ ks ++ [b])
| is_binary o m n l kl x k r kr :
    m <= n -> In x (operators n) -> expr_is false n l kl -> is x k -> expr_is o (S n) r kr ->
    expr_is o m (EBin l (k_text k) r) (kl ++ k :: kr)
| is_unary m x k e ks :
    In x [T_DASH; T_BANG] -> is x k -> expr_is true 1 e ks -> expr_is true m (EUn (k_text k) e) (k :: ks)
| is_lambda m a xs ps b cs e ks :
    is T_PIPE a -> lambda_params xs ps -> is T_PIPE b -> comments cs -> expr_is true 1 e ks ->
    expr_is true m (ELambda xs (BExpr e)) (a :: ps ++ b :: cs ++ ks)
| is_lambda_block m a xs ps b cs ss ks :
    is T_PIPE a -> lambda_params xs ps -> is T_PIPE b -> comments cs -> body_is false ss ks ->
    expr_is true m (ELambda xs (BBlock ss)) (a :: ps ++ b :: cs ++ ks)

(** One or more expressions, or pairs, that commas separate. *)
with list_is : bool -> list expr -> list tok -> Prop :=
| list_one n e ks : expr_is true 1 e ks -> list_is n [e] ks
| list_comma n e ks c cs : expr_is true 1 e ks -> is T_COMMA c -> notes n cs -> list_is n [e] (ks ++ c :: cs)
| list_more n e ks es ks' : expr_is true 1 e ks -> more_is n es ks' -> list_is n (e :: es) (ks ++ ks')
| list_more_comma n e ks es ks' c cs :
    expr_is true 1 e ks -> more_is n es ks' -> is T_COMMA c -> notes n cs -> list_is n (e :: es) (ks ++ ks' ++ c :: cs)

with more_is : bool -> list expr -> list tok -> Prop :=
| more_one n c cs e ks : is T_COMMA c -> notes n cs -> expr_is true 1 e ks -> more_is n [e] (c :: cs ++ ks)
| more_next n es ks c cs e ks' :
    more_is n es ks -> is T_COMMA c -> notes n cs -> expr_is true 1 e ks' -> more_is n (es ++ [e]) (ks ++ c :: cs ++ ks')

with item_is : expr * expr -> list tok -> Prop :=
| item_some k kk c cs v kv :
    expr_is true 1 k kk -> is T_COLON c -> comments cs -> expr_is true 1 v kv -> item_is (k, v) (kk ++ c :: cs ++ kv)

with items_is : list (expr * expr) -> list tok -> Prop :=
| items_one i ks : item_is i ks -> items_is [i] ks
| items_comma i ks c cs : item_is i ks -> is T_COMMA c -> comments cs -> items_is [i] (ks ++ c :: cs)
| items_more i ks es ks' : item_is i ks -> more_items es ks' -> items_is (i :: es) (ks ++ ks')
| items_more_comma i ks es ks' c cs :
    item_is i ks -> more_items es ks' -> is T_COMMA c -> comments cs -> items_is (i :: es) (ks ++ ks' ++ c :: cs)

with more_items : list (expr * expr) -> list tok -> Prop :=
| more_items_one c cs i ks : is T_COMMA c -> comments cs -> item_is i ks -> more_items [i] (c :: cs ++ ks)
| more_items_next es ks c cs i ks' :
    more_items es ks -> is T_COMMA c -> comments cs -> item_is i ks' -> more_items (es ++ [i]) (ks ++ c :: cs ++ ks')

(** The statements that need an end. A declaration may not have a qualifier, a type and a value all at once: reading it
    would end the program (grammar/var_decl.h 12). *)
with stmt_is : stmt -> list tok -> Prop :=
| is_expr e ks : expr_is true 1 e ks -> stmt_is (SExpr e) ks
| is_print k e ks : is T_print k -> expr_is true 1 e ks -> stmt_is (SPrint e) (k :: ks)
| is_assert k e ks : is T_assert k -> expr_is true 1 e ks -> stmt_is (SAssert e (source_of ks)) (k :: ks)
| is_return_nothing k : is T_return k -> stmt_is (SReturn None) [k]
| is_return k e ks : is T_return k -> expr_is true 1 e ks -> stmt_is (SReturn (Some e)) (k :: ks)
| is_let q kq k x kx kt o ko :
    qualifiers_is q kq -> is T_let k -> name_is x kx -> typed_is T_COLON kt -> initial_is o ko ->
    kq = [] \/ kt = [] \/ ko = [] ->
    stmt_is (SLet q x o) (kq ++ k :: kx :: kt ++ ko)
| is_assign x kx k e ks :
    name_is x kx -> is T_EQ k -> expr_is true 1 e ks -> stmt_is (SAssign (LId x) x e) (kx :: k :: ks)
| is_assign_access a ka d x kx k e ks :
    expr_is false 7 a ka -> is T_DOT d -> name_is x kx -> is T_EQ k -> expr_is true 1 e ks ->
    stmt_is (SAssign (LAccess a x) (source_of (ka ++ [d; kx])) e) (ka ++ d :: kx :: k :: ks)
| is_assign_index a ka l cs i ki r k e ks :
    expr_is false 7 a ka -> is T_LBRACK l -> comments cs -> expr_is true 1 i ki -> is T_RBRACK r -> is T_EQ k -> expr_is true 1 e ks ->
    stmt_is (SAssign (LIndex a i) (source_of (ka ++ l :: cs ++ ki ++ [r])) e) (ka ++ l :: cs ++ ki ++ r :: k :: ks)
| is_import k xs ks : is T_import k -> path_is xs ks -> stmt_is (SImport false xs) (k :: ks)
| is_import_relative k d xs ks : is T_import k -> is T_DOT d -> path_is xs ks -> stmt_is (SImport true xs) (k :: d :: ks)
| is_proto q kq k x kx xs ks kt :
    qualifiers_is q kq -> is T_proto k -> name_is x kx -> signature_is xs ks -> typed_is T_DASH_GT kt ->
    stmt_is (SProto q x xs) (kq ++ k :: kx :: ks ++ kt)

with initial_is : option expr -> list tok -> Prop :=
| initial_none : initial_is None []
| initial_some k e ks : is T_EQ k -> expr_is true 1 e ks -> initial_is (Some e) (k :: ks)

(** The statements that do not. *)
with closed_is : stmt -> list tok -> Prop :=
| is_block ss ks : body_is true ss ks -> closed_is (SBlock ss) ks
| is_class k x kx xs ks ss kb :
    is T_class k -> name_is x kx -> signature_is xs ks -> block_is ss kb ->
    closed_is (SClass false x xs ss) (k :: kx :: ks ++ kb)
| is_fun q kq k x kx xs ks kt ss kb :
    qualifiers_is q kq -> is T_fn k -> name_is x kx -> signature_is xs ks -> typed_is T_DASH_GT kt -> block_is ss kb ->
    closed_is (SFun q x xs ss) (kq ++ k :: kx :: ks ++ kt ++ kb)

with block_is : list stmt -> list tok -> Prop :=
| block_empty a cs b : is T_LBRACE a -> comments cs -> closing true b -> block_is [] (a :: cs ++ [b])
| block_some ss ks : body_is true ss ks -> block_is ss ks

(** Lines, or one statement without an end, in braces. *)
with body_is : bool -> list stmt -> list tok -> Prop :=
| body_lines brk a cs ss ks cs' b :
    is T_LBRACE a -> comments cs -> lines_is ss ks -> comments cs' -> closing brk b ->
    body_is brk ss (a :: cs ++ ks ++ cs' ++ [b])
| body_one brk a cs s ks b :
    is T_LBRACE a -> comments cs -> stmt_is s ks -> closing brk b -> body_is brk [s] (a :: cs ++ ks ++ [b])

with line_is : stmt -> list tok -> Prop :=
| line_closed s ks : closed_is s ks -> line_is s ks
| line_ended s ks cs k : stmt_is s ks -> comments cs -> end_is k -> line_is s (ks ++ cs ++ [k])

with lines_is : list stmt -> list tok -> Prop :=
| lines_one s ks : line_is s ks -> lines_is [s] ks
| lines_next ss ks cs s ks' : lines_is ss ks -> comments cs -> line_is s ks' -> lines_is (ss ++ [s]) (ks ++ cs ++ ks').

(** A script: nothing, or lines, with comments before and after them. *)
Inductive script_is : list stmt -> list tok -> Prop :=
| script_empty cs : comments cs -> script_is [] cs
| script_lines cs ss ks cs' : comments cs -> lines_is ss ks -> comments cs' -> script_is ss (cs ++ ks ++ cs').
