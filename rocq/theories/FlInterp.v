(** * The Flamingo interpreter (src/flamingo/call.h, src/flamingo/grammar, src/flamingo/ptm). *)

From Coq Require Import ZArith Ascii String Lia Bool List.
From Verif Require Import Base FlAst FlState.
Import ListNotations.
Local Open Scope fl_scope.

(** What an import finds at a path: the tree of the file, or why it could not be read. *)
Inductive file := NoFile (why : bytes) | File (ss : list stmt).

(** The program around the engine: its name, the callbacks it registers (flamingo.c 218-231), what pow(3) gives and the files there are.
    [cf_pow x y]: pow of the two converted to int64_t, [None] when it does not fit (undefined behaviour).
    [cf_ext], [cf_inst] take the callable or instance and the arguments. Imported files don't change while the script runs. *)
Record conf (H : Type) := Conf {
  cf_prog : bytes;
  cf_pow : Z -> Z -> option Z;
  cf_exists : bytes -> bool;
  cf_file : bytes -> file;
  cf_ext : addr -> list addr -> M H (option addr);
  cf_decl : addr -> M H unit;
  cf_inst : addr -> list addr -> M H unit;
  cf_free : nat -> M H unit;           (* free_data of an instance *)
}.
Arguments cf_prog {H}. Arguments cf_pow {H}. Arguments cf_exists {H}. Arguments cf_file {H}. Arguments cf_ext {H}.
Arguments cf_decl {H}. Arguments cf_inst {H}. Arguments cf_free {H}.

(** Where the value of an expression goes: nowhere ([val == NULL]), to an empty variable of the caller, or to [cur_fn_rv] itself
    (return.h 51). *)
Inductive dest := Discard | Slot | RetSlot.

(** int64_t *)
Definition int64 (z : Z) : bool := (- 2 ^ 63 <=? z)%Z && (z <? 2 ^ 63)%Z.

Section Interp.
Context {H : Type}.
Variable cf : conf H.
Notation M := (M H).

Definition error {A} (msg : bytes) : M A := raise (cf_prog cf) msg.

Fixpoint mapM {A B} (f : A -> M B) (l : list A) : M (list B) :=
  match l with
  | [] => ret []
  | x :: l => y <- f x ;; ys <- mapM f l ;; ret (y :: ys)
  end.
Fixpoint iterM {A} (f : A -> M unit) (l : list A) : M unit :=
  match l with
  | [] => ret tt
  | x :: l => f x ;; iterM f l
  end.

(** ** Releasing values *)

Definition free_buf (b : nat) : M unit := fun s =>
  match nth_error (bufs s) b with
  | Some (Some _) => Ret tt (set_bufs (upd b None (bufs s)) s)
  | Some None => Undef UDoubleFree
  | None => Undef UWild
  end.
Definition free_body (b : nat) : M unit := fun s =>
  match nth_error (bodies s) b with
  | Some (Some _) => Ret tt (set_bodies (upd b None (bodies s)) s)
  | Some None => Undef UDoubleFree
  | None => Undef UWild
  end.

(** scope.h 26-36 [scope_free]. *)
Definition scope_free (dec : addr -> M unit) (i : nat) : M unit :=
  c <- get_scope i ;;
  iterM (fun v => match v_val v with Some a => dec a | None => ret tt end) (sc_vars c) ;;
  c <- get_scope i ;;
  put_scope i (Scope (sc_vars c) (sc_owner c) (sc_class c) false).

(** val.h 201-219 [val_free]. *)
Definition val_free (dec : addr -> M unit) (a : addr) : M unit :=
  c <- get_cell a ;;
  match c_val c with
  | PStr b _ => free_buf b
  | PFn f => match f_body f with Some b => free_body b | None => ret tt end
  | PInst _ i d => scope_free dec i ;; match d with Some d => cf_free cf d | None => ret tt end
  | _ => ret tt
  end.

(** val.h 221-236 [val_decref]. The count is a size_t. *)
Definition down (z : Z) : Z := if (z =? 0)%Z then (2 ^ 64 - 1)%Z else (z - 1)%Z.
Fixpoint decref (n : nat) (a : addr) : M unit :=
  match n with
  | O => nofuel
  | S n =>
    c <- get_cell a ;;
    put_cell a (Cell (c_name c) (down (c_cnt c)) (c_owner c) (c_val c)) ;;
    if (0 <? down (c_cnt c))%Z then ret tt else val_free (decref n) a
  end.

(** ** Operators (grammar/binary_expr.h, grammar/unary_expr.h) *)

(** strncmp(op, l, op_size) == 0, for an operator without NULs. *)
Definition is_op (op : bytes) (l : string) : bool := is_prefix op (lit l).

(** The result of a signed 64-bit operation. *)
Definition int_res (z : Z) : M payload := if int64 z then ret (PInt z) else undef UOverflow.

(** binary_expr.h 13-27 [equality]. *)
Definition equality (n : nat) (op : bytes) (l r : addr) : M (option payload) :=
  if is_op op "==" then b <- val_eq n l r ;; ret (Some (PBool b))
  else if is_op op "!=" then b <- val_eq n l r ;; ret (Some (PBool (negb b)))
  else ret None.

(** binary_expr.h 126-318: the result for two values of the same kind, [None] if no operator matches. [pl]: the left value;
    [l], [r]: both. *)
Definition some_res (m : M payload) : M (option payload) := p <- m ;; ret (Some p).
Definition bin_op (n : nat) (op : bytes) (l r : addr) (pl pr : payload) : M (option payload) :=
  match pl, pr with
  | PInt x, PInt y =>
    if is_op op "+" then some_res (int_res (x + y))
    else if is_op op "-" then some_res (int_res (x - y))
    else if is_op op "*" then some_res (int_res (x * y))
    else if is_op op "/" then
      if (y =? 0)%Z then error (lit "division by zero") else some_res (int_res (Z.quot x y))
    else if is_op op "%" then
      (* INT64_MIN % -1 is undefined because the quotient is *)
      if (y =? 0)%Z then error (lit "modulo by zero")
      else if int64 (Z.quot x y) then ret (Some (PInt (Z.rem x y))) else undef UOverflow
    else if is_op op "**" then
      match cf_pow cf x y with Some z => ret (Some (PInt z)) | None => undef UOverflow end
    else
      e <- equality n op l r ;;
      match e with
      | Some p => ret (Some p)
      | None =>
        if is_op op "<" then ret (Some (PBool (x <? y)%Z))
        else if is_op op "<=" then ret (Some (PBool (x <=? y)%Z))
        else if is_op op ">" then ret (Some (PBool (y <? x)%Z))
        else if is_op op ">=" then ret (Some (PBool (y <=? x)%Z))
        else ret None
      end
  | PBool x, PBool y =>
    if is_op op "&&" then ret (Some (PBool (x && y)))
    else if is_op op "||" then ret (Some (PBool (x || y)))
    else if is_op op "^^" then ret (Some (PBool (xorb x y)))
    else equality n op l r
  | PStr b1 n1, PStr b2 n2 =>
    if is_op op "+" then
      t1 <- read_buf b1 n1 ;; t2 <- read_buf b2 n2 ;;
      b <- new_buf (t1 ++ t2) ;; ret (Some (PStr b (n1 + n2)))
    else equality n op l r
  | PVec xs, PVec ys =>
    if is_op op "+" then zs <- mapM val_copy (xs ++ ys) ;; ret (Some (PVec zs))
    else equality n op l r
  | PMap xs, PMap ys =>
    if is_op op "+" then
      zs <- mapM (fun kv => k <- val_copy (fst kv) ;; v <- val_copy (snd kv) ;; ret (k, v)) (xs ++ ys) ;;
      ret (Some (PMap zs))
    else equality n op l r
  | _, _ => ret None
  end.

(** binary_expr.h 66-325, from the two operands on; [None] if the result is discarded. *)
Definition binary (n : nat) (d : dest) (l : addr) (op : bytes) (r : addr) : M (option addr) :=
  cl <- get_cell l ;;
  cr <- get_cell r ;;
  let kl := kind_of (c_val cl) in
  let kr := kind_of (c_val cr) in
  let same := kind_eqb kl kr in
  let none := kind_eqb kl TNone || kind_eqb kr TNone in
  if negb same && negb none then
    error (lit "operands have incompatible types: " ++ type_str (c_val cl) ++ lit " and " ++ type_str (c_val cr))
  else match d with
  | Discard => ret None
  | _ =>
    p <- (if none then
            if is_op op "==" then ret (PBool same)
            else if is_op op "!=" then ret (PBool (negb same))
            else error (lit "can only check for equality to none value")
          else
            p <- bin_op n op l r (c_val cl) (c_val cr) ;;
            match p with
            | Some p => ret p
            | None => error (lit "unknown operator " ++ quoted op ++ lit " for type " ++ type_str (c_val cl))
            end) ;;
    a <- alloc p ;;
    decref n l ;;
    decref n r ;;
    ret (Some a)
  end.

(** unary_expr.h 44-90, from the operand on. *)
Definition unary (n : nat) (d : dest) (op : bytes) (x : addr) : M (option addr) :=
  match d with
  | Discard => ret None
  | _ =>
    c <- get_cell x ;;
    p <- match c_val c with
         | PInt z => if is_op op "-" then some_res (int_res (- z)) else ret None
         | PBool b => if is_op op "!" then ret (Some (PBool (negb b))) else ret None
         | _ => ret None
         end ;;
    match p with
    | None => error (lit "unknown operator " ++ quoted op ++ lit " for type " ++ type_str (c_val c))
    | Some p => a <- alloc p ;; decref n x ;; ret (Some a)
    end
  end.

(** ** Literals (grammar/literal.h) *)

(** literal.h 59-70: the loop over the bytes of a number. *)
Fixpoint parse_digits (l : bytes) (acc : Z) : M Z :=
  match l with
  | [] => ret acc
  | c :: l =>
    if byte_eqb c "_"%char then parse_digits l acc
    else let v := Z.of_N (N_of_ascii c) in
    if (v <? 48)%Z || (57 <? v)%Z then error (lit "number literals can only contain decimal digits (got '" ++ cstr [c] ++ lit "')")
    else if negb (int64 (acc * 10)) then undef UOverflow
    else if negb (int64 (acc * 10 + (v - 48))) then undef UOverflow
    else parse_digits l (acc * 10 + (v - 48))
  end.

(** literal.h 38-75. A sign is refused by the loop. *)
Definition parse_number (l : bytes) : M Z :=
  match l with
  | [] => died
  | c :: t => assert (negb (byte_eqb c "-"%char && match t with [] => true | _ => false end)) ;; parse_digits l 0
  end.

(** ** Printing (grammar/print.h 13-122 [repr]) *)

Fixpoint join (l : list bytes) : bytes :=
  match l with
  | [] => []
  | [x] => x
  | x :: l => x ++ lit ", " ++ join l
  end.
Definition QUOTE : bytes := [ascii_of_nat 34].
Fixpoint repr (n : nat) (inner : bool) (a : addr) : M bytes :=
  match n with
  | O => nofuel
  | S n =>
    c <- get_cell a ;;
    match c_val c with
    | PNone => ret (lit "<none>")
    | PBool b => ret (if b then lit "true" else lit "false")
    | PInt z => ret (dec z)
    | PStr b k => t <- read_upto b k ;; ret (if inner then QUOTE ++ t ++ QUOTE else t)
    | PVec es => ts <- mapM (repr n true) es ;; ret (lit "[" ++ join ts ++ lit "]")
    | PMap kvs =>
      ts <- mapM (fun kv => k <- repr n true (fst kv) ;; v <- repr n true (snd kv) ;; ret (k ++ lit ": " ++ v)) kvs ;;
      ret (lit "{" ++ join ts ++ lit "}")
    | PFn f =>
      match c_name c with
      | NNone | NKey _ [] | NOwn [] => ret (lit "<anonymous function>")
      | x => t <- read_name x ;; ret (lit "<" ++ type_str (c_val c) ++ lit " " ++ t ++ lit ">")
      end
    | PInst k _ _ => ck <- get_cell k ;; t <- read_name (c_name ck) ;; ret (lit "<instance of " ++ t ++ lit ">")
    end
  end.

(** ** The functions that call each other

    [R] stands for the interpreter with less fuel. *)
Record rec := Rec {
  r_fuel : nat;
  r_eval : dest -> expr -> M (option addr * option addr);
  r_call : addr -> option addr -> dest -> list addr -> M (option addr);
  r_block : list stmt -> M nat;
  r_stmt : stmt -> M unit;
  r_fun : fkind -> bool -> bytes -> list bytes -> list stmt -> M unit;
}.

Section Step.
Variable R : rec.

(** An expression evaluated to an empty variable. ([None] does not happen: every function below that takes [Slot] gives a value
    when it succeeds.) *)
Definition both (e : expr) : M (addr * option addr) :=
  r <- r_eval R Slot e ;; match r with (Some a, x) => ret (a, x) | (None, _) => died end.
Definition value (e : expr) : M addr := r <- both e ;; ret (fst r).

(** Put a value where it is wanted. *)
Definition deliver (d : dest) (a : addr) : M (option addr) :=
  match d with
  | Discard => ret None
  | Slot => ret (Some a)
  | RetSlot => fun s => match cur_rv s with None => Ret None (set_rv (Some (RVal a)) s) | Some _ => Died end
  end.
Definition deliver_opt (d : dest) (a : option addr) : M (option addr) :=
  match a with Some a => deliver d a | None => ret None end.

(** A variable: in a scope, or a primitive type member. *)
Inductive vref := VVar (i j : nat) (v : var) | VMember (i : nat) (x : bytes) (a : addr).

Fixpoint find_member (k : kind) (x : bytes) (l : list (kind * bytes * addr)) (i : nat) : option (nat * addr) :=
  match l with
  | [] => None
  | (k', y, a) :: l => if kind_eqb k' k && bytes_eqb y x then Some (i, a) else find_member k x l (S i)
  end.

(** access.h 11-89 [access_find_var]: the variable and the value accessed. *)
Definition access_find (e : expr) (x : bytes) : M (vref * addr) :=
  a <- value e ;;
  c <- get_cell a ;;
  let in_scope (static : bool) (i : nat) :=
    r <- find_var i x ;;
    match r with
    | None => error ((if static then lit "static " else []) ++ lit "member " ++ quoted x ++ lit " was never declared")
    | Some (j, v) =>
      if negb static && v_static v then error (lit "member " ++ quoted x ++ lit " is static and can't be accessed through an instance")
      else ret (VVar i j v, a)
    end in
  let member :=
    ms <- gets members ;;
    match find_member (kind_of (c_val c)) x ms 0 with
    | Some (i, m) => ret (VMember i x m, a)
    | None => error (lit "primitive type member " ++ quoted x ++ lit " doesn't exist on expression of type " ++ type_str (c_val c))
    end in
  match c_val c with
  | PInst _ i _ => in_scope false i
  | PFn f =>
    match f_kind f with
    | KClass => match f_scope f with Some i => in_scope true i | None => undef UNull end
    | _ => member
    end
  | _ => member
  end.

(** [var->val] *)
Definition vref_val (r : vref) : M addr :=
  match r with
  | VVar _ _ v => match v_val v with Some a => ret a | None => undef UNull end
  | VMember _ _ a => ret a
  end.

(** access.h 91-115 [parse_access]. *)
Definition do_access (d : dest) (e : expr) (x : bytes) : M (option addr * option addr) :=
  ra <- access_find e x ;;
  match d with
  | Discard => ret (None, Some (snd ra))
  | _ => v <- vref_val (fst ra) ;; incref v ;; o <- deliver d v ;; ret (o, Some (snd ra))
  end.

(** identifier.h 10-30 [parse_identifier]. *)
Definition do_ident (d : dest) (x : bytes) : M (option addr) :=
  r <- env_find x ;;
  match r with
  | None => error (lit "could not find identifier: " ++ cstr x)
  | Some (_, _, v) => match v_val v with None => undef UNull | Some a => incref a ;; deliver d a end
  end.

(** lambda.h 12-73 [parse_lambda]. *)
Definition do_lambda (d : dest) (ps : list bytes) (b : fbody) : M (option addr) :=
  env <- close_over ;;
  b <- new_body b ;;
  a <- alloc (PFn (Fn KFun ps (Some b) (Some env) None)) ;;
  deliver d a.

(** map.h 43-53: is [k] one of the keys so far? *)
Fixpoint has_key (k : addr) (keys : list addr) : M bool :=
  match keys with
  | [] => ret false
  | k' :: keys => b <- val_eq (r_fuel R) k' k ;; if b then ret true else has_key k keys
  end.
(** map.h 15-75: the items; [acc] those before. *)
Fixpoint map_items (kvs : list (expr * expr)) (acc : list (addr * addr)) : M (list (addr * addr)) :=
  match kvs with
  | [] => ret acc
  | (ke, ve) :: kvs =>
    k <- value ke ;;
    b <- has_key k (map fst acc) ;;
    if b then error (lit "duplicate key in map")
    else v <- value ve ;; map_items kvs (acc ++ [(k, v)])
  end.

(** index.h 64-98: the element of a vector. *)
Definition vec_index (es : list addr) (i : Z) : M addr :=
  let out := error (lit "index " ++ dec i ++ lit " is out of bounds for vector of size " ++ dec_n (length es)) in
  let n := Z.of_nat (length es) in
  if (0 <=? i)%Z then
    if (n <=? i)%Z then out
    else match nth_error es (Z.to_nat i) with Some a => incref a ;; ret a | None => undef URange end
  else if (i =? - 2 ^ 63)%Z then undef UOverflow
  else if (n <? - i)%Z then out
  else match nth_error es (Z.to_nat (n + i)) with Some a => incref a ;; ret a | None => undef URange end.

(** index.h 100-121: the value of a key. *)
Fixpoint map_index (kvs : list (addr * addr)) (i : addr) : M addr :=
  match kvs with
  | [] => alloc PNone
  | (k, v) :: kvs => b <- val_eq (r_fuel R) k i ;; if b then incref v ;; ret v else map_index kvs i
  end.

(** index.h 11-127 [parse_index]. *)
Definition do_index (d : dest) (e i : expr) : M (option addr) :=
  x <- value e ;;
  c <- get_cell x ;;
  match c_val c with
  | PVec _ =>
    i <- value i ;;
    ci <- get_cell i ;;
    match c_val ci with
    | PInt z =>
      match d with
      | Discard => ret None
      | _ =>
        c <- get_cell x ;;
        match c_val c with PVec es => a <- vec_index es z ;; deliver d a | _ => undef UPun end
      end
    | p => error (lit "can only use integers as indices, got " ++ type_str p)
    end
  | PMap _ =>
    i <- value i ;;
    match d with
    | Discard => ret None
    | _ =>
      c <- get_cell x ;;
      match c_val c with PMap kvs => a <- map_index kvs i ;; deliver d a | _ => undef UPun end
    end
  | p => error (lit "can only index vectors and maps, got " ++ type_str p)
  end.

(** grammar/call.h 13-88 [parse_call]. *)
Definition do_call (d : dest) (f : expr) (args : list expr) : M (option addr) :=
  r <- both f ;;
  c <- get_cell (fst r) ;;
  match c_val c with
  | PFn _ => args <- mapM value args ;; r_call R (fst r) (snd r) d args
  | p => error (lit "callable expression is of type " ++ type_str p ++ lit ", which is not callable")
  end.

Definition plain (m : M (option addr)) : M (option addr * option addr) := o <- m ;; ret (o, None).

(** grammar/expr.h 17-75 [parse_expr]: the value, and the value a member was accessed on. *)
Definition eval_ (d : dest) (e : expr) : M (option addr * option addr) :=
  let unless_discarded (what : string) (m : M (option addr)) :=
    match d with Discard => error (lit "unknown expression type: " ++ lit what) | _ => plain m end in
  match e with
  | ENone => unless_discarded "literal"%string (a <- alloc PNone ;; deliver d a)
  | EBool b => unless_discarded "literal"%string (a <- alloc (PBool b) ;; deliver d a)
  | ENum l => unless_discarded "literal"%string (z <- parse_number l ;; a <- alloc (PInt z) ;; deliver d a)
  | EStr s => unless_discarded "literal"%string (a <- make_str s ;; deliver d a)
  | EId x => unless_discarded "identifier"%string (do_ident d x)
  | ELambda ps b => unless_discarded "lambda"%string (do_lambda d ps b)
  | EVec es =>
    plain (es <- mapM value es ;;
           match d with Discard => ret None | _ => a <- alloc (PVec es) ;; deliver d a end)
  | EMap kvs =>
    plain (kvs <- map_items kvs [] ;;
           match d with Discard => ret None | _ => a <- alloc (PMap kvs) ;; deliver d a end)
  | ECall f args => plain (do_call d f args)
  | EParen e => r_eval R d e
  | EUn op e => plain (x <- value e ;; o <- unary (r_fuel R) d op x ;; deliver_opt d o)
  | EBin l op r => plain (l <- value l ;; r <- value r ;; o <- binary (r_fuel R) d l op r ;; deliver_opt d o)
  | EAccess e x => do_access d e x
  | EIndex e i => plain (do_index d e i)
  | EOther t => error (lit "unknown expression type: " ++ t)
  end.

(** ** Primitive type members (ptm/str.h, ptm/vec.h). They get the arguments and give the value. *)

Definition arg_count_error {A} (name : string) (k : string) (args : list addr) : M A :=
  error (lit "'" ++ lit name ++ lit "' expected " ++ lit k ++ lit ", got " ++ dec_n (length args)).

(** [self] as a string or vector (the asserts on its kind). *)
Definition self_str (self : addr) : M (nat * nat) :=
  c <- get_cell self ;; match c_val c with PStr b n => ret (b, n) | _ => died end.
Definition self_vec (self : addr) : M (list addr) :=
  c <- get_cell self ;; match c_val c with PVec es => ret es | _ => died end.
(** The elements of [self] once its kind has been checked. *)
Definition vec_again (self : addr) : M (list addr) :=
  c <- get_cell self ;; match c_val c with PVec es => ret es | _ => undef UPun end.

(** ptm/str.h 10-19 [str_len]. *)
Definition str_len (self : addr) (args : list addr) : M addr :=
  s <- self_str self ;;
  match args with
  | [] => alloc (PInt (Z.of_nat (snd s)))
  | _ => arg_count_error "str.len" "0 arguments" args
  end.

(** ptm/str.h 21-46 [str_startswith], 48-76 [str_endswith]. *)
Definition str_starts (self : addr) (args : list addr) : M addr :=
  s <- self_str self ;;
  match args with
  | [a] =>
    c <- get_cell a ;;
    match c_val c with
    | PStr b n =>
      if Nat.leb n (snd s) then
        t <- read_buf (fst s) n ;; u <- read_buf b n ;; alloc (PBool (bytes_eqb t u))
      else alloc (PBool false)
    | p => error (lit "'str.startswith' expected 'start' argument to be a string, got a " ++ role_str p)
    end
  | _ => arg_count_error "str.startswith" "1 argument" args
  end.
Definition str_ends (self : addr) (args : list addr) : M addr :=
  s <- self_str self ;;
  match args with
  | [a] =>
    c <- get_cell a ;;
    match c_val c with
    | PStr b n =>
      if Nat.leb n (snd s) then
        t <- read_buf (fst s) (snd s) ;; u <- read_buf b n ;; alloc (PBool (bytes_eqb (skipn (snd s - n) t) u))
      else alloc (PBool false)
    | p => error (lit "'str.endswith' expected 'end' argument to be a string, got a " ++ role_str p)
    end
  | _ => arg_count_error "str.endswith" "1 argument" args
  end.

(** ptm/vec.h 12-21 [vec_len]. *)
Definition vec_len (self : addr) (args : list addr) : M addr :=
  es <- self_vec self ;;
  match args with
  | [] => alloc (PInt (Z.of_nat (length es)))
  | _ => arg_count_error "vec.len" "0 arguments" args
  end.

(** A call from [vec_map] or [vec_where]: no instance, one argument. *)
Definition callback (f : addr) (x : addr) : M addr :=
  r <- r_call R f None Slot [x] ;; match r with Some a => ret a | None => died end.

(** ptm/vec.h 48-60: elements [i] to [i + k - 1] of [self] mapped. *)
Fixpoint map_loop (self f : addr) (i k : nat) : M (list addr) :=
  match k with
  | O => ret []
  | S k =>
    es <- vec_again self ;;
    match nth_error es i with
    | None => undef URange
    | Some x => y <- callback f x ;; ys <- map_loop self f (S i) k ;; ret (y :: ys)
    end
  end.

(** ptm/vec.h 23-64 [vec_map]. *)
Definition vec_map (self : addr) (args : list addr) : M addr :=
  es <- self_vec self ;;
  match args with
  | [f] =>
    c <- get_cell f ;;
    match c_val c with
    | PFn _ => ys <- map_loop self f 0 (length es) ;; alloc (PVec ys)
    | p => error (lit "'vec.map' expected 'fn' argument to be a function, got a " ++ type_str p)
    end
  | _ => arg_count_error "vec.map" "1 argument" args
  end.

(** ptm/vec.h 91-120: the elements of [self] from [i] on, filtered. The count is read again at each turn; [k] is fuel. *)
Fixpoint where_loop (self f : addr) (i k : nat) : M (list addr) :=
  match k with
  | O => nofuel
  | S k =>
    es <- vec_again self ;;
    match nth_error es i with
    | None => ret []
    | Some x =>
      y <- callback f x ;;
      c <- get_cell y ;;
      match c_val c with
      | PBool true => z <- val_copy x ;; zs <- where_loop self f (S i) k ;; ret (z :: zs)
      | PBool false => where_loop self f (S i) k
      | p => val_free (decref (r_fuel R)) y ;; error (lit "'vec.where' expected 'fn' to return a boolean, got a " ++ type_str p)
      end
    end
  end.

(** ptm/vec.h 66-125 [vec_where]. *)
Definition vec_where (self : addr) (args : list addr) : M addr :=
  _ <- self_vec self ;;
  match args with
  | [f] =>
    c <- get_cell f ;;
    match c_val c with
    | PFn _ => ys <- where_loop self f 0 (r_fuel R) ;; alloc (PVec ys)
    | p => error (lit "'vec.where' expected 'fn' argument to be a function, got a " ++ type_str p)
    end
  | _ => arg_count_error "vec.where" "1 argument" args
  end.

Definition call_member (p : ptm) : addr -> list addr -> M addr :=
  match p with
  | PtStrLen => str_len | PtEndswith => str_ends | PtStartswith => str_starts
  | PtVecLen => vec_len | PtMap => vec_map | PtWhere => vec_where
  end.

(** ** Calls (call.h) *)

(** call.h 18-29 [setup_args_no_param], 31-77 [setup_args]. *)
Definition add_arg (i : nat) (x : bytes) (a : addr) : M unit := j <- add_var i x false ;; var_set_val i j a.
Fixpoint add_args (i : nat) (ps : list bytes) (args : list addr) : M unit :=
  match ps, args with
  | p :: ps, a :: args => add_arg i p a ;; add_args i ps args
  | _, _ => ret tt
  end.
Definition setup_args (f : fnval) (args : list addr) : M unit :=
  i <- cur_scope ;;
  match f_kind f with
  | KPtm _ => add_args i (map (fun _ => []) args) args
  | _ =>
    if Nat.eqb (length args) (length (f_params f)) then add_args i (f_params f) args
    else error (lit "callable expected " ++ dec_n (length (f_params f)) ++ lit " arguments, got " ++ dec_n (length args) ++ lit " instead")
  end.

Definition read_body (b : nat) : M fbody := fun s =>
  match nth_error (bodies s) b with
  | Some (Some x) => Ret x s
  | Some None => Undef UFreedBody
  | None => Undef UWild
  end.

(** call.h 122-129, 135-166: the values of the parameters. *)
Definition arg_vals : M (list addr) :=
  i <- cur_scope ;;
  c <- get_scope i ;;
  mapM (fun v => match v_val v with Some a => ret a | None => undef UNull end) (sc_vars c).

Definition no_rv : M unit := fun s => match cur_rv s with None => Ret tt s | Some _ => Died end.

(** What the body leaves: nothing, the scope of a class, or (an expression) its value already delivered. *)
Inductive body_end := BDone | BScope (i : nat) | BExprVal (o : option addr).

(** call.h 122-184: run the body or callback of the callable [fa]. *)
Definition run_body (fa : addr) (f : fnval) (self : option addr) (d : dest) : M body_end :=
  match f_kind f with
  | KExtern =>
    args <- arg_vals ;;
    no_rv ;;
    r <- cf_ext cf fa args ;;
    match r with Some a => modify (set_rv (Some (RVal a))) | None => ret tt end ;; ret BDone
  | KPtm p =>
    args <- arg_vals ;;
    no_rv ;;
    match self with
    | None => undef UNull
    | Some x => a <- call_member p x args ;; modify (set_rv (Some (RVal a))) ;; ret BDone
    end
  | k =>
    match f_body f with
    | None => undef UNull
    | Some b =>
      b <- read_body b ;;
      match b with
      | BExpr e => assert (match k with KFun => true | _ => false end) ;; r <- r_eval R d e ;; ret (BExprVal (fst r))
      | BBlock ss => i <- r_block R ss ;; ret (match k with KClass => BScope i | _ => BDone end)
      end
    end
  end.

(** call.h 192-260: the value of a call, once the body has been left. The marker stands for no value: it is
    dereferenced at once if the call is discarded and by whatever uses its value if not. *)
Definition finish (fa : addr) (b : body_end) (d : dest) (args : list addr) : M (option addr) :=
  match b with
  | BExprVal o => ret o
  | _ =>
    c <- get_cell fa ;;
    match c_val c with
    | PFn f =>
      match f_kind f, d with
      | KClass, Discard => ret None
      | KClass, _ =>
        match b with
        | BScope i =>
          match d with RetSlot => no_rv | _ => ret tt end ;;
          a <- alloc (PInst fa i None) ;;
          o <- deliver d a ;;
          sc <- get_scope i ;;
          put_scope i (Scope (sc_vars sc) (Some a) (sc_class sc) true) ;;
          cf_inst cf a args ;;
          ret o
        | _ => undef UWild
        end
      | _, Discard =>
        rv <- gets cur_rv ;;
        match rv with None => ret tt | Some (RVal a) => decref (r_fuel R) a | Some RMark => undef UMark end ;;
        ret None
      | _, Slot =>
        rv <- gets cur_rv ;;
        match rv with None => a <- alloc PNone ;; ret (Some a) | Some (RVal a) => ret (Some a) | Some RMark => undef UMark end
      | _, RetSlot => died (* cur_fn_rv has been given a value, and is *rv, which must be NULL *)
      end
    | _ => undef UPun
    end
  end.

Definition unless {A} (o : option A) (f : A -> M unit) : M unit := match o with Some x => f x | None => ret tt end.

(** call.h 79-264 [call]. *)
Definition call_ (fa : addr) (acc : option addr) (d : dest) (args : list addr) : M (option addr) :=
  c <- get_cell fa ;;
  match c_val c with
  | PFn f =>
    on <- match acc with
          | None => ret None
          | Some x => cx <- get_cell x ;; ret (match c_val cx with PInst _ i _ => Some i | _ => None end)
          end ;;
    prev_body <- gets cur_body ;;
    prev_env <- gets cur_env ;;
    modify (set_body (f_body f)) ;;
    unless (f_env f) (fun e => modify (set_env e)) ;;
    unless on attach ;;
    i <- push_scope ;;
    sc <- get_scope i ;;
    put_scope i (Scope (sc_vars sc) (sc_owner sc) (match f_kind f with KClass => true | _ => false end) true) ;;
    setup_args f args ;;
    b <- run_body fa f acc d ;;
    detach ;;
    unless on (fun _ => detach ;; ret tt) ;;
    modify (set_body prev_body) ;;
    modify (set_env prev_env) ;;
    o <- finish fa b d args ;;
    modify (set_rv None) ;;
    ret o
  | _ => undef UPun
  end.

(** ** Statements *)

(** grammar/block.h 11-34 [parse_block]: the scope of the block. *)
Definition block_ (ss : list stmt) : M nat := push_scope ;; iterM (r_stmt R) ss ;; detach.

(** grammar/var_decl.h 13-89 [parse_var_decl]. *)
Definition let_ (static : bool) (x : bytes) (e : option expr) : M unit :=
  i <- cur_scope ;;
  r <- find_var i x ;;
  match r with
  | Some (_, v) =>
    match v_val v with
    | None => undef UNull
    | Some a => c <- get_cell a ;; error (role_str (c_val c) ++ lit " " ++ quoted x ++ lit " already declared in this scope")
    end
  | None =>
    j <- add_var i x static ;;
    a <- match e with Some e => value e | None => alloc PNone end ;;
    write_var i j a ;;
    set_owner_of a i
  end.

(** grammar/static.h 39-105: one statement of the body of a class whose static members are looked for. *)
Definition static_member (s : stmt) : M unit :=
  match s with
  | SLet true x e => let_ true x e
  | SFun true x ps ss => r_fun R KFun true x ps ss
  | SClass true x ps ss => r_fun R KClass true x ps ss
  | SProto true x ps => r_fun R KExtern true x ps []
  | _ => ret tt
  end.

(** grammar/function_declaration.h 15-159 [parse_function_declaration], with static.h 39-105 [find_static_members_in_class]. *)
Definition fun_ (k : fkind) (static : bool) (x : bytes) (ps : list bytes) (ss : list stmt) : M unit :=
  i <- cur_scope ;;
  r <- find_var i x ;;
  match r with
  | Some (_, v) =>
    match v_val v with
    | None => undef UNull
    | Some a => c <- get_cell a ;; error (lit "the " ++ role_str (c_val c) ++ lit " " ++ quoted x ++ lit " has already been declared in this scope")
    end
  | None =>
    j <- add_var i x static ;;
    a <- alloc PNone ;;
    var_set_val i j a ;;
    env <- close_over ;;
    b <- match k with KExtern => ret None | _ => b <- new_body (BBlock ss) ;; ret (Some b) end ;;
    match k with
    | KClass =>
      sc <- scope_alloc ;;
      put_scope sc (Scope [] (Some a) false true) ;;
      put_cell a (Cell (NKey i x) 1 (Some i) (PFn (Fn k ps b (Some env) (Some sc)))) ;;
      attach sc ;;
      iterM static_member ss ;;
      detach ;;
      cf_decl cf a
    | _ => put_cell a (Cell (NKey i x) 1 (Some i) (PFn (Fn k ps b (Some env) None)))
    end
  end.

(** grammar/return.h 12-62 [parse_return]. *)
Definition do_return (e : option expr) : M unit :=
  l <- cur_stack ;;
  match l with
  | i :: _ :: _ =>
    sc <- get_scope i ;;
    if sc_class sc then
      match e with
      | Some _ => error (lit "return statement can't take a return value when inside a class scope")
      | None => no_rv ;; modify (set_rv (Some RMark))
      end
    else
      no_rv ;;
      match e with
      | Some e => r_eval R RetSlot e ;; ret tt
      | None => a <- alloc PNone ;; modify (set_rv (Some (RVal a)))
      end
  | _ => error (lit "Return can't be used in top-level scope")
  end.

(** grammar/print.h 124-154 [parse_print]. *)
Definition do_print (e : expr) : M unit :=
  a <- value e ;;
  t <- repr (r_fuel R) false a ;;
  modify (fun s => set_prints (prints s ++ [t]) s) ;;
  decref (r_fuel R) a.

(** grammar/assert.h 11-43 [parse_assert]. *)
Definition do_assert (e : expr) (text : bytes) : M unit :=
  a <- value e ;;
  c <- get_cell a ;;
  match c_val c with
  | PBool true => decref (r_fuel R) a
  | PBool false => error (lit "assertion test " ++ quoted text ++ lit " failed")
  | p => error (lit "expected boolean value for test, got " ++ type_str p)
  end.

(** grammar/assignment.h 34-72: the variable, if the left side is one, and the value it has. *)
Definition target (l : lhs) : M (option vref * addr) :=
  match l with
  | LId x =>
    r <- env_find x ;;
    match r with
    | None => error (quoted x ++ lit " was never declared")
    | Some (i, j, v) => a <- vref_val (VVar i j v) ;; ret (Some (VVar i j v), a)
    end
  | LAccess e x => ra <- access_find e x ;; a <- vref_val (fst ra) ;; ret (Some (fst ra), a)
  | LIndex e i => o <- do_index Slot e i ;; match o with Some a => ret (None, a) | None => died end
  end.

(** [var_set_val] on either kind of variable. *)
Definition set_vref (r : vref) (a : addr) : M unit :=
  match r with
  | VVar i j _ => var_set_val i j a
  | VMember i x _ =>
    modify (fun s => set_engine (cur_body s) (cur_rv s)
      (upd i (match nth_error (members s) i with Some (k, y, _) => (k, y, a) | None => (TNone, x, a) end) (members s))
      (import_paths s) (err s) s) ;;
    c <- get_cell a ;; put_cell a (Cell (NOwn x) (c_cnt c) (c_owner c) (c_val c))
  end.

(** grammar/assignment.h 14-105 [parse_assignment]. *)
Definition do_assign (l : lhs) (text : bytes) (e : expr) : M unit :=
  t <- target l ;;
  c <- get_cell (snd t) ;;
  match fst t, c_val c with
  | Some _, PFn _ => error (lit "cannot assign to " ++ role_str (c_val c) ++ lit " " ++ quoted text)
  | _, _ =>
    rhs <- value e ;;
    match fst t with
    | Some r => decref (r_fuel R) (snd t) ;; set_vref r rhs
    | None => x <- get_cell rhs ;; put_cell (snd t) x
    end ;;
    c' <- get_cell (snd t) ;;
    if negb (kind_eqb (kind_of (c_val c')) (kind_of (c_val c)))
       && negb (kind_eqb (kind_of (c_val c)) TNone) && negb (kind_eqb (kind_of (c_val c')) TNone)
    then error (lit "cannot assign " ++ type_str (c_val c') ++ lit " to " ++ quoted text ++ lit " (" ++ type_str (c_val c) ++ lit ")")
    else ret tt
  end.

(** primitive_type_member.h 87-104 [primitive_type_member_std], for a new engine. *)
Definition std_members : list (kind * string * ptm) :=
  [(TStr, "len", PtStrLen); (TStr, "endswith", PtEndswith); (TStr, "startswith", PtStartswith);
   (TVec, "len", PtVecLen); (TVec, "map", PtMap); (TVec, "where", PtWhere)]%string.
Definition add_member (m : kind * string * ptm) : M (kind * bytes * addr) :=
  let '(k, x, p) := m in
  a <- alloc (PFn (Fn (KPtm p) [] None None None)) ;;
  put_cell a (Cell (NOwn (lit x)) 1 None (PFn (Fn (KPtm p) [] None None None))) ;;
  ret (k, lit x, a).
Definition new_members : M (list (kind * bytes * addr)) := mapM add_member std_members.

(** grammar/import.h 104-156 [parse_import_path], 189-199: the components joined with slashes. *)
Fixpoint slashes (l : list bytes) : bytes :=
  match l with
  | [] => []
  | [x] => x
  | x :: l => x ++ lit "/" ++ slashes l
  end.

(** grammar/import.h 209-226: the first directory of the import path that has the file; the name itself if none has. *)
Fixpoint resolve (dirs : list bytes) (p : bytes) : bytes :=
  match dirs with
  | [] => p
  | d :: dirs => let q := d ++ lit "/" ++ p in if cf_exists cf q then q else resolve dirs p
  end.

(** grammar/import.h 14-102 [import]: run a file with an engine of its own in the environment of this one. *)
Definition import_file (path : bytes) : M unit :=
  match cf_file cf path with
  | NoFile why => error (lit "failed to import '" ++ path ++ lit "': " ++ why)
  | File ss => fun s =>
    let back s' := set_engine (cur_body s) (cur_rv s) (members s) (import_paths s) (err s) s' in
    match (ms <- new_members ;; modify (set_engine None None ms [] None) ;; iterM (r_stmt R) ss) s with
    | Ret _ s' => Ret tt (back s')
    | Fail s' =>
      error (lit "failed to import '" ++ path ++ lit "': flamingo_run: " ++
             match err s' with Some m => m | None => lit "no errors" end) (back s')
    | Died => Died
    | Undef u => Undef u
    | NoFuel => NoFuel
    end
  end.

(** grammar/import.h 158-232 [parse_import]. *)
Definition do_import (relative : bool) (path : list bytes) : M unit :=
  let p := slashes path in
  if has_byte NUL p then error (lit "one of the import path components contains a null byte somehow")
  else
    ps <- gets import_paths ;;
    let p := p ++ lit ".fl" in
    import_file (if relative then p else resolve ps p).

(** grammar/statement.h 43-53: in a function that is returning? (The body is never a statement node itself.) *)
Definition returning : M bool := fun s =>
  match cur_body s, cur_rv s with
  | Some b, Some _ => (read_body b ;; ret true) s
  | _, _ => Ret false s
  end.

(** grammar/statement.h 17-91 [parse_statement]. *)
Definition stmt_ (x : stmt) : M unit :=
  match x with
  | SBlock ss => r_block R ss ;; ret tt
  | SFun static x ps ss => r_fun R KFun static x ps ss
  | SClass static x ps ss => r_fun R KClass static x ps ss
  | _ =>
    b <- returning ;;
    if b then ret tt else
    match x with
    | SPrint e => do_print e
    | SReturn e => do_return e
    | SAssert e text => do_assert e text
    | SLet static x e => let_ static x e
    | SAssign l text e => do_assign l text e
    | SProto static x ps => r_fun R KExtern static x ps []
    | SExpr e => r_eval R Discard e ;; ret tt
    | SImport relative path => do_import relative path
    | _ => ret tt
    end
  end.

End Step.

(** The interpreter with fuel [n]: how deep its functions may nest. *)
Fixpoint interp (n : nat) : rec :=
  match n with
  | O => Rec 0 (fun _ _ => nofuel) (fun _ _ _ _ => nofuel) (fun _ => nofuel) (fun _ => nofuel) (fun _ _ _ _ _ => nofuel)
  | S m => let R := interp m in Rec n (eval_ R) (call_ R) (block_ R) (stmt_ R) (fun_ R)
  end.

(** flamingo.c 63-146 [flamingo_create], 233-241 [flamingo_add_import_path] for each of [paths], 269-276: an engine about to run. *)
Definition blank (paths : list bytes) (h : H) : st H :=
  St [] [] [] [Scope [] None false true] [[0]] 0 None None [] paths None [] h.
Definition create (paths : list bytes) (h : H) : out H unit :=
  (ms <- new_members ;; modify (fun s => set_engine None None ms paths None s)) (blank paths h).

(** flamingo.c 243-255 [parse], 269-283 [flamingo_run]: run a script. *)
Definition exec (n : nat) (ss : list stmt) : M unit := iterM (r_stmt (interp n)) ss.
Definition run (n : nat) (paths : list bytes) (h : H) (ss : list stmt) : out H unit :=
  match create paths h with
  | Ret _ s => exec n ss s
  | o => o
  end.

End Interp.
