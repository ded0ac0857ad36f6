(** * The state of a Flamingo engine: values, scopes, environments (src/flamingo/{flamingo,val,scope,env,var}.h). *)

From Coq Require Import ZArith Ascii String Lia Bool List DecimalString.
From Verif Require Import Base FlAst.
Import ListNotations.

(** Pointers to values, string buffers, function bodies, scopes and environments are numbers, each in a table of its
    own. A [flamingo_val_t] is never released (val.h 218), nor is an environment or the array of a vector
    or map; a string buffer, a function body and the scope of an instance are. *)
Definition addr := nat.

(** primitive_type_member.h 87-104. *)
Inductive ptm := PtStrLen | PtEndswith | PtStartswith | PtVecLen | PtMap | PtWhere.

(** flamingo.h 58-63 [flamingo_fn_kind_t]. *)
Inductive fkind := KFun | KClass | KExtern | KPtm (p : ptm).

(** flamingo.h 100-131: the [fn] member of a value. The source a function came from is left out (trees carry their text). *)
Record fnval := Fn {
  f_kind : fkind;
  f_params : list bytes;
  f_body : option nat;      (* NULL for prototypes and primitive type members *)
  f_env : option nat;       (* NULL for primitive type members *)
  f_scope : option nat;     (* the static scope of a class *)
}.

(** flamingo.h 75-142: the type-specific part of a value. The arrays of a vector or map are never written once
    the value is made, so they are lists. [size] is the [size] member of a string, which need not
    be the length of its buffer (see [val_copy]). *)
Inductive payload :=
| PNone
| PBool (b : bool)
| PInt (z : Z)
| PStr (buf size : nat)
| PVec (es : list addr)
| PMap (kvs : list (addr * addr))
| PFn (f : fnval)
| PInst (class : addr) (scope : nat) (data : option nat).

(** flamingo.h 45-56 [flamingo_val_kind_t]. *)
Inductive kind := TNone | TBool | TInt | TStr | TVec | TMap | TFn | TInst.
Definition kind_of (p : payload) : kind :=
  match p with
  | PNone => TNone | PBool _ => TBool | PInt _ => TInt | PStr _ _ => TStr
  | PVec _ => TVec | PMap _ => TMap | PFn _ => TFn | PInst _ _ _ => TInst
  end.
Definition kind_eqb (a b : kind) : bool :=
  match a, b with
  | TNone, TNone | TBool, TBool | TInt, TInt | TStr, TStr | TVec, TVec | TMap, TMap | TFn, TFn | TInst, TInst => true
  | _, _ => false
  end.

(** The name of a value (flamingo.h 69-70): none, the key of a variable of scope [i] (freed with the scope, never
    written before), or a copy of its own. *)
Inductive vname := NNone | NKey (i : nat) (x : bytes) | NOwn (x : bytes).

(** flamingo.h 67-143 [flamingo_val_t]. *)
Record cell := Cell {
  c_name : vname;
  c_cnt : Z;                (* size_t *)
  c_owner : option nat;
  c_val : payload;
}.

(** flamingo.h 145-152 [flamingo_var_t]; [None]: the value is NULL. *)
Record var := Var { v_key : bytes; v_static : bool; v_val : option addr }.

(** flamingo.h 154-167 [flamingo_scope_t]; [sc_alive]: not freed. The reference count is never read. *)
Record scope := Scope { sc_vars : list var; sc_owner : option addr; sc_class : bool; sc_alive : bool }.

(** flamingo.h 213 [cur_fn_rv]: a value or the marker 0xC1A55EE. *)
Inductive rvp := RVal (a : addr) | RMark.

(** flamingo.h 179-233 [flamingo_t], with the memory it works on. [prints]: the lines printed. [host]: the state
    of the program the engine is part of. *)
Record st (H : Type) := St {
  cells : list cell;
  bufs : list (option bytes);          (* string buffers, [None] when freed *)
  bodies : list (option fbody);
  scopes : list scope;
  envs : list (list nat);              (* the scopes of each environment, innermost first *)
  cur_env : nat;
  cur_body : option nat;
  cur_rv : option rvp;
  members : list (kind * bytes * addr); (* primitive type members *)
  import_paths : list bytes;
  err : option bytes;                  (* the error message, if one is outstanding *)
  prints : list bytes;
  host : H;
}.
Arguments St {H}. Arguments cells {H}. Arguments bufs {H}. Arguments bodies {H}. Arguments scopes {H}. Arguments envs {H}.
Arguments cur_env {H}. Arguments cur_body {H}. Arguments cur_rv {H}. Arguments members {H}. Arguments import_paths {H}.
Arguments err {H}. Arguments prints {H}. Arguments host {H}.

(** Kinds of undefined behaviour. *)
Inductive ub :=
| UNull                    (* NULL dereferenced *)
| UFreedStr | UFreedBody | UFreedScope
| UDoubleFree
| UOverflow                (* signed overflow, or a double that does not fit *)
| URange                   (* read outside a buffer *)
| UPun                     (* a union member read that was not written *)
| UMark                    (* 0xC1A55EE dereferenced *)
| UWild.                   (* any other invalid pointer *)

(** [Fail]: -1 returned. [Died]: failed assert. *)
Inductive out (H A : Type) :=
| Ret (a : A) (s : st H)
| Fail (s : st H)
| Died
| Undef (u : ub)
| NoFuel.
Arguments Ret {H A}. Arguments Fail {H A}. Arguments Died {H A}. Arguments Undef {H A}. Arguments NoFuel {H A}.

Definition M (H A : Type) := st H -> out H A.
Definition ret {H A} (a : A) : M H A := fun s => Ret a s.
Definition mbind {H A B} (m : M H A) (k : A -> M H B) : M H B := fun s =>
  match m s with
  | Ret a s' => k a s'
  | Fail s' => Fail s'
  | Died => Died
  | Undef u => Undef u
  | NoFuel => NoFuel
  end.
Declare Scope fl_scope.
Delimit Scope fl_scope with fl.
Notation "x <- m ;; k" := (mbind m (fun x => k)) (at level 61, m at next level, right associativity) : fl_scope.
Notation "m ;; k" := (mbind m (fun _ => k)) (at level 61, right associativity) : fl_scope.
Local Open Scope fl_scope.

Definition died {H A} : M H A := fun _ => Died.
Definition undef {H A} (u : ub) : M H A := fun _ => Undef u.
Definition nofuel {H A} : M H A := fun _ => NoFuel.
Definition assert {H} (b : bool) : M H unit := if b then ret tt else died.
Definition gets {H A} (f : st H -> A) : M H A := fun s => Ret (f s) s.

Fixpoint upd {A} (i : nat) (x : A) (l : list A) : list A :=
  match l, i with
  | [], _ => []
  | _ :: t, O => x :: t
  | y :: t, S i => y :: upd i x t
  end.

Section Ops.
Context {H : Type}.
Notation M := (M H).
Notation st := (st H).

Definition set_cells (x : list cell) (s : st) : st :=
  St x (bufs s) (bodies s) (scopes s) (envs s) (cur_env s) (cur_body s) (cur_rv s) (members s) (import_paths s) (err s) (prints s) (host s).
Definition set_bufs (x : list (option bytes)) (s : st) : st :=
  St (cells s) x (bodies s) (scopes s) (envs s) (cur_env s) (cur_body s) (cur_rv s) (members s) (import_paths s) (err s) (prints s) (host s).
Definition set_bodies (x : list (option fbody)) (s : st) : st :=
  St (cells s) (bufs s) x (scopes s) (envs s) (cur_env s) (cur_body s) (cur_rv s) (members s) (import_paths s) (err s) (prints s) (host s).
Definition set_scopes (x : list scope) (s : st) : st :=
  St (cells s) (bufs s) (bodies s) x (envs s) (cur_env s) (cur_body s) (cur_rv s) (members s) (import_paths s) (err s) (prints s) (host s).
Definition set_envs (x : list (list nat)) (s : st) : st :=
  St (cells s) (bufs s) (bodies s) (scopes s) x (cur_env s) (cur_body s) (cur_rv s) (members s) (import_paths s) (err s) (prints s) (host s).
Definition set_env (x : nat) (s : st) : st :=
  St (cells s) (bufs s) (bodies s) (scopes s) (envs s) x (cur_body s) (cur_rv s) (members s) (import_paths s) (err s) (prints s) (host s).
Definition set_body (x : option nat) (s : st) : st :=
  St (cells s) (bufs s) (bodies s) (scopes s) (envs s) (cur_env s) x (cur_rv s) (members s) (import_paths s) (err s) (prints s) (host s).
Definition set_rv (x : option rvp) (s : st) : st :=
  St (cells s) (bufs s) (bodies s) (scopes s) (envs s) (cur_env s) (cur_body s) x (members s) (import_paths s) (err s) (prints s) (host s).
Definition set_err (x : option bytes) (s : st) : st :=
  St (cells s) (bufs s) (bodies s) (scopes s) (envs s) (cur_env s) (cur_body s) (cur_rv s) (members s) (import_paths s) x (prints s) (host s).
Definition set_prints (x : list bytes) (s : st) : st :=
  St (cells s) (bufs s) (bodies s) (scopes s) (envs s) (cur_env s) (cur_body s) (cur_rv s) (members s) (import_paths s) (err s) x (host s).
Definition set_host (x : H) (s : st) : st :=
  St (cells s) (bufs s) (bodies s) (scopes s) (envs s) (cur_env s) (cur_body s) (cur_rv s) (members s) (import_paths s) (err s) (prints s) x.
(** The members of a [flamingo_t] that an imported engine has for itself. *)
Definition set_engine (b : option nat) (r : option rvp) (ms : list (kind * bytes * addr)) (ps : list bytes) (e : option bytes) (s : st) : st :=
  St (cells s) (bufs s) (bodies s) (scopes s) (envs s) (cur_env s) b r ms ps e (prints s) (host s).

Definition modify (f : st -> st) : M unit := fun s => Ret tt (f s).

(** ** Errors *)

(** flamingo.h 189: [char err[256]]. *)
Definition ERR_SIZE : nat := 256.

(** flamingo.c 31-61 [flamingo_raise_error]. [msg]: the caller's message, formatted. *)
Definition raise {A} (progname msg : bytes) : M A := fun s =>
  if Nat.leb ERR_SIZE (length msg) then Died else
  let line := progname ++ lit ":0:0: " ++ msg in
  match err s with
  | None => if Nat.leb ERR_SIZE (length line) then Died else Fail (set_err (Some line) s)
  | Some prev =>
    let more := lit ", " ++ line in
    if Nat.leb ERR_SIZE (length more) then Died
    else Fail (set_err (Some (prev ++ firstn (ERR_SIZE - 1 - length prev) more)) s)
  end.

(** %zu, %d, PRId64 *)
Definition dec (z : Z) : bytes := lit (NilZero.string_of_int (Z.to_int z)).
Definition dec_n (n : nat) : bytes := dec (Z.of_nat n).
(** "'%.*s'" *)
Definition quoted (x : bytes) : bytes := lit "'" ++ cstr x ++ lit "'".

(** ** Values (val.h) *)

Definition get_cell (a : addr) : M cell := fun s =>
  match nth_error (cells s) a with Some c => Ret c s | None => Undef UWild end.
Definition put_cell (a : addr) (c : cell) : M unit := modify (fun s => set_cells (upd a c (cells s)) s).

(** val.h 12-17 [val_incref]. *)
Definition incref (a : addr) : M unit :=
  c <- get_cell a ;;
  assert (0 <? c_cnt c)%Z ;;
  put_cell a (Cell (c_name c) (c_cnt c + 1) (c_owner c) (c_val c)).

(** val.h 84-89 [val_alloc] with 19-33 [val_init], and what the caller then writes to it. *)
Definition alloc (p : payload) : M addr := fun s =>
  Ret (length (cells s)) (set_cells (cells s ++ [Cell NNone 1 None p]) s).

Definition new_buf (b : bytes) : M nat := fun s => Ret (length (bufs s)) (set_bufs (bufs s ++ [Some b]) s).
Definition new_body (b : fbody) : M nat := fun s => Ret (length (bodies s)) (set_bodies (bodies s ++ [Some b]) s).

(** Read [size] bytes of a buffer. *)
Definition read_buf (b size : nat) : M bytes := fun s =>
  match nth_error (bufs s) b with
  | Some (Some c) => if Nat.leb size (length c) then Ret (firstn size c) s else Undef URange
  | Some None => Undef UFreedStr
  | None => Undef UWild
  end.

(** flamingo.c 302-313 [flamingo_val_make_str], grammar/literal.h 79-91. *)
Definition make_str (c : bytes) : M addr := b <- new_buf c ;; alloc (PStr b (length c)).

(** val.h 35-67 [val_type_str]. *)
Definition type_str (p : payload) : bytes :=
  match p with
  | PNone => lit "none"
  | PBool _ => lit "boolean"
  | PInt _ => lit "integer"
  | PStr _ _ => lit "string"
  | PVec _ => lit "vector"
  | PMap _ => lit "map"
  | PFn f =>
    match f_kind f with
    | KExtern => lit "external function"
    | KFun => lit "function"
    | KClass => lit "class"
    | KPtm _ => lit "primitive type member"
    end
  | PInst _ _ _ => lit "instance"
  end.

(** val.h 69-82 [val_role_str]. *)
Definition role_str (p : payload) : bytes :=
  match p with
  | PBool _ | PInt _ | PStr _ _ | PNone | PInst _ _ _ => lit "variable"
  | PFn _ => type_str p
  | PVec _ | PMap _ => lit "unknown"
  end.

(** Read a buffer up to a NUL or [size] bytes, as strndup and "%.*s" do. *)
Definition read_upto (b size : nat) : M bytes := fun s =>
  match nth_error (bufs s) b with
  | Some (Some c) =>
    if Nat.leb size (length c) || has_byte NUL c then Ret (cstr (firstn size c)) s else Undef URange
  | Some None => Undef UFreedStr
  | None => Undef UWild
  end.

(** Read the name of a value. *)
Definition read_name (x : vname) : M bytes := fun s =>
  match x with
  | NNone => Ret [] s
  | NOwn x => Ret x s
  | NKey i x =>
    match nth_error (scopes s) i with
    | Some c => if sc_alive c then Ret x s else Undef UFreedScope
    | None => Undef UWild
    end
  end.

(** val.h 91-123 [val_copy]. strndup stops at a NUL and adds one; the size stays. (Names are source text without NULs.) *)
Definition val_copy (a : addr) : M addr :=
  c <- get_cell a ;;
  x <- match c_name c with NNone => ret NNone | x => t <- read_name x ;; ret (NOwn t) end ;;
  p <- match c_val c with
       | PStr b n => t <- read_upto b n ;; b' <- new_buf (t ++ [NUL]) ;; ret (PStr b' n)
       | p => ret p
       end ;;
  fun s => Ret (length (cells s)) (set_cells (cells s ++ [Cell x 1 (c_owner c) p]) s).

Definition ptm_eqb (a b : ptm) : bool :=
  match a, b with
  | PtStrLen, PtStrLen | PtEndswith, PtEndswith | PtStartswith, PtStartswith
  | PtVecLen, PtVecLen | PtMap, PtMap | PtWhere, PtWhere => true
  | _, _ => false
  end.
Definition fkind_eqb (a b : fkind) : bool :=
  match a, b with
  | KFun, KFun | KClass, KClass | KExtern, KExtern => true
  | KPtm p, KPtm q => ptm_eqb p q
  | _, _ => false
  end.
Definition onat_eqb (a b : option nat) : bool :=
  match a, b with
  | None, None => true
  | Some x, Some y => Nat.eqb x y
  | _, _ => false
  end.

(** memcmp of two [fn] members. Every function value is made with an environment and (unless it is a prototype) a body of its own, so
    these pointers stand for the parameter and source pointers too. *)
Definition fn_eqb (f g : fnval) : bool :=
  fkind_eqb (f_kind f) (f_kind g) && onat_eqb (f_body f) (f_body g) && onat_eqb (f_env f) (f_env g) && onat_eqb (f_scope f) (f_scope g).

Fixpoint all2 {A} (eq : A -> A -> M bool) (xs ys : list A) : M bool :=
  match xs, ys with
  | x :: xs, y :: ys => b <- eq x y ;; if b then all2 eq xs ys else ret false
  | _, _ => ret true
  end.

(** val.h 167-183: the key [k] in [ys]. *)
Fixpoint map_find {A} (eq : A -> A -> M bool) (k v : A) (ys : list (A * A)) : M bool :=
  match ys with
  | [] => ret false
  | (k', v') :: ys => b <- eq k k' ;; if b then eq v v' else map_find eq k v ys
  end.
Fixpoint map_all {A} (eq : A -> A -> M bool) (xs ys : list (A * A)) : M bool :=
  match xs with
  | [] => ret true
  | (k, v) :: xs => b <- map_find eq k v ys ;; if b then map_all eq xs ys else ret false
  end.

(** val.h 125-199 [val_eq]. Values can be cyclic (through assignment to elements), hence the fuel. *)
Fixpoint val_eq (n : nat) (x y : addr) : M bool :=
  match n with
  | O => nofuel
  | S n =>
    cx <- get_cell x ;;
    cy <- get_cell y ;;
    match c_val cx, c_val cy with
    | PNone, PNone => ret true
    | PBool a, PBool b => ret (Bool.eqb a b)
    | PInt a, PInt b => ret (a =? b)%Z
    | PStr b1 n1, PStr b2 n2 =>
      if Nat.eqb n1 n2 then t1 <- read_buf b1 n1 ;; t2 <- read_buf b2 n2 ;; ret (bytes_eqb t1 t2) else ret false
    | PVec xs, PVec ys => if Nat.eqb (length xs) (length ys) then all2 (val_eq n) xs ys else ret false
    | PMap xs, PMap ys => if Nat.eqb (length xs) (length ys) then map_all (val_eq n) xs ys else ret false
    | PFn f, PFn g => ret (fn_eqb f g)
    | PInst c1 s1 d1, PInst c2 s2 d2 => ret (Nat.eqb c1 c2 && Nat.eqb s1 s2 && onat_eqb d1 d2)
    | _, _ => ret false
    end
  end.

(** ** Scopes (scope.h) *)

Definition get_scope (i : nat) : M scope := fun s =>
  match nth_error (scopes s) i with
  | Some c => if sc_alive c then Ret c s else Undef UFreedScope
  | None => Undef UWild
  end.
Definition put_scope (i : nat) (c : scope) : M unit := modify (fun s => set_scopes (upd i c (scopes s)) s).

(** scope.h 13-24 [scope_alloc]. *)
Definition scope_alloc : M nat := fun s =>
  Ret (length (scopes s)) (set_scopes (scopes s ++ [Scope [] None false true]) s).

(** scope.h 55-65 [scope_shallow_find_var]: the position of the variable, and the variable. *)
Fixpoint find_key (x : bytes) (vs : list var) (i : nat) : option (nat * var) :=
  match vs with
  | [] => None
  | v :: vs => if bytes_eqb (v_key v) x then Some (i, v) else find_key x vs (S i)
  end.
Definition find_var (i : nat) (x : bytes) : M (option (nat * var)) :=
  c <- get_scope i ;; ret (find_key x (sc_vars c) 0).

(** scope.h 38-53 [scope_add_var]; [static] is what the caller writes to [is_static] (nothing for parameters,
    whose flag is never read). *)
Definition add_var (i : nat) (x : bytes) (static : bool) : M nat :=
  c <- get_scope i ;;
  put_scope i (Scope (sc_vars c ++ [Var x static None]) (sc_owner c) (sc_class c) true) ;;
  ret (length (sc_vars c)).

(** Write the value of variable [j] of scope [i]. *)
Definition write_var (i j : nat) (a : addr) : M unit :=
  c <- get_scope i ;;
  match nth_error (sc_vars c) j with
  | None => undef UWild
  | Some v => put_scope i (Scope (upd j (Var (v_key v) (v_static v) (Some a)) (sc_vars c)) (sc_owner c) (sc_class c) true)
  end.

(** var.h 8-20 [var_set_val]: the value takes the variable's name. *)
Definition var_set_val (i j : nat) (a : addr) : M unit :=
  c <- get_scope i ;;
  match nth_error (sc_vars c) j with
  | None => undef UWild
  | Some v =>
    write_var i j a ;;
    x <- get_cell a ;; put_cell a (Cell (NKey i (v_key v)) (c_cnt x) (c_owner x) (c_val x))
  end.

Definition set_owner_of (a : addr) (i : nat) : M unit :=
  x <- get_cell a ;; put_cell a (Cell (c_name x) (c_cnt x) (Some i) (c_val x)).

(** ** Environments (env.h) *)

Definition cur_stack : M (list nat) := fun s =>
  match nth_error (envs s) (cur_env s) with Some l => Ret l s | None => Undef UWild end.
Definition set_stack (l : list nat) : M unit := modify (fun s => set_envs (upd (cur_env s) l (envs s)) s).

(** env.h 22-37 [env_close_over]. (The reference counts it increments are never read.) *)
Definition close_over : M nat :=
  l <- cur_stack ;; fun s => Ret (length (envs s)) (set_envs (envs s ++ [l]) s).

(** env.h 47-50 [env_cur_scope]. *)
Definition cur_scope : M nat := l <- cur_stack ;; match l with i :: _ => ret i | [] => died end.

(** env.h 52-57, 59-62 [env_gently_attach_scope], [env_gently_detach_scope]. *)
Definition attach (i : nat) : M unit := l <- cur_stack ;; set_stack (i :: l).
Definition detach : M nat := l <- cur_stack ;; match l with i :: l => set_stack l ;; ret i | [] => died end.

(** env.h 64-72 [env_push_scope]. *)
Definition push_scope : M nat :=
  i <- scope_alloc ;;
  attach i ;;
  l <- cur_stack ;;
  match l with
  | _ :: p :: _ => c <- get_scope p ;; put_scope i (Scope [] None (sc_class c) true) ;; ret i
  | _ => ret i
  end.

(** env.h 79-92 [env_find_var]: scope, position, variable. *)
Fixpoint find_in (l : list nat) (x : bytes) : M (option (nat * nat * var)) :=
  match l with
  | [] => ret None
  | i :: l => r <- find_var i x ;; match r with Some (j, v) => ret (Some (i, j, v)) | None => find_in l x end
  end.
Definition env_find (x : bytes) : M (option (nat * nat * var)) := l <- cur_stack ;; find_in l x.

End Ops.
