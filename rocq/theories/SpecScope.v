(** * What names in scripts denote, and what declarations, assignments and returns are meant to change. *)

From Coq Require Import ZArith Ascii String Lia Bool List.
From Verif Require Import Base FlAst FlState FlInterp SpecFlamingo SpecScript.
Import ListNotations.

(** ** Names *)

(** The open scopes, innermost first. *)
Definition open {H} (s : st H) (l : list nat) : Prop := nth_error (envs s) (cur_env s) = Some l.

(** Scope [i] is there, with the variables [vs]. *)
Definition vars {H} (s : st H) (i : nat) (vs : list var) : Prop :=
  exists c, nth_error (scopes s) i = Some c /\ sc_alive c = true /\ sc_vars c = vs.

(** Scope [i] does not declare [x]. *)
Definition lacks {H} (s : st H) (x : bytes) (i : nat) : Prop := exists vs, vars s i vs /\ Forall (fun v => v_key v <> x) vs.

(** Scope [i] declares [x], as its [j]-th variable [v]. *)
Definition declares {H} (s : st H) (x : bytes) (i j : nat) (v : var) : Prop :=
  exists before after, vars s i (before ++ v :: after) /\ length before = j /\ v_key v = x /\ Forall (fun w => v_key w <> x) before.

(** [x] denotes the [j]-th variable [v] of scope [i]: the innermost open scope that declares [x]. *)
Definition names {H} (s : st H) (x : bytes) (i j : nat) (v : var) : Prop :=
  exists inner outer, open s (inner ++ i :: outer) /\ Forall (lacks s x) inner /\ declares s x i j v.

(** No open scope declares [x]. *)
Definition unknown {H} (s : st H) (x : bytes) : Prop := exists l, open s l /\ Forall (lacks s x) l.

(** The names scope [i] declares, in order. *)
Definition declares_names {H} (s : st H) (i : nat) (xs : list bytes) : Prop :=
  exists c, nth_error (scopes s) i = Some c /\ map v_key (sc_vars c) = xs.

(** [x] can be used. *)
Definition visible {H} (s : st H) (x : bytes) : Prop := exists l i xs, open s l /\ In i l /\ declares_names s i xs /\ In x xs.

(** The open scopes exist. *)
Definition well_scoped {H} (s : st H) : Prop := exists l, open s l /\ Forall (fun i => i < length (scopes s)) l.

(** The same scopes are open, here and in every function, and the same names can be used. *)
Definition balanced {H} (s s' : st H) : Prop :=
  cur_env s' = cur_env s /\ (forall e l, nth_error (envs s) e = Some l -> nth_error (envs s') e = Some l) /\
  (forall i xs, declares_names s i xs -> declares_names s' i xs) /\
  (well_scoped s -> well_scoped s' /\ forall x, visible s' x <-> visible s x).

(** What messages call a declared value. *)
Definition role (p : payload) : bytes :=
  lit match p with
      | PFn f => match f_kind f with
                 | KExtern => "external function" | KFun => "function" | KClass => "class" | KPtm _ => "primitive type member"
                 end
      | PVec _ | PMap _ => "unknown"
      | _ => "variable"
      end%string.

(** The statements that declare [x] and how they say that it is declared already. *)
Inductive declaration (x : bytes) : stmt -> bytes -> bytes -> Prop :=
| decl_let b e : declaration x (SLet b x e) [] (lit " already declared in this scope")
| decl_fun b ps ss : declaration x (SFun b x ps ss) (lit "the ") (lit " has already been declared in this scope")
| decl_class b ps ss : declaration x (SClass b x ps ss) (lit "the ") (lit " has already been declared in this scope")
| decl_proto b ps : declaration x (SProto b x ps) (lit "the ") (lit " has already been declared in this scope").

(** The state in which scope [i] has one more variable. *)
Definition with_var {H} (i : nat) (v : var) (s : st H) : st H :=
  match nth_error (scopes s) i with
  | Some c => set_scopes (upd i (Scope (sc_vars c ++ [v]) (sc_owner c) (sc_class c) true) (scopes s)) s
  | None => s
  end.

(** Every value is what it was. *)
Definition same_values {H} (s s' : st H) : Prop := map c_val (cells s') = map c_val (cells s) /\ bufs s' = bufs s /\ bodies s' = bodies s.

(** The value a declared variable begins with: that of the expression, or none. *)
Definition initial {H} (cf : conf H) (n : nat) (e : option expr) (s : st H) (a : addr) (s' : st H) : Prop :=
  match e with
  | Some e => evals cf n e s a s'
  | None => a = length (cells s) /\ s' = set_cells (cells s ++ [Cell NNone 1 None PNone]) s
  end.

(** The value at [a] is of the type of [p] at least as far as values have types. *)
Definition payload_at {H} (s : st H) (a : addr) (p : payload) : Prop := exists c, nth_error (cells s) a = Some c /\ c_val c = p.

(** ** Running statements *)

Definition executes {H} (cf : conf H) (n : nat) (x : stmt) (s s' : st H) : Prop := r_stmt (interp cf n) x s = Ret tt s'.
Inductive executes_each {H} (cf : conf H) (n : nat) : list stmt -> st H -> st H -> Prop :=
| each_nil s : executes_each cf n [] s s
| each_cons x xs s s1 s2 : executes cf n x s s1 -> executes_each cf n xs s1 s2 -> executes_each cf n (x :: xs) s s2.

(** ** Types of values *)

Definition same_type (v w : data) : Prop :=
  match v, w with
  | DNone, DNone | DBool _, DBool _ | DInt _, DInt _ | DStr _, DStr _ | DVec _, DVec _ | DMap _, DMap _ | DFn _, DFn _ | DInst _ _ _, DInst _ _ _ => True
  | _, _ => False
  end.

(** ** Returning *)

(** Not a call, in parentheses or not. *)
Fixpoint direct (e : expr) : Prop := match e with ECall _ _ => False | EParen e => direct e | _ => True end.

(** No function or class declarations, not even in blocks. *)
Fixpoint inert (x : stmt) : Prop :=
  match x with
  | SFun _ _ _ _ | SClass _ _ _ _ => False
  | SBlock ss => (fix go (l : list stmt) : Prop := match l with [] => True | x :: l => inert x /\ go l end) ss
  | _ => True
  end.

(** How deep blocks are nested in a statement, twice. *)
Fixpoint nesting (x : stmt) : nat :=
  match x with
  | SBlock ss => 2 + (fix go (l : list stmt) : nat := match l with [] => 0 | x :: l => Nat.max (nesting x) (go l) end) ss
  | _ => 0
  end.

(** The innermost scope is in a function, not in a class, nor is it the outermost scope. *)
Definition in_function {H} (s : st H) : Prop :=
  exists i j l c, open s (i :: j :: l) /\ nth_error (scopes s) i = Some c /\ sc_alive c = true /\ sc_class c = false.

(** The innermost open scope and the body of the current function have not been released. *)
Definition running {H} (s : st H) : Prop :=
  (exists i l vs, open s (i :: l) /\ vars s i vs) /\ exists b x, cur_body s = Some b /\ nth_error (bodies s) b = Some (Some x).

(** The statements of a block begin in [t] if it is come to in [s]: one more scope is open. *)
Definition opened {H} (s t : st H) : Prop :=
  exists i l c, open s (i :: l) /\ nth_error (scopes s) i = Some c /\ sc_alive c = true /\
  t = set_scopes (scopes s ++ [Scope [] None (sc_class c) true]) (set_envs (upd (cur_env s) (length (scopes s) :: i :: l) (envs s)) s).

(** The statements of a block come to in [s] end in [t]; then its scope is not open any more. ([extra] are scopes nothing refers to.) *)
Definition closed {H} (s t s' : st H) : Prop :=
  exists l extra, open s l /\ s' = set_scopes (scopes t ++ extra) (set_envs (upd (cur_env s) l (envs t)) t).

(** [a] is a function with block [ss] for its body, declared where the scopes [l] were open. *)
Definition function {H} (s : st H) (a : addr) (f : fnval) (b : nat) (ss : list stmt) (e : nat) (l : list nat) : Prop :=
  payload_at s a (PFn f) /\ f_kind f = KFun /\ f_body f = Some b /\ nth_error (bodies s) b = Some (Some (BBlock ss)) /\
  f_env f = Some e /\ nth_error (envs s) e = Some l /\ exists i l' vs, l = i :: l' /\ vars s i vs.

(** The state in which the statements of [f] begin, called with [args] in state [s]: a new scope for the parameters and a new one in it for the
    body are open, in what was open where the function was declared. *)
Definition activated {H} (f : fnval) (b e : nat) (l : list nat) (args : list addr) (s t : st H) : Prop :=
  cur_env t = e /\ envs t = upd e (S (length (scopes s)) :: length (scopes s) :: l) (envs s) /\
  scopes t = scopes s ++ [Scope (map (fun pa => Var (fst pa) false (Some (snd pa))) (combine (f_params f) args)) None false true; Scope [] None false true] /\
  cur_body t = Some b /\ cur_rv t = cur_rv s /\
  map c_val (cells t) = map c_val (cells s) /\ map c_cnt (cells t) = map c_cnt (cells s) /\ bufs t = bufs s /\ bodies t = bodies s /\
  members t = members s /\ import_paths t = import_paths s /\ err t = err s /\ prints t = prints s /\ host t = host s.

(** The state after a call from [s] whose body ended in [t]: what the call has done to values, lines and the program around stays, and what was open
    before is open again. *)
Definition resumed {H} (e : nat) (l : list nat) (s t s' : st H) : Prop :=
  exists extra, s' = set_rv None (set_env (cur_env s) (set_body (cur_body s) (set_envs (upd e l (envs t)) (set_scopes (scopes t ++ extra) t)))).
