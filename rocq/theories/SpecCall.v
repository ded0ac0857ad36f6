(** * What calls in scripts are meant to do. *)

From Coq Require Import ZArith Ascii String Lia Bool List.
From Verif Require Import Base FlAst FlState FlInterp SpecFlamingo SpecScript SpecScope SpecImport.
Import ListNotations.

(** The value at [fa] is a function, class or function without a body, with environment [e], in which the scopes [l] are open. *)
Definition callable {H} (s : st H) (fa : addr) (f : fnval) (e : nat) (l : list nat) : Prop :=
  payload_at s fa (PFn f) /\ (forall m, f_kind f <> KPtm m) /\ f_env f = Some e /\ nth_error (envs s) e = Some l.

(** [l'] are the scopes around the parameters if scopes [l] are open where the function was declared and it is called as a member of [acc]: if that is an instance,
    the names it declares can be used, too. *)
Inductive around {H} (s : st H) (l : list nat) : option addr -> list nat -> Prop :=
| around_none : around s l None l
| around_inst x k i d : payload_at s x (PInst k i d) -> around s l (Some x) (i :: l)
| around_other x p : payload_at s x p -> (forall k i d, p <> PInst k i d) -> around s l (Some x) l.

(** The innermost of the scopes [l] is there. *)
Definition usable_in {H} (s : st H) (l : list nat) : Prop := exists p l' vs, l = p :: l' /\ vars s p vs.

(** The body of [f], called in [s] with [args] and the scopes [l] around, begins in [t]: a new scope, with the parameters, is open. *)
Definition enters {H} (f : fnval) (e : nat) (l : list nat) (args : list addr) (s t : st H) : Prop :=
  cur_env t = e /\ envs t = upd e (length (scopes s) :: l) (envs s) /\
  scopes t = scopes s ++ [Scope (map (fun pa => Var (fst pa) false (Some (snd pa))) (combine (f_params f) args)) None (match f_kind f with KClass => true | _ => false end) true] /\
  cur_body t = f_body f /\ cur_rv t = cur_rv s /\
  map c_val (cells t) = map c_val (cells s) /\ map c_cnt (cells t) = map c_cnt (cells s) /\ bufs t = bufs s /\ bodies t = bodies s /\
  members t = members s /\ import_paths t = import_paths s /\ err t = err s /\ prints t = prints s /\ host t = host s.

(** The built-in member of a string or vector called in [s] with [args] begins in [t]: there is one more scope, in those that are open. *)
Definition enters_member {H} (args : list addr) (s t : st H) : Prop :=
  exists l c, open s l /\ t = set_scopes (scopes s ++ [c]) (set_envs (upd (cur_env s) (length (scopes s) :: l) (envs s)) (set_cells (cells t) s)) /\
  map v_val (sc_vars c) = map Some args.

(** What is left of a call from [s] whose body ended in [t]: the scopes open in the function and in the caller are again those that were. *)
Definition comes_back {H} (e : nat) (l : list nat) (s t : st H) : st H :=
  set_rv None (set_env (cur_env s) (set_body (cur_body s) (set_envs (upd e l (envs t)) t))).

(** What comes of a call if this comes of its body, an expression. *)
Definition expression_ends {H} (back : st H -> st H) (o : out H (option addr * option addr)) : out H (option addr * option addr) :=
  match o with Ret (a, _) t => Ret (a, None) (back t) | o => o end.

(** What comes of a call if this comes of its body, a block: the value returned, or none. *)
Definition block_ends {H} (back : st H -> st H) (o : out H unit) : out H (option addr * option addr) :=
  match o with
  | Ret _ t =>
    match cur_rv t with
    | Some (RVal a) => Ret (Some a, None) (back t)
    | Some RMark => Undef UMark
    | None => Ret (Some (length (cells t)), None) (back (set_cells (cells t ++ [Cell NNone 1 None PNone]) t))
    end
  | Fail t => Fail t
  | Died => Died
  | Undef u => Undef u
  | NoFuel => NoFuel
  end.

(** [x] denotes the [j]-th variable [v] of scope [i], if the scopes [l] are open. *)
Definition names_in {H} (s : st H) (l : list nat) (x : bytes) (i j : nat) (v : var) : Prop :=
  exists inner outer, l = inner ++ i :: outer /\ Forall (lacks s x) inner /\ declares s x i j v.

(** From [s] to [t] evaluation goes on, without being in a function with environment [e] at the end, unless it was at the beginning: expressions are evaluated, statements
    executed, blocks entered, variables declared, files imported and other functions called, but not all need be left again. *)
Inductive later {H} (cf : conf H) (e : nat) (s : st H) : st H -> Prop :=
| later_now : later cf e s s
| later_value n x t a u : later cf e s t -> evals cf n x t a u -> later cf e s u
| later_statement n x t u i l : later cf e s t -> open t (i :: l) -> executes cf n x t u -> later cf e s u
| later_declared i v t : later cf e s t -> later cf e s (with_var i v t)
| later_block t u : later cf e s t -> cur_env t <> e -> opened t u -> later cf e s u
| later_call f e' l args t u : later cf e s t -> e' <> e -> enters f e' l args t u -> later cf e s u
| later_member args t u : later cf e s t -> cur_env t <> e -> enters_member args t u -> later cf e s u
| later_import t u : later cf e s t -> entered t u -> later cf e s u.

(** A function has been declared between [s0] and [s1]. Whenever it is called later, other than from itself, a name that isn't a parameter denotes what it denotes in the scopes
    that were open in [s0], whatever is open at the call. *)
Definition sees {H} (cf : conf H) (s0 s1 : st H) : Prop := forall s, later cf (length (envs s0)) s1 s -> exists l, open s0 l /\
  forall fa f l' args t y i j v, callable s fa f (length (envs s0)) l' -> enters f (length (envs s0)) l' args s t -> ~ In y (f_params f) -> (names t y i j v <-> names_in s l y i j v).
