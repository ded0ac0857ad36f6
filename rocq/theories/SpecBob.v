(** * What the functions Bob gives to scripts are meant to do. *)

From Coq Require Import ZArith Ascii String Lia Bool List.
From Verif Require Import Base Hash Cookie FlAst FlState FlInterp SpecFlamingo SpecScript SpecScope SpecImport SpecPlan Bob.
Import ListNotations.

(** The user has been shown a message. *)
Definition logged (h : bob) : Prop := b_log h <> [].

(** ** Operations *)

(** The operations that ask for something to be built. *)
Inductive operation := Compiling | Linking (k : link_kind).
Definition op_name (o : operation) : bytes :=
  lit match o with Compiling => "compile" | Linking Link => "link" | Linking Archive => "archive" end%string.
Definition op_class (o : operation) : bclass := match o with Compiling => CCc | Linking _ => CLinker end.
(** What is asked for when [o] is called with the vector [v], on the instance with data [d], and gives [r]. *)
Definition op_asks (o : operation) (d : option nat) (v r : addr) : asked :=
  match o with Compiling => ACompile d v r | Linking k => ALink k d v r end.

(** ** Callables *)

(** The value at [a] goes by the name [x]. *)
Definition has_name (s : st bob) (a : addr) (x : bytes) : Prop :=
  exists c, nth_error (cells s) a = Some c /\
  match c_name c with
  | NNone => x = []
  | NOwn y => y = x
  | NKey i y => y = x /\ exists sc, nth_error (scopes s) i = Some sc /\ sc_alive sc = true
  end.

(** The value at [a] was declared in scope [i]. *)
Definition declared_in (s : st bob) (a : addr) (i : nat) : Prop := exists c, nth_error (cells s) a = Some c /\ c_owner c = Some i.

(** Scope [i] is that of the value at [o]. *)
Definition scope_of (s : st bob) (i : nat) (o : addr) : Prop :=
  exists c, nth_error (scopes s) i = Some c /\ sc_alive c = true /\ sc_owner c = Some o.

(** The value at [a] was declared in the instance (or class) at [o]. *)
Definition belongs (s : st bob) (a o : addr) : Prop := exists i, declared_in s a i /\ scope_of s i o.

(** The value at [i] is an instance of the class at [k], with data [d]. *)
Definition instance (s : st bob) (i k : addr) (d : option nat) : Prop := exists sc, payload_at s i (PInst k sc d).

(** The class at [a] is the one Bob knows as [k]. *)
Definition known_as (s : st bob) (k : bclass) (a : addr) : Prop := class_val (host s) k = Some a.

(** The flags of the instance with data [d] are the vector at [a]. *)
Definition flags_of (s : st bob) (d : nat) (a : addr) : Prop := nth_error (b_states (host s)) d = Some (Some a).

(** Between [s] and [s'], the program has been asked for [l] and nothing else; nothing about its classes and instances has changed. *)
Definition asked_for (l : list asked) (s s' : st bob) : Prop :=
  b_asked (host s') = b_asked (host s) ++ l /\ b_fs (host s') = b_fs (host s) /\ b_cc (host s') = b_cc (host s) /\ b_linker (host s') = b_linker (host s) /\
  b_list (host s') = b_list (host s) /\ b_states (host s') = b_states (host s) /\ b_log (host s') = b_log (host s).

(** The instance at [i], of class [k] and with data [d], has [x] for a member, a function that was declared in it with parameters [ps] and no body and has
    not been renamed or replaced. *)
Definition method (s : st bob) (i k : addr) (d : option nat) (x : bytes) (ps : list bytes) (fa : addr) : Prop :=
  exists sc j f e l, payload_at s i (PInst k sc d) /\ scope_of s sc i /\
  declares s x sc j (Var x false (Some fa)) /\ payload_at s fa (PFn f) /\ f_kind f = KExtern /\ f_params f = ps /\ has_name s fa x /\ declared_in s fa sc /\
  f_env f = Some e /\ nth_error (envs s) e = Some l.

(** The value at [ka] is a class with parameters [ps] and the functions [ms], which have no body. *)
Definition proto (m : bytes * list bytes) : stmt := SProto false (fst m) (snd m).
Definition class_at {H} (s : st H) (ka : addr) (f : fnval) (b e p : nat) (l : list nat) (ps : list bytes) (ms : list (bytes * list bytes)) : Prop :=
  payload_at s ka (PFn f) /\ f_kind f = KClass /\ f_params f = ps /\ f_body f = Some b /\ nth_error (bodies s) b = Some (Some (BBlock (map proto ms))) /\
  f_env f = Some e /\ nth_error (envs s) e = Some (p :: l) /\ exists vs, vars s p vs.

(** The functions of the classes whose instances have flags, as declared by bob.fl. *)
Definition functions_of (k : bclass) : list (bytes * list bytes) :=
  match k with
  | CFs => []
  | CCc => [(lit "compile", [lit "src"])]
  | CLinker => [(lit "link", [lit "obj"]); (lit "archive", [lit "obj"])]
  end.

(** The name of class [k] denotes the class [ka] that bob.fl declared, which goes by that name and is the one Bob knows. *)
Definition offers (s : st bob) (k : bclass) (ka : addr) : Prop :=
  (exists i j v, names s (class_name k) i j v /\ v_val v = Some ka) /\ live s ka /\
  (exists f b e p l, class_at s ka f b e p l [lit "flags"] (functions_of k)) /\ has_name s ka (class_name k) /\
  class_val (host s) k = Some ka /\ forall k', class_val (host s) k' = Some ka -> k' = k.

(** The value at [a] is a vector of these strings. *)
Definition strings (s : st bob) (a : addr) (l : list bytes) : Prop := holds s (DVec (map DStr l)) a.

(** The value at [v] is a vector of the values [es]. *)
Definition one_vec_at {H} (s : st H) (v : addr) (es : list addr) : Prop := exists c, nth_error (cells s) v = Some c /\ c_val c = PVec es.
(** The value at [a] has not been released, and neither has its name. *)
Definition name_kept {H} (s : st H) (x : vname) : Prop :=
  match x with NKey i _ => exists c, nth_error (scopes s) i = Some c /\ sc_alive c = true | _ => True end.
Definition usable {H} (s : st H) (a : addr) : Prop := exists c, nth_error (cells s) a = Some c /\ (0 < c_cnt c)%Z /\ name_kept s (c_name c).
(** A vector of these strings, which have not been released. *)
Definition usable_strings {H} (s : st H) (a : addr) (l : list bytes) : Prop :=
  exists es, one_vec_at s a es /\ Forall2 (fun x e => holds s (DStr x) e /\ usable s e) l es.

(** Strings for what operation [o] gives, not released: one object for each source, or one product. *)
Definition gives (sg : bool) (out : bytes) (o : operation) (s : st bob) (srcs : list bytes) (r : addr) : Prop :=
  live s r /\
  match o with
  | Compiling => exists objs, Forall2 (object_of sg out) srcs objs /\ usable_strings s r objs
  | Linking k => holds s (DStr (link_cookie sg out k srcs)) r /\ usable s r
  end.

(** Bob can make up the name of the object of this source. *)
Definition nameable (sg : bool) (out s : bytes) : Prop := exists c, object_of sg out s c.
(** Operation [o] can be done with these strings. *)
Definition takes (sg : bool) (out : bytes) (o : operation) (srcs : list bytes) : Prop :=
  match o with Compiling => Forall (nameable sg out) srcs | Linking _ => True end.

(** [e.x(arg)] *)
Definition method_call (e : expr) (x : bytes) (args : list expr) : expr := ECall (EAccess e x) args.

(** ** Other calls *)

Definition not_string (s : st bob) (a : addr) : Prop := exists c, nth_error (cells s) a = Some c /\ forall b n, c_val c <> PStr b n.
(** The value at [v] is a vector which begins with the strings [good] and goes on with something that is no string. *)
Definition strings_until (s : st bob) (v : addr) (good : list bytes) : Prop :=
  exists es bad rest, one_vec_at s v (es ++ bad :: rest) /\ Forall2 (holds s) (map DStr good) es /\ not_string s bad.

(** Operations and classes by the names users know. *)
Definition op_who (o : operation) : bytes := lit match o with Compiling => "Cc.compile" | Linking Link => "Linker.link" | Linking Archive => "Linker.archive" end%string.
(** From [s] to [s'], nothing has been asked for and the message [msg] has been logged. *)
Definition complained (msg : bytes) (s s' : st bob) : Prop :=
  b_asked (host s') = b_asked (host s) /\ b_log (host s') = b_log (host s) ++ [msg].

(** [o] is an instance of the class at [k], or that class. *)
Definition owner_class (s : st bob) (o k : addr) : Prop := (exists d, instance s o k d) \/ (o = k /\ exists f, payload_at s k (PFn f) /\ f_kind f = KClass).
(** Bob has no operation [x] for the class at [k]. *)
Definition no_operation (s : st bob) (k : addr) (x : bytes) (fa : addr) : Prop :=
  b_list (host s) <> Some fa /\ forall o, op_name o = x -> class_val (host s) (op_class o) <> Some k.

(** The class at [k] has [x] for a static member, a function that was declared in it with parameters [ps] and no body and has not been renamed or replaced. *)
Definition static_method (s : st bob) (k : addr) (x : bytes) (ps : list bytes) (fa : addr) : Prop :=
  exists g sc j f e p l vs, payload_at s k (PFn g) /\ f_kind g = KClass /\ f_scope g = Some sc /\ scope_of s sc k /\
  declares s x sc j (Var x true (Some fa)) /\ payload_at s fa (PFn f) /\ f_kind f = KExtern /\ f_params f = ps /\ has_name s fa x /\ declared_in s fa sc /\
  f_env f = Some e /\ nth_error (envs s) e = Some (p :: l) /\ vars s p vs.
