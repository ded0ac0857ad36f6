(** * From a build script to build steps, the install map and the run vector (src/bsys/bob/main.c, install.c, class/cc.c, class/linker.c). *)

From Coq Require Import ZArith Ascii String Lia Bool List.
From Verif Require Import Base Cookie BuildStep Build Plan Install Main FlAst FlState FlInterp Bob.
Import ListNotations.
Local Open Scope fl_scope.
Local Notation M := (FlState.M bob).
Local Notation st := (FlState.st bob).

Section Project.
Variables (sg : bool) (out : bytes) (listing : bytes -> option (list bytes)).
Variables (pow : Z -> Z -> option Z) (exists_ : bytes -> bool) (files : bytes -> file).
Let cf := bob_conf sg out listing pow exists_ files.

(** ** Setup *)

(** [env->scope_stack[0]]: the variables of the outermost scope. *)
Definition top_vars : M (list var) :=
  l <- cur_stack ;; match rev l with i :: _ => sc <- get_scope i ;; ret (sc_vars sc) | [] => undef UWild end.

Definition IMPORTED : bytes := lit "__bob_has_been_imported__".

(** main.c 164-170 *)
Definition import_dirs (install_prefix : bytes) : list bytes := [install_prefix ++ lit "/share/flamingo/import"; lit "import"].

(** main.c 124-223 [setup], once the build file has been read. *)
Definition setup (n : nat) (install_prefix : bytes) (ss : list stmt) : FlState.out bob unit :=
  match run cf n (import_dirs install_prefix) fresh_bob ss with
  | Fail s => fatal (lit "Failed to run build program: " ++ match err s with Some m => m | None => lit "no errors" end) s
  | Ret _ s =>
    (vs <- top_vars ;;
     if existsb (fun v => bytes_eqb (v_key v) IMPORTED) vs then ret tt
     else fatal (lit "Invalid build file; missing 'bob' import")) s
  | o => o
  end.

(** ** Build steps *)

(** The strings of a vector, as they are when the build begins. (That they are strings was checked when the script ran.) *)
Definition text (a : addr) : M bytes := t <- str_at a ;; match t with Some t => ret t | None => undef UPun end.
Definition elems (a : addr) : M (list addr) := c <- get_cell a ;; match c_val c with PVec es => ret es | _ => undef UPun end.

(** [bss->state->flags] *)
Definition flags_at (d : option nat) : M (list bytes) :=
  match d with
  | None => undef UNull
  | Some d => fun s =>
    match nth_error (b_states (host s)) d with
    | Some (Some a) => (es <- elems a ;; mapM text es) s
    | _ => Undef UWild
    end
  end.

(** cc.c 240-254: the sources, objects and flags. *)
Fixpoint items (d : option nat) (srcs outs : list addr) : M (list item) :=
  match srcs, outs with
  | [], [] => ret []
  | x :: srcs, y :: outs =>
    x <- text x ;;
    y <- text y ;;
    fl <- flags_at d ;;
    its <- items d srcs outs ;;
    ret (Item fl (cstr x) (cstr y) :: its)
  | _, _ => died
  end.

(** What identifies a step: cc.c 346 the address of the instance's record, linker.c 223 that of the request's own. Only equality matters; records of the one
    kind are at other addresses than those of the other. *)
Definition cc_id (d : option nat) : Z := match d with None => 0 | Some d => 2 * Z.of_nat d + 2 end.
Definition link_id (i : nat) : Z := 2 * Z.of_nat i + 1.

(** cc.c 346, linker.c 223: the calls of [add_build_step], with what the step's data comes to when the step begins (cc.c 240-254, linker.c 46-62). [i]: how many
    came before. *)
Definition requested (i : nat) (x : asked) : M (request step_cb Plan.payload) :=
  match x with
  | ACompile d v r =>
    srcs <- elems v ;;
    outs <- elems r ;;
    its <- items d srcs outs ;;
    ret (Req (cc_id d) (lit "C source file compilation") CbCompile (PCompile its))
  | ALink k d v r =>
    o <- text r ;;
    srcs <- elems v ;;
    ts <- mapM text srcs ;;
    fl <- flags_at d ;;
    ret (Req (link_id i) (match k with Link => lit "Linking" | Archive => lit "Archiving" end) CbLink (PLink (LinkReq k fl (map cstr ts) (cstr o))))
  end.
Fixpoint requests (i : nat) (l : list asked) : M (list (request step_cb Plan.payload)) :=
  match l with
  | [] => ret []
  | x :: l => r <- requested i x ;; rs <- requests (S i) l ;; ret (r :: rs)
  end.

(** The steps [run_build_steps] goes through after the script has ended in [s]. *)
Definition project_steps : M (res (list bstep)) :=
  h <- gets host ;;
  rs <- requests 0 (b_asked h) ;;
  ret (bind (add_all step_cb_eqb [] rs) steps_of).

(** ** The install map and the run vector *)

Fixpoint find_top (x : bytes) (vs : list var) : option var :=
  match vs with
  | [] => None
  | v :: vs => if bytes_eqb (v_key v) x then Some v else find_top x vs
  end.
Definition top_val (x : bytes) : M (option FlState.payload) :=
  vs <- top_vars ;;
  match find_top x vs with
  | None => ret None
  | Some v => match v_val v with None => undef UNull | Some a => c <- get_cell a ;; ret (Some (c_val c)) end
  end.

(** install.c 19-78 *)
Definition install_var : M (option script_val) :=
  p <- top_val (lit "install") ;;
  match p with
  | None => ret None
  | Some PNone => ret (Some SNone)
  | Some (PMap kvs) => es <- mapM (fun kv => k <- str_at (fst kv) ;; v <- str_at (snd kv) ;; ret (k, v)) kvs ;; ret (Some (SMap es))
  | Some _ => ret (Some SOther)
  end.

(** main.c 237-286 *)
Definition run_vector : M run_var :=
  p <- top_val (lit "run") ;;
  match p with
  | None => ret RunMissing
  | Some PNone => ret RunNone
  | Some (PVec es) => es <- mapM str_at es ;; ret (RunVec es)
  | Some _ => ret RunOther
  end.

(** ** Building *)

(** main.c (src) 210-226, bsys/bob/main.c 225-231 [build]: [setup], then the steps asked for. *)
Definition script_build (E : env) (install_prefix : bytes) (ss : list stmt) (w : world) (rv : Z) (w' : world) : Prop :=
  exists n s bs s', setup n install_prefix ss = Ret tt s /\ project_steps s = Ret (Ok bs) s' /\ run_steps E bs w rv w'.
End Project.
