(** * The functions and classes Bob gives to scripts (src/bsys/bob/main.c, src/class/cc.c, linker.c, fs.c, import/bob.fl). *)

From Coq Require Import ZArith Ascii String Lia Bool List.
From Verif Require Import Base Hash Cookie FlAst FlState FlInterp.
Import ListNotations.
Local Open Scope fl_scope.

(** What a build step is asked for: cc.c 29-35, linker.c 28-40 [build_step_state_t]. The vectors and strings are those of the script, by
    reference. [state]: the record of the instance, [None] if NULL. *)
Inductive asked :=
| ACompile (state : option nat) (srcs outs : addr)
| ALink (k : link_kind) (state : option nat) (srcs out : addr).

(** The static variables of these files: class.h 8-15 [class_val] of the three classes, fs.c 16 [list_val]. [b_states]: the [state_t] records (cc.c 25-27,
    linker.c 24-26), which are the flags, by reference; [None] once freed. Their addresses are not used again. [b_asked]: the calls of
    [add_build_step], in order. [b_log]: the fatal messages logged. *)
Record bob := BobState {
  b_fs : option addr;
  b_cc : option addr;
  b_linker : option addr;
  b_list : option addr;
  b_states : list (option addr);
  b_asked : list asked;
  b_log : list bytes;
}.
Definition fresh_bob : bob := BobState None None None None [] [] [].

(** class.h 21-25 [BOB_CLASSES]. *)
Inductive bclass := CFs | CCc | CLinker.
Definition class_name (k : bclass) : bytes := lit match k with CFs => "Fs" | CCc => "Cc" | CLinker => "Linker" end%string.
Definition class_val (h : bob) (k : bclass) : option addr := match k with CFs => b_fs h | CCc => b_cc h | CLinker => b_linker h end.
Definition set_class_val (k : bclass) (a : addr) (h : bob) : bob :=
  match k with
  | CFs => BobState (Some a) (b_cc h) (b_linker h) (b_list h) (b_states h) (b_asked h) (b_log h)
  | CCc => BobState (b_fs h) (Some a) (b_linker h) (b_list h) (b_states h) (b_asked h) (b_log h)
  | CLinker => BobState (b_fs h) (b_cc h) (Some a) (b_list h) (b_states h) (b_asked h) (b_log h)
  end.
Definition set_list (a : option addr) (h : bob) : bob := BobState (b_fs h) (b_cc h) (b_linker h) a (b_states h) (b_asked h) (b_log h).
Definition set_states (l : list (option addr)) (h : bob) : bob := BobState (b_fs h) (b_cc h) (b_linker h) (b_list h) l (b_asked h) (b_log h).
Definition ask (x : asked) (h : bob) : bob := BobState (b_fs h) (b_cc h) (b_linker h) (b_list h) (b_states h) (b_asked h ++ [x]) (b_log h).
Definition log (x : bytes) (h : bob) : bob := BobState (b_fs h) (b_cc h) (b_linker h) (b_list h) (b_states h) (b_asked h) (b_log h ++ [x]).

Local Notation M := (M bob).
Local Notation st := (st bob).
Definition on_host (f : bob -> bob) : M unit := modify (fun s => set_host (f (host s)) s).
(** LOG_FATAL and return -1. *)
Definition fatal {A} (msg : bytes) : M A := fun s => Fail (set_host (log msg (host s)) s).

Section Bob.
(** [char] signed; the output path; what fts(3) lists in a directory, [None] if it can't be opened (fs.c 34-85); pow(3); the files. *)
Variables (sg : bool) (out : bytes) (listing : bytes -> option (list bytes)).
Variables (pow : Z -> Z -> option Z) (exists_ : bytes -> bool) (files : bytes -> file).

(** main.c 155 *)
Definition PROG : bytes := lit "Bob the Builder".

(** ** Values as arguments *)

(** The bytes of a string. *)
Definition str_at (a : addr) : M (option bytes) :=
  c <- get_cell a ;; match c_val c with PStr b n => t <- read_buf b n ;; ret (Some t) | _ => ret None end.
Definition nth_msg (who : bytes) (i : nat) : bytes := who ++ lit ": Expected " ++ dec_n i ++ lit "-th vector element to be a string".

(** cc.c 370-379, 299-307, linker.c 249-258, 171-179: there is one argument, a vector. *)
Definition one_vec (who : bytes) (args : list addr) : M (addr * list addr) :=
  match args with
  | [a] => c <- get_cell a ;; match c_val c with PVec es => ret (a, es) | _ => fatal (who ++ lit ": Expected argument to be a vector") end
  | _ => fatal (who ++ lit ": Expected 1 argument, got " ++ dec_n (length args))
  end.

(** ** Instances *)

(** cc.c 383-390, linker.c 262-269: all flags are strings. *)
Fixpoint check_strs (who : bytes) (i : nat) (es : list addr) : M unit :=
  match es with
  | [] => ret tt
  | a :: es => c <- get_cell a ;; match c_val c with PStr _ _ => check_strs who (S i) es | _ => fatal (nth_msg who i) end
  end.

(** cc.c 367-402, linker.c 246-281 [instantiate]. *)
Definition instantiate (k : bclass) (inst : addr) (args : list addr) : M unit :=
  v <- one_vec (class_name k) args ;;
  check_strs (class_name k) 0 (snd v) ;;
  h <- gets host ;;
  on_host (set_states (b_states h ++ [Some (fst v)])) ;;
  c <- get_cell inst ;;
  match c_val c with
  | PInst class sc _ => put_cell inst (Cell (c_name c) (c_cnt c) (c_owner c) (PInst class sc (Some (length (b_states h)))))
  | _ => undef UPun
  end.

(** cc.c 362-365, linker.c 243-246 [free_state]. *)
Definition free_state (d : nat) : M unit := fun s =>
  match nth_error (b_states (host s)) d with
  | Some (Some _) => Ret tt (set_host (set_states (upd d None (b_states (host s))) (host s)) s)
  | Some None => Undef UDoubleFree
  | None => Undef UWild
  end.

(** main.c 98-122 [class_inst_cb]. The classes differ by name, so at most one of them matches. *)
Definition class_inst_cb (inst : addr) (args : list addr) : M unit :=
  c <- get_cell inst ;;
  match c_val c with
  | PInst class _ _ =>
    ck <- get_cell class ;;
    x <- read_name (c_name ck) ;;
    if bytes_eqb x (class_name CCc) then instantiate CCc inst args
    else if bytes_eqb x (class_name CLinker) then instantiate CLinker inst args
    else ret tt
  | _ => undef UPun
  end.

(** main.c 72-96 [class_decl_cb]; fs.c 93-97 [populate] is the only one there is. *)
Fixpoint populate (vs : list var) (h : bob) : bob :=
  match vs with
  | [] => h
  | v :: vs => populate vs (if bytes_eqb (v_key v) (lit "list") then set_list (v_val v) h else h)
  end.
Definition class_decl_cb (class : addr) : M unit :=
  c <- get_cell class ;;
  match c_val c with
  | PFn f =>
    x <- read_name (c_name c) ;;
    if bytes_eqb x (class_name CFs) then
      on_host (set_class_val CFs class) ;;
      match f_scope f with None => undef UNull | Some i => sc <- get_scope i ;; on_host (populate (sc_vars sc)) end
    else if bytes_eqb x (class_name CCc) then on_host (set_class_val CCc class)
    else if bytes_eqb x (class_name CLinker) then on_host (set_class_val CLinker class)
    else ret tt
  | _ => undef UPun
  end.

(** ** Calls *)

(** fs.c 18-91 [list]. *)
Definition fs_list (args : list addr) : M addr :=
  match args with
  | [a] =>
    c <- get_cell a ;;
    match c_val c with
    | PStr b n =>
      path <- read_upto b n ;;
      match listing path with
      | None => fatal (lit "fts_open(" ++ QUOTE ++ path ++ QUOTE ++ lit ") failed")
      | Some l => es <- mapM (fun p => make_str (cstr p)) l ;; alloc (PVec es)
      end
    | _ => died
    end
  | _ => died
  end.

(** cc.c 318-334: the object of each source. *)
Fixpoint objects (who : bytes) (i : nat) (es : list addr) : M (list addr) :=
  match es with
  | [] => ret []
  | a :: es =>
    t <- str_at a ;;
    match t with
    | None => fatal (nth_msg who i)
    | Some t =>
      match gen_cookie sg out t (lit "o") with
      | Ok x => o <- make_str x ;; os <- objects who (S i) es ;; ret (o :: os)
      | Err | Abort | OutOfFuel => died
      | UB => undef URange
      end
    end
  end.

(** [inst.data] of the owner; [None] if the owner is no instance, and reading it gives whatever is there. *)
Definition garbage := option (option nat).
Definition need (d : garbage) : M (option nat) := match d with Some d => ret d | None => undef UPun end.

(** cc.c 294-347 [prep_compile]. (malloc of nothing is taken not to give NULL.) *)
Definition prep_compile (state : garbage) (args : list addr) : M addr :=
  v <- one_vec (lit "Cc.compile") args ;;
  os <- objects (lit "Cc.compile") 0 (snd v) ;;
  rv <- alloc (PVec os) ;;
  d <- need state ;;
  on_host (ask (ACompile d (fst v) rv)) ;;
  ret rv.

(** linker.c 185-198: the names of the sources. *)
Fixpoint strs (who : bytes) (i : nat) (es : list addr) : M (list bytes) :=
  match es with
  | [] => ret []
  | a :: es =>
    t <- str_at a ;;
    match t with None => fatal (nth_msg who i) | Some t => ts <- strs who (S i) es ;; ret (t :: ts) end
  end.

(** linker.c 163-224 [prep_link]. *)
Definition prep_link (k : link_kind) (state : garbage) (args : list addr) : M addr :=
  let who := match k with Link => lit "Linker.link" | Archive => lit "Linker.archive" end in
  v <- one_vec who args ;;
  ts <- strs who 0 (snd v) ;;
  rv <- make_str (link_cookie sg out k ts) ;;
  d <- need state ;;
  on_host (ask (ALink k d (fst v) rv)) ;;
  ret rv.

(** main.c 42-45: the owner of the scope a callable was declared in. *)
Inductive owner := ONull | OClass (a : addr) | OInst (class : addr) (data : option nat) | OOther.
Definition owner_of (callable : addr) : M owner :=
  c <- get_cell callable ;;
  match c_owner c with
  | None => undef UNull
  | Some i =>
    sc <- get_scope i ;;
    match sc_owner sc with
    | None => ret ONull
    | Some a =>
      ca <- get_cell a ;;
      ret match c_val ca with
          | PFn f => match f_kind f with KClass => OClass a | _ => OOther end
          | PInst class _ d => OInst class d
          | _ => OOther
          end
    end
  end.

(** cc.c 352, linker.c 229: [callable->owner->owner->inst.data]. *)
Definition data_of (o : owner) : M garbage :=
  match o with ONull => undef UNull | OInst _ d => ret (Some d) | _ => ret None end.

(** fs.c 99-109, cc.c 349-360, linker.c 226-241 [call]; [None]: not consumed. *)
Definition class_call (k : bclass) (callable : addr) (o : owner) (args : list addr) : M (option addr) :=
  match k with
  | CFs =>
    h <- gets host ;;
    if onat_eqb (b_list h) (Some callable) then a <- fs_list args ;; ret (Some a) else ret None
  | CCc =>
    d <- data_of o ;;
    c <- get_cell callable ;;
    x <- read_name (c_name c) ;;
    if bytes_eqb x (lit "compile") then a <- prep_compile d args ;; ret (Some a) else ret None
  | CLinker =>
    d <- data_of o ;;
    c <- get_cell callable ;;
    x <- read_name (c_name c) ;;
    if bytes_eqb x (lit "link") then a <- prep_link Link d args ;; ret (Some a)
    else if bytes_eqb x (lit "archive") then a <- prep_link Archive d args ;; ret (Some a)
    else ret None
  end.

(** main.c 50-56: the class is not the owner's. *)
Definition passed_over (h : bob) (o : owner) (k : bclass) : bool :=
  match o with
  | OClass a => negb (onat_eqb (class_val h k) (Some a))
  | OInst class _ => negb (onat_eqb (class_val h k) (Some class))
  | _ => false
  end.

(** main.c 38-70 [external_fn_cb]. *)
Fixpoint try_classes (ks : list bclass) (callable : addr) (o : owner) (args : list addr) : M (option addr) :=
  match ks with
  | [] => ret None
  | k :: ks =>
    h <- gets host ;;
    if passed_over h o k then try_classes ks callable o args
    else
      r <- class_call k callable o args ;;
      match r with Some a => ret (Some a) | None => try_classes ks callable o args end
  end.
Definition external_fn_cb (callable : addr) (args : list addr) : M (option addr) :=
  o <- owner_of callable ;;
  r <- try_classes [CFs; CCc; CLinker] callable o args ;;
  match r with
  | Some a => ret (Some a)
  | None =>
    c <- get_cell callable ;;
    x <- read_name (c_name c) ;;
    raise PROG (lit "Bob doesn't support the '" ++ cstr x ++ lit "' external function call (" ++ dec_n (length args) ++ lit " arguments passed)")
  end.

(** main.c 155-170: Bob's engine. *)
Definition bob_conf : conf bob :=
  Conf bob PROG pow exists_ files external_fn_cb class_decl_cb class_inst_cb free_state.
End Bob.

(** ** import/bob.fl *)

Definition bob_fl : list stmt :=
  [SLet false (lit "__bob_has_been_imported__") None;
   SClass false (lit "Fs") [] [SProto true (lit "list") [lit "path"]];
   SClass false (lit "Cc") [lit "flags"] [SProto false (lit "compile") [lit "src"]];
   SClass false (lit "Linker") [lit "flags"] [SProto false (lit "link") [lit "obj"]; SProto false (lit "archive") [lit "obj"]];
   SLet false (lit "install") None;
   SLet false (lit "run") (Some (EVec []))].
