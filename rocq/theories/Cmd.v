(** * Running commands (src/cmd.c). *)

From Coq Require Import ZArith Ascii String Lia Bool List.
From Verif Require Import Base FileSys Frugal Deps Log.
Import ListNotations.

(** Outcomes of functions that may end the process. [Undefined]: an uninitialised variable is read. *)
Inductive outcome (A : Type) :=
| Ret (a : A)
| Exit (status : Z)
| Undefined.
Arguments Ret {A}.
Arguments Exit {A}.
Arguments Undefined {A}.

Definition EXIT_SUCCESS : Z := 0.
Definition EXIT_FAILURE : Z := 1.

(** ** Arguments *)

(** cmd.c 21-49 and 51-58: the argument vector, without the NULL at the end. *)
Definition cmd_add (args : list bytes) (a : bytes) : list bytes := args ++ [a].

(** cmd.c 74-84 [cmd_add_argv]. *)
Fixpoint cmd_add_argv (args argv : list bytes) : list bytes :=
  match argv with
  | [] => args
  | a :: rest => if bytes_eqb a (lit "--") then cmd_add_argv args rest else cmd_add_argv (cmd_add args a) rest
  end.

(** ** Finding the program *)

(** What a path leads to: stat(2) fails; a directory; something else, with or without execute permission. *)
Inductive node := NoNode | DirNode | FileNode (exec : bool).

Section Find.
Variable look : bytes -> node.

(** cmd.c 86-98. *)
Definition is_executable (p : bytes) : bool :=
  match look p with NoNode | DirNode => false | FileNode x => x end.

(** cmd.c 121-131: the search through the fields of $PATH. *)
Fixpoint search (name : bytes) (toks : list bytes) : option bytes :=
  match toks with
  | [] => None
  | t :: rest => let p := t ++ [SLASH] ++ name in if is_executable p then Some p else search name rest
  end.

(** cmd.c 100-135 [find_bin]; [path] is getenv("PATH"). 110-113: without $PATH the process ends. *)
Definition find_bin (path : option bytes) (name : bytes) : outcome (option bytes) :=
  if is_executable name then Ret (Some name)
  else match path with
       | None => Exit EXIT_FAILURE
       | Some p => Ret (search name (strsep COLON p))
       end.

(** The file posix_spawnp(3) executes when given [file]: itself if it contains a slash, else the first one found
    along $PATH, where an empty field means the working directory. Simplification: without $PATH a bare name is not
    found (the system's default path is not searched). *)
Fixpoint spawn_search (name : bytes) (toks : list bytes) : option bytes :=
  match toks with
  | [] => None
  | t :: rest =>
    let p := match t with [] => name | _ => t ++ [SLASH] ++ name end in
    if is_executable p then Some p else spawn_search name rest
  end.
Definition spawn_file (path : option bytes) (file : bytes) : option bytes :=
  if has_byte SLASH file then (if is_executable file then Some file else None)
  else match path with None => None | Some p => spawn_search file (strsep COLON p) end.
End Find.

(** ** Waiting *)

Local Open Scope Z_scope.

(** <sys/wait.h> on Linux. *)
Definition WTERMSIG (s : Z) : Z := Z.land s 127.
Definition WIFEXITED (s : Z) : bool := WTERMSIG s =? 0.
Definition WEXITSTATUS (s : Z) : Z := Z.land (Z.shiftr s 8) 255.
(* ((signed char) ((s & 0x7f) + 1) >> 1) > 0 *)
Definition WIFSIGNALED (s : Z) : bool := (0 <? WTERMSIG s) && (WTERMSIG s <? 127).

(** cmd.c 212-214: [results] are the results of the successive waitpid calls, [None] being -1; the calls after
    them fail. *)
Fixpoint last_status (acc : Z) (results : list (option Z)) : Z :=
  match results with
  | [] | None :: _ => acc
  | Some s :: rest => last_status s rest
  end.

(** cmd.c 209-226 [wait_for_process]: return value and signal ([sig] is what [*sig] was). *)
Definition wait_for_process (results : list (option Z)) (sig : Z) : Z * Z :=
  let s := last_status 0 results in
  if WIFSIGNALED s then (-1, WTERMSIG s)
  else if WIFEXITED s then ((if WEXITSTATUS s =? EXIT_SUCCESS then 0 else -1), sig)
  else (0, sig).

(** ** Executing *)

(** What happens when a file is executed: posix_spawnp fails (it returns a positive error number), or the child runs;
    the results of waiting for it, and what it wrote to its standard output and error. *)
Inductive launch := LFails | LRuns (waits : list (option Z)) (output : bytes).

(** [cmd_t] (cmd.h 9-20); [None] is an uninitialised field. *)
Record cmd := Cmd { c_args : list bytes; c_sig : option Z; c_rv : option Z; c_pipe : bytes }.

(** cmd.c 21-49 on an uninitialised [cmd_t] (cc.c 131, linker.c 95), and on a zeroed one (cc.c 63). *)
Definition cmd_create (args : list bytes) : cmd := Cmd args None None [].
Definition cmd_create_zeroed (args : list bytes) : cmd := Cmd args (Some 0) (Some 0) [].

Section Exec.
Variable look : bytes -> node.
Variable path : option bytes.
(* executing a file with arguments *)
Variable execute : bytes -> list bytes -> launch.

Definition name_of (args : list bytes) : bytes := match args with a :: _ => a | [] => [] end.

(** cmd.c 148-207 [cmd_exec_async] (not debugging; pipe(2) succeeds). 191: the error of posix_spawnp is never
    noticed because it is not negative, and [pid] stays uninitialised. *)
Definition cmd_exec_async (c : cmd) : outcome (option (list (option Z) * bytes)) :=
  match find_bin look path (name_of (c_args c)) with
  | Exit s => Exit s
  | Undefined => Undefined
  | Ret None => Ret None
  | Ret (Some file) =>
    match spawn_file look path file with
    | None => Undefined
    | Some f =>
      match execute f (c_args c) with
      | LFails => Undefined
      | LRuns waits output => Ret (Some (waits, output))
      end
    end
  end.

(** cmd.c 228-239 [cmd_exec]. (That waiting may block: Pipe.v.) *)
Definition cmd_exec (c : cmd) : outcome (Z * cmd) :=
  match cmd_exec_async c with
  | Exit s => Exit s
  | Undefined => Undefined
  | Ret None => Ret (-1, c)
  | Ret (Some (waits, output)) =>
    let '(rv, sig) := wait_for_process waits 0 in
    Ret (rv, Cmd (c_args c) (Some sig) (Some rv) output)
  end.

(** The text for a signal: cmd.c 273, strsignal(3). *)
Variable sig_text : Z -> bytes.

(** cmd.c 241-286 [cmd_read_out]: the C string returned. *)
Definition cmd_read_out (c : cmd) : outcome bytes :=
  match c_sig c with
  | None => Undefined
  | Some s => Ret (cstr (if s =? 0 then c_pipe c else c_pipe c ++ sig_text s))
  end.

(** cmd.c 288-301: the status line says success or failure; then Log.v. *)
Definition cmd_log_status (c : cmd) : outcome (bool * bytes) :=
  match cmd_read_out c with
  | Exit s => Exit s
  | Undefined => Undefined
  | Ret out => match c_rv c with None => Undefined | Some rv => Ret (negb (rv <? 0), out) end
  end.

(** cc.c 131-146 and linker.c 95-147: run a tool and log; result, whether success was announced, and the text. *)
Definition run_tool (args : list bytes) : outcome (Z * bool * bytes) :=
  match cmd_exec (cmd_create args) with
  | Exit s => Exit s
  | Undefined => Undefined
  | Ret (rv, c) =>
    match cmd_log_status c with
    | Exit s => Exit s
    | Undefined => Undefined
    | Ret (said, out) => Ret (rv, said, out)
    end
  end.

(** cc.c 63-74: run the preprocessor; its output, or nothing when it failed. *)
Definition run_preprocessor (args : list bytes) : outcome (option bytes) :=
  match cmd_exec (cmd_create_zeroed args) with
  | Exit s => Exit s
  | Undefined => Undefined
  | Ret (rv, c) =>
    match cmd_read_out c with
    | Exit s => Exit s
    | Undefined => Undefined
    | Ret out => Ret (if rv <? 0 then None else Some out)
    end
  end.

(** cmd.c 137-146 [cmd_exec_inplace]: the file that replaces the process, or -1. execv(2) searches nothing.
    Simplification: executing a file found executable succeeds. *)
Inductive replaced := Becomes (file : bytes) (args : list bytes) | Fails | Aborts.
Definition cmd_exec_inplace (args : list bytes) : outcome replaced :=
  match args with
  | [] => Ret Aborts                                   (* assert(cmd->len > 1) *)
  | a :: _ =>
    match find_bin look path a with
    | Exit s => Exit s
    | Undefined => Undefined
    | Ret None => Ret Fails
    | Ret (Some f) => Ret (Becomes f args)
    end
  end.
End Exec.
