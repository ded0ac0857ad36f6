(** * The command line: src/main.c, src/bsys.c, src/ncpu.c, and [run] of src/bsys/bob/main.c. *)

From Coq Require Import ZArith Ascii String Lia Bool List.
From Verif Require Import Base Hash FileSys Frugal Deps Log Cmd.
Import ListNotations.
Local Open Scope Z_scope.

(** ** The number of jobs *)

(** atoi(3): white space, a sign, digits; [None] when the value does not fit an [int] (undefined in C). *)
Definition is_space (c : ascii) : bool :=
  let n := Z.of_N (N_of_ascii c) in (n =? 32) || ((9 <=? n) && (n <=? 13)).
Definition digit_val (c : ascii) : option Z :=
  let n := Z.of_N (N_of_ascii c) in if (48 <=? n) && (n <=? 57) then Some (n - 48) else None.
Fixpoint digits (acc : Z) (s : bytes) : Z :=
  match s with
  | [] => acc
  | c :: s' => match digit_val c with Some d => digits (10 * acc + d) s' | None => acc end
  end.
Fixpoint skip_space (s : bytes) : bytes :=
  match s with
  | [] => []
  | c :: s' => if is_space c then skip_space s' else s
  end.
Definition atoi (s : bytes) : option Z :=
  let v := match skip_space (cstr s) with
           | [] => 0
           | c :: s' =>
             if byte_eqb c "-"%char then - digits 0 s'
             else if byte_eqb c "+"%char then digits 0 s'
             else digits 0 (c :: s')
           end in
  if (-2147483648 <=? v) && (v <=? 2147483647) then Some v else None.

(** ncpu.c 11-19 [set_max_jobs]; the argument is converted to [size_t]. *)
Definition set_max_jobs (n : Z) : option Z :=
  let n := wrap64 n in
  if (n =? 0) || (1024 <? n) then None else Some n.

(** ncpu.c 21-34 [ncpu]; [max_jobs] is 0 unless set; [online] is what sysconf(3) returns. *)
Definition ncpu (max_jobs online : Z) : Z :=
  if 0 <? max_jobs then max_jobs
  else if online <? 0 then 1
  else online.

(** ** Options *)

(** getopt(3) with "C:j:o:p:" (main.c 72): the options with their arguments up to the first error, and the operands
    ([None] after an error). [permute]: operands may precede options (glibc), otherwise the first operand ends the
    options (BSD, POSIXLY_CORRECT). [argv] is without the program's name. *)
Definition known_option (c : ascii) : bool := has_byte c (lit "Cjop").
Fixpoint getopt (permute : bool) (argv : list bytes) : list (ascii * bytes) * option (list bytes) :=
  match argv with
  | [] => ([], Some [])
  | a :: rest =>
    if bytes_eqb a (lit "--") then ([], Some rest)
    else match a with
         | d :: c :: arg =>
           if byte_eqb d "-"%char then
             if known_option c then
               match arg with
               | [] =>
                 match rest with
                 | [] => ([], None)
                 | v :: rest' => let '(os, r) := getopt permute rest' in ((c, v) :: os, r)
                 end
               | _ => let '(os, r) := getopt permute rest in ((c, arg) :: os, r)
               end
             else ([], None)
           else if permute then let '(os, r) := getopt permute rest in (os, option_map (cons a) r)
           else ([], Some (a :: rest))
         | _ => if permute then let '(os, r) := getopt permute rest in (os, option_map (cons a) r)
                else ([], Some (a :: rest))
         end
  end.

Record config := Config { g_project : option bytes; g_jobs : Z; g_out : bytes; g_prefix : option bytes }.
Definition config0 : config := Config None 0 (lit ".bob") None.

Inductive parsed := POk (g : config) | PBad | PUndefined.

(** main.c 72-92. *)
Fixpoint apply_options (g : config) (os : list (ascii * bytes)) : parsed :=
  match os with
  | [] => POk g
  | (c, v) :: rest =>
    if byte_eqb c "C"%char then apply_options (Config (Some v) (g_jobs g) (g_out g) (g_prefix g)) rest
    else if byte_eqb c "j"%char then
      match atoi v with
      | None => PUndefined
      | Some n => match set_max_jobs n with
                  | None => PBad
                  | Some m => apply_options (Config (g_project g) m (g_out g) (g_prefix g)) rest
                  end
      end
    else if byte_eqb c "o"%char then apply_options (Config (g_project g) (g_jobs g) v (g_prefix g)) rest
    else apply_options (Config (g_project g) (g_jobs g) (g_out g) (Some v)) rest
  end.

(** ** Instructions *)

(** The value of [run] in the script: bsys/bob/main.c 245-268; an element is [None] if it is not a string. *)
Inductive run_var := RunMissing | RunNone | RunOther | RunVec (elems : list (option bytes)).

Definition environment := bytes -> option bytes.
Definition set_env (e : environment) (name val : bytes) : environment :=
  fun n => if bytes_eqb n name then Some val else e n.

(** Everything outside. The results of the phases are those of Bob's own build system (the other entries of [BSYS],
    bsys.h 31-40, are stubs that never identify). *)
Record system := System {
  s_permute : bool;
  s_env : environment;
  s_project : bytes -> bool;          (* realpath and chdir succeed; stat(".") too when root *)
  s_out : bytes -> bool;              (* the output directory exists or is created, and realpath succeeds *)
  s_exists : bytes -> bool;           (* access(path, F_OK) *)
  s_identified : bool;                (* bsys.c 18-26: build.fl exists *)
  s_setup : Z;                        (* bsys/bob/main.c 124-223 *)
  s_mkdir : bytes -> bool;            (* mkdir_wrapped succeeds *)
  s_build : option bytes -> Z;        (* bsys/bob/main.c 225-231 *)
  s_install : bytes -> Z;             (* bsys/bob/main.c 233-235 *)
  s_run : run_var;
  s_look : bytes -> node;
}.

(** The phases started: a directory being made, the script being read, a build, an installation. *)
Inductive event := EvMkdir (dir : bytes) | EvSetup | EvBuild (prefix : option bytes) | EvInstall (prefix : bytes).

(** How Bob ends. *)
Inductive ends :=
| FExit (status : Z)
| FProgram (file : bytes) (args : list bytes) (env : environment)   (* replaced by a program *)
| FAbort                                                            (* a failed assertion *)
| FUndefined.

Inductive result := RValue (z : Z) | REnds (e : ends).

Section Run.
Variable S : system.
Variable out : bytes.

(** bsys.c 28-52 [bsys_build]. *)
Definition bsys_build (pre : option bytes) : list event * Z :=
  let dir := out ++ lit "/bob" in
  if s_mkdir S dir then ([EvMkdir dir; EvBuild pre], s_build S pre) else ([EvMkdir dir], -1).

(** bsys.c 87-121 [install]. *)
Definition do_install (to_prefix : bool) (install_prefix : bytes) : list event * Z :=
  let path := if to_prefix then out ++ lit "/prefix" else install_prefix in
  let made := if to_prefix then [EvMkdir path] else [] in
  if to_prefix && negb (s_mkdir S path) then (made, -1)
  else
    let '(t, rv) := bsys_build (Some path) in
    if rv <? 0 then (made ++ t, -1) else (made ++ t ++ [EvInstall path], s_install S path).

(** bsys.c 54-85 [prepend_env]. Simplification: setenv succeeds. *)
Definition prepend_env (e : environment) (name val : bytes) : environment :=
  match e name with
  | None => set_env e name val
  | Some prev => set_env e name (val ++ [COLON] ++ prev)
  end.

(** bsys.c 123-134 [setup_environment] (not Apple). *)
Definition setup_environment (e : environment) : environment :=
  prepend_env (prepend_env e (lit "PATH") (out ++ lit "/prefix/bin")) (lit "LD_LIBRARY_PATH") (out ++ lit "/prefix/lib").

(** Execute in place with the environment [e]. *)
Definition exec_inplace (e : environment) (args : list bytes) : result :=
  match cmd_exec_inplace (s_look S) (e (lit "PATH")) args with
  | Exit s => REnds (FExit s)
  | Undefined => REnds FUndefined
  | Ret Fails => RValue (-1)
  | Ret Aborts => REnds FAbort
  | Ret (Becomes f a) => REnds (FProgram f a e)
  end.

(** bsys/bob/main.c 278-287: the elements of the run vector. *)
Fixpoint run_args (elems : list (option bytes)) : option (list bytes) :=
  match elems with
  | [] => Some []
  | None :: _ => None
  | Some s :: rest => option_map (cons (cstr s)) (run_args rest)
  end.

(** bsys/bob/main.c 237-304 [run]. *)
Definition bob_run (e : environment) (argv : list bytes) : result :=
  match s_run S with
  | RunMissing => RValue (-1)
  | RunNone => RValue 0
  | RunOther => RValue (-1)
  | RunVec elems =>
    match run_args elems with
    | None => RValue (-1)
    | Some args =>
      match cmd_add_argv args argv with
      | [] => RValue 0                                  (* nothing to run *)
      | args' => exec_inplace e args'
      end
    end
  end.

(** bsys.c 136-149 [bsys_run]. *)
Definition bsys_run (install_prefix : bytes) (argv : list bytes) : list event * result :=
  let '(t, rv) := do_install true install_prefix in
  if rv <? 0 then (t, RValue (-1)) else (t, bob_run (setup_environment (s_env S)) argv).

(** bsys.c 151-185 [bsys_sh]. *)
Definition bsys_sh (install_prefix : bytes) (argv : list bytes) : list event * result :=
  let '(t, rv) := do_install true install_prefix in
  if rv <? 0 then (t, RValue (-1))
  else
    let e := setup_environment (s_env S) in
    (t, match argv with
        | [] => match e (lit "SHELL") with None => RValue (-1) | Some sh => exec_inplace e [sh] end
        | _ => exec_inplace e (cmd_add_argv [] argv)
        end).

Definition status (r : list event * result) : list event * ends :=
  match r with
  | (t, RValue z) => (t, FExit (if z =? 0 then EXIT_SUCCESS else EXIT_FAILURE))
  | (t, REnds e) => (t, e)
  end.

(** main.c 217-251: the instruction. *)
Definition dispatch (install_prefix instr : bytes) (argv : list bytes) : list event * ends :=
  if bytes_eqb instr (lit "build") then let '(t, z) := bsys_build None in status (t, RValue z)
  else if bytes_eqb instr (lit "run") then status (bsys_run install_prefix argv)
  else if bytes_eqb instr (lit "sh") then status (bsys_sh install_prefix argv)
  else if bytes_eqb instr (lit "install") then let '(t, z) := do_install false install_prefix in status (t, RValue z)
  else ([], FExit EXIT_FAILURE).
End Run.

(** main.c 64-257 [main]: the phases started and how the process ends; also the number of jobs set. *)
Definition the_prefix (S : system) (g : config) : bytes :=
  match g_prefix g with
  | Some p => p
  | None => match s_env S (lit "PREFIX") with Some p => p | None => lit "/usr/local" end
  end.

Definition jobs_set (S : system) (g : config) : Z :=
  match s_env S (lit "BOB_BUILD_DEBUGGING") with Some _ => 1 | None => g_jobs g end.

Definition main (S : system) (argv : list bytes) : list event * ends :=
  let '(os, operands) := getopt (s_permute S) argv in
  match apply_options config0 os with
  | PBad => ([], FExit EXIT_FAILURE)
  | PUndefined => ([], FUndefined)
  | POk g =>
    match operands with
    | None | Some [] => ([], FExit EXIT_FAILURE)          (* usage *)
    | Some (instr :: args) =>
      if negb (s_project S (match g_project g with Some p => p | None => lit "." end)) then ([], FExit EXIT_FAILURE)
      else if negb (s_out S (g_out g)) then ([], FExit EXIT_FAILURE)
      else if negb (s_exists S (the_prefix S g)) then ([], FExit EXIT_FAILURE)
      else if negb (s_identified S) then ([], FExit EXIT_FAILURE)
      else if s_setup S <? 0 then ([EvSetup], FExit EXIT_FAILURE)
      else let '(t, e) := dispatch S (g_out g) (the_prefix S g) instr args in (EvSetup :: t, e)
    end
  end.

(** The number of worker threads a build uses (pool.c 9-13 takes [ncpu()]), when the command line is accepted. *)
Definition workers (S : system) (argv : list bytes) (online : Z) : option Z :=
  let '(os, _) := getopt (s_permute S) argv in
  match apply_options config0 os with
  | POk g => Some (ncpu (jobs_set S g) online)
  | _ => None
  end.
