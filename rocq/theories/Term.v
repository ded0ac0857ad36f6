(** * What Bob prints: messages, colours, and the C library's streams (src/logging.c, cmd.c, class/cc.c). *)

From Coq Require Import NArith Arith Ascii String Bool List.
From Verif Require Import Base SpecLex.
Import ListNotations.
Local Open Scope nat_scope.

(** ** Colours *)

(** What [supports_colour] looks at: whether CLICOLOR_FORCE is set, whether standard output and standard error are terminals, COLORTERM and TERM. *)
Record tenv := TEnv { te_force : bool; te_out_tty : bool; te_err_tty : bool; te_colorterm : option bytes; te_term : option bytes }.

(** strstr(3) != NULL. *)
Fixpoint begins (x t : bytes) : bool :=
  match x, t with
  | [], _ => true
  | a :: x', b :: t' => Ascii.eqb a b && begins x' t'
  | _ :: _, [] => false
  end.
Fixpoint strstr (t x : bytes) : bool := begins x t || match t with [] => false | _ :: t' => strstr t' x end.

(** logging.c 22-55 [supports_colour]. *)
Definition supports_colour (e : tenv) : bool :=
  if te_force e then true
  else if negb (te_out_tty e) || negb (te_err_tty e) then false
  else match te_colorterm e with
  | Some (_ :: _) => true
  | _ => match te_term e with None => false | Some t => strstr t (lit "color") end
  end.

(** ** Messages *)

(** logging.h 45-63. *)
Definition ESC : ascii := "027"%char.
Definition CLEAR : bytes := ESC :: lit "[0m".
Inductive level := Fatal | Error | Warn | Info | Success.
Definition to_err (v : level) : bool := match v with Fatal | Error | Warn => true | Info | Success => false end.
Definition tag (v : level) : bytes :=
  match v with
  | Fatal => map ascii_of_N [240; 159; 146; 128]%N ++ lit " " ++ ESC :: lit "[1;35m"
  | Error => map ascii_of_N [240; 159; 155; 145]%N ++ lit " " ++ ESC :: lit "[1;31m"
  | Warn => map ascii_of_N [240; 159; 154; 184]%N ++ lit " " ++ ESC :: lit "[0;33m"
  | Info => map ascii_of_N [240; 159; 145; 183]%N ++ lit " " ++ ESC :: lit "[0;34m"
  | Success => map ascii_of_N [226; 156; 133]%N ++ lit " " ++ ESC :: lit "[0;32m"
  end.

(** logging.c 65-84 [vlog], given the formatted message. *)
Definition vlog (colour : bool) (v : level) (m : bytes) : bytes :=
  if colour then tag v ++ m ++ CLEAR ++ [LF] else m ++ [LF].

(** What a thread does: take and give back a lock, and calls of stdio functions on standard error ([true]) or standard output. *)
Inductive act := Lock (l : nat) | Unlock (l : nat) | Print (err : bool) (x : bytes).
Definition say (colour : bool) (v : level) (m : bytes) : act := Print (to_err v) (vlog colour v m).

(** cmd.c 288-305 [cmd_log] for a compilation, given what [cmd_read_out] returned: the heading and the output. The rest is Log.v. *)
Definition heading (failed : bool) (src out : bytes) : bytes :=
  src ++ CLEAR ++ lit ": " ++ (if failed then lit "Failed to compile" else lit "Successfully compiled") ++ match cstr out with [] => lit "." | _ => lit ":" end.
Definition report (colour failed : bool) (src out : bytes) : list act :=
  [ say colour (if failed then Error else Success) (heading failed src out); Print false (cstr out) ].

(** A compilation as far as its messages go: the source, what [get_include_deps] and [cmd_exec] have to say (cc.c 71, 83; cmd.c 111, 133, 192, 267: all on standard error),
    whether it failed and its output, and what [install_cookie] has to say (install.c 133-183). *)
Record told := Told { t_src : bytes; t_before : list (level * bytes); t_failed : bool; t_out : bytes; t_after : list (level * bytes) }.

(** cc.c 110-160 [compile_task]. [l] is the [logging_lock] of the compile() call (cc.c 32, 341) that the source belongs to. *)
Definition compile_acts (colour : bool) (l : nat) (t : told) : list act :=
  [Lock l; say colour Info (t_src t ++ CLEAR ++ lit ": Compiling..."); Unlock l] ++
  map (fun m => say colour (fst m) (snd m)) (t_before t) ++
  [Lock l] ++ report colour (t_failed t) (t_src t) (t_out t) ++ [Unlock l] ++
  map (fun m => say colour (fst m) (snd m)) (t_after t).

(** cc.c 234-290 [compile_step], pool.c 9-57 [businessman]: a thread compiles one source after the other, each with the lock of its compile() call. Messages about sources that are up to date come before, since
    the threads are started by [pool_wait] (pool.c 100-119). *)
Definition works (colour : bool) (ts : list (nat * told)) : list act := flat_map (fun t => compile_acts colour (fst t) (snd t)) ts.

(** ** Streams *)

(** Where bytes come from that have been written to a descriptor: standard output, standard error, or the program that Bob has become. *)
Inductive chan := Out | Err | Program.

(** What the threads have yet to do, who has which lock, what is in the buffer of standard output, and what was written, in order. *)
Record tst := TSt { todo : nat -> list act; owner : nat -> option nat; pend : bytes; shown : list (chan * bytes) }.

(** The text up to its last line end, and what comes after. *)
Fixpoint lines_of (t : bytes) : bytes * bytes :=
  match t with
  | [] => ([], [])
  | c :: t' =>
    let (a, b) := lines_of t' in
    match a with
    | [] => if Ascii.eqb c LF then ([c], b) else ([], c :: b)
    | _ => (c :: a, b)
    end
  end.

Definition upd {A : Type} (f : nat -> A) (w : nat) (a : A) : nat -> A := fun v => if v =? w then a else f v.

(** One step, and what was printed in it if anything was: the C library locks a stream for a call (so that calls are not mixed), does not buffer standard error, writes whole lines at once if standard
    output is a terminal ([tty]), and may write some of the buffer of standard output at any time. *)
Inductive tstep (tty : bool) : tst -> list (nat * (bool * bytes)) -> tst -> Prop :=
| ts_lock s w l r : todo s w = Lock l :: r -> owner s l = None ->
    tstep tty s [] (TSt (upd (todo s) w r) (upd (owner s) l (Some w)) (pend s) (shown s))
| ts_unlock s w l r : todo s w = Unlock l :: r ->
    tstep tty s [] (TSt (upd (todo s) w r) (upd (owner s) l None) (pend s) (shown s))
| ts_err s w x r : todo s w = Print true x :: r ->
    tstep tty s [(w, (true, x))] (TSt (upd (todo s) w r) (owner s) (pend s) (shown s ++ [(Err, x)]))
| ts_out s w x r a b : todo s w = Print false x :: r -> (a, b) = (if tty then lines_of (pend s ++ x) else ([], pend s ++ x)) ->
    tstep tty s [(w, (false, x))] (TSt (upd (todo s) w r) (owner s) b (shown s ++ [(Out, a)]))
| ts_flush s a b : pend s = a ++ b -> tstep tty s [] (TSt (todo s) (owner s) b (shown s ++ [(Out, a)])).

Inductive truns (tty : bool) : tst -> list (nat * (bool * bytes)) -> tst -> Prop :=
| truns_none s : truns tty s [] s
| truns_more s l s' m s'' : truns tty s l s' -> tstep tty s' m s'' -> truns tty s (l ++ m) s''.

(** How Bob ends: by returning from main() or exit(3), which write what is in the buffer; by becoming another program (cmd.c 137-146 [cmd_exec_inplace]: execv(2) without fflush(3)), which prints [x]; or by
    _exit(2), a failed assertion or a signal. *)
Inductive ending := Exits | Becomes (x : bytes) | Dies.
Definition finish (e : ending) (s : tst) : list (chan * bytes) :=
  match e with
  | Exits => shown s ++ [(Out, pend s)]
  | Becomes x => shown s ++ [(Program, x)]
  | Dies => shown s
  end.
