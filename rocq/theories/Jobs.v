(** * Commands run at the same time by several threads: descriptors, pipes and what children inherit (src/cmd.c).

    All threads of Bob share one table of descriptors. [pipe] is called without O_CLOEXEC (cmd.c 159-167), so every child inherits
    the ends of all the pipes that are open when it is spawned, those of other threads' commands too. Reading a pipe ends
    when nobody can write to it any more.
    Simplifications: children write one byte at a time, the capacity of pipes is counted in bytes; not in debugging mode, in which there are
    no pipes; programs are found and started (C28 is about those that aren't); Bob's other descriptors and [pipe] failing are
    left out. *)

From Coq Require Import Arith Ascii Bool List.
From Verif Require Import Base Pipe.
Import ListNotations.

Inductive side := Rd | Wr.
(** An end of a pipe. *)
Notation pend := (nat * side)%type.

(** A program: what it writes to its standard output and error, and whether it leaves a process running in the background that keeps its
    descriptors. *)
Record program := Program { writes : bytes; stays : bool }.

(** What threads do with commands. The [cmd_t]s of a thread are nested (class/cc.c 63-68, 131-151, where [install_cookie] runs cp(1) before
    the compiler's [cmd_t] is freed; class/linker.c 141-151; fsutil.c 18-31, 62-80). *)
Inductive action :=
| ARun (p : program)                (* [cmd_create] and [cmd_exec] *)
| ARead (lock : option nat)         (* [cmd_read_out] of the latest [cmd_t], in [cmd_log] with the lock of the build step or without a lock *)
| AFree.                            (* [cmd_free] of the latest [cmd_t] *)

Inductive at_ :=
| Between
| Piped (i o : nat)                 (* cmd.c 167: [cmd->in] and [cmd->out] are set *)
| Spawned (i o : nat)               (* cmd.c 191: [posix_spawnp] has returned *)
| Waiting (o : nat)                 (* cmd.c 213: inside [waitpid] *)
| Reading (got : bytes)             (* cmd.c 257: inside the loop *)
| HasRead (got : bytes).            (* cmd.c 263: [read] has returned 0 *)

(** [kept]: [cmd->out] of the [cmd_t]s that are in use, the latest first. [texts]: what [cmd_read_out] returned. *)
Record thread := Thread { todo : list action; now : at_; kept : list nat; texts : list bytes }.

Inductive child :=
| NoChild
| Running (stdout : nat) (togo : bytes) (holds : list pend) (stay : bool)
| Ended.                            (* not waited for yet *)

Record jst := JSt {
  threads : nat -> thread;
  children : nat -> child;          (* by the thread that spawned it *)
  fds : nat -> option pend;
  pipes : nat -> bytes;
  fresh : nat;
  locks : nat -> option nat;
  background : list pend;
}.

Definition set {A} (f : nat -> A) (k : nat) (x : A) (n : nat) : A := if Nat.eqb n k then x else f n.

Section Jobs.
(** The capacity of pipes, the number of descriptors there can be, the number of threads. *)
Variables cap limit n : nat.

(** What a child gets: a copy of the table, without [cmd->out] (cmd.c 181). *)
Definition inherited (f : nat -> option pend) (o : nat) : list pend :=
  flat_map (fun d => if Nat.eqb d o then [] else match f d with Some e => [e] | None => [] end) (seq 0 limit).

Definition held (s : jst) (e : pend) : Prop :=
  (exists d, fds s d = Some e) \/ (exists w p t h b, w < n /\ children s w = Running p t h b /\ In e h) \/ In e (background s).

Definition with_thread (s : jst) (w : nat) (t : thread) : jst :=
  JSt (set (threads s) w t) (children s) (fds s) (pipes s) (fresh s) (locks s) (background s).
Definition with_child (s : jst) (w : nat) (c : child) : jst :=
  JSt (threads s) (set (children s) w c) (fds s) (pipes s) (fresh s) (locks s) (background s).
Definition with_fd (s : jst) (d : nat) (e : option pend) : jst :=
  JSt (threads s) (children s) (set (fds s) d e) (pipes s) (fresh s) (locks s) (background s).
Definition with_pipe (s : jst) (p : nat) (b : bytes) : jst :=
  JSt (threads s) (children s) (fds s) (set (pipes s) p b) (fresh s) (locks s) (background s).
Definition with_lock (s : jst) (l : option nat) (h : option nat) : jst :=
  match l with Some l => JSt (threads s) (children s) (fds s) (pipes s) (fresh s) (set (locks s) l h) (background s) | None => s end.
Definition with_background (s : jst) (h : list pend) : jst :=
  JSt (threads s) (children s) (fds s) (pipes s) (fresh s) (locks s) (h ++ background s).
Definition with_fresh (s : jst) : jst :=
  JSt (threads s) (children s) (fds s) (pipes s) (Datatypes.S (fresh s)) (locks s) (background s).

Inductive jstep : jst -> jst -> Prop :=
(* cmd.c 160-166: [pipe] gives two unused descriptors. *)
| j_pipe s w p r k x i o :
    w < n -> threads s w = Thread (ARun p :: r) Between k x -> i < limit -> o < limit -> i <> o -> fds s i = None -> fds s o = None ->
    jstep s (with_thread (with_fresh (with_pipe (with_fd (with_fd s i (Some (fresh s, Wr))) o (Some (fresh s, Rd))) (fresh s) [])) w (Thread (ARun p :: r) (Piped i o) k x))
(* cmd.c 177-191: the child writes to the pipe that [cmd->in] stands for. *)
| j_spawn s w p r k x i o q :
    w < n -> threads s w = Thread (ARun p :: r) (Piped i o) k x -> fds s i = Some (q, Wr) ->
    jstep s (with_thread (with_child s w (Running q (writes p) (inherited (fds s) o) (stays p))) w (Thread (ARun p :: r) (Spawned i o) k x))
(* cmd.c 202-205 *)
| j_close_in s w a k x i o :
    w < n -> threads s w = Thread a (Spawned i o) k x ->
    jstep s (with_thread (with_fd s i None) w (Thread a (Waiting o) k x))
| j_write s w q b t h y :
    w < n -> children s w = Running q (b :: t) h y -> length (pipes s q) < cap ->
    jstep s (with_child (with_pipe s q (pipes s q ++ [b])) w (Running q t h y))
| j_exit s w q h y :
    w < n -> children s w = Running q [] h y ->
    jstep s (with_child (if y then with_background s h else s) w Ended)
(* cmd.c 213-214: [waitpid] *)
| j_waited s w a r k x o :
    w < n -> threads s w = Thread (a :: r) (Waiting o) k x -> children s w = Ended ->
    jstep s (with_thread (with_child s w NoChild) w (Thread r Between (o :: k) x))
(* class/cc.c 143: [pthread_mutex_lock] *)
| j_lock s w l r k x :
    w < n -> threads s w = Thread (ARead l :: r) Between k x -> match l with Some l => locks s l = None | None => True end ->
    jstep s (with_thread (with_lock s l (Some w)) w (Thread (ARead l :: r) (Reading []) k x))
(* cmd.c 257-263 *)
| j_read s w a o k x got q c rest :
    w < n -> threads s w = Thread a (Reading got) (o :: k) x -> fds s o = Some (q, Rd) ->
    pipes s q = c ++ rest -> c <> [] -> length c <= chunk_size ->
    jstep s (with_thread (with_pipe s q rest) w (Thread a (Reading (got ++ c)) (o :: k) x))
| j_eof s w a o k x got q :
    w < n -> threads s w = Thread a (Reading got) (o :: k) x -> fds s o = Some (q, Rd) -> pipes s q = [] -> ~ held s (q, Wr) ->
    jstep s (with_thread s w (Thread a (HasRead got) (o :: k) x))
(* class/cc.c 145: [pthread_mutex_unlock] *)
| j_unlock s w l r k x got :
    w < n -> threads s w = Thread (ARead l :: r) (HasRead got) k x ->
    jstep s (with_thread (with_lock s l None) w (Thread r Between k (x ++ [got])))
(* cmd.c 360-362 *)
| j_free s w r o k x :
    w < n -> threads s w = Thread (AFree :: r) Between (o :: k) x ->
    jstep s (with_thread (with_fd s o None) w (Thread r Between k x)).

Inductive jruns : nat -> jst -> jst -> Prop :=
| jr_refl s : jruns 0 s s
| jr_step m s s' s'' : jruns m s s' -> jstep s' s'' -> jruns (Datatypes.S m) s s''.

(** Nothing is open, no lock is held. *)
Definition jstart (work : nat -> list action) : jst :=
  JSt (fun w => Thread (work w) Between [] []) (fun _ => NoChild) (fun _ => None) (fun _ => []) 0 (fun _ => None) [].

End Jobs.
