(** * Collecting a command's output through a pipe (src/cmd.c).

    The child writes to a pipe of capacity [cap]; a write blocks while the pipe is full. Bob first waits for the
    child to end (cmd_exec 228-239, wait_for_process 209-226) and reads the pipe only afterwards (cmd_read_out
    241-286). Simplifications: the child is one process, its output is written byte by byte, and the pipe's
    capacity is counted in bytes. In debugging mode there is no pipe. *)

From Coq Require Import Arith Ascii Lia Bool List.
From Verif Require Import Base.
Import ListNotations.

Inductive phase :=
| PWait                                 (* cmd.c 213: inside waitpid *)
| PRead (got : bytes)                   (* cmd.c 257-263: reading *)
| PDone (got : bytes).                  (* cmd_read_out returned *)

Record pst := PSt { buf : bytes; togo : bytes; ended : bool; ph : phase }.

(** cmd.c 255: sizeof chunk. *)
Definition chunk_size : nat := 4096.

Section Pipe.
Variable cap : nat.

Inductive pstep : pst -> pst -> Prop :=
| ps_write b t bf p : length bf < cap -> pstep (PSt bf (b :: t) false p) (PSt (bf ++ [b]) t false p)
| ps_exit bf p : pstep (PSt bf [] false p) (PSt bf [] true p)
| ps_waited bf t : pstep (PSt bf t true PWait) (PSt bf t true (PRead []))
(* read(2) returns some bytes, at most a chunk *)
| ps_read c bf t e got : c <> [] -> length c <= chunk_size ->
    pstep (PSt (c ++ bf) t e (PRead got)) (PSt bf t e (PRead (got ++ c)))
(* read(2) returns 0: nothing left and nobody can write any more *)
| ps_eof t got : pstep (PSt [] t true (PRead got)) (PSt [] t true (PDone got)).

(** Runs with their number of steps. *)
Inductive pruns : nat -> pst -> pst -> Prop :=
| pr_refl s : pruns 0 s s
| pr_step n s s' s'' : pruns n s s' -> pstep s' s'' -> pruns (S n) s s''.

End Pipe.

Definition pstart (output : bytes) : pst := PSt [] output false PWait.
