(** * Specification vocabulary for commands. *)

From Coq Require Import ZArith Ascii String Lia Bool List.
From Verif Require Import Base Cmd.
Import ListNotations.
Local Open Scope Z_scope.

(** How a process can end, and the status word the kernel reports for it. *)
Inductive ending := Exited (code : Z) | Killed (signal : Z) (core : bool).
Definition possible (e : ending) : Prop := match e with Exited _ => True | Killed s _ => 0 < s < 127 end.
Definition status_of (e : ending) : Z :=
  match e with
  | Exited code => 256 * (code mod 256)
  | Killed s core => s + (if core then 128 else 0)
  end.
(** Only the low eight bits of an exit code are kept by the system. *)
Definition ended_well (e : ending) : Prop := exists code, e = Exited code /\ code mod 256 = 0.

(** $PATH made of directories. *)
Fixpoint path_of (dirs : list bytes) : bytes :=
  match dirs with
  | [] => []
  | [d] => d
  | d :: rest => d ++ [COLON] ++ path_of rest
  end.

Definition in_dir (d name : bytes) : bytes := d ++ lit "/" ++ name.
Definition runnable (look : bytes -> node) (p : bytes) : Prop := look p = FileNode true.

(** [p] is the first runnable file called [name] along the directories. *)
Definition first_along (look : bytes -> node) (dirs : list bytes) (name p : bytes) : Prop :=
  exists pre d post, dirs = pre ++ d :: post /\ p = in_dir d name /\ runnable look p /\
  forall e, In e pre -> ~ runnable look (in_dir e name).
Definition nowhere (look : bytes -> node) (dirs : list bytes) (name : bytes) : Prop :=
  forall d, In d dirs -> ~ runnable look (in_dir d name).

(** A list of directories as it appears in $PATH. *)
Definition path_dirs (dirs : list bytes) : Prop := dirs <> [] /\ forall d, In d dirs -> ~ In COLON d /\ d <> [].
Definition bare (name : bytes) : Prop := ~ In SLASH name.
