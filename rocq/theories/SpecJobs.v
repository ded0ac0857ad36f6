(** * What is expected of threads that run commands. *)

From Coq Require Import Arith Bool List.
From Verif Require Import Base Jobs.
Import ListNotations.

(** The commands of a thread are nested, at most [depth] at a time; each is read once at most, while it is in use, and freed in the end. [st]: the commands in use, the latest first; [None] if read. *)
Fixpoint nested (depth : nat) (st : list (option program)) (l : list action) : Prop :=
  match l with
  | [] => st = []
  | ARun p :: r => length st < depth /\ nested depth (Some p :: st) r
  | ARead _ :: r => match st with Some _ :: st' => nested depth (None :: st') r | _ => False end
  | AFree :: r => match st with _ :: st' => nested depth st' r | [] => False end
  end.

(** For each reading, what the program that it is for wrote. *)
Fixpoint wrote (st : list (option program)) (l : list action) : list bytes :=
  match l with
  | [] => []
  | ARun p :: r => wrote (Some p :: st) r
  | ARead _ :: r => match st with Some p :: st' => writes p :: wrote (None :: st') r | _ => [] end
  | AFree :: r => match st with _ :: st' => wrote st' r | [] => [] end
  end.

Definition all_programs (P : program -> Prop) (n : nat) (work : nat -> list action) : Prop :=
  forall w p, w < n -> In (ARun p) (work w) -> P p.

(** The thread has done all its work. *)
Definition through (s : jst) (w : nat) : Prop := todo (threads s w) = [] /\ now (threads s w) = Between.

(** The thread reads and prints an output, with the lock [l] of a build step. *)
Definition logging (s : jst) (w l : nat) : Prop :=
  (exists r, todo (threads s w) = ARead (Some l) :: r) /\ match now (threads s w) with Reading _ | HasRead _ => True | _ => False end.

(** The compilation of a source (class/cc.c 110-159): the preprocessor for its dependencies, the compiler, and perhaps copying what was installed, with the removal of what was there (install.c). *)
Definition compile (lock : nat) (cpp cc : program) (copies : list program) : list action :=
  [ARun cpp; ARead None; AFree; ARun cc; ARead (Some lock)] ++ flat_map (fun p => [ARun p; AFree]) copies ++ [AFree].

(** How many steps an action can take. *)
Definition cost (a : action) : nat := match a with ARun p => 6 + 2 * length (writes p) | ARead _ => 3 | AFree => 1 end.
Definition costs (l : list action) : nat := list_sum (map cost l).
Definition total (n : nat) (f : nat -> nat) : nat := list_sum (map f (seq 0 n)).
