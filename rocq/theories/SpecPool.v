(** * Specification vocabulary for pool executions: statements about event traces only. *)

From Coq Require Import ZArith Lia Bool List.
From Verif Require Import Pool.
Import ListNotations.

Fixpoint count (f : event -> bool) (tr : list event) : nat :=
  match tr with [] => 0 | e :: tr' => (if f e then 1 else 0) + count f tr' end.

(** How often job [i] (position in the queue) was begun / completed without / with a stop request. *)
Definition begins (i : nat) (tr : list event) : nat :=
  count (fun e => match e with EvBegin _ j => Nat.eqb i j | _ => false end) tr.
Definition completions (i : nat) (tr : list event) : nat :=
  count (fun e => match e with EvEnd _ j _ => Nat.eqb i j | _ => false end) tr.
Definition any_begins (tr : list event) : nat :=
  count (fun e => match e with EvBegin _ _ => true | _ => false end) tr.
(** Some job finished with a stop request. *)
Definition some_failure (tr : list event) : Prop := exists w i, In (EvEnd w i true) tr.

(** Jobs in the order in which workers took them. *)
Fixpoint taken (tr : list event) : list nat :=
  match tr with [] => [] | EvClaim _ i :: tr' => i :: taken tr' | _ :: tr' => taken tr' end.

(** The jobs a client queues. *)
Fixpoint queued (os : list op) : list nat :=
  match os with [] => [] | OAdd t :: os' => t :: queued os' | _ :: os' => queued os' end.

(** The client queues every job before it first starts, waits for or frees the pool
    ([compile_step] does: cc.c 240-286). *)
Definition queues_first (os : list op) : Prop :=
  exists ts rest, os = map OAdd ts ++ rest /\ forall t, ~ In (OAdd t) rest.

(** The client frees the pool at most at the very end. *)
Definition frees_last (os : list op) : Prop :=
  ~ In OFree os \/ exists os', os = os' ++ [OFree] /\ ~ In OFree os'.

Section Executions.
Variable Sig : Type.
Variable prog : nat -> list (Sig -> Sig).
Variable stops : nat -> Sig -> bool.

(** Executions of [m] steps, in any schedule. *)
Inductive execution : nat -> st Sig -> st Sig -> Prop :=
| exec_0 s : execution 0 s s
| exec_S m s s' s'' : execution m s s' -> step Sig prog stops s' s'' -> execution (S m) s s''.

(** The client program has returned from its last call. *)
Definition finished (s : st Sig) : Prop := pc Sig s = MIdle /\ ops Sig s = [].

(** A concrete schedule: [None] lets the client move, [Some w] worker [w]. *)
Fixpoint run_schedule (sched : list (option nat)) (s : st Sig) : option (st Sig) :=
  match sched with
  | [] => Some s
  | c :: sched' =>
    match (match c with None => mstep Sig s | Some w => wstep Sig prog stops w s end) with
    | Some s' => run_schedule sched' s'
    | None => None
    end
  end.
End Executions.
