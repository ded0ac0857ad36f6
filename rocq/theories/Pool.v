(** * The worker pool (src/pool.c), as an interleaving small-step semantics.

    One step per shared access or lock operation, sequentially consistent memory. The C code reads and
    writes [pool->error] without holding the lock; the model treats these accesses as atomic.
    Thread creation is assumed to succeed ([pthread_create]'s result is ignored by the code). *)

From Coq Require Import ZArith Lia Bool List.
Import ListNotations.

Section Pool.

(** The state shared by the jobs (for Bob: the file system). *)
Variable Sig : Type.
(** What job [t] does: a sequence of atomic actions on the shared state, and whether it asks to stop
    (its return value), which may depend on the shared state at its end. *)
Variable prog : nat -> list (Sig -> Sig).
Variable stops : nat -> Sig -> bool.

(** Operations of the client thread. *)
Inductive op := OAdd (t : nat) | OStart | OWait | OFree.

(** Program counter of a worker ([businessman], pool.c 9-55). *)
Inductive wpc :=
| WNone                                         (* not created yet *)
| WCheck                                        (* line 12: while (!pool->error) *)
| WLock                                         (* line 15: about to lock *)
| WScan                                         (* lines 16-24: holds the lock, scans the queue *)
| WMark (i : nat)                               (* line 36: found task i, about to set started *)
| WUnlock (i : nat)                             (* line 41: about to unlock, then run task i *)
| WRun (i : nat) (acts : list (Sig -> Sig))     (* line 43: inside fn(data) *)
| WSetErr                                       (* line 51: fn returned true; about to set error *)
| WUnlockExit                                   (* lines 28-29: queue exhausted; unlock and break *)
| WExit.                                        (* returned *)

(** Program counter of the client thread. *)
Inductive after := AIdle | AJoin (ret : bool).
Inductive mpc :=
| MIdle
| MCreate (k : nat) (a : after)                 (* pool_start, lines 105-107: about to create worker k *)
| MJoin (k : nat) (ret : bool).                 (* pool_wait, lines 116-125: about to join worker k *)

(** Observable events. *)
Inductive event :=
| EvClaim (w i : nat)                           (* worker w takes queue entry i *)
| EvBegin (w i : nat)                           (* worker w starts executing it *)
| EvEnd (w i : nat) (stop : bool)               (* execution finished with this result *)
| EvErr (w : nat)                               (* worker w records the failure *)
| EvRet (rv : Z).                               (* pool_wait returned rv to the client *)

(** pool.h 9-31. [queue]: task data and [started]; [handles]: is [businessmen[i]] non-zero. *)
Record st := St {
  queue : list (nat * bool);
  err : bool;
  started : bool;
  lock : option nat;
  workers : list wpc;
  handles : list bool;
  pc : mpc;
  ops : list op;
  sig : Sig;
  trace : list event;                           (* newest event last *)
}.

(** pool_init (pool.c 57-72) followed by the client program [os]. *)
Definition init (n : nat) (os : list op) (s0 : Sig) : st :=
  St [] false false None (repeat WNone n) (repeat false n) MIdle os s0 [].

Fixpoint upd {A} (l : list A) (k : nat) (x : A) : list A :=
  match l, k with
  | [], _ => []
  | _ :: l', O => x :: l'
  | y :: l', S k' => y :: upd l' k' x
  end.

(** pool.c 18-24: index of the first task not started. *)
Fixpoint first_unstarted (q : list (nat * bool)) : option nat :=
  match q with
  | [] => None
  | (_, false) :: _ => Some 0
  | (_, true) :: q' => option_map S (first_unstarted q')
  end.

Definition task_of (s : st) (i : nat) : nat := fst (nth i (queue s) (0, false)).

Definition set_worker (s : st) (w : nat) (p : wpc) (ev : list event) : st :=
  St (queue s) (err s) (started s) (lock s) (upd (workers s) w p) (handles s) (pc s) (ops s) (sig s) (trace s ++ ev).

Definition set_lock (s : st) (l : option nat) : st :=
  St (queue s) (err s) (started s) l (workers s) (handles s) (pc s) (ops s) (sig s) (trace s).

Definition set_err (s : st) : st :=
  St (queue s) true (started s) (lock s) (workers s) (handles s) (pc s) (ops s) (sig s) (trace s).

Definition set_queue (s : st) (q : list (nat * bool)) : st :=
  St q (err s) (started s) (lock s) (workers s) (handles s) (pc s) (ops s) (sig s) (trace s).

Definition set_sig (s : st) (x : Sig) : st :=
  St (queue s) (err s) (started s) (lock s) (workers s) (handles s) (pc s) (ops s) x (trace s).

Definition mark (q : list (nat * bool)) (i : nat) : list (nat * bool) :=
  match nth_error q i with Some (t, _) => upd q i (t, true) | None => q end.

(** One step of worker [w]: pool.c 9-55 ([businessman]). *)
Definition wstep (w : nat) (s : st) : option st :=
  match nth_error (workers s) w with
  | None | Some WNone | Some WExit => None
  | Some WCheck =>                              (* line 12 *)
    Some (set_worker s w (if err s then WExit else WLock) [])
  | Some WLock =>                               (* line 15 *)
    match lock s with
    | None => Some (set_worker (set_lock s (Some w)) w WScan [])
    | Some _ => None
    end
  | Some WScan =>                               (* lines 16-24 *)
    Some (set_worker s w (match first_unstarted (queue s) with Some i => WMark i | None => WUnlockExit end) [])
  | Some (WMark i) =>                           (* lines 36-39 *)
    Some (set_worker (set_queue s (mark (queue s) i)) w (WUnlock i) [EvClaim w i])
  | Some (WUnlock i) =>                         (* line 41 *)
    Some (set_worker (set_lock s None) w (WRun i (prog (task_of s i))) [EvBegin w i])
  | Some (WRun i (a :: acts)) =>                (* line 43: fn(data), one action *)
    Some (set_worker (set_sig s (a (sig s))) w (WRun i acts) [])
  | Some (WRun i []) =>                         (* line 43: fn returns *)
    let b := stops (task_of s i) (sig s) in
    Some (set_worker s w (if b then WSetErr else WCheck) [EvEnd w i b])
  | Some WSetErr =>                             (* line 51 *)
    Some (set_worker (set_err s) w WCheck [EvErr w])
  | Some WUnlockExit =>                         (* lines 28-29 *)
    Some (set_worker (set_lock s None) w WExit [])
  end.

Definition set_main (s : st) (p : mpc) (os : list op) (ev : list event) : st :=
  St (queue s) (err s) (started s) (lock s) (workers s) (handles s) p os (sig s) (trace s ++ ev).

Definition start_or (s : st) (a : after) (os : list op) : st :=
  if started s then
    match a with AIdle => set_main s MIdle os [] | AJoin r => set_main s (MJoin 0 r) os [] end
  else set_main s (MCreate 0 a) os [].

(** One step of the client thread. *)
Definition mstep (s : st) : option st :=
  match pc s with
  | MIdle =>
    match ops s with
    | [] => None
    | OAdd t :: os =>                           (* pool_add_task, 85-98: one critical section *)
      match lock s with
      | None => Some (set_main (set_queue s (queue s ++ [(t, false)])) MIdle os [])
      | Some _ => None
      end
    | OStart :: os => Some (start_or s AIdle os)              (* pool_start, 100-103 *)
    | OWait :: os => Some (start_or s (AJoin true) os)        (* pool_wait, 113-114 *)
    | OFree :: os => Some (start_or (set_err s) (AJoin false) os)  (* pool_free, 74-76 *)
    end
  | MCreate k a =>                              (* pool_start, 105-110 *)
    if Nat.ltb k (length (workers s)) then
      Some (St (queue s) (err s) (started s) (lock s) (upd (workers s) k WCheck) (upd (handles s) k true)
               (MCreate (S k) a) (ops s) (sig s) (trace s))
    else
      Some (St (queue s) (err s) true (lock s) (workers s) (handles s)
               (match a with AIdle => MIdle | AJoin r => MJoin 0 r end) (ops s) (sig s) (trace s))
  | MJoin k ret =>                              (* pool_wait, 116-127 *)
    if Nat.ltb k (length (workers s)) then
      match nth_error (handles s) k, nth_error (workers s) k with
      | Some true, Some WExit =>                (* pthread_join returns *)
        Some (St (queue s) (err s) (started s) (lock s) (workers s) (upd (handles s) k false)
                 (MJoin (S k) ret) (ops s) (sig s) (trace s))
      | Some true, _ => None                    (* pthread_join blocks *)
      | _, _ => Some (set_main s (MJoin (S k) ret) (ops s) [])   (* handle is 0: continue *)
      end
    else Some (set_main s MIdle (ops s) (if ret then [EvRet (if err s then -1 else 0)%Z] else []))
  end.

(** Any thread may take the next step. *)
Definition step (s s' : st) : Prop := mstep s = Some s' \/ exists w, wstep w s = Some s'.

Inductive steps : st -> st -> Prop :=
| steps_refl s : steps s s
| steps_snoc s s' s'' : steps s s' -> step s' s'' -> steps s s''.

Definition reachable (n : nat) (os : list op) (s0 : Sig) (s : st) : Prop := steps (init n os s0) s.

End Pool.
