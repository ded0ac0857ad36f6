(** * Several Bobs at work in one project at the same time.

    Nothing in the code keeps two processes from working in one output directory (main.c 150-156 only creates it).
    Their actions interleave on the file system; each process is the one of Build.v, cut into its actions. *)

From Coq Require Import ZArith Ascii String Lia Bool List.
From Verif Require Import Base FileSys Frugal Deps Log Cookie Build.
Import ListNotations.

(** Where a process is. [bs]: the steps after the present one; [jobs]: the sources found to need compiling. *)
Inductive pc :=
| PNext (bs : list bstep)
| PFlags (its jobs : list item) (bs : list bstep)
| PTimes (it : item) (its jobs : list item) (bs : list bstep)
| PShow (it : item) (its jobs : list item) (bs : list bstep)
| PJobs (ok : bool) (jobs : list item) (ls : nat -> local) (done : nat -> nat) (bs : list bstep)
| PLink (r : link_req) (bs : list bstep)
| PLinkTimes (r : link_req) (bs : list bstep)
| PLinkShow (r : link_req) (bs : list bstep)
| PLinkOpen (r : link_req) (bs : list bstep)
| PLinkRun (r : link_req) (bs : list bstep)
| PLinkSave (r : link_req) (ok : bool) (text : bytes) (bs : list bstep)
| PLinkPut (r : link_req) (bs : list bstep)
| PEnd (rv : Z).

Section Together.
Variable E : env.
(** Whether what a tool writes appears all at once. If not, the output is empty from when the tool opens it until
    it is done. *)
Variable whole : bool.

Definition open_at (w : world) (out : bytes) : world :=
  if whole then w
  else set_files w (match write_file (can_write E) (now E w) (files w) out [] with Some f' => f' | None => files w end).

(** cc.c 121-133: the compiler is started. *)
Definition act_open (it : item) (s : jst) : jst := JSt (open_at (jw s) (it_out it)) (locs s).

(** cc.c 110-160 ([compile_task]). *)
Definition job_acts (t : nat) (it : item) : list (jst -> jst) :=
  [act_deps E t it; act_write_deps E t it; act_open it; act_compile E t it; act_log E t it; act_install E t it].

Definition bump (done : nat -> nat) (t : nat) : nat -> nat := fun u => if Nat.eqb u t then S (done u) else done u.

(** The pool is done: every job ended, none failed. *)
Definition all_done (jobs : list item) (ls : nat -> local) (done : nat -> nat) : bool :=
  forallb (fun t => (6 <=? done t)%nat && negb (l_fail (ls t))) (seq 0 (length jobs)).
Definition some_failed (jobs : list item) (ls : nat -> local) : bool :=
  existsb (fun t => l_fail (ls t)) (seq 0 (length jobs)).

(** One action of one process; [c] chooses the job that moves. Simplifications: looking at a record and replacing it
    is one action, and so is the comparison of times; any number of jobs may move, also after a failure, and a
    process may give up on its jobs once one has failed (the pool of C08-C12 allows fewer courses). *)
Definition pstep (c : nat) (p : pc) (w : world) : option (pc * world) :=
  match p with
  (* build_step.c 73-83 *)
  | PNext [] => Some (PEnd 0, w)
  | PNext (SCompile its :: bs) => Some (PFlags its [] bs, w)
  | PNext (SLink r :: bs) => Some (PLink r bs, w)
  (* cc.c 168-279, as Build.validate and Build.validate_all *)
  | PFlags [] jobs bs => Some (PJobs true jobs (fun _ => local0) (fun _ => O) bs, w)
  | PFlags (it :: its) jobs bs =>
    let '(changed, f1) := frugal_flags (can_write E) (now E w) (files w) (it_flags it) (it_out it) in
    Some (if changed then PFlags its (jobs ++ [it]) bs else PTimes it its jobs bs, set_files w f1)
  | PTimes it its jobs bs =>
    match read_file (files w) (deps_path (it_out it)) with
    | None => Some (PFlags its (jobs ++ [it]) bs, w)
    | Some c =>
      match frugal_mtime (files w) (it_src it :: read_deps c) (it_out it) with
      | None => Some (PJobs false jobs (fun _ => local0) (fun _ => O) bs, w)
      | Some true => Some (PFlags its (jobs ++ [it]) bs, w)
      | Some false => Some (PShow it its jobs bs, w)
      end
    end
  | PShow it its jobs bs =>
    let w2 := set_shown w (it_out it) (log_already_done (files w) (it_out it)) in
    let '(ok, f2) := installer E (it_out it) (now E w2) (files w2) in
    Some (if ok then PFlags its jobs bs else PJobs false jobs (fun _ => local0) (fun _ => O) bs, set_files w2 f2)
  (* cc.c 281-292 *)
  | PJobs ok jobs ls done bs =>
    match nth_error jobs c with
    | Some it =>
      match nth_error (job_acts c it) (done c) with
      | Some a => let s := a (JSt w ls) in Some (PJobs ok jobs (locs s) (bump done c) bs, jw s)
      | None => None
      end
    | None =>
      if ok && all_done jobs ls done then Some (PNext bs, w)
      else if negb ok || some_failed jobs ls then Some (PEnd (-1), w)
      else None
    end
  (* linker.c 43-161, as Build.link_step and Build.do_link *)
  | PLink r bs =>
    let '(changed, f1) := frugal_flags (can_write E) (now E w) (files w) (lk_flags r) (lk_out r) in
    Some (if changed then PLinkOpen r bs else PLinkTimes r bs, set_files w f1)
  | PLinkTimes r bs =>
    match frugal_mtime (files w) (lk_srcs r) (lk_out r) with
    | Some false => Some (PLinkShow r bs, w)
    | _ => Some (PLinkOpen r bs, w)
    end
  | PLinkShow r bs =>
    let w2 := set_shown w (lk_out r) (log_already_done (files w) (lk_out r)) in
    let '(ok, f2) := installer E (lk_out r) (now E w2) (files w2) in
    Some (if ok then PNext bs else PEnd (-1), set_files w2 f2)
  | PLinkOpen r bs => Some (PLinkRun r bs, open_at w (lk_out r))
  | PLinkRun r bs =>
    let '(ok, text, f) :=
      apply_tool E (ld E (lk_kind r) (match lk_kind r with Link => lib_prefix E | Archive => None end) (lk_out r)
                     (lk_srcs r) (argv_flags (lk_flags r)) (files w))
                 (now E w) (files w) (lk_out r) in
    Some (PLinkSave r ok text bs, set_ran (set_files w f) (CmdLink (lk_kind r) (lk_out r)))
  | PLinkSave r ok text bs =>
    let '(printed, f2) := cmd_log (can_write E) (now E w) (files w) (lk_out r) text in
    Some (if ok then PLinkPut r bs else PEnd (-1), set_shown (set_files w f2) (lk_out r) printed)
  | PLinkPut r bs =>
    let '(ok, f3) := installer E (lk_out r) (now E w) (files w) in
    Some (if ok then PNext bs else PEnd (-1), set_files w f3)
  | PEnd _ => None
  end.

(** Any number of processes over one file system. A process that is killed makes no more steps. *)
Record sys := Sys { procs : nat -> pc; shared : world }.

Inductive moves : sys -> sys -> Prop :=
| mv s i c p w : pstep c (procs s i) (shared s) = Some (p, w) ->
    moves s (Sys (fun j => if Nat.eqb j i then p else procs s j) w).

Inductive goes : sys -> sys -> Prop :=
| go_none s : goes s s
| go_more s s1 s2 : goes s s1 -> moves s1 s2 -> goes s s2.

End Together.
