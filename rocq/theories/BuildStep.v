(** * Build steps (src/build_step.c). *)

From Coq Require Import ZArith Ascii String Lia Bool List.
From Verif Require Import Base.
Import ListNotations.

Section BuildStep.

(** [cb]: identity of a step callback ([compile_step] or [link_step]); [D]: the [void*] payloads. *)
Variables (CB D : Type).
Variable cb_eqb : CB -> CB -> bool.

(** build_step.h 11-18 ([build_step_t]). [data_count] is the length of [data]. *)
Record build_step := Step { bs_unique : Z; bs_name : bytes; bs_cb : CB; bs_data : list D }.

(** A call of [add_build_step]. *)
Record request := Req { rq_unique : Z; rq_name : bytes; rq_cb : CB; rq_data : D }.

(** build_step.c 22-58 ([add_build_step]) with [merge], 12-20, on the growing array [build_steps]
    (here a list, last step last). The two [assert]s are aborts. *)
Definition new_step (r : request) : build_step :=
  Step (rq_unique r) (rq_name r) (rq_cb r) [rq_data r].

Fixpoint add_build_step (steps : list build_step) (r : request) : res (list build_step) :=
  match steps with
  | [] => Ok [new_step r]
  | [last] =>
    if (bs_unique last =? rq_unique r)%Z then
      if negb (bytes_eqb (bs_name last) (rq_name r)) then Abort
      else if negb (cb_eqb (rq_cb r) (bs_cb last)) then Abort
      else Ok [Step (bs_unique last) (bs_name last) (bs_cb last) (bs_data last ++ [rq_data r])]
    else Ok [last; new_step r]
  | s :: rest => bind (add_build_step rest r) (fun rest' => Ok (s :: rest'))
  end.

Fixpoint add_all (steps : list build_step) (rs : list request) : res (list build_step) :=
  match rs with
  | [] => Ok steps
  | r :: rs' => bind (add_build_step steps r) (fun st => add_all st rs')
  end.

(** The world the callbacks act on; a callback returns an [int]. *)
Variable W : Type.
Variable call : CB -> list D -> W -> Z * W.

(** build_step.c 73-83 ([run_build_steps]); also returns the list of steps whose callback was called. *)
Fixpoint run_build_steps (steps : list build_step) (w : W) : Z * W * list build_step :=
  match steps with
  | [] => (0%Z, w, [])
  | s :: rest =>
    let '(rv, w1) := call (bs_cb s) (bs_data s) w in
    if (rv <? 0)%Z then ((-1)%Z, w1, [s])
    else let '(r, w2, tr) := run_build_steps rest w1 in (r, w2, s :: tr)
  end.

End BuildStep.

Arguments Step {CB D}.
Arguments Req {CB D}.
Arguments bs_unique {CB D}.
Arguments bs_name {CB D}.
Arguments bs_cb {CB D}.
Arguments bs_data {CB D}.
Arguments rq_unique {CB D}.
Arguments rq_name {CB D}.
Arguments rq_cb {CB D}.
Arguments rq_data {CB D}.
Arguments add_build_step {CB D}.
Arguments add_all {CB D}.
Arguments run_build_steps {CB D W}.
