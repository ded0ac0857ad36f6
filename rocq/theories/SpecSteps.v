(** * Specification vocabulary for build requests. *)

From Coq Require Import ZArith List.
From Verif Require Import Base BuildStep.
Import ListNotations.

(** The individual operations performed by a sequence of executed steps, in order: each step hands its
    payloads to its callback, in order. *)
Fixpoint performed {CB D} (tr : list (build_step CB D)) : list (CB * D) :=
  match tr with
  | [] => []
  | s :: tr' => map (fun d => (bs_cb s, d)) (bs_data s) ++ performed tr'
  end.

(** The operations the script asked for, in order. *)
Definition requested {CB D} (rs : list (request CB D)) : list (CB * D) :=
  map (fun r => (rq_cb r, rq_data r)) rs.

(** Requests with the same key agree on name and callback: what the callers in the C code guarantee (keys
    are addresses of live objects, one kind of request per object). *)
Definition consistent_keys {CB D} (rs : list (request CB D)) : Prop :=
  forall a b, In a rs -> In b rs -> rq_unique a = rq_unique b -> rq_name a = rq_name b /\ rq_cb a = rq_cb b.
