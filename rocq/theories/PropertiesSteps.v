(** * C06, C07: build requests and steps. *)

From Coq Require Import ZArith Ascii String Lia Bool List.
From Verif Require Import Base BuildStep SpecSteps BuildStepProofs.
Import ListNotations.

(** ** C06 *)

(** Registering never aborts, and running the registered steps performs exactly the requested operations,
    in order, each once; a failing run performs an initial part of them. *)
Theorem C06_requests_in_order :
  forall (CB D W : Type) (cb_eqb : CB -> CB -> bool), (forall a b, cb_eqb a b = true <-> a = b) ->
  forall (rs : list (request CB D)), consistent_keys rs ->
  exists steps, add_all cb_eqb [] rs = Ok steps /\
  forall (call : CB -> list D -> W -> Z * W) w rv w' tr, run_build_steps call steps w = (rv, w', tr) ->
    (rv = 0%Z -> performed tr = requested rs) /\
    (rv <> 0%Z -> exists rest, performed tr ++ rest = requested rs).
Proof. exact run_requests. Qed.
Print Assumptions C06_requests_in_order.

(** ** C07 *)

Theorem C07_failing_step_stops :
  forall (CB D W : Type) (call : CB -> list D -> W -> Z * W) steps w rv w' tr,
  run_build_steps call steps w = (rv, w', tr) ->
  (rv = 0%Z /\ tr = steps) \/
  (rv = (-1)%Z /\ exists before s after wf,
     steps = before ++ s :: after /\ tr = before ++ [s] /\
     run_build_steps call before w = (0%Z, wf, before) /\
     (fst (call (bs_cb s) (bs_data s) wf) < 0)%Z /\ w' = snd (call (bs_cb s) (bs_data s) wf)).
Proof. intros CB D W call steps w rv w' tr. apply run_trace. Qed.
Print Assumptions C07_failing_step_stops.

Theorem C07_success_means_all_succeeded :
  forall (CB D W : Type) (call : CB -> list D -> W -> Z * W) steps w w' tr,
  run_build_steps call steps w = (0%Z, w', tr) ->
  forall before s after, steps = before ++ s :: after ->
  exists ws, run_build_steps call before w = (0%Z, ws, before) /\ (0 <= fst (call (bs_cb s) (bs_data s) ws))%Z.
Proof. intros CB D W call steps w w' tr. apply run_ok_all. Qed.
Print Assumptions C07_success_means_all_succeeded.

(** Compiling twice on one compiler, linking, compiling again on the same compiler: the first two merge. *)
Definition ex_reqs : list (request bool nat) :=
  [Req 100 (lit "C compilation") true 1; Req 100 (lit "C compilation") true 2;
   Req 200 (lit "Link") false 3; Req 100 (lit "C compilation") true 4].

Example C06_nonvacuous :
  consistent_keys ex_reqs /\
  add_all Bool.eqb [] ex_reqs =
    Ok [Step 100 (lit "C compilation") true [1; 2]; Step 200 (lit "Link") false [3];
        Step 100 (lit "C compilation") true [4]] /\
  requested ex_reqs = [(true, 1); (true, 2); (false, 3); (true, 4)].
Proof.
  split; [|split; reflexivity].
  intros a b Ha Hb E. simpl in Ha, Hb.
  repeat (destruct Ha as [<-|Ha]; [repeat (destruct Hb as [<-|Hb]; [simpl in *; try lia; auto|]); destruct Hb|]). destruct Ha.
Qed.

(** A run in which the link step fails: the compile after it is not performed. *)
Example C07_nonvacuous :
  let call := fun (cb : bool) (d : list nat) (w : nat) => (if cb then 0%Z else (-1)%Z, w + length d) in
  exists steps tr, add_all Bool.eqb [] ex_reqs = Ok steps /\
  run_build_steps call steps 0 = ((-1)%Z, 3, tr) /\ performed tr = [(true, 1); (true, 2); (false, 3)].
Proof. cbn. do 2 eexists. repeat split; reflexivity. Qed.
