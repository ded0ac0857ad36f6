(** * C08 - C12: the thread pool, in every schedule. *)

From Coq Require Import ZArith Lia Bool List.
From Verif Require Import Pool SpecPool PoolProofs.
Import ListNotations.

(** In all of these: [n] workers, client program [os], jobs [prog] (any sequences of actions on a shared
    state of any type), stop requests [stops]; [s] is any state reached by any interleaving. *)

(** ** C08 *)

Theorem C08_no_job_twice :
  forall Sig prog stops n os x s, reachable Sig prog stops n os x s ->
  forall i, begins i (trace Sig s) <= 1.
Proof. intros Sig prog stops n os x s R i. eapply job_once; eauto. Qed.
Print Assumptions C08_no_job_twice.

(** Jobs are taken in the order in which they were queued, without gaps. *)
Theorem C08_queue_order :
  forall Sig prog stops n os x s, reachable Sig prog stops n os x s ->
  taken (trace Sig s) = seq 0 (length (taken (trace Sig s))).
Proof. exact jobs_in_order. Qed.
Print Assumptions C08_queue_order.

(** No two workers are ever inside the same job. *)
Theorem C08_exclusive :
  forall Sig prog stops n os x s w1 w2 i a1 a2, reachable Sig prog stops n os x s ->
  nth_error (workers Sig s) w1 = Some (WRun Sig i a1) -> nth_error (workers Sig s) w2 = Some (WRun Sig i a2) -> w1 = w2.
Proof. exact job_exclusive. Qed.
Print Assumptions C08_exclusive.

(** ** C09 *)

(** For a pool with at least one worker (C35) and a client that queues its jobs before waiting (as
    [compile_step] does): at the moment waiting returns 0, every queued job has been started and has
    finished exactly once, and none asked to stop. *)
Theorem C09_success_means_all_ran :
  forall Sig prog stops n os x s tr1 tr2,
  1 <= n -> queues_first os -> reachable Sig prog stops n os x s -> trace Sig s = tr1 ++ EvRet 0 :: tr2 ->
  ~ some_failure tr1 /\
  forall i, i < length (queued os) -> begins i tr1 = 1 /\ completions i tr1 = 1.
Proof. exact wait_success. Qed.
Print Assumptions C09_success_means_all_ran.

(** Whatever waiting returns, no job is left half-way. *)
Theorem C09_nothing_left_running :
  forall Sig prog stops n os x s tr1 rv tr2 i,
  reachable Sig prog stops n os x s -> trace Sig s = tr1 ++ EvRet rv :: tr2 -> completions i tr1 = begins i tr1.
Proof. exact wait_quiescent. Qed.
Print Assumptions C09_nothing_left_running.

(** ** C10 *)

Theorem C10_failure_reported :
  forall Sig prog stops n os x s tr1 rv tr2,
  frees_last os -> reachable Sig prog stops n os x s -> trace Sig s = tr1 ++ EvRet rv :: tr2 ->
  (rv = 0 \/ rv = -1)%Z /\ (rv = (-1)%Z <-> some_failure tr1).
Proof. exact wait_failure_iff. Qed.
Print Assumptions C10_failure_reported.

(** ** C11 *)

Theorem C11_few_jobs_after_failure :
  forall Sig prog stops n os x s tr1 w tr2,
  reachable Sig prog stops n os x s -> trace Sig s = tr1 ++ EvErr w :: tr2 -> any_begins tr2 <= n - 1.
Proof. exact after_failure. Qed.
Print Assumptions C11_few_jobs_after_failure.

(** ** C12 *)

Theorem C12_no_deadlock :
  forall Sig prog stops n os x s, reachable Sig prog stops n os x s ->
  finished Sig s \/ exists s', step Sig prog stops s s'.
Proof. exact progress. Qed.
Print Assumptions C12_no_deadlock.

Theorem C12_terminates :
  forall Sig prog stops n os x, exists bound,
  forall m s, execution Sig prog stops m (init Sig n os x) s -> m <= bound.
Proof.
  intros Sig prog stops n os x. exists (measure Sig prog (init Sig n os x)). intros m s H.
  pose proof (nsteps_bound Sig prog stops n os x m s H). lia.
Qed.
Print Assumptions C12_terminates.

(** ** Concrete executions *)

Lemma by_schedule (prog : nat -> list (nat -> nat)) stops n os x sched (P : st nat -> Prop) :
  match run_schedule nat prog stops sched (init nat n os x) with Some s => P s | None => False end ->
  exists s, reachable nat prog stops n os x s /\ P s.
Proof.
  destruct (run_schedule nat prog stops sched (init nat n os x)) as [s|] eqn:E; [|intros []].
  intros H. exists s. split; auto. eapply run_schedule_steps; exact E.
Qed.


(** The client of [compile_step] with two jobs; job 1 adds 1 to the shared counter, job 0 adds 10 and
    then asks to stop if [fail]. *)
Definition ex_prog (t : nat) : list (nat -> nat) := match t with O => [fun x => x + 10] | _ => [fun x => x + 1] end.
Definition ex_stops (fail : bool) (t x : nat) : bool := match t with O => fail | _ => false end.
Definition ex_client := [OAdd 0; OAdd 1; OWait; OFree].
Definition two_jobs : list (option nat) :=
  [None; None; None; None; None; None;                    (* two adds, wait: create both workers *)
   Some 0; Some 0; Some 0; Some 0; Some 0;                 (* worker 0 takes job 0 *)
   Some 1; Some 1; Some 1; Some 1; Some 1;                 (* worker 1 takes job 1 *)
   Some 1; Some 1; Some 0; Some 0].                        (* both run to the end *)
Definition all_ok : list (option nat) :=
  two_jobs ++ [Some 0; Some 0; Some 0; Some 0; Some 1; Some 1; Some 1; Some 1; None; None; None].
Definition one_fails : list (option nat) :=
  two_jobs ++ [Some 0; Some 0; Some 1; None; None; None].

Lemma ex_queues_first : queues_first ex_client.
Proof. exists [0; 1], [OWait; OFree]. split; auto. intros t [H|[H|[]]]; discriminate. Qed.

Lemma ex_frees_last : frees_last ex_client.
Proof. right. exists [OAdd 0; OAdd 1; OWait]. split; auto. simpl. intuition discriminate. Qed.

Example C09_nonvacuous :
  exists s, reachable nat ex_prog (ex_stops false) 2 ex_client 0 s /\ sig nat s = 11 /\
  trace nat s = [EvClaim 0 0; EvBegin 0 0; EvClaim 1 1; EvBegin 1 1; EvEnd 1 1 false; EvEnd 0 0 false] ++ EvRet 0 :: [].
Proof. apply (by_schedule _ _ _ _ _ all_ok). vm_compute. repeat split; reflexivity. Qed.

Example C10_nonvacuous :
  exists s, reachable nat ex_prog (ex_stops true) 2 ex_client 0 s /\
  trace nat s = [EvClaim 0 0; EvBegin 0 0; EvClaim 1 1; EvBegin 1 1; EvEnd 1 1 false; EvEnd 0 0 true; EvErr 0] ++ EvRet (-1) :: [].
Proof. apply (by_schedule _ _ _ _ _ one_fails). vm_compute. repeat split; reflexivity. Qed.

(** The bound of C11 is reached: worker 1 is already past its check of the error flag when job 0 fails. *)
Definition late_start : list (option nat) :=
  [None; None; None; None; None; None; Some 0; Some 0; Some 0; Some 0; Some 0; Some 0; Some 1; Some 0; Some 0;
   Some 1; Some 1; Some 1; Some 1].
Example C11_bound_reached :
  exists s, reachable nat ex_prog (ex_stops true) 2 ex_client 0 s /\
  trace nat s = [EvClaim 0 0; EvBegin 0 0; EvEnd 0 0 true] ++ EvErr 0 :: [EvClaim 1 1; EvBegin 1 1] /\
  any_begins [EvClaim 1 1; EvBegin 1 1] = 2 - 1.
Proof. apply (by_schedule _ _ _ _ _ late_start). vm_compute. repeat split; reflexivity. Qed.

(** The hypothesis of C09 that jobs are queued first is needed: a job queued after starting may be lost, and
    waiting still reports success. (Bob itself never uses the pool this way.) *)
Definition lost_client := [OStart; OAdd 0; OWait].
Definition lost_sched : list (option nat) :=
  [None; None; None; Some 0; Some 0; Some 0; Some 0; None; None; None; None].
Example C09_late_job_lost :
  exists s, reachable nat ex_prog (ex_stops false) 1 lost_client 0 s /\ trace nat s = [EvRet 0] /\ queued lost_client = [0].
Proof. apply (by_schedule _ _ _ _ _ lost_sched). vm_compute. repeat split; reflexivity. Qed.

(** C12: a bound for the example above, and an execution ending with the client finished. *)
Example C12_nonvacuous :
  measure nat ex_prog (init nat 2 ex_client 0) = 60 /\
  exists s, reachable nat ex_prog (ex_stops false) 2 ex_client 0 s /\ finished nat s.
Proof.
  split; [reflexivity|].
  apply (by_schedule _ _ _ _ _ (all_ok ++ [None; None; None; None])). vm_compute. repeat split; reflexivity.
Qed.
