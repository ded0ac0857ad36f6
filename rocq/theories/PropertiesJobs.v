(** * C72: commands that run at the same time. *)

From Coq Require Import Arith Ascii String Lia Bool List.
From Verif Require Import Base Pipe Jobs SpecJobs JobsProofs.
Import ListNotations.
Local Open Scope nat_scope.

(** Whatever the threads run, in every interleaving and with every choice of descriptors, at every moment: what a thread has read so far is, in order, what its own programs
    wrote, each text whole. *)
Theorem C72_outputs_are_kept_apart :
  forall cap limit n depth work m s w,
  (forall w, w < n -> nested depth [] (work w)) -> jruns cap limit n m (jstart work) s -> w < n ->
  exists rest, wrote [] (work w) = texts (threads s w) ++ rest.
Proof. intros until w. intros Ne. exact (read_own cap limit n depth work Ne m s w). Qed.
Print Assumptions C72_outputs_are_kept_apart.

Theorem C72_every_output_is_read :
  forall cap limit n depth work m s w,
  (forall w, w < n -> nested depth [] (work w)) -> jruns cap limit n m (jstart work) s -> w < n -> through s w ->
  texts (threads s w) = wrote [] (work w).
Proof. intros until w. intros Ne. exact (all_read cap limit n depth work Ne m s w). Qed.
Print Assumptions C72_every_output_is_read.

(** However much there is to run, there are never more than [depth + 1] descriptors for each thread, and none is left open in the end. *)
Theorem C72_few_descriptors :
  forall cap limit n depth work m s l,
  (forall w, w < n -> nested depth [] (work w)) -> jruns cap limit n m (jstart work) s ->
  NoDup l -> (forall d, In d l -> fds s d <> None) -> length l <= n * (depth + 1).
Proof. intros until l. intros Ne. exact (few_descriptors cap limit n depth work Ne m s l). Qed.
Print Assumptions C72_few_descriptors.

Theorem C72_all_closed :
  forall cap limit n depth work m s,
  (forall w, w < n -> nested depth [] (work w)) -> jruns cap limit n m (jstart work) s -> (forall w, w < n -> through s w) ->
  forall d, fds s d = None.
Proof. intros until s. intros Ne. exact (all_closed cap limit n depth work Ne m s). Qed.
Print Assumptions C72_all_closed.

(** What one thread prints for a build step is not mixed with what another does. *)
Theorem C72_one_logs_at_a_time :
  forall cap limit n work m s w w' l, jruns cap limit n m (jstart work) s -> logging s w l -> logging s w' l -> w = w'.
Proof. exact one_logs. Qed.
Print Assumptions C72_one_logs_at_a_time.

(** No run is longer than the costs of what there is to do, and none is stuck before everything is done, although children inherit the pipes of other threads and although threads wait for locks. Missing from
    the full statement: outputs that are larger than a pipe (C24), and programs that leave something running (refuted below). *)
Theorem C72_nobody_waits_for_ever_partial :
  forall cap limit n depth work m s,
  (forall w, w < n -> nested depth [] (work w)) ->
  all_programs (fun p => length (writes p) <= cap) n work -> all_programs (fun p => stays p = false) n work -> n * (depth + 1) <= limit ->
  jruns cap limit n m (jstart work) s ->
  m <= total n (fun w => costs (work w)) /\ ((forall w, w < n -> through s w) \/ exists s', jstep cap limit n s s').
Proof. intros until s. intros Ne F L R H. exact (conj (runs_short cap limit n depth work Ne m s H) (goes_on cap limit n depth work Ne F L R m s H)). Qed.
Print Assumptions C72_nobody_waits_for_ever_partial.

(** *** Running the model *)
Inductive choice := CPipe (w i o : nat) | CSpawn (w : nat) | CCloseIn (w : nat) | CWrite (w : nat) | CExit (w : nat) | CWaited (w : nat) | CLock (w : nat) | CRead (w : nat).
Section Run.
Variables cap limit n : nat.
Definition choose (s : jst) (c : choice) : option jst :=
  match c with
  | CPipe w i o =>
    match threads s w with
    | Thread (ARun p :: r) Between k x =>
      if (w <? n) && (i <? limit) && (o <? limit) && negb (i =? o) && match fds s i, fds s o with None, None => true | _, _ => false end
      then Some (with_thread (with_fresh (with_pipe (with_fd (with_fd s i (Some (fresh s, Wr))) o (Some (fresh s, Rd))) (fresh s) [])) w (Thread (ARun p :: r) (Piped i o) k x))
      else None
    | _ => None
    end
  | CSpawn w =>
    match threads s w with
    | Thread (ARun p :: r) (Piped i o) k x =>
      match fds s i with
      | Some (q, Wr) => if w <? n then Some (with_thread (with_child s w (Running q (writes p) (inherited limit (fds s) o) (stays p))) w (Thread (ARun p :: r) (Spawned i o) k x)) else None
      | _ => None
      end
    | _ => None
    end
  | CCloseIn w =>
    match threads s w with
    | Thread a (Spawned i o) k x => if w <? n then Some (with_thread (with_fd s i None) w (Thread a (Waiting o) k x)) else None
    | _ => None
    end
  | CWrite w =>
    match children s w with
    | Running q (b :: t) h y => if (w <? n) && (length (pipes s q) <? cap) then Some (with_child (with_pipe s q (pipes s q ++ [b])) w (Running q t h y)) else None
    | _ => None
    end
  | CExit w =>
    match children s w with
    | Running q [] h y => if w <? n then Some (with_child (if y then with_background s h else s) w Ended) else None
    | _ => None
    end
  | CWaited w =>
    match threads s w, children s w with
    | Thread (a :: r) (Waiting o) k x, Ended => if w <? n then Some (with_thread (with_child s w NoChild) w (Thread r Between (o :: k) x)) else None
    | _, _ => None
    end
  | CLock w =>
    match threads s w with
    | Thread (ARead None :: r) Between k x => if w <? n then Some (with_thread s w (Thread (ARead None :: r) (Reading []) k x)) else None
    | _ => None
    end
  | CRead w =>
    match threads s w with
    | Thread a (Reading got) (o :: k) x =>
      match fds s o with
      | Some (q, Rd) => match pipes s q with c :: rest => if w <? n then Some (with_thread (with_pipe s q rest) w (Thread a (Reading (got ++ [c])) (o :: k) x)) else None | [] => None end
      | _ => None
      end
    | _ => None
    end
  end.
Lemma choose_step s c s' : choose s c = Some s' -> jstep cap limit n s s'.
Proof.
  destruct c as [w i o|w|w|w|w|w|w|w]; cbn [choose].
  - destruct (threads s w) as [[|[p|l|] r] [|?|?|?|?|?] k x] eqn:T; try discriminate. destruct (_ && _) eqn:B; [|discriminate]. intros Q. injection Q as <-. rewrite !andb_true_iff in B. destruct B as ((((B1 & B2) & B3) & B4) & B5).
    apply Nat.ltb_lt in B1, B2, B3. apply negb_true_iff, Nat.eqb_neq in B4. destruct (fds s i) eqn:Fi; [discriminate|]. destruct (fds s o) eqn:Fo; [discriminate|]. now apply j_pipe.
  - destruct (threads s w) as [[|[p|l|] r] [|i o|?|?|?|?] k x] eqn:T; try discriminate. destruct (fds s i) as [[q []]|] eqn:F; try discriminate. destruct (w <? n) eqn:B; [|discriminate]. apply Nat.ltb_lt in B. intros Q. injection Q as <-. now apply j_spawn.
  - destruct (threads s w) as [a [|?|i o|?|?|?] k x] eqn:T; try discriminate. destruct (w <? n) eqn:B; [|discriminate]. apply Nat.ltb_lt in B. intros Q. injection Q as <-. now apply j_close_in.
  - destruct (children s w) as [|q [|b t] h y|] eqn:C; try discriminate. destruct (_ && _) eqn:B; [|discriminate]. apply andb_true_iff in B as (B & B'). apply Nat.ltb_lt in B, B'. intros Q. injection Q as <-. now apply j_write.
  - destruct (children s w) as [|q [|b t] h y|] eqn:C; try discriminate. destruct (w <? n) eqn:B; [|discriminate]. apply Nat.ltb_lt in B. intros Q. injection Q as <-. now apply (j_exit cap limit n s w q h y).
  - destruct (threads s w) as [[|a r] [|?|?|o|?|?] k x] eqn:T; try discriminate. destruct (children s w) eqn:C; try discriminate. destruct (w <? n) eqn:B; [|discriminate]. apply Nat.ltb_lt in B. intros Q. injection Q as <-. now apply (j_waited cap limit n s w a).
  - destruct (threads s w) as [[|[p|[l|]|] r] [|?|?|?|?|?] k x] eqn:T; try discriminate. destruct (w <? n) eqn:B; [|discriminate]. apply Nat.ltb_lt in B. intros Q. injection Q as <-. now apply (j_lock cap limit n s w None r k x).
  - destruct (threads s w) as [a [|?|?|?|got|?] [|o k] x] eqn:T; try discriminate. destruct (fds s o) as [[q []]|] eqn:F; try discriminate. destruct (pipes s q) as [|c rest] eqn:P; [discriminate|]. destruct (w <? n) eqn:B; [|discriminate]. apply Nat.ltb_lt in B. intros Q. injection Q as <-.
    apply (j_read cap limit n s w a o k x got q [c] rest); auto; [discriminate|]. apply Nat.leb_le. reflexivity.
Qed.
Fixpoint choose_all (s : jst) (l : list choice) : option jst :=
  match l with [] => Some s | c :: r => match choose s c with Some s' => choose_all s' r | None => None end end.
Lemma run_front m s s' s'' : jstep cap limit n s s' -> jruns cap limit n m s' s'' -> jruns cap limit n (S m) s s''.
Proof. intros St H. induction H as [|m s1 s2 s3 H IH St']; [eapply jr_step; [apply jr_refl|exact St]|]. eapply jr_step; [exact (IH St)|exact St']. Qed.
Lemma choose_runs l : forall s s', choose_all s l = Some s' -> jruns cap limit n (length l) s s'.
Proof.
  induction l as [|c l IH]; intros s s'; cbn; [intros Q; injection Q as <-; apply jr_refl|]. destruct (choose s c) as [s1|] eqn:C; [|discriminate]. intros H. exact (run_front _ _ _ _ (choose_step _ _ _ C) (IH _ _ H)).
Qed.
End Run.

(** Two threads, the second of which runs a program that leaves something running. The first thread's program leaves nothing running, has ended and been waited for, and everything it wrote has been read: but the first thread
    waits for ever, since what the other program left running has its pipe open, and will never print the output or go on to the next command. *)
Definition plain_work (p : program) : list action := [ARun p; ARead None; AFree].
Definition two (w : nat) : list action := match w with 0 => plain_work (Program (lit "x") false) | _ => plain_work (Program [] true) end.
Definition two_choices : list choice :=
  [CPipe 0 0 1; CPipe 1 2 3; CSpawn 1; CCloseIn 1; CExit 1; CWaited 1; CLock 1; CSpawn 0; CCloseIn 0; CWrite 0; CExit 0; CWaited 0; CLock 0; CRead 0].
Definition two_stuck : jst := match choose_all 4 8 2 (jstart two) two_choices with Some s => s | None => jstart two end.

Lemma two_runs : jruns 4 8 2 14 (jstart two) two_stuck.
Proof. apply (choose_runs 4 8 2 two_choices). vm_compute. reflexivity. Qed.
Lemma two_first : threads two_stuck 0 = Thread [ARead None; AFree] (Reading (lit "x")) [1] [].
Proof. vm_compute. reflexivity. Qed.
Lemma two_second : threads two_stuck 1 = Thread [ARead None; AFree] (Reading []) [3] [].
Proof. vm_compute. reflexivity. Qed.
Lemma two_children : children two_stuck 0 = NoChild /\ children two_stuck 1 = NoChild.
Proof. split; vm_compute; reflexivity. Qed.
Lemma two_fds : fds two_stuck 1 = Some (0, Rd) /\ fds two_stuck 3 = Some (1, Rd).
Proof. split; vm_compute; reflexivity. Qed.
Lemma two_pipes : pipes two_stuck 0 = [] /\ pipes two_stuck 1 = [].
Proof. split; vm_compute; reflexivity. Qed.
Lemma two_held : held 2 two_stuck (0, Wr) /\ held 2 two_stuck (1, Wr).
Proof. split; right; right; vm_compute; tauto. Qed.
Lemma two_no_step s' : ~ jstep 4 8 2 two_stuck s'.
Proof.
  pose proof two_first as T0. pose proof two_second as T1. destruct two_children as (C0 & C1). destruct two_fds as (F0 & F1). destruct two_pipes as (P0 & P1). destruct two_held as (H0 & H1).
  generalize dependent two_stuck. intros s T0 T1 C0 C1 F0 F1 P0 P1 H0 H1 H.
  destruct H as [s w p r k x i o L T|s w p r k x i o q L T|s w a k x i o L T|s w q b t h y L C|s w q h y L C|s w a r k x o L T C|s w l r k x L T|s w a o k x got q c rest L T F P N|s w a o k x got q L T F P N|s w l r k x got L T|s w r o k x L T];
    destruct w as [|[|w]]; try lia; try (rewrite T0 in T || rewrite T1 in T); try (rewrite C0 in C || rewrite C1 in C); try discriminate T; try discriminate C;
    injection T as <- <- <- <- <-.
  - rewrite F0 in F. injection F as <-. rewrite P0 in P. destruct c; [now apply N|discriminate P].
  - rewrite F1 in F. injection F as <-. rewrite P1 in P. destruct c; [now apply N|discriminate P].
  - rewrite F0 in F. injection F as <-. now apply N.
  - rewrite F1 in F. injection F as <-. now apply N.
Qed.

Theorem C72_nobody_waits_for_ever_refuted :
  exists cap limit n depth work m s w,
  (forall w, w < n -> nested depth [] (work w)) /\ all_programs (fun p => length (writes p) <= cap) n work /\ n * (depth + 1) <= limit /\
  w < n /\ (forall p, In (ARun p) (work w) -> stays p = false) /\
  jruns cap limit n m (jstart work) s /\ children s w = NoChild /\ now (threads s w) = Reading (lit "x") /\ work w = plain_work (Program (lit "x") false) /\
  forall m' s', jruns cap limit n m' s s' -> ~ through s' w.
Proof.
  exists 4, 8, 2, 1, two, 14, two_stuck, 0.
  split; [intros [|[|w]] L; cbn; repeat split; lia|]. split; [intros [|[|w]] p L [Q|[Q|[Q|[]]]]; try discriminate; try (injection Q as <-; cbn; lia); lia|]. split; [lia|]. split; [lia|].
  split; [intros p [Q|[Q|[Q|[]]]]; try discriminate; injection Q as <-; reflexivity|].
  split; [exact two_runs|]. split; [exact (proj1 two_children)|]. split; [rewrite two_first; reflexivity|]. split; [reflexivity|].
  assert (No : forall s', ~ jstep 4 8 2 two_stuck s') by exact two_no_step.
  intros m' s' H. assert (E : s' = two_stuck).
  { induction H as [|m0 s0 s1 s2 H IH St]; [reflexivity|]. rewrite (IH No) in St. destruct (No _ St). }
  subst s'. intros (T & _). rewrite two_first in T. discriminate T.
Qed.
Print Assumptions C72_nobody_waits_for_ever_refuted.

(** *** A build that meets the hypotheses: two threads that compile two sources each, one of which is also installed, with outputs through pipes of 8 bytes. *)
Definition four (w : nat) : list action :=
  let cpp x := Program (lit x) false in
  match w with
  | 0 => compile 7 (cpp "a.c a.h"%string) (cpp ""%string) [Program [] false; Program [] false] ++ compile 7 (cpp "b.c"%string) (cpp "warning"%string) []
  | _ => compile 7 (cpp "c.c"%string) (cpp "error"%string) [] ++ compile 7 (cpp "d.c"%string) (cpp ""%string) []
  end.
Example C72_nonvacuous :
  (forall w, w < 2 -> nested 2 [] (four w)) /\ all_programs (fun p => length (writes p) <= 8) 2 four /\ all_programs (fun p => stays p = false) 2 four /\
  wrote [] (four 0) = [lit "a.c a.h"; []; lit "b.c"; lit "warning"] /\ wrote [] (four 1) = [lit "c.c"; lit "error"; lit "d.c"; []] /\
  exists m s, jruns 8 6 2 m (jstart four) s /\ (forall w, w < 2 -> through s w).
Proof.
  assert (N : forall w, w < 2 -> nested 2 [] (four w)) by (intros [|[|w]] L; cbn; repeat split; lia).
  assert (F : all_programs (fun p => length (writes p) <= 8) 2 four).
  { intros [|[|w]] p L I; [| |lia]; cbn in I; repeat (destruct I as [I|I]; [try discriminate I; injection I as <-; cbn; lia|]); destruct I. }
  assert (S0 : all_programs (fun p => stays p = false) 2 four).
  { intros [|[|w]] p L I; [| |lia]; cbn in I; repeat (destruct I as [I|I]; [try discriminate I; injection I as <-; reflexivity|]); destruct I. }
  split; [exact N|]. split; [exact F|]. split; [exact S0|]. split; [reflexivity|]. split; [reflexivity|].
  assert (X : forall k m s, jruns 8 6 2 m (jstart four) s -> total 2 (fun w => costs (four w)) <= m + k -> exists m' s', jruns 8 6 2 m' (jstart four) s' /\ (forall w, w < 2 -> through s' w)).
  { induction k as [|k IH]; intros m s H L; destruct (C72_nobody_waits_for_ever_partial 8 6 2 2 four m s N F S0 ltac:(lia) H) as (Lm & [T|(s' & St)]); eauto.
    - pose proof (jr_step 8 6 2 _ _ _ _ H St) as H'. destruct (C72_nobody_waits_for_ever_partial 8 6 2 2 four _ s' N F S0 ltac:(lia) H') as (Lm' & _). lia.
    - apply (IH (S m) s'); [eapply jr_step; eauto|lia]. }
  apply (X (total 2 (fun w => costs (four w))) 0 (jstart four)); [apply jr_refl|lia].
Qed.
