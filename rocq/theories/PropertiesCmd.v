(** * C24, C25, C27, C28: running commands. *)

From Coq Require Import ZArith Ascii String Lia Bool List.
From Verif Require Import Base FileSys Frugal Deps Log Pipe PipeProofs Cmd SpecCmd CmdProofs.
Import ListNotations.
Local Open Scope nat_scope.

(** ** C24 *)

(** Output that fits the pipe: whatever the schedule, the command is never stuck before everything it wrote has been
    collected, and no schedule is longer than the bound. Missing from the full statement: larger outputs, for which
    it is false (below). *)
Theorem C24_output_collected_partial :
  forall cap output n s,
  length output <= cap ->
  pruns cap n (pstart output) s ->
  n <= 2 * length output + 3 /\
  (ph s = PDone output \/ exists s', pstep cap s s').
Proof. exact (fun cap output n s L H => conj (every_run_short cap output n s H) (small_completes cap output n s L H)). Qed.
Print Assumptions C24_output_collected_partial.

(** What is collected is always the complete output. *)
Theorem C24_nothing_lost :
  forall cap output n s got,
  pruns cap n (pstart output) s -> ph s = PDone got -> got = output.
Proof. exact done_is_all. Qed.
Print Assumptions C24_nothing_lost.

(** Whatever the pipe's capacity, a child that writes more than that never ends, and nothing is ever collected. *)
Theorem C24_output_collected_refuted :
  forall cap output, cap < length output ->
  (exists n s, pruns cap n (pstart output) s /\ forall s', ~ pstep cap s s') /\
  (forall n s, pruns cap n (pstart output) s -> ph s = PWait /\ ended s = false).
Proof. exact (fun cap output L => conj (large_stuck cap output L) (fun n s => large_never cap output n s L)). Qed.
Print Assumptions C24_output_collected_refuted.

(** Three bytes through a pipe of three bytes, the first read returning two bytes. *)
Example C24_nonvacuous :
  pruns 3 8 (pstart (lit "abc")) (PSt [] [] true (PDone (lit "abc"))).
Proof.
  assert (C2 : length (lit "ab") <= chunk_size) by (apply PeanoNat.Nat.leb_le; vm_compute; reflexivity).
  assert (C1 : length (lit "c") <= chunk_size) by (apply PeanoNat.Nat.leb_le; vm_compute; reflexivity).
  eapply pr_step; [|apply ps_eof].
  eapply pr_step; [|apply (ps_read 3 (lit "c") [] [] true (lit "ab")); [discriminate|exact C1]].
  eapply pr_step; [|apply (ps_read 3 (lit "ab") (lit "c") [] true []); [discriminate|exact C2]].
  eapply pr_step; [|apply ps_waited].
  eapply pr_step; [|apply ps_exit].
  eapply pr_step; [|apply (ps_write 3 "c"%char [] (lit "ab") PWait); cbn; lia].
  eapply pr_step; [|apply (ps_write 3 "b"%char (lit "c") (lit "a") PWait); cbn; lia].
  eapply pr_step; [|apply (ps_write 3 "a"%char (lit "bc") [] PWait); cbn; lia].
  apply pr_refl.
Qed.

(** ** C25 *)

Local Open Scope Z_scope.

(** When waiting reports the child's end. Missing from the full statement: waits that fail (below). *)
Theorem C25_success_is_exit_zero_partial :
  forall e sig, possible e ->
  (fst (wait_for_process [Some (status_of e)] sig) = 0 <-> ended_well e) /\
  (fst (wait_for_process [Some (status_of e)] sig) = -1 <-> ~ ended_well e).
Proof. exact (fun e sig P => conj (wait_success e sig P) (wait_failure e sig P)). Qed.
Print Assumptions C25_success_is_exit_zero_partial.

(** For a whole compile or link command: its result, the announced outcome and the text shown, which is all the tool
    wrote (up to the first NUL), followed by the name of the signal if one killed it. *)
Theorem C25_tool_judged_by_its_end_partial :
  forall look path execute sig_text args e output, possible e ->
  cmd_exec_async look path execute (cmd_create args) = Ret (Some ([Some (status_of e)], output)) ->
  exists rv said text, run_tool look path execute sig_text args = Ret (rv, said, text) /\
  (rv = 0 \/ rv = -1) /\ (rv = 0 <-> ended_well e) /\ (said = true <-> ended_well e) /\
  text = cstr (output ++ match e with Exited _ => [] | Killed s _ => sig_text s end).
Proof. exact tool_judged. Qed.
Print Assumptions C25_tool_judged_by_its_end_partial.

(** If waiting fails (Bob was started with SIGCHLD ignored, say), any command counts as successful. *)
Theorem C25_success_is_exit_zero_refuted :
  forall look path execute sig_text args output,
  cmd_exec_async look path execute (cmd_create args) = Ret (Some ([None], output)) ->
  exists text, run_tool look path execute sig_text args = Ret (0, true, text).
Proof. intros look path execute sig_text args output H. unfold run_tool, cmd_exec. rewrite H. cbn. eexists. reflexivity. Qed.
Print Assumptions C25_success_is_exit_zero_refuted.

Definition only (p : bytes) : bytes -> node := fun q => if bytes_eqb q p then FileNode true else NoNode.
Definition usual_path : list bytes := [lit "/usr/bin"; lit "/bin"].
Definition cc_dies (f : bytes) (args : list bytes) : launch := LRuns [Some (status_of (Killed 11 true))] (lit "oops").
Definition cc_fails (f : bytes) (args : list bytes) : launch := LRuns [Some (status_of (Exited 1))] (lit "error").
Definition cc_warns (f : bytes) (args : list bytes) : launch := LRuns [Some (status_of (Exited 0))] (lit "warning").
Definition cc_unreaped (f : bytes) (args : list bytes) : launch := LRuns [None] (lit "error").

Example C25_nonvacuous :
  let run e := run_tool (only (lit "/bin/cc")) (Some (path_of usual_path)) e (fun _ => lit "SEGV") [lit "cc"; lit "-c"] in
  run cc_dies = Ret (-1, false, lit "oopsSEGV") /\
  run cc_fails = Ret (-1, false, lit "error") /\
  run cc_warns = Ret (0, true, lit "warning") /\
  run cc_unreaped = Ret (0, true, lit "error").
Proof. vm_compute. repeat split. Qed.

(** ** C27 *)

(** [bob run] and [bob sh]: for a $PATH of non-empty directories, when no runnable file of that name is in the
    working directory. Missing: that case, and empty fields of $PATH (both refuted below). *)
Theorem C27_first_along_path_partial :
  forall look dirs name p,
  path_dirs dirs -> bare name -> ~ runnable look name ->
  (first_along look dirs name p -> find_bin look (Some (path_of dirs)) name = Ret (Some p)) /\
  (nowhere look dirs name -> find_bin look (Some (path_of dirs)) name = Ret None).
Proof. exact (fun look dirs name p PD B C => conj (find_first look dirs name PD p C) (find_nowhere look dirs name PD C)). Qed.
Print Assumptions C27_first_along_path_partial.

(** Compilers and linkers: the same, whatever is in the working directory. *)
Theorem C27_tools_first_along_path_partial :
  forall look dirs name p execute rest,
  path_dirs dirs -> bare name -> first_along look dirs name p ->
  cmd_exec_async look (Some (path_of dirs)) execute (cmd_create (name :: rest)) =
  match execute p (name :: rest) with LFails => Undefined | LRuns waits output => Ret (Some (waits, output)) end.
Proof. exact (fun look dirs name p execute rest PD B => child_first look dirs name PD B p execute rest). Qed.
Print Assumptions C27_tools_first_along_path_partial.

(** There is always a first one or none. *)
Theorem C27_first_or_nowhere :
  forall look dirs name, (exists p, first_along look dirs name p) \/ nowhere look dirs name.
Proof. exact first_or_nowhere. Qed.
Print Assumptions C27_first_or_nowhere.

Definition both (a b : bytes) : bytes -> node := fun q => if bytes_eqb q a || bytes_eqb q b then FileNode true else NoNode.

(** A runnable file in the working directory is preferred to the one along $PATH. *)
Theorem C27_first_along_path_refuted :
  exists look dirs name p,
  path_dirs dirs /\ bare name /\ first_along look dirs name p /\
  cmd_exec_inplace look (Some (path_of dirs)) [name] = Ret (Becomes name [name]) /\ name <> p.
Proof.
  exists (both (lit "ls") (lit "/bin/ls")), [lit "/bin"], (lit "ls"), (lit "/bin/ls").
  split; [split; [discriminate|intros d [<-|[]]; split; [intros [H|[H|[H|[H|[]]]]]; discriminate H|discriminate]]|].
  split; [intros [H|[H|[]]]; discriminate H|].
  split; [|split; [reflexivity|discriminate]].
  exists [], (lit "/bin"), []. repeat split. intros e [].
Qed.
Print Assumptions C27_first_along_path_refuted.

(** An empty field of $PATH leads to the root directory instead of the working directory. *)
Theorem C27_empty_field_refuted :
  exists look path name,
  look (lit "/tool") = FileNode true /\
  cmd_exec_inplace look (Some path) [name] = Ret (Becomes (lit "/tool") [name]) /\
  path = lit ":/bin" /\ name = lit "tool".
Proof. exists (only (lit "/tool")), (lit ":/bin"), (lit "tool"). repeat split. Qed.
Print Assumptions C27_empty_field_refuted.

Example C27_nonvacuous :
  let look := both (lit "/usr/bin/cc") (lit "/bin/cc") in
  path_dirs usual_path /\ bare (lit "cc") /\ ~ runnable look (lit "cc") /\
  first_along look usual_path (lit "cc") (lit "/usr/bin/cc") /\
  first_along (only (lit "/bin/cc")) usual_path (lit "cc") (lit "/bin/cc").
Proof.
  cbv zeta. split; [split; [discriminate|]|].
  { intros d [<-|[<-|[]]]; (split; [apply has_byte_not_In; reflexivity|discriminate]). }
  split; [apply has_byte_not_In; reflexivity|]. split; [discriminate|]. split.
  - exists [], (lit "/usr/bin"), [lit "/bin"]. repeat split. intros e [].
  - exists [lit "/usr/bin"], (lit "/bin"), []. repeat split. intros e [<-|[]]. discriminate.
Qed.

(** ** C28 *)

(** A command found nowhere: the preprocessor and programs run in place fail cleanly. Missing: compilers, linkers and
    commands that exist but cannot be started (refuted below). *)
Theorem C28_not_found_fails_partial :
  forall look dirs name rest execute sig_text,
  path_dirs dirs -> bare name -> ~ runnable look name -> nowhere look dirs name ->
  run_preprocessor look (Some (path_of dirs)) execute sig_text (name :: rest) = Ret None /\
  cmd_exec_inplace look (Some (path_of dirs)) (name :: rest) = Ret Fails.
Proof.
  exact (fun look dirs name rest execute sig_text PD B C N =>
    conj (not_found_preprocessor look _ execute sig_text (name :: rest) (find_nowhere look dirs name PD C N))
         (not_found_inplace look _ name rest (find_nowhere look dirs name PD C N))).
Qed.
Print Assumptions C28_not_found_fails_partial.

(** Without $PATH, Bob exits with failure. *)
Theorem C28_no_path_exits :
  forall look name rest execute sig_text, ~ runnable look name ->
  run_tool look None execute sig_text (name :: rest) = Exit EXIT_FAILURE /\
  run_preprocessor look None execute sig_text (name :: rest) = Exit EXIT_FAILURE /\
  cmd_exec_inplace look None (name :: rest) = Exit EXIT_FAILURE.
Proof.
  intros look name rest execute sig_text H. apply not_executable in H.
  unfold run_tool, run_preprocessor, cmd_exec, cmd_exec_async, cmd_exec_inplace, find_bin. cbn [cmd_create cmd_create_zeroed c_args name_of].
  rewrite H. repeat split.
Qed.
Print Assumptions C28_no_path_exits.

(** A compiler or linker found nowhere: uninitialised memory is read, always. *)
Theorem C28_not_found_refuted :
  forall look dirs name rest execute sig_text,
  path_dirs dirs -> bare name -> ~ runnable look name -> nowhere look dirs name ->
  run_tool look (Some (path_of dirs)) execute sig_text (name :: rest) = Undefined.
Proof.
  exact (fun look dirs name rest execute sig_text PD B C N =>
    not_found_tool look _ execute sig_text (name :: rest) (find_nowhere look dirs name PD C N)).
Qed.
Print Assumptions C28_not_found_refuted.

(** One that is found but cannot be started: the same, also for the preprocessor. *)
Theorem C28_not_started_refuted :
  forall look dirs name p rest execute sig_text,
  path_dirs dirs -> bare name -> first_along look dirs name p -> execute p (name :: rest) = LFails ->
  run_tool look (Some (path_of dirs)) execute sig_text (name :: rest) = Undefined /\
  run_preprocessor look (Some (path_of dirs)) execute sig_text (name :: rest) = Undefined.
Proof.
  intros look dirs name p rest execute sig_text PD B F L.
  pose proof (child_first look dirs name PD B p execute rest F) as X. rewrite L in X.
  unfold run_tool, run_preprocessor, cmd_exec. rewrite X.
  change (cmd_exec_async look (Some (path_of dirs)) execute (cmd_create_zeroed (name :: rest)))
    with (cmd_exec_async look (Some (path_of dirs)) execute (cmd_create (name :: rest))).
  rewrite X. split; reflexivity.
Qed.
Print Assumptions C28_not_started_refuted.

Example C28_nonvacuous :
  let look := only (lit "/opt/cc") in
  nowhere look usual_path (lit "cc") /\ ~ runnable look (lit "cc") /\
  run_preprocessor look (Some (path_of usual_path)) cc_warns (fun _ => []) [lit "cc"] = Ret None /\
  run_tool look (Some (path_of usual_path)) cc_warns (fun _ => []) [lit "cc"] = Undefined.
Proof.
  cbv zeta. split; [|split; [discriminate|split; reflexivity]]. intros d [<-|[<-|[]]]; discriminate.
Qed.
