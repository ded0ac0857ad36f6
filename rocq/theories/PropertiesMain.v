(** * C26, C33, C35, C36: the command line. *)

From Coq Require Import ZArith Ascii String Lia Bool List.
From Verif Require Import Base FileSys Frugal Deps Log Cmd SpecCmd CmdProofs Main SpecMain MainProofs.
Import ListNotations.
Local Open Scope Z_scope.

(** A project whose phases all succeed, with an installed program [hello]. *)
Definition sys (permute : bool) (build install : Z) (vec : run_var) : system :=
  System permute
    (fun n => if bytes_eqb n (lit "PATH") then Some (lit "/bin") else None)
    (fun _ => true) (fun _ => true) (fun p => bytes_eqb p (lit "/usr/local")) true 0 (fun _ => true)
    (fun _ => build) (fun _ => install) vec
    (fun p => if bytes_eqb p (lit ".bob/prefix/bin/hello") || bytes_eqb p (lit "/bin/ls") then FileNode true else NoNode).
Definition hello : run_var := RunVec [Some (lit "hello")].

(** ** Reading the command line (used by the theorems below): exactly the specified reading. *)

Theorem C36_command_line_reading :
  forall permute argv os ops, getopt permute argv = (os, Some ops) <-> reads permute argv os ops.
Proof. exact getopt_exact. Qed.
Print Assumptions C36_command_line_reading.

(** ** C26 *)

(** For words other than "--" itself. Missing: a further "--" (refuted below). *)
Theorem C26_arguments_verbatim_partial :
  forall S words os instr user t file args env,
  phases_return S -> opt_words words os -> instr = lit "run" \/ instr = lit "sh" -> ~ In (lit "--") user ->
  main S (words ++ instr :: lit "--" :: user) = (t, FProgram file args env) ->
  (instr = lit "run" -> exists vec, s_run S = RunVec (map Some vec) /\ args = map cstr vec ++ user) /\
  (instr = lit "sh" -> user <> [] -> args = user).
Proof. exact program_arguments. Qed.
Print Assumptions C26_arguments_verbatim_partial.

Theorem C26_arguments_verbatim_refuted :
  exists S user t file args env,
  phases_return S /\ main S (lit "sh" :: lit "--" :: user) = (t, FProgram file args env) /\ args <> user.
Proof.
  exists (sys true 0 0 hello), [lit "ls"; lit "--"; lit "-l"]. eexists _, _, _, _. split.
  - split; [left; reflexivity|split; intros p; left; reflexivity].
  - split; [vm_compute; reflexivity|discriminate].
Qed.
Print Assumptions C26_arguments_verbatim_refuted.

Definition env_of (r : list event * ends) (n : bytes) : option bytes :=
  match r with (_, FProgram _ _ e) => e n | _ => None end.
Definition prog_of (r : list event * ends) : option (bytes * list bytes) :=
  match r with (_, FProgram f a _) => Some (f, a) | _ => None end.

Example C26_nonvacuous : forall permute,
  let r := main (sys permute 0 0 hello) [lit "-j4"; lit "-o"; lit ".bob"; lit "run"; lit "--"; lit "-v"; lit "run"] in
  prog_of r = Some (lit ".bob/prefix/bin/hello", [lit "hello"; lit "-v"; lit "run"]) /\
  env_of r (lit "PATH") = Some (lit ".bob/prefix/bin:/bin") /\
  env_of r (lit "LD_LIBRARY_PATH") = Some (lit ".bob/prefix/lib").
Proof. intros []; vm_compute; repeat split. Qed.

(** ** C33 *)

Theorem C33_run_only_after_success :
  forall S argv t file args env,
  phases_return S -> main S argv = (t, FProgram file args env) ->
  exists os instr ops out prefix,
  reads (s_permute S) argv os (instr :: ops) /\ (instr = lit "run" \/ instr = lit "sh") /\
  out_dir os out /\ phases out prefix instr = Some t /\ Forall (succeeds S) t /\
  program_words S instr ops args /\ runnable (s_look S) file /\ private_env S out env.
Proof. exact program_only_after_success. Qed.
Print Assumptions C33_run_only_after_success.

(** A program in the private prefix is preferred to any other along the path. *)
Theorem C33_private_programs_first :
  forall S out w ws,
  ~ In COLON out -> ~ runnable (s_look S) w -> runnable (s_look S) (out ++ lit "/prefix/bin/" ++ w) ->
  exec_inplace S (setup_environment out (s_env S)) (w :: ws) =
  REnds (FProgram (out ++ lit "/prefix/bin/" ++ w) (w :: ws) (setup_environment out (s_env S))).
Proof. exact private_bin_first. Qed.
Print Assumptions C33_private_programs_first.

Example C33_nonvacuous :
  prog_of (main (sys true 0 0 hello) [lit "run"]) = Some (lit ".bob/prefix/bin/hello", [lit "hello"]) /\
  fst (main (sys true 0 0 hello) [lit "run"]) =
    [EvSetup; EvMkdir (lit ".bob/prefix"); EvMkdir (lit ".bob/bob"); EvBuild (Some (lit ".bob/prefix")); EvInstall (lit ".bob/prefix")] /\
  main (sys true (-1) 0 hello) [lit "run"] =
    ([EvSetup; EvMkdir (lit ".bob/prefix"); EvMkdir (lit ".bob/bob"); EvBuild (Some (lit ".bob/prefix"))], FExit 1) /\
  snd (main (sys true 0 (-1) hello) [lit "sh"; lit "ls"]) = FExit 1.
Proof. vm_compute. repeat split. Qed.

(** ** C35 *)

(** An option -j with a number that fits an [int] is accepted exactly when the number is between 1 and 1024. Missing
    from the full statement: larger numbers (undefined in C), and a system reporting zero processors (refuted). *)
Theorem C35_job_count_accepted_partial :
  forall v n, numeral v n -> an_int n ->
  (exists m, atoi v = Some m /\ set_max_jobs m <> None) <-> 1 <= n <= 1024.
Proof. exact jobs_accepted. Qed.
Print Assumptions C35_job_count_accepted_partial.

Theorem C35_bad_job_count_starts_nothing_partial :
  forall S argv os ops, reads (s_permute S) argv os ops ->
  (forall v, In ("j"%char, v) os -> exists n, numeral v n /\ an_int n) -> ~ jobs_ok os ->
  main S argv = ([], FExit 1).
Proof. exact bad_jobs. Qed.
Print Assumptions C35_bad_job_count_starts_nothing_partial.

Theorem C35_accepted_count_is_workers :
  forall S argv os ops v n online,
  reads (s_permute S) argv os ops -> jobs_ok os ->
  given "j"%char os v -> numeral v n -> s_env S (lit "BOB_BUILD_DEBUGGING") = None ->
  workers S argv online = Some n.
Proof. exact jobs_are_workers. Qed.
Print Assumptions C35_accepted_count_is_workers.

Theorem C35_at_least_one_worker_partial :
  forall S argv os ops online,
  reads (s_permute S) argv os ops -> not_given "j"%char os -> online <> 0 ->
  exists w, workers S argv online = Some w /\ 1 <= w.
Proof. exact default_workers. Qed.
Print Assumptions C35_at_least_one_worker_partial.

Theorem C35_at_least_one_worker_refuted : exists S argv, workers S argv 0 = Some 0.
Proof. exists (sys true 0 0 hello), [lit "build"]. reflexivity. Qed.
Print Assumptions C35_at_least_one_worker_refuted.

(** A count that does not fit an [int]: undefined instead of refused. *)
Theorem C35_huge_count_refuted :
  exists S argv os ops n, reads (s_permute S) argv os ops /\ In ("j"%char, lit "99999999999") os /\
  numeral (lit "99999999999") n /\ ~ 1 <= n <= 1024 /\ main S argv = ([], FUndefined).
Proof.
  exists (sys true 0 0 hello), [lit "-j99999999999"; lit "build"], [("j"%char, lit "99999999999")], [lit "build"], 99999999999.
  split; [|split; [left; reflexivity|split; [|split; [lia|vm_compute; reflexivity]]]].
  - apply (reads_joined true "j"%char (lit "99999999999")); [right; left; reflexivity|discriminate|].
    apply reads_on; [reflexivity|right; intros r; discriminate|constructor].
  - apply (num_plain [9;9;9;9;9;9;9;9;9;9;9]); [discriminate|repeat constructor; lia].
Qed.
Print Assumptions C35_huge_count_refuted.

Example C35_nonvacuous :
  workers (sys true 0 0 hello) [lit "-j"; lit "7"; lit "build"] 4 = Some 7 /\
  workers (sys true 0 0 hello) [lit "build"] 4 = Some 4 /\
  workers (sys true 0 0 hello) [lit "build"] (-1) = Some 1 /\
  main (sys true 0 0 hello) [lit "-j-3"; lit "build"] = ([], FExit 1) /\
  main (sys true 0 0 hello) [lit "-j1025"; lit "build"] = ([], FExit 1) /\
  snd (main (sys true 0 0 hello) [lit "-j1024"; lit "build"]) = FExit 0 /\
  numeral (lit "1024") 1024 /\ numeral (lit "-3") (-3).
Proof.
  do 6 (split; [vm_compute; reflexivity|]). split.
  - apply (num_plain [1;0;2;4]); [discriminate|repeat constructor; lia].
  - apply (num_minus [3]); [discriminate|repeat constructor; lia].
Qed.

(** ** C36 *)

(** A known instruction: either some phase failed, it was the last one started and the exit status is failure, or all
    phases succeeded and Bob ends as specified. *)
Theorem C36_known_instruction :
  forall S argv os instr args project out prefix l,
  phases_return S -> reads (s_permute S) argv os (instr :: args) -> jobs_ok os ->
  project_dir os project -> out_dir os out -> prefix_dir (s_env S) os prefix -> prepared S project out prefix ->
  phases out prefix instr = Some l ->
  exists t e, main S argv = (t, e) /\
  ((stopped S l t /\ e = FExit 1) \/ (t = l /\ Forall (succeeds S) l /\ afterwards S out instr args e)).
Proof. exact known_instruction. Qed.
Print Assumptions C36_known_instruction.

Theorem C36_unknown_instruction :
  forall S argv os instr args out prefix,
  reads (s_permute S) argv os (instr :: args) -> jobs_ok os -> phases out prefix instr = None ->
  exists t, main S argv = (t, FExit 1) /\ (t = [] \/ t = [EvSetup]).
Proof. exact unknown_instruction. Qed.
Print Assumptions C36_unknown_instruction.

Theorem C36_unprepared :
  forall S argv os instr args project out prefix,
  reads (s_permute S) argv os (instr :: args) -> jobs_ok os ->
  project_dir os project -> out_dir os out -> prefix_dir (s_env S) os prefix -> ~ prepared S project out prefix ->
  main S argv = ([], FExit 1).
Proof. exact unprepared. Qed.
Print Assumptions C36_unprepared.

Theorem C36_not_understood :
  forall S argv, (forall os instr args, ~ reads (s_permute S) argv os (instr :: args)) ->
  fst (main S argv) = [] /\ (snd (main S argv) = FExit 1 \/ snd (main S argv) = FUndefined).
Proof. exact not_understood. Qed.
Print Assumptions C36_not_understood.

(** [build] and [install] exit with success exactly when all their phases succeed. *)
Theorem C36_build_install_status :
  forall S argv os instr args project out prefix l,
  instr = lit "build" \/ instr = lit "install" ->
  phases_return S -> reads (s_permute S) argv os (instr :: args) -> jobs_ok os ->
  project_dir os project -> out_dir os out -> prefix_dir (s_env S) os prefix -> prepared S project out prefix ->
  phases out prefix instr = Some l ->
  (snd (main S argv) = FExit 0 <-> Forall (succeeds S) l) /\
  (snd (main S argv) = FExit 1 <-> ~ Forall (succeeds S) l).
Proof. exact build_install_status. Qed.
Print Assumptions C36_build_install_status.

Example C36_nonvacuous :
  snd (main (sys true 0 0 hello) [lit "build"]) = FExit 0 /\
  fst (main (sys true 0 0 hello) [lit "install"]) =
    [EvSetup; EvMkdir (lit ".bob/bob"); EvBuild (Some (lit "/usr/local")); EvInstall (lit "/usr/local")] /\
  main (sys true 0 (-1) hello) [lit "install"] =
    ([EvSetup; EvMkdir (lit ".bob/bob"); EvBuild (Some (lit "/usr/local")); EvInstall (lit "/usr/local")], FExit 1) /\
  main (sys true 0 0 hello) [lit "-p"; lit "/gone"; lit "build"] = ([], FExit 1) /\
  main (sys true 0 0 hello) [lit "clean"] = ([EvSetup], FExit 1) /\
  main (sys true 0 0 hello) [lit "-x"; lit "build"] = ([], FExit 1) /\
  snd (main (sys true 0 0 RunNone) [lit "run"]) = FExit 0 /\
  snd (main (sys true 0 0 hello) [lit "sh"; lit "--"; lit "--"]) = FAbort.
Proof. vm_compute. repeat split. Qed.
