(** * What a command of Bob does with a build file of the common form. *)

From Coq Require Import ZArith Ascii String Bool List.
From Verif Require Import Base Vfs Install Build Cookie SpecBuild SpecPlan SpecCmd Main SpecMain SpecProject BuildFile SpecText Command.
Import ListNotations.
Local Open Scope Z_scope.

(** The pairs of an install map are installed under [prefix], with the result [rv]; without pairs, nothing is done. *)
Definition installs (C : course) (m : option (list (bytes * bytes))) (prefix : bytes) (rv : Z) : Prop :=
  match m with
  | Some (e :: l) => exists b,
    install_all (c_sys C) (c_abs_out C) {| i_map := Some (e :: l); i_prefix := Some prefix |} (c_clock C) (c_tree C prefix) = Ok (b, c_installed C prefix) /\
    rv = if b then 0 else -1
  | _ => c_installed C prefix = c_tree C prefix /\ rv = 0
  end.

(** The words that are to be run: those of the recipe, or for "sh" those on the command line or the user's shell. *)
Definition to_execute (env : environment) (p : purpose) (instr : bytes) (args ws : list bytes) : Prop :=
  (instr = lit "run" /\ ws = to_run p ++ user_words args) \/
  (instr = lit "sh" /\ args <> [] /\ ws = user_words args) \/
  (instr = lit "sh" /\ args = [] /\ exists sh, env (lit "SHELL") = Some sh /\ ws = [sh]).

(** How Bob ends once everything has been built and installed. *)
Inductive ends_as (S : system) (out : bytes) (p : purpose) (instr : bytes) (args : list bytes) : ends -> Prop :=
| ends_done : instr = lit "build" \/ instr = lit "install" -> ends_as S out p instr args (FExit 0)
| ends_nothing : instr = lit "run" -> to_run p ++ user_words args = [] -> ends_as S out p instr args (FExit 0)
| ends_program w ws file env : to_execute (s_env S) p instr args (w :: ws) -> runnable (s_look S) file -> private_env S out env ->
    ends_as S out p instr args (FProgram file (w :: ws) env)
| ends_not_found w ws : to_execute (s_env S) p instr args (w :: ws) -> ~ runnable (s_look S) w ->
    (forall dirs, path_dirs dirs -> put_first (out ++ lit "/prefix/bin") (s_env S (lit "PATH")) = path_of dirs -> nowhere (s_look S) dirs w) ->
    ends_as S out p instr args (FExit 1)
| ends_no_shell : instr = lit "sh" -> args = [] -> s_env S (lit "SHELL") = None -> ends_as S out p instr args (FExit 1)
| ends_separators : instr = lit "sh" -> args <> [] -> user_words args = [] -> ends_as S out p instr args FAbort.

(** ** A command and what it meets

    A command line with a known instruction [instr], its other operands [args] and valid options; a project that is there, an output
    directory that is or can be made, and a prefix that is there; in the project a build file of a sound recipe [r] that says [p], in any
    layout. [l]: the phases that the instruction needs. *)
Record command (sg : bool) (out : bytes) (listing : bytes -> option (list bytes)) (pow : Z -> Z -> option Z)
    (inst_area srcs : bytes -> Prop) (links : link_kind -> list bytes -> Prop) (r : recipe) (p : purpose) (prefix : bytes) (d : disk)
    (C : course) (S : system) (argv : list bytes) (instr : bytes) (args : list bytes) (l : list event) : Prop := {
  cm_recipe : sound_recipe sg out listing inst_area srcs links r p;
  cm_bob : has_bob d prefix;
  cm_file : exists t, d (lit "build.fl") = Some t /\ says t (script r);
  cm_phases : phases_of sg out listing pow prefix d C l S;
  cm_return : phases_return S;
  cm_line : exists os, reads (s_permute S) argv os (instr :: args) /\ jobs_ok os /\
    (exists project, project_dir os project /\ s_project S project = true) /\
    (out_dir os out /\ s_out S out = true) /\ (prefix_dir (s_env S) os prefix /\ s_exists S prefix = true);
  cm_known : phases out prefix instr = Some l;
}.
