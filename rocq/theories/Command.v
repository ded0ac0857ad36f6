(** * One command of Bob as a whole: src/main.c, src/bsys.c and src/bsys/bob/main.c over the files there are. *)

From Coq Require Import ZArith Ascii String Bool List.
From Verif Require Import Base Vfs Install Build Main FlAst FlState FlInterp FlParse FlRead Bob Project BuildFile.
Import ListNotations.
Local Open Scope Z_scope.

(** What happens outside of Bob's own code while it builds and installs, by the prefix that products are installed under
    ([None]: none): the tools, the files when the build begins and has ended, and the tree when the installation begins and has
    ended. *)
Record course := Course {
  c_env : option bytes -> env;
  c_before : world;
  c_built : option bytes -> world;
  c_sys : sys;
  c_abs_out : bytes;
  c_clock : nat -> Z;
  c_tree : bytes -> vw;
  c_installed : bytes -> vw;
}.

(** install.c 16-17: the static variables when Bob starts. *)
Definition no_map : install_state := {| i_map := None; i_prefix := None |}.

(** bsys/bob/main.c 225-231 [build], after [setup] has left the state [s]. *)
Definition build_phase (C : course) (s : st bob) (pre : option bytes) (rv : Z) : Prop :=
  exists iv, install_var s = Ret iv s /\
  if fst (setup_install_map no_map iv pre)
  then exists bs s', project_steps s = Ret (Ok bs) s' /\ run_steps (c_env C pre) bs (c_before C) rv (c_built C pre)
  else rv = -1 /\ c_built C pre = c_before C.

(** bsys/bob/main.c 233-235 [install], after [build] with the same prefix (bsys.c 107-120). *)
Definition install_phase (C : course) (s : st bob) (prefix : bytes) (rv : Z) : Prop :=
  exists iv b, install_var s = Ret iv s /\
  install_all (c_sys C) (c_abs_out C) (snd (setup_install_map no_map iv (Some prefix))) (c_clock C) (c_tree C prefix) = Ok (b, c_installed C prefix) /\
  rv = if b then 0 else -1.

(** The phases of [Main.system], in the events [l], are those of the build file in [d]. [install_prefix]: main.c 173-184. A script
    that aborts or does something undefined is left out. *)
Definition phases_of (sg : bool) (out : bytes) (listing : bytes -> option (list bytes)) (pow : Z -> Z -> option Z)
    (install_prefix : bytes) (d : disk) (C : course) (l : list event) (S : system) : Prop :=
  s_identified S = there d BUILD_PATH /\
  forall t, d BUILD_PATH = Some t ->
  exists ss exists_ files n, script_in t = Some ss /\ sees d exists_ /\ finds d files /\
  match setup sg out listing pow exists_ files n install_prefix ss with
  | Ret _ s =>
    s_setup S = 0 /\ run_vector s = Ret (s_run S) s /\
    (forall pre, In (EvBuild pre) l -> build_phase C s pre (s_build S pre)) /\
    (forall prefix, In (EvInstall prefix) l -> install_phase C s prefix (s_install S prefix))
  | Fail _ => s_setup S = -1
  | _ => False
  end.
