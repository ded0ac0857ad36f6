(** * From the text of a build file to what is built (src/bsys/bob/main.c, flamingo/grammar/import.h). *)

From Coq Require Import ZArith Ascii String Bool List.
From Verif Require Import Base Build Main FlAst FlState FlInterp FlParse FlRead Bob Project.
Import ListNotations.

(** The texts of the files there are. *)
Definition disk := bytes -> option bytes.

(** grammar/import.h 214: access(2) with F_OK. *)
Definition there (d : disk) (q : bytes) : bool := match d q with Some _ => true | None => false end.

(** What Bob finds there. *)
Definition sees (d : disk) (exists_ : bytes -> bool) : Prop := forall q, exists_ q = there d q.

(** grammar/import.h 15-70: what an import finds at a path, read as flamingo.c 62-128 [flamingo_create] reads it. A text that is no script is
    left open: the code runs whatever tree the recovery from syntax errors makes up. *)
Definition finds (d : disk) (files : bytes -> file) : Prop :=
  (forall q t ss, d q = Some t -> script_in t = Some ss -> files q = File ss) /\
  (forall q, d q = None -> exists why, files q = NoFile why).

(** bsys/bob/main.c 25 *)
Definition BUILD_PATH : bytes := lit "build.fl".

(** bsys/bob/main.c 124-231 [setup], [build]: the build file is read as a whole and run. *)
Definition file_build (sg : bool) (out : bytes) (listing : bytes -> option (list bytes)) (pow : Z -> Z -> option Z)
    (E : env) (install_prefix : bytes) (d : disk) (w : world) (rv : Z) (w' : world) : Prop :=
  exists t ss exists_ files,
    d BUILD_PATH = Some t /\ script_in t = Some ss /\ sees d exists_ /\ finds d files /\
    script_build sg out listing pow exists_ files E install_prefix ss w rv w'.
