(** * Specification vocabulary: builds in debugging mode among others. *)

From Coq Require Import ZArith Ascii String Lia Bool List.
From Verif Require Import Base FileSys Frugal Deps Cookie Build SpecBuild SpecFiles SpecHistory Plan SpecPlan Debug.
Import ListNotations.

(** The program with or without debugging mode. *)
Definition either_mode (E T : env) : Prop := T = E \/ T = debugged E.

(** [w] results from a state without products, [w0], by edits and by builds in either mode, which may fail or be
    interrupted. *)
Inductive mixed_history (E : env) (area inst_area : bytes -> Prop) (objs : item -> Prop) (reqs : link_req -> Prop) : world -> world -> Prop :=
| mh_start w : (forall p, area p -> files w p = Absent) -> mixed_history E area inst_area objs reqs w w
| mh_step w0 w w' T : mixed_history E area inst_area objs reqs w0 w -> either_mode E T ->
    evolves T area inst_area objs reqs w w' -> mixed_history E area inst_area objs reqs w0 w'.

Definition mixed_past (sg : bool) (out : bytes) (E : env) (inst_area srcs : bytes -> Prop) (links : link_kind -> list bytes -> Prop)
                      (w0 w : world) : Prop :=
  mixed_history E (product_dir out) inst_area (named_item sg out srcs) (named_link sg out links) w0 w.

(** If nothing is recorded to be read for the object, nothing is read but the source itself. *)
Definition headers_known (E : env) (f : fs) (it : item) : Prop :=
  read_file f (deps_path (it_out it)) = Some [] -> exists o, deps_on E it f = Some o /\ forall d, In d (listed o) -> d = it_src it.
