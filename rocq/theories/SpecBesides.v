(** * Specification vocabulary: what products depend on besides the files they are known to be made from. *)

From Coq Require Import ZArith Ascii String Lia Bool List.
From Verif Require Import Base FileSys Frugal Deps Cookie Build SpecBuild SpecFiles SpecHistory Plan SpecPlan.
Import ListNotations.

Section Outside.
Variable E : env.
Variables area inst_area : bytes -> Prop.
Notation source := (source area inst_area).

(** [outside p]: [p] is a place tools look at although neither the script nor the preprocessor names it: the
    compiler itself, system headers (left out by -MM), libraries, places where a header would take precedence. *)
Variable outside : bytes -> bool.
(** What is there, or that nothing is. *)
Variable a : fs.

Definition as_found (f : fs) : Prop := forall p, outside p = true -> f p = a p.

(** As long as nothing there changes, the tools are honest: see [honest_tools]. *)
Record honest_inside : Prop := {
  hi_outside : forall p, outside p = true -> source p;
  hi_listed : forall it f f' o, as_found f -> as_found f' -> deps_on E it f = Some o ->
    (forall p, p = it_src it \/ In p (listed o) -> same_content (f p) (f' p)) ->
    deps_on E it f' = Some o /\ cc_on E it f' = cc_on E it f;
  hi_deps : forall it f text obj, as_found f -> cc_on E it f = ToolOk text obj -> exists o, deps_on E it f = Some o;
  hi_sources : forall it f o d, as_found f -> deps_on E it f = Some o -> In d (listed o) ->
    source d /\ outside d = false /\ exists t, modified_at f d t;
  hi_clean : forall it f text c, as_found f -> cc_on E it f <> ToolFail text (Some (Some c));
  hi_clean_ld : forall r f text c, as_found f -> ld_on E r f <> ToolFail text (Some (Some c));
  hi_ld : forall r f f', as_found f -> as_found f' -> (forall p, In p (lk_srcs r) -> same_content (f p) (f' p)) -> ld_on E r f = ld_on E r f';
}.
End Outside.

(** As [setting], with tools that are honest as long as nothing outside changes. *)
Record setting_inside (sg : bool) (out : bytes) (E : env) (inst_area : bytes -> Prop) (srcs : bytes -> Prop)
               (links : link_kind -> list bytes -> Prop) (outside : bytes -> bool) (a : fs) : Prop := {
  si_env : good_env E (product_dir out) inst_area;
  si_tools : honest_inside E (product_dir out) inst_area outside a;
  si_clock : monotone (clock E);
  si_names : well_named sg out E inst_area srcs links;
}.

(** As [past]; no edit changes anything outside. *)
Inductive past_inside (sg : bool) (out : bytes) (E : env) (inst_area srcs : bytes -> Prop) (links : link_kind -> list bytes -> Prop)
                      (outside : bytes -> bool) (a : fs) : world -> world -> Prop :=
| pi_start w : (forall p, product_dir out p -> files w p = Absent) -> as_found outside a (files w) ->
    past_inside sg out E inst_area srcs links outside a w w
| pi_step w0 w w' : past_inside sg out E inst_area srcs links outside a w0 w ->
    evolves E (product_dir out) inst_area (named_item sg out srcs) (named_link sg out links) w w' ->
    as_found outside a (files w') -> past_inside sg out E inst_area srcs links outside a w0 w'.
