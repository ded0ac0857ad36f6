(** * Values a script keeps. *)

From Coq Require Import ZArith Ascii String Lia Bool List.
From Verif Require Import Base FlAst FlState Bob Project.
Import ListNotations.

(** Once a script has ended in [s], the value at [a] is that of a variable outside of all functions and classes, or is in a vector or a map. *)
Definition is_variable (s : st bob) (a : addr) : Prop := exists vs t v, top_vars s = Ret vs t /\ In v vs /\ v_val v = Some a.
Definition is_element (s : st bob) (a : addr) : Prop :=
  exists x c, nth_error (cells s) x = Some c /\
    ((exists es, c_val c = PVec es /\ In a es) \/ exists kvs k v, c_val c = PMap kvs /\ In (k, v) kvs /\ (a = k \/ a = v)).
Definition kept (s : st bob) (a : addr) : Prop := is_variable s a \/ is_element s a.
