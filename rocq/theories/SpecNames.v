(** * Specification vocabulary for file names (independent of how Bob builds them). *)

From Coq Require Import ZArith Ascii String Lia Bool List.
From Verif Require Import Base.
Import ListNotations.

(** [p] names an entry directly inside directory [dir]: no further '/' and not one of the special
    entries. *)
Definition direct_child (dir p : bytes) : Prop :=
  exists name, p = dir ++ lit "/" ++ name /\ ~ In SLASH name /\ name <> [] /\ name <> lit "." /\ name <> lit "..".

(** [p] and [q] differ at byte position [i] (also when one has already ended there). *)
Definition differ_at (p q : bytes) (i : nat) : Prop := nth_error p i <> nth_error q i.
