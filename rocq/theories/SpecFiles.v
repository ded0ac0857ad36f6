(** * Specification vocabulary for up-to-date checks, recorded flags and dependency rules. *)

From Coq Require Import ZArith Ascii String Lia Bool List.
From Verif Require Import Base FileSys.
Import ListNotations.

(** Modification time of an existing path. *)
Definition modified_at (f : fs) (p : bytes) (t : Z) : Prop := stat f p = StatOk t.

(** The target exists, every dependency exists, and no dependency is later than the target. *)
Definition up_to_date (f : fs) (target : bytes) (deps : list bytes) : Prop :=
  exists t, modified_at f target t /\ forall d, In d deps -> exists td, modified_at f d td /\ (td <= t)%Z.

(** The first dependency (in list order) that is not both examinable and no later than [t]. *)
Definition first_bad (f : fs) (t : Z) (deps : list bytes) (d : bytes) : Prop :=
  exists before after, deps = before ++ d :: after /\
  (forall b, In b before -> exists tb, modified_at f b tb /\ (tb <= t)%Z) /\
  ~ (exists td, modified_at f d td /\ (td <= t)%Z).

(** The newline-terminated list of strings a file contains. *)
Fixpoint lines (ls : list bytes) : bytes :=
  match ls with [] => [] | l :: ls' => l ++ [NL] ++ lines ls' end.

Definition plain (s : bytes) : Prop := ~ In NL s /\ ~ In NUL s.

(** The flags recorded for [out] are exactly [flags]. *)
Definition records_flags (f : fs) (out : bytes) (flags : list bytes) : Prop :=
  exists t, f (out ++ lit ".flags") = File (lines flags) t.

(** A make rule without target, as the preprocessor prints it with -MM -MT "": a colon, then each prerequisite
    preceded by blanks, possibly with a line continuation among them, and a final newline. *)
Fixpoint spaces (n : nat) : bytes := match n with O => [] | S n' => SPACE :: spaces n' end.

(** Separator before a prerequisite: [S n] blanks, or [S n] blanks, backslash, newline, [S m] blanks. *)
Inductive gap := Blanks (n : nat) | Wrapped (n m : nat).
Definition gap_text (g : gap) : bytes :=
  match g with
  | Blanks n => spaces (S n)
  | Wrapped n m => spaces (S n) ++ [BACKSLASH; NL] ++ spaces (S m)
  end.

(** Make's quoting of special characters in a prerequisite (GCC: blanks and '#' get a backslash, '$' is
    doubled). *)
Fixpoint make_quote (name : bytes) : bytes :=
  match name with
  | [] => []
  | c :: rest =>
    (if byte_eqb c SPACE || byte_eqb c "#"%char then [BACKSLASH; c]
     else if byte_eqb c "$"%char then [c; c] else [c]) ++ make_quote rest
  end.

Definition rule_text (items : list (gap * bytes)) : bytes :=
  [COLON] ++ concat (map (fun it => gap_text (fst it) ++ make_quote (snd it)) items) ++ [NL].

(** File names that need no quoting: not empty, no blank, '#', '$', newline or NUL, not starting with a colon
    or a backslash. *)
Definition simple_name (name : bytes) : Prop :=
  (forall c, In c name -> c <> SPACE /\ c <> "#"%char /\ c <> "$"%char /\ c <> NL /\ c <> NUL) /\
  exists c rest, name = c :: rest /\ c <> COLON /\ c <> BACKSLASH.
