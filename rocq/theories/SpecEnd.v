(** * What a build file leaves to Bob when it has been run. *)

From Coq Require Import ZArith Ascii String Lia Bool List.
From Verif Require Import Base FlAst FlState FlInterp SpecFlamingo SpecScript SpecScope SpecImport Bob.
Import ListNotations.

(** ** Names *)

(** Where the file [path] that is imported is looked for: here, or in the first of [dirs] that has it. *)
Inductive located {H} (cf : conf H) (dirs : list bytes) (path : list bytes) : bool -> bytes -> Prop :=
| located_here : located cf dirs path true (file_name path)
| located_in before d after : dirs = before ++ d :: after -> Forall (fun d => cf_exists cf (in_dir d (file_name path)) = false) before ->
    cf_exists cf (in_dir d (file_name path)) = true -> located cf dirs path false (in_dir d (file_name path))
| located_nowhere : Forall (fun d => cf_exists cf (in_dir d (file_name path)) = false) dirs -> located cf dirs path false (file_name path).

(** The names the statements declare themselves, those of the files they import included, in order. Statements inside of others don't count. Imported files
    have no import directories. *)
Inductive leaves {H} (cf : conf H) (dirs : list bytes) : list stmt -> list bytes -> Prop :=
| leaves_none : leaves cf dirs [] []
| leaves_one x y b a ss xs : declaration x y b a -> leaves cf dirs ss xs -> leaves cf dirs (y :: ss) (x :: xs)
| leaves_file rel path f ss' xs' ss xs : located cf dirs path rel f -> cf_file cf f = File ss' -> leaves cf [] ss' xs' -> leaves cf dirs ss xs ->
    leaves cf dirs (SImport rel path :: ss) (xs' ++ xs)
| leaves_other y ss xs : (forall x b a, ~ declaration x y b a) -> (forall rel path, y <> SImport rel path) -> leaves cf dirs ss xs -> leaves cf dirs (y :: ss) xs.

(** ** Values *)

(** Scope [i] is the outermost open one. *)
Definition outermost {H} (s : st H) (i : nat) : Prop := exists l, open s (l ++ [i]).
(** There, [x] is the value at [a]; there is no [x]. *)
Definition globally {H} (s : st H) (x : bytes) (a : addr) : Prop := exists i j v, outermost s i /\ declares s x i j v /\ v_val v = Some a.
Definition nowhere_global {H} (s : st H) (x : bytes) : Prop := exists i, outermost s i /\ lacks s x i.

(** Not a string. *)
Definition no_string (v : data) : Prop := forall t, v <> DStr t.

(** ** The user *)

(** The user is told [msg]. *)
Definition told_last (msg : bytes) (s s' : st bob) : Prop :=
  s' = set_host (BobState (b_fs (host s)) (b_cc (host s)) (b_linker (host s)) (b_list (host s)) (b_states (host s)) (b_asked (host s)) (b_log (host s) ++ [msg])) s.
