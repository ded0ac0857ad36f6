(** * C54, C55: errors and imports in scripts. *)

From Coq Require Import ZArith Arith Ascii String Lia Bool List.
From Verif Require Import Base FlAst FlState FlInterp FlMonad SpecFlamingo SpecScript SpecFrame SpecScope SpecImport FlErrorProofs FlFuel FlImportProofs PropertiesScript PropertiesScope.
Import ListNotations.
Local Open Scope nat_scope.

(** ** Programs with files, for the examples *)

Fixpoint find_file (fs : list (string * list stmt)) (p : bytes) : file :=
  match fs with
  | [] => NoFile (lit "No such file or directory")
  | (q, ss) :: fs => if bytes_eqb (lit q) p then File ss else find_file fs p
  end.
Definition with_files (fs : list (string * list stmt)) : conf unit :=
  Conf unit (lit "Bob the Builder") (fun _ _ => None) (fun p => match find_file fs p with File _ => true | _ => false end) (find_file fs)
    (fun _ _ => ret None) (fun _ => ret tt) (fun _ _ => ret tt) (fun _ => ret tt).
Definition import (path : list string) : stmt := SImport false (map lit path).
Definition import_here (path : list string) : stmt := SImport true (map lit path).
Definition say (x : string) : stmt := SPrint (str x).
Lemma with_files_reports fs : reports_failures (with_files fs) (fun _ => False).
Proof. repeat split; intros; cbn; assumption. Qed.

(** ** The fuel of the interpreter does not matter *)

(** The theorems about scripts are about the interpreter with some fuel. Whatever fuel does not run out gives the same outcome. *)
Theorem fuel_does_not_matter : forall H (cf : conf H) n n' paths h ss,
  run cf n paths h ss <> NoFuel -> run cf n' paths h ss <> NoFuel -> run cf n paths h ss = run cf n' paths h ss.
Proof. exact (@run_determined). Qed.
Print Assumptions fuel_does_not_matter.
Theorem more_fuel_is_harmless : forall H (cf : conf H) n n' paths h ss,
  n <= n' -> run cf n paths h ss <> NoFuel -> run cf n' paths h ss = run cf n paths h ss.
Proof. exact (@run_more). Qed.
Print Assumptions more_fuel_is_harmless.
Example fuel_case : run demo 9 [] tt [let_to "x" (num "1"); pr "x"] <> NoFuel /\ run demo 0 [] tt [let_to "x" (num "1"); pr "x"] = NoFuel.
Proof. split; vm_compute; [discriminate|reflexivity]. Qed.

(** ** C54: errors are reported

    Full statement: every error is reported with its message. It is false: a message that does not fit into 256 bytes with the name of the program is a
    failed assertion, and each level of imports adds to the message. Proved: a script that fails has an error message; messages that fit are reported as they are; exactly the
    others are fatal. *)
Theorem C54_failures_have_messages_partial : forall H (cf : conf H) told, reports_failures cf told -> forall n paths h ss, orderly cf told (run cf n paths h ss).
Proof. exact (@failures_explained). Qed.
Print Assumptions C54_failures_have_messages_partial.

Theorem C54_failures_have_messages_from_any_state_partial : forall H (cf : conf H) told, reports_failures cf told ->
  forall n ss s, err s = None -> orderly cf told (exec cf n ss s).
Proof. exact (@failures_explained_from). Qed.
Print Assumptions C54_failures_have_messages_from_any_state_partial.

Theorem C54_messages_that_fit_are_reported_partial : forall H (cf : conf H) A msg s, err s = None -> length (line cf msg) < 256 ->
  reports cf msg s = @Fail H A (with_error (line cf msg) s).
Proof. exact (@fits_reported). Qed.
Print Assumptions C54_messages_that_fit_are_reported_partial.

Theorem C54_unknown_identifiers_are_reported_partial : forall H (cf : conf H) n x s, unknown s x -> err s = None ->
  length (line cf (lit "could not find identifier: " ++ cstr x)) < 256 ->
  outcome cf (S n) (EId x) s = Fail (with_error (line cf (lit "could not find identifier: " ++ cstr x)) s).
Proof. exact (@unknown_reported). Qed.
Print Assumptions C54_unknown_identifiers_are_reported_partial.

(** All the others are fatal. *)
Theorem C54_long_identifiers_are_fatal_refuted : forall H (cf : conf H) n x s, unknown s x -> err s = None ->
  256 <= length (line cf (lit "could not find identifier: " ++ cstr x)) -> outcome cf (S n) (EId x) s = Died.
Proof. exact (@unknown_fatal). Qed.
Print Assumptions C54_long_identifiers_are_fatal_refuted.

Example C54_case : let s := start in unknown s (lit "nope") /\ err s = None /\
  (exists s', outcome_of [SPrint (id "nope")] = Fail s' /\ err s' = Some (lit "demo:0:0: could not find identifier: nope")) /\ reports_failures demo (fun _ => False).
Proof.
  cbv zeta. split; [|split; [vm_compute; reflexivity|split; [eexists; split; vm_compute; reflexivity|]]].
  - exists [0]. split; [vm_compute; reflexivity|]. constructor; [|constructor]. exists []. split; [has_vars|constructor].
  - repeat split; intros; cbn; assumption.
Qed.

(** A name of 208 bytes, one of 207, and a message four imports away. *)
Theorem C54_errors_can_be_fatal_refuted :
  run (with_files []) 9 [] tt [SPrint (EId (repeat "a"%char 208))] = Died /\
  (exists s, run (with_files []) 9 [] tt [SPrint (EId (repeat "a"%char 207))] = Fail s) /\
  run (with_files [("a.fl", [import ["b"]]); ("b.fl", [import ["c"]]); ("c.fl", [import ["d"]]); ("d.fl", [pr "nope"])]%string) 30 [] tt [import ["a"%string]] = Died /\
  (exists s, run (with_files [("a.fl", [import ["b"]]); ("b.fl", [import ["c"]]); ("c.fl", [pr "nope"])]%string) 30 [] tt [import ["a"%string]] = Fail s).
Proof. split; [vm_compute; reflexivity|]. split; [eexists; vm_compute; reflexivity|]. split; [vm_compute; reflexivity|]. eexists. vm_compute. reflexivity. Qed.
Print Assumptions C54_errors_can_be_fatal_refuted.

(** ** C55: imports

    Full statement: as below, and a leading dot makes the import relative to the importing file. The latter is false: it is relative to the current directory.
    An imported file has no import path, so that the imports in it are relative to the current directory too. *)
Theorem C55_the_first_directory_wins_partial : forall H (cf : conf H) n path s before d after,
  cur_rv s = None -> path <> [] -> Forall (fun x => ~ In NUL x) path -> import_paths s = before ++ d :: after ->
  Forall (fun d => cf_exists cf (in_dir d (file_name path)) = false) before -> cf_exists cf (in_dir d (file_name path)) = true ->
  imports cf n (in_dir d (file_name path)) s (r_stmt (interp cf (S n)) (SImport false path) s).
Proof. exact (@import_first). Qed.
Print Assumptions C55_the_first_directory_wins_partial.

Theorem C55_otherwise_the_current_directory_partial : forall H (cf : conf H) n path s,
  cur_rv s = None -> path <> [] -> Forall (fun x => ~ In NUL x) path ->
  Forall (fun d => cf_exists cf (in_dir d (file_name path)) = false) (import_paths s) ->
  imports cf n (file_name path) s (r_stmt (interp cf (S n)) (SImport false path) s).
Proof. exact (@import_nowhere). Qed.
Print Assumptions C55_otherwise_the_current_directory_partial.

Theorem C55_a_leading_dot_skips_the_import_path_partial : forall H (cf : conf H) n path s,
  cur_rv s = None -> path <> [] -> Forall (fun x => ~ In NUL x) path ->
  imports cf n (file_name path) s (r_stmt (interp cf (S n)) (SImport true path) s).
Proof. exact (@import_relative). Qed.
Print Assumptions C55_a_leading_dot_skips_the_import_path_partial.

Definition fs55 : list (string * list stmt) :=
  [("two/lib/x.fl", [say "two"]); ("three/lib/x.fl", [say "three"]); ("lib/x.fl", [say "here"])]%string.
Definition s55 : st unit := Eval vm_compute in match create (map lit ["one"; "two"; "three"]%string) tt with Ret _ s => s | _ => start end.
Example C55_case : let path := map lit ["lib"; "x"]%string in
  cur_rv s55 = None /\ Forall (fun x => ~ In NUL x) path /\ import_paths s55 = [lit "one"] ++ lit "two" :: [lit "three"] /\
  Forall (fun d => cf_exists (with_files fs55) (in_dir d (file_name path)) = false) [lit "one"] /\
  cf_exists (with_files fs55) (in_dir (lit "two") (file_name path)) = true /\
  shows (run (with_files fs55) 9 (map lit ["one"; "two"; "three"]%string) tt [import ["lib"; "x"]%string; import_here ["lib"; "x"]%string]) [lit "two"; lit "here"].
Proof.
  cbv zeta. split; [reflexivity|]. split; [repeat constructor; cbn; intuition discriminate|]. split; [reflexivity|].
  split; [repeat constructor; vm_compute; reflexivity|]. split; [vm_compute; reflexivity|]. eexists. split; vm_compute; reflexivity.
Qed.

(** lib/a.fl imports [.b], which is next to it, and [c], which is on the import path. *)
Theorem C55_not_relative_to_the_importing_file_refuted :
  let missing cf x := exists s, run cf 9 [lit "inc"] tt [import ["lib"; "a"]%string] = Fail s /\
    err s = Some (lit "Bob the Builder:0:0: failed to import 'lib/a.fl': flamingo_run: Bob the Builder:0:0: failed to import '" ++ lit x ++ lit "': No such file or directory") in
  missing (with_files [("lib/a.fl", [import_here ["b"]]); ("lib/b.fl", [])]%string) "b.fl"%string /\
  missing (with_files [("lib/a.fl", [import ["c"]]); ("inc/c.fl", [])]%string) "c.fl"%string.
Proof. cbv zeta. split; eexists; split; vm_compute; reflexivity. Qed.
Print Assumptions C55_not_relative_to_the_importing_file_refuted.
