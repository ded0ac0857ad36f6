(** * C64: how a build file ends decides what Bob does. *)

From Coq Require Import ZArith Arith Ascii String Lia Bool List.
From Verif Require Import Base Cmd FlAst FlState FlInterp SpecFlamingo SpecScript SpecFrame SpecScope SpecImport SpecEnd Install Main SpecMain Bob SpecProject Project EndProofs PropertiesProject.
Import ListNotations.
Local Open Scope nat_scope.

Notation import_places prefix := [prefix ++ lit "/share/flamingo/import"; lit "import"].

(** ** Names *)

(** When a script has been run, its outermost scope has exactly the names its own statements and those of the files it imports declare, in order. *)
Theorem C64_names_left : forall H (cf : conf H), tame cf -> forall n dirs h ss s, run cf n dirs h ss = Ret tt s ->
  exists xs, leaves cf dirs ss xs /\ declares_names s 0 xs /\ open s [0].
Proof. exact (@run_names). Qed.
Print Assumptions C64_names_left.

(** ** Build files that are accepted

    Full statement: a build file is accepted if and only if it runs to its end and has imported bob. It is false: what is checked is a name, which an import inside of
    a block doesn't leave and which a script may declare itself. Proved: exactly the files that run to their end and leave this name are accepted, and those that import
    bob outside of blocks and functions leave it; the others are refused, and the user is told why. *)
Definition accepted (sg : bool) (out : bytes) (listing : bytes -> option (list bytes)) (pow : Z -> Z -> option Z) (exists_ : bytes -> bool) (files : bytes -> file) n prefix ss s : Prop :=
  setup sg out listing pow exists_ files n prefix ss = Ret tt s.
Theorem C64_accepted_files_partial : forall sg out listing pow exists_ files n prefix ss s,
  accepted sg out listing pow exists_ files n prefix ss s ->
  run (bob_conf sg out listing pow exists_ files) n (import_places prefix) fresh_bob ss = Ret tt s /\
  exists xs, leaves (bob_conf sg out listing pow exists_ files) (import_places prefix) ss xs /\ declares_names s 0 xs /\ In (lit "__bob_has_been_imported__") xs.
Proof. exact setup_accepts. Qed.
Print Assumptions C64_accepted_files_partial.

Theorem C64_refused_files_partial : forall sg out listing pow exists_ files n prefix ss s',
  setup sg out listing pow exists_ files n prefix ss = Fail s' -> exists s,
  (run (bob_conf sg out listing pow exists_ files) n (import_places prefix) fresh_bob ss = Ret tt s /\
    (exists xs, leaves (bob_conf sg out listing pow exists_ files) (import_places prefix) ss xs /\ declares_names s 0 xs /\ ~ In (lit "__bob_has_been_imported__") xs) /\
    told_last (lit "Invalid build file; missing 'bob' import") s s') \/
  (run (bob_conf sg out listing pow exists_ files) n (import_places prefix) fresh_bob ss = Fail s /\
    exists msg, said s msg /\ told_last (lit "Failed to run build program: " ++ msg) s s').
Proof. exact setup_refuses. Qed.
Print Assumptions C64_refused_files_partial.

Theorem C64_acceptance_partial : forall sg out listing pow exists_ files n prefix ss s xs,
  run (bob_conf sg out listing pow exists_ files) n (import_places prefix) fresh_bob ss = Ret tt s -> (exists vs, vars s 0 vs /\ map v_key vs = xs) ->
  exists s', (In (lit "__bob_has_been_imported__") xs -> accepted sg out listing pow exists_ files n prefix ss s) /\
    (~ In (lit "__bob_has_been_imported__") xs ->
     setup sg out listing pow exists_ files n prefix ss = Fail s' /\ told_last (lit "Invalid build file; missing 'bob' import") s s').
Proof. exact setup_names. Qed.
Print Assumptions C64_acceptance_partial.

(** With the bob.fl that comes with Bob, importing it outside of blocks and functions is enough; then there are an install map and a run vector too. *)
Theorem C64_importing_bob_is_enough : forall sg out listing pow exists_ files n prefix ss s,
  finds_bob exists_ files prefix -> In (SImport false [lit "bob"]) ss ->
  run (bob_conf sg out listing pow exists_ files) n (import_places prefix) fresh_bob ss = Ret tt s ->
  (exists xs, declares_names s 0 xs /\ incl reserved xs) /\ forall s', setup sg out listing pow exists_ files n prefix ss <> Fail s'.
Proof. exact imports_bob. Qed.
Print Assumptions C64_importing_bob_is_enough.

Definition setting_up (ss : list stmt) : FlState.out bob unit := setup true (lit ".bob") few (fun _ _ => None) bob_exists bob_text 40 (lit "/usr/local") ss.
Definition complaints (ss : list stmt) : option (list bytes) := match setting_up ss with Fail s => Some (b_log (host s)) | _ => None end.
Definition left_by (ss : list stmt) : st bob := match setting_up ss with Ret _ s => s | _ => blank [] fresh_bob end.
Definition fine (ss : list stmt) : bool := match setting_up ss with Ret _ _ => true | _ => false end.
Theorem C64_imports_decide_refuted :
  (complaints [SBlock [import_bob; SExpr (ECall (tid "Cc") [EVec []])]] = Some [lit "Invalid build file; missing 'bob' import"]) /\
  (fine [SLet false (lit "__bob_has_been_imported__") None] = true).
Proof. split; vm_compute; reflexivity. Qed.
Print Assumptions C64_imports_decide_refuted.

Example C64_case_accepted : fine [tlet "x" (tstr "a"); import_bob] = true.
Proof. vm_compute. reflexivity. Qed.
Example C64_case_refused :
  complaints [tlet "x" (tstr "a")] = Some [lit "Invalid build file; missing 'bob' import"] /\
  complaints [import_bob; tlet "z" (tid "y")] = Some [lit "Failed to run build program: Bob the Builder:0:0: could not find identifier: y"].
Proof. split; vm_compute; reflexivity. Qed.

(** ** bob run *)

(** No run vector, one that is no vector, or one with something other than strings in it: a failure. None: nothing is run. Otherwise the program is what the strings and the
    arguments say; with neither, nothing is run. *)
Theorem C64_no_run_vector : forall s, nowhere_global s (lit "run") ->
  exists r, run_vector s = Ret r s /\ forall S e argv, s_run S = r -> bob_run S e argv = RValue (-1).
Proof. exact run_missing. Qed.
Print Assumptions C64_no_run_vector.
Theorem C64_run_disabled : forall s a, globally s (lit "run") a -> holds s DNone a ->
  exists r, run_vector s = Ret r s /\ forall S e argv, s_run S = r -> bob_run S e argv = RValue 0.
Proof. exact run_none. Qed.
Print Assumptions C64_run_disabled.
Theorem C64_run_no_vector : forall s a v, globally s (lit "run") a -> holds s v a -> v <> DNone -> (forall l, v <> DVec l) ->
  exists r, run_vector s = Ret r s /\ forall S e argv, s_run S = r -> bob_run S e argv = RValue (-1).
Proof. exact run_other. Qed.
Print Assumptions C64_run_no_vector.
Theorem C64_run_no_strings : forall s a l v, globally s (lit "run") a -> holds s (DVec l) a -> In v l -> no_string v ->
  exists r, run_vector s = Ret r s /\ forall S e argv, s_run S = r -> bob_run S e argv = RValue (-1).
Proof. exact run_bad. Qed.
Print Assumptions C64_run_no_strings.
Theorem C64_run_strings : forall s a l, globally s (lit "run") a -> holds s (DVec (map DStr l)) a ->
  exists r, run_vector s = Ret r s /\
  forall S e argv, s_run S = r -> bob_run S e argv = match map cstr l ++ user_words argv with [] => RValue 0 | ws => exec_inplace S e ws end.
Proof. exact run_strings. Qed.
Print Assumptions C64_run_strings.

(** ** Installing *)

Notation nothing_to_install st := {| i_map := None; i_prefix := i_prefix st |}.
Theorem C64_no_install_map : forall s, nowhere_global s (lit "install") ->
  exists r, install_var s = Ret r s /\ forall st prefix, setup_install_map st r prefix = (false, nothing_to_install st).
Proof. exact install_missing. Qed.
Print Assumptions C64_no_install_map.
Theorem C64_install_nothing : forall s a, globally s (lit "install") a -> holds s DNone a ->
  exists r, install_var s = Ret r s /\ forall st prefix, setup_install_map st r prefix = (true, nothing_to_install st).
Proof. exact install_none. Qed.
Print Assumptions C64_install_nothing.
Theorem C64_install_no_map : forall s a v, globally s (lit "install") a -> holds s v a -> v <> DNone -> (forall l, v <> DMap l) ->
  exists r, install_var s = Ret r s /\ forall st prefix, setup_install_map st r prefix = (false, nothing_to_install st).
Proof. exact install_other. Qed.
Print Assumptions C64_install_no_map.
Theorem C64_install_no_strings : forall s a l k v, globally s (lit "install") a -> holds s (DMap l) a -> In (k, v) l -> no_string k \/ no_string v ->
  exists r, install_var s = Ret r s /\ forall st prefix, setup_install_map st r prefix = (false, nothing_to_install st).
Proof. exact install_bad. Qed.
Print Assumptions C64_install_no_strings.
Theorem C64_install_strings : forall s a m, globally s (lit "install") a -> holds s (DMap (map (fun kv => (DStr (fst kv), DStr (snd kv))) m)) a ->
  exists r, install_var s = Ret r s /\
  forall st prefix, setup_install_map st r prefix = (true, match m with [] => nothing_to_install st | _ => {| i_map := Some m; i_prefix := prefix |} end).
Proof. exact install_strings. Qed.
Print Assumptions C64_install_strings.

(** A script that ends with [run = ["./x", "-v"]] and [install = {"x": "bin/x"}], one with [run = none], and one that doesn't import bob. *)
Definition of_run (ss : list stmt) : option run_var := match run_vector (left_by ss) with Ret r _ => Some r | _ => None end.
Definition of_install (ss : list stmt) : option (option script_val) := match install_var (left_by ss) with Ret r _ => Some r | _ => None end.
Example C64_case_run :
  of_run [import_bob; tset "run" (EVec [tstr "./x"; tstr "-v"])] = Some (RunVec [Some (lit "./x"); Some (lit "-v")]) /\
  of_run [import_bob; tset "run" ENone] = Some RunNone /\
  of_run [import_bob] = Some (RunVec []) /\
  of_run [SLet false (lit "__bob_has_been_imported__") None] = Some RunMissing /\
  of_run [SLet false (lit "__bob_has_been_imported__") None; tlet "run" (tstr "x")] = Some RunOther /\
  of_run [import_bob; tset "run" (EVec [tstr "./x"; ENum (lit "1")])] = Some (RunVec [Some (lit "./x"); None]).
Proof. repeat split; vm_compute; reflexivity. Qed.
Example C64_case_install :
  of_install [import_bob; tset "install" (EMap [(tstr "x", tstr "bin/x")])] = Some (Some (SMap [(Some (lit "x"), Some (lit "bin/x"))])) /\
  of_install [import_bob] = Some (Some SNone) /\
  of_install [import_bob; tset "install" (tstr "x")] = Some (Some SOther) /\
  of_install [SLet false (lit "__bob_has_been_imported__") None] = Some None.
Proof. repeat split; vm_compute; reflexivity. Qed.
(** The first of them meets the conditions of [C64_run_strings]. *)
Definition two_words : st bob := Eval vm_compute in left_by [import_bob; tset "run" (EVec [tstr "./x"; tstr "-v"])].
Example C64_case_conditions : exists a, globally two_words (lit "run") a /\ holds two_words (DVec (map DStr [lit "./x"; lit "-v"])) a.
Proof.
  eexists. split.
  - exists 0, 5. eexists. split; [exists []; reflexivity|]. split.
    + do 2 eexists. split; [eexists; split; [reflexivity|split; [reflexivity|]]|].
      * cbn [sc_vars]. match goal with |- ?a :: ?b :: ?c :: ?d :: ?e :: ?f :: [] = _ => exact (eq_refl : _ = [a; b; c; d; e] ++ f :: []) end.
      * split; [reflexivity|]. split; [reflexivity|]. repeat constructor; cbn; discriminate.
    + reflexivity.
  - cbn [map holds]. eexists. split; [reflexivity|]. eexists. split; [reflexivity|].
    repeat split; (eexists; split; [reflexivity|]; do 3 eexists; split; [reflexivity|]; split; [reflexivity|]; split; [cbn; lia|reflexivity]).
Qed.
