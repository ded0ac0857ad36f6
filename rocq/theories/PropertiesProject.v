(** * C56-C58: build scripts as a whole. *)

From Coq Require Import ZArith Arith Ascii String Lia Bool List.
From Verif Require Import Base Install Main Cmd FlAst FlState FlInterp Bob SpecBob Project SpecProject ProjectProofs RecipeProofs FileSys Cookie CookieProofs Build SpecFiles SpecBuild SpecHistory Plan SpecPlan Drive Toy
  PropertiesBuild.
Import ListNotations.
Local Open Scope nat_scope.

(** ** C56: a declarative build script builds, installs and runs what it says

    Quantified over the scripts of SpecProject: after [import bob], compilers, linkers, strings, lists (written down, listed from directories, filtered, joined),
    compilations, links and archives in any number and order, then an install map and a run vector. *)

(** The script ends without an error and without a word. The steps made of what it asked for are those of its meaning; so are the install map and the run vector. *)
Theorem C56_script_asks_for_what_it_says : forall sg out listing pow exists_ texts prefix r p,
  nul_free out -> finds_bob exists_ texts prefix -> distinct_names (recipe_lines r) -> plain_texts r -> recipe_means sg out listing r = Some p ->
  exists N, forall n, N <= n -> exists s,
    setup sg out listing pow exists_ texts n prefix (SpecProject.script r) = Ret tt s /\ b_log (host s) = [] /\
    project_steps s = Ret (plan sg out (to_build p)) s /\
    install_var s = Ret (Some (found_install (to_install p))) s /\
    run_vector s = Ret (found_run (to_run p)) s.
Proof. exact script_builds. Qed.
Print Assumptions C56_script_asks_for_what_it_says.

(** From a state without products: everything asked for is made, once, from the sources and flags asked for; nothing else is. *)
Theorem C56_clean_build : forall sg out listing pow exists_ texts prefix inst_area srcs links r p E w w',
  sound_script sg out listing exists_ texts prefix inst_area srcs links r p -> setting sg out E inst_area srcs links ->
  (forall q, product_dir out q -> files w q = Absent) ->
  script_build sg out listing pow exists_ texts E prefix (SpecProject.script r) w 0 w' ->
  (forall it, wanted sg out (to_build p) it ->
     makes (it_out it) (ran w') = S (makes (it_out it) (ran w)) /\
     exists text obj t, files w' (it_out it) = File obj t /\ cc_obj E (argv_flags (it_flags it)) (it_src it) (files w) = ToolOk text obj) /\
  (forall k, wanted_link sg out (to_build p) k ->
     makes (lk_out k) (ran w') = S (makes (lk_out k) (ran w)) /\ link_current E (files w') k) /\
  (forall o, ~ wanted_product sg out (to_build p) o -> makes o (ran w') = makes o (ran w)).
Proof.
  intros sg out listing pow exists_ texts prefix ia srcs links r p E w w' SO ST Em B.
  apply (sound_build _ _ _ pow _ _ _ _ _ _ _ _ SO) in B. exact (C20_clean_build sg out E ia srcs links _ w w' ST (sound_requests _ _ _ _ _ _ _ _ _ _ _ SO) Em B).
Qed.
Print Assumptions C56_clean_build.

(** Every script of this kind can be built, to success or failure; and if one schedule succeeds, all do, with the same products. *)
Theorem C56_some_result : forall sg out listing pow exists_ texts prefix inst_area srcs links r p E w,
  sound_script sg out listing exists_ texts prefix inst_area srcs links r p -> setting sg out E inst_area srcs links ->
  exists rv w', script_build sg out listing pow exists_ texts E prefix (SpecProject.script r) w rv w'.
Proof.
  intros sg out listing pow exists_ texts prefix ia srcs links r p E w SO ST.
  destruct (C20_some_result sg out E ia srcs links _ w ST (sound_requests _ _ _ _ _ _ _ _ _ _ _ SO)) as (rv & w' & B). exists rv, w'.
  now apply (sound_build _ _ _ pow _ _ _ _ _ _ _ _ SO).
Qed.
Print Assumptions C56_some_result.

Theorem C56_any_schedule : forall sg out listing pow exists_ texts prefix inst_area srcs links r p E w w1 rv w2,
  sound_script sg out listing exists_ texts prefix inst_area srcs links r p -> setting sg out E inst_area srcs links ->
  (forall q, product_dir out q -> files w q = Absent) -> (forall o t f, fst (installer E o t f) = true) ->
  script_build sg out listing pow exists_ texts E prefix (SpecProject.script r) w 0 w1 -> script_build sg out listing pow exists_ texts E prefix (SpecProject.script r) w rv w2 ->
  rv = 0%Z /\ forall o, wanted_product sg out (to_build p) o -> same_content (files w2 o) (files w1 o).
Proof.
  intros sg out listing pow exists_ texts prefix ia srcs links r p E w w1 rv w2 SO ST Em Ins B1 B2.
  apply (sound_build _ _ _ pow _ _ _ _ _ _ _ _ SO) in B1, B2.
  exact (C20_any_schedule sg out E ia srcs links _ w w1 rv w2 ST (sound_requests _ _ _ _ _ _ _ _ _ _ _ SO) Em Ins B1 B2).
Qed.
Print Assumptions C56_any_schedule.

(** The same script again, with nothing changed: no tool runs (under the conditions of C18). *)
Theorem C56_second_build_runs_nothing : forall sg out listing pow exists_ texts prefix inst_area srcs links r p E w0 w w1 w2 rv w3,
  sound_script sg out listing exists_ texts prefix inst_area srcs links r p -> setting sg out E inst_area srcs links -> inputs_needed E ->
  past sg out E inst_area srcs links w0 w -> next_second sg out E links w -> no_future E (product_dir out) inst_area w ->
  script_build sg out listing pow exists_ texts E prefix (SpecProject.script r) w 0 w1 ->
  tick w1 <= tick w2 -> (forall q, ~ inst_area q -> files w2 q = files w1 q) ->
  script_build sg out listing pow exists_ texts E prefix (SpecProject.script r) w2 rv w3 ->
  ran w3 = ran w2 /\ (forall q, ~ inst_area q -> files w3 q = files w2 q) /\ ((forall o t f, fst (installer E o t f) = true) -> rv = 0%Z).
Proof.
  intros sg out listing pow exists_ texts prefix ia srcs links r p E w0 w w1 w2 rv w3 SO ST In Pa Ns Nf B1 Tk Fs B2.
  apply (sound_build _ _ _ pow _ _ _ _ _ _ _ _ SO) in B1, B2.
  exact (C18_noop_partial sg out E ia srcs links _ w0 w w1 w2 rv w3 ST In Pa Ns Nf (sound_requests _ _ _ _ _ _ _ _ _ _ _ SO) B1 Tk Fs B2).
Qed.
Print Assumptions C56_second_build_runs_nothing.

(** A changed script (other flags, sources, products) on an old tree against the same script on a clean one (under the conditions of C21). *)
Theorem C56_rebuild_is_clean_build : forall sg out listing pow exists_ texts prefix inst_area srcs links r p E w0 w w' wc wc',
  sound_script sg out listing exists_ texts prefix inst_area srcs links r p -> setting sg out E inst_area srcs links ->
  past sg out E inst_area srcs links w0 w -> next_second sg out E links w ->
  (forall q, product_dir out q -> files wc q = Absent) ->
  (forall q, source (product_dir out) inst_area q -> same_content (files w q) (files wc q)) ->
  script_build sg out listing pow exists_ texts E prefix (SpecProject.script r) w 0 w' -> script_build sg out listing pow exists_ texts E prefix (SpecProject.script r) wc 0 wc' ->
  forall o, wanted_product sg out (to_build p) o -> same_content (files w' o) (files wc' o).
Proof.
  intros sg out listing pow exists_ texts prefix ia srcs links r p E w0 w w' wc wc' SO ST Pa Ns Em Sc B1 B2.
  apply (sound_build _ _ _ pow _ _ _ _ _ _ _ _ SO) in B1, B2.
  exact (C21_incremental_is_clean_partial sg out E ia srcs links _ w0 w w' wc wc' ST Pa Ns (sound_requests _ _ _ _ _ _ _ _ _ _ _ SO) Em Sc B1 B2).
Qed.
Print Assumptions C56_rebuild_is_clean_build.

(** The install map: the pairs of the script in their order; without pairs, nothing to install. *)
Theorem C56_install_map : forall st m prefix,
  setup_install_map st (Some (found_install m)) prefix =
  (true, match m with Some (_ :: _) => {| i_map := m; i_prefix := prefix |} | _ => {| i_map := None; i_prefix := i_prefix st |} end).
Proof. exact found_map. Qed.
Print Assumptions C56_install_map.

(** The program run: the strings of the script, then the arguments given to Bob. *)
Theorem C56_runs : forall sg out listing r p S e argv,
  nul_free out -> plain_texts r -> recipe_means sg out listing r = Some p -> s_run S = found_run (to_run p) ->
  bob_run S e argv =
  match to_run p ++ filter (fun a => negb (bytes_eqb a (lit "--"))) argv with [] => RValue 0 | args => exec_inplace S e args end.
Proof. exact recipe_runs. Qed.
Print Assumptions C56_runs.

(** *** The shipped scripts

    Their syntax trees, and recipes of which they are the scripts. *)
Definition tstr (x : string) : expr := EStr (lit x).
Definition tid (x : string) : expr := EId (lit x).
Definition tcall (e : expr) (x : string) (args : list expr) : expr := ECall (EAccess e (lit x)) args.
Definition tlet (x : string) (e : expr) : stmt := SLet false (lit x) (Some e).
Definition tset (x : string) (e : expr) : stmt := SAssign (LId (lit x)) (lit x) e.
Definition import_bob : stmt := SImport false [lit "bob"].

(** /repo/build.fl *)
Definition bob_build_fl : list stmt := [
  import_bob;
  tlet "src" (EBin (tcall (tcall (tid "Fs") "list" [tstr "src"]) "where"
      [ELambda [lit "path"] (BExpr (EBin (tcall (tid "path") "endswith" [tstr ".c"]) (lit "&&") (EUn (lit "!") (tcall (tid "path") "startswith" [tstr "src/flamingo"]))))])
    (lit "+") (EVec [tstr "src/flamingo/flamingo.c"]));
  tlet "obj" (tcall (ECall (tid "Cc") [EVec (map tstr ["-std=c11"; "-g"; "-Wall"; "-Wextra"; "-Werror"; "-Wno-unused-parameter"; "-Isrc"; "-Isrc/flamingo/runtime"]%string)]) "compile" [tid "src"]);
  tlet "cmd" (tcall (ECall (tid "Linker") [EVec (map tstr ["-lm"; "-lpthread"]%string)]) "link" [tid "obj"]);
  tset "install" (EMap [(tid "cmd", tstr "bin/bob"); (tstr "import/bob.fl", tstr "share/flamingo/import/bob.fl"); (tstr "skeletons", tstr "share/bob/skeletons")]);
  tset "run" (EVec [tstr "bob"])
].
Definition bob_recipe : recipe := Recipe
  [LetMany (lit "src") (Both (Only (Entries (lit "src")) (lit "path") (And (Ends (lit ".c")) (Not (Starts (lit "src/flamingo"))))) (Each [Text (lit "src/flamingo/flamingo.c")]));
   Make (lit "obj") Compiling (New (map lit ["-std=c11"; "-g"; "-Wall"; "-Wextra"; "-Werror"; "-Wno-unused-parameter"; "-Isrc"; "-Isrc/flamingo/runtime"]%string)) (Named (lit "src"));
   Make (lit "cmd") (Linking Link) (New (map lit ["-lm"; "-lpthread"]%string)) (Named (lit "obj"))]
  (Some [(Name (lit "cmd"), Text (lit "bin/bob")); (Text (lit "import/bob.fl"), Text (lit "share/flamingo/import/bob.fl")); (Text (lit "skeletons"), Text (lit "share/bob/skeletons"))])
  (Some (Each [Text (lit "bob")])).
Example bob_build_fl_is : SpecProject.script bob_recipe = bob_build_fl.
Proof. reflexivity. Qed.

(** /repo/skeletons/c/build.fl *)
Definition skeleton_build_fl : list stmt := [
  import_bob;
  tlet "src" (tcall (tcall (tid "Fs") "list" [tstr "src"]) "where" [ELambda [lit "path"] (BExpr (tcall (tid "path") "endswith" [tstr ".c"]))]);
  tlet "obj" (tcall (ECall (tid "Cc") [EVec (map tstr ["-std=c99"; "-Wall"; "-Wextra"; "-Werror"]%string)]) "compile" [tid "src"]);
  tlet "cmd" (tcall (ECall (tid "Linker") [EVec []]) "link" [tid "obj"]);
  tset "install" (EMap [(tid "cmd", tstr "bin/bob-skeleton-c")]);
  tset "run" (EVec [tstr "bob-skeleton-c"])
].
Definition skeleton_recipe : recipe := Recipe
  [LetMany (lit "src") (Only (Entries (lit "src")) (lit "path") (Ends (lit ".c")));
   Make (lit "obj") Compiling (New (map lit ["-std=c99"; "-Wall"; "-Wextra"; "-Werror"]%string)) (Named (lit "src"));
   Make (lit "cmd") (Linking Link) (New []) (Named (lit "obj"))]
  (Some [(Name (lit "cmd"), Text (lit "bin/bob-skeleton-c"))]) (Some (Each [Text (lit "bob-skeleton-c")])).
Example skeleton_build_fl_is : SpecProject.script skeleton_recipe = skeleton_build_fl.
Proof. reflexivity. Qed.

(** /repo/tests/frugality/build.fl *)
Definition frugality_build_fl : list stmt := [
  import_bob;
  tlet "src1" (tstr "src1.c"); tlet "src2" (tstr "src2.c");
  tlet "obj" (tcall (ECall (tid "Cc") [EVec [tstr "-std=c11"]]) "compile" [EVec [tid "src1"; tid "src2"]]);
  tlet "linked" (tcall (ECall (tid "Linker") [EVec []]) "link" [tid "obj"]);
  tset "install" (EMap [(EIndex (tid "obj") (ENum (lit "0")), tstr "obj1.o"); (EIndex (tid "obj") (ENum (lit "1")), tstr "obj2.o"); (tid "linked", tstr "bin")])
].
Definition frugality_recipe : recipe := Recipe
  [LetOne (lit "src1") (Text (lit "src1.c")); LetOne (lit "src2") (Text (lit "src2.c"));
   Make (lit "obj") Compiling (New [lit "-std=c11"]) (Each [Name (lit "src1"); Name (lit "src2")]);
   Make (lit "linked") (Linking Link) (New []) (Named (lit "obj"))]
  (Some [(Nth (lit "obj") (lit "0"), Text (lit "obj1.o")); (Nth (lit "obj") (lit "1"), Text (lit "obj2.o")); (Name (lit "linked"), Text (lit "bin"))]) None.
Example frugality_build_fl_is : SpecProject.script frugality_recipe = frugality_build_fl.
Proof. reflexivity. Qed.

(** What /repo/build.fl comes to with four files in src/. *)
Definition few (d : bytes) : option (list bytes) :=
  if bytes_eqb d (lit "src") then Some (map lit ["src"; "src/main.c"; "src/common.h"; "src/cmd.c"; "src/flamingo/env.c"]%string) else None.
Definition cookie_of (out s : string) : bytes := match gen_cookie true (lit out) (lit s) (lit "o") with Ok c => c | _ => [] end.
Definition bob_objects : list bytes := map (cookie_of ".bob") ["src/main.c"; "src/cmd.c"; "src/flamingo/flamingo.c"]%string.
Example bob_build_fl_means :
  recipe_means true (lit ".bob") few bob_recipe = Some (Purpose
    [RCompile 2 (map lit ["-std=c11"; "-g"; "-Wall"; "-Wextra"; "-Werror"; "-Wno-unused-parameter"; "-Isrc"; "-Isrc/flamingo/runtime"]%string) (map lit ["src/main.c"; "src/cmd.c"; "src/flamingo/flamingo.c"]%string);
     RLink 3 Link (map lit ["-lm"; "-lpthread"]%string) bob_objects]
    (Some [(link_cookie true (lit ".bob") Link bob_objects, lit "bin/bob"); (lit "import/bob.fl", lit "share/flamingo/import/bob.fl"); (lit "skeletons", lit "share/bob/skeletons")])
    [lit "bob"]).
Proof. vm_compute. reflexivity. Qed.
Example bob_build_fl_fine : distinct_names (recipe_lines bob_recipe) /\ plain_texts bob_recipe /\ distinct_names (recipe_lines skeleton_recipe) /\ plain_texts skeleton_recipe /\
  distinct_names (recipe_lines frugality_recipe) /\ plain_texts frugality_recipe.
Proof.
  repeat split; try (unfold distinct_names; cbn; repeat constructor; cbn; intuition discriminate); unfold plain_texts; cbn; repeat constructor; apply not_in_lit_dec; reflexivity.
Qed.

(** *** A project built by its script *)
Definition toy_recipe : recipe := Recipe
  [LetMany (lit "srcs") (Each [Text a_c; Text b_c]);
   Make (lit "objs") Compiling (New O0) (Named (lit "srcs"));
   Make (lit "prog") (Linking Link) (New []) (Named (lit "objs"))]
  (Some [(Name (lit "prog"), Text (lit "bin/toy"))]) (Some (Each [Text (lit "toy"); Text (lit "-v")])).
Definition toy_purpose : purpose := Purpose [RCompile 2 O0 [a_c; b_c]; RLink 3 Link [] [a_o; b_o]] (Some [(exe, lit "bin/toy")]) [lit "toy"; lit "-v"].
Definition bob_exists (q : bytes) : bool := bytes_eqb q (lit "import/bob.fl").
Definition bob_text (q : bytes) : FlInterp.file := if bob_exists q then FlInterp.File bob_fl else NoFile (lit "No such file or directory").
Lemma toy_sound : sound_script true toy_out few bob_exists bob_text (lit "/usr/local") nothing_installed toy_srcs toy_links toy_recipe toy_purpose.
Proof.
  constructor.
  - apply not_in_lit_dec. reflexivity.
  - right. repeat split.
  - unfold distinct_names. cbn. repeat constructor; cbn; intuition discriminate.
  - unfold plain_texts. cbn. repeat constructor; apply not_in_lit_dec; reflexivity.
  - vm_compute. reflexivity.
  - intros q [<-|[<-|[]]]; cbn.
    + split; [exact plain_O0|]. unfold toy_srcs. intros s [<-|[<-|[]]]; auto.
    + repeat split; auto.
  - intros l t [<-|[<-|[<-|[]]]] I; cbn in I; try contradiction. destruct I as [<-|[<-|[]]]; [apply src_a|apply src_b].
  - unfold made_once. assert (Q : flat_map (req_makes true toy_out) (to_build toy_purpose) = [a_o; b_o; exe]) by (vm_compute; reflexivity). rewrite Q.
    constructor; [intros [X|[X|[]]]; discriminate X|]. constructor; [intros [X|[]]; discriminate X|]. constructor; [intros []|constructor].
Qed.
(** A clean build of the toy project by its script succeeds. *)
Example C56_nonvacuous :
  sound_script true toy_out few bob_exists bob_text (lit "/usr/local") nothing_installed toy_srcs toy_links toy_recipe toy_purpose /\
  setting true toy_out TE nothing_installed toy_srcs toy_links /\ (forall q, product_dir toy_out q -> files start q = Absent) /\
  exists w', script_build true toy_out few (fun _ _ => None) bob_exists bob_text TE (lit "/usr/local") (SpecProject.script toy_recipe) start 0 w' /\
    files w' a_o = File (lit "-O0[Ah]") 5 /\ makes exe (ran w') = 1.
Proof.
  split; [exact toy_sound|]. split; [exact ex_setting|]. split; [intros q (name & ->); reflexivity|].
  exists first. split; [|split; vm_compute; reflexivity].
  apply (sound_build _ _ _ _ _ _ _ _ _ _ _ _ toy_sound). destruct ex_first as (bs & P & R). exists bs. split; [|exact R]. rewrite <- P. vm_compute. reflexivity.
Qed.
