(** * C71: a command does what the build file says. *)

From Coq Require Import ZArith Arith Ascii String Lia Bool List.
From Verif Require PropertiesInstall.
From Verif Require Import Base FileSys Cookie CookieProofs SpecNames Vfs Install SpecInstall VfsProofs PathProofs Ground GroundProofs SpecDeliver Build SpecBuild SpecHistory Plan SpecPlan Cmd SpecCmd Main SpecMain FlAst FlState FlInterp FlTables FlParse FlRead FlSources SpecLex SpecSyntax SyntaxProofs MainProofs InstallProofs Bob SpecBob Project SpecProject
  ProjectProofs RecipeProofs BuildFile SpecText TextProofs Command SpecCommand CommandProofs Drive Toy PropertiesBuild PropertiesDeliver PropertiesGround PropertiesProject PropertiesText.
Import ListNotations.
Local Open Scope nat_scope.

(** From the words of the command line and the text of the build file to what is built, installed and run. The build that is carried out is that of the recipe's requests, what is
    installed is its install map. Either something failed: then it was the last thing done, it was not the reading of the build file, and the exit status says so. Or
    everything was done, in order, and Bob ends as the instruction and the recipe say. *)
Theorem C71_does_what_the_build_file_says : forall sg out listing pow inst_area srcs links r p prefix d C S argv instr args l,
  command sg out listing pow inst_area srcs links r p prefix d C S argv instr args l ->
  exists tr e, main S argv = (tr, e) /\
  (forall pre, In (EvBuild pre) tr -> SpecPlan.build sg out (c_env C pre) (to_build p) (c_before C) (s_build S pre) (c_built C pre)) /\
  (forall q, In (EvInstall q) tr -> installs C (to_install p) q (s_install S q)) /\
  ((stopped S l tr /\ tr <> [EvSetup] /\ e = FExit 1) \/ (tr = l /\ Forall (succeeds S) l /\ ends_as S out p instr args e)).
Proof. exact does_as_said. Qed.
Print Assumptions C71_does_what_the_build_file_says.

(** When Bob becomes a program, it is the one the recipe and the command line say, and everything has been built and installed. *)
Theorem C71_runs_what_is_installed : forall sg out listing pow inst_area srcs links r p prefix d C S argv instr args l tr file ws env,
  command sg out listing pow inst_area srcs links r p prefix d C S argv instr args l -> main S argv = (tr, FProgram file ws env) ->
  to_execute (s_env S) p instr args ws /\ runnable (s_look S) file /\ private_env S out env /\
  (forall pre, In (EvBuild pre) l -> SpecPlan.build sg out (c_env C pre) (to_build p) (c_before C) 0 (c_built C pre)) /\
  (forall q, In (EvInstall q) l -> installs C (to_install p) q 0).
Proof. intros until 1. eapply runs_as_said. eassumption. Qed.
Print Assumptions C71_runs_what_is_installed.

(** Unless Bob ends with a failure, every product has been made, once, from the sources and flags of the recipe, and nothing else (from a tree without products; conditions of C20). *)
Theorem C71_products_are_made : forall sg out listing pow inst_area srcs links r p prefix d C S argv instr args l tr e pre,
  command sg out listing pow inst_area srcs links r p prefix d C S argv instr args l ->
  main S argv = (tr, e) -> e <> FExit 1 -> In (EvBuild pre) l ->
  setting sg out (c_env C pre) inst_area srcs links -> (forall q, product_dir out q -> files (c_before C) q = Absent) ->
  (forall it, wanted sg out (to_build p) it ->
     makes (it_out it) (ran (c_built C pre)) = Datatypes.S (makes (it_out it) (ran (c_before C))) /\
     exists text obj t, files (c_built C pre) (it_out it) = FileSys.File obj t /\ cc_obj (c_env C pre) (argv_flags (it_flags it)) (it_src it) (files (c_before C)) = ToolOk text obj) /\
  (forall k, wanted_link sg out (to_build p) k ->
     makes (lk_out k) (ran (c_built C pre)) = Datatypes.S (makes (lk_out k) (ran (c_before C))) /\ link_current (c_env C pre) (files (c_built C pre)) k) /\
  (forall o, ~ wanted_product sg out (to_build p) o -> makes o (ran (c_built C pre)) = makes o (ran (c_before C))).
Proof. intros until 1. eapply products_made. eassumption. Qed.
Print Assumptions C71_products_are_made.

(** The products named in the install map are under the prefix (conditions of C32). *)
Theorem C71_products_are_installed : forall sg out listing pow srcs links r p prefix d C S argv instr args l tr e q O B P base m c v,
  command sg out listing pow (prefix_area q) srcs links r p prefix d C S argv instr args l ->
  main S argv = (tr, e) -> e <> FExit 1 -> In (EvBuild (Some q)) l -> to_install p = Some m ->
  grounded (c_sys C) out q O B P base m -> installer (c_env C (Some q)) = ground_installer (c_sys C) out q O B P base m ->
  1 <= ncpus (c_env C (Some q)) -> monotone (clock (c_env C (Some q))) -> (forall x, product_dir out x -> ~ prefix_area q x) ->
  (forall fl s f f', (forall x, SpecBuild.source (product_dir out) (prefix_area q) x -> f x = f' x) -> cc_deps (c_env C (Some q)) fl s f = cc_deps (c_env C (Some q)) fl s f') ->
  (forall fl s f f', (forall x, SpecBuild.source (product_dir out) (prefix_area q) x -> f x = f' x) -> cc_obj (c_env C (Some q)) fl s f = cc_obj (c_env C (Some q)) fl s f') ->
  well_named sg out (c_env C (Some q)) (prefix_area q) srcs links ->
  (forall o, wanted_product sg out (to_build p) o -> awaiting (map_goes out q m) (clock (c_env C (Some q)) (tick (c_before C))) (files (c_before C)) o) ->
  fine_name c = true -> wanted_product sg out (to_build p) (out ++ lit "/bob/" ++ c) -> In (out ++ lit "/bob/" ++ c, v) m ->
  exists x t t', files (c_built C (Some q)) (out ++ lit "/bob/" ++ c) = FileSys.File x t /\ files (c_built C (Some q)) (q ++ lit "/" ++ v) = FileSys.File x t'.
Proof. exact products_delivered. Qed.
Print Assumptions C71_products_are_installed.

(** So are the other files and directories named in it (conditions of C31). *)
Theorem C71_other_files_are_installed : forall sg out listing pow inst_area srcs links r p prefix d C S argv instr args l tr e q O P m k v s,
  command sg out listing pow inst_area srcs links r p prefix d C S argv instr args l ->
  main S argv = (tr, e) -> e <> FExit 1 -> In (EvInstall q) l -> to_install p = Some m -> c_abs_out C = unparse O ->
  tidy (c_sys C) -> slash_free (s_cwd (c_sys C)) -> Forall (fun c => c <> []) O -> slash_free O ->
  tame (s_cwd (c_sys C)) q P (nodes (c_tree C q)) m ->
  (forall k v, In (k, v) m -> good_source (s_cwd (c_sys C)) O P (dests P m) (nodes (c_tree C q)) k v) ->
  In (k, v) m -> lookup (s_cwd (c_sys C)) (nodes (c_tree C q)) false k = WFound s -> ~ product O s ->
  SpecInstall.holds (nodes (c_tree C q)) s (nodes (c_installed C q)) (SpecInstall.dest P v).
Proof. intros until 1. eapply others_installed. eassumption. Qed.
Print Assumptions C71_other_files_are_installed.

(** However Bob ends, nothing else has changed: while building, what is not right in the output directory's [bob] and not installed over; while installing, what is not under the prefix
    (conditions of C30). *)
Theorem C71_changes_nothing_else : forall sg out listing pow inst_area srcs links r p prefix d C S argv instr args l tr e,
  command sg out listing pow inst_area srcs links r p prefix d C S argv instr args l -> main S argv = (tr, e) ->
  (forall pre x, In (EvBuild pre) tr -> (forall o t f, snd (installer (c_env C pre) o t f) x = f x) -> ~ direct_child (out ++ lit "/bob") x ->
     files (c_built C pre) x = files (c_before C) x) /\
  (forall q P, In (EvInstall q) tr -> tidy (c_sys C) -> tame (s_cwd (c_sys C)) q P (nodes (c_tree C q)) (match to_install p with Some m => m | None => [] end) ->
     untouched_outside P (nodes (c_tree C q)) (nodes (c_installed C q))).
Proof. intros until 1. eapply rest_untouched. eassumption. Qed.
Print Assumptions C71_changes_nothing_else.

(** When the build file fails, here since after a recipe of any kind an assertion does not hold, nothing is built, installed or run, whatever comes after it in the build file, and the exit status is 1. The same without a build file,
    or with one in which nothing is said. *)
Theorem C71_a_failing_build_file_stops : forall sg out listing pow inst_area srcs links r p text rest t prefix d C S argv os instr args project l,
  sound_recipe sg out listing inst_area srcs links r p -> has_bob d prefix ->
  d (lit "build.fl") = Some t -> says t (SpecProject.script r ++ SAssert (EBool false) text :: rest) ->
  phases_of sg out listing pow prefix d C l S ->
  reads (s_permute S) argv os (instr :: args) -> jobs_ok os -> project_dir os project -> out_dir os out -> prefix_dir (s_env S) os prefix ->
  s_project S project = true -> s_out S out = true -> s_exists S prefix = true ->
  main S argv = ([EvSetup], FExit 1).
Proof. exact bad_file_stops. Qed.
Print Assumptions C71_a_failing_build_file_stops.

Theorem C71_an_empty_build_file_stops : forall sg out listing pow t prefix d C S argv os instr args project l,
  d (lit "build.fl") = Some t -> says t [] -> phases_of sg out listing pow prefix d C l S ->
  reads (s_permute S) argv os (instr :: args) -> jobs_ok os -> project_dir os project -> out_dir os out -> prefix_dir (s_env S) os prefix ->
  s_project S project = true -> s_out S out = true -> s_exists S prefix = true ->
  main S argv = ([EvSetup], FExit 1).
Proof. exact empty_file_stops. Qed.
Print Assumptions C71_an_empty_build_file_stops.

Theorem C71_no_build_file : forall sg out listing pow prefix d C S argv os instr args project l,
  d (lit "build.fl") = None -> phases_of sg out listing pow prefix d C l S ->
  reads (s_permute S) argv os (instr :: args) -> jobs_ok os -> project_dir os project -> out_dir os out -> prefix_dir (s_env S) os prefix ->
  s_project S project = true -> s_out S out = true -> s_exists S prefix = true ->
  main S argv = ([], FExit 1).
Proof. exact no_file_stops. Qed.
Print Assumptions C71_no_build_file.

(** ** A command that meets the hypotheses

    [bob -p /d install], for the toy project with the install map [{prog: "prog", objs[0]: "lib/a.o", "a.h": "include/a.h"}]. *)
Definition kit_recipe : recipe := Recipe (recipe_lines toy_recipe)
  (Some [(Name (lit "prog"), Text (lit "prog")); (Nth (lit "objs") (lit "0"), Text (lit "lib/a.o")); (Text a_h, Text (lit "include/a.h"))]) (recipe_run toy_recipe).
Definition kit_map : list (bytes * bytes) := d_map ++ [(a_h, lit "include/a.h")].
Definition kit_purpose : purpose := Purpose (to_build toy_purpose) (Some kit_map) (to_run toy_purpose).
Definition kit_disk : disk := fun q =>
  if bytes_eqb q BUILD_PATH then Some (written (recipe_toks kit_recipe) []) else if bytes_eqb q (lit "import/bob.fl") then Some bob_fl_text else None.
Definition kit_env : env := Env 2 (fun _ => true) secs toy_deps toy_cc toy_ld
  (ground_installer PropertiesInstall.free_sys toy_out (lit "/d") PropertiesInstall.bob_dir bob_place d_place ground_base kit_map) None.
Definition kit_built : world := world_of (after kit_env [lit "-O0"] yard0).
(** The tree after the build. *)
Definition kit_tree : vw := PropertiesInstall.begin
  [([], VDir 1); ([lit "proj"], VDir 1); ([lit ".bob"; lit "proj"], VDir 1); (bob_place, VDir 1); (d_place, VDir 1);
   (lit "prog" :: d_place, VFile (lit "-O0[Ah]-O0[B]") 9); (lit "lib" :: d_place, VDir 9); (lit "a.o" :: lit "lib" :: d_place, VFile (lit "-O0[Ah]") 9);
   ([lit "a.h"; lit "proj"], VFile (lit "h") 1);
   (rev (names exe) ++ [lit "proj"], VFile (lit "-O0[Ah]-O0[B]") 8); (rev (names a_o) ++ [lit "proj"], VFile (lit "-O0[Ah]") 5)].
Definition kit_done : res (bool * vw) :=
  install_all PropertiesInstall.free_sys (unparse PropertiesInstall.bob_dir) {| i_map := Some kit_map; i_prefix := Some (lit "/d") |} PropertiesInstall.clock kit_tree.
Definition kit_installed : vw := match kit_done with Ok (_, w) => w | _ => kit_tree end.
Definition kit_course : course :=
  Course (fun _ => kit_env) yard0 (fun _ => kit_built) PropertiesInstall.free_sys (unparse PropertiesInstall.bob_dir) PropertiesInstall.clock (fun _ => kit_tree) (fun _ => kit_installed).
Definition kit_system : system := System true
  (fun n => if bytes_eqb n (lit "PATH") then Some (lit "/bin") else None)
  (fun _ => true) (fun _ => true) (fun p => bytes_eqb p (lit "/d")) true 0 (fun _ => true) (fun _ => 0%Z) (fun _ => 0%Z)
  (found_run (to_run toy_purpose)) (fun _ => NoNode).
Definition kit_events : list event := [EvSetup; EvMkdir (lit ".bob/bob"); EvBuild (Some (lit "/d")); EvInstall (lit "/d")].

Lemma kit_plain : recipe_plain kit_recipe.
Proof.
  split; [|split]; cbn; repeat (constructor || split); try (apply quotable_plain_text; vm_compute; reflexivity); try (apply no_word; vm_compute; reflexivity); discriminate.
Qed.
Lemma kit_done_ok : kit_done = Ok (true, kit_installed).
Proof.
  assert (X : match kit_done with Ok (b, _) => b | _ => false end = true) by (vm_compute; reflexivity).
  unfold kit_installed. destruct kit_done as [[[|] w]| | | |]; try discriminate. reflexivity.
Qed.
Lemma kit_sound : sound_recipe true toy_out few (prefix_area (lit "/d")) toy_srcs toy_links kit_recipe kit_purpose.
Proof.
  destruct toy_sound_recipe as [A B Pt Me C D F]. constructor.
  - exact A.
  - exact B.
  - unfold plain_texts. cbn. repeat constructor; apply not_in_lit_dec; reflexivity.
  - vm_compute. reflexivity.
  - exact C.
  - intros l t [<-|[<-|[<-|[]]]] I; cbn in I; try contradiction. destruct I as [<-|[<-|[]]]; apply d_source; (apply src_a || apply src_b || reflexivity).
  - exact F.
Qed.
Lemma kit_grounded : grounded PropertiesInstall.free_sys toy_out (lit "/d") PropertiesInstall.bob_dir bob_place d_place ground_base kit_map.
Proof.
  destruct yard_grounded as [A B C D F G H I J K]. constructor; auto.
  - split.
    + constructor; [|constructor; [|constructor; [intros []|constructor]]].
      * intros [Q|[Q|[]]]; discriminate Q.
      * intros [Q|[]]; discriminate Q.
    + intros k v [Q|[Q|[Q|[]]]]; injection Q as <- <-; vm_compute; intuition discriminate.
  - intros k v [Q|[Q|[Q|[]]]]; injection Q as <- <-; vm_compute; reflexivity.
  - repeat constructor; apply belowb_false; vm_compute; reflexivity.
Qed.
Lemma kit_phases : phases_of true toy_out few (fun _ _ => None) (lit "/d") kit_disk kit_course kit_events kit_system.
Proof.
  split; [reflexivity|]. intros t T. injection T as <-.
  assert (HB : has_bob kit_disk (lit "/d")) by (right; split; reflexivity).
  destruct (sound_file _ _ _ _ _ _ _ _ _ _ _ _ kit_sound HB (fun q => eq_refl) (as_read_finds kit_disk)) as [No Fb Nd Pt Me _ _ _].
  destruct (script_builds true toy_out few (fun _ _ => None) _ _ _ _ _ No Fb Nd Pt Me) as (N & Y). destruct (Y N (le_n N)) as (s & S1 & _ & P & Iv & Rv).
  exists (SpecProject.script kit_recipe), (there kit_disk), (as_read kit_disk), N.
  split; [exact (says_read _ _ (recipe_says _ kit_plain))|]. split; [intro; reflexivity|]. split; [exact (as_read_finds kit_disk)|]. rewrite S1.
  split; [reflexivity|]. split; [exact Rv|]. split.
  - intros pre [X|[X|[X|[X|[]]]]]; [discriminate X|discriminate X|injection X as <-|discriminate X]. exists (Some (found_install (to_install kit_purpose))). split; [exact Iv|]. rewrite found_map. cbn [fst].
    destruct (after_build kit_env [lit "-O0"] yard0 0%Z) as (bs & Pl & R); [vm_compute; reflexivity|]. exists bs, s. split; [|exact R].
    rewrite P. f_equal. rewrite <- Pl. vm_compute. reflexivity.
  - intros q [X|[X|[X|[X|[]]]]]; [discriminate X|discriminate X|discriminate X|injection X as <-]. exists (Some (found_install (to_install kit_purpose))), true. split; [exact Iv|]. rewrite found_map. cbn [snd].
    split; [exact kit_done_ok|reflexivity].
Qed.
Lemma kit_command : command true toy_out few (fun _ _ => None) (prefix_area (lit "/d")) toy_srcs toy_links kit_recipe kit_purpose (lit "/d") kit_disk kit_course kit_system
  [lit "-p"; lit "/d"; lit "install"] (lit "install") [] kit_events.
Proof.
  constructor.
  - exact kit_sound.
  - right. split; reflexivity.
  - exists (written (recipe_toks kit_recipe) []). split; [reflexivity|exact (recipe_says _ kit_plain)].
  - exact kit_phases.
  - split; [left; reflexivity|split; intros q; left; reflexivity].
  - eexists. split; [apply getopt_exact; vm_compute; reflexivity|].
    split; [intros v [X|[]]; discriminate X|]. split; [exists (lit "."); split; [right; split; [intros v [X|[]]; discriminate X|reflexivity]|reflexivity]|].
    split; (split; [|reflexivity]).
    + right. split; [intros v [X|[]]; discriminate X|reflexivity].
    + left. exists [], []. split; [reflexivity|intros v []].
  - vm_compute. reflexivity.
Qed.
Lemma kit_goes o d : map_goes toy_out (lit "/d") kit_map o = Some d -> map_goes toy_out (lit "/d") d_map o = Some d.
Proof.
  intro G. destruct (goes_spec toy_out (lit "/d") kit_map o d G) as (c & v & _ & _ & [J|[J|[J|[]]]] & -> & _); injection J as <- <-; vm_compute in G |- *; (reflexivity || discriminate).
Qed.

(** The program and the object are made and installed while building, the header afterwards; then Bob ends. *)
Example C71_nonvacuous :
  command true toy_out few (fun _ _ => None) (prefix_area (lit "/d")) toy_srcs toy_links kit_recipe kit_purpose (lit "/d") kit_disk kit_course kit_system
    [lit "-p"; lit "/d"; lit "install"] (lit "install") [] kit_events /\
  main kit_system [lit "-p"; lit "/d"; lit "install"] = (kit_events, FExit 0) /\
  (* The conditions of C71_products_are_installed: *)
  grounded (c_sys kit_course) toy_out (lit "/d") PropertiesInstall.bob_dir bob_place d_place ground_base kit_map /\
  well_named true toy_out kit_env (prefix_area (lit "/d")) toy_srcs toy_links /\
  (forall o, wanted_product true toy_out (to_build kit_purpose) o -> awaiting (map_goes toy_out (lit "/d") kit_map) (clock kit_env (tick yard0)) (files yard0) o) /\
  (* Those of C71_other_files_are_installed: *)
  tame (s_cwd (c_sys kit_course)) (lit "/d") d_place (nodes kit_tree) kit_map /\
  (forall k v, In (k, v) kit_map -> good_source (s_cwd (c_sys kit_course)) PropertiesInstall.bob_dir d_place (dests d_place kit_map) (nodes kit_tree) k v) /\
  (* What there is in the end: *)
  map (Toy.content (files kit_built)) [exe; a_o; lit "/d/prog"; lit "/d/lib/a.o"] = [Some (lit "-O0[Ah]-O0[B]"); Some (lit "-O0[Ah]"); Some (lit "-O0[Ah]-O0[B]"); Some (lit "-O0[Ah]")] /\
  nodes kit_installed (lit "a.h" :: lit "include" :: d_place) = Some (VFile (lit "h") 12).
Proof.
  split; [exact kit_command|]. split; [vm_compute; reflexivity|]. split; [exact kit_grounded|].
  split; [destruct yard_named as [A B C D F]; constructor; assumption|].
  split; [intros o W d G; refine (yard_waits yard0 _ _ _ _ _ _ o d (kit_goes o d G)); vm_compute; reflexivity|].
  split; [apply PropertiesInstall.tame_by_check; vm_compute; reflexivity|].
  split; [|split; vm_compute; reflexivity].
  intros k v I. destruct PropertiesInstall.bob_dir_ok as [B1 B2].
  destruct I as [I|[I|[I|[]]]]; injection I as <- <-.
  - apply (PropertiesInstall.good_by_check _ _ _ _ _ _ (rev (names exe) ++ [lit "proj"])); [apply has_byte_not_In; vm_compute; reflexivity|vm_compute; reflexivity|vm_compute; reflexivity|exact B1|exact B2|].
    left. apply belowb_iff. vm_compute. reflexivity.
  - apply (PropertiesInstall.good_by_check _ _ _ _ _ _ (rev (names a_o) ++ [lit "proj"])); [apply has_byte_not_In; vm_compute; reflexivity|vm_compute; reflexivity|vm_compute; reflexivity|exact B1|exact B2|].
    left. apply belowb_iff. vm_compute. reflexivity.
  - apply (PropertiesInstall.good_by_check _ _ _ _ _ _ [lit "a.h"; lit "proj"]); [apply has_byte_not_In; vm_compute; reflexivity|vm_compute; reflexivity|vm_compute; reflexivity|exact B1|exact B2|].
    right. split; [right; vm_compute; reflexivity|]. split; [|split; [vm_compute; discriminate|vm_compute; intros [t H]; discriminate]].
    intros d [<-|[<-|[<-|[]]]]; apply belowb_false; vm_compute; reflexivity.
Qed.

(** The same build file with an assertion at its end; a comment; no build file. *)
Definition fail_text : bytes := written (recipe_toks kit_recipe ++ [kw T_assert; kw T_false; nl]) [].
Definition fail_disk (t : option bytes) : disk := fun q =>
  if bytes_eqb q BUILD_PATH then t else if bytes_eqb q (lit "import/bob.fl") then Some bob_fl_text else None.
Definition fail_system (there : bool) : system := System true (s_env kit_system) (fun _ => true) (fun _ => true) (fun p => bytes_eqb p (lit "/d")) there (-1) (fun _ => true) (fun _ => 0%Z) (fun _ => 0%Z) RunMissing (fun _ => NoNode).
Lemma fail_phases t ss l : script_in t = Some ss ->
  match setup true toy_out few (fun _ _ => None) (there (fail_disk (Some t))) (as_read (fail_disk (Some t))) 60 (lit "/d") ss with Fail _ => true | _ => false end = true ->
  phases_of true toy_out few (fun _ _ => None) (lit "/d") (fail_disk (Some t)) kit_course l (fail_system true).
Proof.
  intros R X. split; [reflexivity|]. intros t' T. assert (t' = t) as -> by (injection T as <-; reflexivity).
  exists ss, (there (fail_disk (Some t))), (as_read (fail_disk (Some t))), 60. split; [exact R|]. split; [intro; reflexivity|]. split; [apply as_read_finds|].
  destruct (setup _ _ _ _ _ _ _ _ _); try discriminate X. reflexivity.
Qed.
Example C71_failing_nonvacuous :
  says fail_text (SpecProject.script kit_recipe ++ [SAssert (EBool false) (source_of [kw T_false])]) /\
  has_bob (fail_disk (Some fail_text)) (lit "/d") /\
  phases_of true toy_out few (fun _ _ => None) (lit "/d") (fail_disk (Some fail_text)) kit_course kit_events (fail_system true) /\
  phases_of true toy_out few (fun _ _ => None) (lit "/d") (fail_disk (Some [])) kit_course kit_events (fail_system true) /\
  phases_of true toy_out few (fun _ _ => None) (lit "/d") (fail_disk None) kit_course kit_events (fail_system false) /\
  main (fail_system true) [lit "-p"; lit "/d"; lit "install"] = ([EvSetup], FExit 1).
Proof.
  split; [exact (failing_says _ kit_plain)|]. split; [right; split; reflexivity|].
  split; [apply (fail_phases _ _ _ (says_read _ _ (failing_says _ kit_plain))); vm_compute; reflexivity|].
  split; [apply (fail_phases [] []); vm_compute; reflexivity|]. split; [split; [reflexivity|intros t T; discriminate T]|vm_compute; reflexivity].
Qed.
