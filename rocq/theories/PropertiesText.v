(** * C70: a build file builds what its text says, however it is laid out.

    [file_build ... d w rv w'] (BuildFile.v): with the files of [d], among them build.fl and what it imports, a build that begins in
    the world [w] can end in [w'] with the result [rv]. [says t ss] (SpecText.v): [t] is a text of the script [ss], in some layout and
    with some comments, by the grammar of SpecSyntax.v. *)

From Coq Require Import ZArith Arith Ascii String Bool List.
From Verif Require Import Base FlAst FlRead SpecSyntax FlSources FileSys Cookie Build SpecFiles SpecBuild SpecHistory Plan SpecPlan Bob SpecBob Project SpecProject
  BuildFile SpecText TextProofs Toy PropertiesBuild PropertiesProject SyntaxProofs.
Import ListNotations.
Local Open Scope nat_scope.

(** ** Layout *)

(** For every script and every file it imports: other blanks, line breaks, commas at the ends of lists, ends of statements and comments
    make no difference to any build. *)
Theorem C70_layout_does_not_matter sg out listing pow E prefix d d' w rv w' :
  same_scripts d d' -> (exists t ss, d (lit "build.fl") = Some t /\ says t ss) ->
  file_build sg out listing pow E prefix d w rv w' -> file_build sg out listing pow E prefix d' w rv w'.
Proof. exact (same_build sg out listing pow E prefix d d' w rv w'). Qed.
Print Assumptions C70_layout_does_not_matter.

(** ** What is built *)

(** Every text of a recipe builds exactly what the recipe asks for, with the same outcomes. *)
Theorem C70_file_builds_what_it_says sg out listing pow inst_area srcs links r p prefix d t E w rv w' :
  sound_recipe sg out listing inst_area srcs links r p -> has_bob d prefix -> d (lit "build.fl") = Some t -> says t (SpecProject.script r) ->
  file_build sg out listing pow E prefix d w rv w' <-> build sg out E (to_build p) w rv w'.
Proof. exact (file_builds sg out listing pow inst_area srcs links r p prefix d t E w rv w'). Qed.
Print Assumptions C70_file_builds_what_it_says.

(** From a state without products everything the text asks for is made, once, from the sources and flags asked for; nothing else is. *)
Theorem C70_clean_build sg out listing pow inst_area srcs links r p prefix d t E w w' :
  sound_recipe sg out listing inst_area srcs links r p -> has_bob d prefix -> d (lit "build.fl") = Some t -> says t (SpecProject.script r) ->
  setting sg out E inst_area srcs links -> (forall q, product_dir out q -> files w q = Absent) ->
  file_build sg out listing pow E prefix d w 0 w' ->
  (forall it, wanted sg out (to_build p) it ->
     makes (it_out it) (ran w') = S (makes (it_out it) (ran w)) /\
     exists text obj t, files w' (it_out it) = File obj t /\ cc_obj E (argv_flags (it_flags it)) (it_src it) (files w) = ToolOk text obj) /\
  (forall k, wanted_link sg out (to_build p) k ->
     makes (lk_out k) (ran w') = S (makes (lk_out k) (ran w)) /\ link_current E (files w') k) /\
  (forall o, ~ wanted_product sg out (to_build p) o -> makes o (ran w') = makes o (ran w)).
Proof. exact (file_clean sg out listing pow inst_area srcs links r p prefix d t E w w'). Qed.
Print Assumptions C70_clean_build.

(** The build file laid out otherwise, and nothing else changed: no tool runs (under the conditions of C18). *)
Theorem C70_second_build_runs_nothing sg out listing pow inst_area srcs links r p prefix d d' t t' E w0 w w1 w2 rv w3 :
  sound_recipe sg out listing inst_area srcs links r p -> has_bob d prefix -> has_bob d' prefix ->
  d (lit "build.fl") = Some t -> says t (SpecProject.script r) -> d' (lit "build.fl") = Some t' -> says t' (SpecProject.script r) ->
  setting sg out E inst_area srcs links -> inputs_needed E ->
  past sg out E inst_area srcs links w0 w -> next_second sg out E links w -> no_future E (product_dir out) inst_area w ->
  file_build sg out listing pow E prefix d w 0 w1 ->
  tick w1 <= tick w2 -> (forall q, ~ inst_area q -> files w2 q = files w1 q) ->
  file_build sg out listing pow E prefix d' w2 rv w3 ->
  ran w3 = ran w2 /\ (forall q, ~ inst_area q -> files w3 q = files w2 q) /\ ((forall o t f, fst (installer E o t f) = true) -> rv = 0%Z).
Proof. exact (file_second sg out listing pow inst_area srcs links r p prefix d d' t t' E w0 w w1 w2 rv w3). Qed.
Print Assumptions C70_second_build_runs_nothing.

(** An old tree against a clean one, with a build file of any layout each (under the conditions of C21). *)
Theorem C70_rebuild_is_clean_build sg out listing pow inst_area srcs links r p prefix d d' t t' E w0 w w' wc wc' :
  sound_recipe sg out listing inst_area srcs links r p -> has_bob d prefix -> has_bob d' prefix ->
  d (lit "build.fl") = Some t -> says t (SpecProject.script r) -> d' (lit "build.fl") = Some t' -> says t' (SpecProject.script r) ->
  setting sg out E inst_area srcs links -> past sg out E inst_area srcs links w0 w -> next_second sg out E links w ->
  (forall q, product_dir out q -> files wc q = Absent) ->
  (forall q, SpecBuild.source (product_dir out) inst_area q -> same_content (files w q) (files wc q)) ->
  file_build sg out listing pow E prefix d w 0 w' -> file_build sg out listing pow E prefix d' wc 0 wc' ->
  forall o, wanted_product sg out (to_build p) o -> same_content (files w' o) (files wc' o).
Proof. exact (file_rebuild sg out listing pow inst_area srcs links r p prefix d d' t t' E w0 w w' wc wc'). Qed.
Print Assumptions C70_rebuild_is_clean_build.

(** ** Every recipe without parentheses can be written down *)
Theorem C70_recipes_can_be_written r : recipe_plain r -> says (written (recipe_toks r) []) (SpecProject.script r).
Proof. exact (recipe_says r). Qed.
Print Assumptions C70_recipes_can_be_written.

(** ** A build file that meets the hypotheses *)

Definition toy_text : bytes := written (recipe_toks toy_recipe) [].
Example toy_text_is : toy_text =
  lit " import bob 
 let srcs = [ ""a.c"" , ""b.c"" ] 
 let objs = Cc ( [ ""-O0"" ] ) . compile ( srcs ) 
 let prog = Linker ( [ ] ) . link ( objs ) 
 install = { prog : ""bin/toy"" } 
 run = [ ""toy"" , ""-v"" ] 
".
Proof. vm_compute. reflexivity. Qed.

Lemma quotable_plain_text s : forallb (fun c => negb (Ascii.eqb c """" || Ascii.eqb c "\" || Ascii.eqb c NUL)) s = true -> SpecLex.quotable s.
Proof.
  induction s as [|c s IH] using rev_ind; [constructor|]. rewrite forallb_app. intros H. apply andb_true_iff in H as [H C].
  cbn [forallb] in C. rewrite andb_true_r in C. apply negb_true_iff in C. apply orb_false_iff in C as [C C3]. apply orb_false_iff in C as [C1 C2].
  apply Ascii.eqb_neq in C1, C2, C3. apply SpecLex.quotable_plain; auto.
Qed.

Example toy_plain : recipe_plain toy_recipe.
Proof.
  split; [|split]; cbn; repeat (constructor || split); try (apply quotable_plain_text; vm_compute; reflexivity); apply no_word; vm_compute; reflexivity.
Qed.

Example C70_toy_says : says toy_text (SpecProject.script toy_recipe).
Proof. exact (C70_recipes_can_be_written toy_recipe toy_plain). Qed.

Definition toy_disk : disk := fun q =>
  if bytes_eqb q BUILD_PATH then Some toy_text else if bytes_eqb q (lit "import/bob.fl") then Some bob_fl_text else None.

Lemma toy_sound_recipe : sound_recipe true toy_out few nothing_installed toy_srcs toy_links toy_recipe toy_purpose.
Proof. destruct toy_sound. constructor; assumption. Qed.

Example C70_nonvacuous :
  sound_recipe true toy_out few nothing_installed toy_srcs toy_links toy_recipe toy_purpose /\ has_bob toy_disk (lit "/usr/local") /\
  toy_disk BUILD_PATH = Some toy_text /\ says toy_text (SpecProject.script toy_recipe) /\
  exists w', file_build true toy_out few (fun _ _ => None) TE (lit "/usr/local") toy_disk start 0 w' /\ files w' a_o = File (lit "-O0[Ah]") 5.
Proof.
  split; [exact toy_sound_recipe|]. split; [right; split; reflexivity|]. split; [reflexivity|]. split; [exact C70_toy_says|].
  exists first. split; [|vm_compute; reflexivity].
  apply (C70_file_builds_what_it_says true toy_out few (fun _ _ => None) nothing_installed toy_srcs toy_links toy_recipe toy_purpose (lit "/usr/local") toy_disk toy_text);
    [exact toy_sound_recipe|right; split; reflexivity|reflexivity|exact C70_toy_says|].
  destruct ex_first as (bs & P & R). exists bs. split; [|exact R]. rewrite <- P. vm_compute. reflexivity.
Qed.

(** The same build file as one would write it. *)
Definition toy_text' : bytes := lit "# A toy.

import bob

let srcs = [
	""a.c"", # the program
	""b.c"",
]
let objs = Cc([""-O0""]).compile(srcs) # without optimisation
let prog = Linker([]).link(objs)

install = {prog: ""bin/toy""}
run = [""toy"", ""-v""]
".
Example C70_same_script : script_in toy_text' = Some (SpecProject.script toy_recipe).
Proof. vm_compute. reflexivity. Qed.

(** Another text of the same script, with a comment. *)
Definition toy_tokens' : list tok := recipe_toks toy_recipe ++ [Tok FlTables.T_comment (lit "  ") (lit "# that's it") false].
Definition toy_disk' : disk := fun q => if bytes_eqb q BUILD_PATH then Some (written toy_tokens' [SpecLex.LF]) else toy_disk q.
Example C70_same_scripts : same_scripts toy_disk toy_disk' /\ toy_disk' BUILD_PATH <> toy_disk BUILD_PATH.
Proof.
  split; [|vm_compute; discriminate]. intros q. unfold toy_disk'. destruct (bytes_eqb q BUILD_PATH) eqn:E; [|left; reflexivity].
  right. exists toy_text, (written toy_tokens' [SpecLex.LF]), (SpecProject.script toy_recipe).
  split; [unfold toy_disk; rewrite E; reflexivity|]. split; [reflexivity|]. split; [exact C70_toy_says|].
  exists toy_tokens', [SpecLex.LF]. split; [|split; [vm_compute; repeat split; discriminate|reflexivity]].
  apply script_note; [exact (recipe_is toy_recipe toy_plain)|]. constructor; [|constructor].
  eexists _, _. split; [reflexivity|]. split; [reflexivity|]. split; [discriminate|reflexivity].
Qed.
