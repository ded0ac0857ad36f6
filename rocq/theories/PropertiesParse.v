(** * C67, C68: the reader of scripts.

    [parse t] is what the reader makes of the text [t]: a tree ([Parsed]) or a syntax error ([Rejected]). [SpecGrammar.v]
    holds the grammar and what trees are made of. *)

From Coq Require Import NArith Ascii String Bool List.
From Verif Require Import Base FlAst FlTables FlParse FlRead SpecLex SpecGrammar ParseProofs FlSources Bob PropertiesProject.
Import ListNotations.

(** ** C67: the tree of a script is its text, read by the grammar *)

(** The tokens of the tree with the blanks before them are the text (after a byte order mark, if it starts with one); they
    are spelled as tokens are; and the children of every node are what a rule of the grammar says. *)
Theorem C67_the_tree_is_the_text t r :
  parse t = Parsed r ->
  (t = text r \/ map N_of_ascii (firstn 3 t) = [239; 187; 191]%N /\ skipn 3 t = text r) /\
  root r = N_source_file /\ by_the_rules r /\
  forall x b w, In (x, b, w) (tokens r) -> forallb blank b = true /\ spelled x w.
Proof. exact (parse_tree_is t r). Qed.
Print Assumptions C67_the_tree_is_the_text.

(** The scripts of the repository are read as the trees that the other properties speak about. *)
Example C67_shipped_scripts :
  script_in bob_fl_text = Some bob_fl /\ script_in own_fl_text = Some bob_build_fl /\
  script_in skeleton_fl_text = Some skeleton_build_fl /\ script_in frugality_fl_text = Some frugality_build_fl /\
  script_in order_fl_text = Some [import_bob; tset "run" (EVec [tstr "test_command"])] /\
  script_in chown_fl_text =
  Some [import_bob; tset "install" (EMap [(tstr "build.fl", tstr "share/bob_chown_test.fl")])].
Proof. vm_compute. repeat split; reflexivity. Qed.

Example C67_parsed_case : exists r, parse own_fl_text = Parsed r /\ length (tokens r) = 111.
Proof. eexists. split; vm_compute; reflexivity. Qed.

(** ** C68: reading a script ends *)

(** With a tree or with a syntax error, for every text. *)
Theorem C68_reading_ends t : (exists r, parse t = Parsed r) \/ parse t = Rejected.
Proof. exact (parse_ends t). Qed.
Print Assumptions C68_reading_ends.

(** And with one result: where the tables name an action, it is the only one, so that the order of attempts does not
    matter. *)
Theorem C68_reading_never_branches s x :
  length (filter (fun a => match a with ShiftRepeat _ => false | _ => true end) (actions s x)) <= 1.
Proof. exact (one_action s x). Qed.
Print Assumptions C68_reading_never_branches.

Example C68_cases :
  parse (lit "print (1") = Rejected /\ parse (lit "##" ++ [LF] ++ lit "##") <> Rejected /\ parse [] <> Rejected.
Proof. vm_compute. repeat split; discriminate. Qed.
