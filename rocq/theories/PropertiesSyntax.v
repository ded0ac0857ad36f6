(** * C69: scripts are read as they are written.

    [script_in t] is the script that the interpreter walks when it is given the text [t], if [t] is one. [SpecSyntax.v] says,
    without the reader or its tables, which tokens make up which script ([script_is]) and how tokens may be laid out in a
    text ([laid]). [written ks e] is the text of the tokens [ks], each with the blanks before it, followed by [e]. *)

From Coq Require Import NArith Arith Ascii String Bool List.
From Verif Require Import Base FlAst FlTables FlParse FlRead SpecLex SpecSyntax SyntaxProofs.
Import ListNotations.
Local Open Scope nat_scope.

(** Every way to write a script down is read as that script: with the operators as strong as the language says, binding
    to the left, with unary signs and lambdas reaching as far as they can, with statements ended by semicolons or line ends,
    with line breaks and blanks wherever they are allowed, with comments before, between and after statements
    and at the line ends within vectors and maps, for expressions, parameters, blocks and classes of any depth. *)
Theorem C69_scripts_are_read_as_written ss ks e :
  script_is ss ks -> laid true ks e -> script_in (written ks e) = Some ss.
Proof. exact (script_read ss ks e). Qed.
Print Assumptions C69_scripts_are_read_as_written.

(** So a text is not two scripts. *)
Theorem C69_a_text_is_one_script ss ks e ss' ks' e' :
  script_is ss ks -> laid true ks e -> script_is ss' ks' -> laid true ks' e' ->
  written ks e = written ks' e' -> ss = ss'.
Proof.
  exact (fun S L S' L' E =>
    f_equal (fun o => match o with Some x => x | None => ss end)
      (eq_trans (eq_sym (script_read ss ks e S L)) (eq_trans (f_equal script_in E) (script_read ss' ks' e' S' L')))).
Qed.
Print Assumptions C69_a_text_is_one_script.

(** ** A script that meets the hypotheses *)

Definition sp : bytes := lit " ".
Definition w (b : bytes) (x : sym) : tok := Tok x b (match word x with Some v => v | None => [] end) (breaks x).
Definition n (b : bytes) (x : string) : tok := Tok T_identifier_token1 b (lit x) false.
Definition d (b : bytes) (x : string) : tok := Tok T_number b (lit x) false.
Definition note (b : bytes) (x : string) : tok := Tok T_comment b (lit x) false.
Definition lf : tok := Tok T_LF [] [LF] true.

(**
<<
# one
static fn f(x: int, y) -> int { # two
	return -x ** 2 * 3 + y # three
}
let g = |a| a.b(1)[0] ==
  "}"; g = f
# four
>>
*)
Definition example_tokens : list tok :=
  [ note [] "# one"; w [LF] T_static; w sp T_fn; n sp "f"; w [] T_LPAREN; n [] "x"; w [] T_COLON; w sp T_int; w [] T_COMMA; n sp "y"; w [] T_RPAREN;
    w sp T_DASH_GT; w sp T_int; w sp T_LBRACE; note sp "# two"; w [LF; "009"%char] T_return; w sp T_DASH; n [] "x"; w sp T_power_operator; d sp "2";
    w sp T_STAR; d sp "3"; w sp T_PLUS; n sp "y"; note sp "# three"; lf; Tok T_RBRACE [] (lit "}") true;
    w [LF] T_let; n sp "g"; w sp T_EQ; w sp T_PIPE; n [] "a"; w [] T_PIPE; n sp "a"; w [] T_DOT; n [] "b"; w [] T_LPAREN; d [] "1";
    w [] T_RPAREN; w [] T_LBRACK; d [] "0"; w [] T_RBRACK; w sp T_EQ_EQ; Tok T_string [LF; " "; " "]%char (lit """}""") false; w [] T_SEMI;
    n sp "g"; w sp T_EQ; n sp "f"; lf; note [] "# four" ].

Definition example_script : list stmt :=
  [ SFun true (lit "f") [lit "x"; lit "y"]
      [SReturn (Some (EUn (lit "-")
         (EBin (EBin (EBin (EId (lit "x")) (lit "**") (ENum (lit "2"))) (lit "*") (ENum (lit "3"))) (lit "+") (EId (lit "y")))))];
    SLet false (lit "g")
      (Some (ELambda [lit "a"] (BExpr
         (EBin (EIndex (ECall (EAccess (EId (lit "a")) (lit "b")) [ENum (lit "1")]) (ENum (lit "0"))) (lit "==") (EStr (lit "}"))))));
    SAssign (LId (lit "g")) (lit "g") (EId (lit "f")) ].

Ltac parts i m l :=
  match i with
  | O => let a := eval cbn [firstn] in (firstn m l) in let b := eval cbn [skipn] in (skipn m l) in constr:(a ++ b)
  | S ?i' => match l with ?h :: ?t => let r := parts i' m t in constr:(h :: r) end
  end.
Ltac cut i m := match goal with |- ?P ?ks => let r := parts i m ks in change (P r) end.
Ltac word_ := solve [split; [reflexivity|split; reflexivity]].
Ltac name_ := solve [split; [reflexivity|split; [reflexivity|split; [reflexivity|split; [reflexivity|apply no_word; reflexivity]]]]].
Ltac num_ := solve [split; [reflexivity|split; [reflexivity|split; [reflexivity|split; [discriminate|reflexivity]]]]].

Ltac note_ := solve [repeat first [apply Forall_nil | apply Forall_cons; [
  eexists _, _; split; [reflexivity|split; [reflexivity|split; [discriminate|reflexivity]]]|]]].

Example C69_example_is : script_is example_script example_tokens.
Proof.
  unfold example_script, example_tokens.
  cut 0 1. match goal with |- _ (?a ++ ?l) => let r := parts 0 48 l in change l with r end. apply script_lines; [note_| |note_].
  cut 0 44. match goal with |- _ [?a; ?b; ?c] (?x ++ ?y) => change (lines_is ([a; b] ++ [c]) (x ++ [] ++ y)) end.
  apply lines_next; [|note_|].
  cut 0 26. match goal with |- _ [?a; ?b] (?x ++ ?y) => change (lines_is ([a] ++ [b]) (x ++ [] ++ y)) end.
  apply lines_next; [|note_|].
  - apply lines_one, line_closed. cut 0 1. match goal with |- _ (?a ++ ?l) => let r := parts 2 7 l in change l with r end.
    match goal with |- _ (_ ++ _ :: _ :: _ ++ ?l) => let r := parts 0 2 l in change l with r end.
    apply is_fun; [| |name_| | |].
    + apply (qualifiers_some true [w [LF] T_static]). apply (more_qualifiers_one T_static); [left; reflexivity|word_].
    + word_.
    + cut 1 5. apply signature_some; [word_| |word_].
      match goal with |- _ ?l => let r := parts 0 3 l in change l with r end. apply params_some.
      * apply param_some; [name_|]. apply typed_some; [word_|]. eapply type_word; [|word_]. right. left. reflexivity.
      * apply rest_more, more_params_one; [word_|]. apply param_some; [name_|apply typed_none].
    + apply typed_some; [word_|]. eapply type_word; [|word_]. right. left. reflexivity.
    + apply block_some. cut 1 1. match goal with |- _ (?a :: ?x ++ ?l) => let r := parts 0 11 l in change (a :: x ++ l) with (a :: x ++ r) end.
      match goal with |- _ (?a :: ?x ++ ?y ++ ?b) => change (body_is true [SReturn (Some (EUn (lit "-")
         (EBin (EBin (EBin (EId (lit "x")) (lit "**") (ENum (lit "2"))) (lit "*") (ENum (lit "3"))) (lit "+") (EId (lit "y")))))]
         (a :: x ++ y ++ [] ++ b)) end.
      apply body_lines; [word_|note_| |note_|word_]. apply lines_one. cut 0 9.
      match goal with |- _ (?x ++ ?l) => let r := parts 0 1 l in change l with r end. apply line_ended; [|note_|].
      * apply is_return; [word_|]. eapply (is_unary _ T_DASH (w sp T_DASH)); [left; reflexivity|word_|].
        cut 0 5. eapply (is_binary _ _ 4 _ _ T_PLUS (w sp T_PLUS)); [repeat constructor|left; reflexivity| |word_|apply is_id; name_].
        cut 0 3. eapply (is_binary _ _ 5 _ _ T_STAR (w sp T_STAR)); [repeat constructor|left; reflexivity| |word_|apply is_number; num_].
        cut 0 1. eapply (is_binary _ _ 6 _ _ T_power_operator (w sp T_power_operator)); [repeat constructor|left; reflexivity|apply is_id; name_|word_|apply is_number; num_].
      * right. split; [reflexivity|]. split; [discriminate|]. split; reflexivity.
  - match goal with |- _ ?l => let a := eval cbn [firstn] in (firstn 17 l) in let b := eval cbn [skipn] in (skipn 17 l) in
      change l with (a ++ [] ++ b) end. apply line_ended; [|note_|left; word_].
    apply (is_let false [] (w [LF] T_let) (lit "g") (n sp "g") []); [apply qualifiers_none|word_|name_|apply typed_none| |left; reflexivity].
    apply initial_some; [word_|]. cut 1 1. eapply (is_lambda _ _ _ _ _ []); [word_| |word_|note_|].
    + apply lambda_params_some. cut 0 1. apply params_some; [apply param_some; [name_|apply typed_none]|apply rest_none].
    + cut 0 9. eapply (is_binary _ _ 3 _ _ T_EQ_EQ (w sp T_EQ_EQ)); [repeat constructor|left; reflexivity| |word_|].
      * cut 0 6. match goal with |- _ (?a ++ ?b) => let r := parts 1 1 b in change b with r end.
        apply (is_index _ _ _ _ _ [] _ [d [] "0"] _); [|word_|note_|apply is_number; num_|word_].
        cut 0 3. match goal with |- _ (?a ++ ?b) => let r := parts 1 1 b in change b with r end.
        apply is_call; [|word_|apply list_one, is_number; num_|word_]. cut 0 1. apply is_access; [apply is_id; name_|word_|name_].
      * apply is_string. split; [reflexivity|]. split; [reflexivity|]. split; [reflexivity|].
        apply (quotable_plain [] "}"%char); [apply quotable_nil|discriminate|discriminate|discriminate].
  - match goal with |- _ ?l => let a := eval cbn [firstn] in (firstn 3 l) in let b := eval cbn [skipn] in (skipn 3 l) in
      change l with (a ++ [] ++ b) end. apply line_ended; [|note_|].
    + apply is_assign; [name_|word_|apply is_id; name_].
    + right. split; [reflexivity|]. split; [discriminate|]. split; reflexivity.
Qed.

Example C69_example_laid : laid true example_tokens ([LF] ++ lit "  ").
Proof. vm_compute. repeat split; discriminate. Qed.

Example C69_example :
  script_in (lit "# one" ++ [LF] ++ lit "static fn f(x: int, y) -> int { # two" ++ [LF; "009"%char] ++
             lit "return -x ** 2 * 3 + y # three" ++ [LF] ++ lit "}" ++ [LF] ++
             lit "let g = |a| a.b(1)[0] ==" ++ [LF] ++ lit "  ""}""; g = f" ++ [LF] ++ lit "# four" ++ [LF] ++ lit "  ") = Some example_script.
Proof. exact (C69_scripts_are_read_as_written _ _ _ C69_example_is C69_example_laid). Qed.

(** Comments in vectors and maps.
<<
let v = [ # five
  1, # six
  { # seven
    a: # eight
    2, # nine
  }, # ten
]
>>
*)
Definition bracket_tokens : list tok :=
  let ind := [LF; " "; " "]%char in
  [ w [] T_let; n sp "v"; w sp T_EQ; w sp T_LBRACK; note sp "# five"; d ind "1"; w [] T_COMMA; note sp "# six";
    w ind T_LBRACE; note sp "# seven"; n (ind ++ lit "  ") "a"; w [] T_COLON; note sp "# eight"; d (ind ++ lit "  ") "2"; w [] T_COMMA; note sp "# nine";
    w ind T_RBRACE; w [] T_COMMA; note sp "# ten"; w [LF] T_RBRACK; lf ].

Definition bracket_script : list stmt :=
  [ SLet false (lit "v") (Some (EVec [ENum (lit "1"); EMap [(EId (lit "a"), ENum (lit "2"))]])) ].

Example C69_bracket_is : script_is bracket_script bracket_tokens.
Proof.
  unfold bracket_script, bracket_tokens.
  match goal with |- _ ?l => change (script_is bracket_script ([] ++ l ++ [])) end.
  apply script_lines; [note_| |note_]. apply lines_one.
  match goal with |- _ ?l => let a := eval cbn [firstn] in (firstn 20 l) in let b := eval cbn [skipn] in (skipn 20 l) in
      change l with (a ++ [] ++ b) end.
  apply line_ended; [|note_|right; split; [reflexivity|]; split; [discriminate|]; split; reflexivity].
  apply (is_let false [] (w [] T_let) (lit "v") (n sp "v") []); [apply qualifiers_none|word_|name_|apply typed_none| |left; reflexivity].
  apply initial_some; [word_|]. cut 1 1. match goal with |- _ (?a :: ?x ++ ?l) => let r := parts 0 14 l in change (a :: x ++ l) with (a :: x ++ r) end.
  apply is_vec; [word_|note_| |word_].
  cut 0 1. match goal with |- _ (?a ++ ?l) => let r := parts 0 11 l in change (a ++ l) with (a ++ r) end.
  apply list_more_comma; [apply is_number; num_| |word_|split; [note_|discriminate]].
  cut 1 1. apply more_one; [word_|split; [note_|discriminate]|].
  cut 1 1. match goal with |- _ (?a :: ?x ++ ?l) => let r := parts 0 6 l in change (a :: x ++ l) with (a :: x ++ r) end.
  apply is_map; [word_|note_| |word_]. cut 0 4. apply items_comma; [|word_|note_].
  cut 0 1. match goal with |- _ (?x ++ ?l) => let r := parts 1 1 l in change (x ++ l) with (x ++ r) end.
  apply item_some; [apply is_id; name_|word_|note_|apply is_number; num_].
Qed.

Example C69_bracket :
  script_in (lit "let v = [ # five" ++ [LF] ++ lit "  1, # six" ++ [LF] ++ lit "  { # seven" ++ [LF] ++ lit "    a: # eight" ++ [LF] ++
             lit "    2, # nine" ++ [LF] ++ lit "  }, # ten" ++ [LF] ++ lit "]" ++ [LF]) = Some bracket_script.
Proof.
  refine (C69_scripts_are_read_as_written _ _ [] C69_bracket_is _). vm_compute. repeat split; discriminate.
Qed.

(** ** What the hypotheses leave out is left out for a reason

    A statement needs an end unless it is alone in its block, and one end only; "let" may not have a qualifier, a type and
    a value at once; a line may not be broken before an operator; a comment does not end a statement, and a text that ends in a comment
    without a line end after it is a script all the same. Comments among arguments or after an operator end the program. *)
Example C69_no_scripts :
  script_in (lit "print 1") = None /\ script_in (lit "{ print 1; print 2 }") = None /\
  script_in (lit "print 1;;") = None /\ script_in (lit "static let x: int = 1;") = None /\
  script_in (lit "print 1" ++ [LF] ++ lit "+ 2;") = None /\
  script_in (lit "print 1 # one") = None /\ script_in (lit "f(# one" ++ [LF] ++ lit "1);") = None /\
  script_in (lit "f(1, # one" ++ [LF] ++ lit "2);") = None /\ script_in (lit "1 + # one" ++ [LF] ++ lit "2;") = None /\
  script_in (lit "# one") = Some [].
Proof. vm_compute. repeat split; reflexivity. Qed.
