(** * Build files as texts: which recipes can be written down, and a way to write them. *)

From Coq Require Import ZArith Ascii String Bool List.
From Verif Require Import Base FlAst FlTables FlParse SpecLex SpecSyntax FlSources Cookie Build SpecBuild SpecHistory Plan SpecPlan Bob SpecBob SpecProject BuildFile.
Import ListNotations.
Local Open Scope nat_scope.

(** A text of the script [ss]: its tokens in any layout, with any comments between statements. *)
Definition says (t : bytes) (ss : list stmt) : Prop := exists ks e, script_is ss ks /\ laid true ks e /\ t = written ks e.

(** The same files, some of them scripts that are laid out in other ways or have other comments. *)
Definition same_scripts (d d' : disk) : Prop :=
  forall q, d' q = d q \/ exists t t' ss, d q = Some t /\ d' q = Some t' /\ says t ss /\ says t' ss.

(** ** Recipes that can be written down

    Names are names and no keywords, strings need no quotes within, numbers are digits. There are no parentheses in recipes, so
    that the operators have to be where they would be without: "||" weaker than "&&", what they join grouped to the left, and
    "!" before what comes last, since it reaches to the end. *)
Definition plain_name (x : bytes) : Prop := is_name x = true /\ forall y, word y <> Some x.

Definition one_plain (i : one) : Prop :=
  match i with Text t => quotable t | Name x => plain_name x | Nth x k => plain_name x /\ k <> [] /\ forallb digit k = true end.

Fixpoint test_plain (o : bool) (m : nat) (c : test) : Prop :=
  match c with
  | Ends t | Starts t => quotable t
  | Not c => o = true /\ test_plain true 1 c
  | And a b => m <= 2 /\ test_plain false 2 a /\ test_plain o 3 b
  | Or a b => m <= 1 /\ test_plain false 1 a /\ test_plain o 2 b
  end.

Fixpoint given_plain (m : nat) (g : given) : Prop :=
  match g with
  | Each l => Forall one_plain l
  | Named x => plain_name x
  | Entries dir => quotable dir
  | Only g y c => given_plain 7 g /\ plain_name y /\ test_plain true 1 c
  | Both g h => m <= 4 /\ given_plain 4 g /\ given_plain 5 h
  end.

Definition tool_plain (t : tool) : Prop := match t with New flags => Forall quotable flags | Known x => plain_name x end.

Definition line_plain (l : line) : Prop :=
  match l with
  | Define x _ flags => plain_name x /\ Forall quotable flags
  | Make x _ t g => plain_name x /\ tool_plain t /\ given_plain 1 g
  | LetOne x i => plain_name x /\ one_plain i
  | LetMany x g => plain_name x /\ given_plain 1 g
  end.

Definition recipe_plain (r : recipe) : Prop :=
  Forall line_plain (recipe_lines r) /\
  match recipe_install r with Some l => Forall (fun kv => one_plain (fst kv) /\ one_plain (snd kv)) l | None => True end /\
  match recipe_run r with Some g => given_plain 1 g | None => True end.

(** ** A way to write them: a blank before every token, one statement on each line *)
Definition BLANK : bytes := lit " ".
Definition kw (x : sym) : tok := Tok x BLANK (match word x with Some v => v | None => [] end) (breaks x).
Definition nm (x : bytes) : tok := Tok T_identifier_token1 BLANK x false.
Definition qt (s : bytes) : tok := Tok T_string BLANK ([""""%char] ++ s ++ [""""%char]) false.
Definition nu (d : bytes) : tok := Tok T_number BLANK d false.
Definition nl : tok := Tok T_LF BLANK [LF] true.

Definition commas {A} (f : A -> list tok) (l : list A) : list tok :=
  match l with [] => [] | x :: l => f x ++ flat_map (fun y => kw T_COMMA :: f y) l end.

Definition one_toks (i : one) : list tok :=
  match i with Text t => [qt t] | Name x => [nm x] | Nth x k => [nm x; kw T_LBRACK; nu k; kw T_RBRACK] end.
Definition called (ks : list tok) (f : bytes) (args : list tok) : list tok :=
  (ks ++ [kw T_DOT; nm f]) ++ kw T_LPAREN :: args ++ [kw T_RPAREN].
Fixpoint test_toks (y : bytes) (c : test) : list tok :=
  match c with
  | Ends t => called [nm y] (lit "endswith") [qt t]
  | Starts t => called [nm y] (lit "startswith") [qt t]
  | Not c => kw T_BANG :: test_toks y c
  | And a b => test_toks y a ++ kw T_and_operator :: test_toks y b
  | Or a b => test_toks y a ++ kw T_PIPE_PIPE :: test_toks y b
  end.
Fixpoint given_toks (g : given) : list tok :=
  match g with
  | Each l => kw T_LBRACK :: commas one_toks l ++ [kw T_RBRACK]
  | Named x => [nm x]
  | Entries dir => called [nm (lit "Fs")] (lit "list") [qt dir]
  | Only g y c => called (given_toks g) (lit "where") (kw T_PIPE :: [nm y] ++ kw T_PIPE :: test_toks y c)
  | Both g h => given_toks g ++ kw T_PLUS :: given_toks h
  end.
Definition new_toks (o : operation) (flags : list bytes) : list tok :=
  [nm (class_name (op_class o))] ++ kw T_LPAREN :: (kw T_LBRACK :: commas (fun t => [qt t]) flags ++ [kw T_RBRACK]) ++ [kw T_RPAREN].
Definition tool_toks (o : operation) (t : tool) : list tok := match t with New flags => new_toks o flags | Known x => [nm x] end.
Definition value_toks (l : line) : list tok :=
  match l with
  | Define _ o flags => new_toks o flags
  | Make _ o t g => called (tool_toks o t) (op_name o) (given_toks g)
  | LetOne _ i => one_toks i
  | LetMany _ g => given_toks g
  end.
Definition line_toks (l : line) : list tok := kw T_let :: nm (line_name l) :: kw T_EQ :: value_toks l.
Definition pair_toks (kv : one * one) : list tok := one_toks (fst kv) ++ kw T_COLON :: one_toks (snd kv).
Definition install_toks (l : list (one * one)) : list tok :=
  nm (lit "install") :: kw T_EQ :: kw T_LBRACE :: commas pair_toks l ++ [kw T_RBRACE].
Definition run_toks (g : given) : list tok := nm (lit "run") :: kw T_EQ :: given_toks g.

Definition recipe_toks (r : recipe) : list tok :=
  [kw T_import; nm (lit "bob"); nl] ++
  flat_map (fun l => line_toks l ++ [nl]) (recipe_lines r) ++
  match recipe_install r with Some l => install_toks l ++ [nl] | None => [] end ++
  match recipe_run r with Some g => run_toks g ++ [nl] | None => [] end.

(** ** Build files of recipes *)

(** bob.fl as it is shipped is where Bob looks for imports. *)
Definition has_bob (d : disk) (prefix : bytes) : Prop :=
  d (prefix ++ lit "/share/flamingo/import/bob.fl") = Some bob_fl_text \/
  (d (prefix ++ lit "/share/flamingo/import/bob.fl") = None /\ d (lit "import/bob.fl") = Some bob_fl_text).

(** As [sound_script], of the recipe alone. *)
Record sound_recipe (sg : bool) (out : bytes) (listing : bytes -> option (list bytes))
                    (inst_area srcs : bytes -> Prop) (links : link_kind -> list bytes -> Prop) (r : recipe) (p : purpose) : Prop := {
  sr_out : nul_free out;
  sr_names : distinct_names (recipe_lines r);
  sr_texts : plain_texts r;
  sr_means : recipe_means sg out listing r = Some p;
  sr_each : forall q, In q (to_build p) -> good_req srcs links q;
  sr_sources : links_sources listing (source (product_dir out) inst_area) (recipe_lines r);
  sr_once : made_once sg out (to_build p);
}.
