(** * Build scripts of a common form, and what they ask for. *)

From Coq Require Import ZArith Ascii String Lia Bool List.
From Verif Require Import Base Cookie Build SpecBuild Plan SpecPlan Install Main FlAst FlState FlInterp Bob SpecBob.
Import ListNotations.

(** ** The scripts *)

(** A string: written down, by a name it was given, or one of a list: [list[number]]. *)
Inductive one := Text (t : bytes) | Name (x : bytes) | Nth (x number : bytes).
(** What is asked of a string [y]: [y.endswith("t")], [y.startswith("t")], [!c], [a && b], [a || b]. *)
Inductive test := Ends (t : bytes) | Starts (t : bytes) | Not (c : test) | And (a b : test) | Or (a b : test).
(** A list: [[a, b, ...]], a list by its name, [Fs.list("dir")], [g.where(|y| c)], [g + h]. *)
Inductive given := Each (l : list one) | Named (x : bytes) | Entries (dir : bytes) | Only (g : given) (y : bytes) (c : test) | Both (g h : given).
(** [Cc([...])] or [Linker([...])], or one there is already. *)
Inductive tool := New (flags : list bytes) | Known (x : bytes).
(** [let x = Cc([...])] or [let x = Linker([...])]; [let x = tool.compile(...)], [let x = tool.link(...)] or [let x = tool.archive(...)]; [let x] a string or a list. *)
Inductive line :=
| Define (x : bytes) (o : operation) (flags : list bytes)
| Make (x : bytes) (o : operation) (t : tool) (g : given)
| LetOne (x : bytes) (i : one)
| LetMany (x : bytes) (g : given).
(** The lines, then perhaps [install = {a: b, ...}], then perhaps [run = ...]. *)
Record recipe := Recipe { recipe_lines : list line; recipe_install : option (list (one * one)); recipe_run : option given }.

Definition strs_lit (l : list bytes) : expr := EVec (map EStr l).
Definition one_expr (i : one) : expr := match i with Text t => EStr t | Name x => EId x | Nth x k => EIndex (EId x) (ENum k) end.
Fixpoint test_expr (y : bytes) (c : test) : expr :=
  match c with
  | Ends t => method_call (EId y) (lit "endswith") [EStr t]
  | Starts t => method_call (EId y) (lit "startswith") [EStr t]
  | Not c => EUn (lit "!") (test_expr y c)
  | And a b => EBin (test_expr y a) (lit "&&") (test_expr y b)
  | Or a b => EBin (test_expr y a) (lit "||") (test_expr y b)
  end.
Fixpoint given_expr (g : given) : expr :=
  match g with
  | Each l => EVec (map one_expr l)
  | Named x => EId x
  | Entries dir => method_call (EId (lit "Fs")) (lit "list") [EStr dir]
  | Only g y c => method_call (given_expr g) (lit "where") [ELambda [y] (BExpr (test_expr y c))]
  | Both g h => EBin (given_expr g) (lit "+") (given_expr h)
  end.
Definition new_expr (o : operation) (flags : list bytes) : expr := ECall (EId (class_name (op_class o))) [strs_lit flags].
Definition tool_expr (o : operation) (t : tool) : expr := match t with New flags => new_expr o flags | Known x => EId x end.
Definition line_stmt (l : line) : stmt :=
  match l with
  | Define x o flags => SLet false x (Some (new_expr o flags))
  | Make x o t g => SLet false x (Some (method_call (tool_expr o t) (op_name o) [given_expr g]))
  | LetOne x i => SLet false x (Some (one_expr i))
  | LetMany x g => SLet false x (Some (given_expr g))
  end.
Definition install_stmt (l : list (one * one)) : stmt := SAssign (LId (lit "install")) (lit "install") (EMap (map (fun kv => (one_expr (fst kv), one_expr (snd kv))) l)).
Definition run_stmt (g : given) : stmt := SAssign (LId (lit "run")) (lit "run") (given_expr g).
Definition some_stmt {A} (f : A -> stmt) (o : option A) : list stmt := match o with Some a => [f a] | None => [] end.
(** [import bob], then the recipe. *)
Definition script (r : recipe) : list stmt := SImport false [lit "bob"] :: map line_stmt (recipe_lines r) ++ some_stmt install_stmt (recipe_install r) ++ some_stmt run_stmt (recipe_run r).

(** ** What they ask for *)

(** What a name stands for: the [d]-th tool, strings, or a string. *)
Inductive thing := ATool (k : bclass) (d : nat) (flags : list bytes) | Strings (l : list bytes) | AString (t : bytes).
Fixpoint meaning (env : list (bytes * thing)) (x : bytes) : option thing :=
  match env with [] => None | (y, t) :: env => if bytes_eqb y x then Some t else meaning env x end.

(** The number decimal digits, perhaps with underscores between them, stand for. *)
Fixpoint decimal (n : Z) (l : bytes) : option Z :=
  match l with
  | [] => Some n
  | c :: l =>
    let d := (Z.of_N (N_of_ascii c) - 48)%Z in
    if byte_eqb c "_"%char then decimal n l else if ((0 <=? d) && (d <=? 9))%Z then decimal (10 * n + d)%Z l else None
  end.
Definition number (l : bytes) : option Z :=
  match l, decimal 0 l with _ :: _, Some z => if (z <? 2 ^ 63)%Z then Some z else None | _, _ => None end.

Fixpoint passes (c : test) (w : bytes) : bool :=
  match c with
  | Ends t => is_prefix (rev t) (rev w)
  | Starts t => is_prefix t w
  | Not c => negb (passes c w)
  | And a b => passes a w && passes b w
  | Or a b => passes a w || passes b w
  end.

Fixpoint all {A B} (f : A -> option B) (l : list A) : option (list B) :=
  match l with [] => Some [] | x :: l => match f x, all f l with Some y, Some r => Some (y :: r) | _, _ => None end end.
Definition one_means (env : list (bytes * thing)) (i : one) : option bytes :=
  match i with
  | Text t => Some t
  | Name x => match meaning env x with Some (AString t) => Some t | _ => None end
  | Nth x k => match meaning env x, number k with Some (Strings l), Some z => nth_error l (Z.to_nat z) | _, _ => None end
  end.
(** The tool, its flags, and how many tools there are then. *)
Definition tool_means (env : list (bytes * thing)) (k : bclass) (tools : nat) (t : tool) : option (nat * list bytes * nat) :=
  match t with
  | New flags => Some (tools, flags, S tools)
  | Known x =>
    match meaning env x with
    | Some (ATool k' d flags) => match k, k' with CCc, CCc | CLinker, CLinker => Some (d, flags, tools) | _, _ => None end
    | _ => None
    end
  end.

Section Asked.
Variables (sg : bool) (out : bytes) (listing : bytes -> option (list bytes)).

Fixpoint given_means (env : list (bytes * thing)) (g : given) : option (list bytes) :=
  match g with
  | Each l => all (one_means env) l
  | Named x => match meaning env x with Some (Strings l) => Some l | _ => None end
  | Entries dir => option_map (map cstr) (listing (cstr dir))
  | Only g _ c => option_map (filter (passes c)) (given_means env g)
  | Both g h => match given_means env g, given_means env h with Some a, Some b => Some (a ++ b) | _, _ => None end
  end.

Definition object (src : bytes) : option bytes := match gen_cookie sg out src (lit "o") with Ok c => Some c | _ => None end.

(** What is asked for: each compilation with its compiler's flags, each link (the [made]-th request) with its linker's. *)
Definition request_for (o : operation) (made d : nat) (flags srcs : list bytes) : req :=
  match o with
  | Compiling => RCompile (2 * Z.of_nat d + 2) flags srcs
  | Linking k => RLink (2 * Z.of_nat made + 1) k flags srcs
  end.
Definition result_of (o : operation) (srcs : list bytes) : option thing :=
  match o with
  | Compiling => option_map Strings (all object srcs)
  | Linking k => Some (AString (link_cookie sg out k srcs))
  end.
(** What the lines ask for, and what the names stand for then. *)
Fixpoint asks (env : list (bytes * thing)) (tools made : nat) (ls : list line) : option (list req * list (bytes * thing)) :=
  match ls with
  | [] => Some ([], env)
  | Define x o flags :: ls => asks ((x, ATool (op_class o) tools flags) :: env) (S tools) made ls
  | Make x o t g :: ls =>
    match tool_means env (op_class o) tools t, given_means env g with
    | Some (d, flags, tools'), Some srcs =>
      match result_of o srcs with
      | Some r =>
        match asks ((x, r) :: env) tools' (S made) ls with
        | Some (rs, env') => Some (request_for o made d flags srcs :: rs, env')
        | None => None
        end
      | None => None
      end
    | _, _ => None
    end
  | LetOne x i :: ls => match one_means env i with Some t => asks ((x, AString t) :: env) tools made ls | None => None end
  | LetMany x g :: ls => match given_means env g with Some l => asks ((x, Strings l) :: env) tools made ls | None => None end
  end.

Definition pair_means (env : list (bytes * thing)) (kv : one * one) : option (bytes * bytes) :=
  match one_means env (fst kv), one_means env (snd kv) with Some k, Some v => Some (k, v) | _, _ => None end.
(** No key twice. *)
Fixpoint distinct_keys (l : list bytes) : bool := match l with [] => true | k :: l => negb (existsb (bytes_eqb k) l) && distinct_keys l end.
(** What is to be built, installed (from, to) and run. *)
Record purpose := Purpose { to_build : list req; to_install : option (list (bytes * bytes)); to_run : list bytes }.
Definition recipe_means (r : recipe) : option purpose :=
  match asks [] 0 0 (recipe_lines r) with
  | None => None
  | Some (rs, env) =>
    match match recipe_install r with
          | None => Some None
          | Some l => match all (pair_means env) l with Some m => if distinct_keys (map fst m) then Some (Some m) else None | None => None end
          end,
          match recipe_run r with None => Some [] | Some g => given_means env g end with
    | Some m, Some l => Some (Purpose rs m l)
    | _, _ => None
    end
  end.
End Asked.

(** What Bob finds in [install] and [run]. *)
Definition found_install (m : option (list (bytes * bytes))) : script_val :=
  match m with None => SNone | Some l => SMap (map (fun kv => (Some (fst kv), Some (snd kv))) l) end.
Definition found_run (l : list bytes) : run_var := RunVec (map Some l).

(** bob.fl is where Bob looks for imports: under the install prefix or in import/. *)
Definition finds_bob (exists_ : bytes -> bool) (files : bytes -> file) (prefix : bytes) : Prop :=
  let installed := prefix ++ lit "/share/flamingo/import/bob.fl" in
  let local := lit "import/bob.fl" in
  exists_ installed = true /\ files installed = File bob_fl \/
  exists_ installed = false /\ exists_ local = true /\ files local = File bob_fl.

(** The names bob.fl declares. *)
Definition reserved : list bytes := map lit ["__bob_has_been_imported__"; "Fs"; "Cc"; "Linker"; "install"; "run"]%string.
Definition line_name (l : line) : bytes := match l with Define x _ _ | Make x _ _ _ | LetOne x _ | LetMany x _ => x end.
(** No name is declared twice. *)
Definition distinct_names (ls : list line) : Prop := NoDup (reserved ++ map line_name ls).

(** The strings written down. *)
Definition one_texts (i : one) : list bytes := match i with Text t => [t] | _ => [] end.
Fixpoint given_texts (g : given) : list bytes :=
  match g with Each l => flat_map one_texts l | Named _ | Entries _ => [] | Only g _ _ => given_texts g | Both g h => given_texts g ++ given_texts h end.
Definition line_texts (l : line) : list bytes := match l with Define _ _ _ => [] | Make _ _ _ g | LetMany _ g => given_texts g | LetOne _ i => one_texts i end.
Definition recipe_texts (r : recipe) : list bytes :=
  flat_map line_texts (recipe_lines r) ++ match recipe_install r with Some l => flat_map (fun kv => one_texts (fst kv) ++ one_texts (snd kv)) l | None => [] end ++
  match recipe_run r with Some g => given_texts g | None => [] end.
(** They have no NUL bytes. *)
Definition plain_texts (r : recipe) : Prop := Forall nul_free (recipe_texts r).

(** ** Sound scripts *)
Section Sound.
Variables (sg : bool) (out : bytes) (listing : bytes -> option (list bytes)).

(** What a request makes. *)
Definition req_makes (r : req) : list bytes :=
  match r with
  | RCompile _ _ ss => flat_map (fun s => match object sg out s with Some c => [c] | None => [] end) ss
  | RLink _ k _ ss => [link_cookie sg out k ss]
  end.
(** Nothing is made twice. *)
Definition made_once (rs : list req) : Prop := NoDup (flat_map req_makes rs).
(** The strings written down or listed. *)
Fixpoint given_named (g : given) : list bytes :=
  match g with
  | Each l => flat_map one_texts l
  | Named _ => []
  | Entries dir => match listing (cstr dir) with Some l => map cstr l | None => [] end
  | Only g _ c => filter (passes c) (given_named g)
  | Both g h => given_named g ++ given_named h
  end.
(** What is written down or listed and may come to be linked is no product. *)
Definition links_sources (source : bytes -> Prop) (ls : list line) : Prop :=
  forall l t, In l ls -> match l with Define _ _ _ | Make _ Compiling _ _ => False | Make _ (Linking _) _ g | LetMany _ g => In t (given_named g) | LetOne _ i => In t (one_texts i) end -> source t.
End Sound.

(** Such a script, whose requests are sound (in the sense of C20). *)
Record sound_script (sg : bool) (out : bytes) (listing : bytes -> option (list bytes)) (exists_ : bytes -> bool) (texts : bytes -> file) (prefix : bytes)
                    (inst_area srcs : bytes -> Prop) (links : link_kind -> list bytes -> Prop) (r : recipe) (p : purpose) : Prop := {
  so_out : nul_free out;
  so_bob : finds_bob exists_ texts prefix;
  so_names : distinct_names (recipe_lines r);
  so_texts : plain_texts r;
  so_means : recipe_means sg out listing r = Some p;
  so_each : forall q, In q (to_build p) -> good_req srcs links q;
  so_sources : links_sources listing (source (product_dir out) inst_area) (recipe_lines r);
  so_once : made_once sg out (to_build p);
}.
