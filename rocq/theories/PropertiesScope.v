(** * C45-C49: names, assignments, scopes and returns in scripts. *)

From Coq Require Import ZArith Arith Ascii String Lia Bool List.
From Verif Require Import Base FlAst FlState FlInterp FlMonad SpecFlamingo SpecScript SpecFrame SpecScope FlFrame FlBalance FlScopeProofs FlAssignProofs FlReturnProofs FlScopeClaims PropertiesScript.
Import ListNotations.
Local Open Scope nat_scope.

Definition pr (x : string) : stmt := SPrint (id x).
Definition fn (x : string) (ps : list bytes) (ss : list stmt) : stmt := SFun false (lit x) ps ss.
Definition ret_ (e : expr) : stmt := SReturn (Some e).
Definition call (x : string) (es : list expr) : expr := ECall (id x) es.
Definition assign (x : string) (e : expr) : stmt := SAssign (LId (lit x)) (lit x) e.
Definition assign_at (x : string) (i e : expr) : stmt := SAssign (LIndex (id x) i) (lit x) e.
(** The state after one statement. *)
Definition then_ (n : nat) (x : stmt) (s : st unit) : st unit := match r_stmt (interp demo n) x s with Ret _ s' => s' | _ => s end.
Definition outcome_of (ss : list stmt) : out unit unit := run demo 30 [] tt ss.
Ltac has_vars := eexists; split; [vm_compute; reflexivity|split; vm_compute; reflexivity].
Ltac has_declared b a := exists b, a; split; [has_vars|split; [reflexivity|split; [reflexivity|repeat constructor; vm_compute; discriminate]]].

(** ** C45: names denote their innermost declaration *)

Theorem C45_identifiers_denote_their_innermost_declaration : forall H (cf : conf H) n x s i j v a,
  names s x i j v -> v_val v = Some a -> live s a -> outcome cf (S n) (EId x) s = Ret (Some a, None) (held a s).
Proof. exact (@ident_value). Qed.
Print Assumptions C45_identifiers_denote_their_innermost_declaration.

Theorem C45_unknown_names_are_reported : forall H (cf : conf H) n x s,
  unknown s x -> outcome cf (S n) (EId x) s = reports cf (lit "could not find identifier: " ++ cstr x) s.
Proof. exact (@ident_unknown). Qed.
Print Assumptions C45_unknown_names_are_reported.

Theorem C45_declaring_twice_is_an_error : forall H (cf : conf H) n x d pre post s i l j v a c,
  declaration x d pre post -> cur_rv s = None -> open s (i :: l) -> declares s x i j v -> v_val v = Some a -> nth_error (cells s) a = Some c ->
  r_stmt (interp cf (S (S n))) d s = reports cf (pre ++ role (c_val c) ++ lit " '" ++ cstr x ++ lit "'" ++ post) s.
Proof. exact (@redeclared). Qed.
Print Assumptions C45_declaring_twice_is_an_error.

(** A declaration adds a variable to the innermost scope, which the name then denotes. What the other scopes, the values and the lines printed are
    afterwards is what evaluating the initial value has made of them. Missing from the full statement: in the initial value, the name does not denote what it
    did before (see the counterexample). *)
Theorem C45_let_declares_partial : forall H (cf : conf H), tame cf -> forall n b x e s s', cur_rv s = None -> executes cf (S n) (SLet b x e) s s' ->
  exists i l a s1 vs, open s (i :: l) /\ vars s i vs /\ Forall (fun v => v_key v <> x) vs /\ initial cf n e (with_var i (Var x b None) s) a s1 /\
  prints s' = prints s1 /\ host s' = host s1 /\ envs s' = envs s1 /\ cur_env s' = cur_env s /\ cur_rv s' = cur_rv s1 /\ same_values s1 s' /\
  (forall k, k <> i -> nth_error (scopes s') k = nth_error (scopes s1) k) /\
  exists before v, vars s1 i (before ++ [v]) /\ vars s' i (before ++ [Var x b (Some a)]) /\ length before = length vs /\
    names s' x i (length vs) (Var x b (Some a)).
Proof. exact (@let_declares). Qed.
Print Assumptions C45_let_declares_partial.

(** The same for functions, which remember the scopes that are open. *)
Theorem C45_functions_are_declared : forall H (cf : conf H) n b x ps ss s s', executes cf (S (S n)) (SFun b x ps ss) s s' ->
  exists i l vs, open s (i :: l) /\ vars s i vs /\ Forall (fun v => v_key v <> x) vs /\
  let a := length (cells s) in
  vars s' i (vs ++ [Var x b (Some a)]) /\ names s' x i (length vs) (Var x b (Some a)) /\
  payload_at s' a (PFn (Fn KFun ps (Some (length (bodies s))) (Some (length (envs s))) None)) /\
  bodies s' = bodies s ++ [Some (BBlock ss)] /\ envs s' = envs s ++ [i :: l] /\ cur_env s' = cur_env s /\
  (forall d, d < a -> nth_error (cells s') d = nth_error (cells s) d) /\ bufs s' = bufs s /\
  (forall k, k <> i -> nth_error (scopes s') k = nth_error (scopes s) k) /\ prints s' = prints s /\ host s' = host s.
Proof. exact (@fun_declares). Qed.
Print Assumptions C45_functions_are_declared.

(** A block in which the outer [y] and its own [x] are known. *)
Definition s45 : st unit := Eval vm_compute in
  let s := done [let_to "x" (num "1"); let_to "y" (num "2")] in
  match push_scope s with Ret _ s' => then_ 9 (let_to "x" (num "3")) s' | _ => s end.
Example C45_case :
  names s45 (lit "y") 0 1 (Var (lit "y") false (Some 7)) /\ live s45 7 /\ holds s45 (DInt 2) 7 /\
  names s45 (lit "x") 1 0 (Var (lit "x") false (Some 8)) /\ live s45 8 /\ holds s45 (DInt 3) 8 /\
  unknown s45 (lit "z") /\ open s45 [1; 0] /\ declares s45 (lit "x") 1 0 (Var (lit "x") false (Some 8)) /\ cur_rv s45 = None /\
  executes demo 9 (let_to "z" (bin (id "x") "+" (id "y"))) s45 (then_ 9 (let_to "z" (bin (id "x") "+" (id "y"))) s45) /\
  executes demo 9 (fn "z" [] [pr "x"]) s45 (then_ 9 (fn "z" [] [pr "x"]) s45) /\
  printed [let_to "x" (num "1"); SBlock [let_to "x" (num "2"); pr "x"]; pr "x"] = Some [lit "2"; lit "1"].
Proof.
  assert (L : lacks s45 (lit "y") 1). { eexists. split; [has_vars|]. repeat constructor; vm_compute; discriminate. }
  assert (X : declares s45 (lit "x") 1 0 (Var (lit "x") false (Some 8))) by has_declared (@nil var) (@nil var).
  split. { exists [1], []. split; [vm_compute; reflexivity|]. split; [repeat constructor; exact L|]. has_declared [Var (lit "x") false (Some 6)] (@nil var). }
  split; [eexists; split; [vm_compute; reflexivity|vm_compute; reflexivity]|]. split; [is_held|].
  split. { exists [], [0]. split; [vm_compute; reflexivity|]. split; [constructor|exact X]. }
  split; [eexists; split; [vm_compute; reflexivity|vm_compute; reflexivity]|]. split; [is_held|].
  split. { exists [1; 0]. split; [vm_compute; reflexivity|]. repeat constructor; (eexists; split; [has_vars|]; repeat constructor; vm_compute; discriminate). }
  split; [vm_compute; reflexivity|]. split; [exact X|]. do 3 (split; [vm_compute; reflexivity|]). vm_compute. reflexivity.
Qed.

(** The name of a variable denotes the variable itself, without a value, where its initial value is evaluated: NULL is dereferenced, in place of the
    outer variable being read. *)
Theorem C45_initial_value_refuted :
  outcome_of [let_to "x" (num "1"); SBlock [let_to "x" (bin (id "x") "+" (num "1"))]] = Undef UNull /\
  outcome_of [let_to "x" (id "x")] = Undef UNull.
Proof. split; vm_compute; reflexivity. Qed.
Print Assumptions C45_initial_value_refuted.

(** ** C46: types of variables

    Full statement: a value of another type is never assigned. It is false of variables. Proved: of elements of vectors and maps, and of variables that
    are functions. *)
Theorem C46_elements_keep_their_type_partial : forall H (cf : conf H), tame cf -> forall n e i text e2 s a s1 b s2 v w, cur_rv s = None ->
  evals cf (S n) (EIndex e i) s a s1 -> holds s1 v a -> evals cf n e2 s1 b s2 -> holds s2 w b ->
  ~ same_type w v -> v <> DNone -> w <> DNone ->
  exists s', (forall d, d <> a -> nth_error (cells s') d = nth_error (cells s2) d) /\
  r_stmt (interp cf (S n)) (SAssign (LIndex e i) text e2) s =
    reports cf (lit "cannot assign " ++ type_name w ++ lit " to '" ++ cstr text ++ lit "' (" ++ type_name v ++ lit ")") s'.
Proof. exact (@assign_other_type). Qed.
Print Assumptions C46_elements_keep_their_type_partial.

Theorem C46_functions_cannot_be_assigned_partial : forall H (cf : conf H) n x text e s i j v a c f, cur_rv s = None ->
  names s x i j v -> v_val v = Some a -> nth_error (cells s) a = Some c -> c_val c = PFn f ->
  r_stmt (interp cf (S n)) (SAssign (LId x) text e) s = reports cf (lit "cannot assign to " ++ role (PFn f) ++ lit " '" ++ cstr text ++ lit "'") s.
Proof. exact (@assign_function). Qed.
Print Assumptions C46_functions_cannot_be_assigned_partial.

Definition s46 : st unit := Eval vm_compute in done [let_to "v" (EVec [num "1"])].
Example C46_case :
  let e := EIndex (id "v") (num "0") in let s1 := after 10 e s46 in let s2 := after 9 (str "a") s1 in
  cur_rv s46 = None /\ evals demo 10 e s46 (value_of 10 e s46) s1 /\ holds s1 (DInt 1) (value_of 10 e s46) /\
  evals demo 9 (str "a") s1 (value_of 9 (str "a") s1) s2 /\ holds s2 (DStr (lit "a")) (value_of 9 (str "a") s1) /\
  ~ same_type (DStr (lit "a")) (DInt 1) /\
  exists s', outcome_of [let_to "v" (EVec [num "1"]); assign_at "v" (num "0") (str "a")] = Fail s' /\
    err s' = Some (lit "demo:0:0: cannot assign string to 'v' (integer)").
Proof. cbv zeta. split; [vm_compute; reflexivity|]. split; [ran|]. split; [is_held|]. split; [ran|]. split; [is_held|]. split; [cbn; auto|]. eexists. split; vm_compute; reflexivity. Qed.
Example C46_function_case : let s := done [fn "f" [] []] in
  names s (lit "f") 0 0 (Var (lit "f") false (Some 6)) /\ payload_at s 6 (PFn (Fn KFun [] (Some 0) (Some 1) None)).
Proof.
  cbv zeta. split; [|eexists; split; vm_compute; reflexivity]. exists [], []. split; [vm_compute; reflexivity|]. split; [constructor|]. has_declared (@nil var) (@nil var).
Qed.

Theorem C46_variables_change_type_refuted :
  shows (outcome_of [let_to "x" (num "1"); assign "x" (str "a"); pr "x"]) [lit "a"].
Proof. eexists. split; vm_compute; reflexivity. Qed.
Print Assumptions C46_variables_change_type_refuted.

(** ** C47: what assignments change

    Full statement: the target only. It is false of elements, which are values that variables and other containers may have too, and which a missing entry of a
    map does not become. Proved: assigning to a variable changes this variable; assigning to an element changes this value. *)
Theorem C47_assignment_changes_the_variable_partial : forall H (cf : conf H), tame cf -> releases_own cf -> forall n x text e s s' i j v, cur_rv s = None ->
  names s x i j v -> executes cf (S n) (SAssign (LId x) text e) s s' ->
  exists a b s1 vs, v_val v = Some a /\ evals cf n e s b s1 /\ nth_error (map sc_vars (scopes s1)) i = Some vs /\
  map sc_vars (scopes s') = upd i (upd j (Var x (v_static v) (Some b)) vs) (map sc_vars (scopes s1)) /\
  vars s' i (upd j (Var x (v_static v) (Some b)) vs) /\ j < length vs /\
  prints s' = prints s1 /\ envs s' = envs s1 /\ cur_env s' = cur_env s /\ (forall d p, payload_at s1 d p -> payload_at s' d p).
Proof. exact (@assign_variable). Qed.
Print Assumptions C47_assignment_changes_the_variable_partial.

Theorem C47_assignment_changes_the_element_partial : forall H (cf : conf H), tame cf -> forall n e i text e2 s a s1 b s2 v w cb, cur_rv s = None ->
  evals cf (S n) (EIndex e i) s a s1 -> holds s1 v a -> evals cf n e2 s1 b s2 -> holds s2 w b -> nth_error (cells s2) b = Some cb ->
  same_type w v \/ v = DNone \/ w = DNone ->
  executes cf (S n) (SAssign (LIndex e i) text e2) s (set_cells (upd a cb (cells s2)) s2) /\
  nth_error (cells (set_cells (upd a cb (cells s2)) s2)) a = Some cb.
Proof. exact (@assign_same_type). Qed.
Print Assumptions C47_assignment_changes_the_element_partial.

Theorem C47_unknown_names_are_reported : forall H (cf : conf H) n x text e s, cur_rv s = None -> unknown s x ->
  r_stmt (interp cf (S n)) (SAssign (LId x) text e) s = reports cf (lit "'" ++ cstr x ++ lit "' was never declared") s.
Proof. exact (@assign_unknown). Qed.
Print Assumptions C47_unknown_names_are_reported.

Example C47_case :
  let e := EIndex (id "v") (num "0") in let s1 := after 10 e s46 in let s2 := after 9 (num "5") s1 in
  executes demo 9 (assign "y" (bin (id "x") "+" (id "y"))) s45 (then_ 9 (assign "y" (bin (id "x") "+" (id "y"))) s45) /\
  names s45 (lit "y") 0 1 (Var (lit "y") false (Some 7)) /\
  evals demo 10 e s46 (value_of 10 e s46) s1 /\ holds s1 (DInt 1) (value_of 10 e s46) /\
  evals demo 9 (num "5") s1 (value_of 9 (num "5") s1) s2 /\ holds s2 (DInt 5) (value_of 9 (num "5") s1) /\
  printed [let_to "v" (EVec [num "1"; num "2"]); assign_at "v" (num "0") (num "5"); pr "v"] = Some [lit "[5, 2]"].
Proof.
  cbv zeta. split; [vm_compute; reflexivity|]. split; [exact (proj1 C45_case)|]. split; [ran|]. split; [is_held|]. split; [ran|]. split; [is_held|]. vm_compute. reflexivity.
Qed.

(** [v[0] = 5] changes [x] as well, and [m[0] = 5] nothing. *)
Theorem C47_elements_are_shared_refuted :
  shows (outcome_of [let_to "x" (num "1"); let_to "v" (EVec [id "x"]); assign_at "v" (num "0") (num "5"); pr "x"]) [lit "5"] /\
  shows (outcome_of [let_to "m" (EMap []); assign_at "m" (num "0") (num "5"); pr "m"]) [lit "{}"].
Proof. split; eexists; split; vm_compute; reflexivity. Qed.
Print Assumptions C47_elements_are_shared_refuted.

(** ** C48: scopes are balanced *)

Theorem C48_expressions_are_balanced : forall H (cf : conf H), tame cf -> forall n d e s r s', r_eval (interp cf n) d e s = Ret r s' -> balanced s s'.
Proof. exact (@eval_balanced). Qed.
Print Assumptions C48_expressions_are_balanced.

Theorem C48_calls_are_balanced : forall H (cf : conf H), tame cf -> forall n f acc d args s r s', r_call (interp cf n) f acc d args s = Ret r s' -> balanced s s'.
Proof. exact (@call_balanced). Qed.
Print Assumptions C48_calls_are_balanced.

Theorem C48_blocks_are_balanced : forall H (cf : conf H), tame cf -> forall n ss s s', executes cf n (SBlock ss) s s' -> balanced s s'.
Proof. exact (@block_balanced). Qed.
Print Assumptions C48_blocks_are_balanced.

(** Any statement leaves the same scopes open, and declares names in the innermost one only. *)
Theorem C48_statements_are_balanced : forall H (cf : conf H), tame cf -> forall n x s s' i l, open s (i :: l) -> executes cf n x s s' ->
  cur_env s' = cur_env s /\ (forall e m, nth_error (envs s) e = Some m -> nth_error (envs s') e = Some m) /\
  (forall k xs, k <> i -> declares_names s k xs -> declares_names s' k xs) /\
  (forall xs, declares_names s i xs -> exists new, declares_names s' i (xs ++ new)) /\ (well_scoped s -> well_scoped s').
Proof. exact (@stmt_balanced). Qed.
Print Assumptions C48_statements_are_balanced.

Theorem C48_scripts_end_in_the_outermost_scope : forall H (cf : conf H), tame cf -> forall n paths h ss s', run cf n paths h ss = Ret tt s' -> open s' [0] /\ well_scoped s'.
Proof. exact (@run_balanced). Qed.
Print Assumptions C48_scripts_end_in_the_outermost_scope.

(** A block that calls a function with a block of its own, in a class. *)
Definition b48 : stmt :=
  SBlock [let_to "p" (num "1"); SClass false (lit "K") [] [fn "m" [lit "q"] [SBlock [let_to "r" (num "2")]]]; let_to "k" (call "K" []); SExpr (method (id "k") "m" [num "3"])].
Example C48_case : tame demo /\ executes demo 20 b48 s45 (then_ 20 b48 s45) /\ open s45 [1; 0] /\ well_scoped s45 /\
  visible (then_ 20 b48 s45) (lit "x") /\ ~ visible (then_ 20 b48 s45) (lit "p") /\
  exists s', run demo 20 [] tt [let_to "o" (num "1"); b48; pr "o"] = Ret tt s'.
Proof.
  split; [exact demo_tame|]. split; [vm_compute; reflexivity|]. split; [vm_compute; reflexivity|]. split; [exists [1; 0]; split; [vm_compute; reflexivity|vm_compute; repeat constructor]|].
  split. { exists [1; 0], 1, [lit "x"]. split; [vm_compute; reflexivity|]. split; [cbn; auto|]. split; [eexists; split; vm_compute; reflexivity|left; reflexivity]. }
  split; [|eexists; vm_compute; reflexivity].
  intros (l & i & xs & O & I & (c & E & Q) & Ix). vm_compute in O. injection O as <-. destruct I as [<- | [<- | []]]; vm_compute in E; injection E as <-; subst xs; vm_compute in Ix; intuition discriminate.
Qed.

(** ** C49: return

    Full statement: [return e] makes the call evaluate to the value of [e], for every [e], and later statements of the function have no effect. It is false if
    [e] is a call, and if functions or classes are declared after the return. Proved: the rest. Returning from nested blocks is by the second and third theorem. *)
Theorem C49_return_takes_the_value_partial : forall H (cf : conf H), tame cf -> forall n e s a s1, direct e -> cur_rv s = None -> in_function s ->
  evals cf n e s a s1 -> executes cf (S n) (SReturn (Some e)) s (set_rv (Some (RVal a)) s1).
Proof. exact (@return_sets). Qed.
Print Assumptions C49_return_takes_the_value_partial.

Theorem C49_return_ends_the_block_partial : forall H (cf : conf H), tame cf -> forall n before x rest s t t1 t2 r,
  opened s t -> executes_each cf (S n) before t t1 -> executes cf (S n) x t1 t2 -> cur_rv t2 = Some r -> running t2 ->
  Forall inert rest -> Forall (fun x => nesting x <= n) rest ->
  exists s', executes cf (S (S (S n))) (SBlock (before ++ x :: rest)) s s' /\ closed s t2 s'.
Proof. exact (@block_returns). Qed.
Print Assumptions C49_return_ends_the_block_partial.

Theorem C49_return_ends_the_call_partial : forall H (cf : conf H), tame cf -> forall n fa f b before x rest e l args s,
  function s fa f b (before ++ x :: rest) e l -> length args = length (f_params f) -> Forall (fun a => a < length (cells s)) args ->
  Forall inert rest -> Forall (fun x => nesting x <= n) rest ->
  exists t, activated f b e l args s t /\ forall t1 t2 a, executes_each cf (S n) before t t1 -> executes cf (S n) x t1 t2 -> cur_rv t2 = Some (RVal a) -> running t2 ->
  (exists g, payload_at t2 fa (PFn g) /\ f_kind g = KFun) ->
  exists s', r_call (interp cf (S (S (S n)))) fa None Slot args s = Ret (Some a) s' /\ resumed e l s t2 s'.
Proof. exact (@call_returns). Qed.
Print Assumptions C49_return_ends_the_call_partial.

(** A function that does not return a value gives none. *)
Theorem C49_no_return_gives_none : forall H (cf : conf H), tame cf -> forall n fa f b ss e l args s,
  function s fa f b ss e l -> length args = length (f_params f) -> Forall (fun a => a < length (cells s)) args ->
  exists t, activated f b e l args s t /\ forall t2, executes_each cf (S n) ss t t2 -> cur_rv t2 = None -> (exists g, payload_at t2 fa (PFn g) /\ f_kind g = KFun) ->
  exists s', r_call (interp cf (S (S (S n)))) fa None Slot args s = Ret (Some (length (cells t2))) s' /\ holds s' DNone (length (cells t2)) /\
  resumed e l s (set_cells (cells t2 ++ [Cell NNone 1 None PNone]) t2) s'.
Proof. exact (@call_falls_off). Qed.
Print Assumptions C49_no_return_gives_none.

(** [fn f(x) { let y = x + 1; { return y + y; print "a" } print "b" }] *)
Definition body49 : list stmt := [let_to "y" (bin (id "x") "+" (num "1")); SBlock [ret_ (bin (id "y") "+" (id "y")); SPrint (str "a")]; SPrint (str "b")].
Definition s49 : st unit := Eval vm_compute in done [fn "f" [lit "x"] body49; let_to "a" (num "4")].
(** Its statements begin in [t49], and the first ends in [u49]. *)
Definition t49 : st unit := Eval vm_compute in
  match (modify (set_body (Some 0)) ;; modify (set_env 1) ;; i <- push_scope ;; add_args i [lit "x"] [7] ;; push_scope ;; ret tt)%fl s49 with Ret _ s => s | _ => s49 end.
Definition u49 : st unit := Eval vm_compute in then_ 9 (let_to "y" (bin (id "x") "+" (num "1"))) t49.
Definition v49 : st unit := Eval vm_compute in then_ 9 (SBlock [ret_ (bin (id "y") "+" (id "y")); SPrint (str "a")]) u49.
Example C49_case :
  let f := Fn KFun [lit "x"] (Some 0) (Some 1) None in
  function s49 6 f 0 body49 1 [0] /\ activated f 0 1 [0] [7] s49 t49 /\
  executes_each demo 9 [let_to "y" (bin (id "x") "+" (num "1"))] t49 u49 /\
  executes demo 9 (SBlock [ret_ (bin (id "y") "+" (id "y")); SPrint (str "a")]) u49 v49 /\
  (exists a, cur_rv v49 = Some (RVal a) /\ holds v49 (DInt 10) a) /\ running v49 /\ payload_at v49 6 (PFn f) /\ Forall inert [SPrint (str "b")] /\
  direct (bin (id "y") "+" (id "y")) /\ in_function u49 /\
  printed [fn "f" [lit "x"] body49; SPrint (call "f" [num "4"])] = Some [lit "10"].
Proof.
  cbv zeta. split. { split; [eexists; split; vm_compute; reflexivity|]. do 5 (split; [vm_compute; reflexivity|]). exists 0, []. eexists. split; [reflexivity|]. has_vars. }
  split; [do 13 (split; [vm_compute; reflexivity|]); vm_compute; reflexivity|].
  split; [econstructor; [vm_compute; reflexivity|constructor]|]. split; [vm_compute; reflexivity|].
  split; [eexists; split; [vm_compute; reflexivity|is_held]|].
  split; [split; [do 3 eexists; split; [vm_compute; reflexivity|has_vars]|do 2 eexists; split; vm_compute; reflexivity]|].
  split; [eexists; split; vm_compute; reflexivity|]. split; [repeat constructor|]. split; [exact I|].
  split; [do 4 eexists; split; [vm_compute; reflexivity|split; [vm_compute; reflexivity|split; vm_compute; reflexivity]]|]. vm_compute. reflexivity.
Qed.

(** [return f()] fails an assertion; if [f] is a lambda that is an expression, or a class, the value is lost. *)
Theorem C49_returning_a_call_refuted :
  outcome_of [fn "g" [] [ret_ (num "1")]; fn "f" [] [ret_ (call "g" [])]; SPrint (call "f" [])] = Died /\
  outcome_of [fn "f" [lit "v"] [ret_ (method (id "v") "len" [])]; SPrint (call "f" [EVec [num "1"]])] = Died /\
  shows (outcome_of [let_to "h" (fn1 "y" (bin (id "y") "+" (num "1"))); fn "f" [] [ret_ (call "h" [num "1"])]; SPrint (call "f" [])]) [lit "<none>"] /\
  shows (outcome_of [SClass false (lit "K") [] []; fn "f" [] [ret_ (call "K" [])]; SPrint (call "f" [])]) [lit "<none>"].
Proof. split; [vm_compute; reflexivity|]. split; [vm_compute; reflexivity|]. split; eexists; split; vm_compute; reflexivity. Qed.
Print Assumptions C49_returning_a_call_refuted.

(** Classes declared after a return are initialised; a call there makes the function forget that it has returned. *)
Theorem C49_statements_after_return_refuted :
  shows (outcome_of [fn "g" [] [ret_ (num "7")];
    fn "f" [] [ret_ (num "1"); SClass false (lit "C") [] [SLet true (lit "x") (Some (call "g" []))]; SPrint (str "after")];
    SPrint (call "f" [])]) [lit "after"; lit "<none>"].
Proof. eexists. split; vm_compute; reflexivity. Qed.
Print Assumptions C49_statements_after_return_refuted.
