(** * C61: calls in scripts. *)

From Coq Require Import ZArith Arith Ascii String Lia Bool List.
From Verif Require Import Base FlAst FlState FlInterp SpecFlamingo SpecScript SpecFrame SpecScope SpecImport SpecCall FlScopeProofs FlCallProofs PropertiesScript PropertiesScope.
Import ListNotations.
Local Open Scope nat_scope.

(** Calling something other than a function is reported. *)
Theorem C61_only_functions_are_called : forall H (cf : conf H) n g args s a acc s1 p, outcome cf n g s = Ret (Some a, acc) s1 -> payload_at s1 a p -> (forall f, p <> PFn f) ->
  outcome cf (S n) (ECall g args) s = reports cf (lit "callable expression is of type " ++ type_str p ++ lit ", which is not callable") s1.
Proof. exact (@call_not). Qed.
Print Assumptions C61_only_functions_are_called.

(** The function and the arguments are evaluated one after the other; if one can't be, that is what comes of the call. *)
Theorem C61_arguments_are_evaluated_in_order : forall H (cf : conf H) n g before x after s fa acc s1 f1 as_ s2 o,
  outcome cf n g s = Ret (Some fa, acc) s1 -> payload_at s1 fa (PFn f1) -> evals_each cf n before s1 as_ s2 ->
  outcome cf n x s2 = o -> (forall r t, o <> Ret r t) -> outcome cf (S n) (ECall g (before ++ x :: after)) s = o.
Proof. exact (@call_argument). Qed.
Print Assumptions C61_arguments_are_evaluated_in_order.

(** Too many or too few arguments are reported, and nothing of the function has been done then. *)
Theorem C61_wrong_number_of_arguments_is_reported : forall H (cf : conf H) n g args s fa acc s1 f1 as_ s2 f e l l',
  outcome cf (S n) g s = Ret (Some fa, acc) s1 -> payload_at s1 fa (PFn f1) -> evals_each cf (S n) args s1 as_ s2 ->
  callable s2 fa f e l -> around s2 l acc l' -> usable_in s2 l' -> length args <> length (f_params f) ->
  exists t, cells t = cells s2 /\ bufs t = bufs s2 /\ bodies t = bodies s2 /\ prints t = prints s2 /\ host t = host s2 /\ err t = err s2 /\
  outcome cf (S (S n)) (ECall g args) s = reports cf (lit "callable expected " ++ dec_n (length (f_params f)) ++ lit " arguments, got " ++ dec_n (length args) ++ lit " instead") t.
Proof. exact (@call_miscounted). Qed.
Print Assumptions C61_wrong_number_of_arguments_is_reported.

(** Otherwise the body is run, in a scope with the parameters, and the call comes to what that comes to. First for functions that are expressions, then for blocks. *)
Theorem C61_calls_come_to_their_expression : forall H (cf : conf H), tame cf -> forall n g args s fa acc s1 f1 as_ s2 f e l l' b x,
  outcome cf (S n) g s = Ret (Some fa, acc) s1 -> payload_at s1 fa (PFn f1) -> evals_each cf (S n) args s1 as_ s2 ->
  callable s2 fa f e l -> f_kind f = KFun -> f_body f = Some b -> nth_error (bodies s2) b = Some (Some (BExpr x)) ->
  around s2 l acc l' -> usable_in s2 l' -> length args = length (f_params f) -> Forall (fun a => a < length (cells s2)) as_ ->
  exists t, enters f e l' as_ s2 t /\ outcome cf (S (S n)) (ECall g args) s = expression_ends (comes_back e l s2) (outcome cf n x t).
Proof. exact (@call_expression). Qed.
Print Assumptions C61_calls_come_to_their_expression.

Theorem C61_calls_run_their_block : forall H (cf : conf H), tame cf -> forall n g args s fa acc s1 f1 as_ s2 f e l l' b ss,
  outcome cf (S (S n)) g s = Ret (Some fa, acc) s1 -> payload_at s1 fa (PFn f1) -> evals_each cf (S (S n)) args s1 as_ s2 ->
  callable s2 fa f e l -> f_kind f = KFun -> f_body f = Some b -> nth_error (bodies s2) b = Some (Some (BBlock ss)) ->
  around s2 l acc l' -> usable_in s2 l' -> length args = length (f_params f) -> Forall (fun a => a < length (cells s2)) as_ ->
  exists t u, enters f e l' as_ s2 t /\ opened t u /\
  ((forall u2, exec cf n ss u = Ret tt u2 -> exists g, payload_at u2 fa (PFn g) /\ f_kind g = KFun) ->
   outcome cf (S (S (S n))) (ECall g args) s = block_ends (comes_back e l s2) (exec cf n ss u)).
Proof. exact (@call_block). Qed.
Print Assumptions C61_calls_run_their_block.

(** In the body, each parameter denotes the argument in its place. (If two have the same name, the first.) *)
Theorem C61_parameters_are_the_arguments : forall H (f : fnval) e l args (s t : st H) j x a, nth_error (envs s) e <> None -> enters f e l args s t ->
  nth_error (f_params f) j = Some x -> (forall i, i < j -> nth_error (f_params f) i <> Some x) -> nth_error args j = Some a -> names t x (length (scopes s)) j (Var x false (Some a)).
Proof. exact (@enters_parameter). Qed.
Print Assumptions C61_parameters_are_the_arguments.

(** Other names denote what they do where the function was declared. Missing from the full statement: calls of a function from itself (refuted below). *)
Theorem C61_functions_see_their_surroundings_partial : forall H (cf : conf H), tame cf -> forall n b x ps ss s0 s1, well_scoped s0 ->
  executes cf (S (S n)) (SFun b x ps ss) s0 s1 -> sees cf s0 s1.
Proof. exact (@function_sees). Qed.
Print Assumptions C61_functions_see_their_surroundings_partial.
Theorem C61_lambdas_see_their_surroundings_partial : forall H (cf : conf H), tame cf -> forall n ps b s0 a s1, well_scoped s0 ->
  evals cf (S n) (ELambda ps b) s0 a s1 -> sees cf s0 s1.
Proof. exact (@lambda_sees). Qed.
Print Assumptions C61_lambdas_see_their_surroundings_partial.

(** After
<<
let y = 1
fn f(x) { return x + y }
let g = |x| x + y
let k = 5
>> *)
Definition s61 : st unit := Eval vm_compute in
  done [let_to "y" (num "1"); fn "f" [lit "x"] [ret_ (bin (id "x") "+" (id "y"))]; let_to "g" (fn1 "x" (bin (id "x") "+" (id "y"))); let_to "k" (num "5")].
Definition after61 (e : expr) (s : st unit) : st unit := match outcome demo 9 e s with Ret _ s' => s' | _ => s end.
Definition at_f : st unit := Eval vm_compute in after61 (id "f") s61.
Definition at_f4 : st unit := Eval vm_compute in after61 (num "4") at_f.
Definition at_g : st unit := Eval vm_compute in after61 (id "g") s61.
Definition at_g4 : st unit := Eval vm_compute in after61 (num "4") at_g.
Definition f61 : fnval := Fn KFun [lit "x"] (Some 0) (Some 1) None.
Definition g61 : fnval := Fn KFun [lit "x"] (Some 1) (Some 2) None.
Ltac is_at := eexists; split; vm_compute; reflexivity.
Ltac is_callable := split; [is_at|split; [intros ? Q; discriminate Q|split; vm_compute; reflexivity]].
Example C61_calls_case :
  outcome demo 9 (id "f") s61 = Ret (Some 7, None) at_f /\ payload_at at_f 7 (PFn f61) /\ evals_each demo 9 [num "4"] at_f [10] at_f4 /\ callable at_f4 7 f61 1 [0] /\
  nth_error (bodies at_f4) 0 = Some (Some (BBlock [ret_ (bin (id "x") "+" (id "y"))])) /\
  outcome demo 9 (id "g") s61 = Ret (Some 8, None) at_g /\ payload_at at_g 8 (PFn g61) /\ evals_each demo 9 [num "4"] at_g [10] at_g4 /\ callable at_g4 8 g61 2 [0] /\
  nth_error (bodies at_g4) 1 = Some (Some (BExpr (bin (id "x") "+" (id "y")))) /\
  around at_f4 [0] None [0] /\ usable_in at_f4 [0] /\ usable_in at_g4 [0] /\ length [num "4"] = length (f_params f61) /\ Forall (fun a => a < length (cells at_f4)) [10].
Proof.
  assert (E1 : evals_each demo 9 [num "4"] at_f [10] at_f4) by (econstructor; [eexists; vm_compute; reflexivity|constructor]).
  assert (E2 : evals_each demo 9 [num "4"] at_g [10] at_g4) by (econstructor; [eexists; vm_compute; reflexivity|constructor]).
  split; [vm_compute; reflexivity|]. split; [is_at|]. split; [exact E1|]. split; [is_callable|]. split; [vm_compute; reflexivity|].
  split; [vm_compute; reflexivity|]. split; [is_at|]. split; [exact E2|]. split; [is_callable|]. split; [vm_compute; reflexivity|].
  split; [constructor|]. split; [exists 0, []; eexists; split; [reflexivity|has_vars]|]. split; [exists 0, []; eexists; split; [reflexivity|has_vars]|]. split; [reflexivity|].
  constructor; [vm_compute; lia|constructor].
Qed.
(** Methods have their instance around them: [class C(a) { fn m() { return a } }], [C(7).m()]. *)
Definition i61 : st unit := Eval vm_compute in done [SClass false (lit "C") [lit "a"] [let_to "b" (id "a"); fn "m" [] [ret_ (id "b")]]; let_to "c" (call "C" [num "7"])].
Definition at_m : st unit := Eval vm_compute in after61 (EAccess (id "c") (lit "m")) i61.
Example C61_method_case : exists fa x f e l i, outcome demo 9 (EAccess (id "c") (lit "m")) i61 = Ret (Some fa, Some x) at_m /\ callable at_m fa f e l /\ around at_m l (Some x) (i :: l) /\ usable_in at_m (i :: l).
Proof.
  do 5 eexists. exists 3. split; [vm_compute; reflexivity|]. split; [split; [eexists; split; [vm_compute; reflexivity|reflexivity]|split; [intros ? Q; discriminate Q|split; vm_compute; reflexivity]]|].
  split; [eapply around_inst; eexists; split; vm_compute; reflexivity|]. do 3 eexists. split; [reflexivity|has_vars].
Qed.
(** What comes of them. *)
Example C61_nonvacuous :
  let said o := match o : out unit unit with Fail s => err s | _ => None end in
  let printed o := match o : out unit unit with Ret _ s => prints s | _ => [] end in
  let f := fn "f" [lit "x"] [ret_ (bin (id "x") "+" (id "y"))] in
  printed (outcome_of [let_to "y" (num "1"); f; SBlock [let_to "y" (num "9"); SPrint (call "f" [num "4"])]]) = [lit "5"] /\
  said (outcome_of [f; SExpr (call "f" [num "4"; num "5"])]) = Some (lit "demo:0:0: callable expected 1 arguments, got 2 instead") /\
  said (outcome_of [let_to "k" (num "5"); SExpr (call "k" [])]) = Some (lit "demo:0:0: callable expression is of type integer, which is not callable") /\
  said (outcome_of [f; SBlock [let_to "y" (num "9"); SPrint (call "f" [num "4"])]]) = Some (lit "demo:0:0: could not find identifier: y").
Proof. vm_compute. repeat split; reflexivity. Qed.
(** A call in a block, after the declaration. *)
Definition d61 : st unit := Eval vm_compute in done [let_to "y" (num "1")].
Definition e61 : st unit := Eval vm_compute in then_ 9 (fn "f" [lit "x"] [ret_ (bin (id "x") "+" (id "y"))]) d61.
Definition b61 : st unit := Eval vm_compute in match push_scope e61 with Ret _ s => s | _ => e61 end.
Definition c61 : st unit := Eval vm_compute in then_ 9 (let_to "y" (num "9")) b61.
Definition t61 : st unit := Eval vm_compute in
  match (modify (set_body (Some 0)) ;; modify (set_env 1) ;; i <- push_scope ;; add_args i [lit "x"] [8])%fl c61 with Ret _ s => s | _ => c61 end.
Example C61_later_case : well_scoped d61 /\ executes demo 9 (fn "f" [lit "x"] [ret_ (bin (id "x") "+" (id "y"))]) d61 e61 /\ later demo (length (envs d61)) e61 c61 /\
  callable c61 7 f61 (length (envs d61)) [0] /\ enters f61 (length (envs d61)) [0] [8] c61 t61 /\ ~ In (lit "y") (f_params f61).
Proof.
  split; [exists [0]; split; [vm_compute; reflexivity|constructor; [vm_compute; lia|constructor]]|]. split; [vm_compute; reflexivity|].
  split. { eapply (later_statement _ _ _ 9 (let_to "y" (num "9")) b61 c61 1 [0]); [|vm_compute; reflexivity|vm_compute; reflexivity].
    eapply later_block; [apply later_now|vm_compute; discriminate|]. exists 0, []. eexists. split; [vm_compute; reflexivity|]. split; [vm_compute; reflexivity|]. split; [reflexivity|vm_compute; reflexivity]. }
  split; [is_callable|]. split; [unfold enters; vm_compute; repeat split; reflexivity|]. intros [Q|[]]. discriminate Q.
Qed.

(** Full statement: a name in a function denotes what it denotes where the function was declared. When a function calls itself, the inner call sees the variables of the outer
    one: with [fn f(p) { p[0].map(|_| y); let y = 1; p[1].map(f) }], the call [f([[1], []])] fails as there is no [y], but within [f([[], [[[1], []]]])] it doesn't. *)
Definition ended (o : out unit unit) : bool := match o with Ret _ _ => true | _ => false end.
Definition element (i : string) : expr := EIndex (id "p") (num i).
Definition again61 : stmt := SExpr (ECall (EAccess (element "1") (lit "map")) [id "f"]).
Theorem C61_recursive_calls_see_only_their_surroundings_refuted :
  ~ (forall ss arg, ended (outcome_of [fn "f" [lit "p"] (ss ++ [again61]); SExpr (call "f" [arg])]) = false ->
     ended (outcome_of [fn "f" [lit "p"] (ss ++ [again61]); SExpr (call "f" [EVec [EVec []; EVec [arg]]])]) = false).
Proof.
  intro X. specialize (X [SExpr (ECall (EAccess (element "0") (lit "map")) [fn1 "u" (id "y")]); let_to "y" (num "1")] (EVec [EVec [num "1"]; EVec []])).
  assert (A : ended (outcome_of [fn "f" [lit "p"] ([SExpr (ECall (EAccess (element "0") (lit "map")) [fn1 "u" (id "y")]); let_to "y" (num "1")] ++ [again61]);
    SExpr (call "f" [EVec [EVec []; EVec [EVec [EVec [num "1"]; EVec []]]]])]) = true) by (vm_compute; reflexivity).
  rewrite X in A; [discriminate|]. vm_compute. reflexivity.
Qed.
Print Assumptions C61_recursive_calls_see_only_their_surroundings_refuted.
