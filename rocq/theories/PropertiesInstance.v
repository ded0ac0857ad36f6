(** * C65: classes and instances in scripts. *)

From Coq Require Import ZArith Arith Ascii String Lia Bool List.
From Verif Require Import Base FlAst FlState FlInterp SpecFlamingo SpecScript SpecFrame SpecScope SpecImport SpecCall SpecEnd SpecInstance FlSeqProofs FlInstanceProofs PropertiesScript PropertiesScope.
Import ListNotations.
Local Open Scope nat_scope.

(** ** Reading members *)

(** [e.x] is the member [x] of the instance [e], *)
Theorem C65_member_of_instance : forall H (cf : conf H) n e s a s1 k i x j v b, evals cf n e s a s1 -> instance_at s1 a k i -> declares s1 x i j v -> v_static v = false ->
  v_val v = Some b -> live s1 b -> outcome cf (S n) (EAccess e x) s = Ret (Some b, Some a) (held b s1).
Proof. exact (@instance_member). Qed.
Print Assumptions C65_member_of_instance.
(** or the static member [x] of the class [e]. *)
Theorem C65_member_of_class : forall H (cf : conf H) n e s a s1 i x j v b, evals cf n e s a s1 -> class_with s1 a i -> declares s1 x i j v -> v_val v = Some b -> live s1 b ->
  outcome cf (S n) (EAccess e x) s = Ret (Some b, Some a) (held b s1).
Proof. exact (@class_member). Qed.
Print Assumptions C65_member_of_class.
(** Everything else is reported. *)
Theorem C65_no_member : forall H (cf : conf H) n e s a s1 k i x, evals cf n e s a s1 -> instance_at s1 a k i -> lacks s1 x i ->
  outcome cf (S n) (EAccess e x) s = reports cf (lit "member '" ++ cstr x ++ lit "' was never declared") s1.
Proof. exact (@instance_lacks). Qed.
Print Assumptions C65_no_member.
Theorem C65_static_through_instance : forall H (cf : conf H) n e s a s1 k i x j v, evals cf n e s a s1 -> instance_at s1 a k i -> declares s1 x i j v -> v_static v = true ->
  outcome cf (S n) (EAccess e x) s = reports cf (lit "member '" ++ cstr x ++ lit "' is static and can't be accessed through an instance") s1.
Proof. exact (@instance_static). Qed.
Print Assumptions C65_static_through_instance.
Theorem C65_no_static_member : forall H (cf : conf H) n e s a s1 i x, evals cf n e s a s1 -> class_with s1 a i -> lacks s1 x i ->
  outcome cf (S n) (EAccess e x) s = reports cf (lit "static member '" ++ cstr x ++ lit "' was never declared") s1.
Proof. exact (@class_lacks). Qed.
Print Assumptions C65_no_static_member.
Theorem C65_no_members_at_all : forall H (cf : conf H) n e s a s1 p x, evals cf n e s a s1 -> payload_at s1 a p -> no_members p -> not_built_in s1 p x ->
  outcome cf (S n) (EAccess e x) s = reports cf (lit "primitive type member '" ++ cstr x ++ lit "' doesn't exist on expression of type " ++ called p) s1.
Proof. exact (@other_lacks). Qed.
Print Assumptions C65_no_members_at_all.

(** ** Changing members *)

(** [e.x = v] changes the member [x] of the instance [e] and no other variable, of whatever scope: those of other instances included. *)
Theorem C65_assigning_changes_one_member : forall H (cf : conf H), tame cf -> releases_own cf -> forall n e x text e2 s s0 s' a k i j v b0, cur_rv s = None ->
  evals cf n e s a s0 -> instance_at s0 a k i -> declares s0 x i j v -> v_static v = false -> v_val v = Some b0 -> executes cf (S n) (SAssign (LAccess e x) text e2) s s' ->
  exists b s1 vs, evals cf n e2 s0 b s1 /\ nth_error (map sc_vars (scopes s1)) i = Some vs /\
  map sc_vars (scopes s') = upd i (upd j (Var x false (Some b)) vs) (map sc_vars (scopes s1)) /\
  vars s' i (upd j (Var x false (Some b)) vs) /\ j < length vs /\
  prints s' = prints s1 /\ envs s' = envs s1 /\ cur_env s' = cur_env s0 /\ (forall d p, payload_at s1 d p -> payload_at s' d p).
Proof. exact (@assign_member). Qed.
Print Assumptions C65_assigning_changes_one_member.
Theorem C65_assigning_changes_one_static_member : forall H (cf : conf H), tame cf -> releases_own cf -> forall n e x text e2 s s0 s' a i j v b0, cur_rv s = None ->
  evals cf n e s a s0 -> class_with s0 a i -> declares s0 x i j v -> v_val v = Some b0 -> executes cf (S n) (SAssign (LAccess e x) text e2) s s' ->
  exists b s1 vs, evals cf n e2 s0 b s1 /\ nth_error (map sc_vars (scopes s1)) i = Some vs /\
  map sc_vars (scopes s') = upd i (upd j (Var x (v_static v) (Some b)) vs) (map sc_vars (scopes s1)) /\
  vars s' i (upd j (Var x (v_static v) (Some b)) vs) /\ j < length vs /\
  prints s' = prints s1 /\ envs s' = envs s1 /\ cur_env s' = cur_env s0 /\ (forall d p, payload_at s1 d p -> payload_at s' d p).
Proof. exact (@assign_static). Qed.
Print Assumptions C65_assigning_changes_one_static_member.
Theorem C65_assigning_static_through_instance : forall H (cf : conf H) n e x text e2 s s1 a k i j v, cur_rv s = None -> evals cf n e s a s1 -> instance_at s1 a k i ->
  declares s1 x i j v -> v_static v = true ->
  r_stmt (interp cf (S n)) (SAssign (LAccess e x) text e2) s = reports cf (lit "member '" ++ cstr x ++ lit "' is static and can't be accessed through an instance") s1.
Proof. exact (@assign_static_through_instance). Qed.
Print Assumptions C65_assigning_static_through_instance.
Theorem C65_assigning_no_member : forall H (cf : conf H) n e x text e2 s s1 a k i, cur_rv s = None -> evals cf n e s a s1 -> instance_at s1 a k i -> lacks s1 x i ->
  r_stmt (interp cf (S n)) (SAssign (LAccess e x) text e2) s = reports cf (lit "member '" ++ cstr x ++ lit "' was never declared") s1.
Proof. exact (@assign_undeclared). Qed.
Print Assumptions C65_assigning_no_member.

(** ** New classes and instances *)

(** A declaration of a class makes, before anything of the class is run, a class with no static members in a scope of its own; those it has at the end are the ones declared with [static]. *)
Theorem C65_declaring_a_class : forall H (cf : conf H), tame cf -> forall n b x ps ss s s' i l, open s (i :: l) -> executes cf (S (S n)) (SClass b x ps ss) s s' ->
  exists t a f body sc j xs, declares t x i j (Var x b (Some a)) /\ payload_at t a (PFn f) /\ f_kind f = KClass /\ f_params f = ps /\
    f_body f = Some body /\ nth_error (bodies t) body = Some (Some (BBlock ss)) /\ f_scope f = Some sc /\ length (scopes s) <= sc /\ vars t sc [] /\
    prints t = prints s /\ host t = host s /\ statics ss xs /\ declares_names s' sc xs.
Proof. exact (@class_declared). Qed.
Print Assumptions C65_declaring_a_class.
(** Calling a class that isn't made something else meanwhile runs its body, with the parameters, in a new scope. The instance is a new value, made when the body has ended, whose members
    are what the body left in this scope. Then Bob is told about it. *)
Theorem C65_calling_a_class_partial : forall H (cf : conf H), tame cf -> forall n g args s fa acc s1 f1 as_ s2 f e l l' b ss a s',
  outcome cf (S (S n)) g s = Ret (Some fa, acc) s1 -> payload_at s1 fa (PFn f1) -> evals_each cf (S (S n)) args s1 as_ s2 ->
  callable s2 fa f e l -> f_kind f = KClass -> f_body f = Some b -> nth_error (bodies s2) b = Some (Some (BBlock ss)) ->
  around s2 l acc l' -> usable_in s2 l' -> length args = length (f_params f) -> Forall (fun a => a < length (cells s2)) as_ ->
  (forall t u u2, enters f e l' as_ s2 t -> opened t u -> exec cf n ss u = Ret tt u2 -> exists g, payload_at u2 fa (PFn g) /\ f_kind g = KClass) ->
  evals cf (S (S (S n))) (ECall g args) s a s' ->
  exists t u u2 v v', enters f e l' as_ s2 t /\ opened t u /\ exec cf n ss u = Ret tt u2 /\ becomes fa e l (S (length (scopes s2))) a s2 u2 v /\
  cf_inst cf a as_ v = Ret tt v' /\ s' = set_rv None v'.
Proof. exact (@class_called). Qed.
Print Assumptions C65_calling_a_class_partial.
(** What the body leaves there is what it declares itself, static or not, if nothing is returned. *)
Theorem C65_members_are_what_the_body_declares : forall H (cf : conf H), tame cf -> forall n ss u u2 t, opened t u -> cur_rv u = None -> Forall goes_on ss -> exec cf n ss u = Ret tt u2 ->
  exists xs, leaves cf (import_paths u) ss xs /\ declares_names u2 (length (scopes t)) xs.
Proof. exact (@class_names). Qed.
Print Assumptions C65_members_are_what_the_body_declares.

(** ** Static members

    Full statement: static members belong to the class; they are initialised once, and its methods see them. Both parts are false: the body of the class, static declarations included, is
    also run for each instance, whose methods see what came of that. *)
Definition class65 : stmt := SClass false (lit "K") [] [SLet true (lit "x") (Some (num "1")); fn "get" [] [ret_ (id "x")]].
Definition printed65 (ss : list stmt) : list bytes := match outcome_of ss with Ret _ s => prints s | _ => [] end.
Definition get65 (e : expr) : expr := ECall (EAccess e (lit "get")) [].
Theorem C65_methods_see_static_members_refuted :
  ~ (forall ss a b, printed65 ([class65] ++ ss ++ [SPrint (EAccess (id "K") (lit "x")); SPrint (get65 (call "K" []))]) = [a; b] -> a = b).
Proof.
  intro X. specialize (X [SAssign (LAccess (id "K") (lit "x")) (lit "K.x") (num "5")] (lit "5") (lit "1")). assert (A : lit "5" = lit "1") by (apply X; vm_compute; reflexivity). discriminate A.
Qed.
Print Assumptions C65_methods_see_static_members_refuted.
Definition init65 : list stmt := [fn "f" [] [SPrint (EStr (lit "once")); ret_ (num "1")]; SClass false (lit "K") [] [SLet true (lit "x") (Some (call "f" []))]].
Theorem C65_static_members_are_initialised_once_refuted : printed65 init65 = [lit "once"] /\ ~ (forall ss, printed65 (init65 ++ ss) = [lit "once"]).
Proof. split; [vm_compute; reflexivity|]. intro X. specialize (X [let_to "k" (call "K" [])]). vm_compute in X. discriminate X. Qed.
Print Assumptions C65_static_members_are_initialised_once_refuted.

(** After
<<
class C(a) {
	let b = a
	static let z = 9
	fn m() { return b }
}
let c = C(7)
let d = C(8)
>> *)
Definition k65 : stmt := SClass false (lit "C") [lit "a"] [let_to "b" (id "a"); SLet true (lit "z") (Some (num "9")); fn "m" [] [ret_ (id "b")]].
Definition s65 : st unit := Eval vm_compute in done [k65; let_to "c" (call "C" [num "7"]); let_to "d" (call "C" [num "8"])].
Definition after65 (e : expr) (s : st unit) : st unit := match outcome demo 9 e s with Ret _ s' => s' | _ => s end.
Definition at_c : st unit := Eval vm_compute in after65 (id "c") s65.
Definition at_C : st unit := Eval vm_compute in after65 (id "C") s65.
Definition at_5 : st unit := Eval vm_compute in after65 (num "5") s65.
Definition set_c : st unit := Eval vm_compute in then_ 10 (SAssign (LAccess (id "c") (lit "b")) (lit "c.b") (num "3")) s65.
Definition set_C : st unit := Eval vm_compute in then_ 10 (SAssign (LAccess (id "C") (lit "z")) (lit "C.z") (num "3")) s65.
Ltac is_at := eexists; split; vm_compute; reflexivity.
Example C65_members_case :
  evals demo 9 (id "c") s65 11 at_c /\ instance_at at_c 11 6 3 /\ declares at_c (lit "b") 3 0 (Var (lit "b") false (Some 8)) /\ live at_c 8 /\
  declares at_c (lit "z") 3 1 (Var (lit "z") true (Some 9)) /\ lacks at_c (lit "q") 3 /\
  evals demo 9 (id "C") s65 6 at_C /\ class_with at_C 6 1 /\ declares at_C (lit "z") 1 0 (Var (lit "z") true (Some 7)) /\ live at_C 7 /\ lacks at_C (lit "b") 1 /\
  evals demo 9 (num "5") s65 16 at_5 /\ (exists z, payload_at at_5 16 (PInt z) /\ no_members (PInt z) /\ not_built_in at_5 (PInt z) (lit "b")) /\
  cur_rv s65 = None /\ executes demo 10 (SAssign (LAccess (id "c") (lit "b")) (lit "c.b") (num "3")) s65 set_c /\
  executes demo 10 (SAssign (LAccess (id "C") (lit "z")) (lit "C.z") (num "3")) s65 set_C.
Proof.
  split; [eexists; vm_compute; reflexivity|]. split; [exists None; is_at|]. split; [eexists [], _; split; [has_vars|split; [reflexivity|split; [reflexivity|constructor]]]|].
  split; [eexists; split; [vm_compute; reflexivity|vm_compute; reflexivity]|].
  split. { eexists [_], _. split; [has_vars|]. split; [reflexivity|]. split; [reflexivity|]. constructor; [vm_compute; discriminate|constructor]. }
  split. { eexists. split; [has_vars|]. repeat constructor; vm_compute; discriminate. }
  split; [eexists; vm_compute; reflexivity|]. split; [eexists; split; [is_at|split; reflexivity]|]. split; [eexists [], _; split; [has_vars|split; [reflexivity|split; [reflexivity|constructor]]]|].
  split; [eexists; split; [vm_compute; reflexivity|vm_compute; reflexivity]|].
  split. { eexists. split; [has_vars|]. repeat constructor; vm_compute; discriminate. }
  split; [eexists; vm_compute; reflexivity|]. split. { eexists. split; [is_at|]. split; [exact Logic.I|]. repeat constructor; intros (Q & _); discriminate Q. }
  split; [reflexivity|]. split; vm_compute; reflexivity.
Qed.
(** A declaration of a class, and a call. *)
Definition decl65 : st unit := Eval vm_compute in then_ 9 k65 start.
Definition e65 : st unit := Eval vm_compute in after65 (num "7") (after65 (id "C") decl65).
Definition made65 : st unit := Eval vm_compute in match outcome demo 12 (call "C" [num "7"]) decl65 with Ret _ s => s | _ => decl65 end.
Definition f65 : fnval := Fn KClass [lit "a"] (Some 0) (Some 1) (Some 1).
Example C65_class_case : open start [0] /\ executes demo 9 k65 start decl65 /\
  outcome demo 11 (id "C") decl65 = Ret (Some 6, None) (after65 (id "C") decl65) /\ payload_at (after65 (id "C") decl65) 6 (PFn f65) /\
  evals_each demo 11 [num "7"] (after65 (id "C") decl65) [8] e65 /\ callable e65 6 f65 1 [0] /\ nth_error (bodies e65) 0 = Some (Some (BBlock
    [let_to "b" (id "a"); SLet true (lit "z") (Some (num "9")); fn "m" [] [ret_ (id "b")]])) /\
  around e65 [0] None [0] /\ usable_in e65 [0] /\ length [num "7"] = length (f_params f65) /\ Forall (fun a => a < length (cells e65)) [8] /\
  (exists a, evals demo 12 (call "C" [num "7"]) decl65 a made65) /\ Forall goes_on [let_to "b" (id "a"); SLet true (lit "z") (Some (num "9")); fn "m" [] [ret_ (id "b")]] /\
  statics [let_to "b" (id "a"); SLet true (lit "z") (Some (num "9")); fn "m" [] [ret_ (id "b")]] [lit "z"].
Proof.
  split; [vm_compute; reflexivity|]. split; [vm_compute; reflexivity|]. split; [vm_compute; reflexivity|]. split; [is_at|]. split; [econstructor; [eexists; vm_compute; reflexivity|constructor]|].
  split; [split; [is_at|split; [intros ? Q; discriminate Q|split; vm_compute; reflexivity]]|]. split; [vm_compute; reflexivity|]. split; [constructor|]. split; [exists 0, []; eexists; split; [reflexivity|has_vars]|].
  split; [reflexivity|]. split; [constructor; [vm_compute; lia|constructor]|]. split; [eexists; eexists; vm_compute; reflexivity|].
  split; [repeat constructor; discriminate|]. apply statics_other; try discriminate. apply statics_let. apply statics_other; try discriminate. constructor.
Qed.
(** What comes of them. *)
Example C65_nonvacuous :
  let said ss := match outcome_of ss with Fail s => err s | _ => None end in
  let two := [k65; let_to "c" (call "C" [num "7"]); let_to "d" (call "C" [num "8"])] in
  let of (x y : string) := EAccess (id x) (lit y) in
  printed65 (two ++ [SAssign (LAccess (id "c") (lit "b")) (lit "c.b") (num "3"); SPrint (of "c"%string "b"%string); SPrint (of "d"%string "b"%string); SPrint (of "C"%string "z"%string); SPrint (ECall (of "c"%string "m"%string) [])]) =
    [lit "3"; lit "8"; lit "9"; lit "3"] /\
  said (two ++ [SPrint (of "c"%string "a"%string)]) = Some (lit "demo:0:0: member 'a' was never declared") /\
  said (two ++ [SPrint (of "c"%string "z"%string)]) = Some (lit "demo:0:0: member 'z' is static and can't be accessed through an instance") /\
  said (two ++ [SPrint (of "C"%string "b"%string)]) = Some (lit "demo:0:0: static member 'b' was never declared") /\
  said (two ++ [SPrint (EAccess (num "5") (lit "b"))]) = Some (lit "demo:0:0: primitive type member 'b' doesn't exist on expression of type integer") /\
  printed65 (init65 ++ [let_to "k" (call "K" []); let_to "l" (call "K" [])]) = [lit "once"; lit "once"; lit "once"].
Proof. vm_compute. repeat split; reflexivity. Qed.
