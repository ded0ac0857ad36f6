(** * C57: what a build step is asked to do is settled when it is asked for. *)

From Coq Require Import ZArith Arith Ascii String Lia Bool List.
From Verif Require Import Base BuildStep Build Plan FlAst FlState FlInterp Bob SpecBob Project SpecSettled SettledProofs PropertiesProject.
Import ListNotations.
Local Open Scope nat_scope.

(** [ss1] ran; [rs] are the steps it asked for, as they would be done if the build began now. [ss2] ran after it. The steps now begin with the same ones.
    [allowed] says what may be in scripts and imported files. *)
Definition settled_claim (allowed : list stmt -> Prop) : Prop :=
  forall sg out listing pow exists_ files n dirs ss1 ss2 s s' rs t rs' t',
  (forall p ss, files p = File ss -> allowed ss) -> allowed ss1 -> allowed ss2 ->
  run (bob_conf sg out listing pow exists_ files) n dirs fresh_bob ss1 = Ret tt s -> exec (bob_conf sg out listing pow exists_ files) n ss2 s = Ret tt s' ->
  requests 0 (b_asked (host s)) s = Ret rs t -> requests 0 (b_asked (host s')) s' = Ret rs' t' ->
  exists later, rs' = rs ++ later.

(** False of all scripts: steps hold on to the vectors they were given and read them when the build begins. The full claim is [settled_claim] of all scripts. *)
Definition cfg : conf bob := bob_conf true (lit ".bob") few (fun _ _ => None) bob_exists bob_text.
Definition dirs : list bytes := import_dirs (lit "/usr/local").
Definition begun (ss : list stmt) : FlState.out bob unit := run cfg 40 dirs fresh_bob ss.
Definition steps_now (o : FlState.out bob unit) : option (list (request step_cb Plan.payload)) :=
  match o with Ret _ s => match requests 0 (b_asked (host s)) s with Ret rs _ => Some rs | _ => None end | _ => None end.
Definition put_first (x : string) (e : expr) : stmt := SAssign (LIndex (tid x) (ENum (lit "0"))) (lit x ++ lit "[0]") e.
(** [let src = ["a.c"]; let fl = ["-O0"]; let obj = Cc(fl).compile(src)] *)
Definition compile_a : list stmt := [
  import_bob; tlet "src" (EVec [tstr "a.c"]); tlet "fl" (EVec [tstr "-O0"]); tlet "obj" (tcall (ECall (tid "Cc") [tid "fl"]) "compile" [tid "src"])].
Definition obj_of (x : string) : bytes := cookie_of ".bob" x.
Definition compile_step (fl src obj : bytes) : list (request step_cb Plan.payload) :=
  [Req 2 (lit "C source file compilation") CbCompile (PCompile [Item [fl] src obj])].
Example compile_a_asks : steps_now (begun compile_a) = Some (compile_step (lit "-O0") (lit "a.c") (obj_of "a.c")).
Proof. vm_compute. reflexivity. Qed.
(** [src[0] = "b.c"] after it: b.c is compiled, into the object of a.c. *)
Example C57_source_changed : steps_now (begun (compile_a ++ [put_first "src" (tstr "b.c")])) = Some (compile_step (lit "-O0") (lit "b.c") (obj_of "a.c")).
Proof. vm_compute. reflexivity. Qed.
(** [fl[0] = "-O2"]: other flags. *)
Example C57_flags_changed : steps_now (begun (compile_a ++ [put_first "fl" (tstr "-O2")])) = Some (compile_step (lit "-O2") (lit "a.c") (obj_of "a.c")).
Proof. vm_compute. reflexivity. Qed.
(** [obj[0] = "a.c"]: the object goes over the source. *)
Example C57_object_changed : steps_now (begun (compile_a ++ [put_first "obj" (tstr "a.c")])) = Some (compile_step (lit "-O0") (lit "a.c") (lit "a.c")).
Proof. vm_compute. reflexivity. Qed.

Definition at_a : st bob := Eval vm_compute in match begun compile_a with Ret _ s => s | _ => blank [] fresh_bob end.
Definition at_b : st bob := Eval vm_compute in match exec cfg 40 [put_first "src" (tstr "b.c")] at_a with Ret _ s => s | _ => blank [] fresh_bob end.
Theorem C57_settled_refuted : ~ settled_claim (fun _ => True).
Proof.
  intro K. destruct (K true (lit ".bob") few (fun _ _ => None) bob_exists bob_text 40 dirs compile_a [put_first "src" (tstr "b.c")] at_a at_b
    (compile_step (lit "-O0") (lit "a.c") (obj_of "a.c")) at_a (compile_step (lit "-O0") (lit "b.c") (obj_of "a.c")) at_b) as (later & Q);
    try exact I; try (intros; exact I); try (vm_compute; reflexivity).
  vm_compute in Q. discriminate Q.
Qed.
Print Assumptions C57_settled_refuted.

(** True of all scripts without an assignment to an element, whatever else they do: assign to variables, call functions, ask for other steps, import files. *)
Theorem C57_settled_partial : settled_claim no_element_assignment.
Proof. unfold settled_claim. exact settled. Qed.
Print Assumptions C57_settled_partial.

(** [src = ["b.c"]; fl = ["-O2"]; let more = Cc(fl).compile(src); let cmd = Linker([]).link(obj + more)] *)
Definition goes_on : list stmt := [
  tset "src" (EVec [tstr "b.c"]); tset "fl" (EVec [tstr "-O2"]); tlet "more" (tcall (ECall (tid "Cc") [tid "fl"]) "compile" [tid "src"]);
  tlet "cmd" (tcall (ECall (tid "Linker") [EVec []]) "link" [EBin (tid "obj") (lit "+") (tid "more")])].
Example C57_nonvacuous :
  no_element_assignment compile_a /\ no_element_assignment goes_on /\ (forall p ss, bob_text p = FlInterp.File ss -> no_element_assignment ss) /\
  steps_now (begun compile_a) = Some (compile_step (lit "-O0") (lit "a.c") (obj_of "a.c")) /\
  exists l, steps_now (begun (compile_a ++ goes_on)) = Some (compile_step (lit "-O0") (lit "a.c") (obj_of "a.c") ++
    [Req 4 (lit "C source file compilation") CbCompile (PCompile [Item [lit "-O2"] (lit "b.c") (obj_of "b.c")]); l]).
Proof.
  split; [reflexivity|]. split; [reflexivity|]. split.
  - intros p ss Q. unfold bob_text in Q. destruct (bob_exists p); [|discriminate]. injection Q as <-. reflexivity.
  - split; [vm_compute; reflexivity|]. eexists. vm_compute. reflexivity.
Qed.
