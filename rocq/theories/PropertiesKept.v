(** * C59: what a build needs of a script is still there when the script has ended. *)

From Coq Require Import ZArith Arith Ascii String Lia Bool List.
From Verif Require Import Base BuildStep Build Plan FlAst FlState FlInterp Bob SpecBob Project SpecSafe SpecKept KeptProofs PropertiesProject PropertiesSettled.
Import ListNotations.
Local Open Scope nat_scope.

(** The script has ended. Then neither the steps it asked for, nor its install map, nor its run vector have a string in them that has been freed. [allowed] says what
    may be in scripts and imported files, [needed] which results of linking have to be kept. *)
Definition kept_claim (allowed : list stmt -> Prop) (needed : st bob -> addr -> Prop) : Prop :=
  forall sg out listing pow exists_ files n prefix ss s,
  (forall p ss', files p = File ss' -> allowed ss') -> allowed ss ->
  setup sg out listing pow exists_ files n prefix ss = Ret tt s ->
  (forall k d v r, In (ALink k d v r) (b_asked (host s)) -> needed s r) ->
  project_steps s <> Undef UFreedStr /\ install_var s <> Undef UFreedStr /\ run_vector s <> Undef UFreedStr.

(** False of steps whose result isn't kept, even of scripts without assignments:
    [import bob; Linker([]).link(Cc([]).compile(["a.c"]))] frees the name of the program before the build begins. The full claim is that of all scripts, nothing having to be kept. *)
Definition set_up (ss : list stmt) : FlState.out bob unit := setup true (lit ".bob") few (fun _ _ => None) bob_exists bob_text 40 (lit "/usr/local") ss.
Definition ended (ss : list stmt) : st bob := match set_up ss with Ret _ s => s | _ => blank [] fresh_bob end.
Definition compiled : expr := tcall (ECall (tid "Cc") [EVec []]) "compile" [EVec [tstr "a.c"]].
Definition linked : expr := tcall (ECall (tid "Linker") [EVec []]) "link" [compiled].
Definition discards : list stmt := [import_bob; SExpr linked].
Definition discarded : st bob := Eval vm_compute in ended discards.
Example C59_program_name_freed : setup true (lit ".bob") few (fun _ _ => None) bob_exists bob_text 40 (lit "/usr/local") discards = Ret tt discarded /\ project_steps discarded = Undef UFreedStr.
Proof. split; vm_compute; reflexivity. Qed.
Lemma discards_nothing : assigns_carefully discards /\ forall p ss, bob_text p = File ss -> assigns_carefully ss.
Proof. split; [vm_compute; reflexivity|]. intros p ss. unfold bob_text. destruct (bob_exists p); [|discriminate]. intro Q. injection Q as <-. vm_compute. reflexivity. Qed.
Theorem C59_still_there_refuted : ~ kept_claim assigns_carefully (fun _ _ => True).
Proof.
  intro K. destruct discards_nothing as (D & B). destruct C59_program_name_freed as (Q & F).
  destruct (K true (lit ".bob") few (fun _ _ => None) bob_exists bob_text 40 (lit "/usr/local") discards discarded B D Q (fun _ _ _ _ _ => I)) as (S0 & _). exact (S0 F).
Qed.
Print Assumptions C59_still_there_refuted.

(** True of scripts whose functions, lambdas and classes assign to nothing and import nothing, and that assign to no element, if what linking gave is, when the script
    has ended, in a variable, a vector or a map. What compiling gave needn't be kept. Missing: scripts with assignments in functions or to elements. *)
Theorem C59_still_there_partial : kept_claim assigns_carefully kept.
Proof. unfold kept_claim. exact still_there. Qed.
Print Assumptions C59_still_there_partial.

(** [import bob; Cc([]).compile(["b.c"]); install = {Linker([]).link(Cc([]).compile(["a.c"])): "bin/a"}; let two = Linker([]).link(...); run = ["a"]]: an object not
    kept, a program kept in a map, and one in a variable. *)
Definition keeps : list stmt := [
  import_bob; SExpr (tcall (ECall (tid "Cc") [EVec []]) "compile" [EVec [tstr "b.c"]]);
  tset "install" (EMap [(linked, tstr "bin/a")]); tlet "two" linked; tset "run" (EVec [tstr "a"])].
Definition kept_state : st bob := Eval vm_compute in ended keeps.
Definition keptb (s : st bob) (a : addr) : bool :=
  (match top_vars s with Ret vs _ => existsb (fun v => match v_val v with Some b => Nat.eqb b a | None => false end) vs | _ => false end) ||
  existsb (fun c => match c_val c with PMap kvs => existsb (fun kv => Nat.eqb (fst kv) a) kvs | _ => false end) (cells s).
Lemma keptb_kept s a : keptb s a = true -> kept s a.
Proof.
  unfold keptb. intro Q. apply orb_true_iff in Q as [Q|Q].
  - left. destruct (top_vars s) as [vs t| | | |] eqn:E; try discriminate. apply existsb_exists in Q as (v & J & Q). exists vs, t, v. split; [exact E|]. split; [exact J|].
    destruct (v_val v) as [b|]; [|discriminate]. apply Nat.eqb_eq in Q as ->. reflexivity.
  - right. apply existsb_exists in Q as (c & J & Q). apply In_nth_error in J as (x & J). exists x, c. split; [exact J|]. right. destruct (c_val c) as [| | | | |kvs| | ]; try discriminate.
    apply existsb_exists in Q as ((k, v) & Jk & Q). apply Nat.eqb_eq in Q. cbn in Q. exists kvs, k, v. auto.
Qed.
Example C59_nonvacuous :
  assigns_carefully keeps /\ set_up keeps = Ret tt kept_state /\ (forall k d v r, In (ALink k d v r) (b_asked (host kept_state)) -> kept kept_state r) /\
  length (b_asked (host kept_state)) = 5 /\ match project_steps kept_state with Ret (Ok bs) _ => length bs = 5 | _ => False end.
Proof.
  split; [vm_compute; reflexivity|]. split; [vm_compute; reflexivity|]. split; [|split; vm_compute; reflexivity].
  assert (B : forallb (fun x => match x with ALink _ _ _ r => keptb kept_state r | _ => true end) (b_asked (host kept_state)) = true) by (vm_compute; reflexivity).
  rewrite forallb_forall in B. intros k d v r J. exact (keptb_kept _ _ (B _ J)).
Qed.
