(** * C50: scripts never use memory that has been freed. *)

From Coq Require Import ZArith Arith Ascii String Lia Bool List.
From Verif Require Import Base FlAst FlState FlInterp Bob SpecBob Project SpecSafe SafeProofs PropertiesProject PropertiesSettled.
Import ListNotations.
Local Open Scope nat_scope.

(** However long a script runs and whatever it imports, it doesn't end in one of the [wrong] uses of freed memory. [allowed] says what may be in scripts and imported files. *)
Definition safe_claim (allowed : list stmt -> Prop) (wrong : ub -> Prop) : Prop :=
  forall sg out listing pow exists_ files n dirs ss u,
  (forall p ss', files p = File ss' -> allowed ss') -> allowed ss ->
  run (bob_conf sg out listing pow exists_ files) n dirs fresh_bob ss = Undef u -> ~ wrong u.

(** False of all scripts. The full claim is [safe_claim (fun _ => True) uses_freed]. *)
Lemma refuted_by ss u : begun ss = Undef u -> uses_freed u -> ~ safe_claim (fun _ => True) uses_freed.
Proof. intros Q U K. exact (K true (lit ".bob") few (fun _ _ => None) bob_exists bob_text 40 dirs ss u (fun _ _ _ => I) I Q U). Qed.
(** [let v = ["a"]; v.map(|x| { x = "b"; return x }); print v]: [map] gives its function the elements themselves; assigning to the parameter frees them. *)
Definition frees_element : list stmt := [
  tlet "v" (EVec [tstr "a"]); SExpr (tcall (tid "v") "map" [ELambda [lit "x"] (BBlock [tset "x" (tstr "b"); SReturn (Some (tid "x"))])]); SPrint (tid "v")].
Example C50_element_freed : begun frees_element = Undef UFreedStr.
Proof. vm_compute. reflexivity. Qed.
(** [let x = "a"; let y = [x]; fn f() { x = "b"; return "c" }; x = f(); print y]: the assignment releases what [x] had before [f] was called, which [f] released too. *)
Definition assigns_twice : list stmt := [
  tlet "x" (tstr "a"); tlet "y" (EVec [tid "x"]); SFun false (lit "f") [] [tset "x" (tstr "b"); SReturn (Some (tstr "c"))]; tset "x" (ECall (tid "f") []); SPrint (tid "y")].
Example C50_old_value_freed_twice : begun assigns_twice = Undef UFreedStr.
Proof. vm_compute. reflexivity. Qed.
(** [let v = ["a"]; let y = v[0]; v[0] = "new"; y = "z"; print v]: assigning to an element overwrites the value, which [y] has too, and [y] releases it. *)
Definition shares_element : list stmt := [
  tlet "v" (EVec [tstr "a"]); tlet "y" (EIndex (tid "v") (ENum (lit "0"))); put_first "v" (tstr "new"); tset "y" (tstr "z"); SPrint (tid "v")].
Example C50_shared_element_freed : begun shares_element = Undef UFreedStr.
Proof. vm_compute. reflexivity. Qed.
(** [let g; class C() { fn m() { return q } g = m }; let o = C(); o = none; print g()]: the function looks for [q] among the members of an instance that is gone. *)
Definition outlives_instance : list stmt := [
  SLet false (lit "g") None; SClass false (lit "C") [] [SFun false (lit "m") [] [SReturn (Some (tid "q"))]; tset "g" (tid "m")];
  tlet "o" (ECall (tid "C") []); tset "o" ENone; SPrint (ECall (tid "g") [])].
Example C50_method_outlives_instance : begun outlives_instance = Undef UFreedScope.
Proof. vm_compute. reflexivity. Qed.
Theorem C50_use_after_free_refuted : ~ safe_claim (fun _ => True) uses_freed.
Proof. exact (refuted_by frees_element UFreedStr C50_element_freed (or_introl eq_refl)). Qed.
Print Assumptions C50_use_after_free_refuted.

(** True of all scripts whose functions, lambdas and classes assign to nothing and import nothing, and that assign to no element of a vector or map:
    they use no freed string and no freed function, and free nothing twice. Such scripts may assign to variables and members, call anything, and ask bob for anything.
    Missing: that no function is called after the instance it is a method of is freed ([UFreedScope]). *)
Theorem C50_no_use_after_free_partial : safe_claim assigns_carefully (fun u => u = UFreedStr \/ u = UFreedBody \/ u = UDoubleFree).
Proof. exact careful_scripts_are_safe. Qed.
Print Assumptions C50_no_use_after_free_partial.

(** The script that comes with bob and bob's own build script are such scripts, *)
Example C50_bob_is_careful : assigns_carefully bob_fl /\ assigns_carefully bob_build_fl.
Proof. split; vm_compute; reflexivity. Qed.
(** and so is one that replaces values while others have them, drops instances and functions, and calls functions of functions. None of the refutations is. *)
Definition replaces : list stmt := [
  import_bob; tlet "x" (tstr "a"); tlet "y" (EVec [tid "x"; tid "x"]); tset "x" (tstr "b"); tset "y" (tcall (tid "y") "map" [ELambda [lit "e"] (BExpr (EBin (tid "e") (lit "+") (tid "x")))]);
  SFun false (lit "twice") [lit "f"; lit "z"] [tlet "r" (ECall (tid "f") [ECall (tid "f") [tid "z"]]); SReturn (Some (tid "r"))];
  tlet "g" (EVec [ELambda [lit "e"] (BExpr (EBin (tid "e") (lit "+") (tstr "!")))]); tset "x" (ECall (tid "twice") [EIndex (tid "g") (ENum (lit "0")); tid "x"]); tset "g" (EVec []);
  tlet "c" (ECall (tid "Cc") [EVec []]); tset "c" ENone; SPrint (EBin (tid "y") (lit "+") (EVec [tid "x"]))].
Example C50_replaces_is_careful : assigns_carefully replaces /\ match begun replaces with Ret _ s => map string_of_list_ascii (prints s) = ["[""ab"", ""ab"", ""b!!""]"%string] | _ => False end.
Proof. split; vm_compute; reflexivity. Qed.
Example C50_refutations_are_not_careful : map (forallb (still_stmt true)) [frees_element; assigns_twice; shares_element; outlives_instance] = [false; false; false; false].
Proof. vm_compute. reflexivity. Qed.
