(** * C62, C63: what scripts print and check. *)

From Coq Require Import ZArith Arith Ascii String Lia Bool List.
From Verif Require Import Base FlAst FlState FlInterp SpecFlamingo SpecScript SpecScope SpecPrint FlReturnProofs FlPrintProofs PropertiesScript PropertiesScope.
Import ListNotations.
Local Open Scope nat_scope.

(** ** C62: [print]

    Printing a value without functions and instances adds one line, the value's, to what has been printed once the expression has been evaluated, and does nothing else.
    Missing from the full statement: with the values [written] does not cover, two lines can be the same (below), and some are never printed (below). *)
Theorem C62_print_writes_the_value_partial : forall H (cf : conf H) n e s a s1 v, cur_rv s = None -> evals cf n e s a s1 -> holds s1 v a -> printable v -> depth v < n ->
  exists l s', line v l /\ executes cf (S n) (SPrint e) s s' /\ prints_only [l] s1 s'.
Proof. exact (@print_line). Qed.
Print Assumptions C62_print_writes_the_value_partial.

(** If it can't be evaluated, nothing is printed. *)
Theorem C62_nothing_is_printed_otherwise : forall H (cf : conf H) n e s t, cur_rv s = None -> outcome cf n e s = Fail t -> r_stmt (interp cf (S n)) (SPrint e) s = Fail t.
Proof. exact (@print_fails). Qed.
Print Assumptions C62_nothing_is_printed_otherwise.

(** Functions, classes and instances are printed by name. *)
Theorem C62_functions_are_printed_by_name : forall H (cf : conf H), releases_own cf -> forall n e s a s1 f x, cur_rv s = None -> evals cf (S n) e s a s1 -> payload_at s1 a (PFn f) ->
  called s1 a x -> x <> [] ->
  (forall s', executes cf (S (S n)) (SPrint e) s s' -> prints_only [lit "<" ++ type_name (DFn f) ++ lit " " ++ x ++ lit ">"] s1 s') /\
  (forall t, r_stmt (interp cf (S (S n))) (SPrint e) s <> Fail t).
Proof. exact (@print_function). Qed.
Print Assumptions C62_functions_are_printed_by_name.
(** Those without a name, or with the empty one, all look the same. *)
Theorem C62_functions_without_a_name : forall H (cf : conf H), releases_own cf -> forall n e s a s1 f c, cur_rv s = None -> evals cf (S n) e s a s1 ->
  nth_error (cells s1) a = Some c -> c_val c = PFn f -> c_name c = NNone \/ called s1 a [] ->
  (forall s', executes cf (S (S n)) (SPrint e) s s' -> prints_only [lit "<anonymous function>"] s1 s') /\
  (forall t, r_stmt (interp cf (S (S n))) (SPrint e) s <> Fail t).
Proof. exact (@print_anonymous). Qed.
Print Assumptions C62_functions_without_a_name.
Theorem C62_instances_are_printed_by_class : forall H (cf : conf H), releases_own cf -> forall n e s a s1 k i d x, cur_rv s = None -> evals cf (S n) e s a s1 -> payload_at s1 a (PInst k i d) ->
  called s1 k x ->
  (forall s', executes cf (S (S n)) (SPrint e) s s' -> prints_only [lit "<instance of " ++ x ++ lit ">"] s1 s') /\
  (forall t, r_stmt (interp cf (S (S n))) (SPrint e) s <> Fail t).
Proof. exact (@print_instance). Qed.
Print Assumptions C62_instances_are_printed_by_class.

(** Different values are written differently, strings with double quotes in them aside. *)
Theorem C62_different_values_are_written_differently : forall v w l, text v -> text w -> unquoted v -> unquoted w -> written v l -> written w l -> v = w.
Proof. exact written_once. Qed.
Print Assumptions C62_different_values_are_written_differently.

(** "Different values are printed differently" is false of the program: a string is printed without its quotes, and one inside of a vector with whatever quotes are in it. *)
Theorem C62_different_values_are_printed_differently_refuted :
  (exists e e' l, e <> e' /\ printed [SPrint e] = Some [l] /\ printed [SPrint e'] = Some [l] /\ ~ (exists b, printed [SPrint (bin e "==" e')] = Some b)) /\
  (exists x y l, x <> y /\ printed [SPrint (EVec x)] = Some [l] /\ printed [SPrint (EVec y)] = Some [l] /\ printed [SPrint (bin (EVec x) "==" (EVec y))] = Some [lit "false"]).
Proof.
  split.
  - exists (num "1"), (str "1"), (lit "1"). split; [discriminate|]. split; [vm_compute; reflexivity|]. split; [vm_compute; reflexivity|]. intros (b & E). vm_compute in E. discriminate.
  - exists [str "a"; str "b"], [str "a"", ""b"], (lit "[""a"", ""b""]"). split; [discriminate|]. repeat split; vm_compute; reflexivity.
Qed.
Print Assumptions C62_different_values_are_printed_differently_refuted.

(** "Every value can be printed" is false: a vector that is an element of itself is printed for ever, or rather until there is no more stack. *)
Definition snake : list stmt := [let_to "v" (EVec [ENone]); assign_at "v" (num "0") (id "v")].
Theorem C62_printing_ends_refuted : exists ss e, (exists s, run demo 30 [] tt ss = Ret tt s /\ exists a t, evals demo 30 e s a t) /\ forall n, run demo n [] tt (ss ++ [SPrint e]) = NoFuel.
Proof.
  exists snake, (id "v").
  assert (X : exists s, run demo 30 [] tt snake = Ret tt s /\ cur_rv s = None /\ exists a t b l l', evals demo 30 (id "v") s a t /\ payload_at t b (PVec (b :: l)) /\ payload_at t a (PVec (b :: l'))).
  { eexists. split; [vm_compute; reflexivity|]. split; [reflexivity|]. exists 7. eexists. exists 6, [], []. split; [eexists; vm_compute; reflexivity|].
    split; (eexists; split; [reflexivity|reflexivity]). }
  destruct X as (s & R & V & a & t & b & l & l' & E & B & A). split; [exists s; split; auto; exists a, t; exact E|].
  apply run_loops with (n := 30) (s := s); auto. intro m. exact (print_loops demo 30 (id "v") s t a b l l' V E B A m).
Qed.
Print Assumptions C62_printing_ends_refuted.

Example C62_case :
  printed [SPrint ENone; SPrint (bin (num "0") "-" (num "120")); SPrint (str "a b"); SPrint (EVec [str "a"; EBool true; EVec []]); SPrint (EMap [(str "k", num "7"); (num "0", EVec [num "1"])]);
           SFun false (lit "f") [] []; SPrint (id "f"); SClass false (lit "C") [] []; SPrint (id "C"); SPrint (ECall (id "C") []); SPrint (ELambda [] (BExpr ENone))]
  = Some [lit "<none>"; lit "-120"; lit "a b"; lit "[""a"", true, []]"; lit "{""k"": 7, 0: [1]}"; lit "<function f>"; lit "<class C>"; lit "<instance of C>"; lit "<anonymous function>"].
Proof. vm_compute. reflexivity. Qed.
(** A value as in the first theorem, and its line. *)
Example C62_value : line (DVec [DInt (-120); DStr (lit "a"); DMap [(DBool true, DNone)]]) (lit "[-120, ""a"", {true: <none>}]").
Proof.
  apply line_other; [discriminate|]. change (lit "[-120, ""a"", {true: <none>}]") with (lit "[" ++ listed [lit "-120"; lit """a"""; lit "{true: <none>}"] ++ lit "]"). constructor.
  apply Forall2_cons; [|apply Forall2_cons; [|apply Forall2_cons; [|constructor]]].
  - constructor. right. exists (lit "120"). split; [reflexivity|]. split; [|reflexivity]. split; [|split].
    + apply (denotes_digit (lit "12") 12 "0" 0); [|split; [lia|reflexivity]]. apply (denotes_digit (lit "1") 1 "2" 2); [|split; [lia|reflexivity]].
      apply (denotes_digit [] 0 "1" 1); [constructor|split; [lia|reflexivity]].
    + repeat constructor; [exists 1%Z|exists 2%Z|exists 0%Z]; (split; [lia|reflexivity]).
    + right. eexists _, _. split; [reflexivity|discriminate].
  - exact (written_str (lit "a")).
  - change (lit "{true: <none>}") with (lit "{" ++ listed (map (fun l => fst l ++ lit ": " ++ snd l) [(lit "true", lit "<none>")]) ++ lit "}"). repeat constructor.
Qed.

(** ** C63: [assert]

    Execution goes on after an assertion if the test is true, and only then; making the assertion does nothing else. *)
Theorem C63_true_assertions_do_nothing : forall H (cf : conf H) n e text s a s1, cur_rv s = None -> evals cf (S n) e s a s1 -> holds s1 (DBool true) a ->
  exists s', executes cf (S (S n)) (SAssert e text) s s' /\ still s1 s'.
Proof. exact (@assert_true). Qed.
Print Assumptions C63_true_assertions_do_nothing.

Theorem C63_execution_goes_on_only_if_true : forall H (cf : conf H), releases_own cf -> forall n e text s s', cur_rv s = None -> executes cf (S n) (SAssert e text) s s' ->
  exists a s1, evals cf n e s a s1 /\ holds s1 (DBool true) a /\ still s1 s'.
Proof. exact (@assert_goes_on). Qed.
Print Assumptions C63_execution_goes_on_only_if_true.

(** If it is false, or no boolean, that is what is reported. *)
Theorem C63_false_assertions_are_reported : forall H (cf : conf H) n e text s a s1, cur_rv s = None -> evals cf n e s a s1 -> holds s1 (DBool false) a -> nul_free text ->
  r_stmt (interp cf (S n)) (SAssert e text) s = reports cf (lit "assertion test '" ++ text ++ lit "' failed") s1.
Proof. exact (@assert_false). Qed.
Print Assumptions C63_false_assertions_are_reported.

Theorem C63_only_booleans_are_asserted : forall H (cf : conf H) n e text s a s1 v, cur_rv s = None -> evals cf n e s a s1 -> holds s1 v a -> (forall b, v <> DBool b) ->
  r_stmt (interp cf (S n)) (SAssert e text) s = reports cf (lit "expected boolean value for test, got " ++ type_name v) s1.
Proof. exact (@assert_other). Qed.
Print Assumptions C63_only_booleans_are_asserted.

Theorem C63_errors_in_tests_are_reported : forall H (cf : conf H) n e text s t, cur_rv s = None -> outcome cf n e s = Fail t -> r_stmt (interp cf (S n)) (SAssert e text) s = Fail t.
Proof. exact (@assert_fails). Qed.
Print Assumptions C63_errors_in_tests_are_reported.

(** And nothing that comes after it is done. *)
Theorem C63_nothing_is_done_after_a_failure : forall H (cf : conf H) n before x after s s1 t, executes_each cf n before s s1 -> r_stmt (interp cf n) x s1 = Fail t ->
  exec cf n (before ++ x :: after) s = Fail t.
Proof. exact (@stops_there). Qed.
Print Assumptions C63_nothing_is_done_after_a_failure.

Definition claims (x : expr) (text : string) : stmt := SAssert x (lit text).
Example C63_case :
  match outcome_of [let_to "x" (num "3"); claims (bin (id "x") "==" (num "3")) "x == 3"; SPrint (id "x"); claims (bin (id "x") ">" (num "3")) "x > 3"; SPrint (id "x")] with
  | Fail s => prints s = [lit "3"] /\ err s = Some (lit "demo:0:0: assertion test 'x > 3' failed")
  | _ => False
  end /\
  match outcome_of [claims (num "1") "1"; SPrint (num "1")] with
  | Fail s => prints s = [] /\ err s = Some (lit "demo:0:0: expected boolean value for test, got integer")
  | _ => False
  end.
Proof. vm_compute. repeat split. Qed.
