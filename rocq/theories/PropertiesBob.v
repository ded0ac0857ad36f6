(** * C52, C53, C54: what the functions Bob gives to scripts do. *)

From Coq Require Import ZArith Arith Ascii String Lia Bool List.
From Verif Require Import Base Hash Cookie FlAst FlState FlInterp FlMonad SpecFlamingo FlEqProofs SpecScript SpecFrame SpecScope SpecImport SpecPlan Bob SpecBob SpecProject BobProofs BobCallProofs BobInstanceProofs
  BobScriptProofs BobFailProofs PropertiesScript PropertiesScope PropertiesImport SpecBob.
Import ListNotations.
Local Open Scope nat_scope.

(** ** Scripts, for the examples *)

(** bob.fl is in import/, and src/ has one file. *)
Definition bob_there (p : bytes) : bool := bytes_eqb p (lit "import/bob.fl").
Definition bobs : conf bob :=
  bob_conf true (lit ".bob") (fun p => if bytes_eqb p (lit "src") then Some [lit "src"; lit "src/x.c"] else None) (fun _ _ => None) bob_there
    (fun p => if bob_there p then File bob_fl else NoFile (lit "No such file or directory")).
(** [import bob], then the statements. *)
Definition bob_runs (ss : list stmt) : out bob unit := run bobs 30 [lit "/usr/local/share/flamingo/import"; lit "import"] fresh_bob (import ["bob"%string] :: ss).
Definition no_state : st bob := St [] [] [] [] [] 0 None None [] [] None [] fresh_bob.
Definition state_of {A} (o : out bob A) : st bob := match o with Ret _ s | Fail s => s | _ => no_state end.
(** The requests made. *)
Definition asked_by (o : out bob unit) : option (list asked) := match o with Ret _ s => Some (b_asked (host s)) | _ => None end.
Definition said_by (o : out bob unit) : option (list bytes) := match o with Fail s => Some (b_log (host s) ++ match err s with Some m => [m] | None => [] end) | _ => None end.
Definition tool_cc : stmt := let_to "cc" (call "Cc" [EVec [str "-O2"]]).
Definition compiles (x : string) : stmt := SExpr (method_call (id x) (lit "compile") [EVec [str "a.c"]]).

(** After
<<
import bob
let cc = Cc(["-O2"])
let srcs = ["a.c", "b.c"]
let bad = ["a.c", 1]
class K() { proto compile(x) }
let k = K()
>> *)
Definition s52 : st bob := Eval vm_compute in
  state_of (bob_runs [tool_cc; let_to "srcs" (EVec [str "a.c"; str "b.c"]); let_to "bad" (EVec [str "a.c"; num "1"]);
                      SClass false (lit "K") [] [SProto false (lit "compile") [lit "x"]]; let_to "k" (call "K" [])]).
(** [x], with [fa] taken from it, and then [y], have been evaluated. *)
Definition after_ (x : string) (s : st bob) : st bob := state_of (outcome bobs 9 (id x) s).
Definition at_cc : st bob := Eval vm_compute in after_ "cc" s52.
Definition at_srcs : st bob := Eval vm_compute in after_ "srcs" (held 21 at_cc).
Definition at_bad : st bob := Eval vm_compute in after_ "bad" (held 21 at_cc).
Definition at_k : st bob := Eval vm_compute in after_ "k" s52.
Definition at_k_srcs : st bob := Eval vm_compute in after_ "srcs" (held 30 at_k).
Definition at_Fs : st bob := Eval vm_compute in after_ "Fs" s52.
Definition src_lit : expr := str "src".
Definition at_src : st bob := Eval vm_compute in state_of (outcome bobs 9 src_lit (held 14 at_Fs)).
Definition flags52 : expr := EVec [str "-c"; str "-g"].
Definition at_flags : st bob := Eval vm_compute in state_of (outcome bobs 9 flags52 (held 15 s52)).
Definition bad_flags52 : expr := EVec [str "-c"; num "1"].
Definition at_bad_flags : st bob := Eval vm_compute in state_of (outcome bobs 9 bad_flags52 (held 15 s52)).

Ltac now_ := vm_compute; reflexivity.
Ltac is_payload := eexists; split; [now_|now_].
Ltac is_live := eexists; split; [now_|now_].
Ltac is_evals := eexists; now_.
Ltac is_method sc j e l := exists sc, j; eexists; exists e, l; split; [is_payload|split; [eexists; split; [now_|split; now_]|split; [exists [], []; split; [has_vars|split; [reflexivity|split; [reflexivity|constructor]]]|split; [is_payload|split; [reflexivity|split; [reflexivity|split; [eexists; split; [now_|cbn; split; [reflexivity|eexists; split; [now_|reflexivity]]]|split; [eexists; split; now_|split; now_]]]]]]]].

(** ** C52: calls reach the instance

    Full statement: calling compile, link, archive or list performs that operation of the instance it is called on; a call of any other function without a body
    is reported as an error. It is false of functions that have been given to another variable or passed as arguments, of classes that have been passed as
    arguments, if a script declares another class of the same name, and of functions that are in no class. Proved: any call that succeeds is one of an operation of the instance
    the function was declared in (or [Fs.list]), with its data; a call of a function that still has its name performs the operation, on any instance, with any
    argument; instances get the flags they were made with; functions of other classes are reported. *)
Theorem C52_only_operations_of_the_owner_succeed_partial : forall sg out listing f args s r s',
  external_fn_cb sg out listing f args s = Ret r s' ->
  (exists o i k d v a, has_name s f (op_name o) /\ belongs s f i /\ instance s i k d /\ known_as s (op_class o) k /\ args = [v] /\ r = Some a /\ asked_for [op_asks o d v a] s s') \/
  (b_list (host s) = Some f /\ exists a, r = Some a /\ asked_for [] s s').
Proof. exact external_inv. Qed.
Print Assumptions C52_only_operations_of_the_owner_succeed_partial.

Theorem C52_instances_have_their_flags_partial : forall sg out listing pow exists_ files, let cf := bob_conf sg out listing pow exists_ files in
  forall n k ka e s v s1 flags, k <> CFs -> cur_rv s = None -> offers s k ka -> evals cf (S (S (S (S n)))) e (held ka s) v s1 -> offers s1 k ka -> strings s1 v flags ->
  exists a d s', outcome cf (S (S (S (S (S n))))) (ECall (EId (class_name k)) [e]) s = Ret (Some a, None) s' /\ live s' a /\ flags_of s' d v /\
  (forall d0 v0, flags_of s1 d0 v0 -> flags_of s' d0 v0 /\ d0 <> d) /\ b_asked (host s') = b_asked (host s1) /\
  forall o, op_class o = k -> exists p f, method s' a ka (Some d) (op_name o) [p] f /\ live s' f.
Proof. exact instance_has_flags. Qed.
Print Assumptions C52_instances_have_their_flags_partial.

Theorem C52_operations_are_performed_partial : forall sg out listing pow exists_ files, let cf := bob_conf sg out listing pow exists_ files in
  forall n o e s i s1 k d ps f p arg v s2 srcs, cur_rv s = None -> evals cf n e s i s1 -> method s1 i k d (op_name o) ps f -> live s1 f ->
  evals cf (S n) arg (held f s1) v s2 -> method s2 i k d (op_name o) [p] f -> known_as s2 (op_class o) k -> (forall b, known_as s2 b k -> b = op_class o) ->
  strings s2 v srcs -> takes sg out o srcs ->
  exists r s', outcome cf (S (S n)) (method_call e (op_name o) [arg]) s = Ret (Some r, None) s' /\ gives sg out o s' srcs r /\ asked_for [op_asks o d v r] s2 s'.
Proof. exact performs_operation. Qed.
Print Assumptions C52_operations_are_performed_partial.

Theorem C52_list_gives_the_listing_partial : forall sg out listing pow exists_ files, let cf := bob_conf sg out listing pow exists_ files in
  forall n e s k s1 x ps f p arg a s2 path l, cur_rv s = None -> evals cf n e s k s1 -> static_method s1 k x ps f -> live s1 f ->
  evals cf (S n) arg (held f s1) a s2 -> static_method s2 k x [p] f -> known_as s2 CFs k -> b_list (host s2) = Some f ->
  holds s2 (DStr path) a -> listing (cstr path) = Some l ->
  exists r s', outcome cf (S (S n)) (method_call e x [arg]) s = Ret (Some r, None) s' /\ strings s' r (map cstr l) /\ live s' r /\ asked_for [] s2 s'.
Proof. exact lists. Qed.
Print Assumptions C52_list_gives_the_listing_partial.

Theorem C52_other_functions_are_reported_partial : forall sg out listing pow exists_ files, let cf := bob_conf sg out listing pow exists_ files in
  forall n e x s i s1 k d ps ps' f args bs s2, cur_rv s = None -> evals cf n e s i s1 -> method s1 i k d x ps' f -> live s1 f ->
  evals_each cf (S n) args (held f s1) bs s2 -> method s2 i k d x ps f -> length bs = length ps -> Forall (fun a => a < length (cells s2)) bs -> ~ In f bs -> no_operation s2 k x f ->
  exists t, outcome cf (S (S n)) (method_call e x args) s =
    reports cf (lit "Bob doesn't support the '" ++ cstr x ++ lit "' external function call (" ++ dec_n (length bs) ++ lit " arguments passed)") t /\ host t = host s2 /\ err t = err s2.
Proof. exact method_unsupported. Qed.
Print Assumptions C52_other_functions_are_reported_partial.

(** All of the hypotheses are met in the script above: for [Cc(["-c", "-g"])], [cc.compile(srcs)], [Fs.list("src")] and [k.compile(srcs)]. *)
Ltac is_declared b a := exists b, a; split; [has_vars|split; [reflexivity|split; [reflexivity|repeat constructor; vm_compute; discriminate]]].
Lemma offers_case s i l c b e : open s (i :: l) -> (exists vs, vars s i vs /\ exists before after, vs = before ++ Var (lit "Cc") false (Some 15) :: after /\ Forall (fun w => v_key w <> lit "Cc") before) ->
  nth_error (cells s) 15 = Some c -> (0 < c_cnt c)%Z -> (exists f, c_val c = PFn f /\ f_kind f = KClass /\ f_params f = [lit "flags"] /\ f_body f = Some b /\ f_env f = Some e) ->
  nth_error (bodies s) b = Some (Some (BBlock (map proto (functions_of CCc)))) -> (exists p l, nth_error (envs s) e = Some (p :: l) /\ exists vs, vars s p vs) ->
  has_name s 15 (class_name CCc) -> b_fs (host s) <> Some 15 -> b_cc (host s) = Some 15 -> b_linker (host s) <> Some 15 -> offers s CCc 15.
Proof.
  intros O (vs & V & before & after & -> & N) C Z (f & Vf & K & P & B & E) Bo (p & l' & En & Vs) H Hf Hc Hl.
  split. { exists i, (length before). eexists. split; [exists [], l; split; [exact O|split; [constructor|exists before, after; split; [exact V|split; [reflexivity|split; [reflexivity|exact N]]]]]|reflexivity]. }
  split; [exists c; auto|]. split; [|split; [exact H|split; [exact Hc|intros k' Q; destruct k'; [destruct (Hf Q)|reflexivity|destruct (Hl Q)]]]].
  exists f, b, e, p, l'. split; [exists c; auto|]. repeat (split; [assumption|]). exact Vs.
Qed.
Ltac is_offers :=
  eapply offers_case; [now_|eexists; split; [has_vars|do 2 eexists; split; [instantiate (2 := [_; _]); reflexivity|repeat constructor; vm_compute; discriminate]]|now_|now_
    |eexists; split; [now_|repeat split; reflexivity]|now_|do 2 eexists; split; [now_|eexists; has_vars]|eexists; split; [now_|cbn; split; [reflexivity|eexists; split; [now_|reflexivity]]]|discriminate|reflexivity|discriminate].
Ltac is_strings := apply holds_vec; do 2 eexists; split; [now_|split; [now_|repeat constructor; is_held]].
Example C52_instance_case : cur_rv s52 = None /\ offers s52 CCc 15 /\ evals bobs 9 flags52 (held 15 s52) 34 at_flags /\ offers at_flags CCc 15 /\ strings at_flags 34 [lit "-c"; lit "-g"].
Proof. split; [now_|]. split; [is_offers|]. split; [is_evals|]. split; [is_offers|]. is_strings. Qed.
Example C52_operation_case : cur_rv s52 = None /\ evals bobs 9 (id "cc") s52 22 at_cc /\ method at_cc 22 15 (Some 0) (lit "compile") [lit "src"] 21 /\ live at_cc 21 /\
  evals bobs 9 (id "srcs") (held 21 at_cc) 25 at_srcs /\ method at_srcs 22 15 (Some 0) (lit "compile") [lit "src"] 21 /\
  known_as at_srcs CCc 15 /\ (forall b, known_as at_srcs b 15 -> b = CCc) /\ strings at_srcs 25 [lit "a.c"; lit "b.c"] /\
  flags_of at_srcs 0 20 /\ strings at_srcs 20 [lit "-O2"].
Proof.
  split; [now_|]. split; [is_evals|]. split; [is_method 5 0 5 [5; 4; 0]|]. split; [is_live|]. split; [is_evals|]. split; [is_method 5 0 5 [5; 4; 0]|]. split; [now_|].
  split; [intros [] Q; [discriminate Q|reflexivity|discriminate Q]|]. split; [is_strings|]. split; [now_|is_strings].
Qed.
Ltac is_static := do 8 eexists; split; [is_payload|split; [reflexivity|split; [reflexivity|split; [eexists; split; [now_|split; now_]|split; [is_declared (@nil var) (@nil var)|split; [is_payload|split; [reflexivity|split; [reflexivity|split; [eexists; split; [now_|cbn; split; [reflexivity|eexists; split; [now_|reflexivity]]]|split; [eexists; split; now_|split; [now_|split; [now_|has_vars]]]]]]]]]]]].
Example C52_list_case : evals bobs 9 (id "Fs") s52 13 at_Fs /\ static_method at_Fs 13 (lit "list") [lit "path"] 14 /\ live at_Fs 14 /\
  evals bobs 9 src_lit (held 14 at_Fs) 32 at_src /\ static_method at_src 13 (lit "list") [lit "path"] 14 /\ known_as at_src CFs 13 /\ b_list (host at_src) = Some 14 /\ holds at_src (DStr (lit "src")) 32.
Proof. split; [is_evals|]. split; [is_static|]. split; [is_live|]. split; [is_evals|]. split; [is_static|]. split; [now_|]. split; [now_|is_held]. Qed.
Example C52_other_case : evals bobs 9 (id "k") s52 31 at_k /\ method at_k 31 29 None (lit "compile") [lit "x"] 30 /\ live at_k 30 /\
  evals_each bobs 9 [id "srcs"] (held 30 at_k) [25] at_k_srcs /\ method at_k_srcs 31 29 None (lit "compile") [lit "x"] 30 /\ no_operation at_k_srcs 29 (lit "compile") 30.
Proof.
  split; [is_evals|]. split; [is_method 8 0 7 [8; 7; 0]|]. split; [is_live|]. split; [econstructor; [is_evals|constructor]|]. split; [is_method 8 0 7 [8; 7; 0]|].
  split; [discriminate|]. intros [|[|]] _ Q; discriminate Q.
Qed.

(** A function that is in no class: NULL is dereferenced. *)
Theorem C52_functions_of_no_class_refuted : bob_runs [SProto false (lit "other") []; SExpr (call "other" [])] = Undef UNull.
Proof. now_. Qed.
Print Assumptions C52_functions_of_no_class_refuted.

(** [let f = cc.compile]: from then on, NULL is dereferenced by [f(...)], and by [cc.compile(...)]. *)
Theorem C52_functions_given_to_variables_refuted :
  bob_runs [tool_cc; let_to "f" (EAccess (id "cc") (lit "compile")); SExpr (call "f" [EVec [str "a.c"]])] = Undef UNull /\
  bob_runs [tool_cc; let_to "f" (EAccess (id "cc") (lit "compile")); compiles "cc"] = Undef UNull.
Proof. split; now_. Qed.
Print Assumptions C52_functions_given_to_variables_refuted.

(** [cc.compile] passed as the argument [f] of a function is no longer supported, because it goes by the name f. *)
Theorem C52_functions_passed_as_arguments_refuted :
  said_by (bob_runs [tool_cc; fn "g" [lit "f"] []; SExpr (call "g" [EAccess (id "cc") (lit "compile")]); compiles "cc"]) =
    Some [lit "Bob the Builder:0:0: Bob doesn't support the 'f' external function call (1 arguments passed)"].
Proof. now_. Qed.
Print Assumptions C52_functions_passed_as_arguments_refuted.

(** Once [Cc] has been passed as an argument, its instances have no flags: the request is for those of NULL. *)
Theorem C52_classes_passed_as_arguments_refuted : exists v r, asked_by (bob_runs [fn "g" [lit "k"] []; SExpr (call "g" [id "Cc"]); tool_cc; compiles "cc"]) = Some [ACompile None v r].
Proof. do 2 eexists. now_. Qed.
Print Assumptions C52_classes_passed_as_arguments_refuted.

(** Another class of the same name, even if it is out of scope. *)
Theorem C52_classes_of_the_same_name_refuted :
  said_by (bob_runs [SBlock [SClass false (lit "Cc") [] []]; tool_cc; compiles "cc"]) =
    Some [lit "Bob the Builder:0:0: Bob doesn't support the 'compile' external function call (1 arguments passed)"].
Proof. now_. Qed.
Print Assumptions C52_classes_of_the_same_name_refuted.

(** ** C53: one object per source

    Full statement: as below, for every vector of sources. It is false of sources with too much after a NUL byte, for which making up
    the name reads and writes beyond what was allocated (refuted below). Proved for all the others. *)
Theorem C53_one_object_per_source_partial : forall sg out listing pow exists_ files, let cf := bob_conf sg out listing pow exists_ files in
  forall n e s i s1 k d ps f p arg v s2 srcs, cur_rv s = None -> evals cf n e s i s1 -> method s1 i k d (lit "compile") ps f -> live s1 f ->
  evals cf (S n) arg (held f s1) v s2 -> method s2 i k d (lit "compile") [p] f -> known_as s2 CCc k -> (forall b, known_as s2 b k -> b = CCc) ->
  strings s2 v srcs -> Forall (nameable sg out) srcs ->
  exists r s' objs, outcome cf (S (S n)) (method_call e (lit "compile") [arg]) s = Ret (Some r, None) s' /\ Forall2 (object_of sg out) srcs objs /\ strings s' r objs /\
  asked_for [ACompile d v r] s2 s'.
Proof. exact compiles_each. Qed.
Print Assumptions C53_one_object_per_source_partial.
(** C52_operation_case meets these hypotheses. *)

(** Which sources these are: all without NUL bytes, and those with little enough after the first one. *)
Theorem C53_nameable : forall sg out src,
  nameable sg out src <-> length src <= length (cstr src) + length (hex64 (str_hash sg src)) + 11.
Proof. exact nameable_iff. Qed.
Print Assumptions C53_nameable.
Theorem C53_nul_free_nameable : forall sg out src, nul_free src -> nameable sg out src.
Proof. exact nul_free_nameable. Qed.
Print Assumptions C53_nul_free_nameable.
Example C53_nul_case : nameable true (lit ".bob") (lit "a.c" ++ NUL :: lit "b").
Proof. eexists. now_. Qed.
Definition nul_source : bytes := lit "a.c" ++ NUL :: lit "/0123456789/0123456789/0123456789/0123456789".
Theorem C53_nul_sources_refuted :
  bob_runs [tool_cc; SExpr (method_call (id "cc") (lit "compile") [EVec [EStr nul_source]])] = Undef URange.
Proof. now_. Qed.
Print Assumptions C53_nul_sources_refuted.

(** The same holds for what is linked. *)
Theorem C53_sources_must_be_strings_partial : forall sg out listing pow exists_ files, let cf := bob_conf sg out listing pow exists_ files in
  forall n o e s i s1 k d ps f p arg v s2 good, cur_rv s = None -> evals cf n e s i s1 -> method s1 i k d (op_name o) ps f -> live s1 f ->
  evals cf (S n) arg (held f s1) v s2 -> method s2 i k d (op_name o) [p] f -> known_as s2 (op_class o) k -> (forall b, known_as s2 b k -> b = op_class o) ->
  strings_until s2 v good -> takes sg out o good ->
  exists s', outcome cf (S (S n)) (method_call e (op_name o) [arg]) s = Fail s' /\
  complained (op_who o ++ lit ": Expected " ++ dec_n (length good) ++ lit "-th vector element to be a string") s2 s'.
Proof. exact performs_bad. Qed.
Print Assumptions C53_sources_must_be_strings_partial.
Example C53_bad_case : evals bobs 9 (id "bad") (held 21 at_cc) 28 at_bad /\ method at_bad 22 15 (Some 0) (lit "compile") [lit "src"] 21 /\
  known_as at_bad CCc 15 /\ (forall b, known_as at_bad b 15 -> b = CCc) /\ strings_until at_bad 28 [lit "a.c"] /\
  said_by (bob_runs [tool_cc; SExpr (method_call (id "cc") (lit "compile") [EVec [str "a.c"; num "1"]])]) = Some [lit "Cc.compile: Expected 1-th vector element to be a string"].
Proof.
  split; [is_evals|]. split; [is_method 5 0 5 [5; 4; 0]|]. split; [now_|]. split; [intros [] Q; [discriminate Q|reflexivity|discriminate Q]|]. split; [|now_].
  exists [26], 27, []. split; [eexists; split; now_|]. split; [repeat constructor; is_held|]. eexists. split; [now_|]. intros b n Q. vm_compute in Q. discriminate Q.
Qed.

(** So it is with flags. *)
Theorem C53_flags_must_be_strings : forall sg out listing pow exists_ files, let cf := bob_conf sg out listing pow exists_ files in
  forall n k ka e s v s1 good, k <> CFs -> cur_rv s = None -> offers s k ka -> evals cf (S (S (S (S n)))) e (held ka s) v s1 -> offers s1 k ka -> strings_until s1 v good ->
  exists s', outcome cf (S (S (S (S (S n))))) (ECall (EId (class_name k)) [e]) s = Fail s' /\
  complained (class_name k ++ lit ": Expected " ++ dec_n (length good) ++ lit "-th vector element to be a string") s1 s' /\ b_states (host s') = b_states (host s1).
Proof. exact instantiates_bad. Qed.
Print Assumptions C53_flags_must_be_strings.
Example C53_bad_flags_case : offers s52 CCc 15 /\ evals bobs 9 bad_flags52 (held 15 s52) 34 at_bad_flags /\ offers at_bad_flags CCc 15 /\ strings_until at_bad_flags 34 [lit "-c"] /\
  said_by (bob_runs [let_to "cc" (call "Cc" [bad_flags52])]) = Some [lit "Cc: Expected 1-th vector element to be a string"].
Proof.
  split; [is_offers|]. split; [is_evals|]. split; [is_offers|]. split; [|now_].
  exists [32], 33, []. split; [eexists; split; now_|]. split; [repeat constructor; is_held|]. eexists. split; [now_|]. intros b n Q. vm_compute in Q. discriminate Q.
Qed.

(** ** C54 for build scripts

    Whatever Bob's own functions object to is logged; all else has an error message. (What is false of it is in PropertiesImport.) *)
Theorem C54_build_scripts_explain_failures_partial : forall sg out listing pow exists_ files, let cf := bob_conf sg out listing pow exists_ files in
  forall n paths ss, orderly cf logged (run cf n paths fresh_bob ss).
Proof. exact bob_failures. Qed.
Print Assumptions C54_build_scripts_explain_failures_partial.
Example C54_build_case : said_by (bob_runs [SExpr (method_call (id "Fs") (lit "list") [str "nope"])]) = Some [lit "fts_open(" ++ QUOTE ++ lit "nope" ++ QUOTE ++ lit ") failed"].
Proof. now_. Qed.
(** [Fs.list] of something that is no string is a failed assertion. *)
Theorem C54_listing_no_string_is_fatal_refuted : bob_runs [SExpr (method_call (id "Fs") (lit "list") [num "1"])] = Died.
Proof. now_. Qed.
Print Assumptions C54_listing_no_string_is_fatal_refuted.

(** Bob's functions meet what the theorems about scripts ask of a host. *)
Theorem bob_is_tame : forall sg out listing pow exists_ files, tame (bob_conf sg out listing pow exists_ files) /\ releases_own (bob_conf sg out listing pow exists_ files).
Proof. exact (fun sg out listing pow exists_ files => conj (bob_tame sg out listing pow exists_ files) (bob_releases sg out listing pow exists_ files)). Qed.
Print Assumptions bob_is_tame.
