(** * C13, C14, C16, C17, C23: up-to-date checks, recorded flags, dependency rules, saved logs. *)

From Coq Require Import ZArith Ascii String Lia Bool List.
From Verif Require Import Base FileSys Frugal Deps Log SpecFiles FrugalProofs.
Import ListNotations.

(** ** C13 *)

Theorem C13_up_to_date_exact :
  forall f deps target, frugal_mtime f deps target = Some false <-> up_to_date f target deps.
Proof. exact mtime_no_work. Qed.
Print Assumptions C13_up_to_date_exact.

Theorem C13_work_exact :
  forall f deps target,
  frugal_mtime f deps target = Some true <->
  stat f target = StatNoEnt \/
  exists t d td, modified_at f target t /\ first_bad f t deps d /\ modified_at f d td.
Proof. exact mtime_work. Qed.
Print Assumptions C13_work_exact.

Theorem C13_error_exact :
  forall f deps target,
  frugal_mtime f deps target = None <->
  stat f target = StatErr \/
  exists t d, modified_at f target t /\ first_bad f t deps d /\ forall td, ~ modified_at f d td.
Proof. exact mtime_error. Qed.
Print Assumptions C13_error_exact.

Definition ex_fs : fs := fun p =>
  if bytes_eqb p (lit "a.c") then File (lit "int a;") 5
  else if bytes_eqb p (lit "a.h") then File (lit "") 7
  else if bytes_eqb p (lit "a.o") then File (lit "OBJ") 7
  else if bytes_eqb p (lit "b.o") then File (lit "OBJ") 6
  else if bytes_eqb p (lit "locked") then Blocked
  else Absent.

Example C13_nonvacuous :
  frugal_mtime ex_fs [lit "a.c"; lit "a.h"] (lit "a.o") = Some false /\     (* equal times: no work *)
  frugal_mtime ex_fs [lit "a.c"; lit "a.h"] (lit "b.o") = Some true /\
  frugal_mtime ex_fs [lit "a.c"] (lit "new.o") = Some true /\
  frugal_mtime ex_fs [lit "gone.h"] (lit "new.o") = Some true /\            (* target missing: deps not examined *)
  frugal_mtime ex_fs [lit "a.h"; lit "gone.h"] (lit "b.o") = Some true /\
  frugal_mtime ex_fs [lit "gone.h"; lit "a.h"] (lit "b.o") = None /\
  frugal_mtime ex_fs [lit "a.c"] (lit "locked") = None.
Proof. repeat split. Qed.

(** ** C14 *)

(** For flags without newline or NUL characters. Missing from the full statement: flags containing a newline
    (refuted below). *)
Theorem C14_flag_change_noticed_partial :
  forall cw now f flags out old,
  Forall plain flags -> Forall plain old -> records_flags f out old ->
  (fst (frugal_flags cw now f flags out) = true <-> flags <> old).
Proof. exact flags_changed. Qed.
Print Assumptions C14_flag_change_noticed_partial.

Theorem C14_no_record_means_rebuild :
  forall cw now f flags out,
  read_file f (out ++ lit ".flags") = None -> fst (frugal_flags cw now f flags out) = true.
Proof. exact flags_missing. Qed.
Print Assumptions C14_no_record_means_rebuild.

(** The check leaves the requested flags recorded, and touches nothing else. *)
Theorem C14_flags_recorded_partial :
  forall cw now f flags out f' b,
  Forall plain flags -> cw (out ++ lit ".flags") = true ->
  (exists c t, f (out ++ lit ".flags") = File c t /\ nul_free c) \/ f (out ++ lit ".flags") = Absent ->
  frugal_flags cw now f flags out = (b, f') -> records_flags f' out flags.
Proof. exact flags_recorded. Qed.
Print Assumptions C14_flags_recorded_partial.

Theorem C14_check_touches_only_record :
  forall cw now f flags out f' b p,
  frugal_flags cw now f flags out = (b, f') -> p <> out ++ lit ".flags" -> f' p = f p.
Proof. exact flags_only. Qed.
Print Assumptions C14_check_touches_only_record.

(** One flag containing a newline is confused with two flags. *)
Theorem C14_flag_change_refuted :
  exists f out old flags, flags <> old /\
  (let '(b, f1) := frugal_flags (fun _ => true) 1 f old out in
   b = true /\ fst (frugal_flags (fun _ => true) 2 f1 flags out) = false).
Proof.
  exists (fun _ => Absent), (lit "a.o"), [lit "-DA" ++ [NL] ++ lit "-DB"], [lit "-DA"; lit "-DB"].
  split; [discriminate|]. vm_compute. auto.
Qed.
Print Assumptions C14_flag_change_refuted.

Example C14_nonvacuous :
  let f := fun p => if bytes_eqb p (lit "a.o.flags") then File (lines [lit "-O2"; lit "-g"]) 3 else Absent in
  records_flags f (lit "a.o") [lit "-O2"; lit "-g"] /\ Forall plain [lit "-O2"; lit "-g"] /\
  fst (frugal_flags (fun _ => true) 9 f [lit "-O2"; lit "-g"] (lit "a.o")) = false /\
  fst (frugal_flags (fun _ => true) 9 f [lit "-g"; lit "-O2"] (lit "a.o")) = true /\
  fst (frugal_flags (fun _ => true) 9 f [lit "-O2"] (lit "a.o")) = true.
Proof.
  split; [exists 3%Z; reflexivity|]. split; [|repeat split].
  repeat constructor; intros H; simpl in H; repeat (destruct H as [H|H]; [discriminate|]); auto.
Qed.

(** ** C16 *)

(** For names that make does not quote. Missing: names with blanks, '#' or '$' (refuted below). *)
Theorem C16_deps_extracted_partial :
  forall items, Forall (fun it : gap * bytes => simple_name (snd it)) items ->
  parse_deps (rule_text items) = map snd items.
Proof. exact parse_rule. Qed.
Print Assumptions C16_deps_extracted_partial.

Theorem C16_quoted_name_refuted :
  exists names, parse_deps (rule_text (map (pair (Blanks 0)) names)) <> names /\
  parse_deps (rule_text (map (pair (Blanks 0)) names)) = [lit "a.c"; lit "my\"; lit "header.h"].
Proof.
  exists [lit "a.c"; lit "my header.h"]. split; vm_compute; [discriminate | reflexivity].
Qed.
Print Assumptions C16_quoted_name_refuted.

Example C16_nonvacuous :
  rule_text [(Blanks 0, lit "src1.c"); (Blanks 0, lit "a.h"); (Wrapped 0 0, lit "inc/b.h")]
  = lit ": src1.c a.h \" ++ [NL] ++ lit " inc/b.h" ++ [NL] /\
  parse_deps (lit ": src1.c a.h \" ++ [NL] ++ lit " inc/b.h" ++ [NL]) = [lit "src1.c"; lit "a.h"; lit "inc/b.h"].
Proof. split; reflexivity. Qed.

Lemma simple_dec s : forallb (fun c => negb (byte_eqb c SPACE || byte_eqb c "#"%char || byte_eqb c "$"%char || byte_eqb c NL || byte_eqb c NUL)) s
  && negb (skip_token s) = true -> simple_name s.
Proof.
  rewrite andb_true_iff, forallb_forall. intros [H1 H2]. split.
  - intros c Hc. specialize (H1 c Hc). rewrite negb_true_iff, !orb_false_iff in H1. 
    repeat rewrite byte_eqb_neq in H1. tauto.
  - destruct s as [|c r]; [discriminate|]. exists c, r. split; auto.
    simpl in H2. rewrite negb_true_iff, orb_false_iff in H2. repeat rewrite byte_eqb_neq in H2. auto.
Qed.

Example C16_hypothesis_met : simple_name (lit "../include/my-header_1.2.h").
Proof. apply simple_dec. reflexivity. Qed.

(** ** C17 *)

(** For every dependency rule the compiler prints over names without newline and NUL (blanks and other
    quoted characters allowed), the names Bob reads back in the next build are the ones it extracted and
    recorded; empty names (there are none for non-empty prerequisites) are dropped. *)
Theorem C17_deps_read_back :
  forall items, Forall (fun it : gap * bytes => plain (snd it)) items ->
  read_deps (deps_content (parse_deps (rule_text items)))
  = filter (fun h => match h with [] => false | _ => true end) (parse_deps (rule_text items)).
Proof. exact recorded_read_back. Qed.
Print Assumptions C17_deps_read_back.

(** With names that need no quoting: exactly the prerequisites of the rule. *)
Theorem C17_prerequisites_read_back :
  forall items, Forall (fun it : gap * bytes => simple_name (snd it)) items ->
  read_deps (deps_content (parse_deps (rule_text items))) = map snd items.
Proof.
  intros items F. rewrite parse_rule by auto. apply read_back. now apply Forall_map.
Qed.
Print Assumptions C17_prerequisites_read_back.

Example C17_nonvacuous :
  deps_content [lit "a.c"; lit "b.h"] = lit "a.c" ++ [NL] ++ lit "b.h" ++ [NL] /\
  read_deps (lit "a.c" ++ [NL] ++ lit "b.h" ++ [NL]) = [lit "a.c"; lit "b.h"].
Proof. split; reflexivity. Qed.

(** ** C23 *)

(** What a command printed is printed again by every later up-to-date notice, as long as the saved log can be
    written (see the note in the manifest for the case where it cannot). *)
Theorem C23_log_replayed :
  forall cw now f cookie out shown f',
  cw (cookie ++ lit ".log") = true -> (forall t, f (cookie ++ lit ".log") <> Dir t) -> f (cookie ++ lit ".log") <> Blocked ->
  cmd_log cw now f cookie out = (shown, f') ->
  shown = cstr out /\ forall f2, f2 (cookie ++ lit ".log") = f' (cookie ++ lit ".log") -> log_already_done f2 cookie = shown.
Proof. exact log_replay. Qed.
Print Assumptions C23_log_replayed.

Theorem C23_log_touches_only_log :
  forall cw now f cookie out shown f' p,
  cmd_log cw now f cookie out = (shown, f') -> p <> cookie ++ lit ".log" -> f' p = f p.
Proof. exact log_only. Qed.
Print Assumptions C23_log_touches_only_log.

Example C23_nonvacuous :
  let f := fun p => if bytes_eqb p (lit "a.o.log") then File (lit "old warning") 1 else Absent in
  fst (cmd_log (fun _ => true) 2 f (lit "a.o") (lit "new warning")) = lit "new warning" /\
  log_already_done (snd (cmd_log (fun _ => true) 2 f (lit "a.o") (lit "new warning"))) (lit "a.o") = lit "new warning" /\
  log_already_done (snd (cmd_log (fun _ => true) 2 f (lit "a.o") [])) (lit "a.o") = [].
Proof. repeat split. Qed.
