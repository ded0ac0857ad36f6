(** * C78: a failed installation says what failed and why. *)

From Coq Require Import ZArith Ascii String Lia Bool List.
From Verif Require Import Term Base Deps FileSys Frugal Vfs Install Telling SpecTelling TellingProofs PropertiesInstall.
Import ListNotations.

Section C78.
Variable S : sys.
Variable abs_out : option bytes.
Variable programs : bytes -> program.
Variable output : list bytes -> bytes.
Variable why : bytes -> bytes.
Notation single := (tell_single S abs_out programs output why).
Notation entries := (tell_entries S abs_out programs output why).

(** What is said about installing is about the installation of C29-C32. *)
Theorem C78_same_installation out prefix clock es i w ok w' ms : programs (lit "rm") = Runs -> programs (lit "cp") = Runs ->
  entries out prefix clock i w es = Ok (ok, w', ms) ->
  install_entries S abs_out out prefix clock i w (map (fun e => (fst (fst e), snd e)) es) = Ok (ok, w').
Proof. intros A B. exact (entries_agree S abs_out programs output why out prefix clock (conj A B) es i w ok w' ms). Qed.

(** Nothing fails silently: when installing an entry fails, the last message, and it alone, is a failure, and it names
    the source or the place and gives a reason. What is missing for the full claim: the reason is not always the one a
    program has given ([ex_rm], and below). *)
Theorem C78_failure_is_told_partial out prefix now w key ended val cookie w' ms :
  single out prefix now w key ended val cookie = Ok (false, w', ms) ->
  exists m, ends_with ms (AFatal, m) /\ explains S programs output why (nodes w') now (cstr key) prefix (cstr val) m.
Proof. exact (single_failure S abs_out programs output why out prefix now w key ended val cookie w' ms). Qed.

(** What cp has said is shown whole if it ends its line. *)
Theorem C78_words t : nul_free t -> removelast (cstr (t ++ [NL])) = t.
Proof. exact (words t). Qed.

(** An installation that goes well has one line for each entry, in their order, that says that it is installed. *)
Theorem C78_success_is_told out prefix clock es i w w' ms : entries out prefix clock i w es = Ok (true, w', ms) ->
  exists mss, ms = concat mss /\ Forall2 (dealt_with S out) es mss.
Proof. exact (entries_success S abs_out programs output why out prefix clock es i w w' ms). Qed.

(** What is said of one entry is what was done: silence about a product (when installing), "Already" if nothing was copied
    for it, "Successfully" if it was copied to its place. With [cookie], this is what a build says about its products. *)
Theorem C78_said_is_done out prefix now w key ended val cookie w' ms : single out prefix now w key ended val cookie = Ok (true, w', ms) ->
  (cookie = false /\ w' = w /\ ms = [] /\ exists path, realpath (s_cwd S) (nodes w) (cstr key) = Some path /\ is_prefix out path = true) \/
  (copies w' = copies w /\ ms = [found_line cookie (cstr val)]) \/
  (copies w' = (cstr key, prefix ++ SLASH :: cstr val) :: copies w /\ ends_with ms (copied_line cookie (cstr val))).
Proof. exact (single_said S abs_out programs output why out prefix now w key ended val cookie w' ms). Qed.

(** One that fails has these for the entries before the one that fails; that one is explained; nothing comes after it. *)
Theorem C78_installation_is_told_partial out prefix clock es i w w' ms : entries out prefix clock i w es = Ok (false, w', ms) ->
  exists before k ended v after mss l m, es = before ++ (k, ended, v) :: after /\ ms = concat mss ++ l /\ Forall2 (dealt_with S out) before mss /\
  ends_with l (AFatal, m) /\ explains S programs output why (nodes w') (clock (i + length before)) (cstr k) prefix (cstr v) m.
Proof. exact (entries_failure S abs_out programs output why out prefix clock es i w w' ms). Qed.

(** Saying so is undefined only for a missing source whose name has no NUL after it, as literals have none, or when one
    of the programs cannot be run. *)
Theorem C78_undefined out prefix now w key ended val cookie : single out prefix now w key ended val cookie = UB ->
  realpath (s_cwd S) (nodes w) (cstr key) = None /\ ended = false /\ nul_free key \/ programs (lit "rm") = Unstartable \/ programs (lit "cp") <> Runs.
Proof. exact (single_undefined S abs_out programs output why out prefix now w key ended val cookie). Qed.
End C78.
Print Assumptions C78_same_installation.
Print Assumptions C78_failure_is_told_partial.
Print Assumptions C78_words.
Print Assumptions C78_success_is_told.
Print Assumptions C78_said_is_done.
Print Assumptions C78_installation_is_told_partial.
Print Assumptions C78_undefined.

(** ** The small project again: nobody may write /usr/local/x.h or remove /usr/local/share/inc *)

Definition strict_sys : sys :=
  {| s_cwd := proj; s_may := fun _ l => negb (loc_eqb l (lit "x.h" :: usr_local)) && negb (loc_eqb l (lit "inc" :: lit "share" :: usr_local));
     s_torn := fun f _ => f; s_root := false; s_chown := fun _ => true |}.
Definition all_run (_ : bytes) : program := Runs.
Definition denied (_ : list bytes) : bytes := lit "cp: no" ++ [NL].
Definition reason (_ : bytes) : bytes := lit "why".
Definition told (S : sys) (programs : bytes -> program) (output : list bytes -> bytes) (es : list (bytes * bool * bytes)) : option (bool * list msg) :=
  match tell_entries S (Some (unparse bob_dir)) programs output reason (unparse bob_dir) (lit "/usr/local") clock 0 (begin tree) es with
  | Ok (ok, _, ms) => Some (ok, ms)
  | _ => None
  end.

(** Three entries, one of them a product; then one that cannot be written. *)
Definition three : list (bytes * bool * bytes) :=
  [(lit "x.h", false, lit "include/deep/x.h"); (lit ".bob/bob/x.o", true, lit "lib/x.o"); (lit "inc", false, lit "share/inc")].
Example C78_success_case : told free_sys all_run denied three =
  Some (true,
    [(AnInfo, lit "include/deep/x.h" ++ CLEAR ++ lit ": Installing from 'x.h'...");
     (ASuccess, lit "include/deep/x.h" ++ CLEAR ++ lit ": Successfully installed.");
     (AnInfo, lit "share/inc" ++ CLEAR ++ lit ": Installing from 'inc'...");
     (ASuccess, lit "share/inc" ++ CLEAR ++ lit ": Successfully installed.")]).
Proof. vm_compute. reflexivity. Qed.

Example C78_failure_case : told strict_sys all_run denied [(lit "x.h", false, lit "include/x.h"); (lit "x.h", false, lit "x.h"); (lit "inc", false, lit "i")] =
  Some (false,
    [(AnInfo, lit "include/x.h" ++ CLEAR ++ lit ": Installing from 'x.h'...");
     (ASuccess, lit "include/x.h" ++ CLEAR ++ lit ": Successfully installed.");
     (AnInfo, lit "x.h" ++ CLEAR ++ lit ": Installing from 'x.h'...");
     (AFatal, lit "Failed to copy 'x.h' to '/usr/local/x.h': cp: no")]).
Proof. vm_compute. reflexivity. Qed.

(** A missing source that is named. *)
Example C78_missing_case : told free_sys all_run denied [(lit "y.h", true, lit "y.h")] =
  Some (false, [(AFatal, lit "Couldn't find source file (from install map): y.h")]).
Proof. vm_compute. reflexivity. Qed.

(** A build that installs its product says so, and the next one says that it is there. *)
Definition preinstall (now : Z) (w : vw) : res (bool * vw * list msg) :=
  tell_single free_sys (Some (unparse bob_dir)) all_run denied reason (unparse bob_dir) (lit "/usr/local") now w (lit ".bob/bob/x.o") true (lit "lib/x.o") true.
Example C78_product_case : exists w1 w2 before,
  preinstall 10 (begin tree) = Ok (true, w1, before ++ [copied_line true (lit "lib/x.o")]) /\
  preinstall 20 w1 = Ok (true, w2, [found_line true (lit "lib/x.o")]).
Proof.
  eexists. eexists. exists [(AnInfo, lit "lib/x.o" ++ CLEAR ++ lit ": Preinstalling from cookie...")]. split; vm_compute; reflexivity.
Qed.

(** ** What is false of the code *)

(** Named by a literal, a missing source makes Bob read beyond the literal. *)
Example C78_literal_refuted : exists key, nul_free key /\ realpath (s_cwd free_sys) (nodes (begin tree)) key = None /\
  tell_single free_sys (Some (unparse bob_dir)) all_run denied reason (unparse bob_dir) (lit "/usr/local") 10 (begin tree) key false (lit "y.h") false = UB.
Proof. exists (lit "y.h"). split; [|split]; [|vm_compute; reflexivity|vm_compute; reflexivity]. apply has_byte_not_In. reflexivity. Qed.

(** Without cp, installing a file is undefined rather than an error. *)
Example C78_no_cp_refuted : exists programs, programs (lit "cp") = Missing /\
  tell_single free_sys (Some (unparse bob_dir)) programs denied reason (unparse bob_dir) (lit "/usr/local") 10 (begin tree) (lit "x.h") false (lit "x.h") false = UB.
Proof. exists (fun _ => Missing). split; [reflexivity|]. vm_compute. reflexivity. Qed.

(** What rm has said is lost, whatever it was. *)
Example C78_rm_refuted output : told strict_sys all_run output [(lit "inc", false, lit "share/inc")] =
  Some (false, [(AnInfo, lit "share/inc" ++ CLEAR ++ lit ": Installing from 'inc'...");
                (AFatal, lit "Failed to copy 'inc' to '/usr/local/share/inc': (null)")]).
Proof. vm_compute. reflexivity. Qed.

(** The last character is lost when cp does not end its line. *)
Example C78_unended_refuted : told strict_sys all_run (fun _ => lit "disk full") [(lit "x.h", false, lit "x.h")] =
  Some (false, [(AnInfo, lit "x.h" ++ CLEAR ++ lit ": Installing from 'x.h'...");
                (AFatal, lit "Failed to copy 'x.h' to '/usr/local/x.h': disk ful")]).
Proof. vm_compute. reflexivity. Qed.
