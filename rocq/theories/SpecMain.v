(** * Specification vocabulary for the command line. *)

From Coq Require Import ZArith Ascii String Lia Bool List.
From Verif Require Import Base Cmd SpecCmd Main.
Import ListNotations.
Local Open Scope Z_scope.

(** ** Reading the command line *)

Definition option_letter (c : ascii) : Prop := c = "C"%char \/ c = "j"%char \/ c = "o"%char \/ c = "p"%char.

(** An operand is a lone dash or does not begin with a dash. *)
Definition operand (w : bytes) : Prop := w = lit "-" \/ forall r, w <> "-"%char :: r.

(** [reads permute words options operands]. *)
Inductive reads (permute : bool) : list bytes -> list (ascii * bytes) -> list bytes -> Prop :=
| reads_nothing : reads permute [] [] []
| reads_end rest : reads permute (lit "--" :: rest) [] rest
| reads_apart c v rest os ops : option_letter c -> reads permute rest os ops ->
    reads permute (["-"%char; c] :: v :: rest) ((c, v) :: os) ops
| reads_joined c v rest os ops : option_letter c -> v <> [] -> reads permute rest os ops ->
    reads permute (("-"%char :: c :: v) :: rest) ((c, v) :: os) ops
| reads_stop w rest : permute = false -> operand w -> reads permute (w :: rest) [] (w :: rest)
| reads_on w rest os ops : permute = true -> operand w -> reads permute rest os ops ->
    reads permute (w :: rest) os (w :: ops).

(** The argument of the last option with a letter. *)
Definition given (c : ascii) (os : list (ascii * bytes)) (v : bytes) : Prop :=
  exists pre post, os = pre ++ (c, v) :: post /\ forall w, ~ In (c, w) post.
Definition not_given (c : ascii) (os : list (ascii * bytes)) : Prop := forall w, ~ In (c, w) os.

Definition out_dir (os : list (ascii * bytes)) (out : bytes) : Prop :=
  given "o"%char os out \/ (not_given "o"%char os /\ out = lit ".bob").
Definition project_dir (os : list (ascii * bytes)) (dir : bytes) : Prop :=
  given "C"%char os dir \/ (not_given "C"%char os /\ dir = lit ".").
Definition prefix_dir (env : environment) (os : list (ascii * bytes)) (p : bytes) : Prop :=
  given "p"%char os p \/
  (not_given "p"%char os /\
   (env (lit "PREFIX") = Some p \/ (env (lit "PREFIX") = None /\ p = lit "/usr/local"))).

(** ** Numbers *)

(** A decimal numeral, possibly signed, and its value. *)
Definition digit_char (d : Z) : ascii := ascii_of_N (Z.to_N (48 + d)).
Definition value (ds : list Z) : Z := fold_left (fun a d => 10 * a + d) ds 0.
Inductive numeral : bytes -> Z -> Prop :=
| num_plain ds : ds <> [] -> Forall (fun d => 0 <= d <= 9) ds -> numeral (map digit_char ds) (value ds)
| num_plus ds : ds <> [] -> Forall (fun d => 0 <= d <= 9) ds -> numeral ("+"%char :: map digit_char ds) (value ds)
| num_minus ds : ds <> [] -> Forall (fun d => 0 <= d <= 9) ds -> numeral ("-"%char :: map digit_char ds) (- value ds).
Definition an_int (n : Z) : Prop := -2147483648 <= n <= 2147483647.

(** All job counts given are numbers in range. *)
Definition jobs_ok (os : list (ascii * bytes)) : Prop :=
  forall v, In ("j"%char, v) os -> exists n, numeral v n /\ 1 <= n <= 1024.

(** ** Phases *)

(** The phases an instruction needs, in order. *)
Definition phases (out prefix instr : bytes) : option (list event) :=
  let private := out ++ lit "/prefix" in
  let products := EvMkdir (out ++ lit "/bob") in
  if bytes_eqb instr (lit "build") then Some [EvSetup; products; EvBuild None]
  else if bytes_eqb instr (lit "install") then Some [EvSetup; products; EvBuild (Some prefix); EvInstall prefix]
  else if bytes_eqb instr (lit "run") || bytes_eqb instr (lit "sh")
  then Some [EvSetup; EvMkdir private; products; EvBuild (Some private); EvInstall private]
  else None.

Definition succeeds (S : system) (e : event) : Prop :=
  match e with
  | EvMkdir d => s_mkdir S d = true
  | EvSetup => s_setup S = 0
  | EvBuild p => s_build S p = 0
  | EvInstall p => s_install S p = 0
  end.

(** Phases return 0 or -1. *)
Definition zero_or_minus_one (z : Z) : Prop := z = 0 \/ z = -1.
Definition phases_return (S : system) : Prop :=
  zero_or_minus_one (s_setup S) /\ (forall p, zero_or_minus_one (s_build S p)) /\ (forall p, zero_or_minus_one (s_install S p)).

(** [stopped S l t]: of the phases [l] those in [t] were started, the last one failed, the others succeeded. *)
Definition stopped (S : system) (l t : list event) : Prop :=
  exists pre e post, l = pre ++ e :: post /\ t = pre ++ [e] /\ Forall (succeeds S) pre /\ ~ succeeds S e.

(** The conditions checked before the first phase. *)
Definition prepared (S : system) (project out prefix : bytes) : Prop :=
  s_project S project = true /\ s_out S out = true /\ s_exists S prefix = true /\ s_identified S = true.

(** A directory put first in a search path. *)
Definition put_first (dir : bytes) (prev : option bytes) : bytes :=
  match prev with None => dir | Some p => dir ++ lit ":" ++ p end.

(** ** Programs *)

(** The words on the command line for the program: "--" only separates. *)
Definition user_words (args : list bytes) : list bytes := filter (fun a => negb (bytes_eqb a (lit "--"))) args.

(** The program and its arguments. *)
Definition program_words (S : system) (instr : bytes) (args ws : list bytes) : Prop :=
  (instr = lit "run" /\ exists vec, s_run S = RunVec (map Some vec) /\ ws = map cstr vec ++ user_words args) \/
  (instr = lit "sh" /\ args <> [] /\ ws = user_words args) \/
  (instr = lit "sh" /\ args = [] /\ exists sh, s_env S (lit "SHELL") = Some sh /\ ws = [sh]).

(** The environment of the program. *)
Definition private_env (S : system) (out : bytes) (env : environment) : Prop :=
  env (lit "PATH") = Some (put_first (out ++ lit "/prefix/bin") (s_env S (lit "PATH"))) /\
  env (lit "LD_LIBRARY_PATH") = Some (put_first (out ++ lit "/prefix/lib") (s_env S (lit "LD_LIBRARY_PATH"))) /\
  forall n, n <> lit "PATH" -> n <> lit "LD_LIBRARY_PATH" -> env n = s_env S n.

(** How an instruction ends once all its phases succeeded. *)
Inductive afterwards (S : system) (out instr : bytes) (args : list bytes) : ends -> Prop :=
| after_build : instr = lit "build" \/ instr = lit "install" -> afterwards S out instr args (FExit 0)
| after_disabled : instr = lit "run" -> s_run S = RunNone -> afterwards S out instr args (FExit 0)
| after_nothing : instr = lit "run" -> program_words S instr args [] -> afterwards S out instr args (FExit 0)
| after_no_words : instr = lit "run" \/ instr = lit "sh" -> (forall ws, ~ program_words S instr args ws) -> s_run S <> RunNone \/ instr = lit "sh" ->
    afterwards S out instr args (FExit 1)
| after_not_found w ws : program_words S instr args (w :: ws) ->
    ~ runnable (s_look S) w ->
    (exists path, path = put_first (out ++ lit "/prefix/bin") (s_env S (lit "PATH")) /\
     forall dirs, path_dirs dirs -> path = path_of dirs -> nowhere (s_look S) dirs w) ->
    afterwards S out instr args (FExit 1)
| after_program w ws file env : program_words S instr args (w :: ws) -> runnable (s_look S) file -> private_env S out env ->
    afterwards S out instr args (FProgram file (w :: ws) env)
| after_separators : instr = lit "sh" -> program_words S instr args [] -> afterwards S out instr args FAbort.

(** Options before the instruction. *)
Inductive opt_words : list bytes -> list (ascii * bytes) -> Prop :=
| ow_none : opt_words [] []
| ow_apart c v rest os : option_letter c -> opt_words rest os -> opt_words (["-"%char; c] :: v :: rest) ((c, v) :: os)
| ow_joined c v rest os : option_letter c -> v <> [] -> opt_words rest os -> opt_words (("-"%char :: c :: v) :: rest) ((c, v) :: os).
