(** * What errors and imports in scripts are meant to do. *)

From Coq Require Import ZArith Ascii String Lia Bool List.
From Verif Require Import Base FlAst FlState FlInterp SpecScript SpecScope.
Import ListNotations.

(** ** Errors *)

(** The line shown to the user: the name of the program, the position (always 0:0) and the message. *)
Definition line {H} (cf : conf H) (msg : bytes) : bytes := cf_prog cf ++ lit ":0:0: " ++ msg.

(** [s] with [text] for its error message. *)
Definition with_error {H} (text : bytes) (s : st H) : st H :=
  St (cells s) (bufs s) (bodies s) (scopes s) (envs s) (cur_env s) (cur_body s) (cur_rv s) (members s) (import_paths s) (Some text) (prints s) (host s).

(** An outcome is orderly if, when it is a failure, there is an error message, unless the program around the engine has told the user ([told]). *)
Definition orderly {H A} (cf : conf H) (told : H -> Prop) (o : out H A) : Prop :=
  match o with
  | Ret _ s => err s = None
  | Fail s => told (host s) \/ exists msg, err s = Some (line cf msg) /\ length (line cf msg) < 256
  | _ => True
  end.

(** The callbacks of the program report their failures too. *)
Definition reports_failures {H} (cf : conf H) (told : H -> Prop) : Prop :=
  (forall f args s, err s = None -> orderly cf told (cf_ext cf f args s)) /\ (forall a s, err s = None -> orderly cf told (cf_decl cf a s)) /\
  (forall a args s, err s = None -> orderly cf told (cf_inst cf a args s)) /\ (forall d s, err s = None -> orderly cf told (cf_free cf d s)).

(** ** Imports *)

(** [a.b.c] is the file a/b/c.fl. *)
Definition file_name (components : list bytes) : bytes :=
  match components with
  | [] => []
  | x :: l => x ++ flat_map (fun y => lit "/" ++ y) l
  end ++ lit ".fl".
(** File [p] in directory [d]. *)
Definition in_dir (d p : bytes) : bytes := d ++ lit "/" ++ p.

(** The members that strings and vectors have (src/flamingo/ptm). *)
Definition built_in : list (kind * string * ptm) :=
  [(TStr, "len", PtStrLen); (TStr, "endswith", PtEndswith); (TStr, "startswith", PtStartswith);
   (TVec, "len", PtVecLen); (TVec, "map", PtMap); (TVec, "where", PtWhere)]%string.

(** [s0]: the state in which a file starts that is imported in [s]. It has the scopes, the variables and the environment of the importing script, and
    an engine of its own. *)
Definition entered {H} (s s0 : st H) : Prop :=
  cells s0 = cells s ++ map (fun m => Cell (NOwn (lit (snd (fst m)))) 1 None (PFn (Fn (KPtm (snd m)) [] None None None))) built_in /\ bufs s0 = bufs s /\ bodies s0 = bodies s /\ scopes s0 = scopes s /\ envs s0 = envs s /\ cur_env s0 = cur_env s /\
  prints s0 = prints s /\ host s0 = host s /\ cur_body s0 = None /\ cur_rv s0 = None /\ import_paths s0 = [] /\ err s0 = None /\
  let a := length (cells s) in
  members s0 = [(TStr, lit "len", a); (TStr, lit "endswith", a + 1); (TStr, lit "startswith", a + 2);
                (TVec, lit "len", a + 3); (TVec, lit "map", a + 4); (TVec, lit "where", a + 5)].

(** Back in the importing script: what the imported one has done, and the engine as it was. *)
Definition left {H} (s s1 : st H) : st H :=
  St (cells s1) (bufs s1) (bodies s1) (scopes s1) (envs s1) (cur_env s1) (cur_body s) (cur_rv s) (members s) (import_paths s) (err s) (prints s1) (host s1).

(** The error message after a failure (flamingo.h [flamingo_err]). *)
Definition said {H} (s : st H) (msg : bytes) : Prop := err s = Some msg \/ err s = None /\ msg = lit "no errors".

(** The outcome of importing the file at [path]. *)
Inductive imports {H} (cf : conf H) (n : nat) (path : bytes) (s : st H) : out H unit -> Prop :=
| imports_missing why : cf_file cf path = NoFile why ->
    imports cf n path s (reports cf (lit "failed to import '" ++ path ++ lit "': " ++ why) s)
| imports_done ss s0 s1 : cf_file cf path = File ss -> entered s s0 -> exec cf n ss s0 = Ret tt s1 -> imports cf n path s (Ret tt (left s s1))
| imports_failed ss s0 s1 msg : cf_file cf path = File ss -> entered s s0 -> exec cf n ss s0 = Fail s1 -> said s1 msg ->
    imports cf n path s (reports cf (lit "failed to import '" ++ path ++ lit "': flamingo_run: " ++ msg) (left s s1))
| imports_stopped ss s0 o : cf_file cf path = File ss -> entered s s0 -> exec cf n ss s0 = o ->
    (o = Died \/ o = NoFuel \/ exists u, o = Undef u) -> imports cf n path s o.
