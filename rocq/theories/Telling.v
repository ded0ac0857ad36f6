(** * What Bob says while it installs (install.c, fsutil.c, frugal.c, cmd.c).

    Install.v again, with the messages, and with programs that may be missing or fail to start. Simplifications: not
    debugging; warnings are left out (owners that could not be changed, a pipe that could not be read); what a program
    writes fits into its pipe (otherwise C24), and pipe(2) works. *)

From Coq Require Import ZArith Ascii String Lia Bool List.
From Verif Require Import Term Base Deps FileSys Frugal Vfs Install.
Import ListNotations.

(** logging.h: LOG_FATAL, LOG_ERROR, LOG_INFO and LOG_SUCCESS. *)
Inductive level := AFatal | AnError | AnInfo | ASuccess.
Definition msg : Type := level * bytes.

(** A program is not along $PATH, or posix_spawnp(3) does not start it, or it runs. *)
Inductive program := Missing | Unstartable | Runs.

Definition DQUOTE : bytes := ["034"%char].
(** printf("%s", NULL). Simplification: the C library of Linux; the standard leaves it undefined. *)
Definition shown (s : option bytes) : bytes := match s with Some s => s | None => lit "(null)" end.

Section Run.
Variable S : sys.
Variable abs_out : option bytes.
(** Programs by name. *)
Variable programs : bytes -> program.
(** What a program run with these arguments has written when it fails, the text for a signal included (cmd.c 271-281). *)
Variable output : list bytes -> bytes.
(** strerror(3) after a call about this path has failed. *)
Variable why : bytes -> bytes.

Definition failed_call (name : string) (p : bytes) : bytes := lit name ++ lit "(" ++ DQUOTE ++ p ++ DQUOTE ++ lit "): " ++ why p.

(** fsutil.c 17-31 [rm]. 25: [*err] is NULL when [copy] is called (install.c 162), so that what rm has said is not
    read. cmd.c 133: the program is missing. 191: an error of posix_spawnp is not noticed, and [pid] is uninitialised. *)
Definition tell_rm (now : Z) (f : vfs) (dst : bytes) : res (bool * vfs * list msg) :=
  match programs (lit "rm") with
  | Missing => Ok (false, f, [(AnError, lit "Couldn't find binary 'rm' in '$PATH'")])
  | Unstartable => UB
  | Runs => let '(ok, f') := rm_rf S now f dst in Ok (ok, f', [])
  end.

(** fsutil.c 64-79: what cp has said, but for its last byte. When cp is missing, [cmd_read_out] reads [cmd.sig], which
    is uninitialised (fsutil.c 64, cmd.c 271). *)
Definition tell_cp (now : Z) (f : vfs) (src dst : bytes) : res (bool * vfs * option bytes) :=
  match programs (lit "cp") with
  | Missing => UB
  | Unstartable => UB
  | Runs =>
    let '(ok, f') := cp S now f src dst in
    Ok (ok, f', if ok then None else Some (removelast (cstr (output [lit "cp"; lit "-RP"; src; dst]))))
  end.

(** fsutil.c 33-80 [copy]: also what [*err] is afterwards. *)
Definition tell_copy (now : Z) (w : vw) (src dst : bytes) : res (bool * vw * option bytes * list msg) :=
  let w := {| nodes := nodes w; chowned := chowned w; copies := (src, dst) :: copies w |} in
  match view (s_cwd S) (nodes w) src with
  | Absent | Blocked => Ok (false, w, None, [(AnError, failed_call "stat" src)])
  | Dir _ =>
    match tell_rm now (nodes w) dst with
    | Ok (false, f, ms) => Ok (false, set_nodes w f, None, ms)
    | Ok (true, f, ms) =>
      match tell_cp now f (src ++ [SLASH]) dst with
      | Ok (ok, f', e) => Ok (ok, set_nodes w f', e, ms)
      | Err => Err | Abort => Abort | UB => UB | OutOfFuel => OutOfFuel
      end
    | Err => Err | Abort => Abort | UB => UB | OutOfFuel => OutOfFuel
    end
  | File _ _ =>
    match tell_cp now (nodes w) src dst with
    | Ok (ok, f', e) => Ok (ok, set_nodes w f', e, [])
    | Err => Err | Abort => Abort | UB => UB | OutOfFuel => OutOfFuel
    end
  end.

(** install.c 114-131. *)
Fixpoint tell_mkdirs (now : Z) (w : vw) (accum : bytes) (bits : list bytes) : bool * vw * list msg :=
  match bits with
  | [] => (true, w, [])
  | bit :: rest =>
    if is_nil bit then tell_mkdirs now w accum rest
    else
      let p := accum ++ SLASH :: bit in
      match mkdir_wrapped S abs_out now w p with
      | (false, w') => (false, w', [(AFatal, failed_call "mkdir" p)])
      | (true, w') => tell_mkdirs now w' p rest
      end
  end.

(** frugal.c 99-117, for one dependency. *)
Definition mtime_msg (f : fs) (dep target : bytes) : msg :=
  (AFatal,
   match stat f target with
   | StatErr => lit "install: Failed to stat target '" ++ target ++ lit "': " ++ why target
   | _ => lit "install: Failed to stat dependency '" ++ dep ++ lit "': " ++ why dep
   end).

(** install.c 80-183 [install_single]. [ended]: a NUL comes after the bytes of the key. Copies of strings have one
    (val.h 109) and so have the names Bob makes up (cookie.h 19, linker.c 201); literals (literal.h 87) and sums
    (binary_expr.h 233) have none, and 88 prints the key without its length. *)
Definition tell_single (out prefix : bytes) (now : Z) (w : vw) (key : bytes) (ended : bool) (val : bytes) (cookie : bool)
  : res (bool * vw * list msg) :=
  let k := cstr key in
  let v := cstr val in
  match realpath (s_cwd S) (nodes w) k with
  | None =>
    if ended || has_byte NUL key
    then Ok (false, w, [(AFatal, lit "Couldn't find source file (from install map): " ++ k)])
    else UB
  | Some path =>
    let is_cookie := is_prefix out path in
    let pre := if is_cookie then lit "pre" else [] in
    if is_cookie && negb cookie then Ok (true, w, [])
    else if negb is_cookie && cookie then Abort
    else
      match tell_mkdirs now w prefix (strsep SLASH (dirname v)) with
      | (false, w', ms) => Ok (false, w', ms)
      | (true, w', ms) =>
        let install_path := prefix ++ SLASH :: v in
        match frugal_mtime (view (s_cwd S) (nodes w')) [k] install_path with
        | None => Ok (false, w', ms ++ [mtime_msg (view (s_cwd S) (nodes w')) k install_path])
        | Some false => Ok (true, w', ms ++ [(ASuccess, v ++ CLEAR ++ lit ": Already " ++ pre ++ lit "installed.")])
        | Some true =>
          let begin :=
            (AnInfo, if is_cookie then v ++ CLEAR ++ lit ": Preinstalling from cookie..."
                     else v ++ CLEAR ++ lit ": Installing from '" ++ k ++ lit "'...") in
          match tell_copy now w' k install_path with
          | Ok (false, w2, e, ms2) =>
            Ok (false, w2, ms ++ begin :: ms2 ++
                [(AFatal, lit "Failed to copy '" ++ k ++ lit "' to '" ++ install_path ++ lit "': " ++ shown e)])
          | Ok (true, w2, e, ms2) =>
            Ok (true, w2, ms ++ begin :: ms2 ++ [(ASuccess, v ++ CLEAR ++ lit ": Successfully " ++ pre ++ lit "installed.")])
          | Err => Err | Abort => Abort | UB => UB | OutOfFuel => OutOfFuel
          end
        end
      end
  end.

(** install.c 191-199. *)
Fixpoint tell_entries (out prefix : bytes) (clock : nat -> Z) (i : nat) (w : vw) (es : list (bytes * bool * bytes))
  : res (bool * vw * list msg) :=
  match es with
  | [] => Ok (true, w, [])
  | (k, ended, v) :: rest =>
    match tell_single out prefix (clock i) w k ended v false with
    | Ok (true, w', ms) =>
      match tell_entries out prefix clock (Datatypes.S i) w' rest with
      | Ok (ok, w2, ms2) => Ok (ok, w2, ms ++ ms2)
      | r => r
      end
    | r => r
    end
  end.
End Run.
