(** * fsutil.c and install.c: copying, creating directories, changing owners, installing. *)

From Coq Require Import ZArith Ascii String Lia Bool List.
From Verif Require Import Base Deps FileSys Frugal Vfs.
Import ListNotations.

(** The files, the places whose owner Bob has changed (last first), and the copies Bob has asked for (last
    first). The last is a ghost: it records calls of [copy] and is never read. *)
Record vw := { nodes : vfs; chowned : list loc; copies : list (bytes * bytes) }.

Definition set_nodes (w : vw) (f : vfs) : vw := {| nodes := f; chowned := chowned w; copies := copies w |}.

Section Run.
Variable S : sys.
(** common.h [abs_out_path]: [None] until main has set it. *)
Variable abs_out : option bytes.

(** fsutil.c 85-125 [set_owner]; the boolean is "returned 0". *)
Definition set_owner (w : vw) (p : bytes) : bool * vw :=
  if negb (s_root S) then (true, w) else
  let change :=
    match lookup (s_cwd S) (nodes w) false p with   (* chown(path, owner, -1) follows links *)
    | WFound l => if s_chown S l
                  then (true, {| nodes := nodes w; chowned := l :: chowned w; copies := copies w |})
                  else (false, w)
    | _ => (false, w)
    end in
  match abs_out with
  | None => change
  | Some out =>
    match realpath (s_cwd S) (nodes w) p with
    | None => (false, w)
    | Some full => if is_prefix out full then change else (true, w)
    end
  end.

(** fsutil.c 127-140 [mkdir_wrapped]; the result of [set_owner] is ignored. *)
Definition mkdir_wrapped (now : Z) (w : vw) (p : bytes) : bool * vw :=
  match mkdir S now (nodes w) p with
  | MkExists => (true, w)
  | MkOk f _ => (true, snd (set_owner (set_nodes w f) p))
  | MkFail => (false, w)
  end.

(** fsutil.c 33-80 [copy], with 17-31 [rm]. Simplification: rm and cp are always found and can be started. *)
Definition copy (now : Z) (w : vw) (src dst : bytes) : bool * vw :=
  let w := {| nodes := nodes w; chowned := chowned w; copies := (src, dst) :: copies w |} in
  match view (s_cwd S) (nodes w) src with
  | Absent | Blocked => (false, w)
  | Dir _ =>
    match rm_rf S now (nodes w) dst with
    | (false, f) => (false, set_nodes w f)
    | (true, f) => let '(ok, f') := cp S now f (src ++ [SLASH]) dst in (ok, set_nodes w f')
    end
  | File _ _ => let '(ok, f') := cp S now (nodes w) src dst in (ok, set_nodes w f')
  end.

(** dirname(3). *)
Definition dirname (s : bytes) : bytes :=
  let r := drop_while is_slash (rev s) in
  let r2 := drop_while (fun x => negb (is_slash x)) r in
  match s, r, r2 with
  | _ :: _, [], _ => [SLASH]
  | _, _, [] => dot
  | _, _, _ => match drop_while is_slash r2 with [] => [SLASH] | r3 => rev r3 end
  end.

(** install.c 114-131: create [bits] one inside the other. *)
Fixpoint mkdirs (now : Z) (w : vw) (accum : bytes) (bits : list bytes) : bool * vw :=
  match bits with
  | [] => (true, w)
  | bit :: rest =>
    if is_nil bit then mkdirs now w accum rest
    else
      let p := accum ++ SLASH :: bit in
      match mkdir_wrapped now w p with
      | (false, w') => (false, w')
      | (true, w') => mkdirs now w' p rest
      end
  end.

(** install.c 80-183 [install_single]. [out]: [abs_out_path]. [key] and [val] are the bytes of the two strings;
    both are copied with strndup, which stops at a NUL. Abort: the asserts of 102-103. *)
Definition install_single (out prefix : bytes) (now : Z) (w : vw) (key val : bytes) (cookie : bool) : res (bool * vw) :=
  let key := cstr key in
  let val := cstr val in
  match realpath (s_cwd S) (nodes w) key with
  | None => Ok (false, w)
  | Some path =>
    let is_cookie := is_prefix out path in
    if is_cookie && negb cookie then Ok (true, w)
    else if negb is_cookie && cookie then Abort
    else
      match mkdirs now w prefix (strsep SLASH (dirname val)) with
      | (false, w') => Ok (false, w')
      | (true, w') =>
        let install_path := prefix ++ SLASH :: val in
        match frugal_mtime (view (s_cwd S) (nodes w')) [key] install_path with
        | None => Ok (false, w')
        | Some false => Ok (true, w')
        | Some true => Ok (copy now w' key install_path)
        end
      end
  end.

(** install.c 191-199. [clock i] is the time at which the [i]th entry is handled. *)
Fixpoint install_entries (out prefix : bytes) (clock : nat -> Z) (i : nat) (w : vw) (es : list (bytes * bytes))
  : res (bool * vw) :=
  match es with
  | [] => Ok (true, w)
  | (k, v) :: rest =>
    match install_single out prefix (clock i) w k v false with
    | Ok (true, w') => install_entries out prefix clock (Datatypes.S i) w' rest
    | r => r
    end
  end.
End Run.

(** The value of the build script's [install] variable. *)
Inductive script_val := SNone | SMap (es : list (option bytes * option bytes)) | SOther.
(* in an entry, [None] is anything but a string *)

(** install.c 16-17: [install_map] and [prefix]. *)
Record install_state := { i_map : option (list (bytes * bytes)); i_prefix : option bytes }.

Fixpoint all_strings (es : list (option bytes * option bytes)) : option (list (bytes * bytes)) :=
  match es with
  | [] => Some []
  | (Some k, Some v) :: rest => option_map (cons (k, v)) (all_strings rest)
  | _ => None
  end.

(** install.c 19-78 [setup_install_map]. [prefix] is left as it was unless a map is found. *)
Definition setup_install_map (st : install_state) (v : option script_val) (prefix : option bytes)
  : bool * install_state :=
  let st := {| i_map := None; i_prefix := i_prefix st |} in
  match v with
  | None => (false, st)                       (* never declared *)
  | Some SNone => (true, st)
  | Some SOther => (false, st)
  | Some (SMap []) => (true, st)
  | Some (SMap es) =>
    match all_strings es with
    | None => (false, st)
    | Some m => (true, {| i_map := Some m; i_prefix := prefix |})
    end
  end.

(** install.c 185-202 [install_all]. *)
Definition install_all (S : sys) (out : bytes) (st : install_state) (clock : nat -> Z) (w : vw) : res (bool * vw) :=
  match i_map st, i_prefix st with
  | Some m, Some prefix => install_entries S (Some out) out prefix clock 0 w m
  | _, _ => Ok (true, w)
  end.

(** flamingo.c [flamingo_cstrcmp(s, cstr, n)] = 0 as [cookie_to_output] uses it: [n] is the length of [s]. *)
Definition same_name (key cookie : bytes) : bool := bytes_eqb key cookie.

(** install.c 204-232 [cookie_to_output]. *)
Definition cookie_to_output (st : install_state) (cookie : bytes) : option (bytes * bytes) :=
  match i_map st with
  | None => None
  | Some m => find (fun e => same_name (fst e) cookie) m
  end.

(** install.c 234-247 [install_cookie]. *)
Definition install_cookie (S : sys) (out : bytes) (st : install_state) (now : Z) (w : vw) (cookie : bytes)
  : res (bool * vw) :=
  match i_prefix st with
  | None => Ok (true, w)
  | Some prefix =>
    match cookie_to_output st cookie with
    | None => Ok (true, w)
    | Some (k, v) => install_single S (Some out) out prefix now w k v true
    end
  end.

(** main.c 150-166: create the output directory, then find its absolute path. [None]: Bob gives up. *)
Definition prepare_out (S : sys) (now : Z) (w : vw) (out_path : bytes) : option (bytes * vw) :=
  match mkdir_wrapped S None now w out_path with
  | (false, _) => None
  | (true, w') => match realpath (s_cwd S) (nodes w') out_path with Some out => Some (out, w') | None => None end
  end.
