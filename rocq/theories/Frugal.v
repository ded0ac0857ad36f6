(** * Deciding what needs rebuilding (src/frugal.c). *)

From Coq Require Import ZArith Ascii String Lia Bool List.
From Verif Require Import Base FileSys.
Import ListNotations.

(** frugal.c 23-38: every flag followed by a newline. ["%.*s"] stops at a NUL inside a flag, and the C string
    then ends there for the [strcmp] and [fprintf("%s")] below, so later flags are not seen: a flag with a NUL
    is the last one that counts. *)
Fixpoint flag_str (flags : list bytes) : bytes :=
  match flags with
  | [] => []
  | fl :: rest =>
    if has_byte NUL fl then cstr fl ++ [NL]
    else fl ++ [NL] ++ flag_str rest
  end.

Definition flags_path (out : bytes) : bytes := out ++ lit ".flags".
Definition deps_path (out : bytes) : bytes := out ++ lit ".deps".
Definition log_path (out : bytes) : bytes := out ++ lit ".log".

(** frugal.c 15-87. [set_owner] (84) is modelled in Install.v. *)
Definition frugal_flags (cw : bytes -> bool) (now : Z) (f : fs) (flags : list bytes) (out : bytes) : bool * fs :=
  let path := flags_path out in
  let s := flag_str flags in
  let write_out :=
    match write_file cw now f path s with
    | Some f' => (true, f')
    | None => (true, f)                     (* LOG_WARN, 77-80 *)
    end in
  match read_file f path with
  | None => write_out
  | Some prev => if bytes_eqb (cstr prev) s then (false, f) else write_out
  end.

(** frugal.c 111-126. *)
Fixpoint deps_newer (f : fs) (t0 : Z) (deps : list bytes) : option bool :=
  match deps with
  | [] => Some false
  | d :: rest =>
    match stat f d with
    | StatOk td => if (td >? t0)%Z then Some true else deps_newer f t0 rest
    | _ => None
    end
  end.

(** frugal.c 89-132 [frugal_mtime]: [Some b] is return value 0 with [*do_work = b], [None] is -1. *)
Definition frugal_mtime (f : fs) (deps : list bytes) (target : bytes) : option bool :=
  match stat f target with
  | StatNoEnt => Some true
  | StatErr => None
  | StatOk t0 => deps_newer f t0 deps
  end.
