(** * Specification vocabulary: what is said about an installation. *)

From Coq Require Import ZArith Ascii String Lia Bool List.
From Verif Require Import Term Base Deps FileSys Frugal Vfs Install Telling.
Import ListNotations.

(** What became of an entry of the install map with this destination. *)
Definition done_line (dst : bytes) (m : msg) : Prop :=
  m = (ASuccess, dst ++ CLEAR ++ lit ": Already installed.") \/ m = (ASuccess, dst ++ CLEAR ++ lit ": Successfully installed.").

(** The last of [ms] is [m], and it is the only one that says how it went. *)
Definition ends_with (ms : list msg) (m : msg) : Prop :=
  exists before, ms = before ++ [m] /\ Forall (fun x : msg => fst x = AnInfo \/ fst x = AnError) before.

Section Spec.
Variable S : sys.
Variable programs : bytes -> program.
Variable output : list bytes -> bytes.
Variable why : bytes -> bytes.

Definition copy_failed (key target said : bytes) : bytes := lit "Failed to copy '" ++ key ++ lit "' to '" ++ target ++ lit "': " ++ said.

(** What went wrong with the source [key] on its way to [dst] below [prefix], where [f] are the files now, and the
    message for it. *)
Inductive explains (f : vfs) (now : Z) (key prefix dst : bytes) : bytes -> Prop :=
(* the source is not there *)
| ex_source : realpath (s_cwd S) f key = None ->
    explains f now key prefix dst (lit "Couldn't find source file (from install map): " ++ key)
(* a directory cannot be made *)
| ex_dir d : mkdir S now f (prefix ++ d) = MkFail ->
    explains f now key prefix dst (lit "mkdir(" ++ DQUOTE ++ (prefix ++ d) ++ DQUOTE ++ lit "): " ++ why (prefix ++ d))
(* the target or the source cannot be looked at *)
| ex_target : stat (view (s_cwd S) f) (prefix ++ SLASH :: dst) = StatErr ->
    explains f now key prefix dst (lit "install: Failed to stat target '" ++ (prefix ++ SLASH :: dst) ++ lit "': " ++ why (prefix ++ SLASH :: dst))
| ex_look : (forall t, stat (view (s_cwd S) f) key <> StatOk t) ->
    explains f now key prefix dst (lit "install: Failed to stat dependency '" ++ key ++ lit "': " ++ why key)
(* cp has failed; all it has said but the last character is shown *)
| ex_cp f0 src : src = key \/ src = key ++ [SLASH] -> cp S now f0 src (prefix ++ SLASH :: dst) = (false, f) ->
    explains f now key prefix dst (copy_failed key (prefix ++ SLASH :: dst) (removelast (cstr (output [lit "cp"; lit "-RP"; src; prefix ++ SLASH :: dst]))))
(* the source is gone, or what is to be replaced by a directory cannot be removed *)
| ex_gone : (forall c t, view (s_cwd S) f key <> File c t) -> (forall t, view (s_cwd S) f key <> Dir t) ->
    explains f now key prefix dst (copy_failed key (prefix ++ SLASH :: dst) (lit "(null)"))
| ex_rm f0 t : view (s_cwd S) f0 key = Dir t -> programs (lit "rm") = Missing \/ rm_rf S now f0 (prefix ++ SLASH :: dst) = (false, f) ->
    explains f now key prefix dst (copy_failed key (prefix ++ SLASH :: dst) (lit "(null)")).

(** The messages [l] about an entry that has been dealt with: none if it is a product, which the build installs. *)
Definition dealt_with (out : bytes) (e : bytes * bool * bytes) (l : list msg) : Prop :=
  (exists f path, realpath (s_cwd S) f (cstr (fst (fst e))) = Some path /\ is_prefix out path = true /\ l = []) \/
  exists m, ends_with l m /\ done_line (cstr (snd e)) m.
End Spec.

(** What Bob says of an entry that it has copied or found in place, while building ([pre]) or installing. *)
Definition found_line (pre : bool) (dst : bytes) : msg := (ASuccess, dst ++ CLEAR ++ lit ": Already " ++ (if pre then lit "pre" else []) ++ lit "installed.").
Definition copied_line (pre : bool) (dst : bytes) : msg := (ASuccess, dst ++ CLEAR ++ lit ": Successfully " ++ (if pre then lit "pre" else []) ++ lit "installed.").
