(** * Names of build products and of their side files (src/cookie.h, src/class/linker.c). *)

From Coq Require Import ZArith Ascii String Lia Bool List.
From Verif Require Import Base Hash.
Import ListNotations.

(** cookie.h 23-27, the loop replacing '/' by '_' at the indices [from, from + n) of the buffer. *)
Fixpoint replace_slash (from n : nat) (s : bytes) : bytes :=
  match s with
  | [] => []
  | c :: s' =>
    match from with
    | S from' => c :: replace_slash from' n s'
    | O =>
      match n with
      | O => c :: s'
      | S n' => (if byte_eqb c SLASH then USCORE else c) :: replace_slash O n' s'
      end
    end
  end.

(** cookie.h 16-30 [gen_cookie(path, path_size, ext)], with the global [out_path] a parameter.
    ["%.*s"] stops at a NUL inside [path]; the loop runs over [path_size] bytes regardless, so it may
    run past the end of the formatted string (terminator included): undefined behaviour.
    Simplification: [(int) path_size] is taken to be [path_size] (paths shorter than 2^31). *)
Definition gen_cookie (signed : bool) (out path ext : bytes) : res bytes :=
  let prefix := out ++ lit "/bob/" in
  let buf := prefix ++ cstr path ++ lit ".cookie." ++ hex64 (str_hash signed path) ++ lit "." ++ ext in
  if Nat.ltb (length buf + 1) (length prefix + length path)
  then UB
  else Ok (replace_slash (length prefix) (length path) buf).

(** The two products of the [Linker] class. *)
Inductive link_kind := Link | Archive.

(** linker.c 165, 201: "link"/"l" or "archive"/"a" ([call], 226-241, passes the kind). *)
Definition link_infix (k : link_kind) : bytes :=
  match k with Link => lit "link" | Archive => lit "archive" end.
Definition link_ext (k : link_kind) : bytes :=
  match k with Link => lit "l" | Archive => lit "a" end.

(** linker.c 185-198 ([prep_link]): XOR of the hashes of the sources, starting from 0. *)
Definition link_hash (signed : bool) (srcs : list bytes) : Z :=
  fold_left (fun h s => Z.lxor h (str_hash signed s)) srcs 0%Z.

(** linker.c 200-203: asprintf("%s/bob/linker.%s.cookie.%" PRIx64 ".%s", ...). *)
Definition link_cookie (signed : bool) (out : bytes) (k : link_kind) (srcs : list bytes) : bytes :=
  out ++ lit "/bob/linker." ++ link_infix k ++ lit ".cookie." ++ hex64 (link_hash signed srcs)
      ++ lit "." ++ link_ext k.

(** Side files: frugal.c 16-17 (".flags"), cc.c 77-78 and 187-188 (".deps"), cmd.c 309-310 (".log"). *)
Inductive side := SFlags | SDeps | SLog.
Definition side_ext (k : side) : bytes :=
  match k with SFlags => lit ".flags" | SDeps => lit ".deps" | SLog => lit ".log" end.
Definition side_file (k : side) (out : bytes) : bytes := out ++ side_ext k.

(** Values checked by tests/frugality.sh of the project. *)
Example hash_src1 : hex64 (str_hash true (lit "src1.c")) = lit "6531c664ecf".
Proof. vm_compute. reflexivity. Qed.
Example hash_src2 : hex64 (str_hash true (lit "src2.c")) = lit "6531c665310".
Proof. vm_compute. reflexivity. Qed.
Example cookie_src1 :
  gen_cookie true (lit ".bob") (lit "src1.c") (lit "o") = Ok (lit ".bob/bob/src1.c.cookie.6531c664ecf.o").
Proof. vm_compute. reflexivity. Qed.
Example cookie_link :
  link_cookie true (lit ".bob") Link
    [lit ".bob/bob/src1.c.cookie.6531c664ecf.o"; lit ".bob/bob/src2.c.cookie.6531c665310.o"]
  = lit ".bob/bob/linker.link.cookie.33faaddbf5af8a68.l".
Proof. vm_compute. reflexivity. Qed.
