(** * Include dependencies: extraction and recording (src/class/cc.c). *)

From Coq Require Import ZArith Ascii String Lia Bool List.
From Verif Require Import Base FileSys Frugal.
Import ListNotations.

(** Repeated [strsep(&s, "<c>")]: all fields, empty ones included. *)
Fixpoint strsep (c : ascii) (s : bytes) : list bytes :=
  match s with
  | [] => [[]]
  | x :: s' =>
    if byte_eqb x c then [] :: strsep c s'
    else match strsep c s' with
         | fld :: rest => (x :: fld) :: rest
         | [] => [[x]]
         end
  end.

(** cc.c 93. *)
Definition skip_token (tok : bytes) : bool :=
  match tok with
  | [] => true
  | x :: _ => byte_eqb x COLON || byte_eqb x BACKSLASH
  end.

(** cc.c 97-101: drop one trailing newline. *)
Fixpoint strip_nl (tok : bytes) : bytes :=
  match tok with
  | [] => []
  | [x] => if byte_eqb x NL then [] else [x]
  | x :: rest => x :: strip_nl rest
  end.

(** cc.c 89-104: the names written to the dependency file, from the compiler's output [out] (a C string). *)
Definition parse_deps (out : bytes) : list bytes :=
  map strip_nl (filter (fun tok => negb (skip_token tok)) (strsep SPACE (cstr out))).

(** cc.c 103: the content of the dependency file. *)
Definition deps_content (hs : list bytes) : bytes := concat (map (fun h => h ++ [NL]) hs).

(** cc.c 209-220: the names read back. *)
Definition read_deps (content : bytes) : list bytes :=
  filter (fun h => match h with [] => false | _ => true end) (strsep NL (cstr content)).
