(** * What is in a directory. *)

From Coq Require Import ZArith Ascii String Lia Bool List.
From Verif Require Import Base Deps FileSys Vfs SpecInstall Fts.
Import ListNotations.

Section Contents.
Variables (cwd : loc) (v : vfs) (readable : loc -> bool).

(** [q] is the path [p] itself or that of something in the directory at [p], in the directories in it, and so on, and leads to [l]. A directory that is reached through itself, by a
    link, is not gone into. [anc] are the directories on the way. *)
Inductive reached (p : bytes) : list loc -> loc -> bytes -> Prop :=
| reached_self l : lookup cwd v false p = WFound l -> reached p [] l p
| reached_in anc d q c l : reached p anc d q -> is_directory (v d) -> ~ In d anc -> readable d = true -> v (c :: d) <> None ->
    lookup cwd v false (child q c) = WFound l -> reached p (d :: anc) l (child q c).
Definition contents (p q : bytes) : Prop := exists anc l, reached p anc l q.

(** [q] is in the directory at [p] but can't be examined (a link that leads nowhere), or is a directory that can't be read. *)
Inductive skipped (p : bytes) : bytes -> Prop :=
| skipped_self : (forall l, lookup cwd v false p <> WFound l) -> skipped p p
| skipped_in anc d q c : reached p anc d q -> is_directory (v d) -> ~ In d anc -> readable d = true -> v (c :: d) <> None ->
    (forall l, lookup cwd v false (child q c) <> WFound l) -> skipped p (child q c)
| skipped_directory anc d q : reached p anc d q -> is_directory (v d) -> ~ In d anc -> readable d = false -> skipped p q.

(** The directories and the names in them are known. *)
Record catalogued (entries : loc -> list bytes) (dirs : list loc) : Prop := {
  ca_names : forall d c, is_directory (v d) -> (In c (entries d) <-> v (c :: d) <> None);
  ca_once : forall d, is_directory (v d) -> NoDup (entries d);
  ca_plain : forall d c, v (c :: d) <> None -> c <> [] /\ ~ In SLASH c /\ nul_free c;
  ca_dirs : forall d, is_directory (v d) -> In d dirs;
}.
End Contents.

(** [a] comes before [b]. *)
Definition comes_before (l : list bytes) (a b : bytes) : Prop := exists x y z, l = x ++ a :: y ++ b :: z.
