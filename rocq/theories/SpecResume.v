(** * Specification vocabulary: installations that are cut short. *)

From Coq Require Import ZArith Ascii String Lia Bool List.
From Verif Require Import Base Deps FileSys Frugal Vfs Install SpecInstall.
Import ListNotations.

(** Only the tree at [d] has changed, and perhaps the time of the directory it is in. *)
Definition only_at (d : loc) (f f' : vfs) : Prop :=
  forall q, below d q \/ f' q = f q \/ (q = tl d /\ is_directory (f q) /\ is_directory (f' q)).

Section Spec.
Variables (S : sys) (out prefix : bytes) (P : loc) (clock : nat -> Z).

(** Where Bob may be stopped in the [i]th entry, by being killed or by a failure. The last argument but one is the entry
    at whose destination a program was at work. *)
Inductive halts (i : nat) (w : vw) : list (bytes * bytes) -> option (bytes * bytes) -> vw -> Prop :=
(* between two entries, or after the last *)
| h_between es : halts i w es None w
(* between two directories: the first [n] have been made *)
| h_dirs n k v es b w1 :
    mkdirs S (Some out) (clock i) w prefix (firstn n (strsep SLASH (dirname v))) = (b, w1) ->
    halts i w ((k, v) :: es) None w1
(* between the removal of what was there and the copy *)
| h_removed k v es w1 f :
    mkdirs S (Some out) (clock i) w prefix (strsep SLASH (dirname v)) = (true, w1) ->
    rm_rf S (clock i) (nodes w1) (prefix ++ SLASH :: v) = (true, f) ->
    halts i w ((k, v) :: es) None (set_nodes w1 f)
(* while rm or cp was at work, or because it failed *)
| h_at_work k v es w1 f :
    mkdirs S (Some out) (clock i) w prefix (strsep SLASH (dirname v)) = (true, w1) ->
    only_at (dest P v) (nodes w1) f ->
    halts i w ((k, v) :: es) (Some (k, v)) (set_nodes w1 f).

(** An installation of [m] that is cut short somewhere. *)
Definition cut_short (w : vw) (m : list (bytes * bytes)) (at_work : option (bytes * bytes)) (w' : vw) : Prop :=
  exists done todo w1, m = done ++ todo /\
    install_all S out {| i_map := Some done; i_prefix := Some prefix |} clock w = Ok (true, w1) /\
    halts (length done) w1 todo at_work w'.
End Spec.

(** No symbolic links are left at the destinations or under them. *)
Definition no_links (P : loc) (f : vfs) (m : list (bytes * bytes)) : Prop :=
  forall k v q, In (k, v) m -> below (dest P v) q -> ~ is_link (f q).

(** If a program was at work at the destination of an entry, it has left it [fair]: older than the source, or complete.
    [f0]: the files at the start, [f]: those left. *)
Definition left_fair (cwd P : loc) (f0 : vfs) (at_work : option (bytes * bytes)) (f : vfs) : Prop :=
  match at_work with
  | None => True
  | Some (k, v) => forall s, lookup cwd f0 false k = WFound s -> fair f s (dest P v)
  end.
