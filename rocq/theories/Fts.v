(** * Listing directories (src/class/fs.c). *)

From Coq Require Import ZArith Ascii String Lia Bool List.
From Verif Require Import Base Deps FileSys Vfs.
Import ListNotations.

Section Fts.
Variables (cwd : loc) (v : vfs).
(** The names readdir(3) gives for a directory, in its order, without "." and "..", and which directories may be read. *)
Variables (entries : loc -> list bytes) (readable : loc -> bool).

(** What fts_read(3) says of a path. Simplification: there is nothing but files, directories and links (no FTS_DEFAULT); FTS_SL, FTS_DOT and FTS_ERR, which fts does not give with
    FTS_LOGICAL alone if there is memory, are left out. *)
Inductive fts_info := FtsD | FtsDP | FtsDC | FtsF | FtsDNR | FtsNS | FtsSLNONE.

(** fts(3) puts a slash between a directory and a name, unless the path ends in one. *)
Definition child (p c : bytes) : bytes := match rev p with x :: _ => if byte_eqb x SLASH then p ++ c else p ++ SLASH :: c | [] => SLASH :: c end.

Fixpoint each (g : bytes -> option (list (fts_info * bytes))) (cs : list bytes) : option (list (fts_info * bytes)) :=
  match cs with
  | [] => Some []
  | c :: cs => match g c, each g cs with Some a, Some b => Some (a ++ b) | _, _ => None end
  end.

(** fts(3) with FTS_LOGICAL and no order, as fs.c 33-41 uses it: each path it visits, in order. Links are followed; a directory that is one of those it is
    being reached through ([anc]) is not entered again. [None]: out of fuel. *)
Fixpoint fts (n : nat) (anc : list loc) (p : bytes) : option (list (fts_info * bytes)) :=
  match n with
  | 0 => None
  | S n =>
    match lookup cwd v false p with
    | WFound l =>
      match v l with
      | Some (VDir _) =>
        if existsb (loc_eqb l) anc then Some [(FtsDC, p)]
        else if readable l then
          option_map (fun es => (FtsD, p) :: es ++ [(FtsDP, p)]) (each (fun c => fts n (l :: anc) (child p c)) (entries l))
        else Some [(FtsD, p); (FtsDNR, p)]
      | _ => Some [(FtsF, p)]
      end
    | WErr => Some [(FtsNS, p)]
    | _ => match lookup cwd v true p with WFound _ => Some [(FtsSLNONE, p)] | _ => Some [(FtsNS, p)] end
    end
  end.

(** fs.c 44-82: the paths put in the vector, and those an error is logged for. [depth] is 0. *)
Definition list_keeps (i : fts_info) : bool := match i with FtsDP | FtsSLNONE | FtsDNR | FtsNS => false | FtsD | FtsDC | FtsF => true end.
Definition list_warns (i : fts_info) : bool := match i with FtsSLNONE | FtsDNR | FtsNS => true | _ => false end.
Definition paths_of (keep : fts_info -> bool) (es : list (fts_info * bytes)) : list bytes := map snd (filter (fun e => keep (fst e)) es).

(** fs.c 28-41: what [list] puts in its vector. fts_open(3) refuses an empty path. [n] is more than the number of directories there are. *)
Definition fs_listing (n : nat) (p : bytes) : option (list bytes) :=
  match p with [] => None | _ => option_map (paths_of list_keeps) (fts n [] p) end.
Definition fs_warnings (n : nat) (p : bytes) : option (list bytes) :=
  match p with [] => None | _ => option_map (paths_of list_warns) (fts n [] p) end.
End Fts.
