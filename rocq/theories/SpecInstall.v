(** * Specification vocabulary for installing and owners. *)

From Coq Require Import ZArith Ascii String Lia Bool List.
From Verif Require Import Base Deps FileSys Vfs Install.
Import ListNotations.

(** [q] is [d] or lies in the tree under it. *)
Definition below (d q : loc) : Prop := exists x, q = x ++ d.

Definition is_link (n : option node) : Prop := exists t, n = Some (VLink t).
Definition is_directory (n : option node) : Prop := exists t, n = Some (VDir t).

(** A destination such as "lib/libx.so": at least one name, none of them "." or "..", and no slash at the end. *)
Definition ordinary (v : bytes) : Prop :=
  names v <> [] /\ Forall (fun c => c <> dot /\ c <> dotdot) (names v) /\ slash_end v = false /\ nul_free v.

(** Where such a destination is under the prefix [P]. *)
Definition dest (P : loc) (v : bytes) : loc := rev (names v) ++ P.

Definition dests (P : loc) (es : list (bytes * bytes)) : list loc := map (fun e => dest P (snd e)) es.

(** The file system without the trees at [ds]. *)
Definition hide (ds : list loc) (f : vfs) : vfs := fun q => if existsb (fun d => belowb d q) ds then None else f q.

(** Neither lies in the other's tree. *)
Definition apart (a b : loc) : Prop := ~ below a b /\ ~ below b a.

(** The destinations can be told apart, and no link leads away from them: the prefix is an existing directory; between
    it and each destination, and at or under each destination, there are no symbolic links; no destination
    is in another's tree. *)
Record tame (cwd : loc) (prefix : bytes) (P : loc) (f : vfs) (es : list (bytes * bytes)) : Prop := {
  tm_prefix : lookup cwd (hide (dests P es) f) false prefix = WFound P;
  tm_dir : is_directory (f P);
  tm_vals : forall k v, In (k, v) es -> ordinary v;
  tm_way : forall k v q, In (k, v) es -> below P q -> below q (dest P v) -> ~ is_link (f q);
  tm_dest : forall k v q, In (k, v) es -> below (dest P v) q -> ~ is_link (f q);
  tm_apart : ForallOrdPairs apart (dests P es)
}.

(** Between [f] and [f'], the only changes are in the trees at [ds], and directories on the way from [P] to
    them that were created or whose time changed. *)
Definition changes_only (P : loc) (ds : list loc) (f f' : vfs) : Prop :=
  forall q, (exists d, In d ds /\ below d q) \/ f' q = f q \/
            ((exists d, In d ds /\ below q d /\ below P q) /\ (f q = None \/ is_directory (f q)) /\ is_directory (f' q)).

(** Nothing outside the tree at [P] changes. *)
Definition untouched_outside (P : loc) (f f' : vfs) : Prop := forall q, ~ below P q -> f' q = f q.

(** ** Contents *)

Inductive stuff := SFile (c : bytes) | SDir | SLink (target : bytes).
Definition content (n : option node) : option stuff :=
  match n with
  | Some (VFile c _) => Some (SFile c)
  | Some (VDir _) => Some SDir
  | Some (VLink t) => Some (SLink t)
  | None => None
  end.

Definition time_of (n : option node) : option Z :=
  match n with Some (VFile _ t) | Some (VDir t) => Some t | _ => None end.

(** [d] in [f'] has the content [s] has in [f]: the bytes of a file, the whole tree of a directory. *)
Definition holds (f : vfs) (s : loc) (f' : vfs) (d : loc) : Prop :=
  match f s with
  | Some (VFile c _) => content (f' d) = Some (SFile c)
  | Some (VDir _) => forall x, content (f' (x ++ d)) = content (f (x ++ s))
  | _ => False
  end.

(** Nothing is at [d], or what is there is older than what is at [s]. *)
Definition older (f : vfs) (d s : loc) : bool :=
  match time_of (f d), time_of (f s) with
  | Some td, Some ts => (td <? ts)%Z
  | _, _ => true
  end.

(** What is at the destination can be trusted: either it is older than the source and of no kind that gets in
    the way (a directory where a file is to go, a link), or it already has the source's content. *)
Definition fair (f : vfs) (s d : loc) : Prop :=
  (older f d s = false -> holds f s f d) /\
  match f s with
  | Some (VFile _ _) => ~ is_directory (f d)
  | Some (VDir _) => True
  | _ => False
  end.

(** [s] is in the output directory [O]. *)
Definition product (O s : loc) : Prop := below O s.

(** [s] is in a directory next to the output directory whose name starts with the output directory's name. *)
Definition namesake (O s : loc) : Prop := exists n p r, O = n :: p /\ r <> [] /\ below ((n ++ r) :: p) s.

(** The source of an entry: the path leads to [s] without going through a destination; if it is to be copied, it is
    not a symbolic link to a file, holds no destination, and the destination is [fair]. *)
Definition good_source (cwd O P : loc) (ds : list loc) (f : vfs) (k v : bytes) : Prop :=
  nul_free k /\
  exists s, lookup cwd (hide ds f) false k = WFound s /\ ~ namesake O s /\
    (product O s \/
     ((is_directory (f s) \/ lookup cwd (hide ds f) true k = WFound s) /\
      (forall d, In d ds -> ~ below s d) /\ fair f s (dest P v))).

(** Is the entry one that has to be copied? *)
Definition needs (cwd O P : loc) (f : vfs) (e : bytes * bytes) : bool :=
  match lookup cwd f false (fst e) with
  | WFound s => negb (belowb O s) && older f (dest P (snd e)) s
  | _ => false
  end.

Definition copy_of (prefix : bytes) (e : bytes * bytes) : bytes * bytes := (fst e, prefix ++ lit "/" ++ snd e).

(** ** Owners *)

(** The places whose owner changed from [w] to [w']. *)
Definition owners_changed (w w' : vw) (ls : list loc) : Prop := chowned w' = ls ++ chowned w.
