(** * A file system with directories and symbolic links, for the parts of Bob where the difference between a
    path and the place it leads to matters: installing (install.c) and changing owners (fsutil.c). *)

From Coq Require Import ZArith Ascii String Lia Bool List.
From Verif Require Import Base Deps FileSys.
Import ListNotations.

(** A place: the names on the way to it, deepest first, so that the parent is [tl] and the root is []. *)
Definition loc := list bytes.

(** [t] is [st_mtime]. Simplification: no hard links, devices, sockets, modes. *)
Inductive node :=
| VFile (c : bytes) (t : Z)
| VDir (t : Z)
| VLink (target : bytes).

Definition vfs := loc -> option node.

Fixpoint loc_eqb (a b : loc) : bool :=
  match a, b with
  | [], [] => true
  | x :: a', y :: b' => bytes_eqb x y && loc_eqb a' b'
  | _, _ => false
  end.

(** The names leading from [d] to [q] when [q] is [d] or lies below it. *)
Fixpoint rel (d q : loc) : option loc :=
  if loc_eqb d q then Some []
  else match q with
       | [] => None
       | x :: q' => option_map (cons x) (rel d q')
       end.

Definition belowb (d q : loc) : bool := match rel d q with Some _ => true | None => false end.

Definition dot : bytes := [DOT].
Definition dotdot : bytes := [DOT; DOT].

Definition is_nil {A} (l : list A) : bool := match l with [] => true | _ => false end.

(** ** Following a path (path_resolution(7)) *)

Inductive walked :=
| WFound (l : loc)     (* the path leads here, and something is here *)
| WMissing (l : loc)   (* the last name is missing from an existing directory: the path could be created here *)
| WNoEnt               (* an earlier name is missing *)
| WErr.                (* ENOTDIR, ELOOP *)

(** [keep]: a symbolic link in the last position is not followed (lstat, unlink, mkdir). [n]: how many links may
    be followed (ELOOP afterwards). Simplification: every directory may be searched. *)
Fixpoint walk (f : vfs) (keep : bool) (n : nat) : loc -> list bytes -> walked :=
  fix go (cur : loc) (cs : list bytes) : walked :=
    match f cur with
    | Some (VDir _) =>
      match cs with
      | [] => WFound cur
      | c :: rest =>
        if is_nil c || bytes_eqb c dot then go cur rest
        else if bytes_eqb c dotdot then go (tl cur) rest
        else
          let l := c :: cur in
          match f l with
          | None => if forallb is_nil rest then WMissing l else WNoEnt
          | Some (VLink tgt) =>
            if keep && is_nil rest then WFound l
            else match n with
                 | 0 => WErr
                 | S k => walk f keep k
                            (match tgt with x :: _ => if byte_eqb x SLASH then [] else cur | [] => cur end)
                            (strsep SLASH tgt ++ rest)
                 end
          | Some _ => go l rest
          end
      end
    | Some _ => match cs with [] => WFound cur | _ => WErr end
    | None => WNoEnt
    end.

(** Linux follows at most 40 links. *)
Definition MAX_LINKS : nat := 40.

Definition absolute (p : bytes) : bool := match p with x :: _ => byte_eqb x SLASH | [] => false end.

(** A path as a system call takes it; an empty path is ENOENT. *)
Definition lookup (cwd : loc) (f : vfs) (keep : bool) (p : bytes) : walked :=
  match p with
  | [] => WNoEnt
  | _ => walk f keep MAX_LINKS (if absolute p then [] else cwd) (strsep SLASH p)
  end.

(** The absolute path of a place: what realpath(3) and getcwd(3) give. *)
Definition unparse (l : loc) : bytes :=
  match l with
  | [] => [SLASH]
  | _ => concat (map (fun c => SLASH :: c) (rev l))
  end.

(** realpath(3): [None] is NULL. *)
Definition realpath (cwd : loc) (f : vfs) (p : bytes) : option bytes :=
  match lookup cwd f false p with WFound l => Some (unparse l) | _ => None end.

(** What stat(2) and fopen(3) see at each path. *)
Definition view (cwd : loc) (f : vfs) : fs := fun p =>
  match lookup cwd f false p with
  | WFound l => match f l with
                | Some (VFile c t) => File c t
                | Some (VDir t) => Dir t
                | Some (VLink _) => Blocked
                | None => Absent
                end
  | WMissing _ | WNoEnt => Absent
  | WErr => Blocked
  end.

(** ** Changing it *)

Definition put (f : vfs) (l : loc) (n : option node) : vfs := fun q => if loc_eqb q l then n else f q.

(** Adding or removing a name changes the directory's modification time. *)
Definition touch (now : Z) (f : vfs) (l : loc) : vfs :=
  match f l with Some (VDir _) => put f l (Some (VDir now)) | _ => f end.

Definition add (now : Z) (f : vfs) (l : loc) (n : node) : vfs := touch now (put f l (Some n)) (tl l).

(** What the outside world decides. *)
Record sys := {
  s_cwd : loc;
  (* permissions, read-only media, disk full...: may this place be created, replaced or removed? *)
  s_may : vfs -> loc -> bool;
  (* what an rm or cp that failed has done by then to the tree at a place *)
  s_torn : vfs -> loc -> vfs;
  (* getuid() == 0 *)
  s_root : bool;
  (* may the owner of this place be changed? *)
  s_chown : loc -> bool
}.

(** A failed rm or cp has changed nothing outside the tree it was working on. *)
Definition tidy (S : sys) : Prop :=
  forall f l q, belowb l q = false -> s_torn S f l q = f q.

(** mkdir(2) *)
Inductive mkdir_res := MkOk (f : vfs) (l : loc) | MkExists | MkFail.

Definition mkdir (S : sys) (now : Z) (f : vfs) (p : bytes) : mkdir_res :=
  match lookup (s_cwd S) f true p with
  | WFound _ => MkExists
  | WMissing l => if s_may S f l then MkOk (add now f l (VDir now)) l else MkFail
  | _ => MkFail
  end.

Definition slash_end (p : bytes) : bool := match rev p with x :: _ => byte_eqb x SLASH | [] => false end.

Fixpoint drop_while (g : ascii -> bool) (s : bytes) : bytes :=
  match s with
  | [] => []
  | x :: s' => if g x then drop_while g s' else s
  end.

Definition is_slash (x : ascii) : bool := byte_eqb x SLASH.

(** Without the slashes at the end. *)
Definition unslash (p : bytes) : bytes := rev (drop_while is_slash (rev p)).

Definition is_dir (f : vfs) (l : loc) : bool := match f l with Some (VDir _) => true | _ => false end.

(** The names in a path, without empty ones. *)
Definition names (p : bytes) : list bytes := filter (fun c => negb (is_nil c)) (strsep SLASH p).

(** basename(3) as cp uses it to name a file inside a destination directory. *)
Definition last_name (p : bytes) : bytes := last (names p) [].

(** [rm -rf p]. It refuses "." and ".." and the root, and a link with a trailing slash. *)
Definition rm_rf (S : sys) (now : Z) (f : vfs) (p : bytes) : bool * vfs :=
  let c := last_name p in
  if is_nil c || bytes_eqb c dot || bytes_eqb c dotdot then (false, f) else
  match lookup (s_cwd S) f true (unslash p) with
  | WErr => (false, f)
  | WFound l =>
    if slash_end p && negb (is_dir f l) then (false, f)
    else if s_may S f l then (true, touch now (fun q => if belowb l q then None else f q) (tl l))
    else (false, s_torn S f l)
  | WMissing _ | WNoEnt => (true, f)
  end.

(** The tree at [s] copied to [d]. *)
Definition copied (now : Z) (n : option node) : option node :=
  match n with
  | Some (VFile c _) => Some (VFile c now)
  | Some (VDir _) => Some (VDir now)
  | Some (VLink t) => Some (VLink t)
  | None => None
  end.

Definition copy_tree (now : Z) (f : vfs) (s d : loc) : vfs := fun q =>
  match rel d q with
  | Some x => copied now (f (x ++ s))
  | None => f q
  end.

(** One source node (a file or a link: not a directory) to the place [dst] leads to.
    cp(1) -P: a file is written through a link at the destination, a link replaces what is there. *)
Definition cp_node (S : sys) (now : Z) (f : vfs) (s : loc) (dst : bytes) : bool * vfs :=
  match f s with
  | Some (VFile c _) =>
    match lookup (s_cwd S) f false dst with
    | WFound d =>
      match f d with
      | Some (VFile _ _) =>
        if loc_eqb s d then (false, f)
        else if s_may S f d then (true, put f d (Some (VFile c now))) else (false, s_torn S f d)
      | _ => (false, f)
      end
    | WMissing d =>
      if slash_end dst then (false, f)
      else match lookup (s_cwd S) f true dst with
           | WFound _ => (false, f)   (* "not writing through dangling symlink" *)
           | _ => if s_may S f d then (true, add now f d (VFile c now)) else (false, s_torn S f d)
           end
    | _ => (false, f)
    end
  | Some (VLink t) =>
    match lookup (s_cwd S) f true dst with
    | WFound d =>
      match f d with
      | Some (VDir _) | None => (false, f)
      | _ => if loc_eqb s d then (false, f)
             else if s_may S f d then (true, add now f d (VLink t)) else (false, s_torn S f d)
      end
    | WMissing d =>
      if slash_end dst then (false, f)
      else if s_may S f d then (true, add now f d (VLink t)) else (false, s_torn S f d)
    | _ => (false, f)
    end
  | _ => (false, f)
  end.

(** [cp -RP src dst]: into [dst] when that is a directory, else to [dst] itself.
    Simplification: a directory is only ever copied to a place where nothing is (the caller has removed it). *)
Definition cp (S : sys) (now : Z) (f : vfs) (src dst : bytes) : bool * vfs :=
  match lookup (s_cwd S) f true src with
  | WFound s =>
    match f s with
    | Some (VDir _) =>
      match lookup (s_cwd S) f true dst with
      | WMissing d =>
        if belowb s d then (false, s_torn S f d)   (* "cannot copy a directory into itself" *)
        else if s_may S f d then (true, touch now (copy_tree now f s d) (tl d)) else (false, s_torn S f d)
      | _ => (false, f)
      end
    | Some _ =>
      match view (s_cwd S) f dst with
      | Dir _ =>
        (* a path that leads to a file ends in a name *)
        let c := last_name src in
        if is_nil c || bytes_eqb c dot || bytes_eqb c dotdot then (false, f)
        else cp_node S now f s (dst ++ SLASH :: c)
      | _ => cp_node S now f s dst
      end
    | None => (false, f)
    end
  | _ => (false, f)
  end.
