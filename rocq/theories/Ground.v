(** * Installing single products while building, on a file system with directories. *)

From Coq Require Import ZArith Ascii String Lia Bool List.
From Verif Require Import Base Deps FileSys Vfs Install SpecInstall Build.
Import ListNotations.

(** The build's model has files by their names, as Bob writes them; [install_cookie]'s has places in a tree. Here the build's installer is [install_cookie] itself: the
    products and what is under the prefix are put into a tree, [install_cookie] is run on it, and what is then at the destinations and on the way
    to them is read back. *)
Section Ground.
Variables (S : sys) (out prefix : bytes).
(** The places of the output directory, of the directory of the products in it ("%s/bob", linker.c 201) and of the prefix. *)
Variables (O B P : loc).
(** Everything that is neither a product nor under the prefix. *)
Variable base : vfs.
Variable m : list (bytes * bytes).

(** A name that stands for itself in a path, and paths made of such names only, without anything twice. *)
Definition fine_name (c : bytes) : bool :=
  negb (is_nil c) && negb (bytes_eqb c dot) && negb (bytes_eqb c dotdot) && negb (existsb (byte_eqb SLASH) c) && negb (existsb (byte_eqb NUL) c).
Definition neat (v : bytes) : bool := forallb fine_name (strsep SLASH v).
Fixpoint spell (cs : list bytes) : bytes :=
  match cs with [] => [] | [c] => c | c :: rest => c ++ SLASH :: spell rest end.

Definition as_node (e : entry) : option node := match e with File c t => Some (VFile c t) | Dir t => Some (VDir t) | _ => None end.
Definition as_entry (n : option node) : entry :=
  match n with Some (VFile c t) => File c t | Some (VDir t) => Dir t | Some (VLink _) => Blocked | None => Absent end.

Definition product_path (c : bytes) : bytes := out ++ lit "/bob/" ++ c.
Definition under_prefix (v : bytes) : bytes := prefix ++ SLASH :: v.

Definition grown (f : fs) : vfs := fun l =>
  match rel P l with
  | Some (x :: xs) => if forallb fine_name (x :: xs) then as_node (f (under_prefix (spell (rev (x :: xs))))) else None
  | _ =>
    match rel B l with
    | Some [c] => if fine_name c then as_node (f (product_path c)) else None
    | _ => base l
    end
  end.

(** The destinations and the directories on the way to them. *)
Fixpoint starts (cs : list bytes) : list (list bytes) :=
  match cs with [] => [] | c :: rest => [c] :: map (cons c) (starts rest) end.
Definition ways : list (list bytes) := flat_map (fun e => starts (names (snd e))) m.
Definition same_node (a b : option node) : bool :=
  match a, b with
  | Some (VFile c t), Some (VFile c' t') => bytes_eqb c c' && Z.eqb t t'
  | Some (VDir t), Some (VDir t') => Z.eqb t t'
  | Some (VLink c), Some (VLink c') => bytes_eqb c c'
  | None, None => true
  | _, _ => false
  end.
Definition flattened (f : fs) (v : vfs) : fs :=
  fold_left (fun g cs => if same_node (v (rev cs ++ P)) (grown f (rev cs ++ P)) then g else fs_set g (under_prefix (spell cs)) (as_entry (v (rev cs ++ P)))) ways f.

Definition ground_installer (o : bytes) (t : Z) (f : fs) : bool * fs :=
  match install_cookie S (unparse O) {| i_map := Some m; i_prefix := Some prefix |} t {| nodes := grown f; chowned := []; copies := [] |} o with
  | Ok (b, w) => (b, flattened f (nodes w))
  | _ => (false, f)
  end.

(** Where the map sends a product. *)
Definition map_goes (o : bytes) : option bytes :=
  if is_prefix (product_path []) o && fine_name (skipn (length (product_path [])) o)
  then option_map (fun e => under_prefix (snd e)) (find (fun e => same_name (fst e) o) m)
  else None.

(** What the model of the build needs of the rest of the file system: the prefix and the directory of the products are directories, neither in the other, and reached
    without going through products or what is under the prefix; the map has no key twice, its destinations are plain paths, none of them in another's tree. *)
Definition nothing : fs := fun _ => Absent.
Record grounded : Prop := {
  gr_tidy : tidy S;
  gr_cwd : Forall (fun c => ~ In SLASH c) (s_cwd S);
  gr_O : Forall (fun c => c <> [] /\ ~ In SLASH c) O;
  gr_prefix : lookup (s_cwd S) (grown nothing) false prefix = WFound P /\ is_directory (base P);
  gr_bob : lookup (s_cwd S) (grown nothing) false (out ++ lit "/bob") = WFound B /\ is_directory (base B);
  gr_apart : apart B P;
  gr_out : below O B;
  gr_keys : NoDup (map fst m) /\ forall k v, In (k, v) m -> nul_free k;
  gr_vals : forall k v, In (k, v) m -> neat v = true;
  gr_dests : ForallOrdPairs apart (dests P m);
}.

(** The paths under the prefix. *)
Definition prefix_area (p : bytes) : Prop := exists v, p = under_prefix v.

End Ground.
