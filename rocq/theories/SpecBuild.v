(** * Specification vocabulary for builds. *)

From Coq Require Import ZArith Ascii String Lia Bool List.
From Verif Require Import Base FileSys Frugal Deps Cookie SpecFiles Build.
Import ListNotations.

(** How often the compiler was run for an object / the linker for a product. *)
Fixpoint compiles (out : bytes) (cmds : list command) : nat :=
  match cmds with
  | [] => 0
  | CmdCompile _ o :: rest => (if bytes_eqb o out then 1 else 0) + compiles out rest
  | _ :: rest => compiles out rest
  end.
Fixpoint links (out : bytes) (cmds : list command) : nat :=
  match cmds with
  | [] => 0
  | CmdLink _ o :: rest => (if bytes_eqb o out then 1 else 0) + links out rest
  | _ :: rest => links out rest
  end.

(** The texts printed for a product, in order. *)
Definition texts (out : bytes) (l : list (bytes * bytes)) : list bytes :=
  map snd (filter (fun x => bytes_eqb (fst x) out) l).

(** How often a product was made, by whichever tool. *)
Definition makes (out : bytes) (cmds : list command) : nat := compiles out cmds + links out cmds.

(** The path can be created or overwritten as a regular file. *)
Definition usable (E : env) (f : fs) (p : bytes) : Prop :=
  can_write E p = true /\ (f p = Absent \/ exists c t, f p = File c t).

(** The text a tool printed. *)
Definition text_of (r : tool_result) : bytes := match r with ToolOk t _ => t | ToolFail t _ => t end.

(** The clock never goes back. *)
Definition monotone (c : nat -> Z) : Prop := forall i j, i <= j -> (c i <= c j)%Z.

(** A name that cannot be mistaken for a side file. *)
Definition product_name (p : bytes) : Prop := forall k c, side_file k c <> p.

(** The paths that belong to a product: the product and its side files. *)
Definition belongs (out p : bytes) : Prop := p = out \/ exists k, p = side_file k out.

(** [area]: the directory of products; [inst_area]: what installation may change. Everything else is source. *)
Definition source (area inst_area : bytes -> Prop) (p : bytes) : Prop := ~ area p /\ ~ inst_area p.

Definition in_area (area : bytes -> Prop) (out : bytes) : Prop :=
  product_name out /\ area out /\ forall k, area (side_file k out).

(** The flags recorded for the object are the requested ones. *)
Definition recorded (f : fs) (it : item) : Prop :=
  exists c t, f (flags_path (it_out it)) = File c t /\ cstr c = flag_str (it_flags it).

(** Nothing asks for recompilation: the requested flags are recorded, and the object is not older than the source
    or any recorded dependency. *)
Definition fresh (f : fs) (it : item) : Prop :=
  recorded f it /\
  exists c, read_file f (deps_path (it_out it)) = Some c /\ up_to_date f (it_out it) (it_src it :: read_deps c).

(** The same for a link: the requested flags are recorded, and the product is not older than any input. *)
Definition as_item (r : link_req) : item := Item (lk_flags r) [] (lk_out r).
Definition lrecorded (f : fs) (r : link_req) : Prop := recorded f (as_item r).
Definition lfresh (f : fs) (r : link_req) : Prop := lrecorded f r /\ up_to_date f (lk_out r) (lk_srcs r).

(** The comparison of times fails. *)
Definition unexaminable (f : fs) (it : item) : Prop :=
  recorded f it /\
  exists c, read_file f (deps_path (it_out it)) = Some c /\ frugal_mtime f (it_src it :: read_deps c) (it_out it) = None.

(** The file that records the flags can be written. *)
Definition flags_fine (E : env) (f : fs) (it : item) : Prop :=
  can_write E (flags_path (it_out it)) = true /\
  (f (flags_path (it_out it)) = Absent \/ exists c t, f (flags_path (it_out it)) = File c t).

Section Setting.
Variable E : env.
Variables area inst_area : bytes -> Prop.
Notation source := (source area inst_area).
Notation in_area := (in_area area).

(** Assumptions on the environment: there is a worker thread, installation stays away from the products and changes
    only its own area, and the compiler reads nothing but sources. *)
Record good_env : Prop := {
  ge_cpus : 1 <= ncpus E;
  ge_apart : forall p, area p -> ~ inst_area p;
  ge_inst : forall o t f p, ~ inst_area p -> snd (installer E o t f) p = f p;
  ge_deps : forall fl s f f', (forall p, source p -> f p = f' p) -> cc_deps E fl s f = cc_deps E fl s f';
  ge_obj : forall fl s f f', (forall p, source p -> f p = f' p) -> cc_obj E fl s f = cc_obj E fl s f';
}.

(** The recorded dependencies are sources. *)
Definition deps_are_sources (f : fs) (out : bytes) : Prop :=
  forall c d, read_file f (deps_path out) = Some c -> In d (read_deps c) -> source d.

Record good_items (its : list item) (f : fs) : Prop := {
  gi_distinct : NoDup (map it_out its);
  gi_area : forall it, In it its -> in_area (it_out it);
  gi_src : forall it, In it its -> source (it_src it);
  gi_deps : forall it, In it its -> deps_are_sources f (it_out it);
}.

End Setting.

(** A product was left alone, or made again exactly once, between two moments. *)
Definition untouched (o : bytes) (w w' : world) : Prop :=
  makes o (ran w') = makes o (ran w) /\ files w' o = files w o.
Definition remade (E : env) (o : bytes) (w w' : world) : Prop :=
  makes o (ran w') = S (makes o (ran w)) /\ exists c tau, files w' o = File c (clock E tau) /\ tick w <= tau.
