(** * Specification vocabulary: requests and their products. *)

From Coq Require Import ZArith Ascii String Lia Bool List.
From Verif Require Import Base FileSys Frugal Deps Cookie Build SpecBuild SpecFiles SpecHistory Plan.
Import ListNotations.

(** The directory of products. *)
Definition product_dir (out : bytes) (p : bytes) : Prop := exists name, p = out ++ lit "/bob/" ++ name.

Section Names.
Variables (sg : bool) (out : bytes).

(** [c] is the object of source [s]. *)
Definition object_of (s c : bytes) : Prop := gen_cookie sg out s (lit "o") = Ok c.

(** The products of a request. *)
Inductive req_products : req -> list bytes -> Prop :=
| rp_compile cc fl srcs cs : Forall2 object_of srcs cs -> req_products (RCompile cc fl srcs) cs
| rp_link id k fl srcs : req_products (RLink id k fl srcs) [link_cookie sg out k srcs].

Variable E : env.
Variable inst_area : bytes -> Prop.
Notation source := (source (product_dir out) inst_area).

(** [srcs]: the sources compiled, [links]: the lists of inputs linked, in a whole history of builds. *)
Variable srcs : bytes -> Prop.
Variable links : link_kind -> list bytes -> Prop.

Record well_named : Prop := {
  wn_src : forall s, srcs s -> nul_free s /\ source s;
  (* the cases C02 and C04 do not guarantee *)
  wn_inj : forall s s' c, srcs s -> srcs s' -> object_of s c -> object_of s' c -> s = s';
  wn_link : forall k l l', links k l -> links k l' -> link_cookie sg out k l = link_cookie sg out k l' -> l = l';
  wn_inputs : forall k l s, links k l -> In s l -> s <> link_cookie sg out k l /\
    (source s \/ (exists s', srcs s' /\ object_of s' s) \/ exists k' l', links k' l' /\ s = link_cookie sg out k' l');
  wn_write : forall p, product_dir out p -> can_write E p = true;
}.

Definition named_item (it : item) : Prop :=
  srcs (it_src it) /\ object_of (it_src it) (it_out it) /\ Forall plain (it_flags it).
Definition named_link (r : link_req) : Prop :=
  links (lk_kind r) (lk_srcs r) /\ lk_out r = link_cookie sg out (lk_kind r) (lk_srcs r) /\ Forall plain (lk_flags r).

Definition good_req (r : req) : Prop :=
  match r with
  | RCompile _ fl ss => Forall plain fl /\ forall s, In s ss -> srcs s
  | RLink _ k fl ss => Forall plain fl /\ links k ss
  end.

(** Every link input is a source or a product of an earlier request; no product is requested twice. *)
Inductive in_order : list bytes -> list req -> Prop :=
| io_nil done : in_order done []
| io_compile done cc fl ss cs rest : req_products (RCompile cc fl ss) cs -> NoDup cs -> (forall c, In c cs -> ~ In c done) ->
    in_order (cs ++ done) rest -> in_order done (RCompile cc fl ss :: rest)
| io_link done id k fl ss rest : (forall s, In s ss -> source s \/ In s done) -> ~ In (link_cookie sg out k ss) done ->
    in_order (link_cookie sg out k ss :: done) rest -> in_order done (RLink id k fl ss :: rest).

(** Each link request has its own record; compilers are other objects. *)
Fixpoint own_records (seen : list Z) (rs : list req) : Prop :=
  match rs with
  | [] => True
  | RCompile cc _ _ :: rest => (forall id k fl ss, In (RLink id k fl ss) rest -> id <> cc) /\ own_records (cc :: seen) rest
  | RLink id _ _ _ :: rest => ~ In id seen /\ (forall cc fl ss, In (RCompile cc fl ss) rest -> cc <> id) /\ own_records (id :: seen) rest
  end.

Record good_requests (rs : list req) : Prop := {
  gr_each : forall r, In r rs -> good_req r;
  gr_order : in_order [] rs;
  gr_records : own_records [] rs;
}.
End Names.

(** A build of the script's requests. *)
Definition build (sg : bool) (out : bytes) (E : env) (rs : list req) (w : world) (rv : Z) (w' : world) : Prop :=
  exists bs, plan sg out rs = Ok bs /\ run_steps E bs w rv w'.

Section Wanted.
Variables (sg : bool) (out : bytes).

(** The object of a source the script compiles, with its flags. *)
Definition wanted (rs : list req) (it : item) : Prop :=
  exists cc ss, In (RCompile cc (it_flags it) ss) rs /\ In (it_src it) ss /\ object_of sg out (it_src it) (it_out it).
(** The product of a link the script asks for. *)
Definition wanted_link (rs : list req) (r : link_req) : Prop :=
  exists id, In (RLink id (lk_kind r) (lk_flags r) (lk_srcs r)) rs /\ lk_out r = link_cookie sg out (lk_kind r) (lk_srcs r).
Definition wanted_product (rs : list req) (o : bytes) : Prop :=
  (exists it, wanted rs it /\ o = it_out it) \/ exists r, wanted_link rs r /\ o = lk_out r.
End Wanted.

(** All assumptions about the world outside and about names. *)
Record setting (sg : bool) (out : bytes) (E : env) (inst_area : bytes -> Prop) (srcs : bytes -> Prop)
               (links : link_kind -> list bytes -> Prop) : Prop := {
  set_env : good_env E (product_dir out) inst_area;
  set_tools : honest_tools E (product_dir out) inst_area;
  set_clock : monotone (clock E);
  set_names : well_named sg out E inst_area srcs links;
}.

(** [w] results from a state without products, [w0], by edits, builds, failures and interruptions. *)
Definition past (sg : bool) (out : bytes) (E : env) (inst_area srcs : bytes -> Prop) (links : link_kind -> list bytes -> Prop)
                (w0 w : world) : Prop :=
  history E (product_dir out) inst_area (named_item sg out srcs) (named_link sg out links) w0 w.

(** The same without interruptions. *)
Definition settled_past (sg : bool) (out : bytes) (E : env) (inst_area srcs : bytes -> Prop) (links : link_kind -> list bytes -> Prop)
                (w0 w : world) : Prop :=
  uninterrupted E (product_dir out) inst_area (named_item sg out srcs) (named_link sg out links) w0 w.

(** No product of a link is as new as this very second. *)
Definition next_second (sg : bool) (out : bytes) (E : env) (links : link_kind -> list bytes -> Prop) (w : world) : Prop :=
  forall k l c t, links k l -> files w (link_cookie sg out k l) = File c t -> (t < clock E (tick w))%Z.

(** [d] is the source of the object or one of its recorded headers. *)
Definition depends_on (f : fs) (it : item) (d : bytes) : Prop :=
  d = it_src it \/ exists c, read_file f (deps_path (it_out it)) = Some c /\ In d (read_deps c).
