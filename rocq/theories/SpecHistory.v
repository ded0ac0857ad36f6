(** * Specification vocabulary for histories of edits and builds. *)

From Coq Require Import ZArith Ascii String Lia Bool List.
From Verif Require Import Base FileSys Frugal Deps Cookie SpecFiles Build SpecBuild.
Import ListNotations.
Local Open Scope nat_scope.

(** Same kind of entry with the same content, whatever the modification time. *)
Definition same_content (a b : entry) : Prop :=
  match a, b with
  | Absent, Absent | Dir _, Dir _ | Blocked, Blocked => True
  | File c _, File c' _ => c = c'
  | _, _ => False
  end.

(** The dependencies Bob records, from the preprocessor's output (the prerequisites, by C16 and C17). *)
Definition listed (o : bytes) : list bytes := read_deps (deps_content (parse_deps o)).

(** What a request is meant to produce. *)
Definition ld_on (E : env) (r : link_req) (f : fs) : tool_result :=
  ld E (lk_kind r) (match lk_kind r with Link => lib_prefix E | Archive => None end) (lk_out r)
     (lk_srcs r) (argv_flags (lk_flags r)) f.
Definition cc_on (E : env) (it : item) (f : fs) : tool_result := cc_obj E (argv_flags (it_flags it)) (it_src it) f.
Definition deps_on (E : env) (it : item) (f : fs) : option bytes := cc_deps E (argv_flags (it_flags it)) (it_src it) f.

(** The product is what the tool makes of the present files. *)
Definition obj_current (E : env) (f : fs) (it : item) : Prop :=
  exists text obj t, f (it_out it) = File obj t /\ cc_on E it f = ToolOk text obj.
Definition link_current (E : env) (f : fs) (r : link_req) : Prop :=
  exists text c t, f (lk_out r) = File c t /\ ld_on E r f = ToolOk text c.
Definition step_current (E : env) (f : fs) (b : bstep) : Prop :=
  match b with
  | SCompile its => forall it, In it its -> obj_current E f it
  | SLink r => link_current E f r
  end.

Definition step_outs (b : bstep) : list bytes :=
  match b with SCompile its => map it_out its | SLink r => [lk_out r] end.
Definition outs (bs : list bstep) : list bytes := concat (map step_outs bs).

(** Every recorded dependency can be examined. *)
Definition examinable (bs : list bstep) (f : fs) : Prop :=
  forall its it, In (SCompile its) bs -> In it its -> ~ unexaminable f it.

Section Setting.
Variable E : env.
Variables area inst_area : bytes -> Prop.
Notation source := (source area inst_area).

(** Assumptions on the tools. *)
Record honest_tools : Prop := {
  (* the listed dependencies are what matters, and only their contents do *)
  ht_listed : forall it f f' o, deps_on E it f = Some o ->
    (forall p, p = it_src it \/ In p (listed o) -> same_content (f p) (f' p)) ->
    deps_on E it f' = Some o /\ cc_on E it f' = cc_on E it f;
  (* what compiles can be preprocessed *)
  ht_deps : forall it f text obj, cc_on E it f = ToolOk text obj -> exists o, deps_on E it f = Some o;
  (* dependencies are existing files of the project or the system, not products *)
  ht_sources : forall it f o d, deps_on E it f = Some o -> In d (listed o) -> source d /\ exists t, modified_at f d t;
  (* a failing tool does not leave a broken product *)
  ht_clean : forall it f text c, cc_on E it f <> ToolFail text (Some (Some c));
  ht_clean_ld : forall r f text c, ld_on E r f <> ToolFail text (Some (Some c));
  (* linking depends on the contents of the inputs only *)
  ht_ld : forall r f f', (forall p, In p (lk_srcs r) -> same_content (f p) (f' p)) -> ld_on E r f = ld_on E r f';
}.

(** A tool needs the files it is given. *)
Record inputs_needed : Prop := {
  in_src : forall it f text obj, cc_on E it f = ToolOk text obj -> exists t, modified_at f (it_src it) t;
  in_ld : forall r f text c s, ld_on E r f = ToolOk text c -> In s (lk_srcs r) -> exists t, modified_at f s t;
}.

(** No source has a modification time in the future. *)
Definition no_future (w : world) : Prop :=
  forall p t, source p -> modified_at (files w) p t -> (t <= clock E (tick w))%Z.

(** All compilations and links that occur in a history. *)
Variable objs : item -> Prop.
Variable reqs : link_req -> Prop.

Record project : Prop := {
  pr_area : forall it, objs it -> in_area area (it_out it);
  pr_larea : forall r, reqs r -> in_area area (lk_out r);
  pr_src : forall it, objs it -> source (it_src it);
  (* an object is always compiled from the same source (C02), a product always linked from the same inputs (C04) *)
  pr_same : forall a b, objs a -> objs b -> it_out a = it_out b -> it_src a = it_src b;
  pr_lsame : forall a b, reqs a -> reqs b -> lk_out a = lk_out b -> lk_kind a = lk_kind b /\ lk_srcs a = lk_srcs b;
  pr_apart : forall it r, objs it -> reqs r -> it_out it <> lk_out r;
  pr_inputs : forall r s, reqs r -> In s (lk_srcs r) ->
    s <> lk_out r /\ (source s \/ (exists it, objs it /\ s = it_out it) \/ exists r', reqs r' /\ s = lk_out r');
  (* flags without newlines (C14) *)
  pr_plain : forall it, objs it -> Forall plain (it_flags it);
  pr_lplain : forall r, reqs r -> Forall plain (lk_flags r);
  pr_write : forall p, area p -> can_write E p = true;
}.

(** A script: every link input is a source or was produced by an earlier step; no product is made twice. *)
Fixpoint ordered (sofar : list bytes) (bs : list bstep) : Prop :=
  match bs with
  | [] => True
  | SCompile its :: rest => ordered (map it_out its ++ sofar) rest
  | SLink r :: rest => (forall s, In s (lk_srcs r) -> source s \/ In s sofar) /\ ordered (lk_out r :: sofar) rest
  end.

Record good_script (bs : list bstep) : Prop := {
  gs_objs : forall its it, In (SCompile its) bs -> In it its -> objs it;
  gs_reqs : forall r, In (SLink r) bs -> reqs r;
  gs_distinct : NoDup (outs bs);
  gs_ordered : ordered [] bs;
}.

(** The build starts in a later second than every linked product was written. *)
Definition later (w : world) : Prop :=
  forall r c t, reqs r -> files w (lk_out r) = File c t -> (t < clock E (tick w))%Z.

(** No product exists that was made with other flags than the ones now requested. *)
Definition same_flags (bs : list bstep) (f : fs) : Prop :=
  (forall its it c t, In (SCompile its) bs -> In it its -> f (it_out it) = File c t -> recorded f it) /\
  (forall r c t, In (SLink r) bs -> f (lk_out r) = File c t -> recorded f (Item (lk_flags r) [] (lk_out r))).

(** One event of a history. *)
Inductive evolves : world -> world -> Prop :=
(* the user adds, changes or removes files outside the product directory; a changed file that is then present has
   a modification time later than the time now *)
| ev_edit w w' : tick w <= tick w' ->
    (forall p, area p -> files w' p = files w p) ->
    (forall p, source p -> files w' p = files w p \/ forall t, modified_at (files w') p t -> (clock E (tick w) < t)%Z) ->
    evolves w w'
(* a build that succeeds, of any script with any flags *)
| ev_build bs w w' : good_script bs -> later w -> run_steps E bs w 0 w' -> evolves w w'
(* a build that fails or is interrupted anywhere; it does not change the flags of an existing product *)
| ev_cut bs w w' : good_script bs -> later w -> same_flags bs (files w) -> during E bs w w' -> evolves w w'.

Inductive history : world -> world -> Prop :=
| h_start w : (forall p, area p -> files w p = Absent) -> history w w
| h_step w0 w w' : history w0 w -> evolves w w' -> history w0 w'.

(** A history without interruptions: edits, and builds that end, in success or in failure. *)
Inductive settles : world -> world -> Prop :=
| se_edit w w' : tick w <= tick w' ->
    (forall p, area p -> files w' p = files w p) ->
    (forall p, source p -> files w' p = files w p \/ forall t, modified_at (files w') p t -> (clock E (tick w) < t)%Z) ->
    settles w w'
| se_build bs w rv w' : good_script bs -> later w -> run_steps E bs w rv w' -> rv = 0%Z \/ same_flags bs (files w) -> settles w w'.

Inductive uninterrupted : world -> world -> Prop :=
| u_start w : (forall p, area p -> files w p = Absent) -> uninterrupted w w
| u_step w0 w w' : uninterrupted w0 w -> settles w w' -> uninterrupted w0 w'.

(** What the tools print for the products of a step, on files [f]. *)
Definition prints (f : fs) (b : bstep) (o text : bytes) : Prop :=
  match b with
  | SCompile its => exists it, In it its /\ o = it_out it /\ text = cstr (text_of (cc_on E it f))
  | SLink r => o = lk_out r /\ text = cstr (text_of (ld_on E r f))
  end.

End Setting.
