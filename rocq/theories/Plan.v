(** * From the script's compile and link requests to build steps (src/class/cc.c, src/class/linker.c). *)

From Coq Require Import ZArith Ascii String Lia Bool List.
From Verif Require Import Base Cookie BuildStep Build.
Import ListNotations.

(** A request made by the script: [Cc.compile], on the [Cc] identified by [cc], or [Linker.link] /
    [Linker.archive]; [id] is the address of the request's own record (linker.c 207, 223).
    Simplification: flags and source lists are captured by value (the code keeps references to the script's
    vectors, cc.c 338-344, linker.c 216-217). *)
Inductive req :=
| RCompile (cc : Z) (flags srcs : list bytes)
| RLink (id : Z) (k : link_kind) (flags srcs : list bytes).

Inductive step_cb := CbCompile | CbLink.
Definition step_cb_eqb (a b : step_cb) : bool :=
  match a, b with CbCompile, CbCompile | CbLink, CbLink => true | _, _ => false end.

Inductive payload := PCompile (its : list item) | PLink (r : link_req).

Section Plan.
Variables (sg : bool) (out : bytes).

(** cc.c 318-334 ([prep_compile]): one object per source; cc.c 249-250: source names become C strings. *)
Fixpoint compile_items (flags srcs : list bytes) : res (list item) :=
  match srcs with
  | [] => Ok []
  | s :: rest =>
    bind (gen_cookie sg out s (lit "o")) (fun c =>
    bind (compile_items flags rest) (fun its => Ok (Item flags (cstr s) c :: its)))
  end.

(** cc.c 346, linker.c 223: the call of [add_build_step]. *)
Definition request_of (r : req) : res (request step_cb payload) :=
  match r with
  | RCompile cc flags srcs =>
    bind (compile_items flags srcs) (fun its => Ok (Req cc (lit "C source file compilation") CbCompile (PCompile its)))
  | RLink id k flags srcs =>
    Ok (Req id (match k with Link => lit "Linking" | Archive => lit "Archiving" end) CbLink
            (PLink (LinkReq k flags srcs (link_cookie sg out k srcs))))
  end.

Fixpoint requests_of (rs : list req) : res (list (request step_cb payload)) :=
  match rs with
  | [] => Ok []
  | r :: rest => bind (request_of r) (fun x => bind (requests_of rest) (fun xs => Ok (x :: xs)))
  end.

(** What a step's callback makes of its payloads: cc.c 240-251 goes through all of them in order; linker.c 44
    asserts that there is one. A payload of the wrong kind would be a wild cast. *)
Fixpoint compile_payload (ds : list payload) : res (list item) :=
  match ds with
  | [] => Ok []
  | PCompile its :: rest => bind (compile_payload rest) (fun its' => Ok (its ++ its'))
  | PLink _ :: _ => UB
  end.
Definition step_of (s : build_step step_cb payload) : res bstep :=
  match bs_cb s with
  | CbCompile => bind (compile_payload (bs_data s)) (fun its => Ok (SCompile its))
  | CbLink =>
    match bs_data s with
    | [PLink r] => Ok (SLink r)
    | [PCompile _] => UB
    | _ => Abort
    end
  end.
Fixpoint steps_of (ss : list (build_step step_cb payload)) : res (list bstep) :=
  match ss with
  | [] => Ok []
  | s :: rest => bind (step_of s) (fun b => bind (steps_of rest) (fun bs => Ok (b :: bs)))
  end.

(** The whole plan: what [run_build_steps] is given. *)
Definition plan (rs : list req) : res (list bstep) :=
  bind (requests_of rs) (fun xs => bind (add_all step_cb_eqb [] xs) steps_of).
End Plan.
