(** * Running the build steps requested by the script (src/class/cc.c, src/class/linker.c, src/build_step.c)
      over a file system, a clock and oracle tools. *)

From Coq Require Import ZArith Ascii String Lia Bool List.
From Verif Require Import Base FileSys Frugal Deps Log Cookie Pool SpecPool.
Import ListNotations.

(** What running a compiler, linker or archiver amounts to: success with the text it printed and the product,
    or failure with the text and what became of the output file (untouched, removed, or half-written).
    Simplification: tools write no other files. *)
Inductive tool_result :=
| ToolOk (text product : bytes)
| ToolFail (text : bytes) (rest : option (option bytes)).

(** Everything outside Bob. *)
Record env := Env {
  ncpus : nat;                                        (* worker threads *)
  can_write : bytes -> bool;
  clock : nat -> Z;                                   (* seconds, as a function of the number of actions so far *)
  cc_deps : list bytes -> bytes -> fs -> option bytes;  (* cc -MM -MT "" src flags: output, or failure *)
  cc_obj : list bytes -> bytes -> fs -> tool_result;    (* cc -c src -o out flags *)
  ld : link_kind -> option bytes -> bytes -> list bytes -> list bytes -> fs -> tool_result;
                                                      (* kind, -L prefix, out, inputs, flags *)
  installer : bytes -> Z -> fs -> bool * fs;          (* install_cookie: success?, effect (modelled in Install) *)
  lib_prefix : option bytes;                          (* preinstall_prefix *)
}.

Inductive command :=
| CmdDeps (src : bytes)
| CmdCompile (src out : bytes)
| CmdLink (k : link_kind) (out : bytes).

(** [tick]: number of actions so far; [ran]: external commands executed; [shown]: for each product, in order,
    the tool output Bob printed for it. *)
Record world := World {
  files : fs;
  tick : nat;
  ran : list command;
  shown : list (bytes * bytes);
}.

Definition set_files (w : world) (f : fs) : world := World f (S (tick w)) (ran w) (shown w).
Definition set_ran (w : world) (c : command) : world := World (files w) (tick w) (ran w ++ [c]) (shown w).
Definition set_shown (w : world) (out text : bytes) : world :=
  World (files w) (tick w) (ran w) (shown w ++ [(out, text)]).

(** One source of one [Cc.compile] request: the flags of its [Cc], the source and the object. *)
Record item := Item { it_flags : list bytes; it_src : bytes; it_out : bytes }.

Section Build.
Variable E : env.

Definition now (w : world) : Z := clock E (tick w).

(** cc.c 45-52 ([add_flags]), linker.c 125-130: each flag is passed as a C string. *)
Definition argv_flags (flags : list bytes) : list bytes := map cstr flags.

Inductive verdict := VCompile | VSkip | VErr.

(** cc.c 168-233 ([validate_requirements]). *)
Definition validate (it : item) (w : world) : verdict * world :=
  let '(changed, f1) := frugal_flags (can_write E) (now w) (files w) (it_flags it) (it_out it) in
  let w1 := set_files w f1 in
  if changed then (VCompile, w1) else
  match read_file f1 (deps_path (it_out it)) with
  | None => (VCompile, w1)
  | Some c =>
    match frugal_mtime f1 (it_src it :: read_deps c) (it_out it) with
    | None => (VErr, w1)
    | Some true => (VCompile, w1)
    | Some false => (VSkip, w1)
    end
  end.

(** cc.c 250-279: the validation loop of [compile_step]; the jobs queued, and false when it gave up. An
    up-to-date source has its saved output replayed and its object installed (259-267). *)
Fixpoint validate_all (its : list item) (w : world) : bool * list item * world :=
  match its with
  | [] => (true, [], w)
  | it :: rest =>
    match validate it w with
    | (VErr, w1) => (false, [], w1)
    | (VCompile, w1) => let '(ok, jobs, w2) := validate_all rest w1 in (ok, it :: jobs, w2)
    | (VSkip, w1) =>
      let w2 := set_shown w1 (it_out it) (log_already_done (files w1) (it_out it)) in
      let '(ok, f2) := installer E (it_out it) (now w2) (files w2) in
      let w3 := set_files w2 f2 in
      if ok then validate_all rest w3 else (false, [], w3)
    end
  end.

(** ** The compile job ([compile_task], cc.c 110-160) as a sequence of actions on the shared world. *)

(** The local variables of one job. *)
Record local := Local { l_deps : option bytes; l_text : bytes; l_fail : bool }.
Definition local0 : local := Local None [] false.

Record jst := JSt { jw : world; locs : nat -> local }.

Definition set_loc (ls : nat -> local) (t : nat) (l : local) : nat -> local :=
  fun u => if Nat.eqb u t then l else ls u.

(** cc.c 54-71: run the preprocessor. *)
Definition act_deps (t : nat) (it : item) (s : jst) : jst :=
  let w := jw s in let l := locs s t in
  JSt (set_ran (set_files w (files w)) (CmdDeps (it_src it)))
      (set_loc (locs s) t (Local (cc_deps E (argv_flags (it_flags it)) (it_src it) (files w)) (l_text l) (l_fail l))).

(** cc.c 73-107: record the dependencies; nothing when the preprocessor or opening the file failed. *)
Definition act_write_deps (t : nat) (it : item) (s : jst) : jst :=
  let w := jw s in
  match l_deps (locs s t) with
  | None => JSt (set_files w (files w)) (locs s)
  | Some out =>
    match write_file (can_write E) (now w) (files w) (deps_path (it_out it)) (deps_content (parse_deps out)) with
    | None => JSt (set_files w (files w)) (locs s)
    | Some f => JSt (set_files w f) (locs s)
    end
  end.

(** What a tool does to the output file, given its result: success?, text, files. *)
Definition apply_tool (r : tool_result) (t : Z) (f : fs) (out : bytes) : bool * bytes * fs :=
  match r with
  | ToolOk text product =>
    match write_file (can_write E) t f out product with
    | Some f' => (true, text, f')
    | None => (false, text, f)
    end
  | ToolFail text rest =>
    match rest with
    | None => (false, text, f)
    | Some None => (false, text, remove_file (can_write E) f out)
    | Some (Some c) => (false, text, match write_file (can_write E) t f out c with Some f' => f' | None => f end)
    end
  end.

(** cc.c 121-141: run the compiler. *)
Definition act_compile (t : nat) (it : item) (s : jst) : jst :=
  let w := jw s in let l := locs s t in
  let '(ok, text, f) :=
    apply_tool (cc_obj E (argv_flags (it_flags it)) (it_src it) (files w)) (now w) (files w) (it_out it) in
  JSt (set_ran (set_files w f) (CmdCompile (it_src it) (it_out it)))
      (set_loc (locs s) t (Local (l_deps l) text (negb ok))).

(** cc.c 143-146: show and save the output. *)
Definition act_log (t : nat) (it : item) (s : jst) : jst :=
  let w := jw s in
  let '(text, f) := cmd_log (can_write E) (now w) (files w) (it_out it) (l_text (locs s t)) in
  JSt (set_shown (set_files w f) (it_out it) text) (locs s).

(** cc.c 148-157: install the object if it is to be installed. *)
Definition act_install (t : nat) (it : item) (s : jst) : jst :=
  let w := jw s in let l := locs s t in
  if l_fail l then JSt (set_files w (files w)) (locs s)
  else
    let '(ok, f) := installer E (it_out it) (now w) (files w) in
    JSt (set_files w f) (set_loc (locs s) t (Local (l_deps l) (l_text l) (negb ok))).

Definition job_prog (jobs : list item) (t : nat) : list (jst -> jst) :=
  match nth_error jobs t with
  | Some it => [act_deps t it; act_write_deps t it; act_compile t it; act_log t it; act_install t it]
  | None => []
  end.

(** cc.c 159: the job's result asks the pool to stop. *)
Definition job_stops (t : nat) (s : jst) : bool := l_fail (locs s t).

(** cc.c 242-286: every job is queued before the pool runs; then wait and free, or (on error) only free. *)
Definition compile_client (ok : bool) (m : nat) : list op :=
  map OAdd (seq 0 m) ++ (if ok then [OWait; OFree] else [OFree]).

(** The states the pool can be in during a compile step. *)
Definition pool_state (jobs : list item) (ok : bool) (w : world) (s : st jst) : Prop :=
  reachable jst (job_prog jobs) job_stops (ncpus E) (compile_client ok (length jobs)) (JSt w (fun _ => local0)) s.

(** cc.c 235-292 ([compile_step]), for any schedule of the workers: result and final world. *)
Definition compile_step (its : list item) (w : world) (rv : Z) (w' : world) : Prop :=
  exists ok jobs w1 s,
    validate_all its w = (ok, jobs, w1) /\
    pool_state jobs ok w1 s /\ finished jst s /\ jw (sig jst s) = w' /\
    if ok then In (EvRet rv) (trace jst s) else rv = (-1)%Z.

(** linker.c 43-161 ([link_step]). *)
Record link_req := LinkReq { lk_kind : link_kind; lk_flags : list bytes; lk_srcs : list bytes; lk_out : bytes }.

Definition do_link (r : link_req) (w : world) : Z * world :=
  let '(ok, text, f) :=
    apply_tool (ld E (lk_kind r) (match lk_kind r with Link => lib_prefix E | Archive => None end) (lk_out r)
                   (lk_srcs r) (argv_flags (lk_flags r)) (files w))
               (now w) (files w) (lk_out r) in
  let w1 := set_ran (set_files w f) (CmdLink (lk_kind r) (lk_out r)) in
  let '(printed, f2) := cmd_log (can_write E) (now w1) (files w1) (lk_out r) text in
  let w2 := set_shown (set_files w1 f2) (lk_out r) printed in
  if ok then
    let '(ok2, f3) := installer E (lk_out r) (now w2) (files w2) in
    ((if ok2 then 0 else -1)%Z, set_files w2 f3)
  else ((-1)%Z, w2).

Definition link_step (r : link_req) (w : world) : Z * world :=
  let '(changed, f1) := frugal_flags (can_write E) (now w) (files w) (lk_flags r) (lk_out r) in
  let w1 := set_files w f1 in
  if changed then do_link r w1 else
  match frugal_mtime f1 (lk_srcs r) (lk_out r) with
  | Some false =>
    let w2 := set_shown w1 (lk_out r) (log_already_done (files w1) (lk_out r)) in
    let '(ok, f2) := installer E (lk_out r) (now w2) (files w2) in
    ((if ok then 0 else -1)%Z, set_files w2 f2)
  | _ => do_link r w1                         (* 76-82: also when a time could not be read *)
  end.

(** Worlds an interruption (a kill of Bob and its tools) during a step can leave behind: the ones between two
    actions. Simplification: a single file write, tool run or installation is not cut in the middle (a tool that
    is killed is a tool that failed). *)
Definition compile_during (its : list item) (w w' : world) : Prop :=
  (exists its1 its2 ok jobs, its = its1 ++ its2 /\ validate_all its1 w = (ok, jobs, w')) \/
  exists ok jobs w1 s, validate_all its w = (ok, jobs, w1) /\ pool_state jobs ok w1 s /\ jw (sig jst s) = w'.

Definition do_link_during (r : link_req) (w w' : world) : Prop :=
  let '(ok, text, f) :=
    apply_tool (ld E (lk_kind r) (match lk_kind r with Link => lib_prefix E | Archive => None end) (lk_out r)
                   (lk_srcs r) (argv_flags (lk_flags r)) (files w))
               (now w) (files w) (lk_out r) in
  let w1 := set_ran (set_files w f) (CmdLink (lk_kind r) (lk_out r)) in
  let '(printed, f2) := cmd_log (can_write E) (now w1) (files w1) (lk_out r) text in
  let w2 := set_shown (set_files w1 f2) (lk_out r) printed in
  w' = w \/ w' = w1 \/ w' = w2 \/ w' = snd (do_link r w).

Definition link_during (r : link_req) (w w' : world) : Prop :=
  let '(changed, f1) := frugal_flags (can_write E) (now w) (files w) (lk_flags r) (lk_out r) in
  let w1 := set_files w f1 in
  w' = w \/ w' = snd (link_step r w) \/
  if changed then do_link_during r w1 w' else
  match frugal_mtime f1 (lk_srcs r) (lk_out r) with
  | Some false => w' = w1
  | _ => do_link_during r w1 w'
  end.

(** The build steps the script asked for, merged (build_step.c, proved in BuildStepProofs). *)
Inductive bstep :=
| SCompile (its : list item)
| SLink (r : link_req).

Definition one_step (b : bstep) (w : world) (rv : Z) (w' : world) : Prop :=
  match b with
  | SCompile its => compile_step its w rv w'
  | SLink r => link_step r w = (rv, w')
  end.

(** build_step.c 73-83 ([run_build_steps]). *)
Inductive run_steps : list bstep -> world -> Z -> world -> Prop :=
| run_nil w : run_steps [] w 0 w
| run_fail b bs w rv w' : one_step b w rv w' -> (rv < 0)%Z -> run_steps (b :: bs) w (-1) w'
| run_cons b bs w rv w1 rv2 w2 :
    one_step b w rv w1 -> (0 <= rv)%Z -> run_steps bs w1 rv2 w2 -> run_steps (b :: bs) w rv2 w2.

(** A run of the steps, complete or interrupted anywhere. *)
Inductive during : list bstep -> world -> world -> Prop :=
| dur_end w : during [] w w
| dur_compile its bs w w' : compile_during its w w' -> during (SCompile its :: bs) w w'
| dur_link r bs w w' : link_during r w w' -> during (SLink r :: bs) w w'
| dur_next b bs w rv w1 w' : one_step b w rv w1 -> (0 <= rv)%Z -> during bs w1 w' -> during (b :: bs) w w'.

End Build.
