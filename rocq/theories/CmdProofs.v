(** * Proofs about commands. *)

From Coq Require Import ZArith Ascii String Lia Bool List.
From Verif Require Import Base FileSys Frugal Deps Log Cmd SpecCmd.
Import ListNotations.

(** ** Arguments *)

Lemma add_argv_filter argv : forall args,
  cmd_add_argv args argv = args ++ filter (fun a => negb (bytes_eqb a (lit "--"))) argv.
Proof.
  induction argv as [|a argv IH]; intros args; cbn [cmd_add_argv filter]; [now rewrite app_nil_r|].
  destruct (bytes_eqb a (lit "--")); cbn [negb]; rewrite IH; auto. unfold cmd_add. now rewrite <- app_assoc.
Qed.

Lemma add_argv_verbatim args argv : ~ In (lit "--") argv -> cmd_add_argv args argv = args ++ argv.
Proof.
  intros H. rewrite add_argv_filter. f_equal. induction argv as [|a argv IH]; auto. cbn [filter].
  destruct (bytes_eqb a (lit "--")) eqn:E.
  - apply bytes_eqb_eq in E. exfalso. apply H. left. auto.
  - cbn [negb]. f_equal. apply IH. intros X. apply H. right. auto.
Qed.

(** ** Finding *)

Lemma is_executable_runnable look p : is_executable look p = true <-> runnable look p.
Proof.
  unfold is_executable, runnable. destruct (look p) as [| |[]]; split; congruence.
Qed.
Lemma not_executable look p : is_executable look p = false <-> ~ runnable look p.
Proof. rewrite <- is_executable_runnable. destruct (is_executable look p); split; congruence. Qed.

Lemma strsep_none c s : ~ In c s -> strsep c s = [s].
Proof.
  induction s as [|x s IH]; intros H; auto. cbn. destruct (byte_eqb x c) eqn:E.
  - apply byte_eqb_eq in E. exfalso. apply H. left. auto.
  - rewrite IH; auto. intros X. apply H. right. auto.
Qed.
Lemma strsep_field c s rest : ~ In c s -> strsep c (s ++ c :: rest) = s :: strsep c rest.
Proof.
  induction s as [|x s IH]; intros H; cbn; [now rewrite byte_eqb_refl|]. destruct (byte_eqb x c) eqn:E.
  - apply byte_eqb_eq in E. exfalso. apply H. left. auto.
  - rewrite IH; auto. intros X. apply H. right. auto.
Qed.

Lemma strsep_path dirs : path_dirs dirs -> strsep COLON (path_of dirs) = dirs.
Proof.
  intros [N H]. induction dirs as [|d [|d2 rest] IH]; [congruence| |].
  - cbn. apply strsep_none, H. left. auto.
  - change (path_of (d :: d2 :: rest)) with (d ++ COLON :: path_of (d2 :: rest)).
    rewrite strsep_field by (apply H; left; auto). f_equal. apply IH; [discriminate|]. intros x Hx. apply H. right. auto.
Qed.

Lemma search_cons look name t rest : search look name (t :: rest) =
  if is_executable look (in_dir t name) then Some (in_dir t name) else search look name rest.
Proof. reflexivity. Qed.

Lemma search_first look name dirs p : first_along look dirs name p -> search look name dirs = Some p.
Proof.
  intros (pre & d & post & -> & -> & R & N). induction pre as [|e pre IH].
  - apply is_executable_runnable in R. change ([] ++ d :: post) with (d :: post). rewrite search_cons, R. reflexivity.
  - assert (X : is_executable look (in_dir e name) = false) by (apply not_executable; apply (N e); left; auto).
    change ((e :: pre) ++ d :: post) with (e :: (pre ++ d :: post)). rewrite search_cons, X. apply IH. intros e' He. apply N. right. auto.
Qed.
Lemma search_nowhere look name dirs : nowhere look dirs name -> search look name dirs = None.
Proof.
  intros N. induction dirs as [|e dirs IH]; auto.
  assert (X : is_executable look (in_dir e name) = false) by (apply not_executable; apply (N e); left; auto).
  rewrite search_cons, X. apply IH. intros d Hd. apply N. right. auto.
Qed.
Lemma spawn_search_same look name dirs : (forall d, In d dirs -> d <> []) -> spawn_search look name dirs = search look name dirs.
Proof.
  intros H. induction dirs as [|e dirs IH]; auto. cbn [search spawn_search].
  destruct e as [|x e]; [exfalso; apply (H []); cbn; auto|]. rewrite IH; auto. intros d Hd. apply H. right. auto.
Qed.

Lemma first_or_nowhere look dirs name : (exists p, first_along look dirs name p) \/ nowhere look dirs name.
Proof.
  induction dirs as [|d dirs IH]; [right; intros d []|].
  destruct (is_executable look (in_dir d name)) eqn:X.
  - left. exists (in_dir d name), [], d, dirs. split; [|split; [|split]]; [reflexivity|reflexivity|now apply is_executable_runnable|intros e []].
  - apply not_executable in X. destruct IH as [(p & pre & d' & post & -> & -> & R & N)|N].
    + left. exists (in_dir d' name), (d :: pre), d', post. split; [|split; [|split]]; [reflexivity|reflexivity|exact R|]. intros e [<-|He]; auto.
    + right. intros e [<-|He]; auto.
Qed.

Lemma first_slash look dirs name p : first_along look dirs name p -> has_byte SLASH p = true.
Proof. intros (pre & d & post & _ & -> & _). apply has_byte_In. unfold in_dir. apply in_or_app. right. left. reflexivity. Qed.

Lemma first_runnable look dirs name p : first_along look dirs name p -> is_executable look p = true.
Proof. intros (pre & d & post & _ & -> & R & _). now apply is_executable_runnable. Qed.

Section Path.
Variables (look : bytes -> node) (dirs : list bytes) (name : bytes).
Hypothesis PD : path_dirs dirs.
Hypothesis B : bare name.

Theorem find_first p : ~ runnable look name -> first_along look dirs name p -> find_bin look (Some (path_of dirs)) name = Ret (Some p).
Proof.
  intros C F. unfold find_bin. apply not_executable in C. rewrite C, strsep_path by auto. f_equal. now apply search_first.
Qed.
Theorem find_nowhere : ~ runnable look name -> nowhere look dirs name -> find_bin look (Some (path_of dirs)) name = Ret None.
Proof.
  intros C F. unfold find_bin. apply not_executable in C. rewrite C, strsep_path by auto. f_equal. now apply search_nowhere.
Qed.

(** Whatever is in the working directory, a child process is the first one along $PATH. *)
Theorem child_first p execute rest : first_along look dirs name p ->
  cmd_exec_async look (Some (path_of dirs)) execute (cmd_create (name :: rest)) =
  match execute p (name :: rest) with LFails => Undefined | LRuns waits output => Ret (Some (waits, output)) end.
Proof.
  intros F. unfold cmd_exec_async. cbn [cmd_create c_args name_of].
  destruct (is_executable look name) eqn:C.
  - unfold find_bin. rewrite C. unfold spawn_file.
    assert (X : has_byte SLASH name = false) by (apply has_byte_not_In; auto). rewrite X, strsep_path by auto.
    rewrite spawn_search_same by (intros d Hd; apply PD; auto). rewrite (search_first _ _ _ p F). reflexivity.
  - rewrite (find_first p) by (auto; now apply not_executable). unfold spawn_file.
    rewrite (first_slash _ _ _ _ F), (first_runnable _ _ _ _ F). reflexivity.
Qed.
End Path.

(** ** Waiting *)

Local Open Scope Z_scope.

Lemma termsig_mod s : WTERMSIG s = s mod 128.
Proof. unfold WTERMSIG. change 127 with (Z.ones 7). rewrite Z.land_ones by lia. reflexivity. Qed.
Lemma exitstatus_mod s : WEXITSTATUS s = (s / 256) mod 256.
Proof. unfold WEXITSTATUS. rewrite Z.shiftr_div_pow2 by lia. change 255 with (Z.ones 8). rewrite Z.land_ones by lia. reflexivity. Qed.

Lemma wait_exited code sig : wait_for_process [Some (status_of (Exited code))] sig = ((if code mod 256 =? 0 then 0 else -1), sig).
Proof.
  unfold wait_for_process. cbn [last_status status_of].
  assert (T : WTERMSIG (256 * (code mod 256)) = 0). { rewrite termsig_mod. replace (256 * (code mod 256)) with ((2 * (code mod 256)) * 128) by lia. apply Z_mod_mult. }
  unfold WIFSIGNALED, WIFEXITED. rewrite T. cbn [Z.ltb Z.compare andb Z.eqb]. rewrite exitstatus_mod.
  rewrite Z.mul_comm, Z_div_mult by lia. rewrite Zmod_mod. reflexivity.
Qed.
Lemma wait_killed s core sig : 0 < s < 127 -> wait_for_process [Some (status_of (Killed s core))] sig = (-1, s).
Proof.
  intros H. unfold wait_for_process. cbn [last_status status_of].
  assert (T : WTERMSIG (s + (if core then 128 else 0)) = s).
  { rewrite termsig_mod. destruct core; [rewrite <- (Z.mul_1_l 128) at 1; rewrite Z_mod_plus_full|rewrite Z.add_0_r]; apply Z.mod_small; lia. }
  unfold WIFSIGNALED. rewrite T. destruct (Z.ltb_spec 0 s), (Z.ltb_spec s 127); try lia. reflexivity.
Qed.

Theorem wait_success e sig : possible e -> (fst (wait_for_process [Some (status_of e)] sig) = 0 <-> ended_well e).
Proof.
  destruct e as [code|s core]; intros P.
  - rewrite wait_exited. cbn [fst]. split.
    + intros H. exists code. split; auto. destruct (Z.eqb_spec (code mod 256) 0); auto; discriminate.
    + intros (c & [= ->] & H). now rewrite H.
  - rewrite wait_killed by auto. cbn [fst]. split; [discriminate|]. intros (c & [=] & _).
Qed.
Theorem wait_failure e sig : possible e -> (fst (wait_for_process [Some (status_of e)] sig) = -1 <-> ~ ended_well e).
Proof.
  intros P. rewrite <- (wait_success e sig P).
  destruct e as [code|s core]; [rewrite wait_exited|rewrite wait_killed by auto]; cbn [fst]; [destruct (code mod 256 =? 0)|]; split; congruence.
Qed.

(** ** Tools *)

Section Tool.
Variables (look : bytes -> node) (path : option bytes) (execute : bytes -> list bytes -> launch) (sig_text : Z -> bytes).

(** A child that runs is judged by how it ended; the text is what it wrote, plus a line for a signal. *)
Theorem tool_judged args e output : possible e ->
  cmd_exec_async look path execute (cmd_create args) = Ret (Some ([Some (status_of e)], output)) ->
  exists rv said text, run_tool look path execute sig_text args = Ret (rv, said, text) /\
  (rv = 0 \/ rv = -1) /\ (rv = 0 <-> ended_well e) /\ (said = true <-> ended_well e) /\
  text = cstr (output ++ match e with Exited _ => [] | Killed s _ => sig_text s end).
Proof.
  intros P H. unfold run_tool, cmd_exec. rewrite H.
  destruct (wait_for_process [Some (status_of e)] 0) as [rv sig] eqn:W.
  cbn [cmd_log_status cmd_read_out c_sig c_rv c_pipe]. eexists _, _, _. split; [reflexivity|].
  pose proof (wait_success e 0 P) as S. rewrite W in S. cbn [fst] in S.
  assert (V : rv = 0 \/ rv = -1).
  { destruct e as [code|s core]; [rewrite wait_exited in W|rewrite wait_killed in W by auto]; injection W as <- <-; [destruct (code mod 256 =? 0)|]; auto. }
  split; [exact V|]. split; [exact S|]. split.
  - rewrite <- S. destruct V as [-> | ->]; cbn; split; congruence.
  - destruct e as [code|s core]; [rewrite wait_exited in W|rewrite wait_killed in W by auto]; injection W as _ <-.
    + cbn. now rewrite app_nil_r.
    + cbn in P. destruct (Z.eqb_spec s 0); [lia|reflexivity].
Qed.

Theorem not_found_exec args c : find_bin look path (name_of args) = Ret None -> c_args c = args -> cmd_exec look path execute c = Ret (-1, c).
Proof. intros H A. unfold cmd_exec, cmd_exec_async. rewrite A, H. reflexivity. Qed.

Theorem not_found_tool args : find_bin look path (name_of args) = Ret None -> run_tool look path execute sig_text args = Undefined.
Proof. intros H. unfold run_tool. rewrite (not_found_exec args) by auto. reflexivity. Qed.

Theorem not_found_preprocessor args : find_bin look path (name_of args) = Ret None -> run_preprocessor look path execute sig_text args = Ret None.
Proof. intros H. unfold run_preprocessor. rewrite (not_found_exec args) by auto. reflexivity. Qed.

Theorem not_found_inplace a args : find_bin look path a = Ret None -> cmd_exec_inplace look path (a :: args) = Ret Fails.
Proof. intros H. cbn. rewrite H. reflexivity. Qed.
End Tool.
