(** * Commands (C71). *)

From Coq Require Import ZArith Arith Ascii String Lia Bool List.
From Verif Require PropertiesBuild PropertiesInstall.
From Verif Require Import Base CookieProofs Vfs Install Build SpecBuild Plan SpecPlan Cmd SpecCmd Main SpecMain MainProofs FlAst FlState FlInterp FlMonad FlScopeProofs FlTables FlParse FlRead SpecLex SpecSyntax SpecHistory SpecFiles SpecInstall InstallProofs PathProofs InstallAll Ground GroundProofs SpecDeliver FileSys Bob SpecBob Project SpecProject ProjectProofs RecipeProofs Cookie SpecNames SpecSettled OutsideProofs
  BuildFile SpecText TextProofs Command SpecCommand.
Import ListNotations.
Local Open Scope nat_scope.

Section Command.
Variables (sg : bool) (out : bytes) (listing : bytes -> option (list bytes)) (pow : Z -> Z -> option Z).
Variables (ia srcs : bytes -> Prop) (links : Cookie.link_kind -> list bytes -> Prop) (r : recipe) (p : purpose) (prefix : bytes) (d : disk) (t : bytes).
Hypothesis SR : sound_recipe sg out listing ia srcs links r p.
Hypothesis HB : has_bob d prefix.
Hypothesis D : d BUILD_PATH = Some t.
Hypothesis SA : says t (script r).

(** What the phases are for such a build file. *)
Lemma phases_recipe C l S : phases_of sg out listing pow prefix d C l S ->
  s_identified S = true /\ s_setup S = 0%Z /\ s_run S = found_run (to_run p) /\
  (forall pre, In (EvBuild pre) l -> SpecPlan.build sg out (c_env C pre) (to_build p) (c_before C) (s_build S pre) (c_built C pre)) /\
  (forall q, In (EvInstall q) l -> installs C (to_install p) q (s_install S q)).
Proof.
  intros (I & X). split; [rewrite I; unfold there; now rewrite D|]. destruct (X t D) as (ss & ex & fs & n & R & Se & F & M).
  rewrite (says_read _ _ SA) in R. injection R as <-.
  destruct (sound_file _ _ _ _ _ _ _ _ _ _ _ _ SR HB Se F) as [No Fb Nd Pt Me _ _ _].
  destruct (script_builds sg out listing pow ex fs prefix r p No Fb Nd Pt Me) as (N & Y). destruct (Y (n + N) ltac:(lia)) as (s & S1 & _ & P & Iv & Rv).
  assert (NF : setup sg out listing pow ex fs n prefix (script r) <> FlState.NoFuel) by (intro Q; rewrite Q in M; exact M).
  rewrite (setup_more _ _ _ _ _ _ n (n + N)) in S1 by (lia || exact NF). rewrite S1 in M. destruct M as (Su & Ru & Bu & In0).
  split; [exact Su|]. split; [congruence|]. split.
  - intros pre Ip. destruct (Bu pre Ip) as (iv & Ei & B). rewrite Iv in Ei. injection Ei as <-. rewrite found_map in B. cbn [fst] in B.
    destruct B as (bs & s' & Ps & Rs). rewrite P in Ps. exists bs. split; [congruence|exact Rs].
  - intros q Iq. destruct (In0 q Iq) as (iv & b & Ei & A & Eq). rewrite Iv in Ei. injection Ei as <-. rewrite found_map in A. cbn [snd] in A.
    unfold installs. destruct (to_install p) as [[|e m]|].
    + cbn in A. injection A as <- <-. split; [reflexivity|exact Eq].
    + exists b. split; [exact A|exact Eq].
    + cbn in A. injection A as <- <-. split; [reflexivity|exact Eq].
Qed.

Lemma words_recipe S instr args ws : s_run S = found_run (to_run p) -> program_words S instr args ws -> to_execute (s_env S) p instr args ws.
Proof.
  intros R [(-> & vec & V & ->)|[X|X]]; [left|right; left; exact X|right; right; exact X]. split; [reflexivity|].
  rewrite R in V. unfold found_run in V. injection V as V. assert (vec = to_run p) as ->.
  { clear - V. revert vec V. induction (to_run p) as [|x l IH]; intros [|y v] V; try discriminate; [reflexivity|]. injection V as <- V. now rewrite (IH _ V). }
  rewrite (map_ext_in cstr (fun x => x)), map_id; [reflexivity|]. intros x I. apply cstr_nul_free.
  destruct SR as [No _ Pt Me _ _ _]. pose proof (run_plain _ _ _ _ _ No Pt Me) as F. rewrite Forall_forall in F. exact (F x I).
Qed.

Lemma words_of_recipe S args : s_run S = found_run (to_run p) -> program_words S (lit "run") args (to_run p ++ user_words args).
Proof.
  intros R. left. split; [reflexivity|]. exists (to_run p). split; [exact R|].
  rewrite (map_ext_in cstr (fun x => x)), map_id; [reflexivity|]. intros x I. apply cstr_nul_free.
  destruct SR as [No _ Pt Me _ _ _]. pose proof (run_plain _ _ _ _ _ No Pt Me) as F. rewrite Forall_forall in F. exact (F x I).
Qed.

Lemma afterwards_recipe S instr args e : s_run S = found_run (to_run p) -> afterwards S out instr args e -> ends_as S out p instr args e.
Proof.
  intros R A. destruct A as [I|I X|I X|I X Y|w ws X Y (path & -> & Z)|w ws file env X Y Z|I X].
  - now apply ends_done.
  - rewrite R in X. discriminate.
  - apply ends_nothing; [exact I|]. destruct (words_recipe _ _ _ _ R X) as [(_ & Q)|[(Q & _)|(Q & _)]]; [now rewrite Q|rewrite I in Q; discriminate|rewrite I in Q; discriminate].
  - destruct I as [-> | ->].
    + destruct (X _ (words_of_recipe S args R)).
    + destruct args as [|a args].
      * apply ends_no_shell; [reflexivity|reflexivity|]. destruct (s_env S (lit "SHELL")) as [sh|] eqn:Q; [|reflexivity].
        destruct (X [sh]). right. right. split; [reflexivity|]. split; [reflexivity|]. exists sh. now split.
      * destruct (X (user_words (a :: args))). right. left. split; [reflexivity|]. split; [discriminate|reflexivity].
  - apply (ends_not_found S out p instr args w ws); [exact (words_recipe _ _ _ _ R X)|exact Y|]. intros dirs P Q. exact (Z dirs P Q).
  - apply ends_program; [exact (words_recipe _ _ _ _ R X)|exact Y|exact Z].
  - destruct (words_recipe _ _ _ _ R X) as [(Q & _)|[(_ & N & Q)|(_ & _ & sh & _ & Q)]]; [rewrite I in Q; discriminate|now apply ends_separators|discriminate Q].
Qed.

Theorem command_does C S argv os instr args project l :
  phases_of sg out listing pow prefix d C l S ->
  phases_return S -> reads (s_permute S) argv os (instr :: args) -> jobs_ok os ->
  project_dir os project -> out_dir os out -> prefix_dir (s_env S) os prefix ->
  s_project S project = true -> s_out S out = true -> s_exists S prefix = true ->
  phases out prefix instr = Some l ->
  exists tr e, main S argv = (tr, e) /\
  (forall pre, In (EvBuild pre) tr -> SpecPlan.build sg out (c_env C pre) (to_build p) (c_before C) (s_build S pre) (c_built C pre)) /\
  (forall q, In (EvInstall q) tr -> installs C (to_install p) q (s_install S q)) /\
  ((stopped S l tr /\ tr <> [EvSetup] /\ e = FExit 1) \/ (tr = l /\ Forall (succeeds S) l /\ ends_as S out p instr args e)).
Proof.
  intros Ph PR Rd J Pd Od Xd Sp So Se Pl. destruct (phases_recipe _ _ _ Ph) as (Id & Su & Ru & Bu & Is).
  destruct (known_instruction S argv os instr args project out prefix l PR Rd J Pd Od Xd (conj Sp (conj So (conj Se Id))) Pl) as (tr & e & M & K).
  exists tr, e. split; [exact M|].
  assert (Sub : incl tr l).
  { destruct K as [((a & x & b & -> & -> & _) & _)|(-> & _)]; [|apply incl_refl]. intros y Iy. apply in_app_iff in Iy as [Iy|[<-|[]]]; apply in_app_iff; [now left|right; now left]. }
  split; [intros pre I; exact (Bu pre (Sub _ I))|]. split; [intros q I; exact (Is q (Sub _ I))|].
  destruct K as [(St & ->)|(-> & Al & A)]; [left|right].
  - split; [exact St|]. split; [|reflexivity]. intros ->. destruct St as (a & x & b & _ & Q & _ & N). destruct a as [|y [|z a]]; [|discriminate|discriminate].
    injection Q as <-. exact (N Su).
  - split; [reflexivity|]. split; [exact Al|exact (afterwards_recipe _ _ _ _ Ru A)].
Qed.
End Command.

(** ** What follows for the files *)

Lemma forallb_map_true {A} (f : A -> expr) l : (forall x, calm_expr (f x) = true) -> forallb calm_expr (map f l) = true.
Proof. intros H. induction l as [|x l IH]; [reflexivity|]. cbn [map forallb]. now rewrite H, IH. Qed.
Lemma one_calm i : calm_expr (one_expr i) = true.
Proof. now destruct i. Qed.
Lemma test_calm y c : calm_expr (test_expr y c) = true.
Proof. induction c; cbn; try reflexivity; try assumption; rewrite IHc1, IHc2; reflexivity. Qed.
Lemma given_calm g : calm_expr (given_expr g) = true.
Proof.
  induction g as [l| | |g IH y c|g IH h IH']; cbn [given_expr calm_expr]; try reflexivity.
  - apply forallb_map_true, one_calm.
  - unfold method_call. cbn [calm_expr calm_body forallb]. now rewrite IH, test_calm.
  - now rewrite IH, IH'.
Qed.
Lemma strs_calm l : calm_expr (strs_lit l) = true.
Proof. unfold strs_lit. cbn [calm_expr]. now apply forallb_map_true. Qed.
Lemma line_calm l : calm_stmt (line_stmt l) = true.
Proof.
  destruct l as [x o fl|x o t g|x i|x g]; cbn [line_stmt calm_stmt].
  - unfold new_expr. cbn [calm_expr forallb]. now rewrite strs_calm.
  - unfold method_call, tool_expr, new_expr. cbn [calm_expr forallb]. rewrite given_calm. destruct t; cbn [calm_expr forallb]; [now rewrite strs_calm|reflexivity].
  - apply one_calm.
  - apply given_calm.
Qed.
Lemma script_calm r : no_element_assignment (script r).
Proof.
  unfold no_element_assignment, script. cbn [forallb calm_stmt]. rewrite !forallb_app. repeat (apply andb_true_intro; split).
  - reflexivity.
  - induction (recipe_lines r) as [|l ls IH]; [reflexivity|]. cbn [map forallb]. now rewrite line_calm, IH.
  - destruct (recipe_install r) as [m|]; [|reflexivity]. unfold some_stmt. cbn [forallb calm_stmt install_stmt calm_lhs calm_expr]. rewrite andb_true_r. cbn.
    induction m as [|[a b] m IH]; [reflexivity|]. cbn [map forallb fst snd]. now rewrite !one_calm, IH.
  - destruct (recipe_run r) as [g|]; [|reflexivity]. unfold some_stmt. cbn [forallb calm_stmt run_stmt calm_lhs]. now rewrite given_calm.
Qed.

(** Only bob.fl, in import/. *)
Definition just_bob (q : bytes) : file := if bytes_eqb q (lit "import/bob.fl") then FlInterp.File bob_fl else NoFile [].
Definition just_there (q : bytes) : bool := bytes_eqb q (lit "import/bob.fl").

Lemma build_outside sg out listing ia srcs links r p E w rv w' q :
  sound_recipe sg out listing ia srcs links r p ->
  (forall o t f, snd (installer E o t f) q = f q) -> ~ direct_child (out ++ lit "/bob") q ->
  SpecPlan.build sg out E (to_build p) w rv w' -> files w' q = files w q.
Proof.
  intros SR Ins Nd B. destruct SR as [No Di Pt Me _ _ _].
  assert (FB : finds_bob just_there just_bob []).
  { right. split; [reflexivity|]. split; [reflexivity|]. reflexivity. }
  apply (script_build_is sg out listing (fun _ _ => None) just_there just_bob E [] r p w rv w' No FB Di Pt Me) in B.
  destruct B as (n & s & bs & s' & Se & Ps & Rs).
  apply (outside_alone sg out listing (fun _ _ => None) just_there just_bob n [] (script r) s bs s' E w w' q); try assumption.
  - intros p0 ss Q. unfold just_bob in Q. destruct (bytes_eqb p0 (lit "import/bob.fl")); [|discriminate]. injection Q as <-. reflexivity.
  - apply script_calm.
  - right. exists rv. exact Rs.
Qed.

Section Commands.
Variables (sg : bool) (out : bytes) (listing : bytes -> option (list bytes)) (pow : Z -> Z -> option Z).
Variables (ia srcs : bytes -> Prop) (links : Cookie.link_kind -> list bytes -> Prop) (r : recipe) (p : purpose) (prefix : bytes) (d : disk).
Variables (C : course) (S : system) (argv : list bytes) (instr : bytes) (args : list bytes) (l : list event).
Hypothesis CM : command sg out listing pow ia srcs links r p prefix d C S argv instr args l.

Theorem does_as_said : exists tr e, main S argv = (tr, e) /\
  (forall pre, In (EvBuild pre) tr -> SpecPlan.build sg out (c_env C pre) (to_build p) (c_before C) (s_build S pre) (c_built C pre)) /\
  (forall q, In (EvInstall q) tr -> installs C (to_install p) q (s_install S q)) /\
  ((stopped S l tr /\ tr <> [EvSetup] /\ e = FExit 1) \/ (tr = l /\ Forall (succeeds S) l /\ ends_as S out p instr args e)).
Proof.
  destruct CM as [SR HB (t & D & SA) Ph PR (os & Rd & J & (project & Pd & Sp) & (Od & So) & (Xd & Se)) Kn].
  exact (command_does sg out listing pow ia srcs links r p prefix d t SR HB D SA C S argv os instr args project l Ph PR Rd J Pd Od Xd Sp So Se Kn).
Qed.

Lemma done tr e : main S argv = (tr, e) -> e <> FExit 1 ->
  tr = l /\ ends_as S out p instr args e /\
  (forall pre, In (EvBuild pre) l -> SpecPlan.build sg out (c_env C pre) (to_build p) (c_before C) 0 (c_built C pre)) /\
  (forall q, In (EvInstall q) l -> installs C (to_install p) q 0).
Proof.
  intros M N. destruct does_as_said as (tr' & e' & M' & B & I & K). rewrite M in M'. injection M' as <- <-.
  destruct K as [(_ & _ & Q)|(-> & A & K)]; [destruct (N Q)|]. split; [reflexivity|]. split; [exact K|]. rewrite Forall_forall in A. split.
  - intros pre J. specialize (B pre J). pose proof (A _ J) as Z. cbn in Z. now rewrite Z in B.
  - intros q J. specialize (I q J). pose proof (A _ J) as Z. cbn in Z. now rewrite Z in I.
Qed.

Lemma needs_products : exists pre, In (EvBuild pre) l.
Proof.
  destruct CM as [_ _ _ _ _ _ Kn]. unfold phases in Kn. destruct (bytes_eqb instr (lit "build")); [injection Kn as <-; exists None; cbn; tauto|].
  destruct (bytes_eqb instr (lit "install")); [injection Kn as <-; eexists; cbn; tauto|].
  destruct (bytes_eqb instr (lit "run") || bytes_eqb instr (lit "sh")); [injection Kn as <-; eexists; cbn; tauto|discriminate].
Qed.

Theorem runs_as_said tr file ws env : main S argv = (tr, FProgram file ws env) ->
  to_execute (s_env S) p instr args ws /\ runnable (s_look S) file /\ private_env S out env /\
  (forall pre, In (EvBuild pre) l -> SpecPlan.build sg out (c_env C pre) (to_build p) (c_before C) 0 (c_built C pre)) /\
  (forall q, In (EvInstall q) l -> installs C (to_install p) q 0).
Proof.
  intros M. destruct (done _ _ M ltac:(discriminate)) as (_ & K & B & I). inversion K as [| |w ws' f' e' X Y Z| | |]; subst. now repeat (split; [assumption|]).
Qed.

Theorem products_made tr e pre : main S argv = (tr, e) -> e <> FExit 1 -> In (EvBuild pre) l ->
  setting sg out (c_env C pre) ia srcs links -> (forall q, product_dir out q -> files (c_before C) q = FileSys.Absent) ->
  (forall it, wanted sg out (to_build p) it ->
     makes (it_out it) (ran (c_built C pre)) = Datatypes.S (makes (it_out it) (ran (c_before C))) /\
     exists text obj t, files (c_built C pre) (it_out it) = FileSys.File obj t /\ cc_obj (c_env C pre) (argv_flags (it_flags it)) (it_src it) (files (c_before C)) = ToolOk text obj) /\
  (forall k, wanted_link sg out (to_build p) k ->
     makes (lk_out k) (ran (c_built C pre)) = Datatypes.S (makes (lk_out k) (ran (c_before C))) /\ link_current (c_env C pre) (files (c_built C pre)) k) /\
  (forall o, ~ wanted_product sg out (to_build p) o -> makes o (ran (c_built C pre)) = makes o (ran (c_before C))).
Proof.
  intros M N J ST Em. destruct (done _ _ M N) as (_ & _ & B & _). destruct CM as [SR HB _ _ _ _ _].
  exact (PropertiesBuild.C20_clean_build sg out (c_env C pre) ia srcs links _ _ _ ST (file_requests _ _ _ _ _ _ _ _ _ _ SR HB) Em (B pre J)).
Qed.

Theorem others_installed tr e q O P m k v s : main S argv = (tr, e) -> e <> FExit 1 -> In (EvInstall q) l ->
  to_install p = Some m -> c_abs_out C = unparse O ->
  tidy (c_sys C) -> slash_free (s_cwd (c_sys C)) -> Forall (fun c => c <> []) O -> slash_free O ->
  tame (s_cwd (c_sys C)) q P (nodes (c_tree C q)) m ->
  (forall k v, In (k, v) m -> good_source (s_cwd (c_sys C)) O P (dests P m) (nodes (c_tree C q)) k v) ->
  In (k, v) m -> lookup (s_cwd (c_sys C)) (nodes (c_tree C q)) false k = WFound s -> ~ product O s ->
  SpecInstall.holds (nodes (c_tree C q)) s (nodes (c_installed C q)) (dest P v).
Proof.
  intros M N J Em Ao T Sc On So Tm Gs I L Np. destruct (done _ _ M N) as (_ & _ & _ & Is). specialize (Is q J). rewrite Em in Is.
  destruct m as [|e0 m]; [destruct I|]. destruct Is as (b & A & Q). destruct b; [|discriminate]. rewrite Ao in A.
  exact (PropertiesInstall.C31_destinations_have_content_partial (c_sys C) O q P (c_clock C) (e0 :: m) _ _ k v s T Sc On So Tm Gs A I L Np).
Qed.

Theorem rest_untouched tr e : main S argv = (tr, e) ->
  (forall pre x, In (EvBuild pre) tr -> (forall o t f, snd (installer (c_env C pre) o t f) x = f x) -> ~ direct_child (out ++ lit "/bob") x ->
     files (c_built C pre) x = files (c_before C) x) /\
  (forall q P, In (EvInstall q) tr -> tidy (c_sys C) -> tame (s_cwd (c_sys C)) q P (nodes (c_tree C q)) (match to_install p with Some m => m | None => [] end) ->
     untouched_outside P (nodes (c_tree C q)) (nodes (c_installed C q))).
Proof.
  intros M. destruct does_as_said as (tr' & e' & M' & B & I & _). rewrite M in M'. injection M' as <- <-. destruct CM as [SR HB _ _ _ _ _]. split.
  - intros pre x J Ins Nd. exact (build_outside _ _ _ _ _ _ _ _ _ _ _ _ _ SR Ins Nd (B pre J)).
  - intros q P J T Tm. specialize (I q J). unfold installs in I. destruct (to_install p) as [[|e0 m]|].
    + destruct I as (-> & _). intros y _. reflexivity.
    + destruct I as (b & A & _). destruct (PropertiesInstall.C30_install_stays_in_prefix_partial (c_sys C) (c_abs_out C) q P (c_clock C) (e0 :: m) (c_tree C q) _ T Tm A) as (b' & w' & Q & _ & U).
      injection Q as <- <-. exact U.
    + destruct I as (-> & _). intros y _. reflexivity.
Qed.
End Commands.

Theorem products_delivered sg out listing pow srcs links r p prefix d C S argv instr args l tr e q O B P base m c v :
  command sg out listing pow (prefix_area q) srcs links r p prefix d C S argv instr args l -> main S argv = (tr, e) -> e <> FExit 1 -> In (EvBuild (Some q)) l ->
  to_install p = Some m ->
  grounded (c_sys C) out q O B P base m -> installer (c_env C (Some q)) = ground_installer (c_sys C) out q O B P base m ->
  (1 <= ncpus (c_env C (Some q)))%nat -> monotone (clock (c_env C (Some q))) -> (forall x, product_dir out x -> ~ prefix_area q x) ->
  (forall fl s f f', (forall x, SpecBuild.source (product_dir out) (prefix_area q) x -> f x = f' x) -> cc_deps (c_env C (Some q)) fl s f = cc_deps (c_env C (Some q)) fl s f') ->
  (forall fl s f f', (forall x, SpecBuild.source (product_dir out) (prefix_area q) x -> f x = f' x) -> cc_obj (c_env C (Some q)) fl s f = cc_obj (c_env C (Some q)) fl s f') ->
  well_named sg out (c_env C (Some q)) (prefix_area q) srcs links ->
  (forall o, wanted_product sg out (to_build p) o -> awaiting (map_goes out q m) (clock (c_env C (Some q)) (tick (c_before C))) (files (c_before C)) o) ->
  fine_name c = true -> wanted_product sg out (to_build p) (out ++ lit "/bob/" ++ c) -> In (out ++ lit "/bob/" ++ c, v) m ->
  exists x t t', files (c_built C (Some q)) (out ++ lit "/bob/" ++ c) = FileSys.File x t /\ files (c_built C (Some q)) (q ++ lit "/" ++ v) = FileSys.File x t'.
Proof.
  intros CM M N J Em Gr In0 Nc Mo Ap Cd Co Wn Aw Fn Wp I. destruct (done _ _ _ _ _ _ _ _ _ _ _ _ _ _ _ _ _ CM _ _ M N) as (_ & _ & Bu & _). destruct CM as [SR HB _ _ _ _ _].
  pose proof (file_requests _ _ _ _ _ _ _ _ _ _ SR HB) as GR.
  exact (ground_build sg out (c_env C (Some q)) srcs links _ _ _ (c_sys C) q O B P base m Gr In0 Nc Mo Ap Cd Co Wn GR Aw (Bu _ J) c v Fn Wp I).
Qed.

(** ** Build files that fail *)

Section Stop.
Variables (sg : bool) (out : bytes) (listing : bytes -> option (list bytes)) (pow : Z -> Z -> option Z) (exists_ : bytes -> bool) (files : bytes -> file).
Let cf := bob_conf sg out listing pow exists_ files.
Definition stops {A} (o : FlState.out bob A) : Prop := match o with Fail _ | Died => True | _ => False end.
Lemma iter_stops n a x b s s1 : iterM (r_stmt (interp cf n)) a s = Ret tt s1 -> stops (r_stmt (interp cf n) x s1) -> stops (iterM (r_stmt (interp cf n)) (a ++ x :: b) s).
Proof.
  revert s. induction a as [|y a IH]; intros s A B; cbn [app iterM] in *; unfold mbind in *; [injection A as ->; now destruct (r_stmt (interp cf n) x s1)|]. destruct (r_stmt (interp cf n) y s) as [u t| | | |]; try discriminate. now apply IH.
Qed.
Lemma error_stops {A} m s : stops (@error bob cf A m s).
Proof. unfold error, raise. cbv zeta. destruct (err s); repeat match goal with |- stops (if ?t then _ else _) => destruct t end; exact Logic.I. Qed.
Lemma assert_stops n tx s : cur_rv s = None -> stops (r_stmt (interp cf (S (S n))) (SAssert (EBool false) tx) s).
Proof.
  intros R. cbn [interp r_stmt stmt_]. rewrite (bind_step _ _ _ _ _ (returning_no _ R)). cbv iota.
  assert (V : FlInterp.value (interp cf (S n)) (EBool false) s = Ret (length (cells s)) (set_cells (cells s ++ [Cell NNone 1 None (PBool false)]) s)) by reflexivity.
  unfold do_assert. rewrite (bind_step _ _ _ _ _ V). eassert (G : get_cell (length (cells s)) (set_cells (cells s ++ [Cell NNone 1 None (PBool false)]) s) = Ret (Cell NNone 1 None (PBool false)) _).
  { unfold get_cell. cbn [cells set_cells]. rewrite nth_error_app2, Nat.sub_diag by lia. reflexivity. }
  rewrite (bind_step _ _ _ _ _ G). apply error_stops.
Qed.
Lemma setup_stops prefix r p tx rest : nul_free out -> finds_bob exists_ files prefix -> distinct_names (recipe_lines r) -> plain_texts r -> recipe_means sg out listing r = Some p ->
  exists N, forall n, N <= n -> stops (setup sg out listing pow exists_ files n prefix (script r ++ SAssert (EBool false) tx :: rest)).
Proof.
  intros No F Nd Pt E. destruct (run_script sg out listing pow exists_ files prefix r p No F Nd Pt E) as (N & X). exists (N + 2). intros n L. destruct n as [|[|n]]; try lia. destruct (X (S (S n)) ltac:(lia)) as (s & Q & R).
  fold cf in Q. pose proof (assert_stops n tx s (en_rv _ _ _ _ _ _ R)) as A. unfold setup. fold cf. unfold run in *.
  destruct (create (import_dirs prefix) fresh_bob) as [u s0| | | |]; try discriminate. rewrite exec_iter in *. pose proof (iter_stops _ _ _ rest _ _ Q A) as B. clear Q A X.
  destruct (iterM _ _ s0) as [u1 s1| | | |]; try contradiction; [|exact Logic.I]. unfold fatal. exact Logic.I.
Qed.
End Stop.

Lemma set_up_badly S argv os instr args project out prefix :
  reads (s_permute S) argv os (instr :: args) -> jobs_ok os -> project_dir os project -> out_dir os out -> prefix_dir (s_env S) os prefix ->
  s_project S project = true -> s_out S out = true -> s_exists S prefix = true ->
  main S argv = if s_identified S then if (s_setup S <? 0)%Z then ([EvSetup], FExit 1) else main S argv else ([], FExit 1).
Proof.
  intros Rd J PD OD FD Sp So Se. destruct (apply_accepts os config0 J) as (g & A). destruct (config_dirs S _ _ _ _ _ Rd A) as (C1 & C2 & C3).
  apply project_dir_det in PD, C1. apply out_dir_det in OD, C2. apply prefix_dir_det in FD, C3. rewrite <- PD in C1. rewrite <- OD in C2. rewrite <- FD in C3.
  rewrite (main_eq _ _ _ _ _ _ (reads_getopt _ _ _ _ Rd) A), C1, C2, C3. unfold prepared_b. rewrite Sp, So, Se. cbn [andb]. destruct (s_identified S); [|reflexivity]. destruct (s_setup S <? 0)%Z; reflexivity.
Qed.

(** A build file that fails. *)
Theorem bad_file_stops sg out listing pow ia srcs links r p tx rest t prefix d C S argv os instr args project l :
  sound_recipe sg out listing ia srcs links r p -> has_bob d prefix -> d BUILD_PATH = Some t -> says t (script r ++ SAssert (EBool false) tx :: rest) ->
  phases_of sg out listing pow prefix d C l S ->
  reads (s_permute S) argv os (instr :: args) -> jobs_ok os -> project_dir os project -> out_dir os out -> prefix_dir (s_env S) os prefix ->
  s_project S project = true -> s_out S out = true -> s_exists S prefix = true ->
  main S argv = ([EvSetup], FExit 1).
Proof.
  intros SR HB D SA (I & X) Rd J Pd Od Xd Sp So Se. rewrite (set_up_badly S argv os instr args project out prefix Rd J Pd Od Xd Sp So Se).
  destruct (X t D) as (ss & ex & fs & n & R & Sees & F & M). rewrite (says_read _ _ SA) in R. assert (Q : ss = script r ++ SAssert (EBool false) tx :: rest) by congruence. subst ss.
  destruct (sound_file _ _ _ _ _ _ _ _ _ _ _ _ SR HB Sees F) as [No Fb Nd Pt Me _ _ _].
  destruct (setup_stops sg out listing pow ex fs prefix r p tx rest No Fb Nd Pt Me) as (N & Y). pose proof (Y (n + N) ltac:(lia)) as S1.
  assert (NF : setup sg out listing pow ex fs n prefix (script r ++ SAssert (EBool false) tx :: rest) <> FlState.NoFuel) by (intro Q; rewrite Q in M; exact M).
  rewrite (setup_more _ _ _ _ _ _ n (n + N)) in S1 by (lia || exact NF). destruct (setup _ _ _ _ _ _ _ _ _) as [u s1| | | |]; try contradiction. rewrite M, I. unfold there. rewrite D. reflexivity.
Qed.
(** One that does not import [bob], since there is nothing in it. *)
Theorem empty_file_stops sg out listing pow t prefix d C S argv os instr args project l :
  d BUILD_PATH = Some t -> says t [] -> phases_of sg out listing pow prefix d C l S ->
  reads (s_permute S) argv os (instr :: args) -> jobs_ok os -> project_dir os project -> out_dir os out -> prefix_dir (s_env S) os prefix ->
  s_project S project = true -> s_out S out = true -> s_exists S prefix = true ->
  main S argv = ([EvSetup], FExit 1).
Proof.
  intros D SA (I & X) Rd J Pd Od Xd Sp So Se. rewrite (set_up_badly S argv os instr args project out prefix Rd J Pd Od Xd Sp So Se).
  destruct (X t D) as (ss & ex & fs & n & R & Sees & F & M). rewrite (says_read _ _ SA) in R. injection R as <-.
  unfold setup, run in M. rewrite created_ok in M. cbn in M. rewrite M, I. unfold there. rewrite D. reflexivity.
Qed.
(** No build file. *)
Theorem no_file_stops sg out listing pow prefix d C S argv os instr args project l :
  d BUILD_PATH = None -> phases_of sg out listing pow prefix d C l S ->
  reads (s_permute S) argv os (instr :: args) -> jobs_ok os -> project_dir os project -> out_dir os out -> prefix_dir (s_env S) os prefix ->
  s_project S project = true -> s_out S out = true -> s_exists S prefix = true ->
  main S argv = ([], FExit 1).
Proof.
  intros D (I & _) Rd J Pd Od Xd Sp So Se. rewrite (set_up_badly S argv os instr args project out prefix Rd J Pd Od Xd Sp So Se). rewrite I. unfold there. rewrite D. reflexivity.
Qed.

Lemma script_snoc ss ks s ks' : ss <> [] -> script_is ss ks -> stmt_is s ks' -> script_is (ss ++ [s]) (ks ++ ks' ++ [nl]).
Proof.
  intros Ne H Q. destruct H as [cs|cs ss ks cs' A L B]; [contradiction|]. rewrite <- !app_assoc.
  replace (cs ++ ks ++ cs' ++ ks' ++ [nl]) with (cs ++ (ks ++ cs' ++ ks' ++ [nl]) ++ []) by (now rewrite app_nil_r).
  apply script_lines; [exact A| |constructor]. apply lines_next; [exact L|exact B|]. exact (TextProofs.ended _ _ Q).
Qed.
Theorem failing_says r : recipe_plain r -> says (written (recipe_toks r ++ [kw T_assert; kw T_false; nl]) []) (script r ++ [SAssert (EBool false) (source_of [kw T_false])]).
Proof.
  intros P. exists (recipe_toks r ++ [kw T_assert; kw T_false; nl]), []. split; [|split; [apply spaced_laid, Forall_app; split; [apply recipe_spaced|spaces_]|reflexivity]].
  apply (script_snoc _ _ _ [kw T_assert; kw T_false]); [discriminate|exact (recipe_is r P)|]. apply is_assert; [kw_|apply is_false; kw_].
Qed.
