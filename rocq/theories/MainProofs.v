(** * Proofs about the command line. *)

From Coq Require Import ZArith Ascii String Lia Bool List.
From Verif Require Import Base Hash FileSys Frugal Deps Log Cmd SpecCmd CmdProofs Main SpecMain.
Import ListNotations.
Local Open Scope Z_scope.

(** ** Options *)

Lemma known_letter c : known_option c = true <-> option_letter c.
Proof.
  unfold known_option, option_letter. rewrite has_byte_In. cbn. intuition congruence.
Qed.

Lemma operand_cases w : operand w \/ w = lit "--" \/ exists c r, w = "-"%char :: c :: r /\ w <> lit "--".
Proof.
  destruct w as [|d [|c r]].
  - left. right. intros r. discriminate.
  - destruct (byte_eqb d "-"%char) eqn:E.
    + apply byte_eqb_eq in E. subst. left. left. reflexivity.
    + left. right. intros r [= -> _]. now rewrite byte_eqb_refl in E.
  - destruct (byte_eqb d "-"%char) eqn:E.
    + apply byte_eqb_eq in E. subst. right. destruct (bytes_eqb ("-"%char :: c :: r) (lit "--")) eqn:F.
      * left. now apply bytes_eqb_eq.
      * right. exists c, r. split; auto. intros X. rewrite X, bytes_eqb_refl in F. discriminate.
    + left. right. intros r' [= -> _]. now rewrite byte_eqb_refl in E.
Qed.

Lemma getopt_operand permute w rest : operand w ->
  getopt permute (w :: rest) =
  if permute then let '(os, r) := getopt permute rest in (os, option_map (cons w) r) else ([], Some (w :: rest)).
Proof.
  intros O. cbn [getopt].
  assert (N : bytes_eqb w (lit "--") = false).
  { destruct (bytes_eqb w (lit "--")) eqn:E; auto. apply bytes_eqb_eq in E. subst. destruct O as [O|O]; [discriminate|]. exfalso. eapply O. reflexivity. }
  rewrite N. destruct w as [|d [|c r]]; auto.
  destruct (byte_eqb d "-"%char) eqn:E; auto. apply byte_eqb_eq in E. subst. destruct O as [O|O]; [discriminate|]. exfalso. eapply O. reflexivity.
Qed.

Lemma getopt_option permute c arg rest : "-"%char :: c :: arg <> lit "--" ->
  getopt permute (("-"%char :: c :: arg) :: rest) =
  if known_option c then
    match arg with
    | [] => match rest with [] => ([], None) | v :: rest' => let '(os, r) := getopt permute rest' in ((c, v) :: os, r) end
    | _ => let '(os, r) := getopt permute rest in ((c, arg) :: os, r)
    end
  else ([], None).
Proof.
  intros N. cbn [getopt].
  destruct (bytes_eqb ("-"%char :: c :: arg) (lit "--")) eqn:E; [apply bytes_eqb_eq in E; contradiction|].
  reflexivity.
Qed.

Lemma letter_not_dash c : option_letter c -> c <> "-"%char.
Proof. intros [-> |[-> |[-> | ->]]]; discriminate. Qed.

Lemma reads_getopt permute argv os ops : reads permute argv os ops -> getopt permute argv = (os, Some ops).
Proof.
  induction 1 as [|rest|c v rest os ops L H IH|c v rest os ops L N H IH|w rest P O|w rest os ops P O H IH]; auto.
  - rewrite getopt_option by (intros [= X]; now apply letter_not_dash in L). apply known_letter in L. rewrite L, IH. reflexivity.
  - rewrite getopt_option by (intros [= X Y]; now apply letter_not_dash in L). apply known_letter in L. rewrite L, IH.
    destruct v; [congruence|reflexivity].
  - rewrite getopt_operand, P by auto. reflexivity.
  - rewrite getopt_operand by auto. rewrite P at 1. rewrite IH. reflexivity.
Qed.

Lemma getopt_reads permute n : forall argv os ops, (length argv <= n)%nat -> getopt permute argv = (os, Some ops) -> reads permute argv os ops.
Proof.
  induction n as [|n IH]; intros argv os ops Ln H.
  - destruct argv; [|cbn in Ln; lia]. injection H as <- <-. constructor.
  - destruct argv as [|w rest]; [injection H as <- <-; constructor|]. cbn [length] in Ln.
    destruct (operand_cases w) as [O|[-> |(c & r & -> & N)]].
    + rewrite getopt_operand in H by auto. destruct permute eqn:P.
      * destruct (getopt true rest) as [os' [ops'|]] eqn:G; cbn in H; [|discriminate]. injection H as <- <-.
        apply reads_on; auto. apply IH; [lia|auto].
      * injection H as <- <-. apply reads_stop; auto.
    + injection H as <- <-. constructor.
    + rewrite getopt_option in H by auto. destruct (known_option c) eqn:K; [|discriminate]. apply known_letter in K.
      destruct r as [|x r].
      * destruct rest as [|v rest]; [discriminate|]. cbn [length] in Ln.
        destruct (getopt permute rest) as [os' [ops'|]] eqn:G; [|discriminate]. injection H as <- <-.
        apply reads_apart; auto. apply IH; [lia|auto].
      * destruct (getopt permute rest) as [os' [ops'|]] eqn:G; [|discriminate]. injection H as <- <-.
        apply reads_joined; auto; [discriminate|]. apply IH; [lia|auto].
Qed.

Theorem getopt_exact permute argv os ops : getopt permute argv = (os, Some ops) <-> reads permute argv os ops.
Proof. split; [apply getopt_reads with (n := length argv); auto|apply reads_getopt]. Qed.

(** ** Numbers *)

Lemma digit_byte d : 0 <= d <= 9 -> Z.of_N (N_of_ascii (digit_char d)) = 48 + d.
Proof. intros H. unfold digit_char. rewrite N_ascii_embedding by lia. lia. Qed.
Lemma digit_val_char d : 0 <= d <= 9 -> digit_val (digit_char d) = Some d.
Proof.
  intros H. unfold digit_val. rewrite digit_byte by auto.
  destruct (Z.leb_spec 48 (48 + d)), (Z.leb_spec (48 + d) 57); try lia. cbn [andb]. f_equal. lia.
Qed.
Lemma digits_value ds : forall acc, Forall (fun d => 0 <= d <= 9) ds -> digits acc (map digit_char ds) = fold_left (fun a d => 10 * a + d) ds acc.
Proof.
  induction ds as [|d ds IH]; intros acc F; auto. inversion F as [|? ? D F']; subst. cbn [map digits fold_left].
  rewrite digit_val_char by auto. apply IH; auto.
Qed.

Lemma digit_facts d : 0 <= d <= 9 ->
  is_space (digit_char d) = false /\ digit_char d <> NUL /\ byte_eqb (digit_char d) "-"%char = false /\ byte_eqb (digit_char d) "+"%char = false.
Proof.
  intros H. pose proof (digit_byte d H) as B. split; [|split; [|split]].
  - unfold is_space. rewrite B. destruct (Z.eqb_spec (48 + d) 32), (Z.leb_spec 9 (48 + d)), (Z.leb_spec (48 + d) 13); cbn; auto; lia.
  - intros X. rewrite X in B. change (Z.of_N (N_of_ascii NUL)) with 0 in B. lia.
  - destruct (byte_eqb (digit_char d) "-"%char) eqn:E; auto. apply byte_eqb_eq in E. rewrite E in B.
    change (Z.of_N (N_of_ascii "-"%char)) with 45 in B. lia.
  - destruct (byte_eqb (digit_char d) "+"%char) eqn:E; auto. apply byte_eqb_eq in E. rewrite E in B.
    change (Z.of_N (N_of_ascii "+"%char)) with 43 in B. lia.
Qed.

Lemma digits_nul_free ds : Forall (fun d => 0 <= d <= 9) ds -> nul_free (map digit_char ds).
Proof.
  intros F X. apply in_map_iff in X. destruct X as (d & E & I). rewrite Forall_forall in F.
  apply (digit_facts d (F d I)) in E. destruct E.
Qed.

Lemma atoi_numeral s n : numeral s n -> atoi s = if (-2147483648 <=? n) && (n <=? 2147483647) then Some n else None.
Proof.
  intros [ds N F|ds N F|ds N F]; unfold atoi.
  - rewrite cstr_nul_free by (apply digits_nul_free; auto). destruct ds as [|d ds]; [congruence|].
    pose proof F as F'. inversion F' as [|? ? D F2]; subst. destruct (digit_facts d D) as (A1 & A2 & A3 & A4).
    cbn [map skip_space]. rewrite A1, A3, A4. change (digit_char d :: map digit_char ds) with (map digit_char (d :: ds)).
    rewrite digits_value by auto. reflexivity.
  - rewrite cstr_nul_free by (intros [X|X]; [discriminate X|apply (digits_nul_free ds F X)]).
    change (skip_space ("+"%char :: map digit_char ds)) with ("+"%char :: map digit_char ds). cbn [byte_eqb].
    change (byte_eqb "+"%char "-"%char) with false. change (byte_eqb "+"%char "+"%char) with true.
    rewrite digits_value by auto. reflexivity.
  - rewrite cstr_nul_free by (intros [X|X]; [discriminate X|apply (digits_nul_free ds F X)]).
    change (skip_space ("-"%char :: map digit_char ds)) with ("-"%char :: map digit_char ds).
    change (byte_eqb "-"%char "-"%char) with true. cbv iota.
    rewrite digits_value by auto. reflexivity.
Qed.

Lemma set_max_jobs_exact n : an_int n ->
  (1 <= n <= 1024 -> set_max_jobs n = Some n) /\ (~ 1 <= n <= 1024 -> set_max_jobs n = None).
Proof.
  unfold an_int, set_max_jobs, wrap64, two64. intros I. split; intros H.
  - rewrite Z.mod_small by lia. destruct (Z.eqb_spec n 0), (Z.ltb_spec 1024 n); try lia; reflexivity.
  - destruct (Z.ltb_spec n 0) as [L|L].
    + replace (n mod 18446744073709551616) with (n + 18446744073709551616). 2: { rewrite <- (Z_mod_plus_full n 1 (18446744073709551616)), Z.mul_1_l. symmetry. apply Z.mod_small. lia. }
      destruct (Z.eqb_spec (n + 18446744073709551616) 0), (Z.ltb_spec 1024 (n + 18446744073709551616)); try lia; reflexivity.
    + rewrite Z.mod_small by lia. destruct (Z.eqb_spec n 0), (Z.ltb_spec 1024 n); try lia; reflexivity.
Qed.

Theorem jobs_accepted v n : numeral v n -> an_int n ->
  (exists m, atoi v = Some m /\ set_max_jobs m <> None) <-> 1 <= n <= 1024.
Proof.
  intros N I. rewrite (atoi_numeral v n N).
  assert (X : (-2147483648 <=? n) && (n <=? 2147483647) = true) by (unfold an_int in I; apply andb_true_iff; split; apply Z.leb_le; lia).
  rewrite X. destruct (set_max_jobs_exact n I) as [A B]. split.
  - intros (m & [= <-] & H). destruct (Z_le_dec 1 n), (Z_le_dec n 1024); auto; exfalso; apply H, B; lia.
  - intros H. exists n. split; auto. rewrite A by auto. discriminate.
Qed.

Theorem workers_are_jobs n online : 1 <= n <= 1024 -> ncpu n online = n.
Proof. intros H. unfold ncpu. destruct (Z.ltb_spec 0 n); [reflexivity|lia]. Qed.

Theorem workers_default online : online <> 0 -> 1 <= ncpu 0 online.
Proof. intros H. unfold ncpu. cbn. destruct (Z.ltb_spec online 0); lia. Qed.

(** ** The configuration *)

Fixpoint last_given (c : ascii) (os : list (ascii * bytes)) : option bytes :=
  match os with
  | [] => None
  | (d, v) :: rest => match last_given c rest with Some w => Some w | None => if byte_eqb d c then Some v else None end
  end.
Lemma last_none c os : last_given c os = None <-> not_given c os.
Proof.
  induction os as [|[d v] os IH]; cbn [last_given]; [split; [intros _ w []|reflexivity]|].
  destruct (last_given c os) as [x|].
  - split; [discriminate|]. intros H. exfalso. destruct IH as [_ IH]. specialize (IH (fun w Hw => H w (or_intror Hw))). discriminate IH.
  - destruct IH as [IH _]. specialize (IH eq_refl). destruct (byte_eqb d c) eqn:E.
    + apply byte_eqb_eq in E. subst. split; [discriminate|]. intros H. exfalso. apply (H v). left. reflexivity.
    + split; [|reflexivity]. intros _ w [[= -> ->]|Hw]; [now rewrite byte_eqb_refl in E|]. now apply (IH w).
Qed.
Lemma last_some c os v : last_given c os = Some v <-> given c os v.
Proof.
  induction os as [|[d x] os IH]; cbn [last_given].
  - split; [discriminate|]. intros (pre & post & E & _). destruct pre; discriminate.
  - destruct (last_given c os) as [y|] eqn:L.
    + split.
      * intros [= ->]. destruct IH as [IH _]. destruct (IH eq_refl) as (pre & post & -> & N). exists ((d, x) :: pre), post. auto.
      * intros (pre & post & E & N). destruct pre as [|p pre].
        -- injection E as -> -> E. subst post. exfalso. apply (proj1 (not_iff_compat (last_none c os))); [congruence|exact N].
        -- injection E as E0 E. assert (G : given c os v) by (exists pre, post; auto). apply IH in G. congruence.
    + split.
      * destruct (byte_eqb d c) eqn:E; [|discriminate]. apply byte_eqb_eq in E. intros [= ->]. subst.
        exists [], os. split; auto. now apply last_none.
      * intros (pre & post & E & N). destruct pre as [|p pre].
        -- injection E as -> -> E. now rewrite byte_eqb_refl.
        -- injection E as E0 E. exfalso. apply last_none in L. apply (L v). rewrite E. apply in_or_app. right. left. reflexivity.
Qed.

Definition or_else {A} (a b : option A) : option A := match a with Some _ => a | None => b end.
Definition get_or {A} (a : option A) (b : A) : A := match a with Some x => x | None => b end.

(** What the options leave, when they are accepted. *)
Lemma apply_ok os : forall g g', apply_options g os = POk g' -> (forall c v, In (c, v) os -> option_letter c) ->
  g_project g' = or_else (last_given "C"%char os) (g_project g) /\
  g_out g' = get_or (last_given "o"%char os) (g_out g) /\
  g_prefix g' = or_else (last_given "p"%char os) (g_prefix g).
Proof.
  induction os as [|[c v] os IH]; intros g g' H L; [injection H as <-; repeat split|].
  assert (L' : forall c v, In (c, v) os -> option_letter c) by (intros; apply (L c0 v0); right; auto).
  specialize (L c v (or_introl eq_refl)). cbn [apply_options] in H. cbn [last_given].
  destruct L as [-> |[-> |[-> | ->]]].
  - apply IH in H; auto. cbn [g_project g_out g_prefix] in H. destruct H as (H1 & H2 & H3). rewrite H1, H2, H3.
    destruct (last_given "C"%char os), (last_given "o"%char os), (last_given "p"%char os); repeat split.
  - cbn in H. destruct (atoi v) as [m|]; [|discriminate]. destruct (set_max_jobs m) as [k|]; [|discriminate].
    apply IH in H; auto. cbn [g_project g_out g_prefix] in H. destruct H as (H1 & H2 & H3). rewrite H1, H2, H3.
    destruct (last_given "C"%char os), (last_given "o"%char os), (last_given "p"%char os); repeat split.
  - apply IH in H; auto. cbn [g_project g_out g_prefix] in H. destruct H as (H1 & H2 & H3). rewrite H1, H2, H3.
    destruct (last_given "C"%char os), (last_given "o"%char os), (last_given "p"%char os); repeat split.
  - apply IH in H; auto. cbn [g_project g_out g_prefix] in H. destruct H as (H1 & H2 & H3). rewrite H1, H2, H3.
    destruct (last_given "C"%char os), (last_given "o"%char os), (last_given "p"%char os); repeat split.
Qed.

Lemma reads_letters permute argv os ops : reads permute argv os ops -> forall c v, In (c, v) os -> option_letter c.
Proof. induction 1; intros c' v' I; cbn in I; try contradiction; eauto; destruct I as [[= -> ->]|I]; eauto. Qed.

Lemma apply_accepts os : forall g, jobs_ok os -> exists g', apply_options g os = POk g'.
Proof.
  induction os as [|[c v] os IH]; intros g J; [eexists; reflexivity|].
  assert (J' : jobs_ok os) by (intros w Hw; apply J; right; auto). cbn [apply_options].
  destruct (byte_eqb c "C"%char); [apply IH; auto|]. destruct (byte_eqb c "j"%char) eqn:E.
  - apply byte_eqb_eq in E. subst. destruct (J v (or_introl eq_refl)) as (n & N & R).
    rewrite (atoi_numeral v n N). assert (I : an_int n) by (unfold an_int; lia).
    assert (X : (-2147483648 <=? n) && (n <=? 2147483647) = true) by (apply andb_true_iff; split; apply Z.leb_le; lia).
    rewrite X. destruct (set_max_jobs_exact n I) as [A _]. rewrite A by auto. apply IH; auto.
  - destruct (byte_eqb c "o"%char); apply IH; auto.
Qed.

(** Numbers that fit an int but not the range: refused. *)
Lemma apply_refuses os : forall g, (forall v, In ("j"%char, v) os -> exists n, numeral v n /\ an_int n) -> ~ jobs_ok os ->
  apply_options g os = PBad.
Proof.
  induction os as [|[c v] os IH]; intros g J N; [exfalso; apply N; intros v []|].
  assert (J' : forall v, In ("j"%char, v) os -> exists n, numeral v n /\ an_int n) by (intros w Hw; apply J; right; auto).
  assert (K : c <> "j"%char -> ~ jobs_ok os).
  { intros C X. apply N. intros w [[= -> ->]|Hw]; [congruence|auto]. }
  cbn [apply_options]. destruct (byte_eqb c "C"%char) eqn:EC.
  - apply byte_eqb_eq in EC. subst. apply IH; auto. apply K. discriminate.
  - destruct (byte_eqb c "j"%char) eqn:E.
    + apply byte_eqb_eq in E. subst. destruct (J v (or_introl eq_refl)) as (n & Nu & I).
      rewrite (atoi_numeral v n Nu).
      assert (X : (-2147483648 <=? n) && (n <=? 2147483647) = true) by (unfold an_int in I; apply andb_true_iff; split; apply Z.leb_le; lia).
      rewrite X. destruct (set_max_jobs_exact n I) as [A B].
      destruct (Z_le_dec 1 n) as [L1|L1]; [destruct (Z_le_dec n 1024) as [L2|L2]|].
      * rewrite A by auto. apply IH; auto. intros Y. apply N. intros w [[= <-]|Hw]; [|auto]. exists n. auto.
      * rewrite B by lia. reflexivity.
      * rewrite B by lia. reflexivity.
    + assert (C : c <> "j"%char) by (intros ->; now rewrite byte_eqb_refl in E).
      destruct (byte_eqb c "o"%char); apply IH; auto.
Qed.

Lemma apply_jobs os : forall g g', apply_options g os = POk g' -> 
  match last_given "j"%char os with
  | Some v => exists m, atoi v = Some m /\ set_max_jobs m = Some (g_jobs g')
  | None => g_jobs g' = g_jobs g
  end.
Proof.
  induction os as [|[c v] os IH]; intros g g' H; [injection H as <-; reflexivity|].
  cbn [apply_options] in H. cbn [last_given].
  destruct (byte_eqb c "C"%char) eqn:EC.
  - apply byte_eqb_eq in EC. subst. apply IH in H. change (byte_eqb "C"%char "j"%char) with false. destruct (last_given "j"%char os); auto.
  - destruct (byte_eqb c "j"%char) eqn:E.
    + destruct (atoi v) as [m|] eqn:A; [|discriminate]. destruct (set_max_jobs m) as [k|] eqn:M; [|discriminate].
      apply IH in H. destruct (last_given "j"%char os); auto. cbn in H. exists m. split; auto. congruence.
    + destruct (byte_eqb c "o"%char); apply IH in H; destruct (last_given "j"%char os); auto.
Qed.

(** ** Environments *)

Lemma env_private S out : private_env S out (setup_environment out (s_env S)).
Proof.
  unfold setup_environment, prepend_env.
  set (bin := out ++ lit "/prefix/bin"). set (lib := out ++ lit "/prefix/lib").
  assert (E : forall e a b c, a <> c -> set_env e a b c = e c).
  { intros e a b c N. unfold set_env. destruct (bytes_eqb c a) eqn:X; auto. apply bytes_eqb_eq in X. congruence. }
  assert (R : forall e a b, set_env e a b a = Some b) by (intros; unfold set_env; now rewrite bytes_eqb_refl).
  assert (PL : lit "PATH" <> lit "LD_LIBRARY_PATH") by discriminate.
  destruct (s_env S (lit "PATH")) as [p|] eqn:EP; rewrite E by auto; destruct (s_env S (lit "LD_LIBRARY_PATH")) as [l|] eqn:EL;
    unfold private_env, put_first; rewrite EP, EL; (split; [rewrite E by auto; apply R|split; [apply R|]]); intros n N1 N2; rewrite !E by auto; reflexivity.
Qed.

(** ** Programs *)

Lemma run_args_some elems ws : run_args elems = Some ws <-> exists vec, elems = map Some vec /\ ws = map cstr vec.
Proof.
  revert ws. induction elems as [|[s|] elems IH]; intros ws; cbn [run_args].
  - split; [intros [= <-]; exists []; auto|]. intros ([|] & E & ->); [reflexivity|discriminate].
  - split.
    + destruct (run_args elems) as [r|] eqn:R; [|discriminate]. intros [= <-].
      destruct (proj1 (IH r) eq_refl) as (vec & -> & ->). exists (s :: vec). auto.
    + intros ([|x vec] & E & ->); [discriminate|]. injection E as <- E.
      assert (R : run_args elems = Some (map cstr vec)) by (apply IH; exists vec; auto). rewrite R. reflexivity.
  - split; [discriminate|]. intros ([|x vec] & E & _); discriminate.
Qed.

Lemma user_words_argv args0 args : cmd_add_argv args0 args = args0 ++ user_words args.
Proof. apply add_argv_filter. Qed.

Lemma search_runnable look name toks p : search look name toks = Some p -> runnable look p.
Proof.
  induction toks as [|t toks IH]; cbn [search]; [discriminate|].
  destruct (is_executable look (t ++ [SLASH] ++ name)) eqn:X; auto. intros [= <-]. now apply is_executable_runnable.
Qed.

Lemma find_runnable look path name p : find_bin look path name = Ret (Some p) -> runnable look p.
Proof.
  unfold find_bin. destruct (is_executable look name) eqn:X; [intros [= <-]; now apply is_executable_runnable|].
  destruct path; [|discriminate]. intros [= H]. eapply search_runnable; eauto.
Qed.

Lemma exec_after S out instr args w ws r : program_words S instr args (w :: ws) ->
  exec_inplace S (setup_environment out (s_env S)) (w :: ws) = r ->
  exists e, snd (status ([], r)) = e /\ afterwards S out instr args e.
Proof.
  intros P H. eexists. split; [reflexivity|]. subst r. pose proof (env_private S out) as V. unfold exec_inplace. pose proof V as (VP & _).
  rewrite VP. cbn [cmd_exec_inplace]. set (path := put_first _ _) in *.
  destruct (find_bin (s_look S) (Some path) w) as [[f|]|s|] eqn:F.
  - cbn [status snd]. apply find_runnable in F. apply after_program with (env := setup_environment out (s_env S)); auto.
  - cbn [status snd]. assert (X : ~ runnable (s_look S) w).
    { intros X. apply is_executable_runnable in X. unfold find_bin in F. rewrite X in F. discriminate. }
    eapply after_not_found; eauto. exists path. split; [reflexivity|]. intros dirs PD E. rewrite E in F.
    destruct (first_or_nowhere (s_look S) dirs w) as [(p & Fi)|N]; auto.
    rewrite (find_first (s_look S) dirs w PD p X Fi) in F. discriminate.
  - unfold find_bin in F. destruct (is_executable (s_look S) w); discriminate.
  - unfold find_bin in F. destruct (is_executable (s_look S) w); discriminate.
Qed.

Lemma bob_run_after S out args : exists e, snd (status ([], bob_run S (setup_environment out (s_env S)) args)) = e /\ afterwards S out (lit "run") args e.
Proof.
  unfold bob_run. destruct (s_run S) as [| | |elems] eqn:R.
  - eexists. split; [reflexivity|]. apply after_no_words; auto.
    + intros ws [(_ & vec & E & _)|[(X & _)|(X & _)]]; [congruence|discriminate X|discriminate X].
    + left. congruence.
  - eexists. split; [reflexivity|]. apply after_disabled; auto.
  - eexists. split; [reflexivity|]. apply after_no_words; auto.
    + intros ws [(_ & vec & E & _)|[(X & _)|(X & _)]]; [congruence|discriminate X|discriminate X].
    + left. congruence.
  - destruct (run_args elems) as [ws|] eqn:A.
    + apply run_args_some in A. destruct A as (vec & -> & ->). rewrite user_words_argv.
      assert (P : program_words S (lit "run") args (map cstr vec ++ user_words args)) by (left; split; auto; exists vec; auto).
      destruct (map cstr vec ++ user_words args) as [|w ws]; [eexists; split; [reflexivity|]; apply after_nothing; auto|].
      eapply exec_after; eauto.
    + eexists. split; [reflexivity|]. apply after_no_words; auto.
      * intros ws [(_ & vec & E & _)|[(X & _)|(X & _)]]; [|discriminate X|discriminate X].
        assert (elems = map Some vec) by congruence. assert (Y : run_args elems = Some (map cstr vec)) by (apply run_args_some; eauto). congruence.
      * left. congruence.
Qed.

Lemma sh_after S out args :
  exists e, snd (status ([], match args with
     | [] => match setup_environment out (s_env S) (lit "SHELL") with None => RValue (-1) | Some sh => exec_inplace S (setup_environment out (s_env S)) [sh] end
     | _ => exec_inplace S (setup_environment out (s_env S)) (cmd_add_argv [] args)
     end)) = e /\ afterwards S out (lit "sh") args e.
Proof.
  pose proof (env_private S out) as (_ & _ & V).
  destruct args as [|a args].
  - rewrite V by discriminate. destruct (s_env S (lit "SHELL")) as [sh|] eqn:H.
    + eapply exec_after; [|reflexivity]. right. right. eauto 6.
    + eexists. split; [reflexivity|]. apply after_no_words; auto.
      intros ws [(X & _)|[(_ & X & _)|(_ & _ & sh & X & _)]]; [discriminate X|congruence|congruence].
  - rewrite user_words_argv. cbn [app].
    assert (P : program_words S (lit "sh") (a :: args) (user_words (a :: args))) by (right; left; split; [reflexivity|split; [discriminate|reflexivity]]).
    destruct (user_words (a :: args)) as [|w ws].
    + eexists. split; [reflexivity|]. cbn. apply after_separators; auto.
    + eapply exec_after; eauto.
Qed.

(** ** Phases *)

Lemma status_split t r : status (t, r) = (t, snd (status ([], r))).
Proof. destruct r; reflexivity. Qed.

Section Phases.
Variable S : system.
Hypothesis PR : phases_return S.
Variables out prefix : bytes.

Lemma setup_fails : (s_setup S <? 0) = true <-> ~ succeeds S EvSetup.
Proof. destruct PR as [[H|H] _]; cbn; rewrite H; cbn; split; congruence. Qed.

Lemma stop_first e post : ~ succeeds S e -> stopped S (e :: post) [e].
Proof. intros H. exists [], e, post. split; [reflexivity|]. split; [reflexivity|]. split; [constructor|exact H]. Qed.
Lemma stop_second e1 e2 post : succeeds S e1 -> ~ succeeds S e2 -> stopped S (e1 :: e2 :: post) [e1; e2].
Proof. intros H1 H. exists [e1], e2, post. split; [reflexivity|]. split; [reflexivity|]. split; [constructor; auto|exact H]. Qed.

Lemma bsys_build_phases pre t z : bsys_build S out pre = (t, z) ->
  (stopped S [EvMkdir (out ++ lit "/bob"); EvBuild pre] t /\ z = -1) \/
  (t = [EvMkdir (out ++ lit "/bob"); EvBuild pre] /\ Forall (succeeds S) t /\ z = 0).
Proof.
  unfold bsys_build. generalize (out ++ lit "/bob"). intros dir. cbv zeta. destruct (s_mkdir S dir) eqn:M; intros [= <- <-].
  - destruct PR as (_ & B & _). destruct (B pre) as [H|H]; rewrite H.
    + right. split; [reflexivity|]. split; [|reflexivity]. repeat constructor; cbn; assumption.
    + left. split; [|reflexivity]. apply stop_second; unfold succeeds; congruence.
  - left. split; [|reflexivity]. apply stop_first; unfold succeeds; congruence.
Qed.

Lemma stopped_more l t more : stopped S l t -> stopped S (l ++ more) t.
Proof.
  intros (pre & e & post & -> & -> & F & N). exists pre, e, (post ++ more). split; [now rewrite <- app_assoc|]. auto.
Qed.
Lemma stopped_after l t before : Forall (succeeds S) before -> stopped S l t -> stopped S (before ++ l) (before ++ t).
Proof.
  intros B (pre & e & post & -> & -> & F & N). exists (before ++ pre), e, post.
  split; [now rewrite <- app_assoc|]. split; [now rewrite <- app_assoc|]. split; [apply Forall_app; auto|auto].
Qed.

Lemma do_install_phases to t z : do_install S out to prefix = (t, z) ->
  let p := if to then out ++ lit "/prefix" else prefix in
  let l := (if to then [EvMkdir p] else []) ++ [EvMkdir (out ++ lit "/bob"); EvBuild (Some p); EvInstall p] in
  (stopped S l t /\ z = -1) \/ (t = l /\ Forall (succeeds S) l /\ z = 0).
Proof.
  unfold do_install. cbv zeta. set (p := if to then out ++ lit "/prefix" else prefix).
  destruct (to && negb (s_mkdir S p)) eqn:M.
  - intros [= <- <-]. left. split; [|reflexivity]. destruct to; [|discriminate]. cbn in M.
    destruct (s_mkdir S p) eqn:MM; [discriminate|]. apply stop_first; unfold succeeds; congruence.
  - assert (B : Forall (succeeds S) (if to then [EvMkdir p] else [])).
    { destruct to; [|constructor]. cbn in M. destruct (s_mkdir S p) eqn:MM; [|discriminate]. repeat constructor. exact MM. }
    destruct (bsys_build S out (Some p)) as [t' z'] eqn:Bu. destruct (bsys_build_phases _ _ _ Bu) as [[St ->]|(-> & Fs & ->)].
    + intros [= <- <-]. left. split; [|reflexivity]. apply stopped_after; auto.
      change [EvMkdir (out ++ lit "/bob"); EvBuild (Some p); EvInstall p] with ([EvMkdir (out ++ lit "/bob"); EvBuild (Some p)] ++ [EvInstall p]).
      apply stopped_more; auto.
    + cbn [Z.ltb Z.compare]. intros [= <- <-]. destruct PR as (_ & _ & I). destruct (I p) as [H|H]; rewrite H.
      * right. split; [reflexivity|]. split; [|reflexivity]. apply Forall_app. split; auto.
        inversion Fs as [|? ? X1 X2]; subst. inversion X2 as [|? ? X3 _]; subst. repeat constructor; auto.
      * left. split; [|reflexivity]. apply stopped_after; auto.
        inversion Fs as [|? ? X1 X2]; subst. inversion X2 as [|? ? X3 _]; subst.
        exists [EvMkdir (out ++ lit "/bob"); EvBuild (Some p)], (EvInstall p), []. split; [reflexivity|]. split; [reflexivity|].
        split; [repeat constructor; auto|]. cbn. congruence.
Qed.

Lemma dispatch_phases instr args l t e : phases out prefix instr = Some (EvSetup :: l) ->
  dispatch S out prefix instr args = (t, e) ->
  (stopped S l t /\ e = FExit 1) \/ (t = l /\ Forall (succeeds S) l /\ afterwards S out instr args e).
Proof.
  unfold phases, dispatch.
  destruct (bytes_eqb instr (lit "build")) eqn:E1.
  { apply bytes_eqb_eq in E1. subst. intros [= <-]. destruct (bsys_build S out None) as [t' z] eqn:B.
    destruct (bsys_build_phases _ _ _ B) as [[St ->]|(-> & F & ->)]; intros [= <- <-]; [left; auto|].
    right. split; [reflexivity|]. split; auto. apply after_build. auto. }
  destruct (bytes_eqb instr (lit "install")) eqn:E2.
  { apply bytes_eqb_eq in E2. subst. change (bytes_eqb (lit "install") (lit "run")) with false. change (bytes_eqb (lit "install") (lit "sh")) with false.
    cbv iota. intros [= <-]. destruct (do_install S out false prefix) as [t' z] eqn:B.
    destruct (do_install_phases _ _ _ B) as [[St ->]|(-> & F & ->)]; intros [= <- <-]; [left; auto|].
    right. split; [reflexivity|]. split; auto. apply after_build. auto. }
  destruct (bytes_eqb instr (lit "run")) eqn:E3.
  { apply bytes_eqb_eq in E3. subst. intros [= <-]. unfold bsys_run. destruct (do_install S out true prefix) as [t' z] eqn:B.
    destruct (do_install_phases _ _ _ B) as [[St ->]|(-> & F & ->)]; cbn [Z.ltb Z.compare].
    - intros [= <- <-]. left. auto.
    - rewrite status_split. intros [= <- <-]. right. split; [reflexivity|]. split; auto.
      destruct (bob_run_after S out args) as (e & <- & A). exact A. }
  destruct (bytes_eqb instr (lit "sh")) eqn:E4; [|discriminate].
  apply bytes_eqb_eq in E4. subst. intros [= <-]. unfold bsys_sh. destruct (do_install S out true prefix) as [t' z] eqn:B.
  destruct (do_install_phases _ _ _ B) as [[St ->]|(-> & F & ->)]; cbn [Z.ltb Z.compare].
  - intros [= <- <-]. left. auto.
  - rewrite status_split. intros [= <- <-]. right. split; [reflexivity|]. split; auto.
    destruct (sh_after S out args) as (e & <- & A). exact A.
Qed.

Lemma dispatch_unknown instr args : phases out prefix instr = None -> dispatch S out prefix instr args = ([], FExit 1).
Proof.
  unfold phases, dispatch. destruct (bytes_eqb instr (lit "build")); [discriminate|].
  destruct (bytes_eqb instr (lit "install")) eqn:E; [discriminate|].
  destruct (bytes_eqb instr (lit "run")); [discriminate|]. destruct (bytes_eqb instr (lit "sh")); [discriminate|]. reflexivity.
Qed.

Lemma phases_setup instr l : phases out prefix instr = Some l -> exists l', l = EvSetup :: l'.
Proof.
  unfold phases. destruct (bytes_eqb instr (lit "build")); [intros [= <-]; eauto|].
  destruct (bytes_eqb instr (lit "install")); [intros [= <-]; eauto|].
  destruct (bytes_eqb instr (lit "run") || bytes_eqb instr (lit "sh")); [intros [= <-]; eauto|discriminate].
Qed.
End Phases.

(** ** The whole program *)

Lemma out_dir_det os out : out_dir os out <-> out = get_or (last_given "o"%char os) (lit ".bob").
Proof.
  unfold out_dir. rewrite <- last_some, <- last_none. destruct (last_given "o"%char os); cbn; intuition congruence.
Qed.
Lemma project_dir_det os d : project_dir os d <-> d = get_or (last_given "C"%char os) (lit ".").
Proof.
  unfold project_dir. rewrite <- last_some, <- last_none. destruct (last_given "C"%char os); cbn; intuition congruence.
Qed.
Lemma prefix_dir_det S os p : prefix_dir (s_env S) os p <->
  p = get_or (last_given "p"%char os) (get_or (s_env S (lit "PREFIX")) (lit "/usr/local")).
Proof.
  unfold prefix_dir. rewrite <- last_some, <- last_none. destruct (last_given "p"%char os), (s_env S (lit "PREFIX")); cbn; intuition congruence.
Qed.

Lemma config_dirs S permute argv os ops g : reads permute argv os ops -> apply_options config0 os = POk g ->
  project_dir os (match g_project g with Some p => p | None => lit "." end) /\
  out_dir os (g_out g) /\ prefix_dir (s_env S) os (the_prefix S g).
Proof.
  intros R A. apply apply_ok in A; [|eapply reads_letters; eauto]. destruct A as (A1 & A2 & A3).
  rewrite project_dir_det, out_dir_det, prefix_dir_det. unfold the_prefix. rewrite A1, A2, A3. cbn [config0 g_project g_out g_prefix].
  destruct (last_given "C"%char os), (last_given "o"%char os), (last_given "p"%char os), (s_env S (lit "PREFIX")); repeat split.
Qed.

Definition prepared_b (S : system) (project out prefix : bytes) : bool :=
  s_project S project && s_out S out && s_exists S prefix && s_identified S.
Lemma prepared_iff S project out prefix : prepared_b S project out prefix = true <-> prepared S project out prefix.
Proof. unfold prepared_b, prepared. rewrite !andb_true_iff. tauto. Qed.

Lemma main_eq S argv os instr args g : getopt (s_permute S) argv = (os, Some (instr :: args)) -> apply_options config0 os = POk g ->
  main S argv = if prepared_b S (match g_project g with Some p => p | None => lit "." end) (g_out g) (the_prefix S g)
                then if s_setup S <? 0 then ([EvSetup], FExit 1)
                     else (EvSetup :: fst (dispatch S (g_out g) (the_prefix S g) instr args), snd (dispatch S (g_out g) (the_prefix S g) instr args))
                else ([], FExit 1).
Proof.
  intros H A. unfold main, prepared_b. rewrite H, A.
  destruct (s_project S _); cbn [negb andb]; auto. destruct (s_out S _); cbn [negb andb]; auto.
  destruct (s_exists S _); cbn [negb andb]; auto. destruct (s_identified S); cbn [negb]; auto.
  destruct (s_setup S <? 0); auto. destruct (dispatch _ _ _ _ _); reflexivity.
Qed.

Theorem known_instruction S argv os instr args project out prefix l :
  phases_return S -> reads (s_permute S) argv os (instr :: args) -> jobs_ok os ->
  project_dir os project -> out_dir os out -> prefix_dir (s_env S) os prefix -> prepared S project out prefix ->
  phases out prefix instr = Some l ->
  exists t e, main S argv = (t, e) /\
  ((stopped S l t /\ e = FExit 1) \/ (t = l /\ Forall (succeeds S) l /\ afterwards S out instr args e)).
Proof.
  intros PR R J PD OD FD P Ph. destruct (apply_accepts os config0 J) as (g & A).
  destruct (config_dirs S _ _ _ _ _ R A) as (C1 & C2 & C3).
  apply project_dir_det in PD, C1. apply out_dir_det in OD, C2. apply prefix_dir_det in FD, C3. rewrite <- PD in C1. rewrite <- OD in C2. rewrite <- FD in C3.
  apply reads_getopt in R. rewrite (main_eq _ _ _ _ _ _ R A), C1, C2, C3. apply prepared_iff in P. rewrite P.
  destruct (phases_setup _ _ _ _ Ph) as (l' & ->).
  destruct (s_setup S <? 0) eqn:E.
  - eexists _, _. split; [reflexivity|]. left. split; [|reflexivity]. exists [], EvSetup, l'. split; [reflexivity|]. split; [reflexivity|]. split; [constructor|]. now apply setup_fails.
  - destruct (dispatch S out prefix instr args) as [t e] eqn:D. eexists _, _. split; [reflexivity|]. cbn [fst snd].
    assert (X : succeeds S EvSetup). { destruct PR as [[H|H] _]; [exact H|]. rewrite H in E. discriminate. }
    destruct (dispatch_phases S PR out prefix instr args l' t e Ph D) as [[St ->]|(-> & F & Af)].
    + left. split; [|reflexivity]. apply (stopped_after S l' t [EvSetup]); auto.
    + right. split; [reflexivity|]. split; auto.
Qed.

Theorem unknown_instruction S argv os instr args out prefix :
  reads (s_permute S) argv os (instr :: args) -> jobs_ok os -> phases out prefix instr = None ->
  exists t, main S argv = (t, FExit 1) /\ (t = [] \/ t = [EvSetup]).
Proof.
  intros R J Ph. destruct (apply_accepts os config0 J) as (g & A). apply reads_getopt in R. rewrite (main_eq _ _ _ _ _ _ R A).
  assert (Ph' : phases (g_out g) (the_prefix S g) instr = None).
  { unfold phases in *. destruct (bytes_eqb instr (lit "build")); [discriminate|]. destruct (bytes_eqb instr (lit "install")); [discriminate|].
    destruct (bytes_eqb instr (lit "run") || bytes_eqb instr (lit "sh")); [discriminate|reflexivity]. }
  rewrite dispatch_unknown by auto. destruct (prepared_b _ _ _ _); [|eauto]. destruct (s_setup S <? 0); eauto.
Qed.

Theorem unprepared S argv os instr args project out prefix :
  reads (s_permute S) argv os (instr :: args) -> jobs_ok os ->
  project_dir os project -> out_dir os out -> prefix_dir (s_env S) os prefix -> ~ prepared S project out prefix ->
  main S argv = ([], FExit 1).
Proof.
  intros R J PD OD FD P. destruct (apply_accepts os config0 J) as (g & A).
  destruct (config_dirs S _ _ _ _ _ R A) as (C1 & C2 & C3).
  apply project_dir_det in PD, C1. apply out_dir_det in OD, C2. apply prefix_dir_det in FD, C3. rewrite <- PD in C1. rewrite <- OD in C2. rewrite <- FD in C3.
  apply reads_getopt in R. rewrite (main_eq _ _ _ _ _ _ R A), C1, C2, C3.
  destruct (prepared_b S project out prefix) eqn:E; auto. apply prepared_iff in E. contradiction.
Qed.

(** A command line that is not understood, or has no instruction, never starts anything. *)
Theorem not_understood S argv : (forall os instr args, ~ reads (s_permute S) argv os (instr :: args)) ->
  fst (main S argv) = [] /\ (snd (main S argv) = FExit 1 \/ snd (main S argv) = FUndefined).
Proof.
  intros H. unfold main. destruct (getopt (s_permute S) argv) as [os [[|instr args]|]] eqn:G.
  - destruct (apply_options config0 os); auto.
  - apply getopt_exact in G. exfalso. eapply H. eauto.
  - destruct (apply_options config0 os); auto.
Qed.

Theorem bad_jobs S argv os ops : reads (s_permute S) argv os ops ->
  (forall v, In ("j"%char, v) os -> exists n, numeral v n /\ an_int n) -> ~ jobs_ok os ->
  main S argv = ([], FExit 1).
Proof.
  intros R J N. apply reads_getopt in R. unfold main. rewrite R, (apply_refuses os config0 J N). reflexivity.
Qed.

Theorem jobs_are_workers S argv os ops v n online : reads (s_permute S) argv os ops -> jobs_ok os ->
  given "j"%char os v -> numeral v n -> s_env S (lit "BOB_BUILD_DEBUGGING") = None -> workers S argv online = Some n.
Proof.
  intros R J G Nu D. apply reads_getopt in R. unfold workers, jobs_set. rewrite R, D.
  destruct (apply_accepts os config0 J) as (g & A). rewrite A. pose proof (apply_jobs _ _ _ A) as X. pose proof G as G'. apply last_some in G. rewrite G in X.
  destruct X as (m & Am & Sm). destruct G' as (pre & post & -> & _).
  destruct (J v) as (n' & Nu' & R'); [apply in_or_app; right; left; reflexivity|].
  assert (I : an_int n') by (unfold an_int; lia).
  assert (In' : (-2147483648 <=? n') && (n' <=? 2147483647) = true) by (apply andb_true_iff; split; apply Z.leb_le; lia).
  pose proof (atoi_numeral v n' Nu') as X1. rewrite In' in X1. pose proof (atoi_numeral v n Nu) as X2.
  rewrite X1 in X2. destruct ((-2147483648 <=? n) && (n <=? 2147483647)) eqn:In2; [|discriminate]. injection X2 as <-.
  assert (m = n') by congruence. subst. rewrite (proj1 (set_max_jobs_exact n' I) R') in Sm. injection Sm as <-.
  f_equal. apply workers_are_jobs; auto.
Qed.

Theorem default_workers S argv os ops online : reads (s_permute S) argv os ops -> not_given "j"%char os -> online <> 0 ->
  exists w, workers S argv online = Some w /\ 1 <= w.
Proof.
  intros R N O. apply reads_getopt in R. unfold workers. rewrite R.
  assert (J : jobs_ok os) by (intros v Hv; exfalso; eapply N; eauto).
  destruct (apply_accepts os config0 J) as (g & A). rewrite A. pose proof (apply_jobs _ _ _ A) as X.
  apply last_none in N. rewrite N in X. cbn in X. unfold jobs_set. eexists. split; [reflexivity|].
  destruct (s_env S (lit "BOB_BUILD_DEBUGGING")).
  - rewrite workers_are_jobs; lia.
  - rewrite X. apply workers_default; auto.
Qed.

(** ** Programs run only after success *)

Theorem program_only_after_success S argv t file args env : phases_return S -> main S argv = (t, FProgram file args env) ->
  exists os instr ops out prefix,
  reads (s_permute S) argv os (instr :: ops) /\ (instr = lit "run" \/ instr = lit "sh") /\
  out_dir os out /\ phases out prefix instr = Some t /\ Forall (succeeds S) t /\
  program_words S instr ops args /\ runnable (s_look S) file /\ private_env S out env.
Proof.
  intros PR H. destruct (getopt (s_permute S) argv) as [os [[|instr ops]|]] eqn:G;
    [unfold main in H; rewrite G in H; destruct (apply_options config0 os); discriminate| |unfold main in H; rewrite G in H; destruct (apply_options config0 os); discriminate].
  destruct (apply_options config0 os) as [g| |] eqn:A; [|unfold main in H; rewrite G, A in H; discriminate|unfold main in H; rewrite G, A in H; discriminate].
  rewrite (main_eq _ _ _ _ _ _ G A) in H. destruct (prepared_b _ _ _ _); [|discriminate]. destruct (s_setup S <? 0) eqn:E; [discriminate|].
  destruct (dispatch S (g_out g) (the_prefix S g) instr ops) as [t' e] eqn:D. cbn [fst snd] in H. injection H as <- ->.
  assert (X : succeeds S EvSetup). { destruct PR as [[Y|Y] _]; [exact Y|]. rewrite Y in E. discriminate. }
  apply getopt_exact in G. destruct (config_dirs S _ _ _ _ _ G A) as (_ & C2 & _).
  destruct (phases (g_out g) (the_prefix S g) instr) as [l|] eqn:Ph; [|rewrite dispatch_unknown in D by auto; discriminate].
  destruct (phases_setup _ _ _ _ Ph) as (l' & ->).
  destruct (dispatch_phases S PR _ _ _ _ _ _ _ Ph D) as [[_ K]|(-> & F & Af)]; [discriminate|].
  inversion Af as [| | | | |w ws f v P Ru Pe Heq|]; subst.
  exists os, instr, ops, (g_out g), (the_prefix S g). split; [exact G|]. split; [|].
  { destruct P as [(-> & _)|[(-> & _)|(-> & _)]]; auto. }
  split; [exact C2|]. split; [exact Ph|]. split; [constructor; auto|]. auto.
Qed.

(** The private directory of programs is searched first. *)
Theorem private_bin_first S out w ws : ~ In COLON out -> ~ runnable (s_look S) w -> runnable (s_look S) (out ++ lit "/prefix/bin/" ++ w) ->
  exec_inplace S (setup_environment out (s_env S)) (w :: ws) =
  REnds (FProgram (out ++ lit "/prefix/bin/" ++ w) (w :: ws) (setup_environment out (s_env S))).
Proof.
  intros NC NR R. unfold exec_inplace. destruct (env_private S out) as (VP & _). rewrite VP. cbn [cmd_exec_inplace].
  assert (E : in_dir (out ++ lit "/prefix/bin") w = out ++ lit "/prefix/bin/" ++ w).
  { unfold in_dir. rewrite <- app_assoc. reflexivity. }
  assert (F : find_bin (s_look S) (Some (put_first (out ++ lit "/prefix/bin") (s_env S (lit "PATH")))) w = Ret (Some (out ++ lit "/prefix/bin/" ++ w))).
  { unfold find_bin. apply not_executable in NR. rewrite NR. f_equal.
    assert (C : ~ In COLON (out ++ lit "/prefix/bin")).
    { intros X. apply in_app_or in X. destruct X as [X|X]; [auto|]. revert X. apply has_byte_not_In. reflexivity. }
    apply is_executable_runnable in R. rewrite <- E in *. unfold put_first. destruct (s_env S (lit "PATH")) as [p|].
    - change (lit ":" ++ p) with (COLON :: p). rewrite strsep_field by auto. rewrite search_cons, R. reflexivity.
    - rewrite strsep_none by auto. rewrite search_cons, R. reflexivity. }
  rewrite F. reflexivity.
Qed.

(** ** Arguments for the program *)

Lemma reads_separator permute words os instr user : opt_words words os -> operand instr ->
  reads permute (words ++ instr :: lit "--" :: user) os (instr :: if permute then user else lit "--" :: user).
Proof.
  intros W O. induction W as [|c v rest os L W IH|c v rest os L N W IH].
  - cbn [app]. destruct permute; [apply reads_on; auto; constructor|apply reads_stop; auto].
  - cbn [app]. constructor; auto.
  - cbn [app]. constructor; auto.
Qed.

Lemma user_words_same user : ~ In (lit "--") user -> user_words user = user.
Proof. intros H. pose proof (add_argv_verbatim [] user H) as X. rewrite add_argv_filter in X. exact X. Qed.

Theorem program_arguments S words os instr user t file args env :
  phases_return S -> opt_words words os -> instr = lit "run" \/ instr = lit "sh" -> ~ In (lit "--") user ->
  main S (words ++ instr :: lit "--" :: user) = (t, FProgram file args env) ->
  (instr = lit "run" -> exists vec, s_run S = RunVec (map Some vec) /\ args = map cstr vec ++ user) /\
  (instr = lit "sh" -> user <> [] -> args = user).
Proof.
  intros PR W I N H. apply program_only_after_success in H; auto.
  destruct H as (os' & instr' & ops & out & prefix & R & _ & _ & _ & _ & P & _).
  assert (O : operand instr) by (right; intros r; destruct I as [-> | ->]; discriminate).
  pose proof (reads_separator (s_permute S) words os instr user W O) as R2.
  apply reads_getopt in R, R2. rewrite R in R2.
  assert (E1 : instr' = instr) by congruence. assert (E2 : ops = if s_permute S then user else lit "--" :: user) by congruence. clear R R2. subst instr' ops.
  assert (U : user_words (if s_permute S then user else lit "--" :: user) = user).
  { destruct (s_permute S); [now apply user_words_same|]. unfold user_words. cbn [filter]. rewrite bytes_eqb_refl. cbn [negb]. now apply user_words_same. }
  split; intros ->.
  - destruct P as [(_ & vec & E & ->)|[(X & _)|(X & _)]]; [|discriminate X|discriminate X]. exists vec. rewrite U. auto.
  - intros NE. destruct P as [(X & _)|[(_ & _ & ->)|(_ & X & _)]]; [discriminate X|exact U|].
    destruct (s_permute S); congruence.
Qed.

Lemma stopped_not_all S l t : stopped S l t -> ~ Forall (succeeds S) l.
Proof. intros (pre & e & post & -> & _ & _ & N) F. apply Forall_app in F. destruct F as [_ F]. inversion F; auto. Qed.

Theorem build_install_status S argv os instr args project out prefix l :
  instr = lit "build" \/ instr = lit "install" ->
  phases_return S -> reads (s_permute S) argv os (instr :: args) -> jobs_ok os ->
  project_dir os project -> out_dir os out -> prefix_dir (s_env S) os prefix -> prepared S project out prefix ->
  phases out prefix instr = Some l ->
  (snd (main S argv) = FExit 0 <-> Forall (succeeds S) l) /\
  (snd (main S argv) = FExit 1 <-> ~ Forall (succeeds S) l).
Proof.
  intros I PR R J PD OD FD P Ph. destruct (known_instruction S argv os instr args project out prefix l) as (t & e & -> & H); auto.
  cbn [snd]. destruct H as [[St ->]|(_ & F & Af)].
  - apply stopped_not_all in St. split; split; try contradiction; auto; discriminate.
  - assert (E : e = FExit 0).
    { destruct Af as [Q|Q _|Q _|Q _ _|w ws Q _ _|w ws f v Q _ _|Q _]; auto; exfalso;
        destruct I as [-> | ->]; try discriminate Q; try (destruct Q as [Q|Q]; discriminate Q);
        destruct Q as [(Q & _)|[(Q & _)|(Q & _)]]; discriminate Q. }
    subst. split; split; auto; try discriminate; contradiction.
Qed.
