(** * Proofs about what is said while installing. *)

From Coq Require Import ZArith Ascii String Lia Bool List.
From Verif Require Import Term Base Deps FileSys Frugal Vfs Install InstallProofs Telling SpecTelling.
Import ListNotations.

Section Run.
Variable S : sys.
Variable abs_out : option bytes.
Variable programs : bytes -> program.
Variable output : list bytes -> bytes.
Variable why : bytes -> bytes.
Notation rm_ := (tell_rm S programs).
Notation cp_ := (tell_cp S programs output).
Notation copy_ := (tell_copy S programs output why).
Notation mkdirs_ := (tell_mkdirs S abs_out why).
Notation single := (tell_single S abs_out programs output why).
Notation entries := (tell_entries S abs_out programs output why).

Lemma mkdirs_same now : forall bits w accum, mkdirs S abs_out now w accum bits = fst (mkdirs_ now w accum bits).
Proof.
  induction bits as [|b bits IH]; intros w accum; cbn [mkdirs tell_mkdirs]; [reflexivity|]. destruct (is_nil b); auto.
  destruct (mkdir_wrapped S abs_out now w (accum ++ SLASH :: b)) as [[|] w']; auto.
Qed.

Lemma mkdirs_told now : forall bits w accum ok w' ms, mkdirs_ now w accum bits = (ok, w', ms) ->
  if ok then ms = [] else exists d, mkdir S now (nodes w') (accum ++ d) = MkFail /\ ms = [(AFatal, failed_call why "mkdir" (accum ++ d))].
Proof.
  induction bits as [|b bits IH]; intros w accum ok w' ms E; cbn [tell_mkdirs] in E; [injection E as <- _ <-; reflexivity|].
  destruct (is_nil b); [exact (IH _ _ _ _ _ E)|]. unfold mkdir_wrapped in E. destruct (mkdir S now (nodes w) (accum ++ SLASH :: b)) eqn:M.
  - specialize (IH _ _ _ _ _ E). destruct ok; [exact IH|]. destruct IH as (d & A & B). exists ((SLASH :: b) ++ d). rewrite (app_assoc accum (SLASH :: b) d). auto.
  - specialize (IH _ _ _ _ _ E). destruct ok; [exact IH|]. destruct IH as (d & A & B). exists ((SLASH :: b) ++ d). rewrite (app_assoc accum (SLASH :: b) d). auto.
  - injection E as <- <- <-. exists (SLASH :: b). auto.
Qed.

Definition errors (ms : list msg) : Prop := Forall (fun x : msg => fst x = AnInfo \/ fst x = AnError) ms.

Lemma rm_told now f dst ok f' ms : rm_ now f dst = Ok (ok, f', ms) -> errors ms /\
  (programs (lit "rm") = Runs -> rm_rf S now f dst = (ok, f')) /\ (ok = false -> programs (lit "rm") = Missing \/ rm_rf S now f dst = (false, f')).
Proof.
  unfold tell_rm. destruct (programs (lit "rm")) eqn:P; [|discriminate|].
  - intros E. injection E as <- <- <-. split; [constructor; [right; reflexivity|constructor]|]. split; [discriminate|auto].
  - destruct (rm_rf S now f dst) as [b f1]. intros E. injection E as <- <- <-. split; [constructor|]. split; auto. intros ->. auto.
Qed.

Lemma cp_told now f src dst ok f' e : cp_ now f src dst = Ok (ok, f', e) ->
  cp S now f src dst = (ok, f') /\ e = if ok then None else Some (removelast (cstr (output [lit "cp"; lit "-RP"; src; dst]))).
Proof. unfold tell_cp. destruct (programs (lit "cp")); try discriminate. destruct (cp S now f src dst) as [b f1]. intros E. injection E as <- <- <-. auto. Qed.

Definition ran : Prop := programs (lit "rm") = Runs /\ programs (lit "cp") = Runs.

Lemma copy_told now w key prefix dst ok w' e ms : copy_ now w key (prefix ++ SLASH :: dst) = Ok (ok, w', e, ms) -> errors ms /\
  (ran -> copy S now w key (prefix ++ SLASH :: dst) = (ok, w')) /\
  (ok = false -> explains S programs output why (nodes w') now key prefix dst (copy_failed key (prefix ++ SLASH :: dst) (shown e))).
Proof.
  unfold tell_copy, copy. cbv zeta. cbn [nodes]. destruct (view (s_cwd S) (nodes w) key) eqn:V.
  - intros E. injection E as <- <- <- <-. split; [constructor; [right; reflexivity|constructor]|]. split; auto. intros _. apply ex_gone; cbn [nodes]; intros; rewrite V; discriminate.
  - destruct (cp_ now (nodes w) key (prefix ++ SLASH :: dst)) as [[[ok2 f2] e2]| | | |] eqn:C; try discriminate.
    destruct (cp_told _ _ _ _ _ _ _ C) as (D & ->). intros E. injection E as <- <- <- <-. split; [constructor|]. split.
    + intros _. rewrite D. reflexivity.
    + intros ->. cbn [shown]. eapply ex_cp; [left; reflexivity|exact D].
  - destruct (rm_ now (nodes w) (prefix ++ SLASH :: dst)) as [[[[|] f1] ms1]| | | |] eqn:R; try discriminate.
    + destruct (rm_told _ _ _ _ _ _ R) as (A & B & _). destruct (cp_ now f1 (key ++ [SLASH]) (prefix ++ SLASH :: dst)) as [[[ok2 f2] e2]| | | |] eqn:C; try discriminate.
      destruct (cp_told _ _ _ _ _ _ _ C) as (D & ->). intros E. injection E as <- <- <- <-. split; auto. split.
      * intros (P & _). rewrite (B P), D. reflexivity.
      * intros ->. cbn [shown]. eapply ex_cp; [right; reflexivity|exact D].
    + destruct (rm_told _ _ _ _ _ _ R) as (A & B & C). intros E. injection E as <- <- <- <-. split; auto. split.
      * intros (P & _). rewrite (B P). reflexivity.
      * intros _. eapply ex_rm; [exact V|]. cbn [nodes set_nodes]. auto.
  - intros E. injection E as <- <- <- <-. split; [constructor; [right; reflexivity|constructor]|]. split; auto. intros _. apply ex_gone; cbn [nodes]; intros; rewrite V; discriminate.
Qed.

Theorem single_agrees out prefix now w key ended val cookie ok w' ms : ran ->
  single out prefix now w key ended val cookie = Ok (ok, w', ms) -> install_single S abs_out out prefix now w key val cookie = Ok (ok, w').
Proof.
  intros R. unfold tell_single, install_single. cbv zeta. destruct (realpath (s_cwd S) (nodes w) (cstr key)) as [path|].
  2:{ destruct (ended || has_byte NUL key); [|discriminate]. intros E. injection E as <- <- <-. reflexivity. }
  destruct (is_prefix out path && negb cookie). { intros E. injection E as <- <- <-. reflexivity. }
  destruct (negb (is_prefix out path) && cookie); [discriminate|].
  rewrite mkdirs_same. destruct (mkdirs_ now w prefix (strsep SLASH (dirname (cstr val)))) as [[[|] w1] ms1]; cbn [fst].
  2:{ intros E. injection E as <- <- <-. reflexivity. }
  destruct (frugal_mtime _ _ _) as [[|]|].
  - destruct (copy_ now w1 (cstr key) (prefix ++ SLASH :: cstr val)) as [[[[b w2] e] ms2]| | | |] eqn:C; try discriminate.
    destruct (copy_told _ _ _ _ _ _ _ _ _ C) as (_ & A & _). rewrite (A R). destruct b; intros E; injection E as <- <- <-; reflexivity.
  - intros E. injection E as <- <- <-. reflexivity.
  - intros E. injection E as <- <- <-. reflexivity.
Qed.

Theorem single_failure out prefix now w key ended val cookie w' ms :
  single out prefix now w key ended val cookie = Ok (false, w', ms) ->
  exists m, ends_with ms (AFatal, m) /\ explains S programs output why (nodes w') now (cstr key) prefix (cstr val) m.
Proof.
  unfold tell_single. cbv zeta. destruct (realpath (s_cwd S) (nodes w) (cstr key)) as [path|] eqn:Rp.
  2:{ destruct (ended || has_byte NUL key); [|discriminate]. intros E. injection E as <- <-. eexists. split; [exists []; split; [reflexivity|constructor]|]. apply ex_source. exact Rp. }
  destruct (is_prefix out path && negb cookie); [discriminate|]. destruct (negb (is_prefix out path) && cookie); [discriminate|].
  destruct (mkdirs_ now w prefix (strsep SLASH (dirname (cstr val)))) as [[[|] w1] ms1] eqn:M; pose proof (mkdirs_told _ _ _ _ _ _ _ M) as T; cbn beta iota in T.
  2:{ intros E. injection E as <- <-. destruct T as (d & A & ->). eexists. split; [exists []; split; [reflexivity|constructor]|]. apply ex_dir. exact A. }
  subst ms1. cbn [app]. destruct (frugal_mtime _ _ _) as [[|]|] eqn:Fm.
  - destruct (copy_ now w1 (cstr key) (prefix ++ SLASH :: cstr val)) as [[[[[|] w2] e] ms2]| | | |] eqn:C; try discriminate.
    destruct (copy_told _ _ _ _ _ _ _ _ _ C) as (A & _ & B). intros E. injection E as <- <-.
    eexists. split; [eexists (_ :: ms2); split; [reflexivity|constructor; [left; reflexivity|exact A]]|]. exact (B eq_refl).
  - discriminate.
  - intros E. injection E as <- <-. eexists. split; [exists []; split; [reflexivity|constructor]|]. unfold frugal_mtime in Fm.
    destruct (stat (view (s_cwd S) (nodes w1)) (prefix ++ SLASH :: cstr val)) eqn:St; try discriminate.
    + apply ex_look. intros t1 Q. cbn [deps_newer] in Fm. rewrite Q in Fm. destruct (_ >? _)%Z; discriminate.
    + apply ex_target. exact St.
Qed.

Theorem single_success out prefix now w key ended val w' ms :
  single out prefix now w key ended val false = Ok (true, w', ms) -> dealt_with S out (key, ended, val) ms.
Proof.
  unfold tell_single. cbv zeta. destruct (realpath (s_cwd S) (nodes w) (cstr key)) as [path|] eqn:Rp.
  2:{ destruct (ended || has_byte NUL key); discriminate. }
  cbn [negb]. rewrite andb_true_r, andb_false_r. destruct (is_prefix out path) eqn:Ip. { intros E. injection E as <- <-. left. exists (nodes w), path. auto. }
  destruct (mkdirs_ now w prefix (strsep SLASH (dirname (cstr val)))) as [[[|] w1] ms1] eqn:M; pose proof (mkdirs_told _ _ _ _ _ _ _ M) as T; cbn beta iota in T; [|discriminate].
  subst ms1. cbn [app]. destruct (frugal_mtime _ _ _) as [[|]|] eqn:Fm.
  - destruct (copy_ now w1 (cstr key) (prefix ++ SLASH :: cstr val)) as [[[[[|] w2] e] ms2]| | | |] eqn:C; try discriminate.
    destruct (copy_told _ _ _ _ _ _ _ _ _ C) as (A & _ & _). intros E. injection E as <- <-.
    right. eexists. split; [eexists (_ :: ms2); split; [reflexivity|constructor; [left; reflexivity|exact A]]|]. right. reflexivity.
  - intros E. injection E as <- <-. right. eexists. split; [exists []; split; [reflexivity|constructor]|]. left. reflexivity.
  - discriminate.
Qed.

Lemma mkdirs_copies now : forall bits w accum, copies (snd (fst (mkdirs_ now w accum bits))) = copies w.
Proof.
  induction bits as [|b bits IH]; intros w accum; cbn [tell_mkdirs fst snd]; [reflexivity|]. destruct (is_nil b); [apply IH|].
  assert (M : copies (snd (mkdir_wrapped S abs_out now w (accum ++ SLASH :: b))) = copies w).
  { unfold mkdir_wrapped. destruct (mkdir S now (nodes w) (accum ++ SLASH :: b)); cbn [snd]; try reflexivity.
    exact (proj2 (set_owner_nodes S abs_out (set_nodes w f) _)). }
  destruct (mkdir_wrapped S abs_out now w (accum ++ SLASH :: b)) as [[|] w']; cbn [snd fst] in *; [rewrite IH|]; exact M.
Qed.

Lemma copy_counted now w src dst ok w' e ms : copy_ now w src dst = Ok (ok, w', e, ms) -> copies w' = (src, dst) :: copies w.
Proof.
  unfold tell_copy. cbv zeta. cbn [nodes]. destruct (view (s_cwd S) (nodes w) src).
  - intro E. injection E as _ <- _ _. reflexivity.
  - destruct (cp_ now (nodes w) src dst) as [[[ok2 f2] e2]| | | |]; try discriminate. intro E. injection E as _ <- _ _. reflexivity.
  - destruct (rm_ now (nodes w) dst) as [[[[|] f1] ms1]| | | |]; try discriminate.
    + destruct (cp_ now f1 (src ++ [SLASH]) dst) as [[[ok2 f2] e2]| | | |]; try discriminate. intro E. injection E as _ <- _ _. reflexivity.
    + intro E. injection E as _ <- _ _. reflexivity.
  - intro E. injection E as _ <- _ _. reflexivity.
Qed.

Theorem single_said out prefix now w key ended val cookie w' ms :
  single out prefix now w key ended val cookie = Ok (true, w', ms) ->
  (cookie = false /\ w' = w /\ ms = [] /\ exists path, realpath (s_cwd S) (nodes w) (cstr key) = Some path /\ is_prefix out path = true) \/
  (copies w' = copies w /\ ms = [found_line cookie (cstr val)]) \/
  (copies w' = (cstr key, prefix ++ SLASH :: cstr val) :: copies w /\ ends_with ms (copied_line cookie (cstr val))).
Proof.
  unfold tell_single. cbv zeta. destruct (realpath (s_cwd S) (nodes w) (cstr key)) as [path|] eqn:Rp.
  2:{ destruct (ended || has_byte NUL key); discriminate. }
  destruct (is_prefix out path && negb cookie) eqn:B1.
  { intros E. injection E as <- <-. left. apply andb_true_iff in B1 as [B1 B2]. split; [now destruct cookie|]. split; [reflexivity|]. split; [reflexivity|]. now exists path. }
  destruct (negb (is_prefix out path) && cookie) eqn:B2; [discriminate|].
  assert (IC : is_prefix out path = cookie) by (destruct (is_prefix out path), cookie; cbn in B1, B2; congruence). rewrite IC. clear B1 B2.
  destruct (mkdirs_ now w prefix (strsep SLASH (dirname (cstr val)))) as [[[|] w1] ms1] eqn:M; pose proof (mkdirs_told _ _ _ _ _ _ _ M) as T; cbn beta iota in T; [|discriminate].
  pose proof (mkdirs_copies now (strsep SLASH (dirname (cstr val))) w prefix) as MC. rewrite M in MC. cbn [fst snd] in MC.
  subst ms1. cbn [app]. destruct (frugal_mtime _ _ _) as [[|]|] eqn:Fm.
  - destruct (copy_ now w1 (cstr key) (prefix ++ SLASH :: cstr val)) as [[[[[|] w2] e] ms2]| | | |] eqn:C; try discriminate.
    destruct (copy_told _ _ _ _ _ _ _ _ _ C) as (A & _ & _). intros E. injection E as <- <-. right. right.
    split; [rewrite (copy_counted _ _ _ _ _ _ _ _ C), MC; reflexivity|]. eexists (_ :: ms2). split; [reflexivity|]. constructor; [left; reflexivity|exact A].
  - intros E. injection E as <- <-. right. left. split; [exact MC|reflexivity].
  - discriminate.
Qed.

(** An entry for which nothing has to be copied needs no program. *)
Theorem single_found out prefix now w key ended val cookie w' : install_single S abs_out out prefix now w key val cookie = Ok (true, w') -> copies w' = copies w ->
  exists ms, single out prefix now w key ended val cookie = Ok (true, w', ms) /\
  ((ms = [] /\ exists path, realpath (s_cwd S) (nodes w) (cstr key) = Some path /\ is_prefix out path = true) \/ ms = [found_line cookie (cstr val)]).
Proof.
  unfold tell_single, install_single. cbv zeta. destruct (realpath (s_cwd S) (nodes w) (cstr key)) as [path|]; [|discriminate].
  destruct (is_prefix out path && negb cookie) eqn:B1. { intros E _. injection E as <-. exists []. split; [reflexivity|]. left. split; [reflexivity|]. exists path. split; [reflexivity|]. now apply andb_true_iff in B1 as [B1 _]. }
  destruct (negb (is_prefix out path) && cookie) eqn:B2; [discriminate|].
  assert (IC : is_prefix out path = cookie) by (destruct (is_prefix out path), cookie; cbn in B1, B2; congruence). rewrite IC. clear B1 B2.
  rewrite mkdirs_same. pose proof (mkdirs_copies now (strsep SLASH (dirname (cstr val))) w prefix) as MC.
  destruct (mkdirs_ now w prefix (strsep SLASH (dirname (cstr val)))) as [[[|] w1] ms1] eqn:M; pose proof (mkdirs_told _ _ _ _ _ _ _ M) as T; cbn beta iota in T; cbn [fst snd] in *; [|discriminate].
  subst ms1. cbn [app]. destruct (frugal_mtime _ _ _) as [[|]|]; [| |discriminate].
  - intros E C. exfalso. injection E as E.
    assert (X : copies w' = (cstr key, prefix ++ SLASH :: cstr val) :: copies w1).
    { unfold copy in E. cbv zeta in E. cbn [nodes] in E. destruct (view (s_cwd S) (nodes w1) (cstr key)); [discriminate| | |discriminate].
      - destruct (cp S now (nodes w1) (cstr key) (prefix ++ SLASH :: cstr val)) as [ok f']. injection E as _ <-. reflexivity.
      - destruct (rm_rf S now (nodes w1) (prefix ++ SLASH :: cstr val)) as [[|] f']; [|discriminate].
        destruct (cp S now f' (cstr key ++ [SLASH]) (prefix ++ SLASH :: cstr val)) as [ok f2]. injection E as _ <-. reflexivity. }
    rewrite C, MC in X. apply (f_equal (@length _)) in X. cbn in X. lia.
  - intros E _. injection E as <-. eexists. split; [reflexivity|]. right. reflexivity.
Qed.

Theorem single_undefined out prefix now w key ended val cookie :
  single out prefix now w key ended val cookie = UB ->
  realpath (s_cwd S) (nodes w) (cstr key) = None /\ ended = false /\ nul_free key \/ programs (lit "rm") = Unstartable \/ programs (lit "cp") <> Runs.
Proof.
  unfold tell_single. cbv zeta. destruct (realpath (s_cwd S) (nodes w) (cstr key)) as [path|] eqn:Rp.
  2:{ destruct ended; [discriminate|]. cbn [orb]. destruct (has_byte NUL key) eqn:N; [discriminate|]. intros _. left. split; auto. split; auto. intro I. apply has_byte_In in I. congruence. }
  destruct (is_prefix out path && negb cookie); [discriminate|]. destruct (negb (is_prefix out path) && cookie); [discriminate|].
  destruct (mkdirs_ now w prefix (strsep SLASH (dirname (cstr val)))) as [[[|] w1] ms1]; [|discriminate].
  destruct (frugal_mtime _ _ _) as [[|]|]; try discriminate. unfold tell_copy, tell_rm, tell_cp. cbv zeta.
  destruct (programs (lit "rm")); auto; destruct (programs (lit "cp")); try (intros _; right; right; discriminate);
  destruct (view _ _ _); try discriminate; try (destruct (rm_rf _ _ _ _) as [[|] ?]); try discriminate; try (destruct (cp _ _ _ _ _) as [[|] ?]); discriminate.
Qed.

Theorem entries_success out prefix clock : forall es i w w' ms, entries out prefix clock i w es = Ok (true, w', ms) ->
  exists mss, ms = concat mss /\ Forall2 (dealt_with S out) es mss.
Proof.
  induction es as [|[[k ended] v] es IH]; intros i w w' ms E; cbn [tell_entries] in E.
  - injection E as _ <-. exists []. split; [reflexivity|constructor].
  - destruct (single out prefix (clock i) w k ended v false) as [[[[|] w1] ms1]| | | |] eqn:Si; try discriminate.
    destruct (entries out prefix clock (Datatypes.S i) w1 es) as [[[ok w2] ms2]| | | |] eqn:Es; try discriminate. injection E as -> <- <-.
    destruct (IH _ _ _ _ Es) as (mss & -> & F). exists (ms1 :: mss). split; [reflexivity|]. constructor; auto. eapply single_success; eauto.
Qed.

Theorem entries_failure out prefix clock : forall es i w w' ms, entries out prefix clock i w es = Ok (false, w', ms) ->
  exists before k ended v after mss l m, es = before ++ (k, ended, v) :: after /\ ms = concat mss ++ l /\ Forall2 (dealt_with S out) before mss /\
  ends_with l (AFatal, m) /\ explains S programs output why (nodes w') (clock (i + length before)) (cstr k) prefix (cstr v) m.
Proof.
  induction es as [|[[k ended] v] es IH]; intros i w w' ms E; cbn [tell_entries] in E; [discriminate|].
  destruct (single out prefix (clock i) w k ended v false) as [[[[|] w1] ms1]| | | |] eqn:Si; try discriminate.
  - destruct (entries out prefix clock (Datatypes.S i) w1 es) as [[[ok w2] ms2]| | | |] eqn:Es; try discriminate. injection E as -> <- <-.
    destruct (IH _ _ _ _ Es) as (b & k' & e' & v' & a & mss & l & m & -> & -> & F & En & X). exists ((k, ended, v) :: b), k', e', v', a, (ms1 :: mss), l, m.
    split; [reflexivity|]. split; [cbn; now rewrite app_assoc|]. split; [constructor; auto; eapply single_success; eauto|]. split; auto. cbn [length]. now rewrite Nat.add_succ_r.
  - injection E as <- <-. destruct (single_failure _ _ _ _ _ _ _ _ _ _ Si) as (m & En & X). exists [], k, ended, v, es, [], ms1, m.
    split; [reflexivity|]. split; [reflexivity|]. split; [constructor|]. split; auto. cbn [length]. now rewrite Nat.add_0_r.
Qed.

Theorem entries_agree out prefix clock : ran -> forall es i w ok w' ms, entries out prefix clock i w es = Ok (ok, w', ms) ->
  install_entries S abs_out out prefix clock i w (map (fun e => (fst (fst e), snd e)) es) = Ok (ok, w').
Proof.
  intros R. induction es as [|[[k ended] v] es IH]; intros i w ok w' ms E; cbn [tell_entries] in E; cbn [map fst snd install_entries].
  - injection E as <- <- _. reflexivity.
  - destruct (single out prefix (clock i) w k ended v false) as [[[[|] w1] ms1]| | | |] eqn:Si; try discriminate; rewrite (single_agrees _ _ _ _ _ _ _ _ _ _ _ R Si).
    + destruct (entries out prefix clock (Datatypes.S i) w1 es) as [[[b w2] ms2]| | | |] eqn:Es; try discriminate. injection E as -> <- <-. eauto.
    + injection E as <- <- _. reflexivity.
Qed.
End Run.

Lemma words t : nul_free t -> removelast (cstr (t ++ [NL])) = t.
Proof. intro N. rewrite cstr_app_nul_free by exact N. change (cstr [NL]) with [NL]. apply removelast_last. Qed.
