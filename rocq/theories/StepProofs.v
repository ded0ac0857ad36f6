(** * One compile step, from the world before to the world after. *)

From Coq Require Import ZArith Ascii String Lia Bool List.
From Verif Require Import Base FileSys Frugal Deps Log Cookie CookieProofs Pool PoolInv SpecPool PoolProofs PoolOwn Build SpecFiles SpecBuild FrugalProofs BuildProofs CompileProofs.
Import ListNotations.
Local Open Scope nat_scope.

Section Setting.
Variable E : env.
Variables area inst_area : bytes -> Prop.
Notation source := (source area inst_area).
Notation in_area := (in_area area).

Notation good_env := (good_env E area inst_area).
Notation deps_are_sources := (deps_are_sources area inst_area).
Notation good_items := (good_items area inst_area).
Hypothesis GE : good_env.

Notation keep := (fun p => ~ inst_area p).

Lemma source_not_belongs out p : in_area out -> source p -> ~ belongs out p.
Proof. intros (_ & A & B) [C _] [->|[k ->]]; auto. Qed.

Lemma owned_belongs it p : owned it p -> belongs (it_out it) p.
Proof.
  intros [-> | [-> | ->]]; [left; auto|right; exists SDeps; auto|right; exists SLog; auto].
Qed.

Lemma in_area_ok it : in_area (it_out it) -> item_ok keep it.
Proof.
  intros (P & A & B). pose proof (ge_apart _ _ _ GE) as X.
  split; [auto|]. split; [apply X; auto|]. split; [apply X, (B SDeps)|]. split; [apply X, (B SLog)|apply X, (B SFlags)].
Qed.

Lemma good_independent its f : good_items its f -> independent keep its f.
Proof.
  intros [ND A S D] it p Hin R. destruct (A it Hin) as (P & Ao & Ak).
  pose proof (ge_apart _ _ _ GE) as X.
  assert (Src : source p -> keep p /\ forall it', In it' its -> p = flags_path (it_out it') -> it_out it' = it_out it).
  { intros [S1 S2]. split; auto. intros it' Hin' ->. exfalso. apply S1. destruct (A it' Hin') as (_ & _ & B). apply (B SFlags). }
  destruct R as [->|[->|[->|[->|(c & Hc & Hd)]]]].
  - split; [apply X, (Ak SFlags)|]. intros it' Hin' Eq. apply flags_path_inj in Eq. auto.
  - split; [apply X, (Ak SDeps)|]. intros it' Hin' Eq. exfalso. revert Eq. apply (side_neq SDeps SFlags). left; discriminate.
  - split; [apply X; auto|]. intros it' Hin' Eq. exfalso. symmetry in Eq. revert Eq. apply (P SFlags).
  - apply Src. auto.
  - apply Src. eapply D; eauto.
Qed.

Lemma same_out (its : list item) it it' : NoDup (map it_out its) -> In it its -> In it' its -> it_out it = it_out it' -> it = it'.
Proof.
  intros ND Hin Hin' Eq. revert ND Hin Hin'. induction its as [|x xs IH]; cbn; [tauto|]. intros ND. inversion ND as [|? ? N ND']; subst.
  assert (Y : forall z, In z xs -> it_out z <> it_out x) by (intros z Hz Ez; apply N; rewrite <- Ez; now apply in_map).
  intros [->|H1] [->|H2]; auto.
  - exfalso. eapply Y; eauto.
  - exfalso. eapply Y; eauto.
Qed.

(** ** Results *)

Record compiled (w w' : world) (it : item) : Prop := {
  c_result : exists text obj tau,
    cc_obj E (argv_flags (it_flags it)) (it_src it) (files w) = ToolOk text obj /\
    files w' (it_out it) = File obj (clock E tau) /\ tick w <= tau < tick w';
  c_once : compiles (it_out it) (ran w') = S (compiles (it_out it) (ran w));
  c_deps : forall o, cc_deps E (argv_flags (it_flags it)) (it_src it) (files w) = Some o ->
    usable E (files w) (deps_path (it_out it)) ->
    exists t, files w' (deps_path (it_out it)) = File (deps_content (parse_deps o)) t;
  c_no_deps : cc_deps E (argv_flags (it_flags it)) (it_src it) (files w) = None ->
    files w' (deps_path (it_out it)) = files w (deps_path (it_out it));
  c_log : usable E (files w) (log_path (it_out it)) ->
    log_already_done (files w') (it_out it) = cstr (text_of (cc_obj E (argv_flags (it_flags it)) (it_src it) (files w)));
  c_shown : texts (it_out it) (shown w') = texts (it_out it) (shown w) ++
    [cstr (text_of (cc_obj E (argv_flags (it_flags it)) (it_src it) (files w)))];
}.

Record kept (w w' : world) (it : item) : Prop := {
  k_same : forall p, belongs (it_out it) p -> files w' p = files w p;
  k_none : compiles (it_out it) (ran w') = compiles (it_out it) (ran w);
  k_shown : texts (it_out it) (shown w') = texts (it_out it) (shown w) ++ [log_already_done (files w) (it_out it)];
}.

Record stepped (its : list item) (w w' : world) : Prop := {
  s_tick : tick w <= tick w';
  s_frame : forall p, ~ inst_area p -> (forall it, In it its -> ~ belongs (it_out it) p) -> files w' p = files w p;
  s_fresh : forall it, In it its -> fresh (files w) it -> kept w w' it;
  s_stale : forall it, In it its -> ~ fresh (files w) it -> compiled w w' it;
  s_cases : forall it, In it its -> fresh (files w) it \/ ~ fresh (files w) it;
  s_flags : forall it, In it its -> flags_fine E (files w) it -> recorded (files w') it;
  s_links : forall o, links o (ran w') = links o (ran w);
  s_other : forall o, ~ In o (map it_out its) -> compiles o (ran w') = compiles o (ran w);
  s_shown : forall o, ~ In o (map it_out its) -> texts o (shown w') = texts o (shown w);
}.

Section Jobs.
Variables (jobs : list item) (w1 : world).

Record quiet_rest (s : jst) : Prop := {
  q_tick : tick w1 <= tick (jw s);
  q_frame : forall p, ~ inst_area p -> (forall it, In it jobs -> ~ owned it p) -> files (jw s) p = files w1 p;
  q_links : forall o, links o (ran (jw s)) = links o (ran w1);
  q_other : forall o, ~ In o (map it_out jobs) -> compiles o (ran (jw s)) = compiles o (ran w1);
  q_shown : forall o, ~ In o (map it_out jobs) -> texts o (shown (jw s)) = texts o (shown w1);
}.

Lemma quiet_init : quiet_rest (JSt w1 (fun _ => local0)).
Proof. constructor; cbn; auto. Qed.

Lemma quiet_act j l a s : nth_error (job_prog E jobs j) l = Some a -> quiet_rest s -> quiet_rest (a s).
Proof.
  intros Ha [Q1 Q2 Q3 Q4 Q5]. destruct (prog_acts E jobs j l a Ha) as (it & Hj & _).
  destruct (act_shape E keep (ge_inst _ _ _ GE) jobs j l a it s Ha Hj) as (At & _ & Ar & (e' & As & _ & Ae) & Af).
  assert (Hin : In it jobs) by (eapply nth_error_In; eauto).
  constructor.
  - lia.
  - intros p Hk Hn. rewrite Af; auto. intros T. apply touched_owned in T. eapply Hn; eauto.
  - intros o. rewrite Ar, links_app, Q3. destruct l as [|[|[|l]]]; cbn; lia.
  - intros o Ho. rewrite Ar, compiles_app, Q4 by auto.
    assert (compiles o (extra_ran l it) = 0).
    { destruct l as [|[|[|l]]]; cbn; auto. replace (bytes_eqb (it_out it) o) with false; auto.
      symmetry. apply bytes_eqb_neq. intros <-. apply Ho. now apply in_map. }
    lia.
  - intros o Ho. rewrite As, texts_app, Ae, app_nil_r; auto. intros ->. apply Ho. now apply in_map.
Qed.

Hypothesis areas : forall it, In it jobs -> in_area (it_out it).
Hypothesis distinct : NoDup (map it_out jobs).

Lemma jobs_item_ok : Forall (item_ok keep) jobs.
Proof. apply Forall_forall. intros it H. apply in_area_ok. auto. Qed.

Lemma source_keep p : source p -> ~ inst_area p.
Proof. intros [_ H]; auto. Qed.

Lemma source_not_owned p it : source p -> In it jobs -> ~ owned it p.
Proof. intros S Hin O. eapply source_not_belongs; eauto. now apply owned_belongs. Qed.

Definition rest_ops (ok : bool) : list op := if ok then [OWait; OFree] else [OFree].

Lemma rest_no_add ok t : ~ In (OAdd t) (rest_ops ok).
Proof. destruct ok; cbn; intuition discriminate. Qed.

Lemma job_stops_other i j l a x : i <> j -> nth_error (job_prog E jobs j) l = Some a ->
  job_stops i (a x) = job_stops i x.
Proof.
  intros N Ha. destruct (prog_acts E jobs j l a Ha) as (it & Hj & _).
  destruct (act_shape E keep (ge_inst _ _ _ GE) jobs j l a it x Ha Hj) as (_ & Al & _).
  unfold job_stops. now rewrite Al.
Qed.

Lemma prog_length i : i < length jobs -> length (job_prog E jobs i) = 5.
Proof. intros H. destruct (nth_lt jobs i H) as [it Hi]. unfold job_prog. now rewrite Hi. Qed.

Notation JJ := (J E keep jobs w1).

Lemma pool_quiet ok s : pool_state E jobs ok w1 s -> quiet_rest (sig jst s).
Proof.
  intros R. unfold pool_state, compile_client in R.
  apply (own_reach jst (job_prog E jobs) job_stops (ncpus E) (length jobs) (rest_ops ok) (JSt w1 (fun _ => local0))
          (rest_no_add ok) (fun _ _ _ => True)) with (G := quiet_rest) in R; auto.
  - apply R.
  - intros; now apply (job_stops_other i j l).
  - apply quiet_init.
  - intros; eapply quiet_act; eauto.
Qed.

Lemma pool_success s : pool_state E jobs true w1 s -> In (EvRet 0) (trace jst s) ->
  forall i it, nth_error jobs i = Some it -> Jok E keep jobs w1 it i 5 (sig jst s) /\ l_fail (locs (sig jst s) i) = false.
Proof.
  intros R Hin i it Hi. unfold pool_state, compile_client in R.
  assert (Li : i < length jobs) by (apply nth_error_Some; congruence).
  destruct (all_done jst (job_prog E jobs) job_stops (ncpus E) (length jobs) (rest_ops true) (JSt w1 (fun _ => local0))
          (rest_no_add true) JJ) with (G := fun _ : jst => True) (s := s) (i := i) as [A B]; auto.
  - intros; eapply J_init; eauto.
  - intros i0 k a x Hi0 Ha HJ. eapply J_own with (src := source); eauto using ge_inst, ge_deps, ge_obj, jobs_item_ok, source_keep, source_not_owned.
  - intros. eapply J_other with (j := j) (l := l); eauto using ge_inst, jobs_item_ok.
  - intros; now apply (job_stops_other i0 j l).
  - apply GE.
  - rewrite prog_length in A by auto. destruct A as (it' & Hi' & A). assert (it' = it) by congruence. subst. auto.
Qed.

Lemma pool_failure s rv : pool_state E jobs true w1 s -> In (EvRet rv) (trace jst s) ->
  rv = 0%Z \/ rv = (-1)%Z /\ exists i it, nth_error jobs i = Some it /\ Jok E keep jobs w1 it i 5 (sig jst s) /\ l_fail (locs (sig jst s) i) = true.
Proof.
  intros R Hin. unfold pool_state, compile_client in R.
  destruct (some_stopped jst (job_prog E jobs) job_stops (ncpus E) (length jobs) (rest_ops true) (JSt w1 (fun _ => local0))
          (rest_no_add true) JJ) with (G := fun _ : jst => True) (s := s) (rv := rv) as [A|(A & i & Hi & B & C)]; auto.
  - intros; eapply J_init; eauto.
  - intros i0 k a x Hi0 Ha HJ. eapply J_own with (src := source); eauto using ge_inst, ge_deps, ge_obj, jobs_item_ok, source_keep, source_not_owned.
  - intros. eapply J_other with (j := j) (l := l); eauto using ge_inst, jobs_item_ok.
  - intros; now apply (job_stops_other i j l).
  - right. exists (map OAdd (seq 0 (length jobs)) ++ [OWait]). split.
    + cbn. rewrite <- app_assoc. reflexivity.
    + intros H. apply in_app_or in H. destruct H as [H|[H|[]]]; [|discriminate].
      apply in_map_iff in H. destruct H as (x & H & _). discriminate.
  - right. split; auto. rewrite prog_length in B by auto. destruct B as (it & Hi' & B). exists i, it. auto.
Qed.

Lemma pool_abort s : pool_state E jobs false w1 s -> sig jst s = JSt w1 (fun _ => local0).
Proof. intros R. eapply no_begin_untouched; eauto. eapply abort_runs_nothing; eauto. Qed.

End Jobs.

Lemma compile_step_rv its w rv w' : good_items its (files w) -> compile_step E its w rv w' -> rv = 0%Z \/ rv = (-1)%Z.
Proof.
  intros GI (ok & jobs & w1 & s & V & P & F & W & R). destruct ok; [|auto].
  destruct (validate_all_result E keep (ge_inst _ _ _ GE) its w true jobs w1 V) as (_ & A & _).
  { apply GI. } { intros it Hin. apply (gi_area _ _ _ _ GI it Hin). }
  { intros it Hin. destruct (in_area_ok it (gi_area _ _ _ _ GI it Hin)) as (_ & _ & _ & K1 & K2). auto. }
  { now apply good_independent. }
  destruct (A eq_refl) as (Sub & _).
  destruct (pool_failure jobs w1) with (s := s) (rv := rv) as [B|[B _]]; auto.
  - intros it Hin. apply (gi_area _ _ _ _ GI). eapply sub_in; eauto.
  - eapply sub_nodup; eauto. apply GI.
Qed.

Theorem compile_success its w w' : good_items its (files w) -> compile_step E its w 0 w' -> stepped its w w'.
Proof.
  intros GI (ok & jobs & w1 & s & V & P & F & W & R). destruct ok; [|discriminate].
  destruct (validate_all_result E keep (ge_inst _ _ _ GE) its w true jobs w1 V) as (A1 & A2 & _).
  { apply GI. } { intros it Hin. apply (gi_area _ _ _ _ GI it Hin). }
  { intros it Hin. destruct (in_area_ok it (gi_area _ _ _ _ GI it Hin)) as (_ & _ & _ & K1 & K2). auto. }
  { now apply good_independent. }
  destruct (A2 eq_refl) as (Sub & Cases & Shown & Shown' & Rec & FlagFresh). clear A2.
  destruct (validate_all_shape E keep (ge_inst _ _ _ GE) its w true jobs w1 V) as [Vt Vr [ev [Vs Ve]] Vf].
  assert (Aj : forall it, In it jobs -> in_area (it_out it)).
  { intros it Hin. apply (gi_area _ _ _ _ GI). eapply sub_in; eauto. }
  assert (Nj : NoDup (map it_out jobs)) by (eapply sub_nodup; eauto; apply GI).
  pose proof (pool_quiet jobs w1 true s P) as [Qt Qf Ql Qo Qs].
  pose proof (pool_success jobs w1 Aj Nj s P R) as PS.
  rewrite W in *.
  assert (SrcEq : forall p, source p -> files w1 p = files w p).
  { intros p Sp. apply Vf; [apply Sp|]. intros (it & Hin & ->).
    eapply source_not_belongs; [apply (gi_area _ _ _ _ GI it Hin)|exact Sp|]. right. exists SFlags. reflexivity. }
  assert (NoFlag : forall it p, In it its -> (p = it_out it \/ exists k, k <> SFlags /\ p = side_file k (it_out it)) -> files w1 p = files w p).
  { intros it p Hin Hp. destruct (gi_area _ _ _ _ GI it Hin) as (Pn & Ao & Ak). apply Vf.
    - apply (ge_apart _ _ _ GE). destruct Hp as [->|(k & _ & ->)]; auto.
    - intros (it' & Hin' & Eq). destruct Hp as [->|(k & Nk & ->)].
      + eapply (Pn SFlags). symmetry. exact Eq.
      + revert Eq. apply (side_neq k SFlags). auto. }
  assert (NotOwned : forall it p, In it its -> ~ In it jobs -> belongs (it_out it) p -> forall it', In it' jobs -> ~ owned it' p).
  { intros it p Hin Nin Hb it' Hin' O. apply owned_belongs in O.
    assert (D : it_out it <> it_out it').
    { intros Eq. apply Nin. assert (it = it'); [|subst; auto].
      apply (same_out its); auto; [apply GI|]. eapply sub_in; eauto. }
    destruct (gi_area _ _ _ _ GI it Hin) as (Pn & _ & _). destruct (Aj it' Hin') as (Pn' & _ & _).
    destruct Hb as [->|[k ->]]; destruct O as [O|[k' O]].
    - auto.
    - symmetry in O. revert O. apply Pn.
    - revert O. apply Pn'.
    - revert O. apply side_neq. auto. }
  assert (FlagSame : forall it, In it its -> files w' (flags_path (it_out it)) = files w1 (flags_path (it_out it))).
  { intros it Hin. destruct (gi_area _ _ _ _ GI it Hin) as (Pn & _ & Ak). apply Qf.
    - apply (ge_apart _ _ _ GE), (Ak SFlags).
    - intros it' Hin' [O|[O|O]].
      + destruct (Aj it' Hin') as (Pn' & _). revert O. apply (Pn' SFlags).
      + revert O. apply (side_neq SFlags SDeps). left; discriminate.
      + revert O. apply (side_neq SFlags SLog). left; discriminate. }
  constructor.
  - lia.
  - intros p Hk Hn. rewrite Qf; auto.
    + apply Vf; auto. intros (it & Hin & ->). apply (Hn it Hin). right. exists SFlags. reflexivity.
    + intros it Hin O. apply (Hn it); [eapply sub_in; eauto|]. now apply owned_belongs.
  - intros it Hin Hf. assert (Nj' : ~ In it jobs) by (intros Hj; destruct (A1 it Hj) as (_ & Z & _); auto).
    constructor.
    + intros p Hb. destruct (bytes_dec p (flags_path (it_out it))) as [->|Np].
      * rewrite FlagSame by auto. auto.
      * rewrite Qf.
        -- apply (NoFlag it p Hin). destruct Hb as [->|[k ->]]; [auto|]. right. exists k. split; auto. intros ->. apply Np. reflexivity.
        -- destruct (gi_area _ _ _ _ GI it Hin) as (Pn & Ao & Ak). apply (ge_apart _ _ _ GE). destruct Hb as [->|[k ->]]; auto.
        -- intros it' Hin'. eapply NotOwned; eauto.
    + rewrite Qo; [congruence|]. intros Ho. apply in_map_iff in Ho. destruct Ho as (it' & Eq & Hin').
      eapply (NotOwned it (it_out it) Hin Nj'); [left; auto|exact Hin'|]. left. auto.
    + rewrite Qs; [auto|]. intros Ho. apply in_map_iff in Ho. destruct Ho as (it' & Eq & Hin').
      eapply (NotOwned it (it_out it) Hin Nj'); [left; auto|exact Hin'|]. left. auto.
  - intros it Hin Hf. destruct (Cases it Hin) as [_ [Hj|Hj]]; [|contradiction].
    apply In_nth_error in Hj. destruct Hj as [i Hi]. destruct (PS i it Hi) as [K Fl]. rewrite <- W in *.
    destruct K as [jT jFr jD0 jLd jD1 jD2 jO0 jF0 jO1 jO2 jF1 jL0 jTx jL1 jSh jC]. unfold compiled_result in *.
    assert (CO : cc_obj E (argv_flags (it_flags it)) (it_src it) (files w1) = cc_obj E (argv_flags (it_flags it)) (it_src it) (files w)).
    { apply (ge_obj _ _ _ GE). auto. }
    assert (CD : cc_deps E (argv_flags (it_flags it)) (it_src it) (files w1) = cc_deps E (argv_flags (it_flags it)) (it_src it) (files w)).
    { apply (ge_deps _ _ _ GE). auto. }
    rewrite CO, CD in *.
    assert (U : forall p, (p = it_out it \/ exists k, k <> SFlags /\ p = side_file k (it_out it)) -> usable E (files w) p -> usable E (files w1) p).
    { intros p Hp. apply usable_same. symmetry. eapply NoFlag; eauto. }
    constructor.
    + destruct (jO1 ltac:(lia) Fl) as (text & obj & tau & R1 & R2 & R3). exists text, obj, tau. repeat split; auto; lia.
    + rewrite jC, Vr. cbn. lia.
    + intros o Ho Hu. apply jD1; auto. apply U; auto. right. exists SDeps. split; [discriminate|reflexivity].
    + intros Hn. rewrite jD2 by auto. eapply NoFlag; eauto. right. exists SDeps. split; [discriminate|reflexivity].
    + intros Hu. apply jL1; auto. apply U; auto. right. exists SLog. split; [discriminate|reflexivity].
    + rewrite jSh. cbn [Nat.leb]. now rewrite (Shown' it Hin Hf).
  - intros it Hin. destruct (Cases it Hin) as [_ [Hj|Hj]]; auto. right. apply (A1 it Hj).
  - intros it Hin Hff. destruct (Rec it Hin Hff) as (c & t & B1 & B2). exists c, t. rewrite FlagSame by auto. auto.
  - intros o. rewrite Ql. congruence.
  - intros o Ho. rewrite Qo; [congruence|]. intros Hj. apply Ho. apply in_map_iff in Hj. destruct Hj as (x & <- & Hx). apply in_map. eapply sub_in; eauto.
  - intros o Ho. rewrite Qs.
    + rewrite Vs, texts_app, (Ve o Ho). apply app_nil_r.
    + intros Hj. apply Ho. apply in_map_iff in Hj. destruct Hj as (x & <- & Hx). apply in_map. eapply sub_in; eauto.
Qed.

(** A failing compile step has a source to blame. *)
Definition blame (f : fs) (it : item) : Prop :=
  unexaminable f it \/
  ~ usable E f (it_out it) \/
  (exists text l, cc_obj E (argv_flags (it_flags it)) (it_src it) f = ToolFail text l) \/
  exists t f', fst (installer E (it_out it) t f') = false.

Theorem compile_failure its w rv w' : good_items its (files w) -> compile_step E its w rv w' -> rv <> 0%Z ->
  exists it, In it its /\ blame (files w) it.
Proof.
  intros GI (ok & jobs & w1 & s & V & P & F & W & R) Hrv.
  destruct (validate_all_result E keep (ge_inst _ _ _ GE) its w ok jobs w1 V) as (A1 & A2 & A3).
  { apply GI. } { intros it Hin. apply (gi_area _ _ _ _ GI it Hin). }
  { intros it Hin. destruct (in_area_ok it (gi_area _ _ _ _ GI it Hin)) as (_ & _ & _ & K1 & K2). auto. }
  { now apply good_independent. }
  destruct ok.
  - destruct (A2 eq_refl) as (Sub & _).
    assert (Aj : forall it, In it jobs -> in_area (it_out it)).
    { intros it Hin. apply (gi_area _ _ _ _ GI). eapply sub_in; eauto. }
    assert (Nj : NoDup (map it_out jobs)) by (eapply sub_nodup; eauto; apply GI).
    destruct (pool_failure jobs w1 Aj Nj s rv P R) as [B|(_ & i & it & Hi & K & Fl)]; [contradiction|].
    assert (Hin : In it its) by (eapply sub_in; eauto; eapply nth_error_In; eauto).
    exists it. split; auto. right.
    destruct (validate_all_shape E keep (ge_inst _ _ _ GE) its w true jobs w1 V) as [_ _ _ Vf].
    assert (SrcEq : forall p, source p -> files w1 p = files w p).
    { intros p Sp. apply Vf; [apply Sp|]. intros (it' & Hin' & ->).
      eapply source_not_belongs; [apply (gi_area _ _ _ _ GI it' Hin')|exact Sp|]. right. exists SFlags. reflexivity. }
    destruct (J_fail1 _ _ _ _ _ _ _ _ K Fl) as [B|[B|B]]; auto.
    + left. intros U. apply B. eapply usable_same; [|exact U]. symmetry.
      destruct (gi_area _ _ _ _ GI it Hin) as (Pn & Ao & Ak). apply Vf; [now apply (ge_apart _ _ _ GE)|].
      intros (it' & Hin' & Eq). eapply (Pn SFlags). symmetry. exact Eq.
    + right. left. destruct B as (text & l & B). exists text, l. unfold compiled_result in B. rewrite <- B. apply (ge_obj _ _ _ GE). intros p Sp. symmetry. auto.
  - destruct (A3 eq_refl) as (it & Hin & [B|B]); exists it; (split; [auto|]); unfold blame; auto.
Qed.

(** A step that finds a source whose dependencies cannot be examined runs no tool at all. *)
Theorem compile_abort its w rv w' it : good_items its (files w) -> compile_step E its w rv w' ->
  In it its -> unexaminable (files w) it ->
  rv = (-1)%Z /\ ran w' = ran w /\ (forall p, ~ inst_area p -> (forall it', In it' its -> p <> flags_path (it_out it')) -> files w' p = files w p).
Proof.
  intros GI (ok & jobs & w1 & s & V & P & F & W & R) Hin U.
  destruct (validate_all_result E keep (ge_inst _ _ _ GE) its w ok jobs w1 V) as (A1 & A2 & A3).
  { apply GI. } { intros it' Hin'. apply (gi_area _ _ _ _ GI it' Hin'). }
  { intros it' Hin'. destruct (in_area_ok it' (gi_area _ _ _ _ GI it' Hin')) as (_ & _ & _ & K1 & K2). auto. }
  { now apply good_independent. }
  destruct ok.
  - destruct (A2 eq_refl) as (_ & C & _). destruct (C it Hin) as [C1 _]. contradiction.
  - apply pool_abort in P. rewrite P in W. cbn in W. subst w'.
    destruct (validate_all_shape E keep (ge_inst _ _ _ GE) its w false jobs w1 V) as [_ Vr _ Vf].
    repeat split; auto. intros p Hk Hn. apply Vf; auto. intros (it' & Hin' & ->). eapply Hn; eauto.
Qed.

(** Some result is always possible. *)
Theorem compile_total its w : exists rv w', compile_step E its w rv w'.
Proof.
  unfold compile_step. destruct (validate_all E its w) as [[ok jobs] w1] eqn:V.
  destruct (finishes jst (job_prog E jobs) job_stops (ncpus E) (compile_client ok (length jobs)) (JSt w1 (fun _ => local0))
     (init jst (ncpus E) (compile_client ok (length jobs)) (JSt w1 (fun _ => local0)))) as (s & S & F); [constructor|].
  destruct ok.
  - destruct (wait_answered jst (job_prog E jobs) job_stops (ncpus E) (compile_client true (length jobs)) (JSt w1 (fun _ => local0)) s) as [rv Hin]; auto.
    { unfold compile_client. apply in_or_app. right. cbn. auto. }
    exists rv, (jw (sig jst s)), true, jobs, w1, s. repeat split; auto; apply F.
  - exists (-1)%Z, (jw (sig jst s)), false, jobs, w1, s. repeat split; auto; apply F.
Qed.

End Setting.
