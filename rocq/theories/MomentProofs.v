(** * A compile step at any moment: what an interruption or a failure can leave behind. *)

From Coq Require Import ZArith Ascii String Lia Bool List.
From Verif Require Import Base FileSys Frugal Deps Log Cookie CookieProofs Pool PoolInv SpecPool PoolProofs PoolOwn Build SpecFiles SpecBuild FrugalProofs BuildProofs CompileProofs StepProofs.
Import ListNotations.
Local Open Scope nat_scope.

Section Setting.
Variable E : env.
Variables area inst_area : bytes -> Prop.
Hypothesis GE : good_env E area inst_area.
Notation keep := (fun p => ~ inst_area p).
Notation source := (source area inst_area).
Notation in_area := (in_area area).
Notation good_items := (good_items area inst_area).

Lemma usable_dec f p : usable E f p \/ ~ usable E f p.
Proof.
  unfold usable. destruct (can_write E p); [|right; intros [A _]; discriminate].
  destruct (f p); [left; auto|left; eauto|right|right]; intros [_ [A|(c & t' & A)]]; discriminate.
Qed.

(** The recorded flags are as before, or they were not the requested ones and now are. *)
Definition flags_case (w w' : world) (it : item) : Prop :=
  files w' (flags_path (it_out it)) = files w (flags_path (it_out it)) \/
  (~ recorded (files w) it /\ recorded (files w') it).

Lemma frugal_flags_case cw t f it b f' : frugal_flags cw t f (it_flags it) (it_out it) = (b, f') ->
  f' (flags_path (it_out it)) = f (flags_path (it_out it)) \/ (~ recorded f it /\ recorded f' it).
Proof.
  intros F. destruct b.
  - assert (N : ~ recorded f it) by (apply (frugal_not_recorded cw t); now rewrite F).
    revert F. unfold frugal_flags.
    assert (Y : forall b', match write_file cw t f (flags_path (it_out it)) (flag_str (it_flags it)) with
        | Some f'0 => (true, f'0) | None => (true, f) end = (b', f') ->
        f' (flags_path (it_out it)) = f (flags_path (it_out it)) \/ (~ recorded f it /\ recorded f' it)).
    { intros b'. destruct (write_file _ _ _ _ _) as [g|] eqn:W; intros H; injection H as _ <-; auto.
      right. split; auto. apply write_file_same in W. exists (flag_str (it_flags it)), t. split; auto.
      apply cstr_nul_free, flag_str_nul_free. }
    destruct (read_file _ _) as [prev|]; [|apply Y]. destruct (bytes_eqb _ _); [discriminate|apply Y].
  - apply flags_equal_untouched in F. subst. auto.
Qed.

Lemma validate_flags it w v w1 : validate E it w = (v, w1) -> flags_case w w1 it.
Proof.
  unfold validate, flags_case. destruct (frugal_flags _ _ _ _ _) as [b f1] eqn:F. apply frugal_flags_case in F.
  destruct b; [intros H; injection H as _ <-; auto|]. destruct (read_file _ _).
  - destruct (frugal_mtime _ _ _) as [[|]|]; intros H; injection H as _ <-; auto.
  - intros H; injection H as _ <-; auto.
Qed.

Lemma recorded_same f f' it : f (flags_path (it_out it)) = f' (flags_path (it_out it)) -> recorded f it -> recorded f' it.
Proof. intros H (c & t & A & B). exists c, t. rewrite <- H. auto. Qed.

Lemma validate_all_flags its : forall w ok jobs w1, validate_all E its w = (ok, jobs, w1) ->
  NoDup (map it_out its) -> (forall it, In it its -> keep (flags_path (it_out it))) ->
  forall it, In it its -> flags_case w w1 it.
Proof.
  induction its as [|x its IH]; intros w ok jobs w1 H ND K it Hin; [destruct Hin|].
  cbn [validate_all] in H. destruct (validate E x w) as [v wa] eqn:V.
  destruct (validate_shape E x w v wa V) as (_ & _ & _ & Vf).
  inversion ND as [|? ? Nin ND']; subst.
  assert (Dist : forall y, In y its -> it_out y <> it_out x) by (intros y Hy Eq; apply Nin; rewrite <- Eq; now apply in_map).
  assert (Tail : forall wb ok' jobs' w2, (forall p, keep p -> files wb p = files wa p) -> validate_all E its wb = (ok', jobs', w2) -> flags_case w w2 it).
  { intros wb ok' jobs' w2 Fb R. destruct Hin as [<-|Hin].
    - assert (Same : files w2 (flags_path (it_out x)) = files wa (flags_path (it_out x))).
      { rewrite <- Fb by (apply K; cbn; auto). destruct (validate_all_shape E keep (ge_inst _ _ _ GE) its wb ok' jobs' w2 R) as [_ _ _ B]. apply B.
        - apply K. cbn; auto.
        - intros (y & Hy & Eq). apply flags_path_inj in Eq. apply (Dist y Hy). auto. }
      destruct (validate_flags x w v wa V) as [A|[A B]]; [left; congruence|right; split; auto].
      eapply recorded_same; [symmetry; exact Same|auto].
    - assert (Same : files wb (flags_path (it_out it)) = files w (flags_path (it_out it))).
      { rewrite Fb by (apply K; cbn; auto). apply Vf. intros Eq. apply flags_path_inj in Eq. apply (Dist it Hin). auto. }
      assert (Kt : forall y, In y its -> keep (flags_path (it_out y))) by (intros y Hy; apply K; cbn; auto).
      destruct (IH wb ok' jobs' w2 R ND' Kt it Hin) as [A|[A B]]; [left; congruence|right; split; auto].
      intros C. apply A. eapply recorded_same; [symmetry; exact Same|auto]. }
  assert (Stop : forall wb, (forall p, keep p -> files wb p = files wa p) -> flags_case w wb it).
  { intros wb Fb. destruct Hin as [<-|Hin].
    - destruct (validate_flags x w v wa V) as [A|[A B]]; [left; rewrite Fb by (apply K; cbn; auto); auto|right; split; auto].
      eapply recorded_same; [|exact B]. symmetry. apply Fb. apply K; cbn; auto.
    - left. rewrite Fb by (apply K; cbn; auto). apply Vf. intros Eq. apply flags_path_inj in Eq. apply (Dist it Hin). auto. }
  destruct v.
  - destruct (validate_all E its wa) as [[ok' jobs'] w2] eqn:R. injection H as <- <- <-. eapply Tail; [|exact R]. auto.
  - cbn in H. destruct (installer E _ _ _) as [oki f2] eqn:I.
    assert (F2 : forall p, keep p -> f2 p = files wa p).
    { intros p Hk. change f2 with (snd (oki, f2)). rewrite <- I. now apply (ge_inst _ _ _ GE). }
    destruct oki.
    + eapply Tail; [|exact H]. cbn. auto.
    + injection H as <- <- <-. apply Stop. cbn. auto.
  - injection H as <- <- <-. apply Stop. auto.
Qed.

(** The object was compiled during the step. *)
Definition made (w w' : world) (it : item) : Prop :=
  exists text obj tau, cc_obj E (argv_flags (it_flags it)) (it_src it) (files w) = ToolOk text obj /\
    files w' (it_out it) = File obj (clock E tau) /\ tick w <= tau < tick w' /\
    (forall o, cc_deps E (argv_flags (it_flags it)) (it_src it) (files w) = Some o ->
       usable E (files w) (deps_path (it_out it)) ->
       exists t, files w' (deps_path (it_out it)) = File (deps_content (parse_deps o)) t) /\
    (flags_fine E (files w) it -> recorded (files w') it).

(** What can be found at the object and dependency files of an item. *)
Record moment (w w' : world) (it : item) : Prop := {
  m_flags : flags_case w w' it;
  m_fresh : fresh (files w) it -> forall p, belongs (it_out it) p -> files w' p = files w p;
  m_out : files w' (it_out it) = files w (it_out it) \/
          files w' (it_out it) = Absent \/
          (exists text c t, cc_obj E (argv_flags (it_flags it)) (it_src it) (files w) = ToolFail text (Some (Some c)) /\
             files w' (it_out it) = File c t) \/
          made w w' it;
  m_deps : files w' (deps_path (it_out it)) = files w (deps_path (it_out it)) \/
           exists o t, cc_deps E (argv_flags (it_flags it)) (it_src it) (files w) = Some o /\
             files w' (deps_path (it_out it)) = File (deps_content (parse_deps o)) t;
}.

Record moments (its : list item) (w w' : world) : Prop := {
  ms_tick : tick w <= tick w';
  ms_frame : forall p, ~ inst_area p -> (forall it, In it its -> ~ belongs (it_out it) p) -> files w' p = files w p;
  ms_items : forall it, In it its -> moment w w' it;
}.

Lemma good_items_app a b f : good_items (a ++ b) f -> good_items a f.
Proof.
  intros [ND A S D]. rewrite map_app in ND.
  assert (NoDup (map it_out a)) by (clear - ND; induction (map it_out a) as [|x xs IH]; [constructor|]; cbn in ND; inversion ND; subst; constructor; auto; rewrite in_app_iff in *; tauto).
  constructor; auto; intros it Hin.
  - apply A. apply in_or_app; auto.
  - apply S. apply in_or_app; auto.
  - apply D. apply in_or_app; auto.
Qed.

Lemma validate_moments its w ok jobs w1 : good_items its (files w) -> validate_all E its w = (ok, jobs, w1) -> moments its w w1.
Proof.
  intros GI V.
  destruct (validate_all_shape E keep (ge_inst _ _ _ GE) its w ok jobs w1 V) as [Vt Vr [ev Vs] Vf].
  assert (Kf : forall it, In it its -> keep (flags_path (it_out it))).
  { intros it Hin. apply (in_area_ok E area inst_area GE it (gi_area _ _ _ _ GI it Hin)). }
  pose proof (validate_all_flags its w ok jobs w1 V (gi_distinct _ _ _ _ GI) Kf) as VF.
  assert (NoFlag : forall it p, In it its -> (p = it_out it \/ exists k, k <> SFlags /\ p = side_file k (it_out it)) -> files w1 p = files w p).
  { intros it p Hin Hp. destruct (gi_area _ _ _ _ GI it Hin) as (Pn & Ao & Ak). apply Vf.
    - apply (ge_apart _ _ _ GE). destruct Hp as [->|(k & _ & ->)]; auto.
    - intros (it' & Hin' & Eq). destruct Hp as [->|(k & Nk & ->)].
      + eapply (Pn SFlags). symmetry. exact Eq.
      + revert Eq. apply (side_neq k SFlags). auto. }
  constructor; auto.
  - intros p Hk Hn. apply Vf; auto. intros (it & Hin & ->). apply (Hn it Hin). right. exists SFlags. reflexivity.
  - intros it Hin. constructor; auto.
    + intros Hf p Hp. destruct (VF it Hin) as [A|[A _]]; [|exfalso; apply A, Hf].
      destruct Hp as [->|[k ->]]; [apply (NoFlag it); auto|].
      destruct k; [exact A| |]; apply (NoFlag it); auto; right; eexists; (split; [|reflexivity]); discriminate.
    + left. apply (NoFlag it); auto.
    + left. apply (NoFlag it); auto. right. exists SDeps. split; [discriminate|reflexivity].
Qed.

Lemma pool_any jobs ok w1 s : (forall it, In it jobs -> in_area (it_out it)) -> NoDup (map it_out jobs) ->
  pool_state E jobs ok w1 s ->
  forall i it, nth_error jobs i = Some it -> exists k, Jok E keep jobs w1 it i k (sig jst s).
Proof.
  intros Aj Nj R i it Hi. unfold pool_state, compile_client in R.
  assert (Li : i < length jobs) by (apply nth_error_Some; congruence).
  destruct (own_any jst (job_prog E jobs) job_stops (ncpus E) (length jobs) (rest_ops ok) (JSt w1 (fun _ => local0))
          (rest_no_add ok) (J E keep jobs w1)) with (G := fun _ : jst => True) (s := s) (i := i) as [k A]; auto.
  - intros; eapply J_init; eauto.
  - intros i0 k a x Hi0 Ha HJ. eapply J_own with (src := source); eauto using ge_inst, ge_deps, ge_obj.
    + eapply jobs_item_ok; eauto.
    + intros p [_ H]; auto.
    + intros p it' Sp Hin O. eapply source_not_belongs; eauto. now apply owned_belongs.
  - intros. eapply J_other with (j := j) (l := l); eauto using ge_inst. eapply jobs_item_ok; eauto.
  - intros; now apply (job_stops_other E area inst_area GE jobs i0 j l).
  - destruct A as (it' & Hi' & A). assert (it' = it) by congruence. subst. eauto.
Qed.

Theorem compile_moments its w w' : good_items its (files w) -> compile_during E its w w' -> moments its w w'.
Proof.
  intros GI [(its1 & its2 & ok & jobs & -> & V)|(ok & jobs & w1 & s & V & P & W)].
  { pose proof (validate_moments its1 w ok jobs w' (good_items_app _ _ _ GI) V) as [T F M].
    constructor; auto.
    - intros p Hk Hn. apply F; auto. intros it Hin. apply Hn. apply in_or_app. auto.
    - intros it Hin. destruct (in_dec bytes_dec (it_out it) (map it_out its1)) as [Hi|Hi].
      + apply in_map_iff in Hi. destruct Hi as (y & Ey & Hy).
        assert (y = it) by (apply (same_out (its1 ++ its2)); auto; [apply GI|apply in_or_app; auto]). subst. auto.
      + assert (Same : forall p, belongs (it_out it) p -> files w' p = files w p).
        { intros p Hp. destruct (gi_area _ _ _ _ GI it Hin) as (Pn & Ao & Ak). apply F.
          - apply (ge_apart _ _ _ GE). destruct Hp as [->|[k ->]]; auto.
          - intros it' Hin' Hp'. assert (D : it_out it <> it_out it') by (intros Eq; apply Hi; rewrite Eq; now apply in_map).
            destruct (gi_area _ _ _ _ GI it') as (Pn' & _); [apply in_or_app; auto|].
            destruct Hp as [->|[k ->]]; destruct Hp' as [O|[k' O]].
            + auto.
            + symmetry in O. revert O. apply Pn.
            + revert O. apply Pn'.
            + revert O. apply side_neq. auto. }
        constructor; auto.
        * left. apply Same. right. exists SFlags. reflexivity.
        * left. apply Same. left. auto.
        * left. apply Same. right. exists SDeps. reflexivity. }
  pose proof (validate_moments its w ok jobs w1 GI V) as [MT MF MI].
  destruct (validate_all_result E keep (ge_inst _ _ _ GE) its w ok jobs w1 V) as (A1 & A2 & _).
  { apply GI. } { intros it Hin. apply (gi_area _ _ _ _ GI it Hin). }
  { intros it Hin. destruct (in_area_ok E area inst_area GE it (gi_area _ _ _ _ GI it Hin)) as (_ & _ & _ & K1 & K2). auto. }
  { now apply (good_independent E area inst_area GE). }
  destruct ok.
  2:{ apply (pool_abort E) in P. rewrite P in W. cbn in W. subst. constructor; auto. }
  destruct (A2 eq_refl) as (Sub & Cases & _ & _ & Rec & _). clear A2.
  assert (Aj : forall it, In it jobs -> in_area (it_out it)).
  { intros it Hin. apply (gi_area _ _ _ _ GI). eapply sub_in; eauto. }
  assert (Nj : NoDup (map it_out jobs)) by (eapply sub_nodup; eauto; apply GI).
  pose proof (pool_quiet E area inst_area GE jobs w1 true s P) as [Qt Qf Ql Qo Qs].
  pose proof (pool_any jobs true w1 s Aj Nj P) as PA.
  rewrite W in *.
  destruct (validate_all_shape E keep (ge_inst _ _ _ GE) its w true jobs w1 V) as [Vt Vr [ev Vs] Vf].
  assert (SrcEq : forall p, source p -> files w1 p = files w p).
  { intros p Sp. apply MF; [apply Sp|]. intros it Hin. eapply source_not_belongs; eauto. apply (gi_area _ _ _ _ GI it Hin). }
  assert (NotOwned : forall it p, In it its -> ~ In it jobs -> belongs (it_out it) p -> forall it', In it' jobs -> ~ owned it' p).
  { intros it p Hin Nin Hb it' Hin' O. apply owned_belongs in O.
    assert (D : it_out it <> it_out it').
    { intros Eq. apply Nin. assert (it = it'); [|subst; auto].
      apply (same_out its); auto; [apply GI|]. eapply sub_in; eauto. }
    destruct (gi_area _ _ _ _ GI it Hin) as (Pn & _ & _). destruct (Aj it' Hin') as (Pn' & _ & _).
    destruct Hb as [->|[k ->]]; destruct O as [O|[k' O]].
    - auto.
    - symmetry in O. revert O. apply Pn.
    - revert O. apply Pn'.
    - revert O. apply side_neq. auto. }
  assert (FlagSame : forall it, In it its -> files w' (flags_path (it_out it)) = files w1 (flags_path (it_out it))).
  { intros it Hin. destruct (gi_area _ _ _ _ GI it Hin) as (Pn & _ & Ak). apply Qf.
    - apply (ge_apart _ _ _ GE), (Ak SFlags).
    - intros it' Hin' [O|[O|O]].
      + destruct (Aj it' Hin') as (Pn' & _). revert O. apply (Pn' SFlags).
      + revert O. apply (side_neq SFlags SDeps). left; discriminate.
      + revert O. apply (side_neq SFlags SLog). left; discriminate. }
  constructor.
  - lia.
  - intros p Hk Hn. rewrite Qf; auto. intros it Hin O. apply (Hn it); [eapply sub_in; eauto|]. now apply owned_belongs.
  - intros it Hin. destruct (MI it Hin) as [Mf Mfr Mo Md].
    assert (FC : flags_case w w' it).
    { destruct Mf as [A|[A B]]; [left; rewrite FlagSame by auto; auto|right; split; auto]. eapply recorded_same; [symmetry; apply FlagSame; auto|auto]. }
    assert (Before : files w1 (it_out it) = files w (it_out it) /\ files w1 (deps_path (it_out it)) = files w (deps_path (it_out it))).
    { destruct (gi_area _ _ _ _ GI it Hin) as (Pn & Ao & Ak). split; (apply Vf; [apply (ge_apart _ _ _ GE); auto; apply (Ak SDeps)|]).
      - intros (it' & _ & Eq). eapply (Pn SFlags). symmetry. exact Eq.
      - intros (it' & _ & Eq). revert Eq. apply (side_neq SDeps SFlags). left; discriminate. }
    destruct Before as [B1 B2].
    destruct (Cases it Hin) as [_ [Hj|Hj]].
    + destruct (A1 it Hj) as (_ & Nf & _).
      apply In_nth_error in Hj. destruct Hj as [i Hi]. destruct (PA i it Hi) as [k K].
      destruct K as [jT jFr jD0 jLd jD1 jD2 jO0 jF0 jO1 jO2 jF1 jL0 jTx jL1 jSh jC]. unfold compiled_result in *.
      assert (CO : cc_obj E (argv_flags (it_flags it)) (it_src it) (files w1) = cc_obj E (argv_flags (it_flags it)) (it_src it) (files w)).
      { apply (ge_obj _ _ _ GE). auto. }
      assert (CD : cc_deps E (argv_flags (it_flags it)) (it_src it) (files w1) = cc_deps E (argv_flags (it_flags it)) (it_src it) (files w)).
      { apply (ge_deps _ _ _ GE). auto. }
      rewrite CO, CD in *. rewrite W in *.
      constructor; auto.
      * intros Hf. contradiction.
      * destruct (Nat.lt_ge_cases k 3) as [Hk|Hk].
        -- left. rewrite jO0 by lia. auto.
        -- destruct (jO2 Hk) as [(text & obj & tau & R1 & R2 & R3)|[_ [R|[R|(text & c & t & R1 & R2)]]]].
           ++ right. right. right. exists text, obj, tau. split; auto. split; auto. split; [lia|].
              split.
              ** intros o Ho Hu. apply jD1; auto; [lia|]. eapply usable_same; [|exact Hu]. auto.
              ** intros Hff. eapply recorded_same; [symmetry; apply FlagSame; auto|]. auto.
           ++ left. congruence.
           ++ auto.
           ++ right. right. left. exists text, c, t. auto.
      * destruct (cc_deps E (argv_flags (it_flags it)) (it_src it) (files w)) as [o|] eqn:Ho.
        -- destruct (Nat.lt_ge_cases k 2) as [Hk|Hk]; [left; rewrite jD0 by lia; auto|].
           destruct (usable_dec (files w1) (deps_path (it_out it))) as [U|U].
           ++ right. destruct (jD1 Hk o eq_refl U) as [t R]. exists o, t. auto.
           ++ left. rewrite jD2 by auto. auto.
        -- left. rewrite jD2 by auto. auto.
    + assert (Nj' : ~ In it jobs) by (intros Hj'; destruct (A1 it Hj') as (_ & Z & _); auto).
      assert (Same : forall p, belongs (it_out it) p -> files w' p = files w1 p).
      { intros p Hp. apply Qf.
        - destruct (gi_area _ _ _ _ GI it Hin) as (Pn & Ao & Ak). apply (ge_apart _ _ _ GE). destruct Hp as [->|[k ->]]; auto.
        - intros it' Hin'. eapply NotOwned; eauto. }
      constructor; auto.
      * intros Hf p Hp. rewrite Same by auto. auto.
      * left. rewrite Same by (left; auto). auto.
      * left. rewrite Same by (right; exists SDeps; reflexivity). auto.
Qed.
End Setting.
