(** * One link step. *)

From Coq Require Import ZArith Ascii String Lia Bool List.
From Verif Require Import Base FileSys Frugal Deps Log Cookie CookieProofs Pool PoolInv SpecPool PoolProofs PoolOwn Build SpecFiles SpecBuild FrugalProofs BuildProofs CompileProofs StepProofs MomentProofs SpecHistory.
Import ListNotations.
Local Open Scope nat_scope.

Section Setting.
Variable E : env.
Variables area inst_area : bytes -> Prop.
Hypothesis GE : good_env E area inst_area.
Notation keep := (fun p => ~ inst_area p).
Notation source := (source area inst_area).
Notation in_area := (in_area area).

(** What the linker is given to work with: its inputs, its old output, and files outside the product area. *)
Notation ld_on := (ld_on E).
Definition ld_reads : Prop := forall r f f',
  (forall p, source p \/ In p (lk_srcs r) \/ p = lk_out r -> f p = f' p) -> ld_on r f = ld_on r f'.
Hypothesis GL : ld_reads.

Record good_link (r : link_req) : Prop := {
  gl_area : in_area (lk_out r);
  gl_srcs : forall s, In s (lk_srcs r) -> ~ inst_area s /\ ~ belongs (lk_out r) s;
}.

Record linked (w w' : world) (r : link_req) : Prop := {
  l_result : exists text c tau,
    ld_on r (files w) = ToolOk text c /\ files w' (lk_out r) = File c (clock E tau) /\ tick w <= tau < tick w';
  l_once : links (lk_out r) (ran w') = S (links (lk_out r) (ran w));
  l_log : usable E (files w) (log_path (lk_out r)) ->
    log_already_done (files w') (lk_out r) = cstr (text_of (ld_on r (files w)));
  l_shown : texts (lk_out r) (shown w') = texts (lk_out r) (shown w) ++ [cstr (text_of (ld_on r (files w)))];
}.

Record left_alone (w w' : world) (r : link_req) : Prop := {
  la_same : forall p, belongs (lk_out r) p -> files w' p = files w p;
  la_none : ran w' = ran w;
  la_shown : texts (lk_out r) (shown w') = texts (lk_out r) (shown w) ++ [log_already_done (files w) (lk_out r)];
}.

(** The product was linked during the step. *)
Definition lmade (w w' : world) (r : link_req) : Prop :=
  exists text c tau, ld_on r (files w) = ToolOk text c /\ files w' (lk_out r) = File c (clock E tau) /\ tick w <= tau < tick w' /\
    (flags_fine E (files w) (as_item r) -> lrecorded (files w') r).

(** What is true at any moment of the step. *)
Record lmoment (w w' : world) (r : link_req) : Prop := {
  lm_tick : tick w <= tick w';
  lm_frame : forall p, ~ inst_area p -> ~ belongs (lk_out r) p -> files w' p = files w p;
  lm_flags : flags_case w w' (as_item r);
  lm_fresh : lfresh (files w) r -> forall p, belongs (lk_out r) p -> files w' p = files w p;
  lm_out : files w' (lk_out r) = files w (lk_out r) \/
           files w' (lk_out r) = Absent \/
           (exists text c t, ld_on r (files w) = ToolFail text (Some (Some c)) /\ files w' (lk_out r) = File c t) \/
           lmade w w' r;
}.

Lemma lfresh_dec f r : lfresh f r \/ ~ lfresh f r.
Proof.
  unfold lfresh. destruct (fst (frugal_flags (fun _ => false) 0 f (it_flags (as_item r)) (it_out (as_item r)))) eqn:F.
  - right. intros [A _]. apply (frugal_recorded (fun _ => false) 0) in A. congruence.
  - apply frugal_recorded in F. destruct (frugal_mtime f (lk_srcs r) (lk_out r)) as [[|]|] eqn:M.
    + right. intros [_ U]. apply mtime_no_work in U. congruence.
    + left. split; auto. now apply mtime_no_work.
    + right. intros [_ U]. apply mtime_no_work in U. congruence.
Qed.

Section One.
Variable r : link_req.
Hypothesis GR : good_link r.

Lemma belongs_keep p : belongs (lk_out r) p -> ~ inst_area p.
Proof. destruct (gl_area _ GR) as (_ & A & B). intros [->|[k ->]]; apply (ge_apart _ _ _ GE); auto. Qed.

Lemma out_not_side k : lk_out r <> side_file k (lk_out r).
Proof. intros H. destruct (gl_area _ GR) as (P & _). apply (P k (lk_out r)). auto. Qed.

(** The file systems [do_link] runs on differ from the initial one only in the recorded flags. *)
Lemma ld_same f f' : (forall p, p <> flags_path (lk_out r) -> f' p = f p) -> ld_on r f' = ld_on r f.
Proof.
  intros H. apply GL. intros p Hp. apply H. intros ->. destruct (gl_area _ GR) as (P & A & B).
  destruct Hp as [[S _]|[S| S]].
  - apply S. apply (B SFlags).
  - destruct (gl_srcs _ GR _ S) as [_ N]. apply N. right. exists SFlags. reflexivity.
  - symmetry in S. revert S. apply (out_not_side SFlags).
Qed.

Record tool_phase (wa wb : world) (ok : bool) (text : bytes) : Prop := {
  tp_tick : tick wb = S (tick wa);
  tp_frame : forall p, p <> lk_out r -> files wb p = files wa p;
  tp_text : text = text_of (ld_on r (files wa));
  tp_ran : ran wb = ran wa ++ [CmdLink (lk_kind r) (lk_out r)];
  tp_shown : shown wb = shown wa;
  tp_ok : ok = true -> exists c, ld_on r (files wa) = ToolOk text c /\ files wb (lk_out r) = File c (clock E (tick wa));
  tp_fail : ok = false -> (exists t l, ld_on r (files wa) = ToolFail t l) \/ ~ usable E (files wa) (lk_out r);
  tp_bad : ok = false ->
    files wb (lk_out r) = files wa (lk_out r) \/ files wb (lk_out r) = Absent \/
    exists c t, ld_on r (files wa) = ToolFail text (Some (Some c)) /\ files wb (lk_out r) = File c t;
}.

Lemma tool_phase_intro wa ok text f : apply_tool E (ld_on r (files wa)) (now E wa) (files wa) (lk_out r) = (ok, text, f) ->
  tool_phase wa (set_ran (set_files wa f) (CmdLink (lk_kind r) (lk_out r))) ok text.
Proof.
  intros T.
  assert (Fr : forall p, p <> lk_out r -> f p = files wa p).
  { intros p Hp. change f with (snd (ok, text, f)). rewrite <- T. now apply apply_tool_frame. }
  revert T. unfold apply_tool. destruct (ld_on r (files wa)) as [t o|t [[c|]|]] eqn:L.
  - destruct (write_file _ _ _ _ _) as [f'|] eqn:W; intros T; injection T as <- <- <-; constructor; cbn; rewrite ?L; auto; try discriminate.
    + intros _. exists o. split; auto. eapply write_file_same; eauto.
    + intros _. right. intros U. destruct (write_usable E _ _ o (now E wa) U) as (g & W' & _). congruence.
  - destruct (write_file _ _ _ _ _) as [f'|] eqn:W; intros T; injection T as <- <- <-; constructor; cbn; rewrite ?L; auto; try discriminate; eauto.
    intros _. right. right. exists c, (now E wa). split; auto. eapply write_file_same; eauto.
  - intros T; injection T as <- <- <-; constructor; cbn; rewrite ?L; auto; try discriminate; eauto.
    intros _. unfold remove_file. destruct (can_write E (lk_out r)); auto. destruct (files wa (lk_out r)) eqn:F; auto.
    right. left. apply fs_set_same.
  - intros T; injection T as <- <- <-; constructor; cbn; rewrite ?L; auto; try discriminate; eauto.
Qed.

(** The whole of [do_link], step by step. *)
Lemma do_link_cases w rv w' : do_link E r w = (rv, w') ->
  exists ok text wb wc,
    tool_phase w wb ok text /\
    tick wc = S (tick wb) /\ ran wc = ran wb /\ shown wc = shown wb ++ [(lk_out r, cstr text)] /\
    (forall p, p <> log_path (lk_out r) -> files wc p = files wb p) /\
    (usable E (files wb) (log_path (lk_out r)) -> log_already_done (files wc) (lk_out r) = cstr text /\ usable E (files wc) (log_path (lk_out r))) /\
    (do_link_during E r w = fun x => x = w \/ x = wb \/ x = wc \/ x = w') /\
    (if ok then tick w' = S (tick wc) /\ ran w' = ran wc /\ shown w' = shown wc /\ (forall p, keep p -> files w' p = files wc p) /\
               (rv = 0%Z \/ (rv = (-1)%Z /\ exists t f, fst (installer E (lk_out r) t f) = false))
     else rv = (-1)%Z /\ w' = wc).
Proof.
  unfold do_link_during, do_link. change (ld E (lk_kind r) (match lk_kind r with Link => lib_prefix E | Archive => None end) (lk_out r) (lk_srcs r) (argv_flags (lk_flags r)) (files w)) with (ld_on r (files w)).
  destruct (apply_tool E (ld_on r (files w)) (now E w) (files w) (lk_out r)) as [[ok text] f] eqn:T.
  pose proof (tool_phase_intro _ _ _ _ T) as TP.
  set (wb := set_ran (set_files w f) (CmdLink (lk_kind r) (lk_out r))) in *.
  destruct (cmd_log (can_write E) (now E wb) (files wb) (lk_out r) text) as [printed f2] eqn:L.
  set (wc := set_shown (set_files wb f2) (lk_out r) printed).
  assert (Pr : printed = cstr text).
  { revert L. unfold cmd_log. destruct (cstr text) eqn:Ct; [intros L; injection L as <- _; auto|].
    destruct (write_file _ _ _ _ _); intros L; injection L as <- _; auto. }
  assert (Lf : forall p, p <> log_path (lk_out r) -> f2 p = files wb p).
  { intros p Hp. change f2 with (snd (printed, f2)). rewrite <- L. now apply cmd_log_frame. }
  assert (Ll : usable E (files wb) (log_path (lk_out r)) -> log_already_done f2 (lk_out r) = cstr text /\ usable E f2 (log_path (lk_out r))).
  { intros [U1 U2]. revert L. unfold cmd_log. destruct (cstr text) as [|c0 t0] eqn:Ct.
    - intros L. assert (f2 = remove_file (can_write E) (files wb) (log_path (lk_out r))) as -> by congruence.
      unfold usable, log_already_done, read_file, remove_file. rewrite U1.
      destruct U2 as [A|(c & t & A)]; rewrite A; cbv beta iota; rewrite ?A, ?fs_set_same; auto.
    - destruct (write_usable E (files wb) (log_path (lk_out r)) (c0 :: t0) (now E wb)) as (g & W & Hg); [split; auto|].
      rewrite W. intros L. assert (f2 = g) as -> by congruence. unfold log_already_done, read_file. rewrite Hg, <- Ct.
      split; [apply cstr_nul_free, cstr_is_nul_free|]. split; eauto. }
  destruct ok.
  - destruct (installer E (lk_out r) (now E wc) (files wc)) as [ok2 f3] eqn:I. intros H. injection H as <- <-.
    exists true, text, wb, wc. split; [exact TP|]. cbn. rewrite Pr. repeat split; auto; try (apply Ll; assumption).
    + intros p Hk. change f3 with (snd (ok2, f3)). rewrite <- I. now apply (ge_inst _ _ _ GE).
    + destruct ok2; [auto|]. right. split; auto. exists (now E wc), (files wc). now rewrite I.
  - intros H. injection H as <- <-. exists false, text, wb, wc. split; [exact TP|]. cbn. rewrite Pr. repeat split; auto; apply Ll; assumption.
Qed.

Lemma flags_phase w changed f1 : frugal_flags (can_write E) (now E w) (files w) (lk_flags r) (lk_out r) = (changed, f1) ->
  (forall p, p <> flags_path (lk_out r) -> f1 p = files w p) /\
  flags_case w (set_files w f1) (as_item r) /\
  (changed = false <-> lrecorded (files w) r) /\
  (changed = false -> f1 = files w) /\
  (flags_fine E (files w) (as_item r) -> lrecorded f1 r).
Proof.
  intros F. split; [|split; [|split; [|split]]].
  - intros p Hp. eapply flags_only; eauto.
  - apply (frugal_flags_case (can_write E) (now E w) (files w) (as_item r) changed f1 F).
  - unfold lrecorded. rewrite <- (frugal_recorded (can_write E) (now E w)). cbn. rewrite F. reflexivity.
  - intros ->. eapply flags_equal_untouched; eauto.
  - intros Ff. destruct changed.
    + destruct (frugal_flags_case (can_write E) (now E w) (files w) (as_item r) true f1 F) as [A|[_ A]]; auto.
      (* the write succeeded *)
      destruct Ff as [Hc Hf]. revert F. unfold frugal_flags. cbn in *.
      destruct (write_usable E (files w) (flags_path (lk_out r)) (flag_str (lk_flags r)) (now E w)) as (g & W & Hg); [split; auto|].
      rewrite W. assert (Rg : recorded g (as_item r)).
      { exists (flag_str (lk_flags r)), (now E w). split; auto. apply cstr_nul_free, flag_str_nul_free. }
      destruct (read_file _ _) as [prev|]; [destruct (bytes_eqb _ _); [discriminate|]|]; intros H; injection H as <-; exact Rg.
    + pose proof F as F'. apply flags_equal_untouched in F'. subst f1.
      apply (frugal_recorded (can_write E) (now E w)). cbn. now rewrite F.
Qed.

Lemma up_to_date_flags f f' : (forall p, p <> flags_path (lk_out r) -> f' p = f p) ->
  frugal_mtime f' (lk_srcs r) (lk_out r) = frugal_mtime f (lk_srcs r) (lk_out r).
Proof.
  intros H. apply frugal_mtime_ext.
  - apply H. intros Eq. revert Eq. apply (out_not_side SFlags).
  - intros d Hd. apply H. intros ->. destruct (gl_srcs _ GR _ Hd) as [_ N]. apply N. right. exists SFlags. reflexivity.
Qed.

Lemma log_not_flags : log_path (lk_out r) <> flags_path (lk_out r).
Proof. apply (side_neq SLog SFlags). left; discriminate. Qed.

Record lstepped (w : world) (rv : Z) (w' : world) : Prop := {
  ls_rv : rv = 0%Z \/ rv = (-1)%Z;
  ls_tick : tick w <= tick w';
  ls_frame : forall p, ~ inst_area p -> ~ belongs (lk_out r) p -> files w' p = files w p;
  ls_fresh : lfresh (files w) r -> left_alone w w' r;
  ls_stale : ~ lfresh (files w) r -> rv = 0%Z -> linked w w' r;
  ls_ran : forall o, compiles o (ran w') = compiles o (ran w) /\ (o <> lk_out r -> links o (ran w') = links o (ran w));
  ls_log : ~ lfresh (files w) r -> usable E (files w) (log_path (lk_out r)) ->
    log_already_done (files w') (lk_out r) = cstr (text_of (ld_on r (files w)));
  ls_logp : usable E (files w) (log_path (lk_out r)) -> usable E (files w') (log_path (lk_out r));
  ls_shown : forall o, o <> lk_out r -> texts o (shown w') = texts o (shown w);
  ls_most : links (lk_out r) (ran w) <= links (lk_out r) (ran w') <= S (links (lk_out r) (ran w));
  ls_flags : flags_fine E (files w) (as_item r) -> lrecorded (files w') r;
  ls_blame : rv <> 0%Z -> ~ usable E (files w) (lk_out r) \/ (exists t l, ld_on r (files w) = ToolFail t l) \/
                          exists t f, fst (installer E (lk_out r) t f) = false;
}.

Theorem link_stepped w rv w' : link_step E r w = (rv, w') -> lstepped w rv w'.
Proof.
  intros H. unfold link_step in H. destruct (frugal_flags _ _ _ _ _) as [changed f1] eqn:F.
  destruct (flags_phase w changed f1 F) as (Ff & Fc & Fr & Fs & Fw).
  assert (Do : ~ lfresh (files w) r -> do_link E r (set_files w f1) = (rv, w') -> lstepped w rv w').
  { intros NF D. destruct (do_link_cases _ _ _ D) as (ok & text & wb & wc & TP & C1 & C2 & C3 & C4 & C5 & _ & C6).
    destruct TP as [T1 T2 T3 T4 T4' T5 T6 T7]. cbn in *. rewrite (ld_same _ _ Ff) in *.
    assert (Kb : forall p, belongs (lk_out r) p -> keep p) by apply belongs_keep.
    assert (W' : tick w < tick w' /\ ran w' = ran w ++ [CmdLink (lk_kind r) (lk_out r)] /\
                 shown w' = shown w ++ [(lk_out r, cstr text)] /\
                 (forall p, keep p -> files w' p = files wc p) /\ tick wc <= tick w').
    { destruct ok.
      - destruct C6 as (D1 & D2 & D3 & D4 & _). repeat split; auto; try lia; try congruence.
      - destruct C6 as [_ ->]. repeat split; auto; try lia; try congruence. }
    destruct W' as (W1 & W2 & W3 & W4 & W5).
    assert (LL : usable E (files w) (log_path (lk_out r)) ->
      log_already_done (files w') (lk_out r) = cstr (text_of (ld_on r (files w))) /\ usable E (files w') (log_path (lk_out r))).
    { intros U. rewrite <- T3. assert (Sw : files w' (log_path (lk_out r)) = files wc (log_path (lk_out r))).
      { apply W4, Kb. right. exists SLog. reflexivity. }
      unfold log_already_done, read_file, usable. rewrite Sw. apply C5.
      eapply usable_same; [|exact U]. rewrite T2, Ff; auto using log_not_flags.
      intros Eq. symmetry in Eq. revert Eq. apply (out_not_side SLog). }
    assert (L1 : links (lk_out r) (ran w') = S (links (lk_out r) (ran w))).
    { rewrite W2, links_app. cbn. rewrite bytes_eqb_refl. lia. }
    constructor.
    - destruct ok; [destruct C6 as (_ & _ & _ & _ & [C6|[C6 _]]); auto|destruct C6; auto].
    - lia.
    - intros p Hk Hb. rewrite W4 by auto. rewrite C4 by (intros ->; apply Hb; right; exists SLog; reflexivity).
      rewrite T2 by (intros ->; apply Hb; left; auto). apply Ff. intros ->. apply Hb. right. exists SFlags. reflexivity.
    - intros X. contradiction.
    - intros _ ->. destruct ok; [|destruct C6; discriminate]. destruct (T5 eq_refl) as (c & R1 & R2). constructor.
      + exists text, c, (S (tick w)). split; auto. split; [|lia]. rewrite W4 by (apply Kb; left; auto).
        rewrite C4; auto. apply (out_not_side SLog).
      + auto.
      + intros U. apply LL; auto.
      + rewrite W3, texts_app, texts_own, <- T3. auto.
    - intros o. rewrite W2, compiles_app, links_app. cbn. split; [lia|]. intros Ho. replace (bytes_eqb (lk_out r) o) with false; [lia|].
      symmetry. apply bytes_eqb_neq. auto.
    - intros _ U. apply LL, U.
    - intros U. apply LL, U.
    - intros o Ho. rewrite W3, texts_app, texts_other, app_nil_r; auto.
    - lia.
    - intros X. destruct (Fw X) as (c & t & A & B). exists c, t. split; auto. rewrite <- A.
      change (it_out (as_item r)) with (lk_out r). rewrite W4 by (apply Kb; right; exists SFlags; reflexivity).
      rewrite C4, T2; auto; intros Eq.
      + symmetry in Eq. revert Eq. apply (out_not_side SFlags).
      + symmetry in Eq. revert Eq. apply log_not_flags.
    - intros Hrv. destruct ok.
      + destruct C6 as (_ & _ & _ & _ & [C6|[_ C6]]); [contradiction|auto].
      + destruct (T6 eq_refl) as [A|A]; auto. left. intros U. apply A. eapply usable_same; [|exact U].
        symmetry. apply Ff. apply (out_not_side SFlags). }
  destruct changed.
  - apply Do; auto. intros [A _]. apply Fr in A. discriminate.
  - assert (f1 = files w) by auto. subst f1. destruct (frugal_mtime (files w) (lk_srcs r) (lk_out r)) as [[|]|] eqn:M.
    + apply Do; auto. intros [_ U]. apply mtime_no_work in U. congruence.
    + clear Do. cbn in H. destruct (installer E _ _ _) as [ok f2] eqn:I. injection H as <- <-.
      assert (F2 : forall p, keep p -> f2 p = files w p).
      { intros p Hk. change f2 with (snd (ok, f2)). rewrite <- I. now apply (ge_inst _ _ _ GE). }
      assert (Fresh : lfresh (files w) r) by (split; [now apply Fr|now apply mtime_no_work]).
      constructor; cbn - [texts]; auto.
      * destruct ok; auto.
      * intros _. constructor; cbn - [texts]; auto.
        -- intros p Hp. apply F2. now apply belongs_keep.
        -- now rewrite texts_app, texts_own.
      * intros X. contradiction.
      * intros U. contradiction.
      * intros U. eapply usable_same; [|exact U]. symmetry. apply F2, belongs_keep. right. exists SLog. reflexivity.
      * intros o Ho. rewrite texts_app, texts_other, app_nil_r; auto.
      * intros X. destruct (Fw X) as (c & t & A & B). exists c, t. split; auto. rewrite <- A.
        apply F2. apply belongs_keep. right. exists SFlags. reflexivity.
      * intros Hrv. right. right. destruct ok; [contradiction|]. eexists _, _. rewrite I. reflexivity.
    + apply Do; auto. intros [_ U]. apply mtime_no_work in U. congruence.
Qed.

Theorem link_moment w w' : link_during E r w w' -> lmoment w w' r.
Proof.
  intros H. unfold link_during in H. destruct (frugal_flags _ _ _ _ _) as [changed f1] eqn:F.
  destruct (flags_phase w changed f1 F) as (Ff & Fc & Fr & Fs & Fw).
  assert (M0 : lmoment w w r).
  { constructor; auto. left. auto. }
  assert (M1 : forall wa, tick w <= tick wa -> (forall p, keep p -> files wa p = f1 p) -> lmoment w wa r).
  { intros wa Ta Fa. constructor; auto.
    - intros p Hk Hb. rewrite Fa by auto. apply Ff. intros ->. apply Hb. right. exists SFlags. reflexivity.
    - assert (S : files wa (flags_path (lk_out r)) = f1 (flags_path (lk_out r))).
      { apply Fa. apply belongs_keep. right. exists SFlags. reflexivity. }
      destruct Fc as [A|[A B]]; [left; exact (eq_trans S A)|right; split; auto]. eapply recorded_same; [|exact B]. symmetry. exact S.
    - intros [A _] p Hp. rewrite Fa by now apply belongs_keep. apply Fr in A. now rewrite (Fs A).
    - left. rewrite Fa by (apply belongs_keep; left; auto). apply Ff. apply (out_not_side SFlags). }
  assert (Do : ~ lfresh (files w) r -> (do_link_during E r (set_files w f1) w' \/ w' = snd (do_link E r (set_files w f1))) -> lmoment w w' r).
  { intros NF D. destruct (do_link E r (set_files w f1)) as [rv wz] eqn:DL.
    destruct (do_link_cases _ _ _ DL) as (ok & text & wb & wc & TP & C1 & C2 & C3 & C4 & C5 & C5' & C6).
    rewrite C5' in D. destruct TP as [T1 T2 T3 T4 T4' T5 T6 T7]. cbn in T1, T2, T3, T4, T5, T6, T7.
    rewrite (ld_same _ _ Ff) in *.
    assert (Kb : forall p, belongs (lk_out r) p -> keep p) by apply belongs_keep.
    assert (Fl : forall wd, (forall p, keep p -> p <> log_path (lk_out r) -> files wd p = files wb p) ->
       files wd (flags_path (lk_out r)) = f1 (flags_path (lk_out r))).
    { intros wd Fd. rewrite Fd.
      - apply T2. intros Eq. symmetry in Eq. revert Eq. apply (out_not_side SFlags).
      - apply Kb. right. exists SFlags. reflexivity.
      - intros Eq. symmetry in Eq. revert Eq. apply log_not_flags. }
    assert (Late : forall wd, tick wb <= tick wd -> (forall p, keep p -> p <> log_path (lk_out r) -> files wd p = files wb p) ->
                    (forall p, keep p -> ~ belongs (lk_out r) p -> files wd p = files wb p) -> lmoment w wd r).
    { intros wd Td Fd Fd'. constructor; try lia.
      - intros p Hk Hb. rewrite Fd' by auto. rewrite T2 by (intros ->; apply Hb; left; auto). apply Ff. intros ->. apply Hb. right. exists SFlags. reflexivity.
      - assert (S := Fl wd Fd).
        destruct Fc as [A|[A B]]; [left; exact (eq_trans S A)|right; split; auto]. eapply recorded_same; [|exact B]. symmetry. exact S.
      - intros X. contradiction.
      - assert (So : files wd (lk_out r) = files wb (lk_out r)).
        { apply Fd; [apply Kb; left; auto|apply (out_not_side SLog)]. }
        rewrite So. destruct ok.
        + destruct (T5 eq_refl) as (c & R1 & R2). right. right. right. exists text, c, (S (tick w)). rewrite So. repeat split; auto; try lia.
          intros X. eapply recorded_same; [symmetry; exact (Fl wd Fd)|exact (Fw X)].
        + destruct (T7 eq_refl) as [A|[A|(c & t & A & B)]]; auto.
          * left. rewrite A. apply Ff. apply (out_not_side SFlags).
          * right. right. left. exists text, c, t. auto. }
    assert (Log : ~ belongs (lk_out r) (log_path (lk_out r)) -> False) by (intros N; apply N; right; exists SLog; reflexivity).
    assert (Mc : lmoment w wc r).
    { apply Late; [lia|auto|]. intros p Hk Hb. apply C4. intros ->. auto. }
    assert (Mz : lmoment w wz r).
    { destruct ok.
      - destruct C6 as (D1 & D2 & D3 & D4 & _). apply Late; [lia| |].
        + intros p Hk Hp. rewrite D4 by auto. auto.
        + intros p Hk Hb. rewrite D4 by auto. apply C4. intros ->. auto.
      - destruct C6 as [_ ->]. auto. }
    cbn in D. destruct D as [[-> | [-> | [-> | ->]]] | ->]; auto.
    apply M1; cbn; auto.
    }
  destruct H as [->|[H|H]]; auto.
  - unfold link_step in H. rewrite F in H. destruct changed.
    + apply Do; auto. intros [A _]. apply Fr in A. discriminate.
    + destruct (frugal_mtime f1 (lk_srcs r) (lk_out r)) as [[|]|] eqn:M.
      * apply Do; auto. intros [_ U]. rewrite Fs in M by auto. apply mtime_no_work in U. congruence.
      * destruct (installer E _ _ _) as [ok f2] eqn:I. cbn in H. subst w'. apply M1; cbn; auto.
        intros p Hk. change f2 with (snd (ok, f2)). rewrite <- I. rewrite (ge_inst _ _ _ GE) by auto. reflexivity.
      * apply Do; auto. intros [_ U]. rewrite Fs in M by auto. apply mtime_no_work in U. congruence.
  - destruct changed.
    + apply Do; auto. intros [A _]. apply Fr in A. discriminate.
    + destruct (frugal_mtime f1 (lk_srcs r) (lk_out r)) as [[|]|] eqn:M.
      * apply Do; auto. intros [_ U]. rewrite Fs in M by auto. apply mtime_no_work in U. congruence.
      * subst w'. apply M1; cbn; auto.
      * apply Do; auto. intros [_ U]. rewrite Fs in M by auto. apply mtime_no_work in U. congruence.
Qed.

End One.
End Setting.
