(** * What is shown for a product is what its tool prints. *)

From Coq Require Import ZArith Ascii String Lia Bool List.
From Verif Require Import Base FileSys Frugal Deps Log Cookie CookieProofs Pool PoolInv SpecPool PoolProofs PoolOwn PoolSettled Build SpecFiles SpecBuild FrugalProofs BuildProofs CompileProofs StepProofs MomentProofs SpecHistory LinkProofs HistoryProofs RebuildProofs.
Import ListNotations.
Local Open Scope nat_scope.

Section Setting.
Variable E : env.
Variables area inst_area : bytes -> Prop.
Hypothesis GE : good_env E area inst_area.
Hypothesis HT : honest_tools E area inst_area.
Hypothesis MONO : monotone (clock E).
Variable objs : item -> Prop.
Variable reqs : link_req -> Prop.
Hypothesis PR : project E area inst_area objs reqs.
Notation source := (source area inst_area).
Notation in_area := (in_area area).
Notation good_script := (good_script area inst_area objs reqs).
Notation keep := (fun p => ~ inst_area p).
Notation Inv := (Inv E area inst_area objs reqs).
Notation Run := (Run E reqs).
Notation started := (started E area inst_area objs reqs).
Let GL := GL E area inst_area HT.
Let req_good := req_good E area inst_area GE objs reqs PR.

(** What would be replayed for a product that needs no work. *)
Definition said (f : fs) (it : item) : Prop :=
  fresh f it -> log_already_done f (it_out it) = cstr (text_of (cc_on E it f)).
Definition lsaid (f : fs) (r : link_req) : Prop :=
  lfresh f r -> log_already_done f (lk_out r) = cstr (text_of (ld_on E r f)).

Record LogInv (w : world) : Prop := {
  g_obj : forall it, objs it -> said (files w) it;
  g_link : forall r, reqs r -> lsaid (files w) r;
  g_plain : forall it, objs it -> plain_file (files w) (log_path (it_out it));
  g_lplain : forall r, reqs r -> plain_file (files w) (log_path (lk_out r));
}.

Lemma log_of f f' o : f' (log_path o) = f (log_path o) -> log_already_done f' o = log_already_done f o.
Proof. unfold log_already_done, read_file. intros ->. reflexivity. Qed.

Lemma side_belongs k o : belongs o (side_file k o).
Proof. right. eauto. Qed.

Lemma log_usable w it : LogInv w -> objs it -> usable E (files w) (log_path (it_out it)).
Proof.
  intros G O. split; [|now apply (g_plain _ G)]. apply (pr_write _ _ _ _ _ PR).
  destruct (pr_area _ _ _ _ _ PR it O) as (_ & _ & B). apply (B SLog).
Qed.
Lemma llog_usable w r : LogInv w -> reqs r -> usable E (files w) (log_path (lk_out r)).
Proof.
  intros G O. split; [|now apply (g_lplain _ G)]. apply (pr_write _ _ _ _ _ PR).
  destruct (pr_larea _ _ _ _ _ PR r O) as (_ & _ & B). apply (B SLog).
Qed.

(** Nothing that matters changed. *)
Lemma said_same f f' it : objs it -> deps_are_sources area inst_area f' (it_out it) ->
  (forall p, belongs (it_out it) p -> f' p = f p) -> (forall p, source p -> f' p = f p) -> said f it -> said f' it.
Proof.
  intros O D B S Sd F. rewrite (log_of f f') by (apply B, (side_belongs SLog)).
  assert (Cc : cc_on E it f' = cc_on E it f) by (apply (ge_obj _ _ _ GE); auto). rewrite Cc. apply Sd.
  eapply fresh_ext; [|exact F]. intros p [->|[->|[->|[->|(c & Hc & Hd)]]]].
  - apply B, (side_belongs SFlags).
  - apply B, (side_belongs SDeps).
  - apply B. left; auto.
  - apply S. now apply (pr_src _ _ _ _ _ PR).
  - apply S. eapply D; eauto.
Qed.

Lemma lsaid_same f f' r : (forall p, belongs (lk_out r) p -> f' p = f p) -> (forall p, In p (lk_srcs r) -> f' p = f p) ->
  lsaid f r -> lsaid f' r.
Proof.
  intros B S Sd F. rewrite (log_of f f') by (apply B, (side_belongs SLog)).
  assert (Cc : ld_on E r f' = ld_on E r f).
  { apply (ht_ld _ _ _ HT). intros p Hp. rewrite S by auto. apply same_content_refl. }
  rewrite Cc. apply Sd. destruct F as [F1 F2]. split.
  - eapply recorded_same; [|exact F1]. apply B, (side_belongs SFlags).
  - eapply up_to_date_ext; [| |exact F2]; [apply B; left; auto|auto].
Qed.

(** An up-to-date object's recorded dependencies are what the preprocessor lists now. *)
Lemma fresh_listed w it : Inv w -> objs it -> fresh (files w) it ->
  exists o c, read_file (files w) (deps_path (it_out it)) = Some c /\ c = deps_content (parse_deps o) /\ deps_on E it (files w) = Some o.
Proof.
  intros I Ho (R & c & D & (t & Ht & U)).
  destruct (i_plain _ _ _ _ _ _ I it Ho) as (P & _).
  destruct P as [P|(obj & t' & P)]; [unfold modified_at, stat in Ht; rewrite P in Ht; discriminate|].
  assert (t' = t) by (unfold modified_at, stat in Ht; rewrite P in Ht; congruence). subst t'.
  destruct (i_obj _ _ _ _ _ _ I it Ho obj t R P) as (_ & A3).
  destruct (A3 c D) as (f1 & o & B1 & B2 & B3).
  pose proof (pr_src _ _ _ _ _ PR it Ho) as Ss.
  exists o, c. split; auto. split; auto.
  destruct (ht_listed _ _ _ HT it f1 (files w) o B1) as [D1 _]; auto.
  intros p Hp. apply same_content_sym. assert (Sp : source p).
  { destruct Hp as [->|Hp]; auto. apply (i_dep _ _ _ _ _ _ I it Ho c p D). rewrite B2. exact Hp. }
  destruct (B3 p Sp) as [X|X]; auto. exfalso. revert X. apply not_newer. apply U. destruct Hp as [->|Hp]; [cbn; auto|]. right. rewrite B2. exact Hp.
Qed.

(** *** Beginning and edits *)

Lemma log_start w : (forall p, area p -> files w p = Absent) -> LogInv w.
Proof.
  intros H.
  assert (HA : forall it, objs it -> files w (it_out it) = Absent /\ files w (log_path (it_out it)) = Absent).
  { intros it O. destruct (pr_area _ _ _ _ _ PR it O) as (_ & A & B). split; auto. apply H, (B SLog). }
  assert (HL : forall r, reqs r -> files w (lk_out r) = Absent /\ files w (log_path (lk_out r)) = Absent).
  { intros r O. destruct (pr_larea _ _ _ _ _ PR r O) as (_ & A & B). split; auto. apply H, (B SLog). }
  constructor.
  - intros it O (_ & c & _ & t & Ht & _). unfold modified_at, stat in Ht. rewrite (proj1 (HA it O)) in Ht. discriminate.
  - intros r O (_ & t & Ht & _). unfold modified_at, stat in Ht. rewrite (proj1 (HL r O)) in Ht. discriminate.
  - intros it O. left. apply HA, O.
  - intros r O. left. apply HL, O.
Qed.

Lemma log_edit w w' : Inv w -> LogInv w -> tick w <= tick w' ->
  (forall p, area p -> files w' p = files w p) ->
  (forall p, source p -> files w' p = files w p \/ newer (files w') p (clock E (tick w))) ->
  LogInv w'.
Proof.
  intros I G Tk Ar Ed. constructor.
  - intros it O F. destruct (pr_area _ _ _ _ _ PR it O) as (Ai & A & B).
    assert (Bl : forall p, belongs (it_out it) p -> files w' p = files w p) by (intros p [->|[k ->]]; auto).
    pose proof F as (Rc & c & D & (t & Ht & U)).
    destruct (i_plain _ _ _ _ _ _ I it O) as (P & _).
    unfold modified_at, stat in Ht. rewrite (Bl (it_out it)) in Ht by (left; auto).
    destruct P as [P|(obj & t' & P)]; rewrite P in Ht; [discriminate|]. injection Ht as ->.
    pose proof (i_time _ _ _ _ _ _ I it obj t O P) as Tm.
    assert (D0 : read_file (files w) (deps_path (it_out it)) = Some c).
    { unfold read_file in *. rewrite <- (Bl (deps_path (it_out it))) by apply (side_belongs SDeps). auto. }
    assert (Sm : forall p, p = it_src it \/ In p (read_deps c) -> files w' p = files w p).
    { intros p Hp. assert (Sp : source p).
      { destruct Hp as [->|Hp]; [now apply (pr_src _ _ _ _ _ PR)|]. eapply (i_dep _ _ _ _ _ _ I it O); eauto. }
      destruct (Ed p Sp) as [Eq|N]; auto. exfalso. destruct (U p) as (td & U1 & U2); [destruct Hp as [->|Hp]; cbn; auto|].
      specialize (N td U1). lia. }
    assert (F0 : fresh (files w) it).
    { eapply fresh_ext; [|exact F]. intros p [->|[->|[->|[->|(c' & Hc & Hd)]]]].
      - apply Bl, (side_belongs SFlags).
      - apply Bl, (side_belongs SDeps).
      - apply Bl. left; auto.
      - apply Sm. auto.
      - apply Sm. right. congruence. }
    destruct (fresh_listed w it I O F0) as (o & c' & D1 & D2 & D3). assert (D4 : c = deps_content (parse_deps o)) by congruence.
    destruct (ht_listed _ _ _ HT it (files w) (files w') o D3) as [_ Cc].
    { intros p Hp. rewrite Sm; [apply same_content_refl|]. destruct Hp as [->|Hp]; auto. right. rewrite D4. exact Hp. }
    rewrite Cc, (log_of (files w)) by (apply Bl, (side_belongs SLog)). now apply (g_obj _ G).
  - intros r O F. destruct (pr_larea _ _ _ _ _ PR r O) as (Ai & A & B).
    assert (Bl : forall p, belongs (lk_out r) p -> files w' p = files w p) by (intros p [->|[k ->]]; auto).
    pose proof F as (Rc & (t & Ht & U)).
    destruct (i_lplain _ _ _ _ _ _ I r O) as (P & _).
    unfold modified_at, stat in Ht. rewrite (Bl (lk_out r)) in Ht by (left; auto).
    destruct P as [P|(obj & t' & P)]; rewrite P in Ht; [discriminate|]. injection Ht as ->.
    pose proof (i_ltime _ _ _ _ _ _ I r obj t O P) as Tm.
    eapply lsaid_same; [exact Bl| |now apply (g_link _ G)|exact F].
    intros p Hp. destruct (pr_inputs _ _ _ _ _ PR r p O Hp) as [_ [S|[(it & O' & ->)|(r' & O' & ->)]]].
    + destruct (Ed p S) as [Eq|N]; auto. exfalso. destruct (U p Hp) as (td & U1 & U2). specialize (N td U1). lia.
    + apply Ar, (pr_area _ _ _ _ _ PR it O').
    + apply Ar, (pr_larea _ _ _ _ _ PR r' O').
  - intros it O. unfold plain_file. rewrite Ar; [now apply (g_plain _ G)|]. destruct (pr_area _ _ _ _ _ PR it O) as (_ & _ & B). apply (B SLog).
  - intros r O. unfold plain_file. rewrite Ar; [now apply (g_lplain _ G)|]. destruct (pr_larea _ _ _ _ _ PR r O) as (_ & _ & B). apply (B SLog).
Qed.

(** *** A compile step, successful or not *)

Lemma act_log_plain jobs j l a s p : nth_error (job_prog E jobs j) l = Some a -> ~ inst_area p ->
  (forall it, In it jobs -> p <> it_out it /\ p <> deps_path (it_out it)) ->
  plain_file (files (jw s)) p -> plain_file (files (jw (a s))) p.
Proof.
  intros Ha Kp No Pl. destruct (prog_acts E jobs j l a Ha) as (it & Hj & C).
  destruct (act_shape E keep (ge_inst _ _ _ GE) jobs j l a it s Ha Hj) as (_ & _ & _ & _ & Af).
  assert (Hin : In it jobs) by (eapply nth_error_In; eauto). destruct (No it Hin) as [N1 N2].
  assert (Same : ~ touched l it p -> plain_file (files (jw (a s))) p) by (intros T; unfold plain_file; rewrite Af; auto).
  destruct C as [[-> _]|[[-> _]|[[-> _]|[[-> ->]|[-> _]]]]]; try (apply Same; cbn; auto; fail).
  destruct (bytes_dec p (log_path (it_out it))) as [->|N3]; [|apply Same; auto].
  unfold act_log. destruct (cmd_log _ _ _ _ _) as [text f] eqn:L. cbn. revert L. unfold cmd_log.
  destruct (cstr _) as [|x y].
  - intros L. injection L as _ <-. unfold remove_file. destruct (can_write E _); auto.
    destruct Pl as [Pl|(c & t & Pl)]; rewrite Pl; [left; auto|]. left. apply fs_set_same.
  - destruct (write_file _ _ _ _ _) as [f'|] eqn:W; intros L; injection L as _ <-; auto.
    right. do 2 eexists. eapply write_file_same; eauto.
Qed.

Lemma validate_all_log its w ok jobs w1 : (forall it, In it its -> objs it) -> validate_all E its w = (ok, jobs, w1) ->
  forall it, In it its -> files w1 (log_path (it_out it)) = files w (log_path (it_out it)).
Proof.
  intros O V it Hin. destruct (validate_all_shape E keep (ge_inst _ _ _ GE) its w ok jobs w1 V) as [_ _ _ Vf].
  destruct (pr_area _ _ _ _ _ PR it (O it Hin)) as (_ & _ & B). apply Vf; [apply (ge_apart _ _ _ GE), (B SLog)|].
  intros (it' & _ & Eq). revert Eq. apply (side_neq SLog SFlags). left; discriminate.
Qed.

(** What a finished compile step left of each item: nothing but its record of flags touched, or a complete run. *)
Definition ran_through (w w' : world) (it : item) : Prop :=
  recorded (files w') it /\ log_already_done (files w') (it_out it) = cstr (text_of (cc_on E it (files w))).
Definition not_begun (w w' : world) (it : item) : Prop :=
  forall p, belongs (it_out it) p -> p <> flags_path (it_out it) -> files w' p = files w p.

Lemma compile_outcome its w rv w' : Inv w -> LogInv w -> (forall it, In it its -> objs it) -> NoDup (map it_out its) ->
  compile_step E its w rv w' ->
  (forall it, In it its -> plain_file (files w') (log_path (it_out it))) /\
  forall it, In it its ->
    (forall p, belongs (it_out it) p -> files w' p = files w p) \/ ran_through w w' it \/ (rv <> 0%Z /\ not_begun w w' it).
Proof.
  intros I G O ND H. assert (GI : good_items area inst_area its (files w)) by (eapply items_good; eauto).
  destruct H as (ok & jobs & w1 & s & V & P & Fi & W & R).
  pose proof (validate_all_log its w ok jobs w1 O V) as VL.
  destruct (validate_all_result E keep (ge_inst _ _ _ GE) its w ok jobs w1 V) as (A1 & A2 & _).
  { apply GI. } { intros it Hin. apply (gi_area _ _ _ _ GI it Hin). }
  { intros it Hin. destruct (in_area_ok E area inst_area GE it (gi_area _ _ _ _ GI it Hin)) as (_ & _ & _ & K1 & K2). auto. }
  { eapply good_independent; eauto. }
  destruct (validate_all_shape E keep (ge_inst _ _ _ GE) its w ok jobs w1 V) as [Vt Vr _ Vf].
  assert (Kb : forall it p, In it its -> belongs (it_out it) p -> ~ inst_area p).
  { intros it p Hin B. apply (ge_apart _ _ _ GE). eapply belongs_area; eauto. apply (pr_area _ _ _ _ _ PR); auto. }
  assert (Early : forall it, In it its -> not_begun w w1 it).
  { intros it Hin p B Np. apply Vf; [eapply Kb; eauto|]. intros (it' & Hin' & ->).
    destruct B as [B|[k B]].
    - destruct (pr_area _ _ _ _ _ PR it (O it Hin)) as (Pn & _). exact (Pn SFlags _ B).
    - change (flags_path (it_out it')) with (side_file SFlags (it_out it')) in B. apply side_file_inj in B. destruct B as [<- B]. apply Np. now rewrite B. }
  destruct ok.
  2:{ apply (pool_abort E) in P. rewrite P in W. cbn in W. subst w'. split.
      - intros it Hin. unfold plain_file. rewrite VL by auto. apply (g_plain _ G). auto.
      - intros it Hin. right. right. split; [subst rv; discriminate|auto]. }
  destruct (A2 eq_refl) as (Sub & Cases & _ & _ & Rec & FlagFresh). clear A2.
  assert (Oj : forall it, In it jobs -> In it its) by (intros it Hin; eapply sub_in; eauto).
  assert (Aj : forall it, In it jobs -> in_area (it_out it)) by (intros it Hin; apply (gi_area _ _ _ _ GI); auto).
  assert (Nj : NoDup (map it_out jobs)) by (eapply sub_nodup; eauto).
  pose proof (pool_quiet E area inst_area GE jobs w1 true s P) as [_ Qf _ _ _].
  assert (PL : forall it, In it its -> plain_file (files (jw (sig jst s))) (log_path (it_out it))).
  { intros it Hin. destruct (pr_area _ _ _ _ _ PR it (O it Hin)) as (Pn & _ & B).
    unfold pool_state, compile_client in P.
    apply (own_reach jst (job_prog E jobs) job_stops (ncpus E) (length jobs) (rest_ops true) (JSt w1 (fun _ => local0))
          (rest_no_add true) (fun _ _ _ => True)) with (G := fun x => plain_file (files (jw x)) (log_path (it_out it))) in P; auto.
    - apply P.
    - intros; now apply (job_stops_other E area inst_area GE jobs i j l).
    - cbn. unfold plain_file. rewrite VL by auto. apply (g_plain _ G). auto.
    - intros i k a x Hi Ha _ Pl. eapply act_log_plain; eauto.
      + apply (ge_apart _ _ _ GE), (B SLog).
      + intros it' Hin'. destruct (Aj it' Hin') as (Pn' & _). split; [apply (Pn' SLog)|].
        apply (side_neq SLog SDeps). left; discriminate. }
  assert (FlagSame : forall it, In it its -> files w' (flags_path (it_out it)) = files w1 (flags_path (it_out it))).
  { intros it Hin. destruct (gi_area _ _ _ _ GI it Hin) as (Pn & _ & Ak). rewrite <- W. apply Qf.
    - apply (ge_apart _ _ _ GE), (Ak SFlags).
    - intros it' Hin' [Q|[Q|Q]].
      + destruct (Aj it' Hin') as (Pn' & _). revert Q. apply (Pn' SFlags).
      + revert Q. apply (side_neq SFlags SDeps). left; discriminate.
      + revert Q. apply (side_neq SFlags SLog). left; discriminate. }
  assert (SrcEq : forall p, source p -> files w1 p = files w p).
  { intros p Sp. apply Vf; [apply Sp|]. intros (it & Hin & ->).
    eapply source_not_belongs; [apply (gi_area _ _ _ _ GI it Hin)|exact Sp|]. apply (side_belongs SFlags). }
  split; [intros it Hin; rewrite <- W; auto|].
  intros it Hin. destruct (Cases it Hin) as [_ [Hj|Hf]].
  - apply In_nth_error in Hj. destruct Hj as [i Hi]. right.
    assert (Li : i < length jobs) by (apply nth_error_Some; congruence).
    destruct (settled jst (job_prog E jobs) job_stops (ncpus E) (length jobs) (rest_ops true) (JSt w1 (fun _ => local0))
       (rest_no_add true) (J E keep jobs w1)) with (s := s) (rv := rv) (i := i) as [K|K]; auto.
    { intros; eapply J_init; eauto. }
    { intros i0 k a x Hi0 Ha HJ. eapply J_own with (src := source); eauto using ge_inst, ge_deps, ge_obj.
      + eapply jobs_item_ok; eauto.
      + intros p [_ X]; auto.
      + intros p it' Sp Hin' Ow. eapply source_not_belongs; eauto. now apply owned_belongs. }
    { intros. eapply J_other with (j := j) (l := l); eauto using ge_inst. eapply jobs_item_ok; eauto. }
    { intros; now apply (job_stops_other E area inst_area GE jobs i0 j l). }
    + right. destruct K as (it' & Hi' & K). assert (it' = it) by congruence. subst it'. split.
      * intros ->. destruct (pool_success E area inst_area GE jobs w1 Aj Nj s P R i it Hi) as [K5 _].
        pose proof (J_count _ _ _ _ _ _ _ _ K) as C0. pose proof (J_count _ _ _ _ _ _ _ _ K5) as C5. cbn in C0, C5. lia.
      * intros p B Np. rewrite <- (Early it Hin p B Np). rewrite <- W. destruct B as [->|[k ->]].
        -- apply (J_out0 _ _ _ _ _ _ _ _ K). lia.
        -- destruct k.
           ++ exfalso. apply Np. reflexivity.
           ++ apply (J_deps0 _ _ _ _ _ _ _ _ K). lia.
           ++ apply (J_log0 _ _ _ _ _ _ _ _ K). lia.
    + rewrite (prog_length E jobs i Li) in K. destruct K as (it' & Hi' & K). assert (it' = it) by congruence. subst it'.
      left. split.
      * assert (Ff : flags_fine E (files w) it).
        { destruct (i_plain _ _ _ _ _ _ I it (O it Hin)) as (_ & _ & P3). split; auto.
          apply (pr_write _ _ _ _ _ PR). destruct (pr_area _ _ _ _ _ PR it (O it Hin)) as (_ & _ & A). apply (A SFlags). }
        eapply recorded_same; [symmetry; apply FlagSame; auto|]. apply Rec; auto.
      * assert (Co : cc_on E it (files w1) = cc_on E it (files w)) by (apply (ge_obj _ _ _ GE); auto).
        rewrite <- Co, <- W. apply (J_log1 _ _ _ _ _ _ _ _ K); [lia|].
        eapply usable_same; [|apply (log_usable w it G (O it Hin))]. symmetry. apply VL. auto.
  - left. assert (Nj' : ~ In it jobs) by (intros Hj; destruct (A1 it Hj) as (_ & Z & _); auto).
    intros p Hb. destruct (bytes_dec p (flags_path (it_out it))) as [->|Np].
    + rewrite FlagSame by auto. auto.
    + rewrite <- (Early it Hin p Hb Np), <- W. apply Qf; [eapply Kb; eauto|].
      intros it' Hin' Ow. apply owned_belongs in Ow. revert Hb Ow. apply belongs_distinct with (area := area).
      * apply (gi_area _ _ _ _ GI it Hin).
      * auto.
      * intros Eq. apply Nj'. assert (it = it'); [|subst; auto]. apply (same_out its); auto.
Qed.

Lemma compile_log its w rv w' T0 todo : Inv w -> Inv w' -> LogInv w -> (forall it, In it its -> objs it) -> NoDup (map it_out its) ->
  compile_step E its w rv w' ->
  rv = 0%Z \/ (forall it c t, In it its -> files w (it_out it) = File c t -> recorded (files w) it) ->
  Run T0 (SCompile its :: todo) w -> LogInv w'.
Proof.
  intros I I' G O ND H SF [RT RR]. assert (GI : good_items area inst_area its (files w)) by (eapply items_good; eauto).
  destruct (compile_outcome its w rv w' I G O ND H) as [PL Oc].
  assert (M : moments E inst_area its w w').
  { apply (compile_moments E area inst_area GE); auto. destruct H as (ok & jobs & w1 & s & V & PS & Fi & W & _). right. exists ok, jobs, w1, s. auto. }
  pose proof (c_source E area inst_area objs reqs PR its w w' O M) as Src.
  pose proof (c_other E area inst_area GE objs reqs PR its w w' O M) as Oth.
  pose proof (c_link E area inst_area GE objs reqs PR its w w' O M) as Lnk.
  assert (Dec : forall it', In (it_out it') (map it_out its) -> exists it, In it its /\ it_out it = it_out it').
  { intros it' X. apply in_map_iff in X. destruct X as (it & A & B). eauto. }
  constructor.
  - intros it' O'. destruct (in_dec bytes_dec (it_out it') (map it_out its)) as [Hin|Nin].
    2:{ apply (said_same (files w)); auto; [apply (i_dep _ _ _ _ _ _ I' it' O')| |now apply (g_obj _ G)].
        intros p Hb. apply (Oth (it_out it')); auto. now apply (pr_area _ _ _ _ _ PR). }
    destruct (Dec it' Hin) as (it & Hit & Eo).
    assert (Same : (forall p, belongs (it_out it') p -> files w' p = files w p) -> said (files w') it').
    { intros Sm. apply (said_same (files w)); auto; [apply (i_dep _ _ _ _ _ _ I' it' O')|now apply (g_obj _ G)]. }
    destruct (Oc it Hit) as [Sm|[[Rc Lg]|[Nz Nb]]].
    + apply Same. rewrite <- Eo. exact Sm.
    + intros F. destruct F as (Rc' & _).
      assert (Ef : it_flags it' = it_flags it).
      { destruct Rc as (c1 & t1 & B1 & B2). destruct Rc' as (c2 & t2 & C1 & C2). rewrite <- Eo in C1. assert (c1 = c2) by congruence. subst c2.
        apply flag_str_inj; [apply (pr_plain _ _ _ _ _ PR); auto|apply (pr_plain _ _ _ _ _ PR); auto|congruence]. }
      assert (Es : it_src it' = it_src it) by (symmetry; apply (pr_same _ _ _ _ _ PR); auto).
      rewrite <- Eo, Lg. f_equal. f_equal. unfold cc_on. rewrite Ef, Es. apply (ge_obj _ _ _ GE). intros p Sp. symmetry. auto.
    + (* only the record of flags may have changed *)
      destruct (i_plain _ _ _ _ _ _ I it (O it Hit)) as (P1 & _).
      assert (So : files w' (it_out it) = files w (it_out it)).
      { apply Nb; [left; auto|]. intros X. destruct (pr_area _ _ _ _ _ PR it (O it Hit)) as (Pn & _). apply (Pn SFlags (it_out it)). symmetry. exact X. }
      destruct P1 as [P1|(c & t & P1)].
      * intros (_ & c & _ & t & Ht & _). unfold modified_at, stat in Ht. rewrite <- Eo, So, P1 in Ht. discriminate.
      * destruct SF as [SF|SF]; [contradiction|]. specialize (SF it c t Hit P1).
        apply Same. rewrite <- Eo. intros p Hb. destruct (bytes_dec p (flags_path (it_out it))) as [->|Np]; [|auto].
        destruct (m_flags _ _ _ _ (ms_items _ _ _ _ _ M it Hit)) as [X|[X _]]; [exact X|contradiction].
  - intros r Hr F. pose proof F as (_ & (t & Ht & U)).
    unfold modified_at, stat in Ht. rewrite (Lnk r) in Ht by (auto; left; auto).
    destruct (i_lplain _ _ _ _ _ _ I r Hr) as (P & _).
    destruct P as [P|(obj & t' & P)]; rewrite P in Ht; [discriminate|]. injection Ht as ->.
    eapply lsaid_same; [| |now apply (g_link _ G)|exact F].
    + intros p Hb. apply (Lnk r); auto.
    + intros p Hp. destruct (pr_inputs _ _ _ _ _ PR r p Hr Hp) as [_ [S|[(it & O' & ->)|(r' & O' & ->)]]].
      * auto.
      * destruct (in_dec bytes_dec (it_out it) (map it_out its)) as [Hin|Nin].
        -- destruct (Dec it Hin) as (it2 & Hit & Eo). rewrite <- Eo in *.
           destruct (RR r obj t Hr P) as [Lt|N].
           ++ destruct (c_out_newer E area inst_area HT MONO its w w' M it2 t Hit) as [X|X]; [lia|auto|].
              exfalso. destruct (U _ Hp) as (td & U1 & U2). specialize (X td U1). lia.
           ++ exfalso. apply (N _ Hp). unfold outs. cbn. apply in_or_app. left. now apply in_map.
        -- apply (Oth (it_out it)); auto; [now apply (pr_area _ _ _ _ _ PR)|left; auto].
      * apply (Lnk r'); auto. left; auto.
  - intros it' O'. destruct (in_dec bytes_dec (it_out it') (map it_out its)) as [Hin|Nin].
    + destruct (Dec it' Hin) as (it & Hit & Eo). rewrite <- Eo. auto.
    + unfold plain_file. rewrite (Oth (it_out it')); auto; [now apply (g_plain _ G)|now apply (pr_area _ _ _ _ _ PR)|apply (side_belongs SLog)].
  - intros r Hr. unfold plain_file. rewrite (Lnk r); auto; [now apply (g_lplain _ G)|apply (side_belongs SLog)].
Qed.

(** *** A link, successful or not *)

Lemma link_log r w rv w' T0 todo : Inv w -> Inv w' -> LogInv w -> reqs r -> link_step E r w = (rv, w') ->
  Run T0 (SLink r :: todo) w -> LogInv w'.
Proof.
  intros I I' G HR H [RT RR].
  pose proof (link_stepped E area inst_area GE GL r (req_good r HR) w rv w' H) as LS.
  assert (M : lmoment E inst_area w w' r).
  { apply (link_moment E area inst_area GE GL); [now apply req_good|]. unfold link_during. destruct (frugal_flags _ _ _ _ _) as [ch f1]. right. left. now rewrite H. }
  pose proof (l_source E area inst_area objs reqs PR r w w' HR M) as Src.
  pose proof (l_other E area inst_area GE objs reqs PR r w w' HR M) as Oth.
  pose proof (l_obj E area inst_area GE objs reqs PR r w w' HR M) as Ob.
  assert (Un : forall r', reqs r' -> lk_out r' <> lk_out r -> forall p, belongs (lk_out r') p -> files w' p = files w p).
  { intros r' Hr N p B. apply (Oth (lk_out r')); auto. now apply (pr_larea _ _ _ _ _ PR). }
  assert (Inp : forall p, In p (lk_srcs r) -> files w' p = files w p).
  { intros p Hp. destruct (pr_inputs _ _ _ _ _ PR r p HR Hp) as [Np [S|[(it & Ho & ->)|(r2 & Hr2 & ->)]]]; auto.
    - apply (Ob it); auto. left; auto.
    - apply (Un r2); auto. left; auto. }
  constructor.
  - intros it O. apply (said_same (files w)); auto; [apply (i_dep _ _ _ _ _ _ I' it O)| |now apply (g_obj _ G)].
    intros p Hb. apply (Ob it); auto.
  - intros r' Hr. destruct (bytes_dec (lk_out r') (lk_out r)) as [Eq|N].
    + destruct (pr_lsame _ _ _ _ _ PR r' r Hr HR Eq) as [Ek Es].
      destruct (lfresh_dec (files w) r) as [F0|F0].
      * apply (lsaid_same (files w)); [| |now apply (g_link _ G)].
        -- rewrite Eq. apply (la_same _ _ _ (ls_fresh _ _ _ _ _ _ LS F0)).
        -- rewrite Es. auto.
      * intros (Rc' & _).
        assert (Ff : flags_fine E (files w) (as_item r)).
        { destruct (i_lplain _ _ _ _ _ _ I r HR) as (_ & P2). split; auto. apply (pr_write _ _ _ _ _ PR).
          destruct (pr_larea _ _ _ _ _ PR r HR) as (_ & _ & A). apply (A SFlags). }
        pose proof (ls_flags _ _ _ _ _ _ LS Ff) as Rc.
        assert (Ef : lk_flags r' = lk_flags r).
        { destruct Rc as (c1 & t1 & B1 & B2). destruct Rc' as (c2 & t2 & C1 & C2). cbn in *. rewrite Eq in C1.
          assert (c1 = c2) by congruence. subst c2.
          apply flag_str_inj; [apply (pr_lplain _ _ _ _ _ PR); auto|apply (pr_lplain _ _ _ _ _ PR); auto|congruence]. }
        rewrite Eq, (ls_log _ _ _ _ _ _ LS F0) by now apply (llog_usable w).
        assert (Ld : ld_on E r' (files w') = ld_on E r (files w)).
        { transitivity (ld_on E r (files w')); [unfold ld_on; now rewrite Ef, Es, Ek, Eq|].
          apply (ht_ld _ _ _ HT). intros p Hp. rewrite Inp by auto. apply same_content_refl. }
        now rewrite Ld.
    + intros F. pose proof F as (_ & (t & Ht & U)).
      unfold modified_at, stat in Ht. rewrite (Un r' Hr N) in Ht by (left; auto).
      destruct (i_lplain _ _ _ _ _ _ I r' Hr) as (P & _).
      destruct P as [P|(obj & t' & P)]; rewrite P in Ht; [discriminate|]. injection Ht as ->.
      eapply lsaid_same; [apply (Un r' Hr N)| |now apply (g_link _ G)|exact F].
      intros p Hp. destruct (pr_inputs _ _ _ _ _ PR r' p Hr Hp) as [_ [S|[(it & Ho & ->)|(r2 & Hr2 & ->)]]]; auto.
      * apply (Ob it); auto. left; auto.
      * destruct (bytes_dec (lk_out r2) (lk_out r)) as [Eq2|N2]; [|apply (Un r2); auto; left; auto].
        rewrite Eq2 in *. destruct (RR r' obj t Hr P) as [Lt|Nin].
        -- destruct (l_out_newer E area inst_area HT MONO r w w' M t) as [X|X]; [lia|auto|].
           exfalso. destruct (U _ Hp) as (td & U1 & U2). specialize (X td U1). lia.
        -- exfalso. apply (Nin (lk_out r) Hp). unfold outs. cbn. auto.
  - intros it O. unfold plain_file. rewrite (Ob it); auto; [now apply (g_plain _ G)|apply (side_belongs SLog)].
  - intros r' Hr. destruct (bytes_dec (lk_out r') (lk_out r)) as [Eq|N].
    + rewrite Eq. apply (ls_logp _ _ _ _ _ _ LS). now apply (llog_usable w).
    + unfold plain_file. rewrite (Un r' Hr N); [now apply (g_lplain _ G)|apply (side_belongs SLog)].
Qed.

(** *** Whole builds *)

Lemma run_during bs : forall w rv w', run_steps E bs w rv w' -> during E bs w w'.
Proof.
  induction 1 as [w|b bs w rv w' H L|b bs w rv w1 rv2 w2 H L R IH].
  - constructor.
  - destruct b as [its|r]; cbn in H.
    + apply dur_compile. destruct H as (ok & jobs & w1 & s & V & PS & Fi & W & _). right. exists ok, jobs, w1, s. auto.
    + apply dur_link. unfold link_during. destruct (frugal_flags _ _ _ _ _) as [ch f1]. right. left. now rewrite H.
  - eapply dur_next; eauto.
Qed.

Definition step_same_flags (b : bstep) (f : fs) : Prop :=
  match b with SCompile its => forall it c t, In it its -> f (it_out it) = File c t -> recorded f it | SLink _ => True end.

Lemma step_log T0 sofar b bs w rv w' : started T0 sofar (b :: bs) w -> LogInv w -> Inv w' -> one_step E b w rv w' ->
  rv = 0%Z \/ step_same_flags b (files w) -> LogInv w'.
Proof.
  intros St G I' H SF. pose proof St as [S N P Or I R]. rewrite outs_cons in N. destruct (nodup_app_l _ _ _ N) as (N1 & _).
  destruct b as [its|r]; cbn [one_step] in H.
  - eapply compile_log; eauto. intros it Hin. apply (proj1 S its); cbn; auto.
  - eapply link_log; eauto. apply (proj2 S). cbn; auto.
Qed.

Lemma run_log bs : forall T0 sofar w rv w', started T0 sofar bs w -> LogInv w -> run_steps E bs w rv w' ->
  rv = 0%Z \/ same_flags bs (files w) -> LogInv w'.
Proof.
  induction bs as [|b bs IH]; intros T0 sofar w rv w' St G H SF; [inversion H; subst; auto|].
  inversion H as [|? ? ? rv0 ? H1 Lt|? ? ? rv0 w1 ? ? H1 Ge H2]; subst.
  - destruct SF as [SF|SF]; [discriminate|].
    assert (I' : Inv w').
    { apply (run_cut E area inst_area GE HT MONO objs reqs PR (b :: bs) T0 sofar w w' St SF). eapply run_during; eauto. }
    eapply step_log; eauto. right. destruct b as [its|r]; cbn; auto. intros it c t Hin. apply (proj1 SF its); cbn; auto.
  - destruct (step_success E area inst_area GE HT MONO objs reqs PR T0 sofar b bs w rv0 w1 St H1 Ge) as (-> & St' & [Tk Fr] & _).
    apply (IH T0 _ w1 rv w' St'); auto.
    + eapply step_log; eauto. apply St'.
    + destruct SF as [SF|SF]; auto. right.
      pose proof (st_nodup _ _ _ _ _ _ _ _ _ St) as N. rewrite outs_cons in N. destruct (nodup_app_l _ _ _ N) as (N1 & N2 & N3).
      pose proof (st_in _ _ _ _ _ _ _ _ _ St) as S.
      assert (Keep : forall o p, in_area o -> In o (outs bs) -> belongs o p -> files w1 p = files w p).
      { intros o p A Ho B. apply Fr.
        - apply (ge_apart _ _ _ GE). eapply belongs_area; eauto.
        - intros o' Ho'. apply (belongs_distinct area o); auto; [eapply step_out_area; eauto|]. intros ->. apply (N3 o'); auto. }
      apply same_flags_tail in SF. destruct SF as [SF1 SF2]. split.
      * intros its it c t Hin Hit F.
        assert (A : in_area (it_out it)) by (apply (pr_area _ _ _ _ _ PR), (proj1 S its); cbn; auto).
        pose proof (in_outs_compile its it bs Hin Hit) as Ho.
        rewrite (Keep (it_out it)) in F by (auto; left; auto).
        eapply recorded_same; [symmetry; apply (Keep (it_out it)); auto; apply (side_belongs SFlags)|]. eapply SF1; eauto.
      * intros r c t Hin F. assert (A : in_area (lk_out r)) by (apply (pr_larea _ _ _ _ _ PR), (proj2 S); cbn; auto).
        pose proof (in_outs_link r bs Hin) as Ho.
        rewrite (Keep (lk_out r)) in F by (auto; left; auto).
        eapply recorded_same; [symmetry; apply (Keep (lk_out r)); auto; apply (side_belongs SFlags)|]. eapply SF2; eauto.
Qed.

(** *** What is shown *)

Lemma step_shown T0 sofar b bs w rv w' : started T0 sofar (b :: bs) w -> LogInv w -> one_step E b w rv w' -> (0 <= rv)%Z ->
  (forall o x, prints E (files w') b o x -> texts o (shown w') = texts o (shown w) ++ [x] /\ log_already_done (files w') o = x) /\
  (forall o, ~ In o (step_outs b) -> texts o (shown w') = texts o (shown w)) /\
  (forall o p, In o (step_outs b) -> makes o (ran w') = makes o (ran w) -> belongs o p -> files w' p = files w p).
Proof.
  intros St G H Ge. pose proof St as [S N P Or I R]. rewrite outs_cons in N. destruct (nodup_app_l _ _ _ N) as (N1 & _).
  destruct (step_success E area inst_area GE HT MONO objs reqs PR _ _ _ _ _ _ _ St H Ge) as (-> & _).
  destruct (step_counts E area inst_area GE HT objs reqs PR _ _ _ _ _ _ St H) as [_ SC].
  destruct b as [its|r]; cbn [one_step] in H.
  - assert (O : forall it, In it its -> objs it) by (intros it Hin; apply (proj1 S its); cbn; auto).
    assert (GI : good_items area inst_area its (files w)) by (eapply items_good; eauto).
    pose proof (compile_success E area inst_area GE its w w' GI H) as SS.
    assert (M : moments E inst_area its w w').
    { apply (compile_moments E area inst_area GE); auto. destruct H as (ok & jobs & w1 & s & V & PS & F & W & _). right. exists ok, jobs, w1, s. auto. }
    split; [|split; [apply (s_shown _ _ _ _ _ SS)|]].
    + intros o x (it & Hin & -> & ->).
      assert (Cc : cc_on E it (files w') = cc_on E it (files w)).
      { apply (ge_obj _ _ _ GE). intros p Sp. eapply c_source; eauto. }
      rewrite Cc. destruct (s_cases _ _ _ _ _ SS it Hin) as [F|F].
      * destruct (s_fresh _ _ _ _ _ SS it Hin F) as [K1 _ K3].
        rewrite (log_of (files w)) by (apply K1, (side_belongs SLog)).
        pose proof (g_obj _ G it (O it Hin) F) as L. rewrite K3, L. auto.
      * split; [apply (c_shown _ _ _ _ (s_stale _ _ _ _ _ SS it Hin F))|].
        apply (c_log _ _ _ _ (s_stale _ _ _ _ _ SS it Hin F)). now apply log_usable; auto.
    + intros o p Ho Mk B. cbn in Ho. apply in_map_iff in Ho. destruct Ho as (it & <- & Hin).
      destruct (SC it Hin) as [[F _]|[_ [X _]]]; [|lia]. apply (k_same _ _ _ (s_fresh _ _ _ _ _ SS it Hin F)). auto.
  - assert (Hr : reqs r) by (apply (proj2 S); cbn; auto).
    pose proof (link_stepped E area inst_area GE GL r (req_good r Hr) w 0%Z w' H) as LS.
    assert (M : lmoment E inst_area w w' r).
    { apply (link_moment E area inst_area GE GL); [now apply req_good|]. unfold link_during. destruct (frugal_flags _ _ _ _ _) as [ch f1]. right. left. now rewrite H. }
    assert (Ld : ld_on E r (files w') = ld_on E r (files w)).
    { apply (ht_ld _ _ _ HT). intros p Hp. rewrite (lm_frame _ _ _ _ _ M) by (apply (gl_srcs _ _ _ (req_good r Hr) p Hp)). apply same_content_refl. }
    split; [|split].
    + intros o x (-> & ->). rewrite Ld. destruct (lfresh_dec (files w) r) as [F|F].
      * destruct (ls_fresh _ _ _ _ _ _ LS F) as [K1 _ K3]. rewrite (log_of (files w)) by (apply K1, (side_belongs SLog)).
        pose proof (g_link _ G r Hr F) as L. rewrite K3, L. auto.
      * split; [apply (l_shown _ _ _ _ (ls_stale _ _ _ _ _ _ LS F eq_refl))|].
        apply (ls_log _ _ _ _ _ _ LS F). now apply (llog_usable w).
    + intros o Ho. apply (ls_shown _ _ _ _ _ _ LS). intros ->. apply Ho. cbn. auto.
    + intros o p [<-|[]] Mk B. destruct SC as [[F _]|[_ [X _]]]; [|lia]. apply (la_same _ _ _ (ls_fresh _ _ _ _ _ _ LS F)). auto.
Qed.

Lemma prints_out f b o x : prints E f b o x -> In o (step_outs b).
Proof. destruct b; cbn; [intros (it & Hin & -> & _); now apply in_map|intros [-> _]; auto]. Qed.

Theorem run_shown bs : forall T0 sofar w w', started T0 sofar bs w -> LogInv w -> run_steps E bs w 0 w' ->
  (forall b o x, In b bs -> prints E (files w') b o x -> texts o (shown w') = texts o (shown w) ++ [x] /\ log_already_done (files w') o = x) /\
  (forall o, ~ In o (outs bs) -> texts o (shown w') = texts o (shown w)) /\
  (forall o p, In o (outs bs) -> makes o (ran w') = makes o (ran w) -> belongs o p -> files w' p = files w p).
Proof.
  induction bs as [|b bs IH]; intros T0 sofar w w' St G H.
  - inversion H; subst. split; [intros b o x []|]. split; auto.
  - assert (X : exists rv w1, one_step E b w rv w1 /\ (0 <= rv)%Z /\ run_steps E bs w1 0 w') by (inversion H; subst; eauto).
    destruct X as (rv & w1 & X1 & X2 & X3).
    destruct (step_success E area inst_area GE HT MONO objs reqs PR _ _ _ _ _ _ _ St X1 X2) as (-> & St' & [Tk Fr] & C).
    assert (G1 : LogInv w1) by (eapply step_log; eauto; apply St').
    destruct (step_shown _ _ _ _ _ _ _ St G X1 X2) as (A1 & A2 & A3).
    destruct (step_counts E area inst_area GE HT objs reqs PR _ _ _ _ _ _ St X1) as [SO _].
    pose proof (rb_other _ _ _ _ (run_rebuilds E area inst_area GE HT MONO objs reqs PR bs _ _ _ _ St' X3)) as RO.
    pose proof (started_run E area inst_area GE HT MONO objs reqs PR _ _ _ _ _ St' X3) as RF.
    destruct (step_quiet E area inst_area GE HT MONO objs reqs PR _ _ _ _ _ _ St X1) as [_ QO].
    destruct (IH _ _ _ _ St' G1 X3) as (B1 & B2 & B3).
    destruct (run_success E area inst_area GE HT MONO objs reqs PR bs _ _ _ _ St' X3) as (_ & _ & Fr' & _).
    pose proof (st_in _ _ _ _ _ _ _ _ _ St) as S.
    pose proof (st_nodup _ _ _ _ _ _ _ _ _ St) as N. rewrite outs_cons in N. destruct (nodup_app_l _ _ _ N) as (N1 & N2 & N3).
    assert (OA : forall o, In o (outs bs) -> in_area o).
    { eapply outs_area; eauto. eapply script_in_tail; eauto. }
    assert (SrcK : forall p, source p -> files w' p = files w1 p).
    { intros p Sp. apply Fr'; [apply Sp|]. intros o Ho. eapply source_not_area; eauto. }
    assert (Keep : forall o, in_area o -> ~ In o (outs bs) -> files w' o = files w1 o).
    { intros o A Nin. apply Fr'.
      - apply (ge_apart _ _ _ GE), A.
      - intros o' Ho'. apply (belongs_distinct area o); auto; [intros ->; auto|left; auto]. }
    split; [|split].
    + intros b' o x [<-|Hb] Px.
      * pose proof (prints_out _ _ _ _ Px) as Ho. rewrite B2 by (intros Z; eapply N3; eauto).
        rewrite (log_of (files w1)) by (apply (RF o); [eapply step_out_area; eauto|auto|apply (side_belongs SLog)]). apply A1.
        destruct b as [its|r]; cbn in Px |- *.
        -- destruct Px as (it & Hin & -> & ->). exists it. split; auto. split; auto. f_equal. f_equal. apply (ge_obj _ _ _ GE). auto.
        -- destruct Px as (-> & ->). split; auto. f_equal. f_equal. apply (ht_ld _ _ _ HT). intros s Hs.
           assert (Hr : reqs r) by (apply (proj2 S); cbn; auto).
           assert (Es : files w' s = files w1 s); [|rewrite Es; apply same_content_refl].
           destruct (pr_inputs _ _ _ _ _ PR r s Hr Hs) as [_ [X|[(it & Hi & ->)|(r' & Hr' & ->)]]]; auto.
           ++ apply Keep; [now apply (pr_area _ _ _ _ _ PR)|]. eapply started_inputs; eauto.
           ++ apply Keep; [now apply (pr_larea _ _ _ _ _ PR)|]. eapply started_inputs; eauto.
      * destruct (B1 b' o x Hb Px) as [B4 B5]. split; auto. rewrite B4. f_equal. apply A2. intros Z. apply (N3 o Z). unfold outs. apply in_concat.
        exists (step_outs b'). split; [now apply in_map|]. eapply prints_out; eauto.
    + intros o Ho. rewrite outs_cons, in_app_iff in Ho. rewrite B2, A2 by tauto. reflexivity.
    + intros o p Ho Mk B. rewrite outs_cons in Ho. apply in_app_or in Ho. destruct Ho as [Ho|Ho].
      * rewrite (RF o) by (auto; eapply step_out_area; eauto). apply (A3 o); auto. rewrite <- Mk. symmetry. auto.
      * assert (Nb : ~ In o (step_outs b)) by (intros Z; eapply N3; eauto).
        rewrite (B3 o) by (auto; rewrite (SO o Nb); auto). apply (QO o); auto.
Qed.

Theorem uninterrupted_inv w0 w : uninterrupted E area inst_area objs reqs w0 w -> Inv w /\ LogInv w.
Proof.
  induction 1 as [w Em|w0 w w' H [I G] Hs].
  - split; [eapply inv_start; eauto|now apply log_start].
  - destruct Hs as [w w' Tk Ar Ed|bs w rv w' GS Lt R SF].
    + split; [eapply inv_edit; eauto|eapply log_edit; eauto].
    + assert (St : started (clock E (tick w)) [] bs w) by (eapply script_started; eauto).
      assert (I' : Inv w').
      { destruct SF as [-> |SF]; [eapply run_success; eauto|]. eapply run_cut; eauto. eapply run_during; eauto. }
      split; auto. eapply run_log; eauto.
Qed.

(** Everything said of histories holds of uninterrupted ones. *)
Theorem uninterrupted_history w0 w : uninterrupted E area inst_area objs reqs w0 w -> history E area inst_area objs reqs w0 w.
Proof.
  induction 1 as [w Em|w0 w w' H IH Hs]; [constructor; auto|]. eapply h_step; eauto.
  destruct Hs as [w w' Tk Ar Ed|bs w rv w' GS Lt R SF]; [apply ev_edit; auto|].
  destruct SF as [-> |SF]; [eapply ev_build; eauto|eapply ev_cut; eauto; eapply run_during; eauto].
Qed.

Theorem history_shown w0 w bs w' : uninterrupted E area inst_area objs reqs w0 w -> good_script bs -> later E reqs w ->
  run_steps E bs w 0 w' ->
  (forall b o x, In b bs -> prints E (files w') b o x -> texts o (shown w') = texts o (shown w) ++ [x] /\ log_already_done (files w') o = x) /\
  (forall o, ~ In o (outs bs) -> texts o (shown w') = texts o (shown w)) /\
  (forall o p, In o (outs bs) -> makes o (ran w') = makes o (ran w) -> belongs o p -> files w' p = files w p).
Proof.
  intros H GS Lt R. destruct (uninterrupted_inv w0 w H) as [I G]. eapply run_shown; eauto. eapply script_started; eauto.
Qed.

End Setting.
