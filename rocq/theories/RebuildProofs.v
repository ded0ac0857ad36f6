(** * What a build does again: exactly the products whose inputs changed. *)

From Coq Require Import ZArith Ascii String Lia Bool List.
From Verif Require Import Base FileSys Frugal Deps Log Cookie CookieProofs Pool PoolInv SpecPool PoolProofs PoolOwn Build SpecFiles SpecBuild FrugalProofs BuildProofs CompileProofs StepProofs MomentProofs SpecHistory LinkProofs HistoryProofs.
Import ListNotations.
Local Open Scope nat_scope.

Section Setting.
Variable E : env.
Variables area inst_area : bytes -> Prop.
Hypothesis GE : good_env E area inst_area.
Hypothesis HT : honest_tools E area inst_area.
Hypothesis MONO : monotone (clock E).
Variable objs : item -> Prop.
Variable reqs : link_req -> Prop.
Hypothesis PR : project E area inst_area objs reqs.
Notation source := (source area inst_area).
Notation in_area := (in_area area).
Notation good_script := (good_script area inst_area objs reqs).
Notation Inv := (Inv E area inst_area objs reqs).
Notation started := (started E area inst_area objs reqs).
Notation script_in := (script_in objs reqs).
Notation GL := (GL E area inst_area HT).
Notation keep := (fun p => ~ inst_area p).

Definition step_fresh (f : fs) (b : bstep) : Prop :=
  match b with
  | SCompile its => forall it, In it its -> fresh f it
  | SLink r => lfresh f r
  end.

Lemma fresh_not_unexaminable f it : fresh f it -> ~ unexaminable f it.
Proof.
  intros (_ & c & D & U) (_ & c' & D' & N). assert (c' = c) by congruence. subst. apply mtime_no_work in U. congruence.
Qed.

Lemma empty_pool ok w1 s : pool_state E [] ok w1 s -> sig jst s = JSt w1 (fun _ => local0).
Proof.
  intros R. unfold pool_state, compile_client in R.
  apply (own_reach jst (job_prog E []) job_stops (ncpus E) 0 (rest_ops ok) (JSt w1 (fun _ => local0))
          (rest_no_add ok) (fun _ _ _ => True)) with (G := fun x => x = JSt w1 (fun _ => local0)) in R; auto; try lia.
  apply R.
Qed.

(** Freshness only depends on files that installation does not touch. *)
Lemma fresh_moved w f' it : Inv w -> objs it ->
  (forall p, source p -> f' p = files w p) -> (forall p, belongs (it_out it) p -> f' p = files w p) ->
  fresh (files w) it -> fresh f' it.
Proof.
  intros I O Src Own F. eapply fresh_ext; [|exact F]. intros p R. symmetry.
  destruct R as [->|[->|[->|[->|(c & Hc & Hd)]]]].
  - apply Own. right. exists SFlags. reflexivity.
  - apply Own. right. exists SDeps. reflexivity.
  - apply Own. left. reflexivity.
  - apply Src. now apply (pr_src _ _ _ _ _ PR).
  - apply Src. apply (i_dep _ _ _ _ _ _ I it O c p Hc Hd).
Qed.

Lemma lfresh_moved f f' r :
  (forall p, In p (lk_srcs r) -> f' p = f p) -> (forall p, belongs (lk_out r) p -> f' p = f p) ->
  lfresh f r -> lfresh f' r.
Proof.
  intros Inp Own [R U]. split.
  - eapply recorded_same; [|exact R]. symmetry. apply Own. right. exists SFlags. reflexivity.
  - eapply up_to_date_ext; [| |exact U]; [symmetry; apply Own; left; auto|intros d Hd; symmetry; auto].
Qed.

Lemma input_keep r p : reqs r -> In p (lk_srcs r) -> ~ inst_area p.
Proof. intros R Hp. apply (gl_srcs _ _ _ (req_good E area inst_area GE objs reqs PR r R) p Hp). Qed.

Lemma belongs_kept o p : in_area o -> belongs o p -> ~ inst_area p.
Proof. intros A B. apply (ge_apart _ _ _ GE). eapply belongs_area; eauto. Qed.

(** ** A build with nothing to do *)

Lemma noop_step b w rv w' : Inv w -> (forall its it, b = SCompile its -> In it its -> objs it) -> (forall r, b = SLink r -> reqs r) ->
  NoDup (step_outs b) -> step_fresh (files w) b -> one_step E b w rv w' ->
  ran w' = ran w /\ tick w <= tick w' /\ (forall p, ~ inst_area p -> files w' p = files w p) /\
  (forall o, In o (step_outs b) -> rv = 0%Z -> texts o (shown w') = texts o (shown w) ++ [log_already_done (files w) o]) /\
  (rv = 0%Z \/ rv = (-1)%Z /\ exists o t f, In o (step_outs b) /\ fst (installer E o t f) = false).
Proof.
  intros I Ho Hr ND F H. destruct b as [its|r]; cbn [one_step step_outs] in *.
  - assert (O : forall it, In it its -> objs it) by (intros; eapply Ho; eauto).
    assert (GI : good_items area inst_area its (files w)) by (eapply items_good; eauto).
    assert (M : moments E inst_area its w w').
    { apply (compile_moments E area inst_area GE); auto. destruct H as (ok & jobs & w1 & s & V & PS & Fi & W & _). right. exists ok, jobs, w1, s. auto. }
    destruct H as (ok & jobs & w1 & s & V & P & Fi & W & R).
    destruct (validate_all_result E keep (ge_inst _ _ _ GE) its w ok jobs w1 V) as (A1 & A2 & A3).
    { apply GI. } { intros it Hin. apply (gi_area _ _ _ _ GI it Hin). }
    { intros it Hin. destruct (in_area_ok E area inst_area GE it (gi_area _ _ _ _ GI it Hin)) as (_ & _ & _ & K1 & K2). auto. }
    { eapply good_independent; eauto. }
    destruct (validate_all_shape E keep (ge_inst _ _ _ GE) its w ok jobs w1 V) as [Vt Vr Vs Vf].
    assert (jobs = []) as ->.
    { destruct jobs as [|j jobs]; auto. destruct (A1 j) as (X & Y & _); [cbn; auto|]. exfalso. apply Y. now apply F. }
    pose proof (empty_pool _ _ _ P) as Sg. rewrite Sg in W. cbn in W. subst w'.
    split; auto. split; auto. split.
    { intros p Hk. destruct (in_dec bytes_dec p (concat (map (fun it => it_out it :: map (fun k => side_file k (it_out it)) [SFlags; SDeps; SLog]) its))) as [Hin|Hn].
      - apply in_concat in Hin. destruct Hin as (l & Hl & Hp). apply in_map_iff in Hl. destruct Hl as (it & <- & Hin).
        apply (m_fresh _ _ _ _ (ms_items _ _ _ _ _ M it Hin)); [now apply F|].
        destruct Hp as [Hp|Hp]; [left; auto|]. apply in_map_iff in Hp. destruct Hp as (k & <- & _). right. eauto.
      - apply (ms_frame _ _ _ _ _ M); auto. intros it Hin B. apply Hn. apply in_concat.
        exists (it_out it :: map (fun k => side_file k (it_out it)) [SFlags; SDeps; SLog]). split; [now apply (in_map (fun it => it_out it :: map (fun k => side_file k (it_out it)) [SFlags; SDeps; SLog]))|].
        destruct B as [->|[k ->]]; [left; auto|right]. apply (in_map (fun k => side_file k (it_out it))). destruct k; cbn; auto. }
    split.
    { intros o Hin Hrv. apply in_map_iff in Hin. destruct Hin as (it & <- & Hin). destruct ok; [|subst; discriminate].
      destruct (A2 eq_refl) as (_ & _ & Sh & _). apply Sh; auto. }
    destruct ok.
    + destruct (pool_failure E area inst_area GE [] w1) with (s := s) (rv := rv) as [B|(B & i & it & X & _)]; auto.
      * intros it [].
      * constructor.
      * destruct i; discriminate.
    + right. split; auto. destruct (A3 eq_refl) as (it & Hin & [U|(t & f & U)]).
      * exfalso. revert U. apply fresh_not_unexaminable. now apply F.
      * exists (it_out it), t, f. split; auto. now apply in_map.
  - assert (R : reqs r) by auto.
    pose proof (link_stepped E area inst_area GE GL r (req_good _ _ _ GE _ _ PR r R) w rv w' H) as LS.
    destruct (ls_fresh _ _ _ _ _ _ LS F) as [La1 La2 La3].
    split; auto. split; [apply LS|]. split.
    { intros p Hk. destruct (bytes_dec p (lk_out r)) as [->|N0]; [apply La1; left; auto|].
      destruct (in_dec bytes_dec p (map (fun k => side_file k (lk_out r)) [SFlags; SDeps; SLog])) as [Hin|Hn].
      - apply in_map_iff in Hin. destruct Hin as (k & <- & _). apply La1. right. eauto.
      - apply (ls_frame _ _ _ _ _ _ LS); auto. intros [->|[k ->]]; auto. apply Hn.
        apply (in_map (fun k => side_file k (lk_out r))). destruct k; cbn; auto. }
    split.
    { intros o [<-|[]] _. auto. }
    clear LS La1 La2 La3. destruct F as [F1 F2]. unfold link_step in H.
    pose proof (proj2 (frugal_recorded (can_write E) (now E w) (files w) (as_item r)) F1) as Fr. cbn [as_item it_flags it_out] in Fr.
    destruct (frugal_flags _ _ _ _ _) as [ch f1] eqn:Ff. cbn in Fr. subst ch.
    assert (f1 = files w) as ->.
    { revert Ff. unfold frugal_flags. destruct (read_file _ _); [|destruct (write_file _ _ _ _ _); discriminate].
      destruct (bytes_eqb _ _); [congruence|]. destruct (write_file _ _ _ _ _); discriminate. }
    apply mtime_no_work in F2. rewrite F2 in H. cbv zeta in H.
    match type of H with context [installer E ?a ?b ?c] => destruct (installer E a b c) as [ok f2] eqn:Ei; assert (Ei' : fst (installer E a b c) = ok) by (now rewrite Ei) end.
    destruct ok; injection H as <- <-; [left; auto|]. right. split; auto. exists (lk_out r). eexists _, _. split; [cbn; auto|exact Ei'].
Qed.

Theorem noop_run bs : forall w rv w', Inv w -> script_in bs -> NoDup (outs bs) ->
  (forall b, In b bs -> step_fresh (files w) b) -> run_steps E bs w rv w' ->
  ran w' = ran w /\ tick w <= tick w' /\ (forall p, ~ inst_area p -> files w' p = files w p) /\
  (rv = 0%Z \/ rv = (-1)%Z /\ exists o t f, In o (outs bs) /\ fst (installer E o t f) = false).
Proof.
  induction bs as [|b bs IH]; intros w rv w' I S N F H.
  - inversion H; subst. auto.
  - rewrite outs_cons in N. destruct (nodup_app_l _ _ _ N) as (N1 & N2 & N3).
    assert (Hb : forall its it, b = SCompile its -> In it its -> objs it) by (intros its it -> ?; apply (proj1 S its); cbn; auto).
    assert (Hl : forall r, b = SLink r -> reqs r) by (intros r ->; apply (proj2 S); cbn; auto).
    assert (X : exists rv1 w1, one_step E b w rv1 w1 /\ ((rv1 < 0)%Z /\ rv = (-1)%Z /\ w' = w1 \/ (0 <= rv1)%Z /\ run_steps E bs w1 rv w')).
    { inversion H; subst; eauto 10. }
    destruct X as (rv1 & w1 & X1 & X2).
    destruct (noop_step b w rv1 w1 I Hb Hl N1 (F b (or_introl eq_refl)) X1) as (A1 & A2 & A3 & _ & A4).
    destruct X2 as [(Neg & -> & ->)|(Pos & X2)].
    + split; auto. split; auto. split; auto. right. split; auto. destruct A4 as [->|(_ & o & t & f & Ho & Hf)]; [lia|].
      exists o, t, f. split; auto. rewrite outs_cons. apply in_or_app; auto.
    + assert (I1 : Inv w1).
      { apply (inv_edit E area inst_area MONO objs reqs PR w w1); auto.
        - intros p A. apply A3. now apply (ge_apart _ _ _ GE).
        - intros p A. left. apply A3. apply A. }
      destruct (IH w1 rv w' I1 (script_in_tail _ _ _ _ S) N2) as (B1 & B2 & B3 & B4); auto.
      * intros b' Hin. pose proof (F b' (or_intror Hin)) as F'. destruct b' as [its|r]; cbn in *.
        -- intros it Hit. assert (O : objs it) by (apply (proj1 S its); cbn; auto).
           eapply fresh_moved; [exact I|exact O| | |now apply F'].
           ++ intros p A. apply A3, A.
           ++ intros p B. apply A3. eapply belongs_kept; eauto. now apply (pr_area _ _ _ _ _ PR).
        -- assert (O : reqs r) by (apply (proj2 S); cbn; auto).
           eapply lfresh_moved; [| |exact F'].
           ++ intros p A. apply A3. eapply input_keep; eauto.
           ++ intros p B. apply A3. eapply belongs_kept; eauto. now apply (pr_larea _ _ _ _ _ PR).
      * split; [congruence|]. split; [lia|]. split.
        -- intros p Hk. rewrite B3, A3 by auto. auto.
        -- destruct B4 as [->|(-> & o & t & f & Ho & Hf)]; auto. right. split; auto. exists o, t, f. split; auto. rewrite outs_cons. apply in_or_app; auto.
Qed.

(** ** What one step does again *)

Notation remade := (remade E).

Lemma step_counts T0 sofar b bs w w' : started T0 sofar (b :: bs) w -> one_step E b w 0 w' ->
  (forall o, ~ In o (step_outs b) -> makes o (ran w') = makes o (ran w)) /\
  match b with
  | SCompile its => forall it, In it its ->
      fresh (files w) it /\ untouched (it_out it) w w' \/ ~ fresh (files w) it /\ remade (it_out it) w w'
  | SLink r => lfresh (files w) r /\ untouched (lk_out r) w w' \/ ~ lfresh (files w) r /\ remade (lk_out r) w w'
  end.
Proof.
  intros St H. pose proof St as [S N P Or I R]. rewrite outs_cons in N. destruct (nodup_app_l _ _ _ N) as (N1 & N2 & N3).
  destruct b as [its|r]; cbn [one_step step_outs] in *.
  - assert (O : forall it, In it its -> objs it) by (intros it Hin; apply (proj1 S its); cbn; auto).
    assert (GI : good_items area inst_area its (files w)) by (eapply items_good; eauto).
    pose proof (compile_success E area inst_area GE its w w' GI H) as SS.
    pose proof (s_links _ _ _ _ _ SS) as Sl. split.
    + intros o Ho. unfold makes. rewrite Sl, (s_other _ _ _ _ _ SS o Ho). auto.
    + intros it Hin. destruct (s_cases _ _ _ _ _ SS it Hin) as [F|F]; [left|right]; (split; [auto|]); unfold untouched, remade, makes.
      * destruct (s_fresh _ _ _ _ _ SS it Hin F) as [K1 K2 _]. rewrite Sl, K2. split; auto. apply K1. left; auto.
      * destruct (s_stale _ _ _ _ _ SS it Hin F) as [(text & obj & tau & A1 & A2 & A3) K2 _ _ _ _]. rewrite Sl, K2. split; auto.
        exists obj, tau. split; auto. lia.
  - assert (Hr : reqs r) by (apply (proj2 S); cbn; auto).
    pose proof (link_stepped E area inst_area GE GL r (req_good _ _ _ GE _ _ PR r Hr) w 0%Z w' H) as LS.
    pose proof (ls_ran _ _ _ _ _ _ LS) as Lr. split.
    + intros o Ho. unfold makes. destruct (Lr o) as [-> L2]. rewrite L2; [auto|]. intros ->. apply Ho. cbn; auto.
    + destruct (lfresh_dec (files w) r) as [F|F]; [left|right]; (split; [auto|]); unfold untouched, remade, makes.
      * destruct (ls_fresh _ _ _ _ _ _ LS F) as [K1 K2 _]. rewrite K2. split; auto. apply K1. left; auto.
      * destruct (ls_stale _ _ _ _ _ _ LS F eq_refl) as [(text & c & tau & A1 & A2 & A3) K2 _ _].
        destruct (Lr (lk_out r)) as [-> _]. rewrite K2. split; [lia|]. exists c, tau. split; auto. lia.
Qed.

(** What a step leaves alone, for the rest of the script. *)
Lemma step_quiet T0 sofar b bs w w' : started T0 sofar (b :: bs) w -> one_step E b w 0 w' ->
  (forall p, source p -> files w' p = files w p) /\
  (forall o p, in_area o -> ~ In o (step_outs b) -> belongs o p -> files w' p = files w p).
Proof.
  intros St H. destruct (step_success E area inst_area GE HT MONO objs reqs PR _ _ _ _ _ _ _ St H) as (_ & _ & [Tk Fr] & _); [lia|].
  pose proof (st_in _ _ _ _ _ _ _ _ _ St) as S. split.
  - intros p Sp. apply Fr; [apply Sp|]. intros o Ho. eapply source_not_area; eauto. eapply step_out_area; eauto.
  - intros o p A Ho B. apply Fr; [eapply belongs_kept; eauto|]. intros o' Ho' B'.
    assert (A' : in_area o') by (eapply step_out_area; eauto).
    revert B'. eapply belongs_distinct with (a := o); eauto. intros ->. auto.
Qed.

Lemma fresh_dec_w w it : Inv w -> fresh (files w) it \/ ~ fresh (files w) it.
Proof.
  intros _. unfold fresh. destruct (fst (frugal_flags (fun _ => false) 0 (files w) (it_flags it) (it_out it))) eqn:F.
  - right. intros [A _]. apply (frugal_recorded (fun _ => false) 0) in A. congruence.
  - apply frugal_recorded in F. destruct (read_file (files w) (deps_path (it_out it))) as [c|] eqn:D.
    + destruct (frugal_mtime (files w) (it_src it :: read_deps c) (it_out it)) as [[|]|] eqn:M.
      * right. intros (_ & c' & E' & U). injection E' as <-. apply mtime_no_work in U. congruence.
      * left. split; auto. exists c. split; auto. now apply mtime_no_work.
      * right. intros (_ & c' & E' & U). injection E' as <-. apply mtime_no_work in U. congruence.
    + right. intros (_ & c & X & _). discriminate.
Qed.

(** ** What a whole build does again *)

Record rebuilds (bs : list bstep) (w w' : world) : Prop := {
  rb_other : forall o, ~ In o (outs bs) -> makes o (ran w') = makes o (ran w);
  rb_obj : forall its it, In (SCompile its) bs -> In it its ->
    fresh (files w) it /\ untouched (it_out it) w w' \/ ~ fresh (files w) it /\ remade (it_out it) w w';
  rb_link : forall r, In (SLink r) bs ->
    (lfresh (files w) r /\ forall s, In s (lk_srcs r) -> makes s (ran w') = makes s (ran w)) /\ untouched (lk_out r) w w' \/
    (~ lfresh (files w) r \/ exists s, In s (lk_srcs r) /\ makes s (ran w') = S (makes s (ran w))) /\ remade (lk_out r) w w';
}.

Lemma run_cons_inv b bs w w' : run_steps E (b :: bs) w 0 w' ->
  exists rv w1, one_step E b w rv w1 /\ (0 <= rv)%Z /\ run_steps E bs w1 0 w'.
Proof. intros H. inversion H; subst; eauto. Qed.

Lemma started_run T0 sofar bs w w' : started T0 sofar bs w -> run_steps E bs w 0 w' ->
  forall o, in_area o -> ~ In o (outs bs) -> forall p, belongs o p -> files w' p = files w p.
Proof.
  intros St H o A Ho p B. destruct (run_success E area inst_area GE HT MONO objs reqs PR bs T0 sofar w w' St H) as (_ & _ & Fr & _).
  apply Fr; [eapply belongs_kept; eauto|]. intros o' Ho'.
  assert (A' : in_area o') by (eapply outs_area; eauto; apply St).
  eapply belongs_distinct with (a := o); eauto. intros ->. auto.
Qed.

Lemma started_run_src T0 sofar bs w w' : started T0 sofar bs w -> run_steps E bs w 0 w' ->
  forall p, source p -> files w' p = files w p.
Proof.
  intros St H p Sp. destruct (run_success E area inst_area GE HT MONO objs reqs PR bs T0 sofar w w' St H) as (_ & _ & Fr & _).
  apply Fr; [apply Sp|]. intros o' Ho'. eapply source_not_area; eauto. eapply outs_area; eauto; apply St.
Qed.

Lemma in_outs_step b bs o : In b bs -> In o (step_outs b) -> In o (outs bs).
Proof. intros H Ho. unfold outs. apply in_concat. exists (step_outs b). split; auto. now apply in_map. Qed.

Theorem run_rebuilds bs : forall T0 sofar w w', started T0 sofar bs w -> run_steps E bs w 0 w' -> rebuilds bs w w'.
Proof.
  induction bs as [|b bs IH]; intros T0 sofar w w' St H.
  - inversion H; subst. constructor; auto; try (intros; contradiction).
  - destruct (run_cons_inv _ _ _ _ H) as (rv & w1 & X1 & X2 & X3).
    destruct (step_success E area inst_area GE HT MONO objs reqs PR _ _ _ _ _ _ _ St X1 X2) as (-> & St' & [Tk Fr] & C).
    destruct (step_counts _ _ _ _ _ _ St X1) as [SO SB].
    destruct (step_quiet _ _ _ _ _ _ St X1) as [QS QO].
    destruct (IH _ _ _ _ St' X3) as [RO RJ RL].
    pose proof (started_run _ _ _ _ _ St' X3) as RF.
    pose proof (st_in _ _ _ _ _ _ _ _ _ St) as Sc. pose proof (st_inv _ _ _ _ _ _ _ _ _ St) as I.
    pose proof (st_inv _ _ _ _ _ _ _ _ _ St') as I1.
    pose proof (st_nodup _ _ _ _ _ _ _ _ _ St) as N. rewrite outs_cons in N. destruct (nodup_app_l _ _ _ N) as (N1 & N2 & N3).
    (* products of the first step are not touched afterwards *)
    assert (Keep1 : forall o, In o (step_outs b) -> untouched o w1 w').
    { intros o Ho. split; [apply RO; auto|]. apply (RF o); auto; [eapply step_out_area; eauto|left; auto]. }
    assert (Lift1 : forall o, In o (step_outs b) -> untouched o w w1 -> untouched o w w').
    { intros o Ho [A1 A2]. destruct (Keep1 o Ho) as [B1 B2]. split; congruence. }
    assert (Lift2 : forall o, In o (step_outs b) -> remade o w w1 -> remade o w w').
    { intros o Ho [A1 (c & tau & A2 & A3)]. destruct (Keep1 o Ho) as [B1 B2]. split; [congruence|]. exists c, tau. split; [congruence|auto]. }
    (* products of later steps are not touched by the first *)
    assert (Keep2 : forall o p, in_area o -> In o (outs bs) -> belongs o p -> files w1 p = files w p).
    { intros o p A Ho B. apply (QO o); auto. intros X. apply (N3 o); auto. }
    assert (Cnt2 : forall o, In o (outs bs) -> makes o (ran w1) = makes o (ran w)).
    { intros o Ho. apply SO. intros X. apply (N3 o); auto. }
    assert (Lift3 : forall o, in_area o -> In o (outs bs) -> untouched o w1 w' -> untouched o w w').
    { intros o A Ho [A1 A2]. split; [rewrite A1; auto|]. rewrite A2. apply (Keep2 o); auto. left; auto. }
    assert (Lift4 : forall o, in_area o -> In o (outs bs) -> remade o w1 w' -> remade o w w').
    { intros o A Ho [A1 (c & tau & A2 & A3)]. split; [rewrite A1, Cnt2; auto|]. exists c, tau. split; auto. lia. }
    constructor.
    + intros o Ho. rewrite outs_cons in Ho. rewrite RO by (intros X; apply Ho, in_or_app; auto).
      apply SO. intros X; apply Ho, in_or_app; auto.
    + intros its it [->|Hin] Hit.
      * assert (Ho : In (it_out it) (step_outs (SCompile its))) by (cbn; now apply in_map).
        destruct (SB it Hit) as [[F U]|[F U]]; [left|right]; (split; [auto|]); auto.
      * assert (O : objs it) by (apply (proj1 Sc its); cbn; auto).
        assert (A : in_area (it_out it)) by now apply (pr_area _ _ _ _ _ PR).
        assert (Ho : In (it_out it) (outs bs)) by (eapply in_outs_compile; eauto).
        assert (Fr1 : fresh (files w) it <-> fresh (files w1) it).
        { split; intros F.
          - eapply fresh_moved; [exact I|exact O|auto| |exact F]. intros p B. apply (Keep2 (it_out it)); auto.
          - eapply fresh_moved; [exact I1|exact O| | |exact F]; [intros p Sp; symmetry; auto|]. intros p B. symmetry. apply (Keep2 (it_out it)); auto. }
        destruct (RJ its it Hin Hit) as [[F U]|[F U]]; [left|right]; (split; [tauto|]); auto.
    + intros r [->|Hin].
      * assert (Ho : In (lk_out r) (step_outs (SLink r))) by (cbn; auto).
        assert (Hs : forall s, In s (lk_srcs r) -> makes s (ran w') = makes s (ran w)).
        { intros s Hs. rewrite RO by (eapply started_inputs; eauto). apply SO. cbn. intros [X|[]].
          assert (Hr : reqs r) by (apply (proj2 Sc); cbn; auto).
          destruct (pr_inputs _ _ _ _ _ PR r s Hr Hs) as [Ne _]. auto. }
        destruct SB as [[F U]|[F U]]; [left|right]; auto.
      * assert (Hr : reqs r) by (apply (proj2 Sc); cbn; auto).
        assert (A : in_area (lk_out r)) by now apply (pr_larea _ _ _ _ _ PR).
        assert (Ho : In (lk_out r) (outs bs)) by (now apply in_outs_link).
        pose proof (fun p B => Keep2 (lk_out r) p A Ho B) as Own.
        (* an input made by the first step is newer than the product *)
        assert (New : forall s, In s (lk_srcs r) -> makes s (ran w1) = makes s (ran w) /\ files w1 s = files w s \/
                        makes s (ran w1) = S (makes s (ran w)) /\ ~ lfresh (files w1) r).
        { intros s Hs. destruct (in_dec bytes_dec s (step_outs b)) as [Hb|Hb].
          - assert (UR : untouched s w w1 \/ remade s w w1).
            { destruct b as [its|r0]; cbn in Hb.
              - apply in_map_iff in Hb. destruct Hb as (it & <- & Hit). destruct (SB it Hit) as [[_ U]|[_ U]]; auto.
              - destruct Hb as [<-|[]]. destruct SB as [[_ U]|[_ U]]; auto. }
            destruct UR as [[U1 U2]|[U1 (c & tau & U2 & U3)]]; auto. right. split; auto. intros [_ (t & Ht & Hd)].
            destruct (i_lplain _ _ _ _ _ _ I1 r Hr) as (Pl & _).
            destruct Pl as [Pl|(cr & tr & Pl)]; [unfold modified_at, stat in Ht; rewrite Pl in Ht; discriminate|].
            assert (tr = t) by (unfold modified_at, stat in Ht; rewrite Pl in Ht; congruence). subst tr.
            destruct (st_run _ _ _ _ _ _ _ _ _ St) as [RT RR].
            rewrite Own in Pl by (left; auto).
            destruct (RR r cr t Hr Pl) as [Lt|Nin].
            + destruct (Hd s Hs) as (td & Htd & Le). unfold modified_at, stat in Htd. rewrite U2 in Htd. injection Htd as <-.
              assert (clock E (tick w) <= clock E tau)%Z by (apply MONO; lia). lia.
            + apply (Nin s Hs). rewrite outs_cons. apply in_or_app; auto.
          - left. split; [now apply SO|].
            destruct (pr_inputs _ _ _ _ _ PR r s Hr Hs) as [_ [X|[(it & Hi & ->)|(r' & Hr' & ->)]]]; auto.
            + apply (QO (it_out it)); auto; [now apply (pr_area _ _ _ _ _ PR)|left; auto].
            + apply (QO (lk_out r')); auto; [now apply (pr_larea _ _ _ _ _ PR)|left; auto]. }
        (* monotone counts *)
        assert (Mono : forall s, In s (lk_srcs r) -> makes s (ran w') = makes s (ran w1) \/ makes s (ran w') = S (makes s (ran w1))).
        { intros s Hs. destruct (in_dec bytes_dec s (outs bs)) as [Hb|Hb]; [|left; auto].
          unfold outs in Hb. apply in_concat in Hb. destruct Hb as (l & Hl & Hb). apply in_map_iff in Hl. destruct Hl as (b' & <- & Hb').
          destruct b' as [its|r0]; cbn in Hb.
          - apply in_map_iff in Hb. destruct Hb as (it & <- & Hit). destruct (RJ its it Hb' Hit) as [[_ [U _]]|[_ [U _]]]; auto.
          - destruct Hb as [<-|[]]. destruct (RL r0 Hb') as [[_ [U _]]|[_ [U _]]]; auto. }
        (* an input made twice would be in two steps *)
        assert (Once : forall s, In s (lk_srcs r) -> makes s (ran w1) = S (makes s (ran w)) -> makes s (ran w') = makes s (ran w1)).
        { intros s Hs Hm. apply RO. intros X. rewrite Cnt2 in Hm; auto. lia. }
        destruct (RL r Hin) as [[(F & Fs) U]|[F U]].
        -- left. split; [|auto].
           assert (Same : forall s, In s (lk_srcs r) -> makes s (ran w1) = makes s (ran w) /\ files w1 s = files w s).
           { intros s Hs. destruct (New s Hs) as [X|[_ X]]; [auto|contradiction]. }
           split.
           ++ eapply lfresh_moved; [| |exact F]; [intros p Hp; symmetry; apply Same; auto|intros p B; symmetry; auto].
           ++ intros s Hs. rewrite Fs by auto. apply Same; auto.
        -- right. split; [|auto].
           destruct F as [F|(s & Hs & Hm)].
           ++ (* was it stale before, or made stale by the first step? *)
              destruct (lfresh_dec (files w) r) as [F0|F0]; [right|left; auto].
              assert (Ex : exists s, In s (lk_srcs r) /\ makes s (ran w1) = S (makes s (ran w))).
              { assert (D : (exists s, In s (lk_srcs r) /\ makes s (ran w1) = S (makes s (ran w))) \/
                            forall s, In s (lk_srcs r) -> makes s (ran w1) = makes s (ran w) /\ files w1 s = files w s).
                { clear - New. induction (lk_srcs r) as [|s l IHl]; [right; intros s []|].
                  destruct (New s (or_introl eq_refl)) as [X|[X _]].
                  - destruct IHl as [(s' & Y1 & Y2)|Y].
                    + intros s' Hs'. apply New. right; auto.
                    + left. exists s'. split; [right; auto|auto].
                    + right. intros s' [<-|Hs']; auto.
                  - left. exists s. split; [left; auto|auto]. }
                destruct D as [D|D]; auto. exfalso. apply F. eapply lfresh_moved; [| |exact F0]; auto. intros p Hp. apply D; auto. }
              destruct Ex as (s & Hs & Hm). exists s. split; auto. rewrite (Once s Hs Hm). auto.
           ++ right. exists s. split; auto. destruct (New s Hs) as [[X _]|[X _]]; [congruence|].
              rewrite (Once s Hs X) in Hm. lia.
Qed.

(** ** After a successful build everything is fresh *)

Hypothesis IN : inputs_needed E.

Lemma past_future w w' : no_future E area inst_area w -> tick w <= tick w' -> (forall p, source p -> files w' p = files w p) ->
  no_future E area inst_area w'.
Proof.
  intros NF Tk Eq p t Sp H. unfold modified_at, stat in H. rewrite Eq in H by auto. pose proof (NF p t Sp H). pose proof (MONO _ _ Tk). lia.
Qed.

Lemma step_made_fresh T0 sofar b bs w w' : started T0 sofar (b :: bs) w -> no_future E area inst_area w -> one_step E b w 0 w' ->
  step_fresh (files w') b.
Proof.
  intros St NF H. pose proof St as [S N P Or I R]. rewrite outs_cons in N. destruct (nodup_app_l _ _ _ N) as (N1 & N2 & N3).
  destruct (step_quiet _ _ _ _ _ _ St H) as [QS QO].
  destruct b as [its|r]; cbn [one_step step_outs step_fresh] in *.
  - assert (O : forall it, In it its -> objs it) by (intros it Hin; apply (proj1 S its); cbn; auto).
    assert (GI : good_items area inst_area its (files w)) by (eapply items_good; eauto).
    pose proof (compile_success E area inst_area GE its w w' GI H) as SS. intros it Hin.
    destruct (s_cases _ _ _ _ _ SS it Hin) as [F|F].
    + eapply fresh_moved; [exact I|auto|auto| |exact F]. apply (k_same _ _ _ (s_fresh _ _ _ _ _ SS it Hin F)).
    + destruct (s_stale _ _ _ _ _ SS it Hin F) as [(text & obj & tau & A1 & A2 & A3) _ A4 _ _ _].
      destruct (i_plain _ _ _ _ _ _ I it (O it Hin)) as (P1 & P2 & P3).
      destruct (pr_area _ _ _ _ _ PR it (O it Hin)) as (_ & _ & Ak).
      split.
      * apply (s_flags _ _ _ _ _ SS it Hin). split; auto. apply (pr_write _ _ _ _ _ PR), (Ak SFlags).
      * destruct (ht_deps _ _ _ HT it (files w) text obj A1) as [o Ho].
        destruct (A4 o Ho) as [td Td].
        { split; auto. apply (pr_write _ _ _ _ _ PR), (Ak SDeps). }
        exists (deps_content (parse_deps o)). unfold read_file. rewrite Td. split; auto.
        exists (clock E tau). unfold modified_at at 1, stat. rewrite A2. split; auto.
        assert (Le : (clock E (tick w) <= clock E tau)%Z) by (apply MONO; lia).
        intros d Hd. assert (X : source d /\ exists t, modified_at (files w) d t).
        { destruct Hd as [<-|Hd].
          - split; [apply (pr_src _ _ _ _ _ PR); auto|]. eapply (in_src _ IN); eauto.
          - eapply (ht_sources _ _ _ HT); eauto. }
        destruct X as [Sd (t & Ht)]. exists t. split.
        -- unfold modified_at, stat. rewrite QS by auto. exact Ht.
        -- pose proof (NF d t Sd Ht). lia.
  - assert (Hr : reqs r) by (apply (proj2 S); cbn; auto).
    pose proof (req_good _ _ _ GE _ _ PR r Hr) as GR.
    pose proof (link_stepped E area inst_area GE GL r GR w 0%Z w' H) as LS.
    assert (Inp : forall p, In p (lk_srcs r) -> files w' p = files w p).
    { intros p Hp. apply (ls_frame _ _ _ _ _ _ LS); apply (gl_srcs _ _ _ GR p Hp). }
    destruct (lfresh_dec (files w) r) as [F|F].
    + eapply lfresh_moved; [exact Inp| |exact F]. apply (la_same _ _ _ (ls_fresh _ _ _ _ _ _ LS F)).
    + destruct (ls_stale _ _ _ _ _ _ LS F eq_refl) as [(text & c & tau & A1 & A2 & A3) _ _ _].
      destruct (i_lplain _ _ _ _ _ _ I r Hr) as (P1 & P2).
      destruct (pr_larea _ _ _ _ _ PR r Hr) as (_ & _ & Ak).
      split.
      * apply (ls_flags _ _ _ _ _ _ LS). split; auto. apply (pr_write _ _ _ _ _ PR), (Ak SFlags).
      * exists (clock E tau). unfold modified_at at 1, stat. rewrite A2. split; auto.
        assert (Le : (clock E (tick w) <= clock E tau)%Z) by (apply MONO; lia).
        intros d Hd. destruct (in_ld _ IN r (files w) text c d A1 Hd) as [t Ht]. exists t. split.
        -- unfold modified_at, stat. rewrite Inp by auto. exact Ht.
        -- destruct (pr_inputs _ _ _ _ _ PR r d Hr Hd) as [_ [X|[(it & Hi & ->)|(r' & Hr' & ->)]]].
           ++ pose proof (NF d t X Ht). lia.
           ++ destruct (i_plain _ _ _ _ _ _ I it Hi) as (Pl & _). unfold modified_at, stat in Ht.
              destruct Pl as [Pl|(co & to & Pl)]; rewrite Pl in Ht; [discriminate|]. injection Ht as <-.
              pose proof (i_time _ _ _ _ _ _ I it co to Hi Pl). lia.
           ++ destruct (i_lplain _ _ _ _ _ _ I r' Hr') as (Pl & _). unfold modified_at, stat in Ht.
              destruct Pl as [Pl|(co & to & Pl)]; rewrite Pl in Ht; [discriminate|]. injection Ht as <-.
              pose proof (i_ltime _ _ _ _ _ _ I r' co to Hr' Pl). lia.
Qed.

Theorem run_fresh bs : forall T0 sofar w w', started T0 sofar bs w -> no_future E area inst_area w -> run_steps E bs w 0 w' ->
  forall b, In b bs -> step_fresh (files w') b.
Proof.
  induction bs as [|b bs IH]; intros T0 sofar w w' St NF H b' Hin; [destruct Hin|].
  destruct (run_cons_inv _ _ _ _ H) as (rv & w1 & X1 & X2 & X3).
  destruct (step_success E area inst_area GE HT MONO objs reqs PR _ _ _ _ _ _ _ St X1 X2) as (-> & St' & [Tk Fr] & C).
  destruct (step_quiet _ _ _ _ _ _ St X1) as [QS QO].
  assert (NF1 : no_future E area inst_area w1) by (eapply past_future; eauto).
  destruct Hin as [<-|Hin]; [|eapply IH; eauto].
  pose proof (step_made_fresh _ _ _ _ _ _ St NF X1) as F.
  pose proof (started_run _ _ _ _ _ St' X3) as RF. pose proof (started_run_src _ _ _ _ _ St' X3) as RS.
  pose proof (st_in _ _ _ _ _ _ _ _ _ St) as S.
  pose proof (st_nodup _ _ _ _ _ _ _ _ _ St) as N. rewrite outs_cons in N. destruct (nodup_app_l _ _ _ N) as (N1 & N2 & N3).
  destruct b as [its|r]; cbn in *.
  - intros it Hit. assert (O : objs it) by (apply (proj1 S its); cbn; auto).
    eapply fresh_moved; [apply (st_inv _ _ _ _ _ _ _ _ _ St')|exact O|auto| |now apply F].
    intros p B. apply (RF (it_out it)); auto; [now apply (pr_area _ _ _ _ _ PR)|]. apply N3. now apply in_map.
  - assert (Hr : reqs r) by (apply (proj2 S); cbn; auto).
    eapply lfresh_moved; [| |exact F].
    + intros p Hp. assert (Nin : ~ In p (outs bs)) by (eapply started_inputs; eauto).
      destruct (pr_inputs _ _ _ _ _ PR r p Hr Hp) as [_ [X|[(it & Hi & ->)|(r' & Hr' & ->)]]]; auto.
      * apply (RF (it_out it)); auto; [now apply (pr_area _ _ _ _ _ PR)|left; auto].
      * apply (RF (lk_out r')); auto; [now apply (pr_larea _ _ _ _ _ PR)|left; auto].
    + intros p B. apply (RF (lk_out r)); auto. now apply (pr_larea _ _ _ _ _ PR).
Qed.

(** ** From histories *)

Theorem history_rebuilds w0 w bs w' : history E area inst_area objs reqs w0 w -> good_script bs -> later E reqs w ->
  run_steps E bs w 0 w' -> rebuilds bs w w'.
Proof.
  intros H G L R. eapply run_rebuilds; eauto. eapply script_started; eauto. eapply history_inv; eauto.
Qed.

Theorem history_noop w0 w bs w1 w2 rv w3 : history E area inst_area objs reqs w0 w -> good_script bs -> later E reqs w ->
  no_future E area inst_area w -> run_steps E bs w 0 w1 ->
  tick w1 <= tick w2 -> (forall p, ~ inst_area p -> files w2 p = files w1 p) ->
  run_steps E bs w2 rv w3 ->
  ran w3 = ran w2 /\ (forall p, ~ inst_area p -> files w3 p = files w2 p) /\
  (rv = 0%Z \/ rv = (-1)%Z /\ exists o t f, In o (outs bs) /\ fst (installer E o t f) = false).
Proof.
  intros H G L NF R Tk Same R2.
  assert (I : Inv w) by (eapply history_inv; eauto).
  assert (St : started (clock E (tick w)) [] bs w) by (eapply script_started; eauto).
  assert (I1 : Inv w1) by (eapply run_success; eauto).
  assert (I2 : Inv w2).
  { apply (inv_edit E area inst_area MONO objs reqs PR w1 w2); auto.
    - intros p A. apply Same. now apply (ge_apart _ _ _ GE).
    - intros p A. left. apply Same, A. }
  destruct (noop_run bs w2 rv w3 I2) as (A1 & _ & A2 & A3); auto.
  - apply St.
  - apply G.
  - intros b Hin. pose proof (run_fresh _ _ _ _ _ St NF R b Hin) as F. destruct b as [its|r]; cbn in *.
    + intros it Hit. assert (O : objs it) by (eapply (gs_objs _ _ _ _ _ G); eauto).
      eapply fresh_moved; [exact I1|exact O| | |now apply F].
      * intros p A. apply Same, A.
      * intros p B. apply Same. eapply belongs_kept; eauto. now apply (pr_area _ _ _ _ _ PR).
    + assert (O : reqs r) by (eapply (gs_reqs _ _ _ _ _ G); eauto).
      eapply lfresh_moved; [| |exact F].
      * intros p A. apply Same. eapply input_keep; eauto.
      * intros p B. apply Same. eapply belongs_kept; eauto. now apply (pr_larea _ _ _ _ _ PR).
Qed.

End Setting.
