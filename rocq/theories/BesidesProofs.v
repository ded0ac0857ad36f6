(** * As long as nothing outside changes, a build is one by tools that don't look there. *)

From Coq Require Import ZArith Ascii String Lia Bool List.
From Verif Require Import Base FileSys Frugal Deps Log Cookie CookieProofs Pool SpecPool Build SpecFiles SpecBuild FrugalProofs BuildProofs CompileProofs StepProofs MomentProofs SpecHistory HistoryProofs Plan SpecPlan PlanProofs BuildTheorems ApartProofs SpecBesides.
Import ListNotations.
Local Open Scope nat_scope.

(** ** Pools whose jobs do the same. *)
Section Same.
Variable Sig : Type.
Variables prog prog' : nat -> list (Sig -> Sig).
Variable stops : nat -> Sig -> bool.
Variable I : Sig -> Prop.

Definition act_same (a a' : Sig -> Sig) : Prop := forall x, I x -> a x = a' x /\ I (a x).
Hypothesis PROG : forall t, Forall2 act_same (prog t) (prog' t).

Definition wsame (p p' : wpc Sig) : Prop :=
  match p, p' with
  | WRun _ i acts, WRun _ j acts' => i = j /\ Forall2 act_same acts acts'
  | WRun _ _ _, _ | _, WRun _ _ _ => False
  | _, _ => p = p'
  end.

Record same (s s' : st Sig) : Prop := {
  sm_workers : Forall2 wsame (workers _ s) (workers _ s');
  sm_rest : s' = St Sig (queue _ s) (err _ s) (Pool.started _ s) (lock _ s) (workers _ s') (handles _ s) (pc _ s) (ops _ s) (sig _ s) (trace _ s);
  sm_inv : I (sig _ s);
}.

Lemma wsame_refl p : (forall i acts, p <> WRun _ i acts) -> wsame p p.
Proof. destruct p; cbn; auto. intros H. exfalso. eapply H; eauto. Qed.

Lemma forall2_upd {A B} (R : A -> B -> Prop) l l' k x y : Forall2 R l l' -> R x y -> Forall2 R (upd l k x) (upd l' k y).
Proof. intros F Rx. revert k. induction F; intros k; cbn; auto. destruct k; constructor; auto. Qed.

Lemma forall2_nth {A B} (R : A -> B -> Prop) l l' k : Forall2 R l l' ->
  match nth_error l k, nth_error l' k with Some x, Some y => R x y | None, None => True | _, _ => False end.
Proof. intros F. revert k. induction F; intros [|k]; cbn; auto. apply IHF. Qed.

Lemma same_wstep w s s' t : same s s' -> wstep _ prog stops w s = Some t -> exists t', wstep _ prog' stops w s' = Some t' /\ same t t'.
Proof.
  intros [W R Iv] St. pose proof (forall2_nth _ _ _ w W) as N. remember (workers _ s') as ws' eqn:Ew. clear Ew. subst s'.
  unfold wstep in *. cbn [workers]. destruct (nth_error (workers Sig s) w) as [p|] eqn:Np; [|discriminate].
  destruct (nth_error ws' w) as [p'|] eqn:Np'; [|contradiction].
  assert (Up : forall q q', wsame q q' -> Forall2 wsame (upd (workers Sig s) w q) (upd ws' w q')) by (intros; now apply forall2_upd).
  destruct p; cbn in N; destruct p'; try contradiction; try discriminate N; try discriminate St.
  - injection St as <-. eexists. split; [reflexivity|]. constructor; cbn; auto; try (apply Up; destruct (err Sig s); reflexivity).
  - cbn [lock]. destruct (lock Sig s); [discriminate|]. injection St as <-. eexists. split; [reflexivity|]. constructor; cbn; auto; try (apply Up; reflexivity).
  - injection St as <-. eexists. split; [reflexivity|]. constructor; cbn; auto; try (apply Up; destruct (first_unstarted _); reflexivity).
  - injection N as <-. injection St as <-. eexists. split; [reflexivity|]. constructor; cbn; auto; try (apply Up; reflexivity).
  - injection N as <-. injection St as <-. eexists. split; [reflexivity|]. constructor; cbn; auto; try (apply Up; cbn; split; auto; apply PROG).
  - destruct N as [<- F]. destruct F as [|x y acts acts' Fx F].
    + injection St as <-. eexists. split; [reflexivity|]. constructor; cbn; auto; try (apply Up; destruct (stops _ _); reflexivity).
    + injection St as <-. destruct (Fx _ Iv) as [Eq Ii]. eexists. split; [reflexivity|]. constructor; cbn; auto; [apply Up; cbn; auto|]. now rewrite Eq.
  - injection St as <-. eexists. split; [reflexivity|]. constructor; cbn; auto; try (apply Up; reflexivity).
  - injection St as <-. eexists. split; [reflexivity|]. constructor; cbn; auto; try (apply Up; reflexivity).
Qed.

Lemma forall2_same_length {A B} (R : A -> B -> Prop) l l' : Forall2 R l l' -> length l = length l'.
Proof. induction 1; cbn; auto. Qed.

Lemma same_start x ws' a os : Forall2 wsame (workers Sig x) ws' -> I (sig Sig x) ->
  same (start_or Sig x a os) (start_or Sig (St Sig (queue _ x) (err _ x) (Pool.started _ x) (lock _ x) ws' (handles _ x) (pc _ x) (ops _ x) (sig _ x) (trace _ x)) a os).
Proof. intros W Ix. destruct x as [q e st l ws h pc os' sg tr]. cbn in *. destruct st; [destruct a|]; constructor; cbn; auto. Qed.

Lemma same_mstep s s' t : same s s' -> mstep _ s = Some t -> exists t', mstep _ s' = Some t' /\ same t t'.
Proof.
  intros [W R Iv] Mv. remember (workers _ s') as ws' eqn:Ew. clear Ew. subst s'. pose proof (forall2_same_length _ _ _ W) as Ln.
  destruct s as [q e st l ws h pc os sg tr]. cbn [queue err Pool.started lock workers handles Pool.pc ops sig trace] in *.
  unfold mstep in *. cbn [Pool.pc ops lock workers handles] in *. destruct pc as [|k af|k ret].
  - destruct os as [|[j| | |] os]; [discriminate| | | |].
    + destruct l; [discriminate|]. injection Mv as <-. eexists. split; [reflexivity|]. constructor; cbn; auto.
    + injection Mv as <-. eexists. split; [reflexivity|]. now apply (same_start (St Sig q e st l ws h MIdle (OStart :: os) sg tr)).
    + injection Mv as <-. eexists. split; [reflexivity|]. now apply (same_start (St Sig q e st l ws h MIdle (OWait :: os) sg tr)).
    + injection Mv as <-. eexists. split; [reflexivity|]. now apply (same_start (St Sig q true st l ws h MIdle (OFree :: os) sg tr)).
  - rewrite <- Ln. destruct (k <? length ws); injection Mv as <-; eexists; (split; [reflexivity|]); constructor; cbn; auto.
    apply forall2_upd; auto. reflexivity.
  - rewrite <- Ln. destruct (k <? length ws).
    + pose proof (forall2_nth _ _ _ k W) as N. destruct (nth_error h k) as [[|]|].
      * destruct (nth_error ws k) as [p|]; [|discriminate]. destruct p; try discriminate. destruct (nth_error ws' k) as [p'|]; [|contradiction].
        destruct p'; try contradiction; try discriminate N. injection Mv as <-. eexists. split; [reflexivity|]. constructor; cbn; auto.
      * injection Mv as <-. eexists. split; [reflexivity|]. constructor; cbn; auto.
      * injection Mv as <-. eexists. split; [reflexivity|]. constructor; cbn; auto.
    + injection Mv as <-. eexists. split; [reflexivity|]. constructor; cbn; auto.
Qed.

Theorem same_reachable n os x s : I x -> reachable _ prog stops n os x s -> exists s', reachable _ prog' stops n os x s' /\ same s s'.
Proof.
  intros Ix H. unfold reachable in *. remember (init Sig n os x) as s0 eqn:E0. revert E0. induction H as [s0|s0 s1 s2 H IH Ss]; intros ->.
  - exists (init Sig n os x). split; [constructor|]. constructor; cbn; auto. clear. induction n; cbn; constructor; auto. reflexivity.
  - destruct (IH eq_refl) as (s' & R & S). destruct Ss as [M|[w M]].
    + destruct (same_mstep _ _ _ S M) as (t' & M' & S'). exists t'. split; auto. eapply steps_snoc; eauto. left. auto.
    + destruct (same_wstep _ _ _ _ S M) as (t' & M' & S'). exists t'. split; auto. eapply steps_snoc; eauto. right. eauto.
Qed.
End Same.

(** ** The tools with their eyes kept off what is outside. *)
Section Inside.
Variables (sg : bool) (out : bytes) (E : env) (inst_area srcs : bytes -> Prop) (links : link_kind -> list bytes -> Prop).
Variable outside : bytes -> bool.
Variable a : fs.
Hypothesis SI : setting_inside sg out E inst_area srcs links outside a.
Notation area := (product_dir out).
Notation source := (source area inst_area).
Notation objs := (named_item sg out srcs).
Notation reqs := (named_link sg out links).
Notation as_found := (as_found outside a).

Let GE := si_env _ _ _ _ _ _ _ _ SI.
Let HI := si_tools _ _ _ _ _ _ _ _ SI.
Let MONO := si_clock _ _ _ _ _ _ _ _ SI.
Let WN := si_names _ _ _ _ _ _ _ _ SI.
Let PR := named_project sg out E inst_area srcs links WN.

Definition over (f : fs) : fs := fun p => if outside p then a p else f p.

Definition inside : env :=
  Env (ncpus E) (can_write E) (clock E) (fun fl s f => cc_deps E fl s (over f)) (fun fl s f => cc_obj E fl s (over f))
      (fun k l o ss fl f => ld E k l o ss fl (over f)) (installer E) (lib_prefix E).

Lemma over_found f : as_found (over f).
Proof. intros p H. unfold over. now rewrite H. Qed.

Lemma over_same f : as_found f -> forall p, over f p = f p.
Proof. intros H p. unfold over. destruct (outside p) eqn:O; auto. now rewrite H. Qed.

Lemma over_content f f' p : same_content (f p) (f' p) -> same_content (over f p) (over f' p).
Proof. unfold over. destruct (outside p); auto. intros _. apply same_content_refl. Qed.

Lemma deps_inside it f : deps_on inside it f = deps_on E it (over f).
Proof. reflexivity. Qed.
Lemma cc_inside it f : cc_on inside it f = cc_on E it (over f).
Proof. reflexivity. Qed.
Lemma ld_inside r f : ld_on inside r f = ld_on E r (over f).
Proof. reflexivity. Qed.

Lemma inside_setting : setting sg out inside inst_area srcs links.
Proof.
  constructor.
  - destruct GE as [G1 G2 G3 G4 G5]. constructor; auto; cbn.
    + intros fl s f f' H. apply G4. intros p Sp. unfold over. destruct (outside p); auto.
    + intros fl s f f' H. apply G5. intros p Sp. unfold over. destruct (outside p); auto.
  - constructor.
    + intros it f f' o D H. rewrite deps_inside, !cc_inside in *.
      apply (hi_listed _ _ _ _ _ HI it (over f) (over f') o); auto using over_found.
      intros p Hp. apply over_content. auto.
    + intros it f text obj H. exact (hi_deps _ _ _ _ _ HI it (over f) text obj (over_found f) H).
    + intros it f o d D Hd. destruct (hi_sources _ _ _ _ _ HI it (over f) o d (over_found f) D Hd) as (A & B & t & C).
      split; auto. exists t. unfold modified_at, stat, over in C. now rewrite B in C.
    + intros it f text c. rewrite cc_inside. apply (hi_clean _ _ _ _ _ HI). apply over_found.
    + intros r f text c. rewrite ld_inside. apply (hi_clean_ld _ _ _ _ _ HI). apply over_found.
    + intros r f f' H. rewrite !ld_inside. apply (hi_ld _ _ _ _ _ HI); auto using over_found.
      intros p Hp. apply over_content. auto.
  - exact MONO.
  - destruct WN as [W1 W2 W3 W4 W5]. constructor; auto.
Qed.

Lemma inside_deps fl s f : as_found f -> cc_deps inside fl s f = cc_deps E fl s f.
Proof. intros H. apply (ge_deps _ _ _ GE). intros p _. now apply over_same. Qed.
Lemma inside_obj fl s f : as_found f -> cc_obj inside fl s f = cc_obj E fl s f.
Proof. intros H. apply (ge_obj _ _ _ GE). intros p _. now apply over_same. Qed.
Lemma inside_ld r f : as_found f -> ld_on inside r f = ld_on E r f.
Proof.
  intros H. rewrite ld_inside. apply (hi_ld _ _ _ _ _ HI); auto using over_found. intros p _. rewrite over_same by auto. apply same_content_refl.
Qed.

(** ** Nothing outside is touched. *)
Lemma outside_inst p : outside p = true -> forall o t f, snd (installer E o t f) p = f p.
Proof. intros H o t f. apply (ge_inst _ _ _ GE). apply (hi_outside _ _ _ _ _ HI p H). Qed.

Lemma outside_apart p o : outside p = true -> in_area area o -> apart p o.
Proof.
  intros H (_ & A & B). destruct (hi_outside _ _ _ _ _ HI p H) as (N & _). intros [->|(k & ->)]; apply N; auto.
Qed.

Definition items (its : list item) : Prop := forall it, In it its -> objs it.
Lemma items_apart p its : outside p = true -> items its -> Forall (fun it => apart p (it_out it)) its.
Proof. intros H O. apply Forall_forall. intros it Hin. apply outside_apart; auto. apply (pr_area _ _ _ _ _ PR); auto. Qed.

Lemma validated_found its w ok jobs w1 : items its -> as_found (files w) -> validate_all E its w = (ok, jobs, w1) -> as_found (files w1) /\ items jobs.
Proof.
  intros O A V. split.
  - intros p H. rewrite <- A by auto. exact (proj1 (validate_all_apart E p (outside_inst p H) its w ok jobs w1 (items_apart p its H O) V)).
  - intros it Hin. apply O. revert w ok jobs w1 A V it Hin. clear - O. intros w ok jobs w1 _. revert w ok jobs w1. induction its as [|x its IH]; intros w ok jobs w1 V it Hin; cbn [validate_all] in V.
    + injection V as <- <- <-. destruct Hin.
    + assert (O' : items its) by (intros y Hy; apply O; now right).
      destruct (validate E x w) as [v wa]. destruct v.
      * destruct (validate_all E its wa) as [[ok' jobs'] w2] eqn:V2. injection V as <- <- <-. destruct Hin as [->|Hin]; [now left|right; eauto].
      * cbv zeta in V. destruct (installer E _ _ _) as [oki f2]. destruct oki; [right; eauto|]. injection V as <- <- <-. destruct Hin.
      * injection V as <- <- <-. destruct Hin.
Qed.

Lemma inside_validate its : forall w, validate_all inside its w = validate_all E its w.
Proof.
  induction its as [|it its IH]; intros w; [reflexivity|]. cbn [validate_all]. change (validate inside it w) with (validate E it w).
  destruct (validate E it w) as [v wa]. destruct v; [now rewrite IH| |reflexivity].
  cbv zeta. change (installer inside) with (installer E). unfold now. change (clock inside) with (clock E). destruct (installer E _ _ _) as [oki f2]. destruct oki; auto.
Qed.

Definition jfound (x : jst) : Prop := as_found (files (jw x)).

Lemma jobs_same jobs t : items jobs -> Forall2 (act_same jst jfound) (job_prog E jobs t) (job_prog inside jobs t).
Proof.
  intros O. assert (K : forall b x, In b (job_prog E jobs t) -> jfound x -> jfound (b x)).
  { intros b x Hb Jx p H. rewrite <- (Jx p H). apply (act_apart E p (outside_inst p H) jobs t b x); auto.
    intros it Hin. pose proof (items_apart p jobs H O) as F. rewrite Forall_forall in F. auto. }
  unfold job_prog in *. destruct (nth_error jobs t) as [it|]; [|constructor].
  repeat (constructor; [intros x Jx; split; [|apply K; cbn; auto 10]|]); [..|constructor].
  - unfold act_deps. now rewrite inside_deps.
  - reflexivity.
  - unfold act_compile. now rewrite inside_obj.
  - reflexivity.
  - reflexivity.
Qed.

Lemma inside_pool jobs ok w s : items jobs -> as_found (files w) -> pool_state E jobs ok w s ->
  exists s', pool_state inside jobs ok w s' /\ same jst jfound s s'.
Proof.
  intros O A R. unfold pool_state in *. change (ncpus inside) with (ncpus E).
  apply (same_reachable jst (job_prog E jobs) (job_prog inside jobs) job_stops jfound); auto. intros t. now apply jobs_same.
Qed.

Lemma same_finished s s' : same jst jfound s s' -> finished jst s -> finished jst s'.
Proof. intros [W R _] F. rewrite R. exact F. Qed.

Lemma inside_compile its w rv w' : items its -> as_found (files w) -> compile_step E its w rv w' -> compile_step inside its w rv w'.
Proof.
  intros O A (ok & jobs & w1 & s & V & R & F & Ew & Rv). destruct (validated_found _ _ _ _ _ O A V) as (A1 & O1).
  destruct (inside_pool jobs ok w1 s O1 A1 R) as (s' & R' & Sm). exists ok, jobs, w1, s'. rewrite inside_validate.
  split; [exact V|]. split; [exact R'|]. split; [exact (same_finished _ _ Sm F)|]. destruct Sm as [_ Rs _]. rewrite Rs. cbn. auto.
Qed.

Lemma inside_compile_during its w w' : items its -> as_found (files w) -> compile_during E its w w' -> compile_during inside its w w'.
Proof.
  intros O A [(its1 & its2 & ok & jobs & Ei & V)|(ok & jobs & w1 & s & V & R & Ew)].
  - left. exists its1, its2, ok, jobs. now rewrite inside_validate.
  - right. destruct (validated_found _ _ _ _ _ O A V) as (A1 & O1).
    destruct (inside_pool jobs ok w1 s O1 A1 R) as (s' & R' & Sm). exists ok, jobs, w1, s'. rewrite inside_validate.
    split; [exact V|]. split; [exact R'|]. destruct Sm as [_ Rs _]. rewrite Rs. exact Ew.
Qed.

Lemma flags_found r w b f1 : reqs r -> as_found (files w) ->
  frugal_flags (can_write E) (now E w) (files w) (lk_flags r) (lk_out r) = (b, f1) -> as_found f1.
Proof.
  intros O A F p H. rewrite <- (A p H). apply (flags_only _ _ _ _ _ _ _ p F). apply (apart_side E p (outside_inst p H) SFlags).
  apply outside_apart; auto. apply (pr_larea _ _ _ _ _ PR); auto.
Qed.

Lemma inside_do_link r w : as_found (files w) -> do_link inside r w = do_link E r w.
Proof. intros A. unfold do_link. pose proof (inside_ld r (files w) A) as L. unfold ld_on in L. rewrite L. reflexivity. Qed.

Lemma inside_do_link_during r w w' : as_found (files w) -> do_link_during E r w w' -> do_link_during inside r w w'.
Proof.
  intros A. unfold do_link_during. rewrite inside_do_link by auto. pose proof (inside_ld r (files w) A) as L. unfold ld_on in L. rewrite L. auto.
Qed.

Lemma inside_link r w : reqs r -> as_found (files w) -> link_step inside r w = link_step E r w.
Proof.
  intros O A. unfold link_step. change (can_write inside) with (can_write E). change (now inside w) with (now E w).
  destruct (frugal_flags _ _ _ _ _) as [b f1] eqn:F. pose proof (flags_found _ _ _ _ O A F) as A1. cbv zeta.
  rewrite (inside_do_link r (set_files w f1) A1). reflexivity.
Qed.

Lemma inside_link_during r w w' : reqs r -> as_found (files w) -> link_during E r w w' -> link_during inside r w w'.
Proof.
  intros O A. unfold link_during. rewrite inside_link by auto. change (can_write inside) with (can_write E). change (now inside w) with (now E w).
  destruct (frugal_flags _ _ _ _ _) as [b f1] eqn:F. pose proof (flags_found _ _ _ _ O A F) as A1. cbv zeta.
  pose proof (inside_do_link_during r (set_files w f1) w' A1) as D.
  intros [H|[H|H]]; [now left|right; now left|right; right]. destruct b; auto. destruct (frugal_mtime _ _ _) as [[|]|]; auto.
Qed.

Definition wellkept (b : bstep) : Prop := match b with SCompile its => items its | SLink r => reqs r end.

Lemma kept_apart p b : outside p = true -> wellkept b -> step_apart p b.
Proof.
  intros H K. destruct b as [its|r]; cbn in *; [now apply items_apart|]. apply outside_apart; auto. apply (pr_larea _ _ _ _ _ PR); auto.
Qed.

Lemma inside_step b w rv w' : wellkept b -> as_found (files w) -> one_step E b w rv w' -> one_step inside b w rv w' /\ as_found (files w').
Proof.
  intros K A H. split.
  - destruct b as [its|r]; cbn [one_step wellkept] in *; [now apply inside_compile|]. now rewrite inside_link.
  - intros p Hp. rewrite <- (A p Hp). apply (one_step_apart E p (outside_inst p Hp) b w rv w'); auto. now apply kept_apart.
Qed.

Lemma inside_run bs w rv w' : Forall wellkept bs -> as_found (files w) -> run_steps E bs w rv w' -> run_steps inside bs w rv w' /\ as_found (files w').
Proof.
  intros F A R. induction R as [w|b bs w rv w' H N|b bs w rv w1 rv2 w2 H N R IH]; [split; [constructor|exact A]| |];
    inversion F as [|? ? F1 F2]; subst; destruct (inside_step _ _ _ _ F1 A H) as (H' & A1).
  - split; [econstructor; eauto|exact A1].
  - destruct (IH F2 A1) as (R' & A2). split; [econstructor; eauto|exact A2].
Qed.

Lemma inside_during bs w w' : Forall wellkept bs -> as_found (files w) -> during E bs w w' -> during inside bs w w'.
Proof.
  intros F A R. induction R as [w|its bs w w' H|r bs w w' H|b bs w rv w1 w' H N R IH]; [constructor| | |]; inversion F as [|? ? F1 F2]; subst.
  - apply dur_compile. now apply inside_compile_during.
  - apply dur_link. now apply inside_link_during.
  - destruct (inside_step _ _ _ _ F1 A H) as (H' & A1). eapply dur_next; eauto.
Qed.

Lemma script_kept bs : good_script area inst_area objs reqs bs -> Forall wellkept bs.
Proof.
  intros G. apply Forall_forall. intros b Hb. destruct b as [its|r]; cbn.
  - intros it Hin. eapply (gs_objs _ _ _ _ _ G); eauto.
  - apply (gs_reqs _ _ _ _ _ G); auto.
Qed.

Lemma inside_evolves w w' : as_found (files w) -> evolves E area inst_area objs reqs w w' -> evolves inside area inst_area objs reqs w w'.
Proof.
  intros A H. destruct H as [w w' T K S|bs w w' G L R|bs w w' G L SF D].
  - now apply ev_edit.
  - apply (ev_build _ _ _ _ _ bs); auto. apply inside_run; auto using script_kept.
  - apply (ev_cut _ _ _ _ _ bs); auto. apply inside_during; auto using script_kept.
Qed.

Lemma inside_past w0 w : past_inside sg out E inst_area srcs links outside a w0 w ->
  past sg out inside inst_area srcs links w0 w /\ as_found (files w).
Proof.
  induction 1 as [w Em A|w0 w w' H (IH & A) Ev A']; (split; [|assumption]).
  - now constructor.
  - eapply h_step; [exact IH|]. now apply inside_evolves.
Qed.

Lemma inside_build rs w rv w' : good_requests sg out inst_area srcs links rs -> as_found (files w) -> build sg out E rs w rv w' ->
  build sg out inside rs w rv w' /\ as_found (files w').
Proof.
  intros G A (bs & P & R). destruct (plan_wanted sg out E inst_area srcs links WN rs G) as (bs' & P' & GS & _).
  assert (bs' = bs) by congruence. subst bs'. destruct (inside_run bs w rv w' (script_kept bs GS) A R) as (R' & A'). split; auto. exists bs. auto.
Qed.

Theorem inside_current rs w0 w w' : past_inside sg out E inst_area srcs links outside a w0 w -> next_second sg out E links w ->
  good_requests sg out inst_area srcs links rs -> build sg out E rs w 0 w' ->
  (forall it, wanted sg out rs it -> obj_current E (files w') it) /\ (forall r, wanted_link sg out rs r -> link_current E (files w') r).
Proof.
  intros P L G B. destruct (inside_past _ _ P) as (P' & A). destruct (inside_build _ _ _ _ G A B) as (B' & A').
  destruct (products_current sg out inside inst_area srcs links inside_setting rs w0 w w' P' L G B') as (C1 & C2). split.
  - intros it W. destruct (C1 it W) as (text & obj & t & F & C). exists text, obj, t. split; auto. unfold cc_on in *. now rewrite inside_obj in C.
  - intros r W. destruct (C2 r W) as (text & c & t & F & C). exists text, c, t. split; auto. now rewrite inside_ld in C.
Qed.

Theorem inside_clean rs w0 w w' wc wc' : past_inside sg out E inst_area srcs links outside a w0 w -> next_second sg out E links w ->
  good_requests sg out inst_area srcs links rs ->
  (forall p, area p -> files wc p = Absent) -> (forall p, source p -> outside p = false -> same_content (files w p) (files wc p)) -> as_found (files wc) ->
  build sg out E rs w 0 w' -> build sg out E rs wc 0 wc' ->
  forall o, wanted_product sg out rs o -> same_content (files w' o) (files wc' o).
Proof.
  intros P L G Em Src Ac B Bc o W. destruct (inside_past _ _ P) as (P' & A). destruct (inside_build _ _ _ _ G A B) as (B' & A').
  destruct (inside_build _ _ _ _ G Ac Bc) as (Bc' & Ac').
  apply (incremental_clean sg out inside inst_area srcs links inside_setting rs w0 w w' wc wc' P' L G Em); auto.
  intros p Sp. destruct (outside p) eqn:Op; [|auto]. rewrite (A p Op), (Ac p Op). apply same_content_refl.
Qed.
End Inside.
