(** * When a build succeeds: an incremental build succeeds if a build of the same sources can. *)

From Coq Require Import ZArith Ascii String Lia Bool List.
From Verif Require Import Base FileSys Frugal Deps Log Cookie CookieProofs Pool PoolInv SpecPool PoolProofs PoolOwn Build SpecFiles SpecBuild FrugalProofs BuildProofs CompileProofs StepProofs MomentProofs SpecHistory LinkProofs HistoryProofs RebuildProofs.
Import ListNotations.
Local Open Scope nat_scope.

Section Setting.
Variable E : env.
Variables area inst_area : bytes -> Prop.
Hypothesis GE : good_env E area inst_area.
Hypothesis HT : honest_tools E area inst_area.
Hypothesis MONO : monotone (clock E).
Variable objs : item -> Prop.
Variable reqs : link_req -> Prop.
Hypothesis PR : project E area inst_area objs reqs.
Notation source := (source area inst_area).
Notation in_area := (in_area area).
Notation good_script := (good_script area inst_area objs reqs).
Notation Inv := (Inv E area inst_area objs reqs).
Notation started := (started E area inst_area objs reqs).
Notation script_in := (script_in objs reqs).
Notation GL := (GL E area inst_area HT).

Lemma plain_usable f p : plain_file f p -> area p -> usable E f p.
Proof. intros H A. split; [now apply (pr_write _ _ _ _ _ PR)|exact H]. Qed.

Lemma cc_same it fa f : objs it -> (forall p, source p -> same_content (f p) (fa p)) ->
  obj_current E fa it -> exists text obj, cc_on E it f = ToolOk text obj.
Proof.
  intros O Src (text & obj & t & _ & A). destruct (ht_deps _ _ _ HT it fa text obj A) as [d Hd].
  destruct (ht_listed _ _ _ HT it fa f d Hd) as [_ X].
  - intros p [->|Hp]; apply same_content_sym, Src; [now apply (pr_src _ _ _ _ _ PR)|]. eapply (ht_sources _ _ _ HT); eauto.
  - exists text, obj. congruence.
Qed.

Lemma step_succeeds T0 sofar b bs w rv w' fa : started T0 sofar (b :: bs) w ->
  (forall o t f, fst (installer E o t f) = true) ->
  examinable (b :: bs) (files w) ->
  (forall p, source p -> same_content (files w p) (fa p)) ->
  (forall p, In p sofar -> same_content (files w p) (fa p)) ->
  step_current E fa b -> one_step E b w rv w' -> rv = 0%Z.
Proof.
  intros St Ins Ex Src Past Cur H. pose proof St as [S N P Or I R]. rewrite outs_cons in N.
  destruct (nodup_app_l _ _ _ N) as (N1 & N2 & N3). destruct b as [its|r]; cbn [one_step] in H.
  - assert (O : forall it, In it its -> objs it) by (intros it Hin; apply (proj1 S its); cbn; auto).
    assert (GI : good_items area inst_area its (files w)) by (eapply items_good; eauto).
    destruct (Z.eq_dec rv 0) as [|Ne]; auto. exfalso.
    destruct (compile_failure E area inst_area GE its w rv w' GI H Ne) as (it & Hin & [B|[B|[B|B]]]).
    + eapply Ex; eauto. left; auto.
    + apply B, plain_usable; [apply (i_plain _ _ _ _ _ _ I it (O it Hin))|apply (pr_area _ _ _ _ _ PR it (O it Hin))].
    + destruct B as (text & l & B). destruct (cc_same it fa (files w) (O it Hin) Src (Cur it Hin)) as (t' & o' & X).
      unfold cc_on in X. congruence.
    + destruct B as (t & f' & B). rewrite Ins in B. discriminate.
  - assert (Hr : reqs r) by (apply (proj2 S); cbn; auto).
    pose proof (link_stepped E area inst_area GE GL r (req_good E area inst_area GE objs reqs PR r Hr) w rv w' H) as LS.
    destruct (Z.eq_dec rv 0) as [|Ne]; auto. exfalso.
    destruct (ls_blame _ _ _ _ _ _ LS Ne) as [B|[B|B]].
    + apply B, plain_usable; [apply (i_lplain _ _ _ _ _ _ I r Hr)|apply (pr_larea _ _ _ _ _ PR r Hr)].
    + destruct B as (t & l & B). destruct Cur as (text & c & tm & _ & C).
      assert (X : ld_on E r (files w) = ld_on E r fa); [|congruence].
      apply (ht_ld _ _ _ HT). intros p Hp. destruct Or as [Or _]. destruct (Or p Hp); auto.
    + destruct B as (t & f' & B). rewrite Ins in B. discriminate.
Qed.

Theorem run_succeeds bs : forall T0 sofar w rv w' fa, started T0 sofar bs w ->
  (forall o t f, fst (installer E o t f) = true) ->
  examinable bs (files w) ->
  (forall p, source p -> same_content (files w p) (fa p)) ->
  (forall p, In p sofar -> in_area p /\ same_content (files w p) (fa p)) ->
  (forall b, In b bs -> step_current E fa b) -> run_steps E bs w rv w' -> rv = 0%Z.
Proof.
  induction bs as [|b bs IH]; intros T0 sofar w rv w' fa St Ins Ex Src Past Cur H; [now inversion H|].
  assert (Cb : step_current E fa b) by (apply Cur; cbn; auto).
  assert (Past' : forall p, In p sofar -> same_content (files w p) (fa p)) by (intros p Hp; apply Past; auto).
  inversion H as [|b' bs' w1 r1 w2 H1 H2|b' bs' w1 r1 w2 r2 w3 H1 H2 H3]; subst.
  - exfalso. pose proof (step_succeeds _ _ _ _ _ _ _ fa St Ins Ex Src Past' Cb H1). lia.
  - destruct (step_success E area inst_area GE HT MONO objs reqs PR _ _ _ _ _ _ _ St H1 H2) as (-> & St' & [Tk Fr] & C).
    pose proof (st_in _ _ _ _ _ _ _ _ _ St) as S. pose proof (st_nodup _ _ _ _ _ _ _ _ _ St) as N. rewrite outs_cons in N.
    destruct (nodup_app_l _ _ _ N) as (N1 & N2 & N3).
    assert (Src' : forall p, source p -> files w2 p = files w p).
    { intros p Sp. apply Fr; [apply Sp|]. intros o Ho. eapply source_not_area; eauto. eapply step_out_area; eauto. }
    apply (IH _ _ _ rv w' fa St'); auto.
    + intros its it Hs Hin U. eapply (Ex its it); eauto; [right; auto|]. eapply unexaminable_ext; [|exact U].
      assert (O : objs it) by (apply (proj1 S its); auto; right; auto).
      assert (Own : forall p, belongs (it_out it) p -> files w2 p = files w p).
      { intros p B. apply Fr; [eapply belongs_kept; eauto; now apply (pr_area _ _ _ _ _ PR)|]. intros o Ho.
        apply (belongs_distinct area (it_out it)); auto; [now apply (pr_area _ _ _ _ _ PR)|eapply step_out_area; eauto|].
        intros X. subst o. eapply N3; eauto. eapply in_outs_compile; eauto. }
      intros p R. destruct R as [->|[->|[->|[->|(c & Hc & Hd)]]]].
      * apply Own. right. exists SFlags. reflexivity.
      * apply Own. right. exists SDeps. reflexivity.
      * apply Own. left. reflexivity.
      * apply Src'. now apply (pr_src _ _ _ _ _ PR).
      * apply Src'. assert (I' : Inv w2) by apply (st_inv _ _ _ _ _ _ _ _ _ St'). apply (i_dep _ _ _ _ _ _ I' it O c p Hc Hd).
    + intros p Sp. rewrite Src'; auto.
    + intros p Hp. apply sofar_after_in in Hp. destruct Hp as [Hp|Hp].
      * split; [eapply step_out_area; eauto|].
        apply (current_unique E area inst_area HT objs reqs PR [b] sofar (files w2) fa).
        -- split; [intros its it [X|[]]; apply (proj1 S its); cbn; auto|intros r [X|[]]; apply (proj2 S); cbn; auto].
        -- pose proof (st_ord _ _ _ _ _ _ _ _ _ St) as Or. destruct b; cbn in *; tauto.
        -- intros q Sq. rewrite Src'; auto.
        -- intros q Hq. destruct (Past q Hq) as [Aq X]. rewrite Fr; auto; [apply (ge_apart _ _ _ GE), Aq|].
           intros o Ho. apply (belongs_distinct area q); auto; [eapply step_out_area; eauto| |left; auto].
           intros Y. subst o. eapply (st_past _ _ _ _ _ _ _ _ _ St); eauto. rewrite outs_cons. apply in_or_app; auto.
        -- intros b' [<-|[]]. exact C.
        -- intros b' [<-|[]]. exact Cb.
        -- rewrite outs_cons. apply in_or_app; auto.
      * destruct (Past p Hp) as [Aq X]. split; auto. rewrite Fr; auto; [apply (ge_apart _ _ _ GE), Aq|].
        intros o Ho. apply (belongs_distinct area p); auto; [eapply step_out_area; eauto| |left; auto].
        intros Y. subst o. eapply (st_past _ _ _ _ _ _ _ _ _ St); eauto. rewrite outs_cons. apply in_or_app; auto.
    + intros b' Hb. apply Cur. right; auto.
Qed.

(** Every build has some result. *)
Theorem run_total bs : forall w, exists rv w', run_steps E bs w rv w'.
Proof.
  induction bs as [|b bs IH]; intros w; [exists 0%Z, w; constructor|].
  assert (X : exists rv w1, one_step E b w rv w1).
  { destruct b as [its|r]; cbn; [apply compile_total|]. destruct (link_step E r w) as [rv w1]. eauto. }
  destruct X as (rv & w1 & X). destruct (Z.ltb_spec rv 0).
  - exists (-1)%Z, w1. econstructor; eauto.
  - destruct (IH w1) as (rv2 & w2 & Y). exists rv2, w2. econstructor; eauto.
Qed.

(** A build in any state a history leaves, compared with a clean build of the same sources. *)
Theorem history_like_clean w0 w bs wc wc' rv w' : history E area inst_area objs reqs w0 w -> good_script bs -> later E reqs w ->
  (forall p, area p -> files wc p = Absent) -> (forall p, source p -> same_content (files w p) (files wc p)) ->
  run_steps E bs wc 0 wc' ->
  (forall o t f, fst (installer E o t f) = true) -> examinable bs (files w) ->
  run_steps E bs w rv w' ->
  rv = 0%Z /\ forall o, In o (outs bs) -> same_content (files w' o) (files wc' o).
Proof.
  intros H G L Em Src Rc Ins Ex R.
  assert (Hc : history E area inst_area objs reqs wc wc) by now constructor.
  assert (Lc : later E reqs wc).
  { intros r c t A F. rewrite Em in F by (apply (pr_larea _ _ _ _ _ PR r A)). discriminate. }
  assert (Cc : forall b, In b bs -> step_current E (files wc') b) by (eapply history_build; eauto).
  assert (Stc : started (clock E (tick wc)) [] bs wc) by (eapply script_started; eauto; eapply history_inv; eauto).
  assert (St : started (clock E (tick w)) [] bs w) by (eapply script_started; eauto; eapply history_inv; eauto).
  assert (Fc : forall p, source p -> files wc' p = files wc p).
  { intros p Sp. eapply started_run_src; eauto. }
  assert (rv = 0%Z).
  { eapply (run_succeeds bs _ [] w rv w' (files wc')); eauto; [|intros p []]. intros p Sp. rewrite Fc; auto. }
  subst rv. split; auto.
  eapply (current_unique E area inst_area HT objs reqs PR bs []); eauto.
  - apply St.
  - apply G.
  - intros p Sp. rewrite Fc by auto. rewrite (started_run_src E area inst_area GE HT MONO objs reqs PR _ _ _ _ _ St R p Sp). auto.
  - intros p [].
  - exact (history_build E area inst_area GE HT MONO objs reqs PR w0 w bs w' H G L R).
Qed.

(** A clean build makes everything, once. *)
Theorem clean_build w bs w' : good_script bs -> (forall p, area p -> files w p = Absent) -> run_steps E bs w 0 w' ->
  (forall its it, In (SCompile its) bs -> In it its ->
     makes (it_out it) (ran w') = S (makes (it_out it) (ran w)) /\
     exists text obj t, files w' (it_out it) = File obj t /\ cc_obj E (argv_flags (it_flags it)) (it_src it) (files w) = ToolOk text obj) /\
  (forall r, In (SLink r) bs ->
     makes (lk_out r) (ran w') = S (makes (lk_out r) (ran w)) /\ link_current E (files w') r).
Proof.
  intros G Em R.
  assert (Hc : history E area inst_area objs reqs w w) by now constructor.
  assert (Lc : later E reqs w) by (intros r c t A F; rewrite Em in F by (apply (pr_larea _ _ _ _ _ PR r A)); discriminate).
  assert (St : started (clock E (tick w)) [] bs w) by (eapply script_started; eauto; eapply history_inv; eauto).
  assert (Cur : forall b, In b bs -> step_current E (files w') b) by (eapply history_build; eauto).
  assert (Src : forall p, source p -> files w' p = files w p) by (intros p Sp; eapply started_run_src; eauto).
  pose proof (history_rebuilds E area inst_area GE HT MONO objs reqs PR w w bs w' Hc G Lc R) as RB.
  split.
  - intros its it Hs Hin. assert (O : objs it) by (eapply (gs_objs _ _ _ _ _ G); eauto).
    destruct (pr_area _ _ _ _ _ PR it O) as (_ & Ao & Ak).
    split.
    + destruct (rb_obj _ _ _ _ RB its it Hs Hin) as [[F _]|[_ [M _]]].
      * exfalso. destruct F as [(c & t & X & _) _]. unfold flags_path in X. change (it_out it ++ lit ".flags") with (side_file SFlags (it_out it)) in X.
        rewrite Em in X by auto. discriminate.
      * exact M.
    + destruct (Cur _ Hs it Hin) as (text & obj & t & A & B). exists text, obj, t. split; auto. unfold cc_on in B. rewrite <- B.
      apply (ge_obj _ _ _ GE). intros p Sp. symmetry. auto.
  - intros r Hs. assert (O : reqs r) by (eapply (gs_reqs _ _ _ _ _ G); eauto). split; [|apply (Cur _ Hs)].
    destruct (pr_larea _ _ _ _ _ PR r O) as (_ & Ao & Ak).
    destruct (rb_link _ _ _ _ RB r Hs) as [[[F _] _]|[_ [M _]]].
    + exfalso. destruct F as [(c & t & X & _) _]. unfold flags_path in X. change (it_out (as_item r) ++ lit ".flags") with (side_file SFlags (lk_out r)) in X.
      rewrite Em in X by (apply Ak). discriminate.
    + exact M.
Qed.
End Setting.
