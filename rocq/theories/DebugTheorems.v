(** * Builds of script requests, in either mode. *)

From Coq Require Import ZArith Ascii String Lia Bool List.
From Verif Require Import Base FileSys Frugal Deps Log Cookie CookieProofs Pool Build SpecFiles SpecBuild SpecHistory Plan SpecPlan PlanProofs Debug SpecDebug.
From Verif Require Import HistoryProofs RebuildProofs SucceedProofs BuildTheorems DebugProofs.
Import ListNotations.
Local Open Scope nat_scope.

Section Setting.
Variables (sg : bool) (out : bytes) (E : env) (inst_area srcs : bytes -> Prop) (links : link_kind -> list bytes -> Prop).
Hypothesis ST : setting sg out E inst_area srcs links.
Notation area := (product_dir out).
Notation source := (source area inst_area).
Notation objs := (named_item sg out srcs).
Notation reqs := (named_link sg out links).
Notation past := (past sg out E inst_area srcs links).
Notation mixed_past := (mixed_past sg out E inst_area srcs links).
Notation next_second := (next_second sg out E links).
Notation good := (good_requests sg out inst_area srcs links).
Notation build := (build sg out).
Notation wanted := (wanted sg out).
Notation wanted_link := (wanted_link sg out).
Notation wanted_product := (wanted_product sg out).

Let GE := set_env _ _ _ _ _ _ ST.
Let HT := set_tools _ _ _ _ _ _ ST.
Let MONO := set_clock _ _ _ _ _ _ ST.
Let WN := set_names _ _ _ _ _ _ ST.
Let PR := named_project sg out E inst_area srcs links WN.

Lemma plan_of_build T rs rv w w' : good rs -> build T rs w rv w' -> exists bs, run_steps T bs w rv w' /\
  good_script area inst_area objs reqs bs /\
  (forall it, wanted rs it -> exists its, In (SCompile its) bs /\ In it its) /\
  (forall r, wanted_link rs r -> In (SLink r) bs) /\
  (forall o, In o (outs bs) <-> wanted_product rs o) /\ plan sg out rs = Ok bs.
Proof.
  intros G (bs & P & R). destruct (plan_wanted sg out E inst_area srcs links WN rs G) as (bs' & P' & X). exists bs'.
  assert (bs = bs') by congruence. subst bs'. tauto.
Qed.

Lemma second_later' w : next_second w -> later E reqs w.
Proof. intros H r c t (L & Eo & _) F. rewrite Eo in F. eapply H; eauto. Qed.

Theorem products_right T rs w0 w w' : either_mode E T -> mixed_past w0 w -> next_second w -> good rs -> build T rs w 0 w' ->
  (forall it, wanted rs it -> (fresh (files w) it -> headers_known E (files w) it) -> obj_current E (files w') it) /\
  (forall r, wanted_link rs r -> link_current E (files w') r).
Proof.
  intros LK H L G B. destruct (plan_of_build _ _ _ _ _ G B) as (bs & R & GS & W1 & W2 & W3 & _).
  destruct (mixed_run E area inst_area GE HT MONO objs reqs PR T w0 w bs w' LK H GS (second_later' w L) R) as [C _].
  split; [intros it W; destruct (W1 it W) as (its & Hs & Hin); apply (C _ Hs it Hin)|intros r W; apply (C _ (W2 r W))].
Qed.

Theorem like_clean T rs w0 w w' wc wc' : either_mode E T -> mixed_past w0 w -> next_second w -> good rs ->
  (forall it, wanted rs it -> fresh (files w) it -> headers_known E (files w) it) ->
  (forall p, area p -> files wc p = Absent) -> (forall p, source p -> same_content (files w p) (files wc p)) ->
  build T rs w 0 w' -> build E rs wc 0 wc' ->
  forall o, wanted_product rs o -> same_content (files w' o) (files wc' o).
Proof.
  intros LK H L G HK Em Src B Bc o W.
  destruct (plan_of_build _ _ _ _ _ G B) as (bs & R & GS & W1 & W2 & W3 & P).
  destruct (plan_of_build _ _ _ _ _ G Bc) as (bs' & Rc & _ & _ & _ & _ & P'). assert (bs' = bs) by congruence. subst bs'.
  assert (Hc : past wc wc) by (now constructor).
  assert (Lc : later E reqs wc).
  { intros r c t Q F. rewrite Em in F by (apply (pr_larea _ _ _ _ _ PR r Q)). discriminate. }
  assert (St : DebugProofs.started E area inst_area objs reqs (clock E (tick w)) [] bs w).
  { apply DebugProofs.script_started; auto; [now apply second_later'|]. eapply mixed_inv; eauto. }
  destruct (DebugProofs.run_success E area inst_area GE HT MONO objs reqs PR T LK bs _ _ _ _ St R) as (_ & _ & Fr & C).
  assert (Stc : HistoryProofs.started E area inst_area objs reqs (clock E (tick wc)) [] bs wc) by (eapply HistoryProofs.script_started; eauto; eapply history_inv; eauto).
  apply (current_unique E area inst_area HT objs reqs PR bs [] (files w') (files wc')).
  - apply St.
  - apply GS.
  - intros p Sp. rewrite (RebuildProofs.started_run_src E area inst_area GE HT MONO objs reqs PR _ _ _ _ _ Stc Rc p Sp). rewrite Fr; auto; [apply Sp|].
    intros o' Ho'. eapply source_not_area; eauto. eapply outs_area; eauto; apply St.
  - intros p [].
  - intros b Hb. specialize (C b Hb). destruct b as [its|r]; cbn in *; auto. intros it Hin. apply C; auto.
    apply HK. eapply (wanted_item sg out E inst_area srcs links ST rs bs it its G P GS); eauto.
  - exact (history_build E area inst_area GE HT MONO objs reqs PR wc wc bs wc' Hc GS Lc Rc).
  - now apply W3.
Qed.

Theorem after_ordinary T rs w0 w w' wc wc' : either_mode E T -> past w0 w -> next_second w -> good rs ->
  (forall p, area p -> files wc p = Absent) -> (forall p, source p -> same_content (files w p) (files wc p)) ->
  build T rs w 0 w' -> build E rs wc 0 wc' ->
  forall o, wanted_product rs o -> same_content (files w' o) (files wc' o).
Proof.
  intros LK H L G Em Src B Bc. eapply like_clean; eauto; [exact (history_mixed _ _ _ _ _ _ _ H)|].
  intros it W F. eapply (ordinary_known E area inst_area GE HT MONO objs reqs PR w0 w it); eauto.
  destruct (plan_of_build _ _ _ _ _ G B) as (bs & R & GS & W1 & _). destruct (W1 it W) as (its & Hs & Hin).
  eapply (gs_objs _ _ _ _ _ GS); eauto.
Qed.

Theorem either_rebuilds T rs w0 w w' : either_mode E T -> mixed_past w0 w -> next_second w -> good rs -> build T rs w 0 w' ->
  (forall it, wanted rs it -> fresh (files w) it /\ untouched (it_out it) w w' \/ ~ fresh (files w) it /\ remade E (it_out it) w w') /\
  (forall r, wanted_link rs r ->
    (lfresh (files w) r /\ forall s, In s (lk_srcs r) -> makes s (ran w') = makes s (ran w)) /\ untouched (lk_out r) w w' \/
    (~ lfresh (files w) r \/ exists s, In s (lk_srcs r) /\ makes s (ran w') = S (makes s (ran w))) /\ remade E (lk_out r) w w') /\
  (forall o, ~ wanted_product rs o -> makes o (ran w') = makes o (ran w)).
Proof.
  intros LK H L G B. destruct (plan_of_build _ _ _ _ _ G B) as (bs & R & GS & W1 & W2 & W3 & _).
  destruct (mixed_run E area inst_area GE HT MONO objs reqs PR T w0 w bs w' LK H GS (second_later' w L) R) as [_ RB].
  split; [|split].
  - intros it W. destruct (W1 it W) as (its & Hs & Hin). eapply (DebugProofs.rb_obj _ _ _ _ RB); eauto.
  - intros r W. apply (DebugProofs.rb_link _ _ _ _ RB r (W2 r W)).
  - intros o N. apply (DebugProofs.rb_other _ _ _ _ RB). now rewrite W3.
Qed.

Theorem source_noticed T rs w0 w w' it c t td : either_mode E T -> mixed_past w0 w -> next_second w -> good rs -> build T rs w 0 w' ->
  wanted rs it -> files w (it_out it) = File c t ->
  (modified_at (files w) (it_src it) td /\ (t < td)%Z) \/ ~ recorded (files w) it ->
  remade E (it_out it) w w' /\ obj_current E (files w') it /\
  forall r, wanted_link rs r -> In (it_out it) (lk_srcs r) -> remade E (lk_out r) w w' /\ link_current E (files w') r.
Proof.
  intros LK H L G B W F Ch. destruct (either_rebuilds T rs w0 w w' LK H L G B) as (A1 & A2 & _).
  destruct (products_right T rs w0 w w' LK H L G B) as [C1 C2].
  assert (NF : ~ fresh (files w) it).
  { destruct Ch as [[M Lt]|N]; [|intros [X _]; contradiction]. apply (not_fresh_newer (files w) it (it_src it) c t td); auto. left; auto. }
  destruct (A1 it W) as [[X _]|[_ Rm]]; [contradiction|]. split; auto. split; [apply C1; auto; contradiction|].
  intros r Wr Hi. split; [|auto]. destruct (A2 r Wr) as [[[_ X] _]|[_ X]]; auto. exfalso. specialize (X _ Hi). destruct Rm as [Y _]. lia.
Qed.
End Setting.
