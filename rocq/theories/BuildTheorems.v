(** * Builds of script requests. *)

From Coq Require Import ZArith Ascii String Lia Bool List.
From Verif Require Import Base FileSys Frugal Deps Log Cookie CookieProofs Pool PoolInv SpecPool PoolProofs PoolOwn Build SpecFiles SpecBuild FrugalProofs BuildProofs CompileProofs StepProofs MomentProofs SpecHistory LinkProofs HistoryProofs RebuildProofs LogProofs SucceedProofs Plan SpecPlan PlanProofs.
Import ListNotations.
Local Open Scope nat_scope.

Lemma nodup_outs_item bs a b it it2 : NoDup (outs bs) -> In (SCompile a) bs -> In it a -> In (SCompile b) bs -> In it2 b ->
  it_out it = it_out it2 -> it = it2.
Proof.
  induction bs as [|x bs IH]; intros N Ha Hi Hb Hj Eq; [destruct Ha|]. rewrite outs_cons in N. destruct (nodup_app_l _ _ _ N) as (N1 & N2 & N3).
  destruct Ha as [Ea|Ha], Hb as [Eb|Hb]; [subst x|subst x|subst x|].
  - injection Eb as <-. eapply same_out; eauto.
  - exfalso. eapply (N3 (it_out it)); [now apply in_map|]. rewrite Eq. eapply in_outs_compile; eauto.
  - exfalso. eapply (N3 (it_out it2)); [now apply in_map|]. rewrite <- Eq. eapply in_outs_compile; eauto.
  - eauto.
Qed.

Section Setting.
Variables (sg : bool) (out : bytes) (E : env) (inst_area srcs : bytes -> Prop) (links : link_kind -> list bytes -> Prop).
Hypothesis ST : setting sg out E inst_area srcs links.
Notation area := (product_dir out).
Notation source := (source area inst_area).
Notation objs := (named_item sg out srcs).
Notation reqs := (named_link sg out links).
Notation past := (past sg out E inst_area srcs links).
Notation next_second := (next_second sg out E links).
Notation good := (good_requests sg out inst_area srcs links).
Notation build := (build sg out E).
Notation wanted := (wanted sg out).
Notation wanted_link := (wanted_link sg out).
Notation wanted_product := (wanted_product sg out).

Let GE := set_env _ _ _ _ _ _ ST.
Let HT := set_tools _ _ _ _ _ _ ST.
Let MONO := set_clock _ _ _ _ _ _ ST.
Let WN := set_names _ _ _ _ _ _ ST.
Let PR := named_project sg out E inst_area srcs links WN.

Lemma second_later w : next_second w -> later E reqs w.
Proof. intros H r c t (L & Eo & _) F. rewrite Eo in F. eapply H; eauto. Qed.

Lemma the_plan rs rv w w' : good rs -> build rs w rv w' -> exists bs, run_steps E bs w rv w' /\
  good_script area inst_area objs reqs bs /\
  (forall it, wanted rs it -> exists its, In (SCompile its) bs /\ In it its) /\
  (forall r, wanted_link rs r -> In (SLink r) bs) /\
  (forall o, In o (outs bs) <-> wanted_product rs o) /\ plan sg out rs = Ok bs.
Proof.
  intros G (bs & P & R). destruct (plan_wanted sg out E inst_area srcs links WN rs G) as (bs' & P' & X). exists bs'.
  assert (bs = bs') by congruence. subst bs'. tauto.
Qed.

Lemma same_plan rs rv rv2 w w' w2 w2' : good rs -> build rs w rv w' -> build rs w2 rv2 w2' -> exists bs, run_steps E bs w rv w' /\ run_steps E bs w2 rv2 w2' /\
  good_script area inst_area objs reqs bs /\
  (forall it, wanted rs it -> exists its, In (SCompile its) bs /\ In it its) /\
  (forall r, wanted_link rs r -> In (SLink r) bs) /\
  (forall o, In o (outs bs) <-> wanted_product rs o) /\ plan sg out rs = Ok bs.
Proof.
  intros G B B2. destruct (the_plan rs rv w w' G B) as (bs & R & X1 & X2 & X3 & X4 & X5). destruct B2 as (bs2 & P2 & R2).
  assert (bs2 = bs) by congruence. subst bs2. exists bs. tauto.
Qed.

Theorem build_total rs w : good rs -> exists rv w', build rs w rv w'.
Proof.
  intros G. destruct (plan_wanted sg out E inst_area srcs links WN rs G) as (bs & P & _).
  destruct (run_total E bs w) as (rv & w' & R). exists rv, w', bs. auto.
Qed.

Theorem noop rs w0 w w1 w2 rv w3 : inputs_needed E -> past w0 w -> next_second w -> no_future E area inst_area w ->
  good rs -> build rs w 0 w1 -> tick w1 <= tick w2 -> (forall p, ~ inst_area p -> files w2 p = files w1 p) ->
  build rs w2 rv w3 ->
  ran w3 = ran w2 /\ (forall p, ~ inst_area p -> files w3 p = files w2 p) /\
  ((forall o t f, fst (installer E o t f) = true) -> rv = 0%Z).
Proof.
  intros IN H L NF G B Tk Same B2.
  destruct (same_plan _ _ _ _ _ _ _ G B B2) as (bs & R & R2 & GS & _).
  destruct (history_noop E area inst_area GE HT MONO objs reqs PR IN w0 w bs w1 w2 rv w3 H GS (second_later w L) NF R Tk Same R2) as (A1 & A2 & A3).
  split; auto. split; auto. intros Ins. destruct A3 as [A3|(_ & o & t & f & _ & X)]; auto. rewrite Ins in X. discriminate.
Qed.

Lemma not_fresh_newer f it d c t td : depends_on f it d -> f (it_out it) = File c t -> modified_at f d td -> (t < td)%Z -> ~ fresh f it.
Proof.
  intros D F M Lt (_ & c' & Rd & t' & U1 & U2). unfold modified_at, stat in U1. rewrite F in U1. injection U1 as <-.
  assert (Hd : In d (it_src it :: read_deps c')).
  { destruct D as [->|(c2 & X & Y)]; [left; auto|]. right. congruence. }
  destruct (U2 d Hd) as (td' & V1 & V2). unfold modified_at in *. rewrite M in V1. injection V1 as <-. lia.
Qed.

Theorem modified_rebuilt rs w0 w w' it d c t td : past w0 w -> next_second w -> good rs -> build rs w 0 w' ->
  wanted rs it -> depends_on (files w) it d -> files w (it_out it) = File c t -> modified_at (files w) d td -> (t < td)%Z ->
  remade E (it_out it) w w' /\
  forall r, wanted_link rs r -> In (it_out it) (lk_srcs r) -> remade E (lk_out r) w w'.
Proof.
  intros H L G B W D F M Lt. destruct (the_plan _ _ _ _ G B) as (bs & R & GS & W1 & W2 & _).
  pose proof (history_rebuilds E area inst_area GE HT MONO objs reqs PR w0 w bs w' H GS (second_later w L) R) as RB.
  destruct (W1 it W) as (its & Hs & Hin).
  assert (Rm : remade E (it_out it) w w').
  { destruct (rb_obj _ _ _ _ RB its it Hs Hin) as [[Fr _]|[_ X]]; auto. exfalso. eapply not_fresh_newer; eauto. }
  split; auto. intros r Wr Hi. destruct (rb_link _ _ _ _ RB r (W2 r Wr)) as [[[_ X] _]|[_ X]]; auto.
  exfalso. specialize (X _ Hi). destruct Rm as [Y _]. lia.
Qed.

(** A link is redone when any of its inputs is. *)
Theorem relinked rs w0 w w' r s : past w0 w -> next_second w -> good rs -> build rs w 0 w' ->
  wanted_link rs r -> In s (lk_srcs r) -> makes s (ran w') <> makes s (ran w) -> remade E (lk_out r) w w'.
Proof.
  intros H L G B W Hs N. destruct (the_plan _ _ _ _ G B) as (bs & R & GS & _ & W2 & _).
  pose proof (history_rebuilds E area inst_area GE HT MONO objs reqs PR w0 w bs w' H GS (second_later w L) R) as RB.
  destruct (rb_link _ _ _ _ RB r (W2 r W)) as [[[_ X] _]|[_ X]]; auto. exfalso. apply N. auto.
Qed.

(** Nothing is made without a reason. *)
Theorem only_needed rs w0 w w' : past w0 w -> next_second w -> good rs -> build rs w 0 w' ->
  (forall o, ~ wanted_product rs o -> makes o (ran w') = makes o (ran w)) /\
  (forall it, wanted rs it -> fresh (files w) it -> untouched (it_out it) w w') /\
  (forall r, wanted_link rs r -> lfresh (files w) r -> (forall s, In s (lk_srcs r) -> makes s (ran w') = makes s (ran w)) ->
     untouched (lk_out r) w w').
Proof.
  intros H L G B. destruct (the_plan _ _ _ _ G B) as (bs & R & GS & W1 & W2 & W3 & _).
  pose proof (history_rebuilds E area inst_area GE HT MONO objs reqs PR w0 w bs w' H GS (second_later w L) R) as RB.
  split; [|split].
  - intros o N. apply (rb_other _ _ _ _ RB). now rewrite W3.
  - intros it W F. destruct (W1 it W) as (its & Hs & Hin). destruct (rb_obj _ _ _ _ RB its it Hs Hin) as [[_ X]|[X _]]; auto. contradiction.
  - intros r W F I. destruct (rb_link _ _ _ _ RB r (W2 r W)) as [[_ X]|[[X|(s & Hs & X)] _]]; auto; [contradiction|].
    specialize (I s Hs). lia.
Qed.

Theorem clean rs w w' : good rs -> (forall p, area p -> files w p = Absent) -> build rs w 0 w' ->
  (forall it, wanted rs it ->
     makes (it_out it) (ran w') = S (makes (it_out it) (ran w)) /\
     exists text obj t, files w' (it_out it) = File obj t /\ cc_obj E (argv_flags (it_flags it)) (it_src it) (files w) = ToolOk text obj) /\
  (forall r, wanted_link rs r -> makes (lk_out r) (ran w') = S (makes (lk_out r) (ran w)) /\ link_current E (files w') r) /\
  (forall o, ~ wanted_product rs o -> makes o (ran w') = makes o (ran w)).
Proof.
  intros G Em B. destruct (the_plan _ _ _ _ G B) as (bs & R & GS & W1 & W2 & W3 & _).
  destruct (clean_build E area inst_area GE HT MONO objs reqs PR w bs w' GS Em R) as [A1 A2].
  split; [intros it W; destruct (W1 it W) as (its & Hs & Hin); eauto|]. split; [intros r W; apply A2; auto|].
  assert (Hc : past w w) by (constructor; auto).
  assert (Nl : next_second w).
  { intros k l c t _ F. rewrite Em in F; [discriminate|]. apply direct_in_area. apply link_cookie_direct. }
  apply (only_needed rs w w w' Hc Nl G B).
Qed.

Theorem products_current rs w0 w w' : past w0 w -> next_second w -> good rs -> build rs w 0 w' ->
  (forall it, wanted rs it -> obj_current E (files w') it) /\ (forall r, wanted_link rs r -> link_current E (files w') r).
Proof.
  intros H L G B. destruct (the_plan _ _ _ _ G B) as (bs & R & GS & W1 & W2 & W3 & _).
  pose proof (history_build E area inst_area GE HT MONO objs reqs PR w0 w bs w' H GS (second_later w L) R) as C.
  split; [intros it W; destruct (W1 it W) as (its & Hs & Hin); apply (C _ Hs it Hin)|intros r W; apply (C _ (W2 r W))].
Qed.

Lemma clean_past w : (forall p, area p -> files w p = Absent) -> past w w /\ next_second w.
Proof.
  intros Em. split; [constructor; auto|]. intros k l c t _ F. rewrite Em in F; [discriminate|]. apply direct_in_area. apply link_cookie_direct.
Qed.

Theorem incremental_clean rs w0 w w' wc wc' : past w0 w -> next_second w -> good rs ->
  (forall p, area p -> files wc p = Absent) -> (forall p, source p -> same_content (files w p) (files wc p)) ->
  build rs w 0 w' -> build rs wc 0 wc' ->
  forall o, wanted_product rs o -> same_content (files w' o) (files wc' o).
Proof.
  intros H L G Em Src B Bc o W. destruct (same_plan _ _ _ _ _ _ _ G B Bc) as (bs & R & Rc & GS & W1 & W2 & W3 & _).
  destruct (clean_past wc Em) as [Hc Lc].
  assert (St : started E area inst_area objs reqs (clock E (tick w)) [] bs w) by (eapply script_started; eauto; [apply second_later; auto|eapply history_inv; eauto]).
  assert (Stc : started E area inst_area objs reqs (clock E (tick wc)) [] bs wc) by (eapply script_started; eauto; [apply second_later; auto|eapply history_inv; eauto]).
  apply (current_unique E area inst_area HT objs reqs PR bs [] (files w') (files wc')).
  - apply St.
  - apply GS.
  - intros p Sp. rewrite (started_run_src E area inst_area GE HT MONO objs reqs PR _ _ _ _ _ St R p Sp).
    rewrite (started_run_src E area inst_area GE HT MONO objs reqs PR _ _ _ _ _ Stc Rc p Sp). auto.
  - intros p [].
  - exact (history_build E area inst_area GE HT MONO objs reqs PR w0 w bs w' H GS (second_later w L) R).
  - exact (history_build E area inst_area GE HT MONO objs reqs PR wc wc bs wc' Hc GS (second_later wc Lc) Rc).
  - now apply W3.
Qed.

Lemma wanted_item rs bs it its : good rs -> plan sg out rs = Ok bs -> good_script area inst_area objs reqs bs ->
  In (SCompile its) bs -> In it its -> wanted rs it.
Proof.
  intros G P GS Hs Hin.
  destruct (plan_good sg out E inst_area srcs links WN rs G) as (bs' & each & P' & _ & A3 & A4 & A5 & A6).
  assert (bs' = bs) by congruence. subst bs'.
  assert (Ho : In (it_out it) (outs bs)) by (eapply in_outs_compile; eauto).
  rewrite A4 in Ho. unfold outs in Ho. apply in_concat in Ho. destruct Ho as (l & Hl & Ho). apply in_map_iff in Hl. destruct Hl as (b & <- & Hb).
  destruct (forall2_in_r _ _ _ _ _ _ A3 Hb) as (r & Hr & Hx). pose proof (gr_each _ _ _ _ _ _ G _ Hr) as Gr.
  assert (Oi : objs it) by (eapply (gs_objs _ _ _ _ _ GS); eauto).
  destruct r as [cc fl ss|id k fl ss]; cbn in Hx.
  - destruct Hx as (its2 & Hi & ->). cbn in Ho. apply in_map_iff in Ho. destruct Ho as (it2 & Eo & Hit).
    destruct (A5 its2 it2 Hb Hit) as (its3 & Hs3 & Hin3).
    assert (it2 = it).
    { exact (nodup_outs_item bs its3 its it2 it (gs_distinct _ _ _ _ _ GS) Hs3 Hin3 Hs Hin Eo). }
    subst it2. destruct (compile_items_from sg out E inst_area srcs links WN fl ss its2 it (proj2 Gr) Hi Hit) as (F & S1 & S2).
    exists cc, ss. subst fl. auto.
  - exfalso. subst b. destruct Ho as [Eo|[]]. cbn in Eo. destruct Oi as (_ & Ob & _). eapply obj_not_link; eauto.
Qed.

Theorem incremental_succeeds rs w0 w rv w' wc wc' : past w0 w -> next_second w -> good rs ->
  (forall p, area p -> files wc p = Absent) -> (forall p, source p -> same_content (files w p) (files wc p)) ->
  build rs wc 0 wc' ->
  (forall o t f, fst (installer E o t f) = true) -> (forall it, wanted rs it -> ~ unexaminable (files w) it) ->
  build rs w rv w' ->
  rv = 0%Z /\ forall o, wanted_product rs o -> same_content (files w' o) (files wc' o).
Proof.
  intros H L G Em Src Bc Ins Ex B. destruct (same_plan _ _ _ _ _ _ _ G B Bc) as (bs & R & Rc & GS & W1 & W2 & W3 & P).
  destruct (history_like_clean E area inst_area GE HT MONO objs reqs PR w0 w bs wc wc' rv w' H GS (second_later w L) Em Src Rc Ins) as [A1 A2]; auto.
  - intros its it Hs Hin. apply Ex. eapply wanted_item; eauto.
  - split; auto. intros o W. apply A2, W3, W.
Qed.

(** Recorded flags, after any history without a failed change of flags. *)
Theorem flags_truthful w0 w it obj t : past w0 w -> objs it -> recorded (files w) it -> files w (it_out it) = File obj t ->
  exists f text, cc_obj E (argv_flags (it_flags it)) (it_src it) f = ToolOk text obj.
Proof.
  intros H O Rc F. pose proof (history_inv E area inst_area GE HT MONO objs reqs PR w0 w H) as I.
  destruct (i_obj _ _ _ _ _ _ I it O obj t Rc F) as [(f0 & text & A & _) _]. exists f0, text. exact A.
Qed.

Theorem link_flags_truthful w0 w r c t : past w0 w -> reqs r -> lrecorded (files w) r -> files w (lk_out r) = File c t ->
  exists f text, ld_on E r f = ToolOk text c.
Proof.
  intros H O Rc F. pose proof (history_inv E area inst_area GE HT MONO objs reqs PR w0 w H) as I.
  destruct (i_link _ _ _ _ _ _ I r O c t Rc F) as (f0 & text & A & _). exists f0, text. exact A.
Qed.

Notation settled_past := (settled_past sg out E inst_area srcs links).

Theorem shown_right rs w0 w w' : settled_past w0 w -> next_second w -> good rs -> build rs w 0 w' ->
  (forall it, wanted rs it -> texts (it_out it) (shown w') = texts (it_out it) (shown w) ++ [cstr (text_of (cc_on E it (files w')))]) /\
  (forall r, wanted_link rs r -> texts (lk_out r) (shown w') = texts (lk_out r) (shown w) ++ [cstr (text_of (ld_on E r (files w')))]) /\
  (forall o, ~ wanted_product rs o -> texts o (shown w') = texts o (shown w)).
Proof.
  intros H L G B. destruct (the_plan _ _ _ _ G B) as (bs & R & GS & W1 & W2 & W3 & _).
  destruct (history_shown E area inst_area GE HT MONO objs reqs PR w0 w bs w' H GS (second_later w L) R) as (A1 & A2 & _).
  split; [|split].
  - intros it W. destruct (W1 it W) as (its & Hs & Hin). apply (A1 _ _ _ Hs). exists it. auto.
  - intros r W. apply (A1 _ _ _ (W2 r W)). split; auto.
  - intros o N. apply A2. now rewrite W3.
Qed.

Theorem shown_again rs rs2 w0 w0' w w1 w2 w3 o :
  settled_past w0 w -> next_second w -> good rs -> build rs w 0 w1 -> wanted_product rs o ->
  (forall p, belongs o p -> files w2 p = files w1 p) ->
  settled_past w0' w2 -> next_second w2 -> good rs2 -> build rs2 w2 0 w3 -> wanted_product rs2 o ->
  makes o (ran w3) = makes o (ran w2) ->
  exists text, texts o (shown w1) = texts o (shown w) ++ [text] /\ texts o (shown w3) = texts o (shown w2) ++ [text] /\
  forall p, belongs o p -> files w3 p = files w2 p.
Proof.
  assert (K : forall rs w0 w w', settled_past w0 w -> next_second w -> good rs -> build rs w 0 w' -> forall o, wanted_product rs o ->
    texts o (shown w') = texts o (shown w) ++ [log_already_done (files w') o] /\
    (makes o (ran w') = makes o (ran w) -> forall p, belongs o p -> files w' p = files w p)).
  { clear rs rs2 w0 w0' w w1 w2 w3 o. intros rs w0 w w' H L G B o W. destruct (the_plan _ _ _ _ G B) as (bs & R & GS & W1 & W2 & W3 & _).
    destruct (history_shown E area inst_area GE HT MONO objs reqs PR w0 w bs w' H GS (second_later w L) R) as (A1 & _ & A3).
    split; [|intros Mk p; apply A3; auto; now apply W3].
    destruct W as [(it & W & ->)|(r & W & ->)].
    - destruct (W1 it W) as (its & Hs & Hin). destruct (A1 (SCompile its) (it_out it) (cstr (text_of (cc_on E it (files w'))))) as [X Y]; auto.
      { exists it. auto. } now rewrite Y.
    - destruct (A1 (SLink r) (lk_out r) (cstr (text_of (ld_on E r (files w'))))) as [X Y]; auto. { split; auto. } now rewrite Y. }
  intros H L G B W Same H2 L2 G2 B2 Wb Mk.
  destruct (K _ _ _ _ H L G B o W) as [A1 _]. destruct (K _ _ _ _ H2 L2 G2 B2 o Wb) as [A2 A3]. specialize (A3 Mk).
  exists (log_already_done (files w1) o). split; auto. split; auto. rewrite A2. f_equal. f_equal.
  unfold log_already_done, read_file. rewrite A3, Same; auto; right; exists SLog; reflexivity.
Qed.

Theorem settled_is_past w0 w : settled_past w0 w -> past w0 w.
Proof. exact (uninterrupted_history E area inst_area objs reqs w0 w). Qed.

End Setting.
