(** * Builds of script requests at the same time. *)

From Coq Require Import ZArith Ascii String Lia Bool List.
From Verif Require Import Base FileSys Frugal Deps Log Cookie CookieProofs Pool Build SpecFiles SpecBuild SpecHistory Plan SpecPlan PlanProofs.
From Verif Require Import HistoryProofs RebuildProofs BuildTheorems Together SpecTogether TogetherProofs.
Import ListNotations.
Local Open Scope nat_scope.

(** A schedule: which process moves, and which of its jobs. *)
Fixpoint follow (E : env) (whole : bool) (l : list (nat * nat)) (s : sys) : option sys :=
  match l with
  | [] => Some s
  | (i, c) :: l' =>
    match pstep E whole c (procs s i) (shared s) with
    | Some (p, w) => follow E whole l' (Sys (fun j => if Nat.eqb j i then p else procs s j) w)
    | None => None
    end
  end.

Lemma goes_trans E whole s1 s2 s3 : goes E whole s1 s2 -> goes E whole s2 s3 -> goes E whole s1 s3.
Proof. intros A B. induction B as [|x y z B IH M]; auto. exact (go_more _ _ _ _ _ (IH A) M). Qed.

Lemma follow_goes E whole l : forall s s', follow E whole l s = Some s' -> goes E whole s s'.
Proof.
  induction l as [|[i c] l IH]; intros s s' H; cbn in H; [injection H as <-; constructor|].
  destruct (pstep E whole c (procs s i) (shared s)) as [[p w]|] eqn:St; [|discriminate].
  eapply goes_trans; [eapply go_more; [constructor|]; econstructor; eauto|]. eauto.
Qed.

Lemma one_link bs : forall r r', NoDup (outs bs) -> In (SLink r) bs -> In (SLink r') bs -> lk_out r = lk_out r' -> r = r'.
Proof.
  induction bs as [|b bs IH]; intros r r' ND A B Eq; [contradiction|]. unfold outs in ND. cbn in ND.
  destruct (nodup_app_l _ _ _ ND) as (_ & N2 & N3). destruct A as [->|A], B as [B|B].
  - congruence.
  - exfalso. apply (N3 (lk_out r)); [left; auto|]. rewrite Eq. apply (in_outs_link r' bs B).
  - subst b. exfalso. apply (N3 (lk_out r')); [left; auto|]. rewrite <- Eq. apply (in_outs_link r bs A).
  - apply IH; auto.
Qed.

Section Setting.
Variables (sg : bool) (out : bytes) (E : env) (inst_area srcs : bytes -> Prop) (links : link_kind -> list bytes -> Prop).
Hypothesis ST : setting sg out E inst_area srcs links.
Notation area := (product_dir out).
Notation source := (source area inst_area).
Notation objs := (named_item sg out srcs).
Notation reqs := (named_link sg out links).
Notation past := (past sg out E inst_area srcs links).
Notation next_second := (next_second sg out E links).
Notation good := (good_requests sg out inst_area srcs links).
Notation build := (build sg out).
Notation wanted := (wanted sg out).
Notation wanted_link := (wanted_link sg out).
Notation wanted_product := (wanted_product sg out).

Let GE := set_env _ _ _ _ _ _ ST.
Let HT := set_tools _ _ _ _ _ _ ST.
Let MONO := set_clock _ _ _ _ _ _ ST.
Let WN := set_names _ _ _ _ _ _ ST.
Let PR := named_project sg out E inst_area srcs links WN.

Lemma wanted_linked rs bs r : good rs -> plan sg out rs = Ok bs -> In (SLink r) bs -> wanted_link rs r.
Proof.
  intros G P Hr. destruct (plan_wanted sg out E inst_area srcs links WN rs G) as (bs' & P' & GS & W1 & W2 & W3).
  assert (bs' = bs) by congruence. subst bs'. pose proof (in_outs_link r bs Hr) as Ho. apply W3 in Ho.
  destruct Ho as [(it & W & Eo)|(r' & W & Eo)].
  - exfalso. destruct (W1 it W) as (its & A & B). symmetry in Eo. revert Eo. apply (pr_apart _ _ _ _ _ PR).
    + eapply (gs_objs _ _ _ _ _ GS); eauto.
    + eapply (gs_reqs _ _ _ _ _ GS); eauto.
  - rewrite (one_link bs r r'); auto. apply GS.
Qed.

Section Runs.
Variables (rs : nat -> list req) (w : world) (bs : nat -> list bstep) (s : sys).
Hypothesis H : Inv E area inst_area objs reqs w.
Hypothesis L : next_second w.
Hypothesis G : forall i, good (rs i).
Hypothesis A : agree sg out rs.
Hypothesis F : same_flags_asked sg out rs (files w).
Hypothesis P : forall i, plan sg out (rs i) = Ok (bs i).
Hypothesis Go : goes E true (Sys (fun i => PNext (bs i)) w) s.

Lemma scripts_good i : good_script area inst_area objs reqs (bs i) /\
  (forall it, wanted (rs i) it -> exists its, In (SCompile its) (bs i) /\ In it its) /\
  (forall r, wanted_link (rs i) r -> In (SLink r) (bs i)) /\
  (forall o, In o (outs (bs i)) <-> wanted_product (rs i) o).
Proof.
  destruct (plan_wanted sg out E inst_area srcs links WN (rs i) (G i)) as (bs' & P' & X). assert (bs' = bs i) by (rewrite (P i) in P'; congruence). subst bs'. exact X.
Qed.

Lemma item_wanted i its it : In (SCompile its) (bs i) -> In it its -> wanted (rs i) it.
Proof. intros B C. destruct (scripts_good i) as (GS & _). exact (wanted_item sg out E inst_area srcs links ST (rs i) (bs i) it its (G i) (P i) GS B C). Qed.

Lemma one_item a b : Wt bs a -> Wt bs b -> it_out a = it_out b -> a = b.
Proof.
  intros (i1 & its1 & A1 & B1) (i2 & its2 & A2 & B2) Eo.
  pose proof (gs_objs _ _ _ _ _ (proj1 (scripts_good i1)) _ _ A1 B1) as O1. pose proof (gs_objs _ _ _ _ _ (proj1 (scripts_good i2)) _ _ A2 B2) as O2.
  pose proof (pr_same _ _ _ _ _ PR a b O1 O2 Eo) as Es.
  pose proof (proj1 A i1 i2 a b (item_wanted _ _ _ A1 B1) (item_wanted _ _ _ A2 B2) Eo) as Ef.
  destruct a, b. cbn in *. congruence.
Qed.
Lemma one_request a b : Lt bs a -> Lt bs b -> lk_out a = lk_out b -> a = b.
Proof.
  intros (i1 & A1) (i2 & A2) Eo.
  pose proof (gs_reqs _ _ _ _ _ (proj1 (scripts_good i1)) _ A1) as O1. pose proof (gs_reqs _ _ _ _ _ (proj1 (scripts_good i2)) _ A2) as O2.
  destruct (pr_lsame _ _ _ _ _ PR a b O1 O2 Eo) as [Ek Es].
  pose proof (proj2 A i1 i2 a b (wanted_linked _ _ _ (G i1) (P i1) A1) (wanted_linked _ _ _ (G i2) (P i2) A2) Eo) as Ef.
  destruct a, b. cbn in *. congruence.
Qed.
Lemma asked_same j : same_flags (bs j) (files w).
Proof.
  split.
  - intros its it c t B C Ff. eapply (proj1 F); eauto. eapply item_wanted; eauto.
  - intros r c t B Ff. eapply (proj2 F); eauto. eapply wanted_linked; eauto.
Qed.
Lemma is_later : later E reqs w.
Proof. intros r c t (Lk & Eo & _) Ff. rewrite Eo in Ff. eapply L; eauto. Qed.

Theorem team_kept : Inv E area inst_area objs reqs (shared s).
Proof.
  exact (team_inv E area inst_area GE HT MONO objs reqs PR bs (fun j => proj1 (scripts_good j)) one_item one_request w H is_later asked_same s Go).
Qed.

Lemma ended i : succeeded s i ->
  (forall p, source p -> files (shared s) p = files w p) /\
  (forall its it, In (SCompile its) (bs i) -> In it its -> obj_current E (files (shared s)) it) /\
  (forall r, In (SLink r) (bs i) -> link_current E (files (shared s)) r).
Proof.
  exact (ended_right E area inst_area GE HT MONO objs reqs PR bs (fun j => proj1 (scripts_good j)) one_item one_request w H is_later asked_same s i Go).
Qed.

Theorem each_right i : succeeded s i ->
  (forall p, source p -> files (shared s) p = files w p) /\
  (forall it, wanted (rs i) it -> obj_current E (files (shared s)) it) /\
  (forall r, wanted_link (rs i) r -> link_current E (files (shared s)) r).
Proof.
  intros Sc. destruct (ended i Sc) as (X & Y & Z). destruct (scripts_good i) as (_ & W1 & W2 & _).
  split; auto. split; auto. intros it W. destruct (W1 it W) as (its & B & C). eauto.
Qed.

Theorem each_clean i wc wc' : succeeded s i ->
  (forall p, area p -> files wc p = Absent) -> (forall p, source p -> same_content (files w p) (files wc p)) ->
  build E (rs i) wc 0 wc' -> forall o, wanted_product (rs i) o -> same_content (files (shared s) o) (files wc' o).
Proof.
  intros Sc Em Src (bs' & P' & Rc) o W. assert (bs' = bs i) by (rewrite (P i) in P'; congruence). subst bs'.
  destruct (scripts_good i) as (GS & _ & _ & W3). destruct (ended i Sc) as (X & Y & Z).
  assert (Hc : past wc wc) by (now constructor).
  assert (Lc : later E reqs wc).
  { intros r c t Q Ff. rewrite Em in Ff by (apply (pr_larea _ _ _ _ _ PR r Q)). discriminate. }
  assert (Stc : started E area inst_area objs reqs (clock E (tick wc)) [] (bs i) wc) by (eapply script_started; eauto; eapply history_inv; eauto).
  apply (current_unique E area inst_area HT objs reqs PR (bs i) [] (files (shared s)) (files wc')).
  - apply Stc.
  - apply GS.
  - intros p Sp. rewrite (RebuildProofs.started_run_src E area inst_area GE HT MONO objs reqs PR _ _ _ _ _ Stc Rc p Sp). rewrite X; auto.
  - intros p [].
  - intros b Hb. destruct b as [its|r]; cbn; eauto.
  - exact (history_build E area inst_area GE HT MONO objs reqs PR wc wc (bs i) wc' Hc GS Lc Rc).
  - now apply W3.
Qed.
End Runs.

(** Histories with such episodes. *)
Notation team_past := (team_past sg out E inst_area srcs links).

Theorem team_history w0 w : team_past w0 w -> Inv E area inst_area objs reqs w.
Proof.
  induction 1 as [w Em|w0 w w' H IH Ev|rs w0 w s H IH L G A F (bs & P & Go)].
  - now apply inv_start.
  - destruct Ev as [w w' Tk Ar Ed|bs w w' G L R|bs w w' G L SF D].
    + apply (inv_edit E area inst_area MONO objs reqs PR w); auto.
    + eapply run_success; eauto. apply script_started; auto.
    + eapply run_cut; eauto. apply script_started; auto.
  - exact (team_kept rs w bs s IH L G A F P Go).
Qed.

Lemma past_team w0 w : past w0 w -> team_past w0 w.
Proof. induction 1; [now constructor|eapply tp_event; eauto]. Qed.

Theorem later_right rs w0 w w' : team_past w0 w -> next_second w -> good rs -> build E rs w 0 w' ->
  (forall p, source p -> files w' p = files w p) /\
  (forall it, wanted rs it -> obj_current E (files w') it) /\ (forall r, wanted_link rs r -> link_current E (files w') r).
Proof.
  intros H L G (bs & P & R). destruct (plan_wanted sg out E inst_area srcs links WN rs G) as (bs' & P' & GS & W1 & W2 & W3).
  assert (bs' = bs) by congruence. subst bs'.
  assert (St : started E area inst_area objs reqs (clock E (tick w)) [] bs w) by (apply script_started; auto; [now apply is_later|eapply team_history; eauto]).
  split; [intros p Sp; exact (RebuildProofs.started_run_src E area inst_area GE HT MONO objs reqs PR _ _ _ _ _ St R p Sp)|].
  assert (C : forall b, In b bs -> step_current E (files w') b) by (eapply run_success; eauto).
  split; [intros it W; destruct (W1 it W) as (its & Hs & Hin); apply (C _ Hs it Hin)|intros r W; apply (C _ (W2 r W))].
Qed.

Theorem later_clean rs w0 w w' wc wc' : team_past w0 w -> next_second w -> good rs -> build E rs w 0 w' ->
  (forall p, area p -> files wc p = Absent) -> (forall p, source p -> same_content (files w p) (files wc p)) ->
  build E rs wc 0 wc' -> forall o, wanted_product rs o -> same_content (files w' o) (files wc' o).
Proof.
  intros H L G B Em Src Bc o W. destruct B as (bs & P & R). destruct Bc as (bs2 & P2 & Rc). assert (bs2 = bs) by congruence. subst bs2.
  destruct (plan_wanted sg out E inst_area srcs links WN rs G) as (bs' & P' & GS & W1 & W2 & W3).
  assert (bs' = bs) by congruence. subst bs'.
  assert (Hc : past wc wc) by (now constructor).
  assert (Lc : later E reqs wc).
  { intros r c t Q Ff. rewrite Em in Ff by (apply (pr_larea _ _ _ _ _ PR r Q)). discriminate. }
  assert (St : started E area inst_area objs reqs (clock E (tick w)) [] bs w) by (apply script_started; auto; [now apply is_later|eapply team_history; eauto]).
  assert (Stc : started E area inst_area objs reqs (clock E (tick wc)) [] bs wc) by (apply script_started; auto; eapply history_inv; eauto).
  apply (current_unique E area inst_area HT objs reqs PR bs [] (files w') (files wc')).
  - apply St.
  - apply GS.
  - intros p Sp. rewrite (RebuildProofs.started_run_src E area inst_area GE HT MONO objs reqs PR _ _ _ _ _ St R p Sp).
    rewrite (RebuildProofs.started_run_src E area inst_area GE HT MONO objs reqs PR _ _ _ _ _ Stc Rc p Sp). auto.
  - intros p [].
  - eapply run_success; [..|exact St|exact R]; auto.
  - eapply run_success; [..|exact Stc|exact Rc]; auto.
  - now apply W3.
Qed.
End Setting.
