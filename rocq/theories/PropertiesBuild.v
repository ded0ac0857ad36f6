(** * C05, C15, C18-C22: builds. *)

From Coq Require Import ZArith Ascii String Lia Bool List.
From Verif Require Import Base FileSys Frugal Deps Log Cookie Pool Build SpecFiles SpecBuild SpecHistory Plan SpecPlan StepProofs PlanProofs BuildTheorems Drive Toy.
Import ListNotations.
Local Open Scope nat_scope.

(** ** The running example: build, edit the header, build again. *)

Definition TE := toy 2 secs.
Definition O0 := [lit "-O0"].
Definition O2 := [lit "-O2"].
Definition first := world_of (after TE O0 start).
Definition edited := wait 5 (edit a_h (lit "H") 20 first).
Definition second := world_of (after TE O0 edited).

Lemma plain_O0 : Forall plain O0.
Proof. apply Forall_cons; [split; apply CookieProofs.not_in_lit_dec; reflexivity|apply Forall_nil]. Qed.
Lemma plain_O2 : Forall plain O2.
Proof. apply Forall_cons; [split; apply CookieProofs.not_in_lit_dec; reflexivity|apply Forall_nil]. Qed.

Lemma ex_setting : setting true toy_out TE nothing_installed toy_srcs toy_links.
Proof. apply toy_setting; [auto|apply secs_monotone]. Qed.
Lemma ex_good : good_requests true toy_out nothing_installed toy_srcs toy_links (script O0).
Proof. apply script_good, plain_O0. Qed.
Lemma ex_first : build true toy_out TE (script O0) start 0 first.
Proof. apply after_build. vm_compute. reflexivity. Qed.
Lemma ex_second_start : next_second true toy_out TE toy_links start.
Proof. apply exe_second. reflexivity. Qed.
Lemma ex_second_edited : next_second true toy_out TE toy_links edited.
Proof. apply exe_second. vm_compute. reflexivity. Qed.
Lemma ex_second : build true toy_out TE (script O0) edited 0 second.
Proof. apply after_build. vm_compute. reflexivity. Qed.

Lemma ex_past : toy_past 2 start edited.
Proof.
  apply past_edit; [|apply src_h|reflexivity]. eapply h_step; [apply past_start|].
  destruct (plan_wanted true toy_out TE nothing_installed toy_srcs toy_links (set_names _ _ _ _ _ _ ex_setting) _ ex_good) as (bs & P & GS & _).
  destruct ex_first as (bs' & P' & R). assert (bs' = bs) by congruence. subst bs'.
  apply (ev_build _ _ _ _ _ bs); auto. apply later_of, ex_second_start.
Qed.

(** ** C05 *)

(** Refuted: the object's name depends on the source alone, and the linked product's on the inputs alone. *)
Theorem C05_same_object_refuted :
  exists (fl1 fl2 : list bytes) (s o : bytes), fl1 <> fl2 /\
  req_products true toy_out (RCompile 1 fl1 [s]) [o] /\ req_products true toy_out (RCompile 2 fl2 [s]) [o].
Proof.
  exists O0, O2, a_c, a_o. split; [discriminate|]. split; repeat constructor.
Qed.
Print Assumptions C05_same_object_refuted.

Theorem C05_same_link_refuted :
  exists (fl1 fl2 : list bytes) (srcs : list bytes) (o : bytes), fl1 <> fl2 /\
  req_products true toy_out (RLink 1 Link fl1 srcs) [o] /\ req_products true toy_out (RLink 2 Link fl2 srcs) [o].
Proof.
  exists O0, O2, [a_o; b_o], exe. split; [discriminate|]. split; rewrite <- exe_ok; constructor.
Qed.
Print Assumptions C05_same_link_refuted.

(** A build with both requests succeeds and leaves only one object, made with the last request's flags. *)
Definition two_rules : list req := [RCompile 1 O0 [b_c]; RCompile 2 O2 [b_c]].
Theorem C05_first_rule_lost_refuted :
  exists w', build true toy_out TE two_rules start 0 w' /\
  wanted true toy_out two_rules (Item O0 b_c b_o) /\ wanted true toy_out two_rules (Item O2 b_c b_o) /\
  (exists t, files w' b_o = File (lit "-O2[B]") t) /\ toy_cc O0 b_c (files w') = ToolOk (lit "warning") (lit "-O0[B]").
Proof.
  pose (bs := [SCompile [Item O0 b_c b_o]; SCompile [Item O2 b_c b_o]]).
  pose (r := build_run TE 400 [0; 1] bs start).
  exists (world_of r). split; [|split; [|split; [|split]]].
  - exists bs. split; [vm_compute; reflexivity|]. apply (build_run_sound TE 400 [0; 1]).
    change (r = Some (0%Z, world_of r)). assert (X : rv_of r = Some 0%Z) by (vm_compute; reflexivity).
    destruct r as [[rv w]|]; [|discriminate]. cbn in *. congruence.
  - exists 1%Z, [b_c]. cbn. split; auto. split; auto. apply b_o_ok.
  - exists 2%Z, [b_c]. cbn. split; auto. split; auto. apply b_o_ok.
  - eexists. vm_compute. reflexivity.
  - vm_compute. reflexivity.
Qed.
Print Assumptions C05_first_rule_lost_refuted.

(** What holds: products of different kinds, or of different sources or inputs as far as C02 and C04 tell them
    apart, are different files. Missing from the full statement: different flags. *)
Theorem C05_products_distinct_partial :
  forall sg out E inst_area srcs links s s' k l o o',
  well_named sg out E inst_area srcs links -> srcs s -> srcs s' -> s <> s' -> links k l ->
  object_of sg out s o -> object_of sg out s' o' -> o <> o' /\ o <> link_cookie sg out k l.
Proof.
  intros sg out E ia srcs links s s' k l o o' W Hs Hs' N L O O'. split.
  - intros ->. apply N. eapply (wn_inj _ _ _ _ _ _ W); eauto.
  - eapply CookieProofs.obj_not_link; eauto.
Qed.
Print Assumptions C05_products_distinct_partial.

Example C05_nonvacuous : a_o <> b_o /\ a_o <> exe.
Proof. split; discriminate. Qed.

(** ** C15 *)

(** In every history in which the flags of an existing product are not changed by a build that fails or is
    interrupted. Missing from the full statement: such builds (refuted below). *)
Theorem C15_recorded_flags_partial :
  forall sg out E inst_area srcs links w0 w it obj t,
  setting sg out E inst_area srcs links -> past sg out E inst_area srcs links w0 w ->
  named_item sg out srcs it -> recorded (files w) it -> files w (it_out it) = File obj t ->
  exists f text, cc_obj E (argv_flags (it_flags it)) (it_src it) f = ToolOk text obj.
Proof. intros sg out E ia srcs links w0 w it obj t ST. exact (flags_truthful sg out E ia srcs links ST w0 w it obj t). Qed.
Print Assumptions C15_recorded_flags_partial.

Theorem C15_recorded_link_flags_partial :
  forall sg out E inst_area srcs links w0 w r c t,
  setting sg out E inst_area srcs links -> past sg out E inst_area srcs links w0 w ->
  named_link sg out links r -> lrecorded (files w) r -> files w (lk_out r) = File c t ->
  exists f text, ld_on E r f = ToolOk text c.
Proof. intros sg out E ia srcs links w0 w r c t ST. exact (link_flags_truthful sg out E ia srcs links ST w0 w r c t). Qed.
Print Assumptions C15_recorded_link_flags_partial.

Example C15_nonvacuous :
  toy_past 2 start edited /\ named_item true toy_out toy_srcs (Item O0 b_c b_o) /\
  recorded (files edited) (Item O0 b_c b_o) /\ exists t, files edited b_o = File (lit "-O0[B]") t.
Proof.
  split; [apply ex_past|]. split; [|split].
  - split; [right; reflexivity|]. split; [apply b_o_ok|apply plain_O0].
  - eexists _, _. split; [vm_compute; reflexivity|reflexivity].
  - eexists. vm_compute. reflexivity.
Qed.

(** One worker: the flags change and [a.c] does not compile; the record of [b.c]'s flags was already updated
    when the pool stopped. The next build, with [a.c] repaired, takes [b.o] to be made with the new flags. *)
Definition SE := toy 1 secs.
Definition one1 := world_of (after SE O0 start).
Definition one2 := wait 5 (edit a_c (lit "!") 20 one1).
Definition one3 := world_of (after SE O2 one2).
Definition one4 := wait 30 (edit a_c (lit "A2") 50 one3).
Definition one5 := world_of (after SE O2 one4).

Theorem C15_failed_build_refuted :
  exists w1 w2 w3 w4 w5 it obj t,
  setting true toy_out SE nothing_installed toy_srcs toy_links /\
  build true toy_out SE (script O0) start 0 w1 /\
  w2 = wait 5 (edit a_c (lit "!") 20 w1) /\ build true toy_out SE (script O2) w2 (-1) w3 /\
  w4 = wait 30 (edit a_c (lit "A2") 50 w3) /\ build true toy_out SE (script O2) w4 0 w5 /\
  wanted true toy_out (script O2) it /\ recorded (files w5) it /\ files w5 (it_out it) = File obj t /\
  forall f text, cc_obj SE (argv_flags (it_flags it)) (it_src it) f <> ToolOk text obj.
Proof.
  exists one1, one2, one3, one4, one5, (Item O2 b_c b_o). eexists. eexists.
  split; [apply toy_setting; [auto|apply secs_monotone]|].
  split; [apply after_build; vm_compute; reflexivity|]. split; [reflexivity|].
  split; [apply after_build; vm_compute; reflexivity|]. split; [reflexivity|].
  split; [apply after_build; vm_compute; reflexivity|].
  split; [exists 1%Z, [a_c; b_c]; cbn; split; [auto|split; [auto|apply b_o_ok]]|].
  split; [eexists _, _; split; [vm_compute; reflexivity|reflexivity]|].
  split; [vm_compute; reflexivity|]. intros f text X.
  change (toy_cc O2 b_c f = ToolOk text (lit "-O0[B]")) in X. unfold toy_cc in X.
  change (bytes_eqb b_c a_c) with false in X. change (bytes_eqb b_c b_c) with true in X. cbv iota in X.
  destruct (content f b_c) as [c|]; [|discriminate X]. destruct (starts_bad c); discriminate X.
Qed.
Print Assumptions C15_failed_build_refuted.

(** ** C18 *)

(** Missing from the full statement: sources with modification times in the future (refuted below), files that
    compile although the preprocessor fails on them, products whose names clash (C05). *)
Theorem C18_noop_partial :
  forall sg out E inst_area srcs links rs w0 w w1 w2 rv w3,
  setting sg out E inst_area srcs links -> inputs_needed E ->
  past sg out E inst_area srcs links w0 w -> next_second sg out E links w -> no_future E (product_dir out) inst_area w ->
  good_requests sg out inst_area srcs links rs ->
  build sg out E rs w 0 w1 ->
  tick w1 <= tick w2 -> (forall p, ~ inst_area p -> files w2 p = files w1 p) ->
  build sg out E rs w2 rv w3 ->
  ran w3 = ran w2 /\ (forall p, ~ inst_area p -> files w3 p = files w2 p) /\
  ((forall o t f, fst (installer E o t f) = true) -> rv = 0%Z).
Proof.
  intros sg out E ia srcs links rs w0 w w1 w2 rv w3 ST.
  exact (noop sg out E ia srcs links ST rs w0 w w1 w2 rv w3).
Qed.
Print Assumptions C18_noop_partial.

Example C18_nonvacuous :
  inputs_needed TE /\ toy_past 2 start edited /\ next_second true toy_out TE toy_links edited /\
  no_future TE (product_dir toy_out) nothing_installed edited /\
  build true toy_out TE (script O0) edited 0 second /\
  build true toy_out TE (script O0) second 0 (world_of (after TE O0 second)) /\
  length (ran second) = 8.
Proof.
  split; [apply toy_inputs|]. split; [apply ex_past|]. split; [apply ex_second_edited|]. split; [|split; [|split]].
  - intros p t Sp M. unfold modified_at, stat in M. assert (F : files edited p = fs_set (files start) a_h (File (lit "H") 20) p).
    { unfold edited, wait, edit. cbn [files]. unfold fs_set at 1 2. destruct (bytes_eqb p a_h) eqn:Eq; auto.
      destruct ex_first as (bs & P & R). 
      assert (St : HistoryProofs.started TE (product_dir toy_out) nothing_installed (named_item true toy_out toy_srcs) (named_link true toy_out toy_links) (clock TE (tick start)) [] bs start).
      { destruct (plan_wanted true toy_out TE nothing_installed toy_srcs toy_links (set_names _ _ _ _ _ _ ex_setting) _ ex_good) as (bs' & P' & GS & _).
        assert (bs' = bs) by congruence. subst bs'. eapply HistoryProofs.script_started; eauto.
        - apply later_of, ex_second_start.
        - eapply HistoryProofs.history_inv; try apply ex_setting; [apply named_project; apply ex_setting|apply past_start]. }
      apply (RebuildProofs.started_run_src TE _ _ (set_env _ _ _ _ _ _ ex_setting) (set_tools _ _ _ _ _ _ ex_setting) secs_monotone _ _
               (named_project _ _ _ _ _ _ (set_names _ _ _ _ _ _ ex_setting)) _ _ _ _ _ St R p Sp). }
    rewrite F in M. clear F. change (clock TE (tick edited)) with (Z.of_nat (tick edited)).
    assert (Tk : Z.of_nat (tick edited) = 22%Z) by (vm_compute; reflexivity). rewrite Tk. clear Tk.
    unfold fs_set, start, tree in M. cbn [files fold_right fst snd] in M. unfold fs_set in M.
    repeat match type of M with context [bytes_eqb p ?q] => destruct (bytes_eqb p q) end; cbn in M; try discriminate; injection M as <-; lia.
  - apply ex_second.
  - apply after_build. vm_compute. reflexivity.
  - vm_compute. reflexivity.
Qed.

(** A source from the future is compiled again by every build. *)
Definition fut1 := world_of (after TE O0 (edit b_c (lit "B") 1000 start)).
Definition fut2 := world_of (after TE O0 fut1).
Theorem C18_future_source_refuted :
  exists w w1 w2,
  setting true toy_out TE nothing_installed toy_srcs toy_links /\ toy_past 2 start w /\
  build true toy_out TE (script O0) w 0 w1 /\ build true toy_out TE (script O0) w1 0 w2 /\
  makes b_o (ran w2) = S (makes b_o (ran w1)).
Proof.
  exists (wait 0 (edit b_c (lit "B") 1000 start)), fut1, fut2. split; [apply ex_setting|].
  split; [apply past_edit; [apply past_start|apply src_b|reflexivity]|].
  split; [apply (after_build TE O0 (edit b_c (lit "B") 1000 start)); vm_compute; reflexivity|].
  split; [apply after_build; vm_compute; reflexivity|]. vm_compute. reflexivity.
Qed.
Print Assumptions C18_future_source_refuted.

(** ** C19 *)

(** In every history, for a build that starts in a later second than the last link. Missing from the full
    statement: builds within the same second (refuted below). *)
Theorem C19_modified_rebuilt_partial :
  forall sg out E inst_area srcs links rs w0 w w' it d c t td,
  setting sg out E inst_area srcs links -> past sg out E inst_area srcs links w0 w -> next_second sg out E links w ->
  good_requests sg out inst_area srcs links rs -> build sg out E rs w 0 w' ->
  wanted sg out rs it -> depends_on (files w) it d ->
  files w (it_out it) = File c t -> modified_at (files w) d td -> (t < td)%Z ->
  remade E (it_out it) w w' /\
  forall r, wanted_link sg out rs r -> In (it_out it) (lk_srcs r) -> remade E (lk_out r) w w'.
Proof.
  intros sg out E ia srcs links rs w0 w w' it d c t td ST.
  exact (modified_rebuilt sg out E ia srcs links ST rs w0 w w' it d c t td).
Qed.
Print Assumptions C19_modified_rebuilt_partial.

(** A link is redone whenever one of its inputs is made again, so chains of links are too. *)
Theorem C19_relinked_partial :
  forall sg out E inst_area srcs links rs w0 w w' r s,
  setting sg out E inst_area srcs links -> past sg out E inst_area srcs links w0 w -> next_second sg out E links w ->
  good_requests sg out inst_area srcs links rs -> build sg out E rs w 0 w' ->
  wanted_link sg out rs r -> In s (lk_srcs r) -> makes s (ran w') <> makes s (ran w) -> remade E (lk_out r) w w'.
Proof.
  intros sg out E ia srcs links rs w0 w w' r s ST. exact (relinked sg out E ia srcs links ST rs w0 w w' r s).
Qed.
Print Assumptions C19_relinked_partial.

(** And nothing else is made again. *)
Theorem C19_nothing_else_partial :
  forall sg out E inst_area srcs links rs w0 w w',
  setting sg out E inst_area srcs links -> past sg out E inst_area srcs links w0 w -> next_second sg out E links w ->
  good_requests sg out inst_area srcs links rs -> build sg out E rs w 0 w' ->
  (forall o, ~ wanted_product sg out rs o -> makes o (ran w') = makes o (ran w)) /\
  (forall it, wanted sg out rs it -> fresh (files w) it -> untouched (it_out it) w w') /\
  (forall r, wanted_link sg out rs r -> lfresh (files w) r -> (forall s, In s (lk_srcs r) -> makes s (ran w') = makes s (ran w)) ->
     untouched (lk_out r) w w').
Proof.
  intros sg out E ia srcs links rs w0 w w' ST. exact (only_needed sg out E ia srcs links ST rs w0 w w').
Qed.
Print Assumptions C19_nothing_else_partial.

Example C19_nonvacuous :
  toy_past 2 start edited /\ build true toy_out TE (script O0) edited 0 second /\
  wanted true toy_out (script O0) (Item O0 a_c a_o) /\ depends_on (files edited) (Item O0 a_c a_o) a_h /\
  files edited a_o = File (lit "-O0[Ah]") 5 /\ modified_at (files edited) a_h 20 /\
  (exists t, files second a_o = File (lit "-O0[AH]") t) /\ (exists t, files second exe = File (lit "-O0[AH]-O0[B]") t) /\
  makes b_o (ran second) = 1.
Proof.
  split; [apply ex_past|]. split; [apply ex_second|].
  split; [exists 1%Z, [a_c; b_c]; cbn; split; [auto|split; [auto|apply a_o_ok]]|].
  split; [right; eexists; split; [vm_compute; reflexivity|right; left; reflexivity]|].
  split; [vm_compute; reflexivity|]. split; [vm_compute; reflexivity|]. split; [eexists; vm_compute; reflexivity|].
  split; [eexists|]; vm_compute; reflexivity.
Qed.

(** Everything from the link on happens within second 6: [b.c] is recompiled, the executable keeps the old code. *)
Definition slow (i : nat) : Z := if Nat.ltb i 13 then 5%Z else 6%Z.
Lemma slow_monotone : monotone slow.
Proof. intros i j H. unfold slow. destruct (Nat.ltb_spec i 13), (Nat.ltb_spec j 13); lia. Qed.
Definition LE := toy 2 slow.
Definition same1 := world_of (after LE O0 start).
Definition same2 := edit b_c (lit "C") 6 same1.
Definition same3 := world_of (after LE O0 same2).
Theorem C19_same_second_refuted :
  exists w1 w2 w3 t,
  setting true toy_out LE nothing_installed toy_srcs toy_links /\
  build true toy_out LE (script O0) start 0 w1 /\
  w2 = edit b_c (lit "C") 6 w1 /\ files w2 b_o = File (lit "-O0[B]") t /\ (t < 6)%Z /\
  build true toy_out LE (script O0) w2 0 w3 /\
  remade LE b_o w2 w3 /\ untouched exe w2 w3 /\ exists t', files w3 exe = File (lit "-O0[Ah]-O0[B]") t'.
Proof.
  exists same1, same2, same3, 5%Z. split; [apply toy_setting; [auto|apply slow_monotone]|].
  split; [apply after_build; vm_compute; reflexivity|]. split; [reflexivity|]. split; [vm_compute; reflexivity|]. split; [lia|].
  split; [apply after_build; vm_compute; reflexivity|].
  split; [split; [vm_compute; reflexivity|]|].
  - exists (lit "-O0[C]"), 20. split; [vm_compute; reflexivity|]. assert (X : tick same2 = 17) by (vm_compute; reflexivity). rewrite X. lia.
  - split; [split; vm_compute; reflexivity|]. eexists. vm_compute. reflexivity.
Qed.
Print Assumptions C19_same_second_refuted.

(** ** C20 *)

(** Every source is compiled exactly once, from the tree as it was, with its flags; every link is made once from
    the final inputs; nothing else is made. *)
Theorem C20_clean_build :
  forall sg out E inst_area srcs links rs w w',
  setting sg out E inst_area srcs links -> good_requests sg out inst_area srcs links rs ->
  (forall p, product_dir out p -> files w p = Absent) ->
  build sg out E rs w 0 w' ->
  (forall it, wanted sg out rs it ->
     makes (it_out it) (ran w') = S (makes (it_out it) (ran w)) /\
     exists text obj t, files w' (it_out it) = File obj t /\ cc_obj E (argv_flags (it_flags it)) (it_src it) (files w) = ToolOk text obj) /\
  (forall r, wanted_link sg out rs r ->
     makes (lk_out r) (ran w') = S (makes (lk_out r) (ran w)) /\ link_current E (files w') r) /\
  (forall o, ~ wanted_product sg out rs o -> makes o (ran w') = makes o (ran w)).
Proof. intros sg out E ia srcs links rs w w' ST. exact (clean sg out E ia srcs links ST rs w w'). Qed.
Print Assumptions C20_clean_build.

(** If some schedule succeeds, every schedule does, with the same products. *)
Theorem C20_any_schedule :
  forall sg out E inst_area srcs links rs w w1 rv w2,
  setting sg out E inst_area srcs links -> good_requests sg out inst_area srcs links rs ->
  (forall p, product_dir out p -> files w p = Absent) ->
  (forall o t f, fst (installer E o t f) = true) ->
  build sg out E rs w 0 w1 -> build sg out E rs w rv w2 ->
  rv = 0%Z /\ forall o, wanted_product sg out rs o -> same_content (files w2 o) (files w1 o).
Proof.
  intros sg out E ia srcs links rs w w1 rv w2 ST G Em Ins B1 B2.
  destruct (clean_past sg out E ia srcs links w Em) as [P N].
  apply (incremental_succeeds sg out E ia srcs links ST rs w w rv w2 w w1 P N G Em); auto.
  - intros p _. apply HistoryProofs.same_content_refl.
  - intros it (cc & ss & _ & _ & Ob) [(c & t & F & _) _].
    rewrite Em in F; [discriminate|]. apply (area_side out (it_out it) SFlags). apply direct_in_area.
    apply (CookieProofs.gen_cookie_direct sg out (it_src it) (lit "o")); [apply CookieProofs.not_in_lit_dec; reflexivity|discriminate|exact Ob].
Qed.
Print Assumptions C20_any_schedule.

(** Some result is always reached. *)
Theorem C20_some_result :
  forall sg out E inst_area srcs links rs w,
  setting sg out E inst_area srcs links -> good_requests sg out inst_area srcs links rs ->
  exists rv w', build sg out E rs w rv w'.
Proof. intros sg out E ia srcs links rs w ST. exact (build_total sg out E ia srcs links ST rs w). Qed.
Print Assumptions C20_some_result.

(** Two schedules: different orders of work, equal products. *)
Definition other_order := world_of (build_run TE 400 [1; 0] (plan_of O0) start).
Example C20_nonvacuous :
  setting true toy_out TE nothing_installed toy_srcs toy_links /\
  good_requests true toy_out nothing_installed toy_srcs toy_links (script O0) /\
  (forall p, product_dir toy_out p -> files start p = Absent) /\
  build true toy_out TE (script O0) start 0 first /\ files first a_o = File (lit "-O0[Ah]") 5.
Proof.
  split; [apply ex_setting|]. split; [apply ex_good|]. split; [intros p (name & ->); reflexivity|].
  split; [apply ex_first|vm_compute; reflexivity].
Qed.

(** ** C21 *)

(** In every history of edits, successful builds with any flags, and failed or interrupted builds that do not
    change the flags of existing products; edits give a file a modification time later than the second of the
    last build. Missing from the full statement: the excluded histories (refuted below and by
    C19_same_second_refuted). *)
Theorem C21_incremental_is_clean_partial :
  forall sg out E inst_area srcs links rs w0 w w' wc wc',
  setting sg out E inst_area srcs links -> past sg out E inst_area srcs links w0 w -> next_second sg out E links w ->
  good_requests sg out inst_area srcs links rs ->
  (forall p, product_dir out p -> files wc p = Absent) ->
  (forall p, source (product_dir out) inst_area p -> same_content (files w p) (files wc p)) ->
  build sg out E rs w 0 w' -> build sg out E rs wc 0 wc' ->
  forall o, wanted_product sg out rs o -> same_content (files w' o) (files wc' o).
Proof.
  intros sg out E ia srcs links rs w0 w w' wc wc' ST. exact (incremental_clean sg out E ia srcs links ST rs w0 w w' wc wc').
Qed.
Print Assumptions C21_incremental_is_clean_partial.

(** It also succeeds whenever the clean build does, if every recorded dependency can still be examined. *)
Theorem C21_incremental_succeeds_partial :
  forall sg out E inst_area srcs links rs w0 w rv w' wc wc',
  setting sg out E inst_area srcs links -> past sg out E inst_area srcs links w0 w -> next_second sg out E links w ->
  good_requests sg out inst_area srcs links rs ->
  (forall p, product_dir out p -> files wc p = Absent) ->
  (forall p, source (product_dir out) inst_area p -> same_content (files w p) (files wc p)) ->
  build sg out E rs wc 0 wc' ->
  (forall o t f, fst (installer E o t f) = true) ->
  (forall it, wanted sg out rs it -> ~ unexaminable (files w) it) ->
  build sg out E rs w rv w' ->
  rv = 0%Z /\ forall o, wanted_product sg out rs o -> same_content (files w' o) (files wc' o).
Proof.
  intros sg out E ia srcs links rs w0 w rv w' wc wc' ST. exact (incremental_succeeds sg out E ia srcs links ST rs w0 w rv w' wc wc').
Qed.
Print Assumptions C21_incremental_succeeds_partial.

(** Every product is what its tool makes of the present files. *)
Theorem C21_products_current_partial :
  forall sg out E inst_area srcs links rs w0 w w',
  setting sg out E inst_area srcs links -> past sg out E inst_area srcs links w0 w -> next_second sg out E links w ->
  good_requests sg out inst_area srcs links rs -> build sg out E rs w 0 w' ->
  (forall it, wanted sg out rs it -> obj_current E (files w') it) /\
  (forall r, wanted_link sg out rs r -> link_current E (files w') r).
Proof.
  intros sg out E ia srcs links rs w0 w w' ST. exact (products_current sg out E ia srcs links ST rs w0 w w').
Qed.
Print Assumptions C21_products_current_partial.

Definition clean_edited := World (tree [(a_c, lit "A", 1%Z); (a_h, lit "H", 1%Z); (b_c, lit "B", 1%Z)]) 3 [] [].
Definition clean_second := world_of (after TE O0 clean_edited).
Example C21_nonvacuous :
  toy_past 2 start edited /\ build true toy_out TE (script O0) edited 0 second /\
  build true toy_out TE (script O0) clean_edited 0 clean_second /\
  (exists t t', files second exe = File (lit "-O0[AH]-O0[B]") t /\ files clean_second exe = File (lit "-O0[AH]-O0[B]") t').
Proof.
  split; [apply ex_past|]. split; [apply ex_second|]. split; [apply after_build; vm_compute; reflexivity|].
  eexists _, _. split; vm_compute; reflexivity.
Qed.

(** The failed change of flags of C15 makes the next successful build differ from a clean one. *)
Definition clean1 := World (tree [(a_c, lit "A2", 0%Z); (a_h, lit "h", 0%Z); (b_c, lit "B", 0%Z)]) 1 [] [].
Definition clean2 := world_of (after SE O2 clean1).
Theorem C21_failed_build_refuted :
  exists w1 w2 w3 w4 w5 wc wc',
  setting true toy_out SE nothing_installed toy_srcs toy_links /\
  build true toy_out SE (script O0) start 0 w1 /\
  w2 = wait 5 (edit a_c (lit "!") 20 w1) /\ build true toy_out SE (script O2) w2 (-1) w3 /\
  w4 = wait 30 (edit a_c (lit "A2") 50 w3) /\ build true toy_out SE (script O2) w4 0 w5 /\
  (forall p, product_dir toy_out p -> files wc p = Absent) /\
  map (content (files wc)) [a_c; a_h; b_c] = map (content (files w4)) [a_c; a_h; b_c] /\
  build true toy_out SE (script O2) wc 0 wc' /\
  content (files w5) exe = Some (lit "-O2[A2h]-O0[B]") /\ content (files wc') exe = Some (lit "-O2[A2h]-O2[B]").
Proof.
  exists one1, one2, one3, one4, one5, clean1, clean2.
  split; [apply toy_setting; [auto|apply secs_monotone]|].
  split; [apply after_build; vm_compute; reflexivity|]. split; [reflexivity|].
  split; [apply after_build; vm_compute; reflexivity|]. split; [reflexivity|].
  split; [apply after_build; vm_compute; reflexivity|].
  split; [intros p (name & ->); reflexivity|]. split; [vm_compute; reflexivity|].
  split; [apply after_build; vm_compute; reflexivity|]. split; vm_compute; reflexivity.
Qed.
Print Assumptions C21_failed_build_refuted.

(** [a.c] is replaced by an older file that does not include [a.h], and [a.h] is deleted: every further build
    fails, although a clean build of the same sources succeeds. *)
Definition inc1 := world_of (inc_after (World (tree [(a_c, lit "#A", 0%Z); (a_h, lit "h", 0%Z)]) 1 [] [])).
Definition inc2 := erase a_h (wait 20 (edit a_c (lit "A") 0 inc1)).
Definition inc3 := world_of (inc_after inc2).
Definition incc := World (tree [(a_c, lit "A", 0%Z)]) 1 [] [].
Theorem C21_deleted_header_refuted :
  exists w0 w1 w2 w3 wc wc',
  setting true toy_out inc nothing_installed inc_srcs inc_links /\
  good_requests true toy_out nothing_installed inc_srcs inc_links inc_script /\
  build true toy_out inc inc_script w0 0 w1 /\
  w2 = erase a_h (wait 20 (edit a_c (lit "A") 0 w1)) /\
  build true toy_out inc inc_script w2 (-1) w3 /\ files w3 a_o = files w1 a_o /\
  (forall p, product_dir toy_out p -> files wc p = Absent) /\
  content (files wc) a_c = content (files w2) a_c /\ content (files wc) a_h = content (files w2) a_h /\
  build true toy_out inc inc_script wc 0 wc'.
Proof.
  exists (World (tree [(a_c, lit "#A", 0%Z); (a_h, lit "h", 0%Z)]) 1 [] []), inc1, inc2, inc3, incc, (world_of (inc_after incc)).
  split; [apply inc_setting|]. split; [apply inc_good|].
  split; [apply inc_build; vm_compute; reflexivity|]. split; [reflexivity|].
  split; [apply inc_build; vm_compute; reflexivity|]. split; [vm_compute; reflexivity|].
  split; [intros p (name & ->); reflexivity|]. split; [vm_compute; reflexivity|]. split; [vm_compute; reflexivity|].
  apply inc_build; vm_compute; reflexivity.
Qed.
Print Assumptions C21_deleted_header_refuted.

(** ** C22 *)

(** Whatever the schedule: the step fails, no command at all is run, and only records of flags change. *)
Theorem C22_unexaminable_fails :
  forall E area inst_area its w rv w' it,
  good_env E area inst_area -> good_items area inst_area its (files w) -> compile_step E its w rv w' ->
  In it its -> unexaminable (files w) it ->
  rv = (-1)%Z /\ ran w' = ran w /\
  (forall p, ~ inst_area p -> (forall it', In it' its -> p <> flags_path (it_out it')) -> files w' p = files w p).
Proof. intros E area ia its w rv w' it GE. exact (compile_abort E area ia GE its w rv w' it). Qed.
Print Assumptions C22_unexaminable_fails.

Example C22_nonvacuous :
  good_env inc (product_dir toy_out) nothing_installed /\ unexaminable (files inc2) (Item [] a_c a_o) /\
  compile_step inc [Item [] a_c a_o] inc2 (-1) (world_of (compile_run inc 400 [0; 1] [Item [] a_c a_o] inc2)).
Proof.
  split; [apply inc_setting|]. split.
  - split; [eexists _, _; split; [vm_compute; reflexivity|reflexivity]|]. eexists. split; vm_compute; reflexivity.
  - apply (compile_run_sound inc 400 [0; 1]).
    assert (X : rv_of (compile_run inc 400 [0; 1] [Item [] a_c a_o] inc2) = Some (-1)%Z) by (vm_compute; reflexivity).
    destruct (compile_run _ _ _ _ _) as [[r w]|]; [|discriminate]. cbn in *. congruence.
Qed.
