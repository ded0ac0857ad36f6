(** * C76: several Bobs at the same time. *)

From Coq Require Import ZArith Arith Ascii String Lia Bool List.
From Verif Require Import Base FileSys Frugal Deps Log Cookie Build SpecFiles SpecBuild SpecHistory Plan SpecPlan PlanProofs Drive Toy.
From Verif Require Import Together SpecTogether TogetherTheorems AloneProofs PropertiesBuild.
Import ListNotations.
Local Open Scope nat_scope.

(** Any number of processes build in one project after any history, in any interleaving of their actions; some may
    fail or be killed. Whenever one has succeeded, its products are what the present sources make, then and as long
    as the others go on, and no source was changed. Missing from the full statement: products whose flags have just
    changed, and tools whose output can be seen unfinished (both refuted below). *)
Theorem C76_each_success_is_right_partial :
  forall sg out E inst_area srcs links rs w0 w s i,
  setting sg out E inst_area srcs links -> team_past sg out E inst_area srcs links w0 w -> next_second sg out E links w ->
  (forall j, good_requests sg out inst_area srcs links (rs j)) -> agree sg out rs -> same_flags_asked sg out rs (files w) ->
  at_once sg out E true rs w s -> succeeded s i ->
  (forall p, source (product_dir out) inst_area p -> files (shared s) p = files w p) /\
  (forall it, wanted sg out (rs i) it -> obj_current E (files (shared s)) it) /\
  (forall r, wanted_link sg out (rs i) r -> link_current E (files (shared s)) r).
Proof.
  intros sg out E ia srcs links rs w0 w s i ST H L G A F (bs & P & Go).
  exact (each_right sg out E ia srcs links ST rs w bs s (team_history _ _ _ _ _ _ ST _ _ H) L G A F P Go i).
Qed.
Print Assumptions C76_each_success_is_right_partial.

Theorem C76_like_a_clean_build_partial :
  forall sg out E inst_area srcs links rs w0 w s i wc wc',
  setting sg out E inst_area srcs links -> team_past sg out E inst_area srcs links w0 w -> next_second sg out E links w ->
  (forall j, good_requests sg out inst_area srcs links (rs j)) -> agree sg out rs -> same_flags_asked sg out rs (files w) ->
  at_once sg out E true rs w s -> succeeded s i ->
  (forall p, product_dir out p -> files wc p = Absent) ->
  (forall p, source (product_dir out) inst_area p -> same_content (files w p) (files wc p)) ->
  build sg out E (rs i) wc 0 wc' ->
  forall o, wanted_product sg out (rs i) o -> same_content (files (shared s) o) (files wc' o).
Proof.
  intros sg out E ia srcs links rs w0 w s i wc wc' ST H L G A F (bs & P & Go).
  exact (each_clean sg out E ia srcs links ST rs w bs s (team_history _ _ _ _ _ _ ST _ _ H) L G A F P Go i wc wc').
Qed.
Print Assumptions C76_like_a_clean_build_partial.

(** Nothing that a single process can do is left out: a whole build, or one that is interrupted anywhere, is among the
    courses above, whatever the others have done before, and leaves the files that it would leave by itself. *)
Theorem C76_taking_turns :
  forall sg out E rs w s i rv w',
  1 <= ncpus E -> at_once sg out E true rs w s -> not_begun sg out rs s i -> build sg out E (rs i) (shared s) rv w' ->
  exists s', at_once sg out E true rs w s' /\ only i s s' /\ procs s' i = PEnd rv /\ shared s' = w'.
Proof. exact turn. Qed.
Print Assumptions C76_taking_turns.

Theorem C76_turns_cut_short :
  forall sg out E rs w s i w',
  1 <= ncpus E -> at_once sg out E true rs w s -> not_begun sg out rs s i -> cut_build sg out E (rs i) (shared s) w' ->
  exists s', at_once sg out E true rs w s' /\ only i s s' /\ shared s' = w'.
Proof. exact cut_turn. Qed.
Print Assumptions C76_turns_cut_short.

(** And whatever processes have left behind, killed in any state together or one by one: the next build, by one
    process, makes everything right again. *)
Theorem C76_later_build_is_right_partial :
  forall sg out E inst_area srcs links rs w0 w w',
  setting sg out E inst_area srcs links -> team_past sg out E inst_area srcs links w0 w -> next_second sg out E links w ->
  good_requests sg out inst_area srcs links rs -> build sg out E rs w 0 w' ->
  (forall p, source (product_dir out) inst_area p -> files w' p = files w p) /\
  (forall it, wanted sg out rs it -> obj_current E (files w') it) /\
  (forall r, wanted_link sg out rs r -> link_current E (files w') r).
Proof. intros sg out E ia srcs links rs w0 w w' ST. exact (later_right sg out E ia srcs links ST rs w0 w w'). Qed.
Print Assumptions C76_later_build_is_right_partial.

Theorem C76_later_build_like_a_clean_one_partial :
  forall sg out E inst_area srcs links rs w0 w w' wc wc',
  setting sg out E inst_area srcs links -> team_past sg out E inst_area srcs links w0 w -> next_second sg out E links w ->
  good_requests sg out inst_area srcs links rs -> build sg out E rs w 0 w' ->
  (forall p, product_dir out p -> files wc p = Absent) ->
  (forall p, source (product_dir out) inst_area p -> same_content (files w p) (files wc p)) ->
  build sg out E rs wc 0 wc' ->
  forall o, wanted_product sg out rs o -> same_content (files w' o) (files wc' o).
Proof. intros sg out E ia srcs links rs w0 w w' wc wc' ST. exact (later_clean sg out E ia srcs links ST rs w0 w w' wc wc'). Qed.
Print Assumptions C76_later_build_like_a_clean_one_partial.

(** ** Examples: two processes that build the running example. *)

Definition two (fl : list bytes) (i : nat) : list req := match i with 0 | 1 => script fl | _ => [] end.
Definition two_plans (fl : list bytes) (i : nat) : list bstep := match i with 0 | 1 => plan_of fl | _ => [] end.
Definition both_start (fl : list bytes) (w : world) : sys := Sys (fun i => PNext (two_plans fl i)) w.

Lemma two_planned fl i : plan true toy_out (two fl i) = Ok (two_plans fl i).
Proof. destruct i as [|[|i]]; [apply script_plan|apply script_plan|reflexivity]. Qed.
Lemma two_good fl : Forall plain fl -> forall i, good_requests true toy_out nothing_installed toy_srcs toy_links (two fl i).
Proof.
  intros Pl i. destruct i as [|[|i]]; [now apply script_good|now apply script_good|]. cbn. constructor; [intros r []|constructor|exact Logic.I].
Qed.
Lemma two_wanted fl i it : wanted true toy_out (two fl i) it -> it_flags it = fl.
Proof.
  intros (cc & ss & Hin & _). destruct i as [|[|i]]; cbn in Hin; [| |contradiction]; destruct Hin as [X|[X|[]]]; try discriminate; congruence.
Qed.
Lemma two_linked fl i r : wanted_link true toy_out (two fl i) r -> lk_flags r = [] /\ lk_kind r = Link /\ lk_srcs r = [a_o; b_o].
Proof.
  intros (id & Hin & _). destruct i as [|[|i]]; cbn in Hin; [| |contradiction]; destruct Hin as [X|[X|[]]]; try discriminate; injection X; auto.
Qed.
Lemma two_agree fl : agree true toy_out (two fl).
Proof.
  split.
  - intros i j a b A B _. now rewrite (two_wanted _ _ _ A), (two_wanted _ _ _ B).
  - intros i j a b A B _. destruct (two_linked _ _ _ A) as [-> _]. destruct (two_linked _ _ _ B) as [-> _]. reflexivity.
Qed.
Definition state_of (o : option sys) : sys := match o with Some s => s | None => both_start [] start end.
Definition went (o : option sys) : bool := match o with Some _ => true | None => false end.
Lemma state_went o : went o = true -> o = Some (state_of o).
Proof. destruct o; [reflexivity|discriminate]. Qed.

Lemma followed E whole fl w l : went (follow E whole l (both_start fl w)) = true ->
  at_once true toy_out E whole (two fl) w (state_of (follow E whole l (both_start fl w))).
Proof. intros H. exists (two_plans fl). split; [apply two_planned|]. eapply follow_goes. exact (state_went _ H). Qed.

Definition has_succeeded (s : sys) (i : nat) : bool := match procs s i with PEnd 0 => true | _ => false end.
Lemma has_succeeded_ok s i : has_succeeded s i = true -> succeeded s i.
Proof. unfold has_succeeded, succeeded. destruct (procs s i); try discriminate. destruct rv; try discriminate. reflexivity. Qed.

(** *** Non-vacuity: from a project without products, action by action in turn. *)

Definition in_turn (n c : nat) : list (nat * nat) := concat (repeat [(0, c); (1, c)] n).
(* both look at the records, compile a.c, compile b.c, leave the pool *)
Definition calm : list (nat * nat) :=
  [(0, 0); (1, 0); (0, 0); (0, 0); (0, 0); (1, 0); (1, 0); (1, 0); (1, 0); (1, 0)] ++ in_turn 6 0 ++ in_turn 6 1 ++ [(0, 2); (1, 2)] ++
  [(0, 0); (0, 0); (1, 0); (1, 0); (1, 0); (0, 0); (0, 0); (1, 0); (0, 0); (1, 0); (0, 0); (1, 0); (0, 0); (1, 0); (1, 0)].
Definition calm_end := state_of (follow TE true calm (both_start O0 start)).

Example C76_nonvacuous :
  setting true toy_out TE nothing_installed toy_srcs toy_links /\ team_past true toy_out TE nothing_installed toy_srcs toy_links start start /\ next_second true toy_out TE toy_links start /\
  (forall j, good_requests true toy_out nothing_installed toy_srcs toy_links (two O0 j)) /\ agree true toy_out (two O0) /\
  same_flags_asked true toy_out (two O0) (files start) /\ at_once true toy_out TE true (two O0) start calm_end /\
  succeeded calm_end 0 /\ succeeded calm_end 1 /\
  (exists t, files (shared calm_end) exe = File (lit "-O0[Ah]-O0[B]") t).
Proof.
  split; [apply ex_setting|]. split; [apply past_team, past_start|]. split; [apply ex_second_start|]. split; [apply two_good; apply plain_O0|].
  split; [apply two_agree|]. split.
  - split.
    + intros i it c t (cc & ss & Hin & Hs & Ho) F. exfalso.
      assert (X : it_src it = a_c \/ it_src it = b_c).
      { destruct i as [|[|i]]; cbn in Hin; [| |contradiction]; destruct Hin as [Y|[Y|[]]]; try discriminate; injection Y as _ _ <-; destruct Hs as [<-|[<-|[]]]; auto. }
      pose proof a_o_ok as Ka. pose proof b_o_ok as Kb. unfold object_of in *.
      assert (Eo : it_out it = a_o \/ it_out it = b_o) by (destruct X as [X|X]; rewrite X in Ho; [left|right]; congruence).
      destruct Eo as [Eo|Eo]; rewrite Eo in F; vm_compute in F; discriminate.
    + intros i r c t W F. exfalso. destruct (two_linked _ _ _ W) as (_ & K & S). destruct W as (id & _ & Ho). rewrite K, S, exe_ok in Ho. rewrite Ho in F. vm_compute in F. discriminate.
  - split; [apply followed; vm_compute; reflexivity|].
    split; [apply has_succeeded_ok; vm_compute; reflexivity|]. split; [apply has_succeeded_ok; vm_compute; reflexivity|].
    eexists; vm_compute; reflexivity.
Qed.

(** After an edit, one of the processes is killed while its compiler is at work; the other succeeds. *)
Definition killed : list (nat * nat) := repeat (1, 0) 10 ++ repeat (0, 0) 13 ++ [(0, 1)] ++ repeat (0, 0) 8.
Definition killed_end := state_of (follow TE true killed (both_start O0 edited)).
Definition flags_there (f : fs) (o : bytes) (fl : list bytes) : bool :=
  match f (flags_path o) with File c _ => bytes_eqb (cstr c) (flag_str fl) | _ => false end.
Lemma flags_there_ok f it : flags_there f (it_out it) (it_flags it) = true -> recorded f it.
Proof.
  unfold flags_there, recorded. destruct (f (flags_path (it_out it))); try discriminate. intros H. apply bytes_eqb_eq in H. eauto.
Qed.

Example C76_nonvacuous_killed :
  team_past true toy_out TE nothing_installed toy_srcs toy_links start edited /\ next_second true toy_out TE toy_links edited /\
  same_flags_asked true toy_out (two O0) (files edited) /\ at_once true toy_out TE true (two O0) edited killed_end /\
  succeeded killed_end 0 /\ (exists ok jobs ls done bs, procs killed_end 1 = PJobs ok jobs ls done bs /\ done 0 = 3) /\
  exists t, files (shared killed_end) exe = File (lit "-O0[AH]-O0[B]") t.
Proof.
  split; [apply past_team, ex_past|]. split; [apply ex_second_edited|]. split.
  - split.
    + intros i it c t W F. apply flags_there_ok. rewrite (two_wanted _ _ _ W). destruct W as (cc & ss & Hin & Hs & Ho).
      assert (X : it_src it = a_c \/ it_src it = b_c).
      { destruct i as [|[|i]]; cbn in Hin; [| |contradiction]; destruct Hin as [Y|[Y|[]]]; try discriminate; injection Y as _ _ <-; destruct Hs as [<-|[<-|[]]]; auto. }
      pose proof a_o_ok as Ka. pose proof b_o_ok as Kb. unfold object_of in *.
      assert (Eo : it_out it = a_o \/ it_out it = b_o) by (destruct X as [X|X]; rewrite X in Ho; [left|right]; congruence).
      destruct Eo as [Eo|Eo]; rewrite Eo; vm_compute; reflexivity.
    + intros i r c t W F. unfold lrecorded. apply flags_there_ok. destruct (two_linked _ _ _ W) as (Fl & K & S). destruct W as (id & _ & Ho). rewrite K, S, exe_ok in Ho.
      unfold as_item. cbn [it_out it_flags]. rewrite Ho, Fl. vm_compute. reflexivity.
  - split; [apply followed; vm_compute; reflexivity|]. split; [apply has_succeeded_ok; vm_compute; reflexivity|].
    split; [|eexists; vm_compute; reflexivity].
    assert (Y : match procs killed_end 1 with PJobs _ _ _ d _ => Nat.eqb (d 0) 3 | _ => false end = true) by (vm_compute; reflexivity).
    destruct (procs killed_end 1); try discriminate Y. apply Nat.eqb_eq in Y. do 5 eexists. split; [reflexivity|exact Y].
Qed.

(** Both are killed, a source is edited, and one process builds. *)
Definition cut_both : list (nat * nat) := repeat (1, 0) 10 ++ repeat (0, 0) 11.
Definition left_behind := shared (state_of (follow TE true cut_both (both_start O0 edited))).
Definition reworked := wait 5 (edit b_c (lit "C") 60 left_behind).
Definition repaired := world_of (after TE O2 reworked).

Lemma team_edit w0 w p c t k : team_past true toy_out TE nothing_installed toy_srcs toy_links w0 w ->
  source (product_dir toy_out) nothing_installed p -> (Z.of_nat (tick w) < t)%Z ->
  team_past true toy_out TE nothing_installed toy_srcs toy_links w0 (wait k (edit p c t w)).
Proof.
  intros H Sp T. eapply tp_event; [exact H|]. apply ev_edit; cbn; [lia| |].
  - intros q A. apply fs_set_diff. intros ->. apply (proj1 Sp). exact A.
  - intros q _. unfold fs_set, modified_at, stat. destruct (bytes_eqb q p) eqn:Eq; auto.
    right. intros t' [= <-]. unfold secs. lia.
Qed.

Example C76_nonvacuous_repaired :
  team_past true toy_out TE nothing_installed toy_srcs toy_links start reworked /\
  next_second true toy_out TE toy_links reworked /\ good_requests true toy_out nothing_installed toy_srcs toy_links (script O2) /\
  build true toy_out TE (script O2) reworked 0 repaired /\ (exists t, files repaired exe = File (lit "-O2[AH]-O2[C]") t).
Proof.
  destruct C76_nonvacuous_killed as (H1 & H2 & H3 & _).
  split.
  { apply team_edit; [|apply src_b|vm_compute; reflexivity].
    apply (tp_team true toy_out TE nothing_installed toy_srcs toy_links (two O0) start edited (state_of (follow TE true cut_both (both_start O0 edited)))); auto.
    - apply two_good, plain_O0.
    - apply two_agree.
    - apply followed. vm_compute. reflexivity. }
  split; [apply exe_second; vm_compute; reflexivity|]. split; [apply script_good, plain_O2|].
  split; [apply after_build; vm_compute; reflexivity|]. eexists. vm_compute. reflexivity.
Qed.

(** *** Turns: the second process builds after the first has ended. *)
Example C76_turns_case :
  exists s, at_once true toy_out TE true (two O0) start s /\ not_begun true toy_out (two O0) s 1 /\ shared s = first /\
  build true toy_out TE (two O0 1) (shared s) 0 (world_of (after TE O0 first)) /\
  ran (world_of (after TE O0 first)) = ran first.
Proof.
  destruct ex_first as (bs & P & R).
  assert (A : at_once true toy_out TE true (two O0) start (Sys (fun i => PNext (match i with 0 | 1 => bs | _ => [] end)) start)).
  { exists (fun i => match i with 0 | 1 => bs | _ => [] end). split; [|constructor]. intros [|[|i]]; [exact P|exact P|reflexivity]. }
  set (s0 := Sys _ start) in A.
  destruct (C76_taking_turns true toy_out TE (two O0) start s0 0 0%Z first) as (s & As & O & _ & W).
  - cbn. lia.
  - exact A.
  - exists bs. split; [exact P|reflexivity].
  - exists bs. split; [exact P|exact R].
  - exists s. split; [exact As|]. split; [exists bs; split; [exact P|apply (O 1); discriminate]|]. split; [exact W|]. rewrite W. split; [|vm_compute; reflexivity].
    change (two O0 1) with (script O0). apply after_build. vm_compute. reflexivity.
Qed.

(** *** Changed flags: one process has recorded the new flags and not compiled yet; another takes the old objects
    for what is asked for, and succeeds. *)
Lemma past_wait n w0 w k : toy_past n w0 w -> toy_past n w0 (wait k w).
Proof. intros H. eapply h_step; [exact H|]. apply ev_edit; [cbn; lia|reflexivity|left; reflexivity]. Qed.
Lemma past_wait_first : toy_past 2 start (wait 5 first).
Proof.
  apply past_wait. eapply h_step; [apply past_start|].
  destruct (plan_wanted true toy_out TE nothing_installed toy_srcs toy_links (set_names _ _ _ _ _ _ ex_setting) _ ex_good) as (bs & P & GS & _).
  destruct ex_first as (bs' & P' & R). assert (bs' = bs) by congruence. subst bs'.
  apply (ev_build _ _ _ _ _ bs _ first); auto. apply later_of, ex_second_start.
Qed.

Definition hasty : list (nat * nat) := repeat (0, 0) 3 ++ repeat (1, 0) 14.
Definition hasty_end := state_of (follow TE true hasty (both_start O2 (wait 5 first))).

Theorem C76_changed_flags_refuted :
  exists E rs w0 w s i it,
  setting true toy_out E nothing_installed toy_srcs toy_links /\ past true toy_out E nothing_installed toy_srcs toy_links w0 w /\
  next_second true toy_out E toy_links w /\ (forall j, good_requests true toy_out nothing_installed toy_srcs toy_links (rs j)) /\
  agree true toy_out rs /\ at_once true toy_out E true rs w s /\ succeeded s i /\ wanted true toy_out (rs i) it /\
  ~ obj_current E (files (shared s)) it /\ ran (shared s) = ran w.
Proof.
  exists TE, (two O2), start, (wait 5 first), hasty_end, 1, (Item O2 a_c a_o).
  split; [apply ex_setting|]. split; [apply past_wait_first|]. split; [apply exe_second; vm_compute; reflexivity|].
  split; [apply two_good; apply plain_O2|]. split; [apply two_agree|]. split; [apply followed; vm_compute; reflexivity|].
  split; [apply has_succeeded_ok; vm_compute; reflexivity|].
  split; [exists 1%Z, [a_c; b_c]; split; [left; reflexivity|split; [left; reflexivity|apply a_o_ok]]|].
  split; [|vm_compute; reflexivity].
  intros (text & obj & t & A & B). cbn [it_out] in A.
  assert (X : read_file (files (shared hasty_end)) a_o = Some (lit "-O0[Ah]")) by (vm_compute; reflexivity).
  assert (Y : cc_on TE (Item O2 a_c a_o) (files (shared hasty_end)) = ToolOk [] (lit "-O2[Ah]")) by (vm_compute; reflexivity).
  unfold read_file in X. rewrite A in X. rewrite Y in B. assert (Z : lit "-O0[Ah]" <> lit "-O2[Ah]") by (vm_compute; discriminate). congruence.
Qed.
Print Assumptions C76_changed_flags_refuted.

(** *** Unfinished output: one process links while the compiler run by the other has just opened the object. Within
    one second the other does not notice: both succeed, and the program lacks the object. *)
Definition sudden : env := toy 2 (fun _ => 10%Z).
Definition unlucky : list (nat * nat) :=
  repeat (0, 0) 4 ++ repeat (1, 0) 6 ++ repeat (0, 0) 6 ++ repeat (0, 1) 6 ++ [(0, 2)] ++
  repeat (1, 1) 6 ++ repeat (1, 0) 3 ++ repeat (0, 0) 7 ++ repeat (1, 0) 3 ++ [(1, 2)] ++ repeat (1, 0) 5.
Definition unlucky_end := state_of (follow sudden false unlucky (both_start O0 start)).

Theorem C76_unfinished_output_refuted :
  exists E rs w0 w s r,
  setting true toy_out E nothing_installed toy_srcs toy_links /\ past true toy_out E nothing_installed toy_srcs toy_links w0 w /\
  next_second true toy_out E toy_links w /\ (forall j, good_requests true toy_out nothing_installed toy_srcs toy_links (rs j)) /\
  agree true toy_out rs /\ (forall p, product_dir toy_out p -> files w p = Absent) /\
  at_once true toy_out E false rs w s /\ succeeded s 0 /\ succeeded s 1 /\
  wanted_link true toy_out (rs 0) r /\ wanted_link true toy_out (rs 1) r /\ ~ link_current E (files (shared s)) r.
Proof.
  assert (St : setting true toy_out sudden nothing_installed toy_srcs toy_links).
  { apply toy_setting; [lia|]. intros i j _. apply Z.le_refl. }
  assert (Em : forall p, product_dir toy_out p -> files start p = Absent) by (intros p (name & ->); reflexivity).
  exists sudden, (two O0), start, start, unlucky_end, (LinkReq Link [] [a_o; b_o] exe).
  split; [exact St|]. split; [constructor; exact Em|]. split.
  { intros k l c t [-> ->]. rewrite exe_ok. intros F. vm_compute in F. discriminate. }
  split; [apply two_good; apply plain_O0|]. split; [apply two_agree|]. split; [exact Em|].
  split; [apply followed; vm_compute; reflexivity|].
  split; [apply has_succeeded_ok; vm_compute; reflexivity|]. split; [apply has_succeeded_ok; vm_compute; reflexivity|].
  split; [exists 2%Z; split; [right; left; reflexivity|symmetry; apply exe_ok]|]. split; [exists 2%Z; split; [right; left; reflexivity|symmetry; apply exe_ok]|].
  intros (text & c & t & A & B). cbn [lk_out] in A.
  assert (X : read_file (files (shared unlucky_end)) exe = Some (lit "-O0[B]")) by (vm_compute; reflexivity).
  assert (Y : ld_on sudden (LinkReq Link [] [a_o; b_o] exe) (files (shared unlucky_end)) = ToolOk [] (lit "-O0[Ah]-O0[B]")) by (vm_compute; reflexivity).
  unfold read_file in X. rewrite A in X. rewrite Y in B. assert (Z : lit "-O0[B]" <> lit "-O0[Ah]-O0[B]") by (vm_compute; discriminate). congruence.
Qed.
Print Assumptions C76_unfinished_output_refuted.
