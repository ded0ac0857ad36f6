(** * C23: what is shown for a product, over whole histories of builds. *)

From Coq Require Import ZArith Ascii String Lia Bool List.
From Verif Require Import Base FileSys Frugal Deps Log Cookie Pool Build SpecFiles SpecBuild SpecHistory Plan SpecPlan StepProofs PlanProofs BuildTheorems Drive Toy PropertiesBuild.
Import ListNotations.
Local Open Scope nat_scope.

(** After any history without interruptions, a successful build shows, for every product it is asked for,
    exactly one text: what its compiler or linker prints for the present files, whether it ran in this build or
    not. It shows nothing for other products. Missing from the full statement: interrupted builds (refuted
    below). *)
Theorem C23_shows_what_the_tool_prints_partial :
  forall sg out E inst_area srcs links rs w0 w w',
  setting sg out E inst_area srcs links -> settled_past sg out E inst_area srcs links w0 w -> next_second sg out E links w ->
  good_requests sg out inst_area srcs links rs -> build sg out E rs w 0 w' ->
  (forall it, wanted sg out rs it ->
     texts (it_out it) (shown w') = texts (it_out it) (shown w) ++ [cstr (text_of (cc_on E it (files w')))]) /\
  (forall r, wanted_link sg out rs r ->
     texts (lk_out r) (shown w') = texts (lk_out r) (shown w) ++ [cstr (text_of (ld_on E r (files w')))]) /\
  (forall o, ~ wanted_product sg out rs o -> texts o (shown w') = texts o (shown w)).
Proof. intros sg out E ia srcs links rs w0 w w' ST. exact (shown_right sg out E ia srcs links ST rs w0 w w'). Qed.
Print Assumptions C23_shows_what_the_tool_prints_partial.

(** A product that is not made again shows what it showed in the last build that asked for it, and keeps its log
    for the next. *)
Theorem C23_skipped_source_shows_its_log :
  forall sg out E inst_area srcs links rs rs2 w0 w0' w w1 w2 w3 o,
  setting sg out E inst_area srcs links ->
  settled_past sg out E inst_area srcs links w0 w -> next_second sg out E links w ->
  good_requests sg out inst_area srcs links rs -> build sg out E rs w 0 w1 -> wanted_product sg out rs o ->
  (forall p, belongs o p -> files w2 p = files w1 p) ->
  settled_past sg out E inst_area srcs links w0' w2 -> next_second sg out E links w2 ->
  good_requests sg out inst_area srcs links rs2 -> build sg out E rs2 w2 0 w3 -> wanted_product sg out rs2 o ->
  makes o (ran w3) = makes o (ran w2) ->
  exists text, texts o (shown w1) = texts o (shown w) ++ [text] /\ texts o (shown w3) = texts o (shown w2) ++ [text] /\
  forall p, belongs o p -> files w3 p = files w2 p.
Proof.
  intros sg out E ia srcs links rs rs2 w0 w0' w w1 w2 w3 o ST.
  exact (shown_again sg out E ia srcs links ST rs rs2 w0 w0' w w1 w2 w3 o).
Qed.
Print Assumptions C23_skipped_source_shows_its_log.

Notation toy_settled n := (settled_past true toy_out (toy n secs) nothing_installed toy_srcs toy_links).

Lemma settled_start n : toy_settled n start start.
Proof. constructor. intros p (name & ->). reflexivity. Qed.

Lemma settled_edit n w0 w p c t k : toy_settled n w0 w -> source (product_dir toy_out) nothing_installed p -> (Z.of_nat (tick w) < t)%Z ->
  toy_settled n w0 (wait k (edit p c t w)).
Proof.
  intros H Sp T. eapply u_step; [exact H|]. apply se_edit; cbn; [lia| |].
  - intros q A. apply fs_set_diff. intros ->. apply (proj1 Sp). exact A.
  - intros q _. unfold fs_set, modified_at, stat. destruct (bytes_eqb q p) eqn:Eq; auto.
    right. intros t' [= <-]. unfold secs. lia.
Qed.

Lemma ex_settled : toy_settled 2 start edited.
Proof.
  apply settled_edit; [|apply src_h|vm_compute; reflexivity]. eapply u_step; [apply settled_start|].
  destruct (plan_wanted true toy_out TE nothing_installed toy_srcs toy_links (set_names _ _ _ _ _ _ ex_setting) _ ex_good) as (bs & P & GS & _).
  destruct ex_first as (bs' & P' & R). assert (bs' = bs) by congruence. subst bs'.
  apply (se_build _ _ _ _ _ bs start 0%Z first); auto. apply later_of, ex_second_start.
Qed.

(** [b.c] prints a warning; only [a.c] is compiled again in the second build. *)
Example C23_build_nonvacuous :
  toy_settled 2 start edited /\
  build true toy_out TE (script O0) edited 0 second /\
  wanted true toy_out (script O0) (Item O0 b_c b_o) /\
  makes b_o (ran second) = makes b_o (ran edited) /\ makes a_o (ran second) = S (makes a_o (ran edited)) /\
  texts b_o (shown first) = [lit "warning"] /\ texts b_o (shown second) = [lit "warning"; lit "warning"] /\
  texts a_o (shown second) = [[]; []].
Proof.
  split; [apply ex_settled|]. split; [apply ex_second|].
  split; [exists 1%Z, [a_c; b_c]; cbn; split; [auto|split; [auto|apply b_o_ok]]|].
  repeat split; vm_compute; reflexivity.
Qed.

(** Bob is killed after the compiler has written [b.o] and before the log is saved. The next build finds [b.o] up
    to date, and the warning is not shown. *)
Definition cut_at (k : nat) : world := compile_cut SE k [0] [Item O0 a_c a_o; Item O0 b_c b_o] start.
Definition killed : world := wait 5 (cut_at 24).
Definition resumed : world := world_of (after SE O0 killed).

Theorem C23_interrupted_build_refuted :
  exists w1 w2,
  setting true toy_out SE nothing_installed toy_srcs toy_links /\ toy_past 1 start w1 /\
  next_second true toy_out SE toy_links w1 /\
  build true toy_out SE (script O0) w1 0 w2 /\ wanted true toy_out (script O0) (Item O0 b_c b_o) /\
  untouched b_o w1 w2 /\
  cc_on SE (Item O0 b_c b_o) (files w2) = ToolOk (lit "warning") (lit "-O0[B]") /\
  texts b_o (shown w1) = [] /\ texts b_o (shown w2) = [[]].
Proof.
  exists killed, resumed. split; [apply toy_setting; [auto|apply secs_monotone]|]. split; [|split; [|split]].
  - eapply h_step; [|apply (ev_edit _ _ _ _ _ (cut_at 24) killed)].
    + eapply h_step; [apply past_start|].
      destruct (plan_wanted true toy_out SE nothing_installed toy_srcs toy_links
                  (toy_named 1 secs) _ ex_good) as (bs & P & GS & _).
      assert (Eb : Ok bs = Ok (plan_of O0)) by (rewrite <- P; apply script_plan). injection Eb as ->.
      apply (ev_cut _ _ _ _ _ (plan_of O0)); auto.
      * apply later_of, exe_second. reflexivity.
      * split.
        -- intros its it c t [X|[X|[]]]; [|discriminate X]. injection X as <-. intros [<-|[<-|[]]] F; discriminate F.
        -- intros r c t [X|[X|[]]]; [discriminate X|]. injection X as <-. intros F; discriminate F.
      * apply dur_compile. apply compile_cut_during.
    + apply PeanoNat.Nat.le_add_l.
    + reflexivity.
    + intros p _. left. reflexivity.
  - apply exe_second. vm_compute. reflexivity.
  - apply after_build. vm_compute. reflexivity.
  - split; [exists 1%Z, [a_c; b_c]; cbn; split; [auto|split; [auto|apply b_o_ok]]|].
    repeat split; vm_compute; reflexivity.
Qed.
Print Assumptions C23_interrupted_build_refuted.
