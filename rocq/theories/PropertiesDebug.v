(** * C75: builds in debugging mode. *)

From Coq Require Import ZArith Ascii String Lia Bool List.
From Verif Require Import Base FileSys Frugal Deps Log Cookie Build SpecFiles SpecBuild SpecHistory Plan SpecPlan PlanProofs Drive Toy.
From Verif Require Import Debug SpecDebug DebugTheorems PropertiesBuild.
Import ListNotations.
Local Open Scope nat_scope.

(** After ordinary builds, edits, failures and interruptions, a debugging build that succeeds leaves exactly the
    products a clean ordinary build of the present sources makes. *)
Theorem C75_debugging_build_is_right :
  forall sg out E inst_area srcs links rs w0 w w' wc wc',
  setting sg out E inst_area srcs links -> past sg out E inst_area srcs links w0 w -> next_second sg out E links w ->
  good_requests sg out inst_area srcs links rs ->
  (forall p, product_dir out p -> files wc p = Absent) ->
  (forall p, source (product_dir out) inst_area p -> same_content (files w p) (files wc p)) ->
  build sg out (debugged E) rs w 0 w' -> build sg out E rs wc 0 wc' ->
  forall o, wanted_product sg out rs o -> same_content (files w' o) (files wc' o).
Proof.
  intros sg out E ia srcs links rs w0 w w' wc wc' ST.
  exact (after_ordinary sg out E ia srcs links ST (debugged E) rs w0 w w' wc wc' (or_intror eq_refl)).
Qed.
Print Assumptions C75_debugging_build_is_right.

(** After any mixture of builds in both modes, a build in either mode makes again what is not fresh, once, and
    nothing else. *)
Theorem C75_what_is_made_again :
  forall sg out E inst_area srcs links T rs w0 w w',
  setting sg out E inst_area srcs links -> either_mode E T -> mixed_past sg out E inst_area srcs links w0 w ->
  next_second sg out E links w -> good_requests sg out inst_area srcs links rs -> build sg out T rs w 0 w' ->
  (forall it, wanted sg out rs it ->
     fresh (files w) it /\ untouched (it_out it) w w' \/ ~ fresh (files w) it /\ remade E (it_out it) w w') /\
  (forall r, wanted_link sg out rs r ->
    (lfresh (files w) r /\ forall s, In s (lk_srcs r) -> makes s (ran w') = makes s (ran w)) /\ untouched (lk_out r) w w' \/
    (~ lfresh (files w) r \/ exists s, In s (lk_srcs r) /\ makes s (ran w') = S (makes s (ran w))) /\ remade E (lk_out r) w w') /\
  (forall o, ~ wanted_product sg out rs o -> makes o (ran w') = makes o (ran w)).
Proof. intros sg out E ia srcs links T rs w0 w w' ST. exact (either_rebuilds sg out E ia srcs links ST T rs w0 w w'). Qed.
Print Assumptions C75_what_is_made_again.

(** A change of a source itself, or of the flags, is noticed whatever the modes of the builds before. *)
Theorem C75_changes_of_sources_are_noticed :
  forall sg out E inst_area srcs links T rs w0 w w' it c t td,
  setting sg out E inst_area srcs links -> either_mode E T -> mixed_past sg out E inst_area srcs links w0 w ->
  next_second sg out E links w -> good_requests sg out inst_area srcs links rs -> build sg out T rs w 0 w' ->
  wanted sg out rs it -> files w (it_out it) = File c t ->
  (modified_at (files w) (it_src it) td /\ (t < td)%Z) \/ ~ recorded (files w) it ->
  remade E (it_out it) w w' /\ obj_current E (files w') it /\
  forall r, wanted_link sg out rs r -> In (it_out it) (lk_srcs r) -> remade E (lk_out r) w w' /\ link_current E (files w') r.
Proof. intros sg out E ia srcs links T rs w0 w w' it c t td ST. exact (source_noticed sg out E ia srcs links ST T rs w0 w w' it c t td). Qed.
Print Assumptions C75_changes_of_sources_are_noticed.

(** After any mixture: every link is what its inputs make; every object is what its source makes, except one that
    was not made again although its record of headers is empty and its source includes some. Missing from the full
    statement: that exception (refuted below). *)
Theorem C75_products_right_partial :
  forall sg out E inst_area srcs links T rs w0 w w',
  setting sg out E inst_area srcs links -> either_mode E T -> mixed_past sg out E inst_area srcs links w0 w ->
  next_second sg out E links w -> good_requests sg out inst_area srcs links rs -> build sg out T rs w 0 w' ->
  (forall it, wanted sg out rs it -> (fresh (files w) it -> headers_known E (files w) it) -> obj_current E (files w') it) /\
  (forall r, wanted_link sg out rs r -> link_current E (files w') r).
Proof. intros sg out E ia srcs links T rs w0 w w' ST. exact (products_right sg out E ia srcs links ST T rs w0 w w'). Qed.
Print Assumptions C75_products_right_partial.

Theorem C75_like_a_clean_build_partial :
  forall sg out E inst_area srcs links T rs w0 w w' wc wc',
  setting sg out E inst_area srcs links -> either_mode E T -> mixed_past sg out E inst_area srcs links w0 w ->
  next_second sg out E links w -> good_requests sg out inst_area srcs links rs ->
  (forall it, wanted sg out rs it -> fresh (files w) it -> headers_known E (files w) it) ->
  (forall p, product_dir out p -> files wc p = Absent) ->
  (forall p, source (product_dir out) inst_area p -> same_content (files w p) (files wc p)) ->
  build sg out T rs w 0 w' -> build sg out E rs wc 0 wc' ->
  forall o, wanted_product sg out rs o -> same_content (files w' o) (files wc' o).
Proof. intros sg out E ia srcs links T rs w0 w w' wc wc' ST. exact (like_clean sg out E ia srcs links ST T rs w0 w w' wc wc'). Qed.
Print Assumptions C75_like_a_clean_build_partial.

(** ** The running example: a debugging build, an edit of the header, an ordinary build. *)

Definition DE := debugged TE.
Definition dfirst := world_of (after DE O0 start).
Definition dedited := wait 5 (edit a_h (lit "H") 20 dfirst).
Definition dsecond := world_of (after TE O0 dedited).
(** The source edited as well. *)
Definition sedited := wait 5 (edit a_c (lit "A2") 20 dfirst).
Definition ssecond := world_of (after DE O0 sedited).

Lemma ex_dfirst : build true toy_out DE (script O0) start 0 dfirst.
Proof. apply after_build. vm_compute. reflexivity. Qed.
Lemma ex_mixed : mixed_past true toy_out TE nothing_installed toy_srcs toy_links start dfirst.
Proof.
  eapply (mh_step _ _ _ _ _ start start dfirst DE); [apply mh_start; intros p (name & ->); reflexivity|right; reflexivity|].
  destruct (plan_wanted true toy_out TE nothing_installed toy_srcs toy_links (set_names _ _ _ _ _ _ ex_setting) _ ex_good) as (bs & P & GS & _).
  destruct ex_dfirst as (bs' & P' & R). assert (bs' = bs) by congruence. subst bs'.
  apply (ev_build _ _ _ _ _ bs); auto. exact (later_of start 2 ex_second_start).
Qed.
Lemma mixed_edit w p c t k : mixed_past true toy_out TE nothing_installed toy_srcs toy_links start w ->
  source (product_dir toy_out) nothing_installed p -> (Z.of_nat (tick w) < t)%Z ->
  mixed_past true toy_out TE nothing_installed toy_srcs toy_links start (wait k (edit p c t w)).
Proof.
  intros H Sp Lt. eapply (mh_step _ _ _ _ _ start w _ TE); [exact H|left; reflexivity|]. apply ev_edit; cbn; [lia| |].
  - intros q A. apply fs_set_diff. intros ->. apply (proj1 Sp). exact A.
  - intros q _. unfold fs_set, modified_at, stat. destruct (bytes_eqb q p) eqn:Eq; auto.
    right. intros t' [= <-]. unfold secs. lia.
Qed.

(** The header is edited after a debugging build: an ordinary build succeeds, runs nothing and leaves the old
    object. *)
Theorem C75_headers_forgotten_refuted :
  exists E w0 w w' it,
  setting true toy_out E nothing_installed toy_srcs toy_links /\
  mixed_past true toy_out E nothing_installed toy_srcs toy_links w0 w /\ next_second true toy_out E toy_links w /\
  good_requests true toy_out nothing_installed toy_srcs toy_links (script O0) /\
  build true toy_out E (script O0) w 0 w' /\ wanted true toy_out (script O0) it /\
  ~ obj_current E (files w') it /\ ran w' = ran w.
Proof.
  exists TE, start, dedited, dsecond, (Item O0 a_c a_o).
  split; [apply ex_setting|]. split; [apply mixed_edit; [apply ex_mixed|apply src_h|vm_compute; reflexivity]|].
  split; [apply exe_second; vm_compute; reflexivity|]. split; [apply ex_good|].
  split; [apply after_build; vm_compute; reflexivity|].
  split; [exists 1%Z, [a_c; b_c]; split; [left; reflexivity|split; [left; reflexivity|apply a_o_ok]]|].
  split; [|vm_compute; reflexivity].
  intros (text & obj & t & A & B).
  assert (X : files dsecond a_o = File (lit "-O0[Ah]") 5) by (vm_compute; reflexivity).
  assert (Y : cc_on TE (Item O0 a_c a_o) (files dsecond) = ToolOk [] (lit "-O0[AH]")) by (vm_compute; reflexivity).
  cbn [it_out] in A. rewrite X in A. rewrite Y in B.
  assert (Z : lit "-O0[Ah]" <> lit "-O0[AH]") by (vm_compute; discriminate). congruence.
Qed.
Print Assumptions C75_headers_forgotten_refuted.

(** What a program printed during a debugging build is not shown again by the builds that find its product fresh;
    after an ordinary build it is (C23). *)
Theorem C75_warnings_forgotten_refuted :
  exists E w0 w w' it text,
  setting true toy_out E nothing_installed toy_srcs toy_links /\
  mixed_past true toy_out E nothing_installed toy_srcs toy_links w0 w /\
  build true toy_out E (script O0) w 0 w' /\ wanted true toy_out (script O0) it /\
  text_of (cc_on E it (files w')) = text /\ text <> [] /\
  texts (it_out it) (shown w') = texts (it_out it) (shown w) ++ [[]] /\
  texts b_o (shown (world_of (after E O0 first))) = texts b_o (shown first) ++ [text].
Proof.
  exists TE, start, dedited, dsecond, (Item O0 b_c b_o), (lit "warning").
  split; [apply ex_setting|]. split; [apply mixed_edit; [apply ex_mixed|apply src_h|vm_compute; reflexivity]|].
  split; [apply after_build; vm_compute; reflexivity|].
  split; [exists 1%Z, [a_c; b_c]; split; [left; reflexivity|split; [right; left; reflexivity|apply b_o_ok]]|].
  split; [vm_compute; reflexivity|]. split; [discriminate|]. split; vm_compute; reflexivity.
Qed.
Print Assumptions C75_warnings_forgotten_refuted.

(** The hypotheses are met: an ordinary build, an edit of the header, a debugging build that compiles again; a
    debugging build, an edit of the source, a debugging build that compiles again. *)
Example C75_nonvacuous_ordinary :
  setting true toy_out TE nothing_installed toy_srcs toy_links /\ toy_past 2 start edited /\
  next_second true toy_out TE toy_links edited /\ build true toy_out DE (script O0) edited 0 (world_of (after DE O0 edited)) /\
  build true toy_out TE (script O0) clean_edited 0 clean_second /\
  files (world_of (after DE O0 edited)) a_o = File (lit "-O0[AH]") 27 /\ files clean_second a_o = File (lit "-O0[AH]") 7.
Proof.
  split; [apply ex_setting|]. split; [apply ex_past|]. split; [apply ex_second_edited|].
  split; [apply after_build; vm_compute; reflexivity|]. split; [apply after_build; vm_compute; reflexivity|].
  split; vm_compute; reflexivity.
Qed.

Example C75_nonvacuous_mixed :
  mixed_past true toy_out TE nothing_installed toy_srcs toy_links start sedited /\
  next_second true toy_out TE toy_links sedited /\ build true toy_out DE (script O0) sedited 0 ssecond /\
  wanted true toy_out (script O0) (Item O0 a_c a_o) /\ (exists c t, files sedited a_o = File c t /\ modified_at (files sedited) a_c 20 /\ (t < 20)%Z) /\
  (exists t, files ssecond a_o = File (lit "-O0[A2h]") t).
Proof.
  split; [apply mixed_edit; [apply ex_mixed|apply src_a|vm_compute; reflexivity]|].
  split; [apply exe_second; vm_compute; reflexivity|].
  split; [apply after_build; vm_compute; reflexivity|].
  split; [exists 1%Z, [a_c; b_c]; split; [left; reflexivity|split; [left; reflexivity|apply a_o_ok]]|].
  split; [exists (lit "-O0[Ah]"), 5%Z; split; [vm_compute; reflexivity|split; [vm_compute; reflexivity|lia]]|].
  eexists. vm_compute. reflexivity.
Qed.
