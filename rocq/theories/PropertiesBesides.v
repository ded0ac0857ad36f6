(** * C77: what products depend on besides the files that are compared. *)

From Coq Require Import ZArith Ascii String Lia Bool List.
From Verif Require Import Base FileSys Frugal Deps Log Cookie Pool Build SpecFiles SpecBuild SpecHistory Plan SpecPlan BuildTheorems Drive Toy PropertiesBuild SpecBesides BesidesProofs ToyBesides.
Import ListNotations.
Local Open Scope nat_scope.

Notation wide_past := (past true toy_out wide nothing_installed toy_srcs toy_links).

Definition wfirst := world_of (after wide O0 wstart).
(** The header is changed. *)
Definition wedited := wait 5 (edit a_h (lit "H") 20 wfirst).
Definition wsecond := world_of (after wide O0 wedited).
(** A compiler of another version, a header that takes precedence, another library. *)
Definition wupgraded := wait 5 (edit the_cc (lit "10") 20 wfirst).
Definition wshadowed := wait 5 (edit x_h (lit "X") 20 wfirst).
Definition wrelib := wait 5 (edit libm (lit "n") 20 wfirst).

Lemma wide_first : build true toy_out wide (script O0) wstart 0 wfirst.
Proof. apply after_build. vm_compute. reflexivity. Qed.
Lemma first_evolves : evolves wide (product_dir toy_out) nothing_installed (named_item true toy_out toy_srcs) (named_link true toy_out toy_links) wstart wfirst.
Proof. apply build_evolves; [apply plain_O0|vm_compute; reflexivity|apply wide_second; reflexivity]. Qed.
Lemma first_found : as_found outside found (files wfirst).
Proof. eapply (inside_build _ _ _ _ _ _ _ _ wide_inside); [apply ex_good|apply start_found|apply wide_first]. Qed.

Lemma changed_past p c k : source (product_dir toy_out) nothing_installed p -> wide_past wstart (wait k (edit p c 20 wfirst)).
Proof.
  intros Sp. eapply h_step; [eapply h_step; [apply h_start|apply first_evolves]|].
  - intros q (name & ->). reflexivity.
  - apply edit_evolves; [exact Sp|vm_compute; reflexivity].
Qed.

(** Refuted: the compiler changes, and the next build, which succeeds, leaves the objects of the old one. *)
Theorem C77_new_compiler_refuted :
  exists sg out E inst_area srcs links outside a rs w0 w w' it,
  setting_inside sg out E inst_area srcs links outside a /\ past sg out E inst_area srcs links w0 w /\
  next_second sg out E links w /\ good_requests sg out inst_area srcs links rs /\ build sg out E rs w 0 w' /\
  wanted sg out rs it /\ ~ obj_current E (files w') it.
Proof.
  exists true, toy_out, wide, nothing_installed, toy_srcs, toy_links, outside, found, (script O0), wstart, wupgraded, (world_of (after wide O0 wupgraded)), (Item O0 b_c b_o).
  split; [apply wide_inside|]. split; [apply changed_past, src_cc|]. split; [apply wide_second; vm_compute; reflexivity|]. split; [apply ex_good|].
  split; [apply after_build; vm_compute; reflexivity|]. split; [exists 1%Z, [a_c; b_c]; cbn; split; auto; split; auto; apply b_o_ok|].
  intros (text & obj & t & F & C). vm_compute in F, C. injection F as <- <-. discriminate C.
Qed.
Print Assumptions C77_new_compiler_refuted.

(** Refuted: a header appears that is now included instead of the recorded one. *)
Theorem C77_new_header_refuted :
  exists sg out E inst_area srcs links outside a rs w0 w w' it,
  setting_inside sg out E inst_area srcs links outside a /\ past sg out E inst_area srcs links w0 w /\
  next_second sg out E links w /\ good_requests sg out inst_area srcs links rs /\ build sg out E rs w 0 w' /\
  wanted sg out rs it /\ ~ obj_current E (files w') it.
Proof.
  exists true, toy_out, wide, nothing_installed, toy_srcs, toy_links, outside, found, (script O0), wstart, wshadowed, (world_of (after wide O0 wshadowed)), (Item O0 a_c a_o).
  split; [apply wide_inside|]. split; [apply changed_past, src_x|]. split; [apply wide_second; vm_compute; reflexivity|]. split; [apply ex_good|].
  split; [apply after_build; vm_compute; reflexivity|]. split; [exists 1%Z, [a_c; b_c]; cbn; split; auto; split; auto; apply a_o_ok|].
  intros (text & obj & t & F & C). vm_compute in F, C. injection F as <- <-. discriminate C.
Qed.
Print Assumptions C77_new_header_refuted.

(** Refuted: a library given by a flag changes, and the program is not linked again. *)
Theorem C77_new_library_refuted :
  exists sg out E inst_area srcs links outside a rs w0 w w' r,
  setting_inside sg out E inst_area srcs links outside a /\ past sg out E inst_area srcs links w0 w /\
  next_second sg out E links w /\ good_requests sg out inst_area srcs links rs /\ build sg out E rs w 0 w' /\
  wanted_link sg out rs r /\ ~ link_current E (files w') r.
Proof.
  exists true, toy_out, wide, nothing_installed, toy_srcs, toy_links, outside, found, (script O0), wstart, wrelib, (world_of (after wide O0 wrelib)), (LinkReq Link [] [a_o; b_o] exe).
  split; [apply wide_inside|]. split; [apply changed_past, src_m|]. split; [apply wide_second; vm_compute; reflexivity|]. split; [apply ex_good|].
  split; [apply after_build; vm_compute; reflexivity|]. split; [exists 2%Z; split; [right; left; reflexivity|exact (eq_sym exe_ok)]|].
  intros (text & obj & t & F & C). vm_compute in F, C. injection F as <- <-. discriminate C.
Qed.
Print Assumptions C77_new_library_refuted.

(** What holds: as long as nothing outside has changed, a build that succeeds leaves what the tools, which do look
    outside, make of the present files. Missing from the full statement: changes outside (refuted above). *)
Theorem C77_outside_unchanged_partial :
  forall sg out E inst_area srcs links outside a rs w0 w w',
  setting_inside sg out E inst_area srcs links outside a -> past_inside sg out E inst_area srcs links outside a w0 w ->
  next_second sg out E links w -> good_requests sg out inst_area srcs links rs -> build sg out E rs w 0 w' ->
  (forall it, wanted sg out rs it -> obj_current E (files w') it) /\
  (forall r, wanted_link sg out rs r -> link_current E (files w') r).
Proof. intros sg out E ia srcs links o a rs w0 w w' SI. exact (inside_current sg out E ia srcs links o a SI rs w0 w w'). Qed.
Print Assumptions C77_outside_unchanged_partial.

(** And the products are those of a clean build of the same sources on a machine that has the same outside. *)
Theorem C77_same_machine_partial :
  forall sg out E inst_area srcs links outside a rs w0 w w' wc wc',
  setting_inside sg out E inst_area srcs links outside a -> past_inside sg out E inst_area srcs links outside a w0 w ->
  next_second sg out E links w -> good_requests sg out inst_area srcs links rs ->
  (forall p, product_dir out p -> files wc p = Absent) ->
  (forall p, source (product_dir out) inst_area p -> outside p = false -> same_content (files w p) (files wc p)) ->
  as_found outside a (files wc) ->
  build sg out E rs w 0 w' -> build sg out E rs wc 0 wc' ->
  forall o, wanted_product sg out rs o -> same_content (files w' o) (files wc' o).
Proof. intros sg out E ia srcs links o a rs w0 w w' wc wc' SI. exact (inside_clean sg out E ia srcs links o a SI rs w0 w w' wc wc'). Qed.
Print Assumptions C77_same_machine_partial.

(** Bob itself changes nothing outside. *)
Theorem C77_outside_kept :
  forall sg out E inst_area srcs links outside a rs w rv w',
  setting_inside sg out E inst_area srcs links outside a -> good_requests sg out inst_area srcs links rs ->
  as_found outside a (files w) -> build sg out E rs w rv w' -> as_found outside a (files w').
Proof. intros sg out E ia srcs links o a rs w rv w' SI G A B. exact (proj2 (inside_build sg out E ia srcs links o a SI rs w rv w' G A B)). Qed.
Print Assumptions C77_outside_kept.

(** The toy project after its header was changed: these tools are not honest in the sense of C18. *)
Example C77_nonvacuous :
  setting_inside true toy_out wide nothing_installed toy_srcs toy_links outside found /\
  ~ honest_tools wide (product_dir toy_out) nothing_installed /\
  past_inside true toy_out wide nothing_installed toy_srcs toy_links outside found wstart wedited /\
  next_second true toy_out wide toy_links wedited /\ build true toy_out wide (script O0) wedited 0 wsecond /\
  wanted true toy_out (script O0) (Item O0 a_c a_o) /\ exists t, files wsecond a_o = File (lit "9-O0[AH]") t.
Proof.
  split; [apply wide_inside|]. split; [|split; [|split; [|split; [|split]]]].
  - intros HT. assert (D : deps_on wide (Item O0 b_c b_o) (files wfirst) = Some dep_b) by (vm_compute; reflexivity).
    destruct (ht_listed _ _ _ HT (Item O0 b_c b_o) (files wfirst) (files wupgraded) dep_b D) as (_ & C); [|vm_compute in C; discriminate C].
    intros p H. rewrite listed_b in H. assert (p = b_c) by (cbn in H; intuition). subst p. vm_compute. reflexivity.
  - eapply pi_step; [eapply pi_step; [apply pi_start|apply first_evolves|apply first_found]|apply edit_evolves; [apply src_h|vm_compute; reflexivity]|].
    + intros p (name & ->). reflexivity.
    + apply start_found.
    + intros p H. rewrite <- (first_found p H). apply fs_set_diff. intros ->. discriminate H.
  - apply wide_second. vm_compute. reflexivity.
  - apply after_build. vm_compute. reflexivity.
  - exists 1%Z, [a_c; b_c]. cbn. split; auto. split; auto. apply a_o_ok.
  - eexists. vm_compute. reflexivity.
Qed.
