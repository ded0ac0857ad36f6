(** * C58: building changes nothing outside the output directory. *)

From Coq Require Import ZArith Arith Ascii String Lia Bool List.
From Verif Require Import Base FileSys Cookie CookieProofs SpecNames Build SpecBuild Plan FlAst FlState FlInterp Bob SpecBob Project SpecSettled OutsideProofs Drive Toy PropertiesBuild PropertiesProject PropertiesSettled.
Import ListNotations.
Local Open Scope nat_scope.

(** The file [p] isn't right in the output directory's [bob], and installation doesn't change it. Then neither does a build by a script, at any moment, whether it
    is still going on, was interrupted, failed or is done, in any schedule. [allowed] says what may be in scripts and imported files. The tools are taken to write
    nothing but what they are told to make. *)
Definition alone_claim (allowed : list stmt -> Prop) : Prop :=
  forall sg out listing pow exists_ texts n prefix ss s bs s' E w w' p,
  nul_free out -> (forall q ss, texts q = FlInterp.File ss -> allowed ss) -> allowed ss ->
  setup sg out listing pow exists_ texts n prefix ss = Ret tt s -> project_steps s = Ret (Ok bs) s' ->
  (forall o t f, snd (installer E o t f) p = f p) -> ~ direct_child (out ++ lit "/bob") p ->
  during E bs w w' \/ (exists rv, run_steps E bs w rv w') -> files w' p = files w p.

(** False of all scripts: [let obj = Cc(["-O0"]).compile(["a.c"]); obj[0] = "a.c"] has the object put where the source is. The full claim is [alone_claim] of all
    scripts. *)
Definition overwriting : list stmt := compile_a ++ [put_first "obj" (tstr "a.c")].
Definition over_setup : FlState.out bob unit := setup true toy_out few (fun _ _ => None) bob_exists bob_text 40 (lit "/usr/local") overwriting.
Definition over_at : st bob := Eval vm_compute in match over_setup with Ret _ s => s | _ => blank [] fresh_bob end.
Definition over_steps : list bstep := [SCompile [Item [lit "-O0"] a_c a_c]].
Lemma ran_to E fuel bs w o c : match build_run E fuel [0; 1] bs w with Some (rv, w') => rv = 0%Z /\ content (files w') o = Some c | None => False end ->
  exists w', run_steps E bs w 0 w' /\ content (files w') o = Some c.
Proof.
  destruct (build_run E fuel [0; 1] bs w) as [(rv & w')|] eqn:Q; [|intros []]. intros (-> & X). exists w'. split; [now apply build_run_sound in Q|exact X].
Qed.
Example C58_source_lost : content (files start) a_c = Some (lit "A") /\ exists w', run_steps TE over_steps start 0 w' /\ content (files w') a_c = Some (lit "-O0[Ah]").
Proof. split; [vm_compute; reflexivity|]. apply (ran_to TE 100). vm_compute. auto. Qed.
Lemma over_begins : setup true toy_out few (fun _ _ => None) bob_exists bob_text 40 (lit "/usr/local") overwriting = Ret tt over_at.
Proof. vm_compute. reflexivity. Qed.
Lemma over_asks : project_steps over_at = Ret (Ok over_steps) over_at.
Proof. vm_compute. reflexivity. Qed.
Theorem C58_outside_alone_refuted : ~ alone_claim (fun _ => True).
Proof.
  intro K. destruct C58_source_lost as (A & w' & Q & B).
  assert (H : files w' a_c = files start a_c).
  { pose proof (K true toy_out few (fun _ _ => None) bob_exists bob_text 40 (lit "/usr/local") overwriting over_at over_steps over_at TE start w' a_c) as K'. apply K'; clear K K'.
    - apply not_in_lit_dec. reflexivity.
    - intros. exact I.
    - exact I.
    - exact over_begins.
    - exact over_asks.
    - reflexivity.
    - intros (name & X & _). discriminate X.
    - right. exists 0%Z. exact Q. }
  unfold content in A, B. rewrite H in B. rewrite B in A. discriminate A.
Qed.
Print Assumptions C58_outside_alone_refuted.

(** True of scripts without an assignment to an element. *)
Theorem C58_outside_alone_partial : alone_claim no_element_assignment.
Proof. unfold alone_claim. exact outside_alone. Qed.
Print Assumptions C58_outside_alone_partial.

(** [toy]'s script: it is built with success, so that there are products, and all else is as it was. *)
Definition toy_setup : FlState.out bob unit := setup true toy_out few (fun _ _ => None) bob_exists bob_text 60 (lit "/usr/local") (SpecProject.script toy_recipe).
Definition toy_at : st bob := Eval vm_compute in match toy_setup with Ret _ s => s | _ => blank [] fresh_bob end.
Definition toy_steps : list bstep := [SCompile [Item O0 a_c a_o; Item O0 b_c b_o]; SLink (LinkReq Link [] [a_o; b_o] exe)].
Example C58_nonvacuous :
  nul_free toy_out /\ no_element_assignment (SpecProject.script toy_recipe) /\ (forall q ss, bob_text q = FlInterp.File ss -> no_element_assignment ss) /\
  toy_setup = Ret tt toy_at /\ project_steps toy_at = Ret (Ok toy_steps) toy_at /\
  (forall p o t f, snd (installer TE o t f) p = f p) /\ ~ direct_child (toy_out ++ lit "/bob") a_c /\
  exists w', run_steps TE toy_steps start 0 w' /\ content (files w') exe = Some (lit "-O0[Ah]-O0[B]").
Proof.
  split; [apply not_in_lit_dec; reflexivity|]. split; [reflexivity|]. split.
  { intros p ss Q. unfold bob_text in Q. destruct (bob_exists p); [|discriminate]. injection Q as <-. reflexivity. }
  split; [vm_compute; reflexivity|]. split; [vm_compute; reflexivity|]. split; [reflexivity|]. split; [intros (name & X & _); discriminate X|].
  apply (ran_to TE 200). vm_compute. auto.
Qed.
