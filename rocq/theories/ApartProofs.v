(** * Files that no step is to make. *)

From Coq Require Import ZArith Arith Ascii String Lia Bool List.
From Verif Require Import Base FileSys Frugal Deps Log Cookie CookieProofs Pool PoolInv Build SpecBuild FrugalProofs BuildProofs CompileProofs.
Import ListNotations.
Local Open Scope nat_scope.

(** ** The pool *)
Section Pool.
Variables (Sig : Type) (prog : nat -> list (Sig -> Sig)) (stops : nat -> Sig -> bool) (P : Sig -> Prop).
Hypothesis keeps : forall t a x, In a (prog t) -> P x -> P (a x).
Definition kept (s : st Sig) : Prop :=
  P (sig Sig s) /\ forall w i acts, nth_error (workers Sig s) w = Some (WRun Sig i acts) -> forall a x, In a acts -> P x -> P (a x).
Lemma kept_worker s w p q : kept s -> (forall i acts, p = WRun Sig i acts -> forall a x, In a acts -> P x -> P (a x)) ->
  forall i acts, nth_error (upd (workers Sig s) w p) q = Some (WRun Sig i acts) -> forall a x, In a acts -> P x -> P (a x).
Proof.
  intros (_ & K) N i acts Q. apply nth_upd_inv in Q. destruct Q as [(_ & Q & _)|(_ & Q)]; [exact (N i acts (eq_sym Q))|exact (K _ _ _ Q)].
Qed.
Lemma kept_step s s' : kept s -> step Sig prog stops s s' -> kept s'.
Proof.
  intros K [H|(w & H)]; pose proof K as (K1 & K2).
  - unfold mstep in H. destruct (pc Sig s) as [|k a|k r].
    + destruct (ops Sig s) as [|[t| | |] os]; try discriminate.
      * destruct (lock Sig s); [discriminate|]. injection H as <-. exact K.
      * injection H as <-. unfold start_or. destruct (started Sig s); exact K.
      * injection H as <-. unfold start_or. destruct (started Sig s); exact K.
      * injection H as <-. unfold start_or. cbn. destruct (started Sig s); exact K.
    + destruct (Nat.ltb k (length (workers Sig s))); injection H as <-; [|exact K]. split; [exact K1|]. cbn. intros q. apply (kept_worker s k _ q K). discriminate.
    + destruct (Nat.ltb k (length (workers Sig s))); [|injection H as <-; exact K].
      destruct (nth_error (handles Sig s) k) as [[|]|]; [destruct (nth_error (workers Sig s) k) as [[]|]; try discriminate|..]; injection H as <-; exact K.
  - unfold wstep in H. destruct (nth_error (workers Sig s) w) as [[| | | |i|i|i acts| | |]|] eqn:Q; try discriminate.
    + injection H as <-. split; [exact K1|]. cbn. intros q. apply (kept_worker s w _ q K). destruct (err Sig s); discriminate.
    + destruct (lock Sig s); [discriminate|]. injection H as <-. split; [exact K1|]. cbn. intros q. apply (kept_worker s w _ q K). discriminate.
    + injection H as <-. split; [exact K1|]. cbn. intros q. apply (kept_worker s w _ q K). destruct (first_unstarted _); discriminate.
    + injection H as <-. split; [exact K1|]. cbn. intros q. apply (kept_worker s w _ q K). discriminate.
    + injection H as <-. split; [exact K1|]. cbn. intros q. apply (kept_worker s w _ q K). intros i0 acts E. injection E as <- <-. intros a x. apply keeps.
    + destruct acts as [|a acts].
      * injection H as <-. split; [exact K1|]. cbn. intros q. apply (kept_worker s w _ q K). destruct (stops _ _); discriminate.
      * injection H as <-. split; cbn; [exact (K2 _ _ _ Q a _ (or_introl eq_refl) K1)|]. intros q. apply (kept_worker s w _ q K).
        intros i0 acts0 E. injection E as <- <-. intros b x B. exact (K2 _ _ _ Q b x (or_intror B)).
    + injection H as <-. split; [exact K1|]. cbn. intros q. apply (kept_worker s w _ q K). discriminate.
    + injection H as <-. split; [exact K1|]. cbn. intros q. apply (kept_worker s w _ q K). discriminate.
Qed.
Lemma pool_keeps n os x s : P x -> reachable Sig prog stops n os x s -> P (sig Sig s).
Proof.
  intros Px R. assert (kept s) as (K & _); [|exact K]. unfold reachable in R. remember (init Sig n os x) as s0. induction R as [|a b c Hab IH Hs]; subst; [|exact (kept_step _ _ (IH eq_refl) Hs)].
  split; [exact Px|]. cbn. intros w i acts Q. apply nth_error_In, repeat_spec in Q. discriminate.
Qed.
End Pool.

(** ** Builds *)
Section Frame.
Variable E : env.
(** A file that no step is to make and that installation doesn't change. *)
Variable p : bytes.
Hypothesis inst : forall o t f, snd (installer E o t f) p = f p.
Definition apart (o : bytes) : Prop := ~ belongs o p.
Lemma apart_out o : apart o -> p <> o.
Proof. intros A ->. apply A. now left. Qed.
Lemma apart_side k o : apart o -> p <> side_file k o.
Proof. intros A ->. apply A. right. eauto. Qed.
Lemma validate_all_apart : forall its w ok jobs w1, Forall (fun it => apart (it_out it)) its -> validate_all E its w = (ok, jobs, w1) ->
  files w1 p = files w p /\ forall it, In it jobs -> In it its.
Proof.
  induction its as [|it its IH]; intros w ok jobs w1 F V; cbn [validate_all] in V; [injection V as <- <- <-; auto|]. inversion F as [|? ? F1 F2]; subst.
  destruct (validate E it w) as (v & wa) eqn:V1. destruct (validate_shape E it w v wa V1) as (_ & _ & _ & A). specialize (A p (apart_side SFlags _ F1)). destruct v.
  - destruct (validate_all E its wa) as ((ok' & jobs') & w2) eqn:V2. injection V as <- <- <-. destruct (IH _ _ _ _ F2 V2) as (B & C). split; [congruence|]. cbn. intros x [->|I]; auto.
  - cbv zeta in V. match type of V with context [installer E ?a ?b ?c] => pose proof (inst a b c) as I; destruct (installer E a b c) as (oki & f2) end. cbn in I. destruct oki.
    + destruct (IH _ _ _ _ F2 V) as (B & C). cbn in B. split; [congruence|]. cbn. auto.
    + injection V as <- <- <-. cbn. split; [congruence|]. intros x [].
  - injection V as <- <- <-. split; [exact A|]. intros x [].
Qed.
Lemma act_apart jobs t a s : (forall it, In it jobs -> apart (it_out it)) -> In a (job_prog E jobs t) -> files (jw (a s)) p = files (jw s) p.
Proof.
  intros F I. unfold job_prog in I. destruct (nth_error jobs t) as [it|] eqn:Q; [|destruct I]. apply nth_error_In, F in Q. pose proof (apart_out _ Q) as A.
  destruct I as [<-|[<-|[<-|[<-|[<-|[]]]]]].
  - reflexivity.
  - unfold act_write_deps. destruct (l_deps _); [|reflexivity]. destruct (write_file _ _ _ _ _) eqn:W; [|reflexivity]. cbn. exact (write_file_diff _ _ _ _ _ _ _ W (apart_side SDeps _ Q)).
  - unfold act_compile. match goal with |- context [apply_tool E ?r ?t ?f ?o] => pose proof (apply_tool_frame E r t f o p A) as K; destruct (apply_tool E r t f o) as ((ok & text) & f') end. exact K.
  - unfold act_log. match goal with |- context [cmd_log ?c ?t ?f ?o ?x] => pose proof (cmd_log_frame c t f o x p (apart_side SLog _ Q)) as K; destruct (cmd_log c t f o x) as (text & f') end. exact K.
  - unfold act_install. destruct (l_fail _); [reflexivity|]. match goal with |- context [installer E ?a ?b ?c] => pose proof (inst a b c) as K; destruct (installer E a b c) as (oki & f2) end. exact K.
Qed.
Lemma pool_apart jobs ok w s : (forall it, In it jobs -> apart (it_out it)) -> pool_state E jobs ok w s -> files (jw (sig jst s)) p = files w p.
Proof.
  intros F R. apply (pool_keeps jst (job_prog E jobs) job_stops (fun x => files (jw x) p = files w p)) in R; [exact R| |reflexivity].
  intros t a x I K. rewrite <- K. exact (act_apart jobs t a x F I).
Qed.
Lemma compile_during_apart its w w' : Forall (fun it => apart (it_out it)) its -> compile_during E its w w' -> files w' p = files w p.
Proof.
  intros F [(its1 & its2 & ok & jobs & -> & V)|(ok & jobs & w1 & s & V & R & <-)].
  - apply Forall_app in F as (F & _). exact (proj1 (validate_all_apart _ _ _ _ _ F V)).
  - destruct (validate_all_apart _ _ _ _ _ F V) as (A & B). rewrite <- A. apply (pool_apart jobs ok w1 s); [|exact R]. intros it I. rewrite Forall_forall in F. auto.
Qed.
Lemma do_link_during_apart r w w' : apart (lk_out r) -> do_link_during E r w w' -> files w' p = files w p.
Proof.
  intros A. unfold do_link_during, do_link.
  match goal with |- context [apply_tool E ?x ?t ?f ?o] => pose proof (apply_tool_frame E x t f o p (apart_out _ A)) as K; destruct (apply_tool E x t f o) as ((ok & text) & f') end. cbv zeta.
  match goal with |- context [cmd_log ?c ?t ?f ?o ?x] => pose proof (cmd_log_frame c t f o x p (apart_side SLog _ A)) as K2; destruct (cmd_log c t f o x) as (text2 & f2) end. cbn in K, K2.
  intros [->|[->|[->| ->]]]; cbn; try congruence.
  destruct ok; cbn; [|congruence]. match goal with |- context [installer E ?a ?b ?c] => pose proof (inst a b c) as K3; destruct (installer E a b c) as (oki & f3) end. cbn in *. congruence.
Qed.
Lemma link_step_during r w : link_during E r w (snd (link_step E r w)).
Proof. unfold link_during. destruct (frugal_flags _ _ _ _ _). auto. Qed.
Lemma link_during_apart r w w' : apart (lk_out r) -> link_during E r w w' -> files w' p = files w p.
Proof.
  intros A. unfold link_during, link_step. destruct (frugal_flags _ _ _ _ _) as (ch & f1) eqn:G. pose proof (flags_only _ _ _ _ _ _ _ p G (apart_side SFlags _ A)) as B. cbv zeta.
  assert (Do : do_link_during E r (set_files w f1) w' -> files w' p = files w p) by (intros D; rewrite (do_link_during_apart _ _ _ A D); exact B).
  assert (Done : w' = snd (do_link E r (set_files w f1)) -> files w' p = files w p).
  { intros ->. apply Do. unfold do_link_during, do_link. destruct (apply_tool _ _ _ _ _) as ((? & ?) & ?). cbv zeta. destruct (cmd_log _ _ _ _ _). auto. }
  intros [->|[H|H]]; [reflexivity| |].
  - destruct ch; [now apply Done|]. destruct (frugal_mtime _ _ _) as [[|]|]; try now apply Done.
    subst w'. match goal with |- context [installer E ?a ?b ?c] => pose proof (inst a b c) as K3; destruct (installer E a b c) as (oki & f3) end. cbn in *. congruence.
  - destruct ch; [now apply Do|]. destruct (frugal_mtime _ _ _) as [[|]|]; try now apply Do. subst w'. exact B.
Qed.
Definition step_apart (b : bstep) : Prop := match b with SCompile its => Forall (fun it => apart (it_out it)) its | SLink r => apart (lk_out r) end.
Lemma one_step_apart b w rv w' : step_apart b -> one_step E b w rv w' -> files w' p = files w p.
Proof.
  destruct b as [its|r]; cbn [one_step step_apart]; intros A H.
  - destruct H as (ok & jobs & w1 & s & V & R & _ & W & _). apply (compile_during_apart its w w' A). right. exists ok, jobs, w1, s. auto.
  - apply (link_during_apart r w w' A). pose proof (link_step_during r w) as D. now rewrite H in D.
Qed.
Lemma run_steps_apart bs w rv w' : Forall step_apart bs -> run_steps E bs w rv w' -> files w' p = files w p.
Proof.
  intros F H. induction H as [w|b bs w rv w' H _|b bs w rv w1 rv2 w2 H _ _ IH]; [reflexivity| |]; inversion F as [|? ? F1 F2]; subst.
  - exact (one_step_apart _ _ _ _ F1 H).
  - rewrite (IH F2). exact (one_step_apart _ _ _ _ F1 H).
Qed.
Lemma during_apart bs w w' : Forall step_apart bs -> during E bs w w' -> files w' p = files w p.
Proof.
  intros F H. induction H as [w|its bs w w' H|r bs w w' H|b bs w rv w1 w' H _ _ IH]; [reflexivity| | |]; inversion F as [|? ? F1 F2]; subst.
  - exact (compile_during_apart _ _ _ F1 H).
  - exact (link_during_apart _ _ _ F1 H).
  - rewrite (IH F2). exact (one_step_apart _ _ _ _ F1 H).
Qed.
End Frame.
