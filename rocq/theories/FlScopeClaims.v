(** * Scopes are balanced. *)

From Coq Require Import ZArith Arith Ascii String Lia Bool List.
From Verif Require Import Base FlAst FlState FlInterp FlMonad SpecFlamingo SpecScript SpecFrame SpecScope FlFrame FlBalance FlMemberProofs FlScopeProofs FlAssignProofs FlReturnProofs.
Import ListNotations.
Local Open Scope nat_scope.

Section Claims.
Context {H : Type}.
Variable cf : conf H.
Implicit Types s t : st H.

Lemma keys_declared c c' : declared c' = declared c -> map v_key (sc_vars c') = map v_key (sc_vars c).
Proof. unfold declared. intro E. apply (f_equal (map fst)) in E. rewrite !map_map in E. exact E. Qed.
Lemma open_det s l m : open s l -> open s m -> l = m.
Proof. unfold open. congruence. Qed.
Lemma fr_open top q s s' l : fr top q s s' -> open s l -> open s' l.
Proof. intros F O. unfold open. rewrite (fr_env _ _ _ _ F). exact (fr_envs _ _ _ _ F _ _ O). Qed.
Lemma fr_well top q s s' : fr top q s s' -> well_scoped s -> well_scoped s'.
Proof.
  intros F (l & O & W). exists l. split; [eapply fr_open; eauto|]. eapply Forall_impl; [|exact W]. intros i L. cbv beta in L |- *. destruct (nth_error (scopes s) i) as [c|] eqn:E; [|apply nth_error_None in E; lia].
  destruct (fr_scopes _ _ _ _ F _ _ E) as (c' & E' & _). eapply nth_lt; exact E'.
Qed.
Lemma fr_balanced q s s' : fr None q s s' -> balanced s s'.
Proof.
  intro F. assert (D : forall i xs, declares_names s i xs -> declares_names s' i xs).
  { intros i xs (c & E & Q). destruct (fr_scopes _ _ _ _ F _ _ E) as (c' & E' & _ & Dc & _). exists c'. split; [exact E'|]. rewrite <- Q. apply keys_declared. apply Dc. discriminate. }
  split; [exact (fr_env _ _ _ _ F)|]. split; [exact (fr_envs _ _ _ _ F)|]. split; [exact D|]. intro W. split; [eapply fr_well; eauto|]. intro x. split.
  - intros (l' & i & xs & O' & I & (c' & E' & Q) & Ix). destruct W as (l & O & W). pose proof (open_det _ _ _ (fr_open _ _ _ _ _ F O) O'). subst l'.
    rewrite Forall_forall in W. specialize (W _ I). destruct (nth_error (scopes s) i) as [c|] eqn:E; [|apply nth_error_None in E; lia].
    destruct (fr_scopes _ _ _ _ F _ _ E) as (c'' & E'' & _ & Dc & _). assert (c'' = c') by congruence. subst c''. exists l, i, xs. repeat split; auto. exists c. split; auto. rewrite <- Q. symmetry. apply keys_declared. apply Dc. discriminate.
  - intros (l & i & xs & O & I & Dx & Ix). exists l, i, xs. repeat split; auto. eapply fr_open; eauto.
Qed.

Variable T : tame cf.
Lemma eval_balanced n d e s r s' : r_eval (interp cf n) d e s = Ret r s' -> balanced s s'.
Proof. intro E. eapply fr_balanced. exact (g_eval _ (interp_good cf T n) _ _ _ _ _ E). Qed.
Lemma call_balanced n f acc d args s r s' : r_call (interp cf n) f acc d args s = Ret r s' -> balanced s s'.
Proof. intro E. eapply fr_balanced. exact (proj1 (g_call _ (interp_good cf T n) _ _ _ _ _ _ _ E)). Qed.
Lemma block_balanced n ss s s' : executes cf n (SBlock ss) s s' -> balanced s s'.
Proof.
  unfold executes. destruct n as [|n]; [discriminate|]. rewrite stmt_S. cbn [stmt_]. intro E. apply bind_ret_inv in E as (i & s1 & E1 & E). apply ret_inv in E as (_ & ->).
  eapply fr_balanced. exact (proj1 (g_block _ (interp_good cf T n) _ _ _ _ E1)).
Qed.
Lemma stmt_balanced n x s s' i l : open s (i :: l) -> executes cf n x s s' ->
  cur_env s' = cur_env s /\ (forall e m, nth_error (envs s) e = Some m -> nth_error (envs s') e = Some m) /\
  (forall k xs, k <> i -> declares_names s k xs -> declares_names s' k xs) /\
  (forall xs, declares_names s i xs -> exists new, declares_names s' i (xs ++ new)) /\ (well_scoped s -> well_scoped s').
Proof.
  intros O E. assert (Tp : top s = Some i) by (unfold top; rewrite O; reflexivity). pose proof (g_stmt _ (interp_good cf T n) _ _ _ _ _ Tp E) as F.
  split; [exact (fr_env _ _ _ _ F)|]. split; [exact (fr_envs _ _ _ _ F)|]. split; [|split; [|eapply fr_well; eauto]].
  - intros k xs Nk (c & Ec & Q). destruct (fr_scopes _ _ _ _ F _ _ Ec) as (c' & E' & _ & Dc & _). exists c'. split; [exact E'|]. rewrite <- Q. apply keys_declared. apply Dc. congruence.
  - intros xs (c & Ec & Q). destruct (fr_scopes _ _ _ _ F _ _ Ec) as (c' & E' & (new & Dn) & _). exists (map fst new), c'. split; [exact E'|]. rewrite <- Q. unfold declared in Dn. apply (f_equal (map fst)) in Dn. rewrite map_app, !map_map in Dn. exact Dn.
Qed.
Lemma new_open paths (h : H) s : create paths h = Ret tt s -> open s [0] /\ well_scoped s.
Proof. intro E. vm_compute in E. injection E as <-. split; [reflexivity|]. exists [0]. split; [reflexivity|]. repeat constructor. Qed.
Lemma run_balanced n paths h ss s' : run cf n paths h ss = Ret tt s' -> open s' [0] /\ well_scoped s'.
Proof.
  unfold run. destruct (create paths h) as [[] s| | | |] eqn:C; try discriminate. intro E. destruct (new_open _ _ _ C) as (O & W).
  assert (Tp : top s = Some 0) by (unfold top; rewrite O; reflexivity).
  assert (F : fr (Some 0) false s s') by (eapply each_fr; [exact T|exact Tp|]; apply each_iter; exact E). split; [eapply fr_open; eauto|eapply fr_well; eauto].
Qed.
End Claims.
