(** * Methods of Bob's classes in expressions. *)

From Coq Require Import ZArith Arith Ascii String Lia Bool List.
From Verif Require Import Base Hash Cookie CookieProofs FlAst FlState FlInterp FlMonad SpecFlamingo FlEqProofs SpecScript SpecFrame SpecScope SpecImport SpecPlan
  FlOpProofs FlExprProofs FlFrame FlBalance FlMemberProofs FlSeqProofs FlScopeProofs FlAssignProofs FlReturnProofs FlExternProofs Bob SpecBob BobProofs BobCallProofs.
Import ListNotations.
Local Open Scope nat_scope.

Lemma st_ext {H} (s t : FlState.st H) : cells s = cells t -> bufs s = bufs t -> bodies s = bodies t -> scopes s = scopes t -> envs s = envs t -> cur_env s = cur_env t ->
  cur_body s = cur_body t -> cur_rv s = cur_rv t -> members s = members t -> import_paths s = import_paths t -> err s = err t -> prints s = prints t -> host s = host t -> s = t.
Proof. destruct s, t; cbn. intros -> -> -> -> -> -> -> -> -> -> -> -> ->. reflexivity. Qed.

Section Methods.
Variables (sg : bool) (out : bytes) (listing : bytes -> option (list bytes)) (pow : Z -> Z -> option Z) (exists_ : bytes -> bool) (files : bytes -> file).
Let cf := bob_conf sg out listing pow exists_ files.
Implicit Types s t : st bob.

Lemma access_method n e s i s1 k d x ps fa : evals cf n e s i s1 -> method s1 i k d x ps fa -> live s1 fa ->
  r_eval (interp cf (S n)) Slot (EAccess e x) s = Ret (Some fa, Some i) (held fa s1).
Proof.
  intros E (sc & j & f & en & l & (ci & Ci & Vi) & Sc & D & _) Lv. rewrite eval_S. cbn [eval_]. unfold do_access.
  rewrite (bind_step _ _ s (VVar sc j (Var x false (Some fa)), i) s1).
  2: { unfold access_find. rewrite (bind_step _ _ _ _ _ (FlExprProofs.value_evals cf _ _ _ _ _ E)). rewrite (bind_step _ _ _ _ _ (get_cell_ok _ _ _ Ci)), Vi. cbv zeta.
       rewrite (bind_step _ _ _ _ _ (find_var_declares _ _ _ _ _ D)). reflexivity. }
  cbn [fst snd]. rewrite (bind_step _ _ s1 fa s1) by reflexivity. rewrite (bind_step _ _ _ _ _ (FlScopeProofs.incref_live _ _ Lv)). reflexivity.
Qed.
Lemma method_call_enters n e x args s i s1 k d ps fa bs s2 : evals cf n e s i s1 -> method s1 i k d x ps fa -> live s1 fa -> evals_each cf (S n) args (held fa s1) bs s2 ->
  outcome cf (S (S n)) (method_call e x args) s = mbind (call_ cf (interp cf n) fa (Some i) Slot bs) (fun o => ret (o, None)) s2.
Proof.
  intros E M Lv Ea. unfold outcome, method_call. rewrite eval_S. cbn [eval_]. unfold plain, do_call, both.
  pose proof (access_method _ _ _ _ _ _ _ _ _ _ E M Lv) as A. destruct M as (sc & j & f & en & l & _ & _ & _ & (cf' & Cf & Vf) & _).
  unfold mbind at 1. unfold mbind at 1. unfold mbind at 1. rewrite A. unfold ret at 1. cbn [fst snd].
  rewrite (bind_step _ _ (held fa s1) (Cell (c_name cf') (c_cnt cf' + 1) (c_owner cf') (c_val cf')) (held fa s1)).
  2: { apply get_cell_ok. unfold held. rewrite Cf. cbn. apply upd_same. eapply nth_lt; eauto. }
  cbn [c_val]. rewrite Vf. rewrite (bind_step _ _ _ _ _ (evals_each_mapM cf _ _ _ _ _ Ea)). rewrite call_S. reflexivity.
Qed.

Lemma renamed_keeps args (cs : list cell) s : renamed args (cells s) cs -> keeps s (set_cells cs s).
Proof. intro R. split; cbn; auto. intros a c E. destruct (renamed_cell _ _ _ _ _ R E) as (c' & E' & V & _). eauto. Qed.

(** What of a method can be seen from inside a call of it. *)
Lemma inside_method s i k d x ps fa (args : list addr) f e l on cs : method s i k d x ps fa -> renamed args (cells s) cs -> ~ In fa args ->
  let t := inside f e l on args cs s in has_name t fa x /\ belongs t fa i /\ instance t i k d.
Proof.
  intros (sc & j & f' & en & l' & (ci & Ci & Vi) & (cs' & Sc & As & Os) & D & _ & _ & _ & (c & C & Nm) & (c2 & C2 & O2) & _) R Ni t.
  assert (Cf : forall c, nth_error (cells s) fa = Some c -> nth_error (cells t) fa = Some c).
  { intros c0 C0. destruct R as (_ & _ & _ & R). unfold t, inside. cbn. now rewrite R. }
  assert (Sg : forall i0 c0, nth_error (scopes s) i0 = Some c0 -> nth_error (scopes t) i0 = Some c0) by (intros; unfold t, inside; cbn; now apply nth_app_l).
  split; [|split].
  - exists c. split; [auto|]. destruct (c_name c) as [|i0 y|y]; auto. destruct Nm as (-> & s0 & S0 & A0). split; auto. exists s0. auto.
  - exists sc. split; [exists c2; auto|]. exists cs'. auto.
  - destruct (renamed_cell _ _ _ _ _ R Ci) as (ci' & Ci' & Vi' & _). exists sc, ci'. split; [exact Ci'|]. congruence.
Qed.

(** The state after a call of a method with one argument. *)
Definition after (ps : list bytes) (args : list addr) (x : asked) (s s' : st bob) : Prop :=
  exists cs new bs, renamed args (cells s) cs /\
  s' = set_host (ask x (host s)) (set_cells (cs ++ new) (set_bufs (bufs s ++ bs) (set_scopes (scopes s ++ [Scope (map (fun pa => Var (fst pa) false (Some (snd pa))) (combine ps args)) None false true]) s))).

Lemma method_call_does o n s i k d p fa v srcs : cur_rv s = None -> method s i k d (op_name o) [p] fa -> class_val (host s) (op_class o) = Some k ->
  (forall b, class_val (host s) b = Some k -> b = op_class o) -> strings s v srcs -> takes sg out o srcs ->
  exists r s', call_ cf (interp cf n) fa (Some i) Slot [v] s = Ret (Some r) s' /\ after [p] [v] (op_asks o d v r) s s' /\ gives sg out o s' srcs r.
Proof.
  intros Rv M K U Sv Nf. pose proof M as (sc & j & f & en & l & (ci & Ci & Vi) & (cs' & Sc & As & Os) & D & Pf & Kf & Pm & _ & _ & Ef & Ee).
  assert (Ls : v < length (cells s)) by (apply holds_vec in Sv as (c & es & C & _); eapply nth_lt; eauto).
  assert (On : on_scope s (Some i) = Some sc) by (unfold on_scope; now rewrite Ci, Vi).
  destruct (extern_gives cf fa f en l (Some i) [v] s sc l cs') as (cs & Rn & G); auto.
  { cbn. eapply nth_lt; eauto. } { now rewrite On. } { rewrite Pm. reflexivity. }
  specialize (G (interp cf n)). cbv zeta in G. rewrite On in G. destruct G as (G & _). set (t := inside f en l (Some sc) [v] cs s) in *.
  assert (Nv : ~ In fa [v]).
  { intros [->|[]]. apply holds_vec in Sv as (c & es & C & V & _). destruct Pf as (c2 & C2 & V2). rewrite C in C2. injection C2 as <-. congruence. }
  destruct (inside_method s i k d (op_name o) [p] fa [v] f en l (Some sc) cs M Rn Nv) as (Hn & Hb & Hi).
  assert (Kt : keeps s t). { destruct (renamed_keeps _ _ _ Rn) as (A & B). split; [exact A|exact B]. }
  assert (St : strings t v srcs) by (eapply holds_keeps; eauto).
  destruct (external_ok sg out listing o t fa i k d v srcs Hn Hb Hi K U St Nf) as (r & t1 & E & An & Gv).
  assert (F : fr None true t t1) by (eapply external_fr; exact E).
  assert (P1 : payload_at t1 fa (PFn f)).
  { destruct Pf as (c & C & V). destruct (keeps_trans _ _ _ Kt (answered_keeps _ _ _ An)) as (A & _). destruct (A _ _ C) as (c' & C' & V'). exists c'. split; [exact C'|congruence]. }
  specialize (G r t1 E F P1). exists r. eexists. split; [exact G|]. destruct An as (t2 & (new & bs & ->) & ->). split.
  - exists cs, new, bs. split; [exact Rn|]. unfold t, inside, params_scope. rewrite Pm, Kf. clear - Rv Ee. apply st_ext; try reflexivity; [|symmetry; exact Rv]. cbn. rewrite upd_upd. exact (upd_id _ _ _ Ee).
  - destruct Gv as (Lr & Gv). split; [exact Lr|]. destruct o as [|kk].
    + destruct Gv as (objs & O & es & V & S). exists objs. split; auto. exists es. split; [exact V|]. eapply Forall2_impl'; [|exact S]. intros x a (A & B). split; [|exact B].
      eapply holds_keeps; [|exact A]. split; cbn; eauto.
    + destruct Gv as (Gv & Ur). split; [|exact Ur]. eapply holds_keeps; [|exact Gv]. split; cbn; eauto.
Qed.
End Methods.
