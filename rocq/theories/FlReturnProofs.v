(** * Returning from functions. *)

From Coq Require Import ZArith Arith Ascii String Lia Bool List.
From Verif Require Import Base FlAst FlState FlInterp FlMonad SpecFlamingo FlEqProofs SpecScript SpecFrame SpecScope FlOpProofs FlExprProofs FlFrame FlBalance FlMemberProofs FlHigherProofs FlSeqProofs FlScopeProofs FlAssignProofs.
Import ListNotations.
Local Open Scope nat_scope.

Section Return.
Context {H : Type}.
Variable cf : conf H.
Implicit Types s t : st H.
Variable T : tame cf.

(** ** [return e] evaluates [e] as anything else does *)
Definition shifts (mS mR : M H (option addr)) : Prop := forall s a s1, cur_rv s = None -> mS s = Ret (Some a) s1 -> mR s = Ret None (set_rv (Some (RVal a)) s1).
Lemma shifts_deliver a : shifts (deliver Slot a) (deliver RetSlot a).
Proof. intros s b s1 R E. apply ret_inv in E as (Q & ->). injection Q as ->. unfold deliver. now rewrite R. Qed.
Lemma shifts_deliver_opt o : shifts (deliver_opt Slot o) (deliver_opt RetSlot o).
Proof. destruct o; [apply shifts_deliver|]. intros s b s1 R E. discriminate. Qed.
Definition hushed {A} (m : M H A) : Prop := forall s x s', m s = Ret x s' -> fr None true s s'.
Lemma shifts_bind {A} (m : M H A) kS kR : hushed m -> (forall x, shifts (kS x) (kR x)) -> shifts (mbind m kS) (mbind m kR).
Proof.
  intros Q K s a s1 R E. apply bind_ret_inv in E as (x & s0 & E1 & E). rewrite (bind_step _ _ _ _ _ E1). apply K; auto. exact (fr_rv _ _ _ _ (Q _ _ _ E1) eq_refl R).
Qed.
Lemma shifts_never (mS mR : M H (option addr)) : (forall s a s1, mS s <> Ret a s1) -> shifts mS mR.
Proof. intros N s a s1 R E. now apply N in E. Qed.

Section Level.
Variable n : nat.
Let R := interp cf n.
Let G : good R := interp_good cf T n.
Lemma hushed_value e : hushed (value R e).
Proof. intros s x s' E. eapply value_fr; eauto. Qed.
Lemma hushed_get a : hushed (get_cell (H := H) a).
Proof. intros s x s' E. eapply get_cell_fr; eauto. Qed.
Lemma hushed_alloc p : hushed (alloc (H := H) p).
Proof. intros s x s' E. eapply alloc_fr; eauto. Qed.

Lemma shifts_ident x : shifts (do_ident cf Slot x) (do_ident cf RetSlot x).
Proof.
  unfold do_ident. apply shifts_bind; [intros s r s' E; apply env_find_same in E; subst; apply fr_refl|]. intros [[[i j] v]|]; [|apply shifts_never; intros; apply raise_not_ret].
  destruct (v_val v); [|apply shifts_never; discriminate]. apply shifts_bind; [intros s r s' E; eapply incref_fr; eauto|]. intros _. apply shifts_deliver.
Qed.
Lemma shifts_lambda ps b : shifts (do_lambda Slot ps b) (do_lambda RetSlot ps b).
Proof.
  unfold do_lambda. apply shifts_bind; [intros s r s' E; eapply close_over_fr; eauto|]. intro env. apply shifts_bind; [intros s r s' E; eapply new_body_fr; eauto|].
  intro b'. apply shifts_bind; [apply hushed_alloc|]. intro a. apply shifts_deliver.
Qed.
Lemma shifts_index e i : shifts (do_index cf R Slot e i) (do_index cf R RetSlot e i).
Proof.
  unfold do_index. apply shifts_bind; [apply hushed_value|]. intro x. apply shifts_bind; [apply hushed_get|]. intro c.
  destruct (c_val c); try (apply shifts_never; intros; apply raise_not_ret).
  - apply shifts_bind; [apply hushed_value|]. intro j. apply shifts_bind; [apply hushed_get|]. intro cj. destruct (c_val cj); try (apply shifts_never; intros; apply raise_not_ret).
    apply shifts_bind; [apply hushed_get|]. intro c'. destruct (c_val c'); try (apply shifts_never; discriminate). apply shifts_bind; [intros s r s' E; eapply vec_index_fr; eauto|]. intro a. apply shifts_deliver.
  - apply shifts_bind; [apply hushed_value|]. intro j.
    apply shifts_bind; [apply hushed_get|]. intro c'. destruct (c_val c'); try (apply shifts_never; discriminate). apply shifts_bind; [intros s r s' E; eapply map_index_fr; eauto|]. intro a. apply shifts_deliver.
Qed.
End Level.

Lemma eval_return : forall n e s a x s1, direct e -> cur_rv s = None -> r_eval (interp cf n) Slot e s = Ret (Some a, x) s1 ->
  r_eval (interp cf n) RetSlot e s = Ret (None, x) (set_rv (Some (RVal a)) s1).
Proof.
  induction n as [|n IH]; [discriminate|]. intros e s a x s1 D R E. rewrite eval_S in E |- *.
  assert (P : forall mS mR, shifts mS mR -> plain mS s = Ret (Some a, x) s1 -> plain mR s = Ret (None, x) (set_rv (Some (RVal a)) s1)).
  { intros mS mR Sh Q. apply plain_inv in Q as (o & Q & Qa). injection Qa as <- ->. unfold plain. rewrite (bind_step _ _ _ _ _ (Sh _ _ _ R Q)). reflexivity. }
  pose proof (interp_good cf T n) as G.
  destruct e; cbn [eval_] in E |- *; try contradiction; try (eapply P; [|exact E]).
  - apply shifts_bind; [apply hushed_alloc|]. intro; apply shifts_deliver.
  - apply shifts_bind; [apply hushed_alloc|]. intro; apply shifts_deliver.
  - apply shifts_bind; [intros s7 r s' Q; apply parse_number_same in Q; subst; apply fr_refl|]. intro. apply shifts_bind; [apply hushed_alloc|]. intro; apply shifts_deliver.
  - apply shifts_bind; [intros s7 r s' Q; eapply make_str_fr; eauto|]. intro; apply shifts_deliver.
  - apply shifts_ident.
  - apply shifts_lambda.
  - apply shifts_bind; [intros s7 r s' Q; eapply mapM_value_fr; eauto|]. intro. apply shifts_bind; [apply hushed_alloc|]. intro; apply shifts_deliver.
  - apply shifts_bind; [intros s7 r s' Q; eapply map_items_fr; eauto|]. intro. apply shifts_bind; [apply hushed_alloc|]. intro; apply shifts_deliver.
  - apply IH; auto.
  - apply shifts_bind; [apply hushed_value|]. intro y. apply shifts_bind; [intros s7 r s' Q; eapply unary_fr; eauto|]. intro. apply shifts_deliver_opt.
  - apply shifts_bind; [apply hushed_value|]. intro y. apply shifts_bind; [apply hushed_value|]. intro z. apply shifts_bind; [intros s7 r s' Q; eapply binary_fr; eauto|]. intro. apply shifts_deliver_opt.
  - unfold do_access in E |- *. apply bind_ret_inv in E as (ra & s0 & E1 & E). rewrite (bind_step _ _ _ _ _ E1). apply access_find_fr in E1; [|exact G].
    apply bind_ret_inv in E as (v & s2 & E2 & E). rewrite (bind_step _ _ _ _ _ E2). apply vref_val_same in E2. subst s2.
    apply bind_ret_inv in E as (u & s2 & E2 & E). rewrite (bind_step _ _ _ _ _ E2). apply incref_fr in E2. apply bind_ret_inv in E as (o & s3 & E3 & E). apply ret_inv in E as (Q & ->). injection Q as <- ->.
    assert (R2 : cur_rv s2 = None) by (apply (fr_rv _ _ _ _ E2 eq_refl); exact (fr_rv _ _ _ _ E1 eq_refl R)).
    rewrite (bind_step _ _ _ _ _ (shifts_deliver _ _ _ _ R2 E3)). reflexivity.
  - apply shifts_index.
  - now destruct (raise_not_ret _ _ _ _ _ E).
Qed.

Lemma return_sets n e s a s1 : direct e -> cur_rv s = None -> in_function s -> evals cf n e s a s1 -> executes cf (S n) (SReturn (Some e)) s (set_rv (Some (RVal a)) s1).
Proof.
  intros D R (i & j & l & c & O & Ec & A & C) (x & E). unfold executes. rewrite stmt_S. cbn [stmt_]. rewrite (bind_step _ _ _ _ _ (returning_no _ R)). cbv beta iota.
  unfold do_return. rewrite (bind_step _ _ _ _ _ (cur_stack_ok _ _ O)). cbv beta iota. rewrite (bind_step _ _ _ _ _ (get_scope_ok _ _ _ Ec A)). rewrite C.
  rewrite (bind_step _ _ s tt s) by (unfold no_rv; now rewrite R). rewrite (bind_step _ _ _ _ _ (eval_return _ _ _ _ _ _ D R E)). reflexivity.
Qed.

(** ** Statements after a return *)
Lemma returning_yes s r : cur_rv s = Some r -> (exists b x, cur_body s = Some b /\ nth_error (bodies s) b = Some (Some x)) -> returning s = Ret true s.
Proof. intros E (b & x & B & X). unfold returning. rewrite B, E. unfold mbind, read_body. now rewrite X. Qed.

Lemma upd_upd {A} (x y : A) : forall l i, upd i x (upd i y l) = upd i x l.
Proof. induction l as [|z l IH]; intros [|i]; cbn; auto. now rewrite IH. Qed.
Lemma push_ok s i l c : open s (i :: l) -> nth_error (scopes s) i = Some c -> sc_alive c = true ->
  push_scope s = Ret (length (scopes s)) (set_scopes (scopes s ++ [Scope [] None (sc_class c) true]) (set_envs (upd (cur_env s) (length (scopes s) :: i :: l) (envs s)) s)).
Proof.
  intros O E A. unfold push_scope, scope_alloc. unfold mbind at 1. set (s1 := set_scopes _ s).
  rewrite (bind_step _ _ s1 tt (set_envs (upd (cur_env s) (length (scopes s) :: i :: l) (envs s)) s1)).
  2: { unfold attach. rewrite (bind_step _ _ s1 (i :: l) s1) by (apply cur_stack_ok; exact O). reflexivity. }
  set (s2 := set_envs _ s1).
  rewrite (bind_step _ _ s2 (length (scopes s) :: i :: l) s2).
  2: { apply cur_stack_ok. unfold open, s2. cbn. apply upd_same. eapply nth_lt; exact O. }
  rewrite (bind_step _ _ s2 c s2). 2: { apply get_scope_ok; auto. cbn. now apply nth_app_l. }
  unfold put_scope, modify, mbind, s2, s1. cbn. rewrite upd_end. reflexivity.
Qed.
Lemma detach_ok s i l : open s (i :: l) -> detach s = Ret i (set_envs (upd (cur_env s) l (envs s)) s).
Proof. intro O. unfold detach. rewrite (bind_step _ _ _ _ _ (cur_stack_ok _ _ O)). reflexivity. Qed.

Lemma skipped : forall k x t r i l vs, inert x -> nesting x <= k -> cur_rv t = Some r -> (exists b y, cur_body t = Some b /\ nth_error (bodies t) b = Some (Some y)) ->
  open t (i :: l) -> vars t i vs -> exists extra, executes cf (S k) x t (set_scopes (scopes t ++ extra) t).
Proof.
  induction k as [k IH] using lt_wf_ind. intros x t r i l vs I N R B O V.
  assert (Sk : forall s, set_scopes (scopes s ++ []) s = s) by (intros []; cbn; now rewrite app_nil_r).
  unfold executes. rewrite stmt_S. destruct x; cbn [stmt_]; try contradiction;
    try (exists []; rewrite (bind_step _ _ _ _ _ (returning_yes _ _ R B)), Sk; reflexivity).
  cbn [nesting] in N. destruct k as [|[|k]]; try lia. destruct V as (c & Ec & A & Q).
  cbn [interp r_block]. unfold block_.
  assert (Go : forall ss t, (fix go (l : list stmt) : Prop := match l with [] => True | x :: l => inert x /\ go l end) ss ->
     (fix go (l : list stmt) : nat := match l with [] => 0 | x :: l => Nat.max (nesting x) (go l) end) ss <= k ->
     cur_rv t = Some r -> (exists b y, cur_body t = Some b /\ nth_error (bodies t) b = Some (Some y)) ->
     (exists i l vs, open t (i :: l) /\ vars t i vs) ->
     exists extra, iterM (r_stmt (interp cf (S k))) ss t = Ret tt (set_scopes (scopes t ++ extra) t)).
  { clear -IH Sk. induction ss as [|y ss IHs]; intros t I N R B (i & l & vs & O & V).
    - exists []. rewrite Sk. reflexivity.
    - destruct I as (I1 & I2). destruct (IH k ltac:(lia) y t r i l vs I1 ltac:(lia) R B O V) as (ex & E). cbn [iterM]. rewrite (bind_step _ _ _ _ _ E).
      destruct (IHs (set_scopes (scopes t ++ ex) t) I2 ltac:(lia) R B) as (ex' & E').
      { exists i, l, vs. split; [exact O|]. destruct V as (c & Ec & AQ). exists c. split; [now apply nth_app_l|exact AQ]. }
      exists (ex ++ ex'). rewrite E'. cbn. rewrite app_assoc. reflexivity. }
  set (t1 := set_scopes (scopes t ++ [Scope [] None (sc_class c) true]) (set_envs (upd (cur_env t) (length (scopes t) :: i :: l) (envs t)) t)).
  assert (O1 : open t1 (length (scopes t) :: i :: l)) by (unfold open; cbn; apply upd_same; eapply nth_lt; exact O).
  destruct (Go ss t1 I ltac:(lia) R B) as (ex & E).
  { exists (length (scopes t)), (i :: l), []. split; [exact O1|]. exists (Scope [] None (sc_class c) true). split; [apply nth_app_new|auto]. }
  exists (Scope [] None (sc_class c) true :: ex).
  rewrite (bind_step _ _ t (length (scopes t)) (set_scopes (scopes t ++ Scope [] None (sc_class c) true :: ex) t)); [reflexivity|].
  rewrite (bind_step _ _ _ _ _ (push_ok _ _ _ _ O Ec A)). fold t1. rewrite (bind_step _ _ _ _ _ E).
  rewrite (detach_ok _ (length (scopes t)) (i :: l)) by exact O1. unfold t1. cbn. rewrite upd_upd, (upd_id _ _ _ O), <- app_assoc. reflexivity.
Qed.
Lemma skipped_each k ss t r : Forall inert ss -> Forall (fun x => nesting x <= k) ss -> cur_rv t = Some r -> running t ->
  exists extra, executes_each cf (S k) ss t (set_scopes (scopes t ++ extra) t).
Proof.
  intros I N R ((i & l & vs & O & V) & B). revert t R i l vs O V B. induction ss as [|y ss IHs]; intros t R i l vs O V B.
  - exists []. replace (set_scopes (scopes t ++ []) t) with t by (destruct t; cbn; now rewrite app_nil_r). constructor.
  - inversion I; subst. inversion N; subst. destruct (skipped k y t r i l vs) as (ex & E); auto.
    destruct (IHs ltac:(auto) ltac:(auto) (set_scopes (scopes t ++ ex) t) R i l vs O) as (ex' & E'); [|exact B|].
    { destruct V as (c & Ec & AQ). exists c. split; [now apply nth_app_l|exact AQ]. }
    exists (ex ++ ex'). econstructor; [exact E|]. cbn in E'. rewrite <- app_assoc in E'. exact E'.
Qed.
Lemma each_iter n ss s s' : executes_each cf n ss s s' <-> iterM (r_stmt (interp cf n)) ss s = Ret tt s'.
Proof.
  split.
  - induction 1 as [s|x xs s s1 s2 E _ IH]; [reflexivity|]. cbn. rewrite (bind_step _ _ _ _ _ E). exact IH.
  - revert s. induction ss as [|x ss IH]; intros s E; cbn in E; [apply ret_inv in E as (_ & ->); constructor|]. apply bind_ret_inv in E as (u & s1 & E1 & E). destruct u. econstructor; eauto.
Qed.
Lemma each_app n xs ys s s1 s2 : executes_each cf n xs s s1 -> executes_each cf n ys s1 s2 -> executes_each cf n (xs ++ ys) s s2.
Proof. induction 1; cbn; auto. intro. econstructor; eauto. Qed.

Lemma each_fr n ss i : forall s s', top s = Some i -> executes_each cf n ss s s' -> fr (Some i) false s s'.
Proof.
  intros s s' Tp E. revert Tp. induction E as [s|x xs s s1 s2 E _ IH]; intro Tp; [apply fr_refl|].
  pose proof (g_stmt _ (interp_good cf T n) _ _ _ _ _ Tp E) as F1. pose proof (top_kept _ _ _ _ _ F1 Tp) as T1. specialize (IH T1).
  eapply fr_trans; [|exact IH]. destruct (quiet x); [apply fr_loud|]; exact F1.
Qed.

Lemma block_runs n ss s t t2 : opened s t -> executes_each cf (S n) ss t t2 -> r_block (interp cf (S (S n))) ss s = Ret (length (scopes s)) (set_envs (upd (cur_env s) (match nth_error (envs s) (cur_env s) with Some l => l | None => [] end) (envs t2)) t2).
Proof.
  intros (i & l & c & O & Ec & A & Q) E. change (r_block (interp cf (S (S n)))) with (block_ (interp cf (S n))). unfold block_. rewrite (bind_step _ _ _ _ _ (push_ok _ _ _ _ O Ec A)). rewrite <- Q.
  assert (Tp : top t = Some (length (scopes s))). { unfold top. rewrite Q. cbn. rewrite upd_same by (eapply nth_lt; exact O). reflexivity. }
  pose proof (each_fr _ _ _ _ _ Tp E) as F. apply each_iter in E. rewrite (bind_step _ _ _ _ _ E).
  assert (O2 : open t2 (length (scopes s) :: i :: l)).
  { unfold open. rewrite (fr_env _ _ _ _ F). apply (fr_envs _ _ _ _ F). rewrite Q. cbn. apply upd_same. eapply nth_lt; exact O. }
  rewrite (detach_ok _ _ _ O2). rewrite (fr_env _ _ _ _ F). rewrite Q. cbn. unfold open in O. rewrite O. reflexivity.
Qed.

Lemma block_returns n before x rest s t t1 t2 r : opened s t -> executes_each cf (S n) before t t1 -> executes cf (S n) x t1 t2 -> cur_rv t2 = Some r -> running t2 ->
  Forall inert rest -> Forall (fun x => nesting x <= n) rest ->
  exists s', executes cf (S (S (S n))) (SBlock (before ++ x :: rest)) s s' /\ closed s t2 s'.
Proof.
  intros Op E1 E2 R Ru I N. destruct (skipped_each n rest t2 r I N R Ru) as (extra & E3).
  assert (E : executes_each cf (S n) (before ++ x :: rest) t (set_scopes (scopes t2 ++ extra) t2)) by (eapply each_app; [exact E1|]; econstructor; eauto).
  pose proof (block_runs _ _ _ _ _ Op E) as B. destruct Op as (i & l & c & O & _). unfold open in O. rewrite O in B.
  eexists. split; [unfold executes; rewrite stmt_S; cbn [stmt_]; rewrite (bind_step _ _ _ _ _ B); reflexivity|]. exists (i :: l), extra. split; [exact O|]. destruct t2; reflexivity.
Qed.

(** ** Calls *)
Lemma add_arg_ok i x a s c : nth_error (scopes s) i = Some c -> sc_alive c = true -> a < length (cells s) ->
  exists cs, add_arg i x a s = Ret tt (set_cells cs (set_scopes (upd i (Scope (sc_vars c ++ [Var x false (Some a)]) (sc_owner c) (sc_class c) true) (scopes s)) s)) /\
  map c_val cs = map c_val (cells s) /\ map c_cnt cs = map c_cnt (cells s).
Proof.
  intros Ec A La. destruct (nth_error (cells s) a) as [ca|] eqn:Ea; [|apply nth_error_None in Ea; lia].
  set (c1 := Scope (sc_vars c ++ [Var x false None]) (sc_owner c) (sc_class c) true). set (s1 := set_scopes (upd i c1 (scopes s)) s).
  assert (E1 : nth_error (scopes s1) i = Some c1) by (cbn; apply upd_same; eapply nth_lt; eauto).
  assert (V1 : nth_error (sc_vars c1) (length (sc_vars c)) = Some (Var x false None)) by (cbn; apply nth_app_new).
  exists (upd a (Cell (NKey i x) (c_cnt ca) (c_owner ca) (c_val ca)) (cells s)). split.
  - unfold add_arg. rewrite (bind_step _ _ s (length (sc_vars c)) s1).
    2: { unfold add_var. rewrite (bind_step _ _ _ _ _ (get_scope_ok _ _ _ Ec A)). reflexivity. }
    unfold var_set_val. rewrite (bind_step _ _ _ _ _ (get_scope_ok _ _ _ E1 eq_refl)). rewrite V1.
    rewrite (bind_step _ _ s1 tt (set_scopes (upd i (Scope (sc_vars c ++ [Var x false (Some a)]) (sc_owner c) (sc_class c) true) (scopes s)) s)).
    2: { unfold write_var. rewrite (bind_step _ _ _ _ _ (get_scope_ok _ _ _ E1 eq_refl)). rewrite V1. unfold put_scope, modify, s1. cbn. rewrite upd_upd, upd_end. reflexivity. }
    match goal with |- mbind _ _ ?s2 = _ => rewrite (bind_step _ _ s2 ca s2) by (apply get_cell_ok; exact Ea) end. reflexivity.
  - rewrite !upd_map. cbn. split; apply upd_id; now apply map_nth_error.
Qed.
Lemma add_args_ok i : forall ps args s c, length args = length ps -> nth_error (scopes s) i = Some c -> sc_alive c = true -> Forall (fun a => a < length (cells s)) args ->
  exists cs, add_args i ps args s = Ret tt (set_cells cs (set_scopes (upd i (Scope (sc_vars c ++ map (fun pa => Var (fst pa) false (Some (snd pa))) (combine ps args)) (sc_owner c) (sc_class c) true) (scopes s)) s)) /\
  map c_val cs = map c_val (cells s) /\ map c_cnt cs = map c_cnt (cells s).
Proof.
  induction ps as [|p ps IH]; intros [|a args] s c L Ec A Fa; try discriminate.
  - exists (cells s). split; [|auto]. cbn. rewrite app_nil_r. unfold ret. f_equal.
    replace (upd i _ (scopes s)) with (scopes s); [now destruct s|]. symmetry. apply upd_id. rewrite Ec. destruct c; cbn in *; congruence.
  - inversion Fa as [|? ? La Fa']; subst. destruct (add_arg_ok i p a s c Ec A La) as (cs & E & V & C). cbn [add_args]. rewrite (bind_step _ _ _ _ _ E). set (s1 := set_cells cs _).
    assert (Ls : length cs = length (cells s)) by (apply (f_equal (@length _)) in V; now rewrite !map_length in V).
    destruct (IH args s1 (Scope (sc_vars c ++ [Var p false (Some a)]) (sc_owner c) (sc_class c) true)) as (cs' & E' & V' & C').
    { cbn in L. lia. } { unfold s1. cbn. apply upd_same. eapply nth_lt; eauto. } { reflexivity. }
    { unfold s1. cbn. rewrite Ls. exact Fa'. }
    exists cs'. split; [|split; [rewrite V'; exact V|rewrite C'; exact C]]. rewrite E'. unfold s1. cbn. rewrite upd_upd, <- app_assoc. reflexivity.
Qed.

Lemma upd_snoc {A} (x y : A) l m : upd (length l) x (l ++ y :: m) = l ++ x :: m.
Proof. induction l as [|z l IH]; cbn; [reflexivity|now rewrite IH]. Qed.

(** A call runs the statements of the body and then finishes. *)
Lemma call_runs n fa f b ss e l (args : list addr) s : function s fa f b ss e l -> length args = length (f_params f) -> Forall (fun a => a < length (cells s)) args ->
  exists t, activated f b e l args s t /\ forall t2, executes_each cf (S n) ss t t2 -> forall d,
  r_call (interp cf (S (S (S n)))) fa None d args s =
    (o <- finish cf (interp cf (S (S n))) fa BDone d args ;; modify (set_rv None) ;; ret o)%fl
      (set_env (cur_env s) (set_body (cur_body s) (set_envs (upd e l (envs t2)) t2))).
Proof.
  intros ((c & Ec & Ev) & Kf & Bf & Bd & Ef & Ee & (p & l' & vs & -> & (cp & Ep & Ap & _))) L Fa.
  set (k := length (scopes s)). set (arg_scope := Scope (map (fun pa => Var (fst pa) false (Some (snd pa))) (combine (f_params f) args)) None false true).
  set (sA := set_env e (set_body (Some b) s)).
  assert (OA : open sA (p :: l')) by exact Ee.
  pose proof (push_ok sA p l' cp OA Ep Ap) as PushA. set (sB := set_scopes _ _) in PushA. fold k in PushA. change (length (scopes sA)) with k in PushA. change (length (scopes sA)) with k in sB.
  assert (EB : nth_error (scopes sB) k = Some (Scope [] None (sc_class cp) true)) by (unfold sB, k; cbn; apply nth_app_new).
  set (sC := set_scopes (upd k (Scope [] None false true) (scopes sB)) sB).
  assert (OC : open sC (k :: p :: l')) by (unfold open, sC, sB; cbn; apply upd_same; eapply nth_lt; exact Ee).
  assert (EC : nth_error (scopes sC) k = Some (Scope [] None false true)) by (unfold sC; cbn [scopes set_scopes]; apply upd_same; eapply nth_lt; exact EB).
  destruct (add_args_ok k (f_params f) args sC (Scope [] None false true) L EC eq_refl Fa) as (cs & EA & Vc & Cc).
  set (sD := set_cells cs _) in EA.
  assert (ED : nth_error (scopes sD) k = Some arg_scope) by (unfold sD; cbn [scopes set_cells set_scopes]; apply upd_same; eapply nth_lt; exact EC).
  assert (OD : open sD (k :: p :: l')) by exact OC.
  assert (SD : scopes sD = scopes s ++ [arg_scope]).
  { unfold sD, sC, sB. cbn. rewrite !upd_upd. unfold k. rewrite upd_end. reflexivity. }
  assert (BD : nth_error (bodies sD) b = Some (Some (BBlock ss))) by exact Bd.
  set (t := set_scopes (scopes sD ++ [Scope [] None false true]) (set_envs (upd (cur_env sD) (length (scopes sD) :: k :: p :: l') (envs sD)) sD)).
  assert (Op : opened sD t) by (exists k, (p :: l'), arg_scope; auto).
  assert (Lk : length (scopes sD) = S k) by (rewrite SD, app_length; cbn; unfold k; lia).
  exists t. split.
  { unfold activated. unfold t at 1 2. split; [reflexivity|]. split. { cbn [envs set_scopes set_envs]. rewrite Lk. unfold sD, sC, sB. cbn. rewrite upd_upd. reflexivity. }
    split. { unfold t. cbn [scopes set_scopes]. rewrite SD, <- app_assoc. reflexivity. }
    repeat split; assumption. }
  intros t2 E d. rewrite call_S. unfold call_. rewrite (bind_step _ _ _ _ _ (get_cell_ok _ _ _ Ec)), Ev.
  rewrite (bind_step _ _ s None s) by reflexivity. rewrite (bind_step _ _ s (cur_body s) s) by reflexivity. rewrite (bind_step _ _ s (cur_env s) s) by reflexivity.
  rewrite (bind_step _ _ s tt (set_body (Some b) s)) by (unfold modify; now rewrite Bf). rewrite Ef. rewrite (bind_step _ _ (set_body (Some b) s) tt sA) by reflexivity.
  rewrite (bind_step _ _ sA tt sA) by reflexivity. rewrite (bind_step _ _ _ _ _ PushA).
  rewrite (bind_step _ _ _ _ _ (get_scope_ok _ _ _ EB eq_refl)). rewrite Kf. cbn [sc_vars sc_owner]. rewrite (bind_step _ _ sB tt sC) by reflexivity.
  assert (SA : setup_args cf f args sC = Ret tt sD).
  { unfold setup_args. rewrite (bind_step _ _ _ _ _ (cur_scope_ok _ _ _ OC)). rewrite Kf, L, Nat.eqb_refl. exact EA. }
  rewrite (bind_step _ _ _ _ _ SA).
  pose proof (block_runs n ss sD t t2 Op E) as BR. unfold open in OD. rewrite OD in BR.
  set (sE := set_envs _ t2) in BR.
  assert (RB : run_body cf (interp cf (S (S n))) fa f None d sD = Ret BDone sE).
  { unfold run_body. rewrite Kf, Bf. rewrite (bind_step _ _ sD (BBlock ss) sD) by (unfold read_body; now rewrite BD). cbv beta iota. rewrite (bind_step _ _ _ _ _ BR). reflexivity. }
  rewrite (bind_step _ _ _ _ _ RB).
  assert (Tp : top t = Some (length (scopes sD))). { unfold top, t. cbn. rewrite upd_same by (eapply nth_lt; exact OD). reflexivity. }
  pose proof (each_fr _ _ _ _ _ Tp E) as F2.
  assert (Ce : cur_env t2 = e) by (rewrite (fr_env _ _ _ _ F2); reflexivity).
  assert (O2 : nth_error (envs t2) e = Some (length (scopes sD) :: k :: p :: l')).
  { apply (fr_envs _ _ _ _ F2). unfold t. cbn [envs set_scopes set_envs]. apply upd_same. eapply nth_lt; exact OD. }
  assert (OE : open sE (k :: p :: l')).
  { unfold open, sE. cbn [envs cur_env set_envs]. rewrite Ce. apply upd_same. eapply nth_lt; exact O2. }
  rewrite (bind_step _ _ _ _ _ (detach_ok _ _ _ OE)). set (sF := set_envs _ sE).
  rewrite (bind_step _ _ sF tt sF) by reflexivity. rewrite (bind_step _ _ sF tt (set_body (cur_body s) sF)) by reflexivity.
  rewrite (bind_step _ _ (set_body (cur_body s) sF) tt (set_env (cur_env s) (set_body (cur_body s) sF))) by reflexivity.
  f_equal. unfold sF, sE. cbn. rewrite Ce. change (cur_env sD) with e. rewrite upd_upd. reflexivity.
Qed.

Lemma call_returns n fa f b before x rest e l (args : list addr) s : function s fa f b (before ++ x :: rest) e l -> length args = length (f_params f) -> Forall (fun a => a < length (cells s)) args ->
  Forall inert rest -> Forall (fun x => nesting x <= n) rest ->
  exists t, activated f b e l args s t /\ forall t1 t2 a, executes_each cf (S n) before t t1 -> executes cf (S n) x t1 t2 -> cur_rv t2 = Some (RVal a) -> running t2 ->
  (exists g, payload_at t2 fa (PFn g) /\ f_kind g = KFun) ->
  exists s', r_call (interp cf (S (S (S n)))) fa None Slot args s = Ret (Some a) s' /\ resumed e l s t2 s'.
Proof.
  intros Fn L Fa I N. destruct (call_runs n fa f b _ e l args s Fn L Fa) as (t & At & Run). exists t. split; [exact At|]. intros t1 t2 a E1 E2 R Ru (g & (c & Ec & Ev) & Kg).
  destruct (skipped_each n rest t2 _ I N R Ru) as (extra & E3).
  assert (E : executes_each cf (S n) (before ++ x :: rest) t (set_scopes (scopes t2 ++ extra) t2)) by (eapply each_app; [exact E1|]; econstructor; eauto).
  specialize (Run _ E Slot). rewrite Run. set (sL := set_env _ _).
  rewrite (bind_step _ _ sL (Some a) sL).
  2: { unfold finish. rewrite (bind_step _ _ sL c sL) by (apply get_cell_ok; exact Ec). rewrite Ev, Kg. rewrite (bind_step _ _ sL (Some (RVal a)) sL) by (unfold gets; f_equal; exact R). reflexivity. }
  eexists. split; [reflexivity|]. exists extra. reflexivity.
Qed.

(** Without a return, the value is none. *)
Lemma call_falls_off n fa f b ss e l (args : list addr) s : function s fa f b ss e l -> length args = length (f_params f) -> Forall (fun a => a < length (cells s)) args ->
  exists t, activated f b e l args s t /\ forall t2, executes_each cf (S n) ss t t2 -> cur_rv t2 = None -> (exists g, payload_at t2 fa (PFn g) /\ f_kind g = KFun) ->
  exists s', r_call (interp cf (S (S (S n)))) fa None Slot args s = Ret (Some (length (cells t2))) s' /\ holds s' DNone (length (cells t2)) /\
  resumed e l s (set_cells (cells t2 ++ [Cell NNone 1 None PNone]) t2) s'.
Proof.
  intros Fn L Fa. destruct (call_runs n fa f b _ e l args s Fn L Fa) as (t & At & Run). exists t. split; [exact At|]. intros t2 E R (g & (c & Ec & Ev) & Kg).
  specialize (Run _ E Slot). rewrite Run. set (sL := set_env _ _).
  rewrite (bind_step _ _ sL (Some (length (cells t2))) (set_cells (cells t2 ++ [Cell NNone 1 None PNone]) sL)).
  2: { unfold finish. rewrite (bind_step _ _ sL c sL) by (apply get_cell_ok; exact Ec). rewrite Ev, Kg. rewrite (bind_step _ _ sL None sL) by (unfold gets; f_equal; exact R). reflexivity. }
  eexists. split; [reflexivity|]. split.
  - exists (Cell NNone 1 None PNone). split; [|reflexivity]. cbn. apply nth_app_new.
  - exists []. cbn. rewrite app_nil_r. reflexivity.
Qed.
End Return.
