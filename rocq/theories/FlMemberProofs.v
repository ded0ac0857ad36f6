(** * Members of strings and vectors. *)

From Coq Require Import ZArith Arith Ascii String Lia Bool List Permutation.
From Verif Require Import Base FlAst FlState FlInterp FlMonad SpecFlamingo FlEqProofs SpecScript FlOpProofs FlExprProofs.
Import ListNotations.
Local Open Scope nat_scope.

Section Member.
Context {H : Type}.
Variable cf : conf H.

(** ** Passing arguments *)

Definition names_only (s t : st H) : Prop := forall a, option_map c_val (nth_error (cells t) a) = option_map c_val (nth_error (cells s) a).

Lemma names_only_refl s : names_only s s. Proof. intro; reflexivity. Qed.
Lemma names_only_trans s t u : names_only s t -> names_only t u -> names_only s u.
Proof. intros A B a. now rewrite B. Qed.
Lemma names_only_put s a c c' : nth_error (cells s) a = Some c -> c_val c' = c_val c -> names_only s (set_cells (upd a c' (cells s)) s).
Proof.
  intros E V b. cbn. destruct (Nat.eq_dec a b) as [<-|D].
  - rewrite upd_same, E by (eapply nth_lt; eauto). cbn. now rewrite V.
  - now rewrite upd_other.
Qed.
Lemma names_only_len s t : names_only s t -> length (cells t) = length (cells s).
Proof.
  intro N. destruct (Nat.lt_trichotomy (length (cells t)) (length (cells s))) as [L|[L|L]]; auto; exfalso.
  - specialize (N (length (cells t))). rewrite (proj2 (nth_error_None _ _)) in N by lia. destruct (nth_error (cells s) (length (cells t))) eqn:E; [discriminate|]. apply nth_error_None in E. lia.
  - specialize (N (length (cells s))). rewrite (proj2 (nth_error_None (cells s) _)) in N by lia. destruct (nth_error (cells t) (length (cells s))) eqn:E; [discriminate|]. apply nth_error_None in E. lia.
Qed.
Lemma names_only_cell s t a c : names_only s t -> nth_error (cells s) a = Some c -> exists c', nth_error (cells t) a = Some c' /\ c_val c' = c_val c.
Proof. intros N E. specialize (N a). rewrite E in N. destruct (nth_error (cells t) a); [|discriminate]. injection N. eauto. Qed.
Lemma names_only_keeps s t : names_only s t -> bufs t = bufs s -> keeps s t.
Proof. intros N B. split; [intros a c E; eapply names_only_cell; eauto|now rewrite B]. Qed.

(** The other parts of the state. *)
Definition rest_same (s t : st H) : Prop :=
  bufs t = bufs s /\ bodies t = bodies s /\ envs t = envs s /\ cur_env t = cur_env s /\ cur_body t = cur_body s /\ cur_rv t = cur_rv s /\
  members t = members s /\ import_paths t = import_paths s /\ err t = err s /\ prints t = prints s /\ host t = host s.

Lemma add_arg_ok i x a (s : st H) l o k c : scopes s = l ++ [Scope o k c true] -> i = length l -> a < length (cells s) ->
  exists t, add_arg i x a s = Ret tt t /\ names_only s t /\ rest_same s t /\
    scopes t = l ++ [Scope (o ++ [Var x false (Some a)]) k c true].
Proof.
  intros Sc -> La. unfold add_arg, add_var.
  assert (G : get_scope (length l) s = Ret (Scope o k c true) s).
  { unfold get_scope. rewrite Sc, nth_app_new. reflexivity. }
  unfold mbind at 1. unfold mbind at 1. rewrite G. unfold mbind at 1, put_scope, modify.
  set (s1 := set_scopes _ s).
  assert (U : forall (x : scope) y, upd (length l) x (l ++ [y]) = l ++ [x]).
  { clear. intros x y. induction l as [|z l IH]; cbn; [reflexivity|now rewrite IH]. }
  assert (Sc1 : scopes s1 = l ++ [Scope (o ++ [Var x false None]) k c true]) by (unfold s1; cbn; now rewrite Sc, U).
  unfold ret. cbv beta iota. unfold var_set_val.
  assert (G1 : get_scope (length l) s1 = Ret (Scope (o ++ [Var x false None]) k c true) s1) by (unfold get_scope; rewrite Sc1, nth_app_new; reflexivity).
  unfold mbind at 1. rewrite G1. cbn [sc_vars sc_owner sc_class]. rewrite nth_app_new.
  assert (Uv : forall (x : var) y, upd (length o) x (o ++ [y]) = o ++ [x]).
  { clear. intros x y. induction o as [|z o IH]; cbn; [reflexivity|now rewrite IH]. }
  unfold mbind at 1, write_var. unfold mbind at 1. rewrite G1. cbn [sc_vars sc_owner sc_class v_key v_static]. rewrite nth_app_new. unfold put_scope, modify. cbn [v_key v_static]. rewrite Uv.
  destruct (nth_error (cells s) a) as [ca|] eqn:Ca; [|apply nth_error_None in Ca; lia].
  unfold mbind at 1. unfold get_cell. match goal with |- context [nth_error (cells ?X) a] => change (cells X) with (cells s) end. rewrite Ca. unfold put_cell, modify.
  eexists. split; [reflexivity|]. repeat split; try reflexivity.
  - intro b. cbn. destruct (Nat.eq_dec a b) as [<-|D]; [rewrite upd_same, Ca by auto; reflexivity|now rewrite upd_other].
  - change (upd (length l) (Scope (o ++ [Var x false (Some a)]) k c true) (scopes s1) = l ++ [Scope (o ++ [Var x false (Some a)]) k c true]). rewrite Sc1. apply U.
Qed.

Lemma rest_same_refl s : rest_same s s. Proof. repeat split. Qed.
Lemma rest_same_trans s t u : rest_same s t -> rest_same t u -> rest_same s u.
Proof. unfold rest_same. intuition congruence. Qed.

Lemma add_args_ok i : forall ps args s l o k c, scopes s = l ++ [Scope o k c true] -> i = length l -> Forall (fun a => a < length (cells s)) args ->
  length ps = length args ->
  exists t, add_args i ps args s = Ret tt t /\ names_only s t /\ rest_same s t /\
    scopes t = l ++ [Scope (o ++ map (fun pa => Var (fst pa) false (Some (snd pa))) (combine ps args)) k c true].
Proof.
  induction ps as [|p ps IH]; intros args s l o k c Sc I La Le; destruct args as [|a args]; try discriminate; cbn [add_args].
  - exists s. split; [reflexivity|]. split; [apply names_only_refl|]. split; [apply rest_same_refl|]. cbn. now rewrite app_nil_r.
  - inversion La; subst. destruct (add_arg_ok (length l) p a s l o k c Sc eq_refl H2) as (t & E & N & R & St).
    rewrite (bind_step _ _ _ _ _ E).
    destruct (IH args t l _ k c St eq_refl) as (u & E2 & N2 & R2 & Su); [|auto|].
    { rewrite (names_only_len _ _ N). assumption. }
    exists u. split; auto. split; [eapply names_only_trans; eauto|]. split; [eapply rest_same_trans; eauto|]. rewrite Su. cbn. now rewrite <- app_assoc.
Qed.

(** ** Calling a member *)

Lemma mapM_vals : forall args (s : st H) x, length x = length args ->
  mapM (fun v => match v_val v with Some a => ret a | None => undef UNull end) (map (fun pa : bytes * addr => Var (fst pa) false (Some (snd pa))) (combine x args)) s
  = Ret args s.
Proof.
  intros args. induction args as [|a args IH]; intros s [|y x] L; try discriminate; try reflexivity. cbn [combine map mapM v_val snd fst].
  unfold mbind, ret. specialize (IH s x). unfold mbind, ret in IH. rewrite IH; [reflexivity|now injection L].
Qed.

Lemma ptm_enter R fa p a args s c ca : nth_error (cells s) fa = Some c -> c_val c = PFn (Fn (KPtm p) [] None None None) ->
  nth_error (cells s) a = Some ca -> (match c_val ca with PInst _ _ _ => False | _ => True end) -> ready s ->
  Forall (fun b => b < length (cells s)) args ->
  exists t0 i l, entered s t0 /\ cur_rv t0 = None /\ nth_error (envs t0) (cur_env t0) = Some (length (scopes s) :: i :: l) /\
    nth_error (envs s) (cur_env s) = Some (i :: l) /\
    length (envs t0) = length (envs s) /\
    call_ cf R fa (Some a) Slot args s =
    mbind (call_member cf R p a args) (fun r => mbind (modify (set_rv (Some (RVal r)))) (fun _ =>
      mbind detach (fun _ => mbind (modify (set_body (cur_body s))) (fun _ => mbind (modify (set_env (cur_env s))) (fun _ =>
      mbind (finish cf R fa BDone Slot args) (fun o => mbind (modify (set_rv None)) (fun _ => ret o))))))) t0.
Proof.
  intros Cf Vf Ca Va (Rv & i & l & sc & En & Sc & Al) La. unfold call_.
  rewrite (bind_step _ _ _ _ _ (get_cell_ok _ _ _ Cf)), Vf.
  assert (On : mbind (get_cell a) (fun cx => ret match c_val cx with PInst _ i _ => Some i | _ => None end) s = Ret None s).
  { rewrite (bind_step _ _ _ _ _ (get_cell_ok _ _ _ Ca)). destruct (c_val ca); try reflexivity. contradiction. }
  unfold mbind at 1. rewrite On. unfold mbind at 1, gets. unfold mbind at 1, gets. unfold mbind at 1, modify. cbn [f_body f_env f_kind unless].
  unfold mbind at 1, ret. unfold mbind at 1, ret.
  set (s1 := set_body None s).
  assert (Ps : push_scope s1 = Ret (length (scopes s)) (set_scopes (scopes s ++ [Scope [] None (sc_class sc) true]) (set_envs (upd (cur_env s) (length (scopes s) :: i :: l) (envs s)) s1))).
  { unfold push_scope. unfold mbind at 1, scope_alloc. unfold mbind at 1, attach. unfold mbind at 1, cur_stack. unfold s1. cbn [envs cur_env set_scopes set_body scopes]. rewrite En.
    unfold set_stack, modify. unfold mbind at 1. cbn [envs cur_env set_scopes set_body scopes set_envs]. rewrite upd_same by (eapply nth_lt; eauto).
    unfold mbind at 1. unfold get_scope. cbn [scopes set_scopes set_body set_envs]. rewrite (nth_app_l _ _ _ _ Sc), Al.
    unfold put_scope, modify, mbind, ret. f_equal. unfold set_scopes, set_envs, set_body. cbn. f_equal.
    clear. generalize (scopes s). intro l0. induction l0 as [|z l0 IH]; cbn; [reflexivity|now rewrite IH]. }
  unfold mbind at 1. rewrite Ps. clear Ps.
  set (s2 := set_scopes _ _).
  assert (Sc2 : scopes s2 = scopes s ++ [Scope [] None (sc_class sc) true]) by reflexivity.
  unfold mbind at 1. unfold get_scope. rewrite Sc2, nth_app_new. cbn [sc_alive]. unfold mbind at 1, put_scope, modify. cbn [sc_vars sc_owner].
  set (s3 := set_scopes _ s2).
  assert (Sc3 : scopes s3 = scopes s ++ [Scope [] None false true]).
  { unfold s3. cbn. clear. generalize (scopes s). intro l0. induction l0 as [|z l0 IH]; cbn; [reflexivity|now rewrite IH]. }
  assert (En3 : nth_error (envs s3) (cur_env s3) = Some (length (scopes s) :: i :: l)) by (cbn; apply upd_same; eapply nth_lt; eauto).
  unfold mbind at 1, setup_args. unfold mbind at 1, cur_scope. unfold mbind at 1, cur_stack. rewrite En3. unfold ret. cbn [f_kind].
  match goal with |- context [add_args _ ?ps args s3] =>
    destruct (add_args_ok (length (scopes s)) ps args s3 (scopes s) [] None false Sc3 eq_refl) as (t & Ea & Na & Ra & Sa); [exact La|now rewrite map_length|]
  end.
  rewrite Ea. unfold mbind at 1, run_body. cbn [f_kind]. unfold mbind at 1, arg_vals. unfold mbind at 1, cur_scope. unfold mbind at 1, cur_stack.
  destruct Ra as (Rb & Rbo & Re & Rc & Rcb & Rr & Rm & Ri & Rer & Rp & Rh). rewrite Re, Rc, En3. unfold ret.
  unfold mbind at 1, get_scope. rewrite Sa, nth_app_new. cbn [sc_alive sc_vars app]. rewrite mapM_vals by (now rewrite map_length).
  unfold mbind at 1, no_rv. rewrite Rr. replace (cur_rv s3) with (@None rvp) by (symmetry; exact Rv).
  exists t, i, l. repeat split.
  - intro b. rewrite (Na b). reflexivity.
  - rewrite Rb. reflexivity.
  - rewrite Rbo. reflexivity.
  - rewrite Rp. reflexivity.
  - rewrite Rh. reflexivity.
  - rewrite Rc. reflexivity.
  - rewrite Sa. eauto.
  - rewrite Rr. exact Rv.
  - rewrite Re, Rc. exact En3.
  - exact En.
  - rewrite Re. cbn. apply upd_length.
  - unfold mbind. destruct (call_member cf R p a args t) as [r t1|t1| |u|]; reflexivity.
Qed.

Lemma finish_member R fa r args t c p : cur_rv t = Some (RVal r) -> nth_error (cells t) fa = Some c -> c_val c = PFn (Fn (KPtm p) [] None None None) ->
  finish cf R fa BDone Slot args t = Ret (Some r) t.
Proof.
  intros Rv C V. unfold finish. rewrite (bind_step _ _ _ _ _ (get_cell_ok _ _ _ C)), V. cbn [f_kind]. unfold mbind, gets. rewrite Rv. reflexivity.
Qed.

(** What a successful call of a member was. *)
Lemma ptm_call_inv R fa p a args s c ca o s' : nth_error (cells s) fa = Some c -> c_val c = PFn (Fn (KPtm p) [] None None None) ->
  nth_error (cells s) a = Some ca -> (match c_val ca with PInst _ _ _ => False | _ => True end) -> ready s ->
  Forall (fun b => b < length (cells s)) args ->
  call_ cf R fa (Some a) Slot args s = Ret o s' ->
  exists r t0 t1, o = Some r /\ entered s t0 /\ call_member cf R p a args t0 = Ret r t1 /\ cells s' = cells t1 /\ bufs s' = bufs t1 /\ prints s' = prints t1 /\ host s' = host t1.
Proof.
  intros Cf Vf Ca Va Rd La E. destruct (ptm_enter R fa p a args s c ca Cf Vf Ca Va Rd La) as (t0 & i & l & En & Rv & St & _ & _ & Q). rewrite Q in E. clear Q.
  apply bind_ret_inv in E as (r & t1 & Em & E). exists r, t0, t1. apply bind_ret_inv in E as (u1 & t2 & E1 & E). apply modify_inv in E1. subst t2.
  apply bind_ret_inv in E as (x2 & t2 & E2 & E). unfold detach in E2. apply bind_ret_inv in E2 as (st & t3 & E3 & E2).
  unfold cur_stack in E3. match type of E3 with context [nth_error ?x ?y] => destruct (nth_error x y) as [l0|]; [|discriminate] end. injection E3 as <- <-. destruct l0 as [|j l0]; [discriminate|].
  apply bind_ret_inv in E2 as (u3 & t3 & E3 & E2). apply modify_inv in E3. apply ret_inv in E2 as (-> & ->).
  apply bind_ret_inv in E as (u4 & t4 & E4 & E). apply modify_inv in E4.
  apply bind_ret_inv in E as (u5 & t5 & E5 & E). apply modify_inv in E5.
  apply bind_ret_inv in E as (o6 & t6 & E6 & E). apply bind_ret_inv in E as (u7 & t7 & E7 & E). apply modify_inv in E7. apply ret_inv in E as (-> & ->).
  assert (X : o6 = Some r /\ t6 = t5).
  { unfold finish in E6. apply bind_ret_inv in E6 as (c6 & t8 & E8 & E6). apply get_cell_inv in E8 as (-> & E8). destruct (c_val c6); try discriminate E6.
    assert (Rv5 : cur_rv t5 = Some (RVal r)) by (subst t5 t4 t3; reflexivity).
    destruct (f_kind f); try discriminate E6; apply bind_ret_inv in E6 as (rv & t9 & E9 & E6); apply gets_inv in E9 as (-> & ->); rewrite Rv5 in E6; apply ret_inv in E6 as (-> & ->); auto. }
  destruct X as (-> & ->). subst t7 t5 t4 t3. repeat split; try assumption; apply En.
Qed.

(** A member that gives [r] and only adds to the values. *)
Lemma ptm_call_ret R fa p a args s c ca : nth_error (cells s) fa = Some c -> c_val c = PFn (Fn (KPtm p) [] None None None) ->
  nth_error (cells s) a = Some ca -> (match c_val ca with PInst _ _ _ => False | _ => True end) -> ready s ->
  Forall (fun b => b < length (cells s)) args ->
  exists t0, entered s t0 /\
    (forall v, call_member cf R p a args t0 = Ret (length (cells t0)) (set_cells (cells t0 ++ [Cell NNone 1 None v]) t0) ->
      exists s', call_ cf R fa (Some a) Slot args s = Ret (Some (length (cells t0))) s' /\ cells s' = cells t0 ++ [Cell NNone 1 None v] /\ bufs s' = bufs t0).
Proof.
  intros Cf Vf Ca Va Rd La. destruct (ptm_enter R fa p a args s c ca Cf Vf Ca Va Rd La) as (t0 & i & l & En & Rv & St & Ss & Le & ->). exists t0. split; auto.
  intros v E. rewrite (bind_step _ _ _ _ _ E). unfold mbind at 1, modify. unfold mbind at 1, detach. unfold mbind at 1, cur_stack. cbn [envs cur_env set_rv set_cells]. rewrite St.
  unfold mbind at 1, set_stack, modify, ret. unfold mbind at 1. unfold mbind at 1.
  match goal with |- context [mbind (finish _ _ _ _ _ _) _ ?t] => set (t5 := t) end.
  destruct (names_only_cell s t0 fa c (proj1 En) Cf) as (c' & C' & V').
  assert (C5 : nth_error (cells t5) fa = Some c') by (apply nth_app_l; exact C').
  unfold mbind at 1. rewrite (finish_member R fa (length (cells t0)) args t5 c' p eq_refl C5 (eq_trans V' Vf)). unfold mbind, ret. eexists. split; [reflexivity|]. split; reflexivity.
Qed.

(** ** In expressions *)

Definition kind_of_data (v : data) : kind :=
  match v with
  | DNone => TNone | DBool _ => TBool | DInt _ => TInt | DStr _ => TStr | DVec _ => TVec | DMap _ => TMap | DFn _ => TFn | DInst _ _ _ => TInst
  end.
Lemma holds_kind (s : st H) v a : holds s v a -> exists c, nth_error (cells s) a = Some c /\ kind_of (c_val c) = kind_of_data v.
Proof.
  destruct v as [|b|z|t|l|l|f|c i d]; intro Hd.
  1,2,3,7,8: cbn in Hd; destruct Hd as (c0 & E & V); exists c0; rewrite V; auto.
  - cbn in Hd. destruct Hd as (c & E & b & n & u & V & _). exists c. rewrite V. auto.
  - apply holds_vec in Hd as (c & es & E & V & _). exists c. rewrite V. auto.
  - apply holds_map in Hd as (c & es & E & V & _). exists c. rewrite V. auto.
Qed.

Lemma kind_eqb_refl k : kind_eqb k k = true. Proof. destruct k; reflexivity. Qed.
Lemma kind_eqb_eq k k' : kind_eqb k k' = true <-> k = k'.
Proof. destruct k, k'; cbn; split; congruence. Qed.

Lemma provides_find (s : st H) k x p m : provides s k x p m -> exists i, find_member k x (members s) 0 = Some (i, m).
Proof.
  intros ((bf & af & E & Fr) & _). rewrite E. clear E. generalize 0. induction bf as [|[[k' x'] m'] bf IH]; intro i; cbn.
  - rewrite kind_eqb_refl, bytes_eqb_refl. cbn. eauto.
  - inversion Fr as [|? ? N Fr']; subst. cbn in N. destruct (kind_eqb k' k && bytes_eqb x' x) eqn:Q; [|auto].
    apply andb_true_iff in Q as (Q1 & Q2). apply kind_eqb_eq in Q1. apply bytes_eqb_eq in Q2. congruence.
Qed.

Lemma incref_held (s : st H) m c : nth_error (cells s) m = Some c -> (0 < c_cnt c)%Z -> incref m s = Ret tt (held m s).
Proof.
  intros C P. unfold incref, held. rewrite (bind_step _ _ _ _ _ (get_cell_ok _ _ _ C)), C. unfold mbind, assert. replace (0 <? c_cnt c)%Z with true by lia. reflexivity.
Qed.

Lemma access_member n e x s a s1 v p m : evals cf n e s a s1 -> holds s1 v a -> (kind_of_data v = TStr \/ kind_of_data v = TVec) ->
  provides s1 (kind_of_data v) x p m ->
  r_eval (interp cf (S n)) Slot (EAccess e x) s = Ret (Some m, Some a) (held m s1).
Proof.
  intros E Hd K P. rewrite eval_S. cbn [eval_]. unfold do_access, access_find. unfold mbind at 1. unfold mbind at 1. rewrite (value_evals cf _ _ _ _ _ E).
  destruct (holds_kind _ _ _ Hd) as (c & C & Kc). rewrite (bind_step _ _ _ _ _ (get_cell_ok _ _ _ C)).
  destruct (provides_find _ _ _ _ _ P) as (i & Fm). destruct P as (_ & cm & Cm & Pm & Vm).
  assert (Q : mbind (gets members) (fun ms => match find_member (kind_of (c_val c)) x ms 0 with
     | Some (i, m) => ret (VMember i x m, a)
     | None => error cf (lit "primitive type member " ++ quoted x ++ lit " doesn't exist on expression of type " ++ type_str (c_val c))
     end) s1 = Ret (VMember i x m, a) s1).
  { unfold mbind, gets. rewrite Kc, Fm. reflexivity. }
  cbv zeta. destruct (c_val c) eqn:V; cbn in Kc; try (destruct K; congruence); rewrite Q.
  all: unfold vref_val; cbn [fst snd]; unfold mbind at 1, ret; rewrite (bind_step _ _ _ _ _ (incref_held _ _ _ Cm Pm)); reflexivity.
Qed.

Lemma evals_each_mapM n es s l s' : evals_each cf n es s l s' -> mapM (value (interp cf n)) es s = Ret l s'.
Proof.
  induction 1 as [s|e es s a s1 l s2 E _ IH]; [reflexivity|]. cbn [mapM]. unfold mbind. rewrite (value_evals cf _ _ _ _ _ E), IH. reflexivity.
Qed.
Lemma mapM_evals_each n : forall es s l s', mapM (value (interp cf n)) es s = Ret l s' -> evals_each cf n es s l s'.
Proof.
  induction es as [|e es IH]; intros s l s' E; cbn [mapM] in E.
  - apply ret_inv in E as (-> & ->). constructor.
  - apply bind_ret_inv in E as (a & s1 & E1 & E). apply bind_ret_inv in E as (l' & s2 & E2 & E). apply ret_inv in E as (-> & ->).
    econstructor; [apply value_inv; exact E1|apply IH; exact E2].
Qed.

Lemma call_member_expr n e x args s a s1 v p m bs s2 c : evals cf n e s a s1 -> holds s1 v a -> (kind_of_data v = TStr \/ kind_of_data v = TVec) ->
  provides s1 (kind_of_data v) x p m ->
  evals_each cf (S n) args (held m s1) bs s2 -> nth_error (cells (held m s1)) m = Some c ->
  outcome cf (S (S n)) (ECall (EAccess e x) args) s = mbind (call_ cf (interp cf n) m (Some a) Slot bs) (fun o => ret (o, None)) s2.
Proof.
  intros E Hd K P Ea C. unfold outcome. rewrite eval_S. cbn [eval_]. unfold plain, do_call. unfold mbind at 1. unfold mbind at 1. unfold both. unfold mbind at 1.
  rewrite (access_member _ _ _ _ _ _ _ _ _ E Hd K P). unfold ret at 1. cbn [fst snd]. rewrite (bind_step _ _ _ _ _ (get_cell_ok _ _ _ C)).
  assert (V : exists f, c_val c = PFn f).
  { destruct P as (_ & cm & Cm & _ & Vm). unfold held in C. rewrite Cm in C. cbn in C. rewrite upd_same in C by (eapply nth_lt; eauto). injection C as <-. cbn. eauto. }
  destruct V as (f & ->). unfold mbind at 1. rewrite (evals_each_mapM _ _ _ _ _ Ea). rewrite call_S. reflexivity.
Qed.

Lemma is_prefix_firstn (u t : bytes) : length u <= length t -> is_prefix u t = bytes_eqb (firstn (length u) t) u.
Proof.
  revert t. induction u as [|x u IH]; intros [|y t] L; cbn in *; try lia; try reflexivity. rewrite IH by lia. f_equal. unfold byte_eqb. apply Ascii.eqb_sym.
Qed.
Lemma is_prefix_long (u t : bytes) : length t < length u -> is_prefix u t = false.
Proof. revert t. induction u as [|x u IH]; intros [|y t] L; cbn in *; try lia; try reflexivity. rewrite IH by lia. apply andb_false_r. Qed.

Lemma is_suffix_skipn (u t : bytes) : length u <= length t -> is_prefix (rev u) (rev t) = bytes_eqb (skipn (length t - length u) t) u.
Proof.
  intro L. apply eq_true_iff_eq. rewrite is_prefix_app, bytes_eqb_eq. split.
  - intros (r & E). apply (f_equal (@rev ascii)) in E. rewrite rev_involutive, rev_app_distr, rev_involutive in E. rewrite E, app_length.
    replace (length (rev r) + length u - length u) with (length (rev r)) by lia. rewrite skipn_app, skipn_all, Nat.sub_diag. reflexivity.
  - intro E. exists (rev (firstn (length t - length u) t)). rewrite <- rev_app_distr. rewrite <- E at 2. now rewrite firstn_skipn.
Qed.

Lemma member_comes_to n e x args s a s1 v p m bs s2 ws ans :
  evals cf n e s a s1 -> holds s1 v a -> provides s1 (kind_of_data v) x p m -> evals_each cf (S n) args (held m s1) bs s2 ->
  holds s2 v a -> Forall2 (holds s2) ws bs -> ready s2 ->
  (exists c, nth_error (cells s2) m = Some c /\ c_val c = PFn (Fn (KPtm p) [] None None None)) ->
  member_answer p v ws = Some ans ->
  comes_to cf s2 (outcome cf (S (S n)) (ECall (EAccess e x) args) s) ans.
Proof.
  intros E Hd1 P Ea Hd2 Ws Rd (cm & Cm & Vm) Ans.
  assert (K : kind_of_data v = TStr \/ kind_of_data v = TVec) by (destruct p, v; cbn in Ans; try discriminate; auto).
  assert (Ch : exists c, nth_error (cells (held m s1)) m = Some c).
  { destruct P as (_ & c & C & _). unfold held. rewrite C. cbn. rewrite upd_same by (eapply nth_lt; eauto). eauto. }
  destruct Ch as (c & C). rewrite (call_member_expr _ _ _ _ _ _ _ _ _ _ _ _ _ E Hd1 K P Ea C).
  destruct (holds_cell _ _ _ Hd2) as (ca & Ca).
  assert (Va : match c_val ca with PInst _ _ _ => False | _ => True end).
  { destruct (holds_kind _ _ _ Hd2) as (c' & C' & Kc). assert (c' = ca) by congruence. subst c'. destruct (c_val ca); auto. cbn in Kc. destruct K; congruence. }
  assert (Lb : Forall (fun b => b < length (cells s2)) bs).
  { clear - Ws. induction Ws as [|w b ws bs Hw Ws IH]; constructor; auto. destruct (holds_cell _ _ _ Hw) as (c & C). eapply nth_lt; eauto. }
  destruct (ptm_call_ret (interp cf n) m p a bs s2 cm ca Cm Vm Ca Va Rd Lb) as (t0 & En & Rt).
  assert (Kt : keeps s2 t0) by (apply names_only_keeps; [exact (proj1 En)|exact (proj1 (proj2 En))]).
  pose proof (holds_keeps _ _ Kt _ _ Hd2) as Hd. assert (Ws' : Forall2 (holds t0) ws bs) by (eapply forall2_impl; [|exact Ws]; intros; eapply holds_keeps; eauto).
  assert (Fin : forall q w, scalar w q -> ans = AVal w -> call_member cf (interp cf n) p a bs t0 = Ret (length (cells t0)) (set_cells (cells t0 ++ [Cell NNone 1 None q]) t0) ->
    comes_to cf s2 (mbind (call_ cf (interp cf n) m (Some a) Slot bs) (fun o => ret (o, None)) s2) ans).
  { intros q w Sq -> Q. destruct (Rt q Q) as (s' & Ec & Cs & _). rewrite (bind_step _ _ _ _ _ Ec). cbn. eexists _, _, _. split; [reflexivity|].
    assert (N : nth_error (cells s') (length (cells t0)) = Some (Cell NNone 1 None q)) by (rewrite Cs; apply nth_app_new).
    destruct w, q; cbn in Sq; try contradiction; subst; cbn; eauto. }
  destruct p, v as [| | |t|l|l|f|? ? ?]; cbn [member_answer] in Ans; try discriminate.
  - (* len of a string *)
    destruct ws; [|discriminate]. inversion Ws'; subst bs. injection Ans as <-. apply (Fin (PInt (Z.of_nat (length t))) (DInt (Z.of_nat (length t))) eq_refl eq_refl).
    cbn in Hd. destruct Hd as (c0 & C0 & b & k & u & V0 & U & L & Et). cbn [call_member]. unfold str_len, self_str. unfold mbind at 1. rewrite (bind_step _ _ _ _ _ (get_cell_ok _ _ _ C0)), V0.
    unfold ret, alloc. cbn [snd]. replace (length t) with k by (subst t; rewrite firstn_length; lia). reflexivity.
  - (* endswith *)
    destruct ws as [|w [|? ?]]; [discriminate| |destruct w; discriminate]. destruct w as [| | |t'| | | |]; try discriminate. injection Ans as <-.
    inversion Ws' as [|? b0 ? ? Hw Ws2]; subst. inversion Ws2; subst. clear Ws'.
    cbn in Hd. destruct Hd as (c0 & C0 & b & k & u & V0 & U & L & Et). cbn in Hw. destruct Hw as (c1 & C1 & b' & k' & u' & V1 & U' & L' & Et').
    apply (Fin (PBool (is_prefix (rev t') (rev t))) (DBool (is_prefix (rev t') (rev t))) eq_refl eq_refl).
    assert (Lt : length t = k) by (subst t; rewrite firstn_length; lia). assert (Lt' : length t' = k') by (subst t'; rewrite firstn_length; lia).
    cbn [call_member]. unfold str_ends, self_str. unfold mbind at 1. rewrite (bind_step _ _ _ _ _ (get_cell_ok _ _ _ C0)), V0.
    unfold ret. cbn [snd fst]. rewrite (bind_step _ _ _ _ _ (get_cell_ok _ _ _ C1)), V1.
    destruct (Nat.leb_spec k' k) as [Lk|Lk].
    + unfold mbind, read_buf. rewrite U, (proj2 (Nat.leb_le _ _) L), U', (proj2 (Nat.leb_le _ _) L'). rewrite is_suffix_skipn by lia. rewrite Lt, Lt', <- Et, <- Et'. reflexivity.
    + rewrite is_prefix_long by (rewrite !rev_length; lia). reflexivity.
  - (* startswith *)
    destruct ws as [|w [|? ?]]; [discriminate| |destruct w; discriminate]. destruct w as [| | |t'| | | |]; try discriminate. injection Ans as <-.
    inversion Ws' as [|? b0 ? ? Hw Ws2]; subst. inversion Ws2; subst. clear Ws'.
    cbn in Hd. destruct Hd as (c0 & C0 & b & k & u & V0 & U & L & Et). cbn in Hw. destruct Hw as (c1 & C1 & b' & k' & u' & V1 & U' & L' & Et').
    apply (Fin (PBool (is_prefix t' t)) (DBool (is_prefix t' t)) eq_refl eq_refl).
    assert (Lt : length t = k) by (subst t; rewrite firstn_length; lia). assert (Lt' : length t' = k') by (subst t'; rewrite firstn_length; lia).
    cbn [call_member]. unfold str_starts, self_str. unfold mbind at 1. rewrite (bind_step _ _ _ _ _ (get_cell_ok _ _ _ C0)), V0.
    unfold ret. cbn [snd fst]. rewrite (bind_step _ _ _ _ _ (get_cell_ok _ _ _ C1)), V1.
    destruct (Nat.leb_spec k' k) as [Lk|Lk].
    + unfold mbind, read_buf. assert (L2 : k' <= length u) by lia. rewrite U, (proj2 (Nat.leb_le _ _) L2), U', (proj2 (Nat.leb_le _ _) L').
      rewrite is_prefix_firstn by lia. rewrite Lt', <- Et'. rewrite Et, firstn_firstn, Nat.min_l by lia. reflexivity.
    + rewrite is_prefix_long by lia. reflexivity.
  - (* len of a vector *)
    destruct ws; [|discriminate]. inversion Ws'; subst bs. injection Ans as <-. apply (Fin (PInt (Z.of_nat (length l))) (DInt (Z.of_nat (length l))) eq_refl eq_refl).
    apply holds_vec in Hd as (c0 & es & C0 & V0 & G). cbn [call_member]. unfold vec_len, self_vec. unfold mbind at 1. rewrite (bind_step _ _ _ _ _ (get_cell_ok _ _ _ C0)), V0.
    unfold ret, alloc. now rewrite (forall2_len _ _ _ G).
Qed.

(** ** map and where *)

(** A report goes up unchanged. *)
Lemma bind_raise {A B} (m : M H A) (k : A -> M H B) s t msg : m s = reports cf msg t -> mbind m k s = reports cf msg t.
Proof. intro E. unfold mbind. rewrite E. unfold reports. destruct (reports_cases cf (A := A) msg t) as [(t1 & -> & Q)|(-> & Q)]; unfold reports in Q;
  destruct (reports_cases cf (A := B) msg t) as [(t2 & -> & Q2)|(-> & Q2)]; unfold reports in Q2; congruence. Qed.

Lemma map_loop_applied n self f : forall k i s ys s', map_loop (interp cf n) self f i k s = Ret ys s' -> applied cf n f self i k s ys s'.
Proof.
  induction k as [|k IH]; intros i s ys s' E; cbn [map_loop] in E.
  - apply ret_inv in E as (-> & ->). constructor.
  - apply bind_ret_inv in E as (es & s0 & E0 & E). unfold vec_again in E0. apply bind_ret_inv in E0 as (c & s00 & Ec & E0). apply get_cell_inv in Ec as (-> & Ec).
    destruct (c_val c) eqn:V; try discriminate E0. apply ret_inv in E0 as (-> & ->).
    destruct (nth_error es0 i) as [x|] eqn:X; [|discriminate E].
    apply bind_ret_inv in E as (y & s1 & Ey & E). apply bind_ret_inv in E as (ys' & s2 & Es & E). apply ret_inv in E as (-> & ->).
    unfold callback in Ey. apply bind_ret_inv in Ey as ([y'|] & s3 & Ey & Q); [|discriminate Q]. apply ret_inv in Q as (-> & ->).
    econstructor; [exists c, es0; eauto|exact Ey|apply IH; exact Es].
Qed.
Lemma applied_map_loop n self f k i s ys s' : applied cf n f self i k s ys s' -> map_loop (interp cf n) self f i k s = Ret ys s'.
Proof.
  induction 1 as [i s|i k s x y s1 ys s2 (c & es & C & V & X) Ca _ IH]; [reflexivity|]. cbn [map_loop]. unfold vec_again, mbind. rewrite (get_cell_ok _ _ _ C), V. unfold ret.
  rewrite X. unfold callback, mbind. rewrite Ca. unfold ret. rewrite IH. reflexivity.
Qed.

Lemma where_loop_selected n self f : forall k i s zs s', where_loop cf (interp cf n) self f i k s = Ret zs s' -> selected cf n f self i s zs s'.
Proof.
  induction k as [|k IH]; intros i s ys s' E; cbn [where_loop] in E; [discriminate E|].
  apply bind_ret_inv in E as (es & s0 & E0 & E). unfold vec_again in E0. apply bind_ret_inv in E0 as (c & s00 & Ec & E0). apply get_cell_inv in Ec as (-> & Ec).
  destruct (c_val c) eqn:V; try discriminate E0. apply ret_inv in E0 as (-> & ->).
  destruct (nth_error es0 i) as [x|] eqn:X.
  - apply bind_ret_inv in E as (y & s1 & Ey & E). unfold callback in Ey. apply bind_ret_inv in Ey as ([y'|] & s3 & Ey & Q); [|discriminate Q]. apply ret_inv in Q as (-> & ->).
    apply bind_ret_inv in E as (cy & s4 & Cy & E). apply get_cell_inv in Cy as (-> & Cy).
    assert (Er : forall (p : list addr) (m : M H unit) msg, mbind m (fun _ => error cf msg) s3 = Ret p s' -> False).
    { intros p m msg Q. apply bind_ret_inv in Q as (? & ? & _ & Q). now destruct (raise_not_ret _ _ _ _ _ Q). }
    destruct (c_val cy) as [|[|]| | | | | |] eqn:Vy; try (now destruct (Er _ _ _ E)).
    + apply bind_ret_inv in E as (z & s5 & Ez & E). apply bind_ret_inv in E as (zs & s6 & Es & E). apply ret_inv in E as (-> & ->).
      eapply selected_yes; [exists c, es0; eauto|exact Ey|exists cy; auto|exact Ez|apply IH; exact Es].
    + eapply selected_no; [exists c, es0; eauto|exact Ey|exists cy; auto|apply IH; exact E].
  - apply ret_inv in E as (-> & ->). econstructor; [exact Ec|exact V|]. now apply nth_error_None.
Qed.

(** A successful [v.map(f)] or [v.where(f)]. *)
Lemma higher_inv n e x args s a s1 es0 p m bs s2 r y s' :
  evals cf n e s a s1 -> (exists c, nth_error (cells s1) a = Some c /\ c_val c = PVec es0) -> provides s1 TVec x p m ->
  evals_each cf (S n) args (held m s1) bs s2 -> Forall (fun b => b < length (cells s2)) bs -> ready s2 ->
  (exists c, nth_error (cells s2) m = Some c /\ c_val c = PFn (Fn (KPtm p) [] None None None)) ->
  (exists ca es, nth_error (cells s2) a = Some ca /\ c_val ca = PVec es) ->
  outcome cf (S (S n)) (ECall (EAccess e x) args) s = Ret (Some r, y) s' ->
  exists t0 t1, entered s2 t0 /\ call_member cf (interp cf n) p a bs t0 = Ret r t1 /\ cells s' = cells t1 /\ bufs s' = bufs t1 /\ prints s' = prints t1 /\ host s' = host t1.
Proof.
  intros E (c1 & C1 & V1) P Ea Lb Rd (cm & Cm & Vm) (ca & es & Ca & Va) O.
  unfold outcome in O. rewrite eval_S in O. cbn [eval_] in O. unfold plain, do_call in O. apply bind_ret_inv in O as (o & t & O & Q). apply ret_inv in Q as (Q & ->).
  assert (Ac : both (interp cf (S n)) (EAccess e x) s = Ret (m, Some a) (held m s1)).
  { unfold both, mbind. rewrite eval_S. cbn [eval_]. unfold do_access, access_find. unfold mbind at 1. unfold mbind at 1. rewrite (value_evals cf _ _ _ _ _ E).
    rewrite (bind_step _ _ _ _ _ (get_cell_ok _ _ _ C1)), V1. cbn [kind_of]. destruct (provides_find _ _ _ _ _ P) as (i & Fm). destruct P as (_ & c & C & Pm & Vm').
    unfold mbind at 1. unfold gets. rewrite Fm. unfold ret. unfold vref_val; cbn [fst snd]; unfold mbind at 1, ret. rewrite (bind_step _ _ _ _ _ (incref_held _ _ _ C Pm)). reflexivity. }
  apply bind_ret_inv in O as (ra & t2 & Ob & O). rewrite Ac in Ob. injection Ob as <- <-. cbn [fst snd] in O.
  apply bind_ret_inv in O as (c & t3 & Oc & O). apply get_cell_inv in Oc as (-> & Oc). destruct (c_val c) eqn:V; try (now destruct (raise_not_ret _ _ _ _ _ O)).
  apply bind_ret_inv in O as (l & t4 & Oa & O). rewrite (evals_each_mapM _ _ _ _ _ Ea) in Oa. injection Oa as <- <-.
  rewrite call_S in O. destruct (ptm_call_inv (interp cf n) m p a bs s2 cm ca o t Cm Vm Ca) as (r' & t0 & t1 & -> & En & Em & Rest); auto; [now rewrite Va|].
  injection Q as <- ->. exists t0, t1. auto.
Qed.

Lemma map_inv n e args s a s1 es0 m b s2 r y s' :
  evals cf n e s a s1 -> (exists c, nth_error (cells s1) a = Some c /\ c_val c = PVec es0) -> provides s1 TVec (lit "map") PtMap m ->
  evals_each cf (S n) args (held m s1) [b] s2 -> b < length (cells s2) -> ready s2 ->
  (exists c, nth_error (cells s2) m = Some c /\ c_val c = PFn (Fn (KPtm PtMap) [] None None None)) ->
  forall es, (exists ca, nth_error (cells s2) a = Some ca /\ c_val ca = PVec es) ->
  outcome cf (S (S n)) (ECall (EAccess e (lit "map")) args) s = Ret (Some r, y) s' ->
  exists t0 ys t1, entered s2 t0 /\ applied cf n b a 0 (length es) t0 ys t1 /\ prints s' = prints t1 /\ host s' = host t1 /\
    (exists c, nth_error (cells s') r = Some c /\ c_val c = PVec ys) /\ (forall v d, holds t1 d v -> holds s' d v).
Proof.
  intros E V P Ea Lb Rd Cm es (ca & Ca & Va) O. assert (Lb' : Forall (fun b => b < length (cells s2)) [b]) by (constructor; auto).
  destruct (higher_inv n e _ args s a s1 es0 PtMap m [b] s2 r y s' E V P Ea Lb' Rd Cm (ex_intro _ ca (ex_intro _ es (conj Ca Va))) O) as (t0 & t1 & En & Em & Cs & Bs & Ps & Hs).
  cbn [call_member] in Em. unfold vec_map in Em. apply bind_ret_inv in Em as (es1 & t2 & Es & Em). unfold self_vec in Es. apply bind_ret_inv in Es as (c2 & t3 & Ec & Es).
  apply get_cell_inv in Ec as (-> & Ec). destruct (names_only_cell s2 t0 a ca (proj1 En) Ca) as (c2' & C2' & V2'). rewrite C2' in Ec. injection Ec as <-. rewrite V2', Va in Es.
  apply ret_inv in Es as (-> & ->). apply bind_ret_inv in Em as (cf0 & t4 & Ef & Em). apply get_cell_inv in Ef as (-> & Ef).
  destruct (c_val cf0); try (now destruct (raise_not_ret _ _ _ _ _ Em)).
  apply bind_ret_inv in Em as (ys & t5 & Ey & Em). apply alloc_inv in Em as (-> & ->). apply map_loop_applied in Ey.
  exists t0, ys, t5. split; auto. split; auto. split; [exact Ps|]. split; [exact Hs|]. split.
  - rewrite Cs. cbn. eexists. split; [apply nth_app_new|reflexivity].
  - intros v d Hd. eapply holds_keeps; [|exact Hd]. destruct (keeps_append t5 [Cell NNone 1 None (PVec ys)]) as (K1 & K2). split; [rewrite Cs; exact K1|rewrite Bs; exact K2].
Qed.

Lemma where_inv n e args s a s1 es0 m b s2 r y s' :
  evals cf n e s a s1 -> (exists c, nth_error (cells s1) a = Some c /\ c_val c = PVec es0) -> provides s1 TVec (lit "where") PtWhere m ->
  evals_each cf (S n) args (held m s1) [b] s2 -> b < length (cells s2) -> ready s2 ->
  (exists c, nth_error (cells s2) m = Some c /\ c_val c = PFn (Fn (KPtm PtWhere) [] None None None)) ->
  forall es, (exists ca, nth_error (cells s2) a = Some ca /\ c_val ca = PVec es) ->
  outcome cf (S (S n)) (ECall (EAccess e (lit "where")) args) s = Ret (Some r, y) s' ->
  exists t0 zs t1, entered s2 t0 /\ selected cf n b a 0 t0 zs t1 /\ prints s' = prints t1 /\ host s' = host t1 /\
    (exists c, nth_error (cells s') r = Some c /\ c_val c = PVec zs) /\ (forall v d, holds t1 d v -> holds s' d v).
Proof.
  intros E V P Ea Lb Rd Cm es (ca & Ca & Va) O. assert (Lb' : Forall (fun b => b < length (cells s2)) [b]) by (constructor; auto).
  destruct (higher_inv n e _ args s a s1 es0 PtWhere m [b] s2 r y s' E V P Ea Lb' Rd Cm (ex_intro _ ca (ex_intro _ es (conj Ca Va))) O) as (t0 & t1 & En & Em & Cs & Bs & Ps & Hs).
  cbn [call_member] in Em. unfold vec_where in Em. apply bind_ret_inv in Em as (es1 & t2 & Es & Em). unfold self_vec in Es. apply bind_ret_inv in Es as (c2 & t3 & Ec & Es).
  apply get_cell_inv in Ec as (-> & Ec). destruct (names_only_cell s2 t0 a ca (proj1 En) Ca) as (c2' & C2' & V2'). rewrite C2' in Ec. injection Ec as <-. rewrite V2', Va in Es.
  apply ret_inv in Es as (-> & ->). apply bind_ret_inv in Em as (cf0 & t4 & Ef & Em). apply get_cell_inv in Ef as (-> & Ef).
  destruct (c_val cf0); try (now destruct (raise_not_ret _ _ _ _ _ Em)).
  apply bind_ret_inv in Em as (ys & t5 & Ey & Em). apply alloc_inv in Em as (-> & ->). apply where_loop_selected in Ey.
  exists t0, ys, t5. split; auto. split; auto. split; [exact Ps|]. split; [exact Hs|]. split.
  - rewrite Cs. cbn. eexists. split; [apply nth_app_new|reflexivity].
  - intros v d Hd. eapply holds_keeps; [|exact Hd]. destruct (keeps_append t5 [Cell NNone 1 None (PVec ys)]) as (K1 & K2). split; [rewrite Cs; exact K1|rewrite Bs; exact K2].
Qed.

(** A function that gives something else than a boolean. *)
Lemma selecting_le n f self a s b t : selecting cf n f self a s b t -> a <= b.
Proof. induction 1; lia. Qed.
Lemma where_loop_nonbool n self f i s j t : selecting cf n f self i s j t -> forall x y s1 c, element t self j x -> calls cf n f x t y s1 -> nth_error (cells s1) y = Some c ->
  (forall x, c_val c <> PBool x) -> forall s1', let_go (c_val c) s1 s1' -> forall k, j < i + k ->
  where_loop cf (interp cf n) self f i k s = reports cf (lit "'vec.where' expected 'fn' to return a boolean, got a " ++ type_str (c_val c)) s1'.
Proof.
  induction 1 as [i s|i s x' y' s1' z s2 j t El Ca Hy Cz Sl IH|i s x' y' s1' j t El Ca Hy Sl IH]; intros x y s1 c El' Ca' Cy V s1v G k L.
  - destruct k as [|k]; [lia|]. cbn [where_loop]. destruct El' as (cv & es & Cv & Vv & X). unfold vec_again, mbind. rewrite (get_cell_ok _ _ _ Cv), Vv. unfold ret at 1. rewrite X.
    unfold callback, mbind. rewrite Ca'. unfold ret at 1. rewrite (get_cell_ok _ _ _ Cy).
    destruct (c_val c) as [|bb|zz|bb nn|l|l|f0|cl i0 d0] eqn:Vc; try (exfalso; eapply V; reflexivity); cbn [let_go] in G; unfold val_free, mbind; rewrite (get_cell_ok _ _ _ Cy), Vc; try (subst s1v; reflexivity).
    + destruct G as ((x0 & B) & ->). unfold free_buf. rewrite B. reflexivity.
    + destruct (f_body f0) as [b0|]; [destruct G as ((x0 & B) & ->); unfold free_body; rewrite B|subst s1v]; reflexivity.
    + contradiction.
  - destruct k as [|k].
    { exfalso. apply selecting_le in Sl. lia. }
    cbn [where_loop]. destruct El as (cv & es & Cv & Vv & X). unfold vec_again. unfold mbind at 1. unfold mbind at 1. rewrite (get_cell_ok _ _ _ Cv), Vv. unfold ret at 1. rewrite X.
    unfold callback. unfold mbind at 1. unfold mbind at 1. rewrite Ca. unfold ret at 1. destruct Hy as (cy & Cy' & Vy). unfold mbind at 1. rewrite (get_cell_ok _ _ _ Cy'), Vy.
    unfold mbind at 1. rewrite Cz. rewrite (bind_raise _ _ _ _ _ (IH _ _ _ _ El' Ca' Cy V _ G k ltac:(lia))). reflexivity.
  - destruct k as [|k].
    { exfalso. apply selecting_le in Sl. lia. }
    cbn [where_loop]. destruct El as (cv & es & Cv & Vv & X). unfold vec_again. unfold mbind at 1. unfold mbind at 1. rewrite (get_cell_ok _ _ _ Cv), Vv. unfold ret at 1. rewrite X.
    unfold callback. unfold mbind at 1. unfold mbind at 1. rewrite Ca. unfold ret at 1. destruct Hy as (cy & Cy' & Vy). unfold mbind at 1. rewrite (get_cell_ok _ _ _ Cy'), Vy.
    apply (IH _ _ _ _ El' Ca' Cy V _ G k ltac:(lia)).
Qed.

End Member.
