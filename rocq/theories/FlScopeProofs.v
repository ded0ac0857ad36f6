(** * Names, declarations and assignments. *)

From Coq Require Import ZArith Arith Ascii String Lia Bool List.
From Verif Require Import Base FlAst FlState FlInterp FlMonad SpecFlamingo FlEqProofs SpecScript SpecFrame SpecScope FlOpProofs FlExprProofs FlFrame FlBalance FlMemberProofs FlHigherProofs FlSeqProofs.
Import ListNotations.
Local Open Scope nat_scope.

Section Scope.
Context {H : Type}.
Variable cf : conf H.
Implicit Types s t : st H.

(** ** Finding names *)
Lemma find_key_none x : forall vs k, Forall (fun v => v_key v <> x) vs -> find_key x vs k = None.
Proof.
  induction vs as [|v vs IH]; intros k F; cbn; [reflexivity|]. inversion F; subst. destruct (bytes_eqb (v_key v) x) eqn:B; [apply bytes_eqb_eq in B; contradiction|]. auto.
Qed.
Lemma find_key_none_inv x : forall vs k, find_key x vs k = None -> Forall (fun v => v_key v <> x) vs.
Proof.
  induction vs as [|v vs IH]; intros k F; cbn in F; constructor; destruct (bytes_eqb (v_key v) x) eqn:B; try discriminate; [apply bytes_eqb_neq; auto|eauto].
Qed.
Lemma find_key_app x v after : forall before k, Forall (fun w => v_key w <> x) before -> v_key v = x -> find_key x (before ++ v :: after) k = Some (k + length before, v).
Proof.
  induction before as [|w before IH]; intros k F E; cbn.
  - subst x. rewrite bytes_eqb_refl. now rewrite Nat.add_0_r.
  - inversion F as [|w0 l0 F1 F2]. destruct (bytes_eqb (v_key w) x) eqn:B; [apply bytes_eqb_eq in B; contradiction|]. rewrite IH; auto. f_equal. f_equal. lia.
Qed.
Lemma get_scope_ok i c s : nth_error (scopes s) i = Some c -> sc_alive c = true -> get_scope i s = Ret c s.
Proof. intros E A. unfold get_scope. rewrite E, A. reflexivity. Qed.
Lemma find_var_lacks s x i : lacks s x i -> find_var i x s = Ret None s.
Proof.
  intros (vs & (c & E & A & <-) & F). unfold find_var. erewrite bind_step by (apply get_scope_ok; eassumption). rewrite find_key_none; auto.
Qed.
Lemma find_var_declares s x i j v : declares s x i j v -> find_var i x s = Ret (Some (j, v)) s.
Proof.
  intros (b & a & (c & E & A & Q) & L & K & F). unfold find_var. erewrite bind_step by (apply get_scope_ok; eassumption). rewrite Q, find_key_app; auto. cbn. now rewrite L.
Qed.
Lemma find_var_inv s x i r s' : find_var i x s = Ret r s' -> s' = s /\
  match r with None => lacks s x i | Some (j, v) => declares s x i j v end.
Proof.
  unfold find_var. intro E. apply bind_ret_inv in E as (c & s1 & E1 & E). apply get_scope_inv in E1 as (-> & E1 & A). apply ret_inv in E as (-> & ->). split; [reflexivity|].
  destruct (find_key x (sc_vars c) 0) as [[j v]|] eqn:F.
  - assert (G : forall vs k, find_key x vs k = Some (j, v) -> exists b a, vs = b ++ v :: a /\ k + length b = j /\ v_key v = x /\ Forall (fun w => v_key w <> x) b).
    { induction vs as [|w vs IH]; intros k Q; cbn in Q; [discriminate|]. destruct (bytes_eqb (v_key w) x) eqn:B.
      - injection Q as <- <-. apply bytes_eqb_eq in B. exists [], vs. cbn. repeat split; auto.
      - destruct (IH _ Q) as (b & a & -> & L & K & F'). exists (w :: b), a. cbn. repeat split; auto; [lia|]. constructor; auto. now apply bytes_eqb_neq. }
    destruct (G _ _ F) as (b & a & Q & L & K & F'). exists b, a. repeat split; auto. exists c. auto.
  - exists (sc_vars c). split; [exists c; auto|]. eapply find_key_none_inv; eauto.
Qed.
Lemma find_in_lacks x s : forall inner l, Forall (lacks s x) inner -> find_in (inner ++ l) x s = find_in l x s.
Proof.
  induction inner as [|i inner IH]; intros l F; cbn; [reflexivity|]. inversion F; subst. erewrite bind_step by (apply find_var_lacks; assumption). cbn. auto.
Qed.
Lemma cur_stack_ok s l : open s l -> cur_stack s = Ret l s.
Proof. unfold open, cur_stack. now intros ->. Qed.
Lemma env_find_names s x i j v : names s x i j v -> env_find x s = Ret (Some (i, j, v)) s.
Proof.
  intros (inner & outer & O & F & D). unfold env_find. erewrite bind_step by (apply cur_stack_ok; eassumption). rewrite find_in_lacks by assumption. cbn.
  erewrite bind_step by (apply find_var_declares; eassumption). reflexivity.
Qed.
Lemma env_find_unknown s x : unknown s x -> env_find x s = Ret None s.
Proof.
  intros (l & O & F). unfold env_find. erewrite bind_step by (apply cur_stack_ok; eassumption). rewrite <- (app_nil_r l), find_in_lacks by assumption. reflexivity.
Qed.
Lemma env_find_inv s x r s' : env_find x s = Ret r s' -> s' = s /\ match r with Some (i, j, v) => names s x i j v | None => unknown s x end.
Proof.
  unfold env_find. intro E. apply bind_ret_inv in E as (l & s1 & E1 & E). apply cur_stack_inv in E1 as (-> & O).
  assert (G : forall m pre, l = pre ++ m -> Forall (lacks s x) pre -> find_in m x s = Ret r s' -> s' = s /\ match r with Some (i, j, v) => names s x i j v | None => unknown s x end).
  { induction m as [|i m IH]; intros pre Q F E'; cbn in E'.
    - apply ret_inv in E' as (-> & ->). split; auto. exists l. rewrite app_nil_r in Q. subst. auto.
    - apply bind_ret_inv in E' as (o & s1 & E1 & E'). apply find_var_inv in E1 as (-> & D). destruct o as [[j v]|].
      + apply ret_inv in E' as (-> & ->). split; auto. exists pre, m. subst l. auto.
      + apply (IH (pre ++ [i])); auto. { rewrite <- app_assoc. exact Q. } apply Forall_app. auto. }
  apply (G l []); auto.
Qed.

Lemma incref_live s a : live s a -> incref a s = Ret tt (held a s).
Proof.
  intros (c & E & P). unfold incref, put_cell, held. erewrite bind_step by (apply get_cell_ok; eassumption). rewrite E.
  unfold mbind, assert. destruct (0 <? c_cnt c)%Z eqn:G; [reflexivity|]. lia.
Qed.
Lemma ident_value n x s i j v a : names s x i j v -> v_val v = Some a -> live s a -> outcome cf (S n) (EId x) s = Ret (Some a, None) (held a s).
Proof.
  intros N V L. unfold outcome. rewrite eval_S. cbn [eval_]. unfold plain, do_ident.
  erewrite bind_step; [reflexivity|]. erewrite bind_step by (apply env_find_names; eassumption). cbn. rewrite V.
  erewrite bind_step by (apply incref_live; assumption). reflexivity.
Qed.
Lemma ident_unknown n x s : unknown s x -> outcome cf (S n) (EId x) s = reports cf (lit "could not find identifier: " ++ cstr x) s.
Proof.
  intros U. unfold outcome. rewrite eval_S. cbn [eval_]. unfold plain, do_ident, reports.
  apply (bind_raise cf). erewrite bind_step by (apply env_find_unknown; eassumption). reflexivity.
Qed.

(** ** Declarations *)
Lemma stmt_S n x : r_stmt (interp cf (S n)) x = stmt_ cf (interp cf n) x.
Proof. reflexivity. Qed.
Lemma fun_S n : r_fun (interp cf (S n)) = fun_ cf (interp cf n).
Proof. reflexivity. Qed.
Lemma returning_no s : cur_rv s = None -> returning s = Ret false s.
Proof. intro E. unfold returning. rewrite E. destruct (cur_body s); reflexivity. Qed.
Lemma cur_scope_ok s i l : open s (i :: l) -> cur_scope s = Ret i s.
Proof. intro O. unfold cur_scope. erewrite bind_step by (apply cur_stack_ok; eassumption). reflexivity. Qed.
Lemma role_spec p : role_str p = role p.
Proof. destruct p; try reflexivity. cbn. destruct (f_kind f); reflexivity. Qed.

Lemma redeclared n x d pre post s i l j v a c : declaration x d pre post -> cur_rv s = None -> open s (i :: l) -> declares s x i j v -> v_val v = Some a ->
  nth_error (cells s) a = Some c ->
  r_stmt (interp cf (S (S n))) d s = reports cf (pre ++ role (c_val c) ++ lit " '" ++ cstr x ++ lit "'" ++ post) s.
Proof.
  intros D R O Dc V E. rewrite stmt_S. rewrite <- role_spec.
  assert (Q : forall rest, role_str (c_val c) ++ lit " '" ++ cstr x ++ lit "'" ++ rest = role_str (c_val c) ++ lit " " ++ quoted x ++ rest).
  { intro rest. f_equal. unfold quoted. rewrite <- !app_assoc. reflexivity. }
  rewrite Q. clear Q.
  assert (FU : forall k b ps ss, fun_ cf (interp cf n) k b x ps ss s = reports cf (lit "the " ++ role_str (c_val c) ++ lit " " ++ quoted x ++ lit " has already been declared in this scope") s).
  { intros. unfold fun_. erewrite bind_step by (eapply cur_scope_ok; eassumption). erewrite bind_step by (apply find_var_declares; eassumption). cbv beta iota. rewrite V.
    erewrite bind_step by (apply get_cell_ok; eassumption). reflexivity. }
  destruct D; cbn [stmt_]; try (rewrite fun_S; apply FU); erewrite bind_step by (apply returning_no; assumption); cbv beta iota.
  - unfold let_. erewrite bind_step by (eapply cur_scope_ok; eassumption). erewrite bind_step by (apply find_var_declares; eassumption). cbv beta iota. rewrite V.
    erewrite bind_step by (apply get_cell_ok; eassumption). reflexivity.
  - rewrite fun_S. apply FU.
Qed.

Lemma value_evals n e s a s' : value (interp cf n) e s = Ret a s' -> evals cf n e s a s'.
Proof.
  unfold value, both. intro E. apply bind_ret_inv in E as ([b x] & s1 & E1 & E). apply ret_inv in E as (-> & ->).
  apply bind_ret_inv in E1 as ([[c|] y] & s2 & E2 & E1); [|discriminate]. apply ret_inv in E1 as (Q & ->). injection Q as -> ->. exists y. exact E2.
Qed.
Lemma with_var_add i x b s j s' : add_var i x b s = Ret j s' -> s' = with_var i (Var x b None) s.
Proof. intro E. apply add_var_inv in E as (c & E & A & -> & ->). unfold with_var. rewrite E. reflexivity. Qed.
Lemma write_var_inv i j a s u s' : write_var i j a s = Ret u s' -> exists c v, nth_error (scopes s) i = Some c /\ sc_alive c = true /\ nth_error (sc_vars c) j = Some v /\
  s' = set_scopes (upd i (Scope (upd j (Var (v_key v) (v_static v) (Some a)) (sc_vars c)) (sc_owner c) (sc_class c) true) (scopes s)) s.
Proof.
  unfold write_var, put_scope. intro E. apply bind_ret_inv in E as (c & s1 & E1 & E). apply get_scope_inv in E1 as (-> & E1 & A).
  destruct (nth_error (sc_vars c) j) as [v|] eqn:V; [|discriminate]. apply modify_inv in E. exists c, v. auto.
Qed.
Lemma upd_map {A B} (f : A -> B) x : forall l i, map f (upd i x l) = upd i (f x) (map f l).
Proof. induction l as [|y l IH]; intros [|i]; cbn; auto. now rewrite IH. Qed.
Lemma upd_id {A} (x : A) : forall l i, nth_error l i = Some x -> upd i x l = l.
Proof. induction l as [|y l IH]; intros [|i] E; cbn in *; auto; [congruence|]. now rewrite IH. Qed.
Lemma put_same_val a c c' s : nth_error (cells s) a = Some c -> c_val c' = c_val c -> same_values s (set_cells (upd a c' (cells s)) s).
Proof. intros E V. repeat split. cbn. rewrite upd_map. apply upd_id. rewrite V. now apply map_nth_error. Qed.
Lemma set_owner_inv a i s u s' : set_owner_of a i s = Ret u s' -> exists c, nth_error (cells s) a = Some c /\ s' = set_cells (upd a (Cell (c_name c) (c_cnt c) (Some i) (c_val c)) (cells s)) s.
Proof. unfold set_owner_of, put_cell. intro E. apply bind_ret_inv in E as (c & s1 & E1 & E). apply get_cell_inv in E1 as (-> & E1). apply modify_inv in E. eauto. Qed.

(** A variable whose names are known. *)
Lemma declares_after (c : scope) (vs : list var) x b o : declared c = declared (Scope (vs ++ [Var x b o]) (sc_owner c) (sc_class c) true) ->
  Forall (fun v => v_key v <> x) vs ->
  exists before v, sc_vars c = before ++ [v] /\ length before = length vs /\ v_key v = x /\ v_static v = b /\ Forall (fun w => v_key w <> x) before.
Proof.
  unfold declared. cbn [sc_vars]. intros D F. rewrite map_app in D. cbn in D.
  destruct (exists_last (l := sc_vars c)) as (before & v & E). { intro Q. rewrite Q in D. destruct (map _ vs); discriminate. }
  rewrite E, map_app in D. cbn in D. apply app_inj_tail in D as (D & Q). injection Q as Qx Qb. exists before, v. repeat split; auto.
  - apply (f_equal (@length _)) in D. now rewrite !map_length in D.
  - clear E. revert vs F D. induction before as [|w before IH]; intros [|w' vs] F D; cbn in D; try discriminate; constructor.
    + injection D as Qk Qs D. inversion F; subst. congruence.
    + injection D as Qk Qs D. inversion F; subst. eapply IH; eauto.
Qed.

Variable T : tame cf.

Lemma let_declares n b x e s s' : cur_rv s = None -> executes cf (S n) (SLet b x e) s s' ->
  exists i l a s1 vs, open s (i :: l) /\ vars s i vs /\ Forall (fun v => v_key v <> x) vs /\ initial cf n e (with_var i (Var x b None) s) a s1 /\
  prints s' = prints s1 /\ host s' = host s1 /\ envs s' = envs s1 /\ cur_env s' = cur_env s /\ cur_rv s' = cur_rv s1 /\ same_values s1 s' /\
  (forall k, k <> i -> nth_error (scopes s') k = nth_error (scopes s1) k) /\
  exists before v, vars s1 i (before ++ [v]) /\ vars s' i (before ++ [Var x b (Some a)]) /\ length before = length vs /\
    names s' x i (length vs) (Var x b (Some a)).
Proof.
  unfold executes. rewrite stmt_S. intros R E. cbn [stmt_] in E. erewrite bind_step in E by (apply returning_no; assumption). cbv beta iota in E. unfold let_ in E.
  apply bind_ret_inv in E as (i & s0 & E1 & E). apply cur_scope_inv in E1 as (-> & l & O).
  apply bind_ret_inv in E as (r & s0 & E1 & E). apply find_var_inv in E1 as (-> & D). destruct r as [[j v]|].
  { exfalso. destruct (v_val v); [|discriminate]. apply bind_ret_inv in E as (c & s0 & E1 & E). eapply raise_not_ret; exact E. }
  apply bind_ret_inv in E as (j & s0 & E1 & E). pose proof (with_var_add _ _ _ _ _ _ E1) as W. apply add_var_inv in E1 as (c & Ec & A & -> & S0).
  apply bind_ret_inv in E as (a & s1 & E1 & E). apply bind_ret_inv in E as (u & s2 & E2 & E). apply write_var_inv in E2 as (c1 & v1 & Ec1 & A1 & V1 & S2).
  apply set_owner_inv in E as (ca & Ca & S').
  assert (F : fr None true s0 s1).
  { destruct e as [e|]; [eapply value_fr; [apply interp_good; exact T|exact E1]|]. apply alloc_fr in E1. exact E1. }
  assert (I : initial cf n e s0 a s1). { destruct e as [e|]; [now apply value_evals|]. apply alloc_inv in E1. exact E1. }
  destruct D as (vs & (c' & Ec' & A' & <-) & Fv). assert (c' = c) by congruence. subst c'.
  assert (E0 : nth_error (scopes s0) i = Some (Scope (sc_vars c ++ [Var x b None]) (sc_owner c) (sc_class c) true)).
  { rewrite S0. cbn. apply upd_same. eapply nth_lt; eauto. }
  destruct (fr_scopes _ _ _ _ F _ _ E0) as (c1' & Ec1' & _ & Dc & Ow & Cl & _). assert (c1' = c1) by congruence. subst c1'. clear Ec1'.
  specialize (Dc ltac:(discriminate)). cbn in Ow, Cl. rewrite <- Ow, <- Cl in Dc. destruct (declares_after c1 (sc_vars c) x b None Dc Fv) as (before & v & Q & L & Kx & Kb & Fb).
  assert (v1 = v). { rewrite Q in V1. rewrite nth_error_app2 in V1 by lia. rewrite L, Nat.sub_diag in V1. cbn in V1. congruence. } subst v1.
  assert (Vs' : vars s' i (before ++ [Var x b (Some a)])).
  { exists (Scope (before ++ [Var x b (Some a)]) (sc_owner c1) (sc_class c1) true). split; [|auto]. rewrite S'. cbn [scopes set_cells]. rewrite S2. cbn [scopes set_scopes].
    rewrite upd_same by (eapply nth_lt; eauto). rewrite Q, Kx, Kb. f_equal. f_equal. rewrite <- L. apply upd_end. }
  assert (Env0 : cur_env s0 = cur_env s /\ envs s0 = envs s) by (rewrite S0; auto). destruct Env0 as (Env0 & Envs0).
  exists i, l, a, s1, (sc_vars c). rewrite <- W. repeat (split; [first [assumption|exists c; auto|rewrite S', S2; reflexivity]|]).
  split. { rewrite S', S2. cbn. rewrite (fr_env _ _ _ _ F). exact Env0. }
  split. { rewrite S', S2. reflexivity. }
  split. { rewrite S'. destruct (put_same_val a ca (Cell (c_name ca) (c_cnt ca) (Some i) (c_val ca)) s2 Ca eq_refl) as (P1 & P2 & P3).
    rewrite S2 in P1, P2, P3 |- *. repeat split; assumption. }
  split. { intros k Nk. rewrite S', S2. cbn. apply upd_other. auto. }
  exists before, v. split; [exists c1; auto|]. split; [exact Vs'|]. split; [exact L|].
  exists [], l. split; [|split; [constructor|]].
  - unfold open. cbn [app]. rewrite S'. cbn [envs cur_env set_cells]. rewrite S2. cbn [envs cur_env set_scopes]. rewrite (fr_env _ _ _ _ F). apply (fr_envs _ _ _ _ F). rewrite Env0, Envs0. exact O.
  - exists before, []. repeat split; auto.
Qed.

Lemma fun_declares n b x ps ss s s' : executes cf (S (S n)) (SFun b x ps ss) s s' ->
  exists i l vs, open s (i :: l) /\ vars s i vs /\ Forall (fun v => v_key v <> x) vs /\
  let a := length (cells s) in
  vars s' i (vs ++ [Var x b (Some a)]) /\ names s' x i (length vs) (Var x b (Some a)) /\
  payload_at s' a (PFn (Fn KFun ps (Some (length (bodies s))) (Some (length (envs s))) None)) /\
  bodies s' = bodies s ++ [Some (BBlock ss)] /\ envs s' = envs s ++ [i :: l] /\ cur_env s' = cur_env s /\
  (forall d, d < a -> nth_error (cells s') d = nth_error (cells s) d) /\ bufs s' = bufs s /\
  (forall k, k <> i -> nth_error (scopes s') k = nth_error (scopes s) k) /\ prints s' = prints s /\ host s' = host s.
Proof.
  unfold executes. rewrite stmt_S. intros E. cbn [stmt_] in E. rewrite fun_S in E. unfold fun_ in E.
  apply bind_ret_inv in E as (i & s0 & E1 & E). apply cur_scope_inv in E1 as (-> & l & O).
  apply bind_ret_inv in E as (r & s0 & E1 & E). apply find_var_inv in E1 as (-> & D). destruct r as [[j v]|].
  { exfalso. destruct (v_val v); [|discriminate]. apply bind_ret_inv in E as (c & s0 & E1 & E). eapply raise_not_ret; exact E. }
  apply bind_ret_inv in E as (j & s0 & E1 & E). apply add_var_inv in E1 as (c & Ec & A & -> & S0).
  apply bind_ret_inv in E as (a & s1 & E1 & E). apply alloc_inv in E1 as (-> & S1).
  apply bind_ret_inv in E as (u & s2 & E2 & E). unfold var_set_val in E2.
  apply bind_ret_inv in E2 as (c1 & s1' & E1 & E2). apply get_scope_inv in E1 as (-> & E1 & A1).
  assert (Q1 : c1 = Scope (sc_vars c ++ [Var x b None]) (sc_owner c) (sc_class c) true).
  { rewrite S1, S0 in E1. cbn in E1. rewrite upd_same in E1 by (eapply nth_lt; eauto). congruence. }
  subst c1. cbn [sc_vars] in E2. rewrite nth_error_app2, Nat.sub_diag in E2 by lia. cbn [nth_error] in E2.
  apply bind_ret_inv in E2 as (u1 & s3 & E2 & E3). apply write_var_inv in E2 as (c1 & v1 & Ec1 & _ & V1 & S3).
  rewrite E1 in Ec1. injection Ec1 as <-. cbn [sc_vars] in V1. rewrite nth_error_app2, Nat.sub_diag in V1 by lia. cbn [nth_error] in V1. injection V1 as <-.
  cbn [v_key v_static sc_vars sc_owner sc_class] in S3. rewrite upd_end in S3.
  apply bind_ret_inv in E3 as (cx & s3' & E2 & E3). apply get_cell_inv in E2 as (-> & E2). apply modify_inv in E3.
  apply bind_ret_inv in E as (env & s4 & E4 & E). unfold close_over in E4. apply bind_ret_inv in E4 as (l' & s2' & E4 & E5). apply cur_stack_inv in E4 as (-> & O').
  injection E5 as <- S4. apply bind_ret_inv in E as (bd & s5 & E5 & E). apply bind_ret_inv in E5 as (bd' & s5' & E5 & E6). apply new_body_inv in E5 as (-> & S5). apply ret_inv in E6 as (-> & ->).
  unfold put_cell in E. apply modify_inv in E.
  destruct D as (vs & (c' & Ec' & A' & <-) & Fv). assert (c' = c) by congruence. subst c'.
  subst s0 s1 s3 s2 s4 s5'. cbn in O', E2. assert (l' = i :: l) by congruence. subst l'.
  rewrite nth_app_new in E2. injection E2 as <-. cbn in E.
  rewrite !upd_end in E.
  exists i, l, (sc_vars c). split; [exact O|]. split; [exists c; auto|]. split; [exact Fv|]. cbv zeta.
  assert (Sc : nth_error (scopes s') i = Some (Scope (sc_vars c ++ [Var x b (Some (length (cells s)))]) (sc_owner c) (sc_class c) true)).
  { subst s'. cbn. rewrite upd_same; [reflexivity|]. rewrite upd_length. eapply nth_lt; eauto. }
  assert (Vs : vars s' i (sc_vars c ++ [Var x b (Some (length (cells s)))])) by (eexists; split; [exact Sc|auto]).
  split; [exact Vs|].
  split. { exists [], l. split; [|split; [constructor|]].
    - unfold open. subst s'. cbn. apply nth_app_l. exact O.
    - exists (sc_vars c), []. repeat split; auto. }
  split. { eexists. split; [subst s'; cbn; apply nth_app_new|]. cbn. reflexivity. }
  subst s'. cbn. repeat split; auto.
  - intros d Ld. rewrite nth_error_app1; auto.
  - intros k Nk. rewrite !upd_other; auto.
Qed.
End Scope.
