(** * Stacks of scopes are balanced. *)

From Coq Require Import ZArith Arith Ascii String Lia Bool List Permutation.
From Verif Require Import Base FlAst FlState FlInterp FlMonad SpecFrame FlFrame.
Import ListNotations.
Local Open Scope nat_scope.

Section Balance.
Context {H : Type}.
Variable cf : conf H.
Notation fr := (@fr H).

(** ** The parts of a frame *)
Definition scopes_kept (top : option nat) (s s' : st H) : Prop :=
  forall i c, nth_error (scopes s) i = Some c -> exists c', nth_error (scopes s') i = Some c' /\
    (exists new, declared c' = declared c ++ new) /\ (top <> Some i -> declared c' = declared c) /\
    sc_owner c' = sc_owner c /\ sc_class c' = sc_class c /\ (sc_alive c' = true -> sc_alive c = true).
Definition core (top : option nat) (s s' : st H) : Prop :=
  scopes_kept top s s' /\ length (cells s) <= length (cells s') /\ length (bufs s) <= length (bufs s') /\ length (bodies s) <= length (bodies s') /\
  (exists l, prints s' = prints s ++ l) /\ err s' = err s /\ import_paths s' = import_paths s.
Definition stacks (s s' : st H) : Prop :=
  cur_env s' = cur_env s /\ cur_body s' = cur_body s /\ forall i l, nth_error (envs s) i = Some l -> nth_error (envs s') i = Some l.

Lemma fr_core t r s s' : fr t r s s' -> core t s s'.
Proof. intros []. unfold core, scopes_kept. auto 10. Qed.
Lemma fr_stacks t r s s' : fr t r s s' -> stacks s s'.
Proof. intros []. repeat split; auto. Qed.
Lemma mk_fr t r s s' : core t s s' -> stacks s s' -> (r = true -> cur_rv s = None -> cur_rv s' = None) -> fr t r s s'.
Proof. intros (C1 & C2 & C3 & C4 & C5 & C6 & C7) (E1 & E2 & E3) Rv. constructor; auto. Qed.
(** [core] with nothing but other components different. *)
Lemma core_same t s s' : scopes s' = scopes s -> cells s' = cells s -> bufs s' = bufs s -> bodies s' = bodies s -> prints s' = prints s -> err s' = err s ->
  import_paths s' = import_paths s -> core t s s'.
Proof.
  intros E1 E2 E3 E4 E5 E6 E7. unfold core, scopes_kept. rewrite E1, E2, E3, E4, E5, E6, E7. destruct (fr_refl t true s) as [F1 F2 F3 F4 F5 F6 F7 F8 F9 F10 F11]. auto 10.
Qed.
Lemma core_trans t s s1 s2 : core t s s1 -> core t s1 s2 -> core t s s2.
Proof.
  intros (F4 & F5 & F6 & F7 & F8 & F9 & F10) (G4 & G5 & G6 & G7 & G8 & G9 & G10). repeat split; try congruence; try lia.
  - intros i c E. destruct (F4 i c E) as (c' & E' & (new & N) & D & O & K & A). destruct (G4 i c' E') as (c2 & E2 & (new2 & N2) & D2 & O2 & K2 & A2).
    exists c2. repeat split; auto; try congruence.
    + exists (new ++ new2). rewrite N2, N. now rewrite app_assoc.
    + intro Q. rewrite D2, D; auto.
  - destruct F8 as (l & E). destruct G8 as (l' & E'). exists (l ++ l'). rewrite E', E. now rewrite app_assoc.
Qed.
Lemma stacks_refl s : stacks s s. Proof. repeat split; auto. Qed.
Lemma stacks_trans s s1 s2 : stacks s s1 -> stacks s1 s2 -> stacks s s2.
Proof. intros (A & B & C) (A' & B' & C'). repeat split; try congruence. auto. Qed.
Lemma core_len t s s' : core t s s' -> length (scopes s) <= length (scopes s').
Proof.
  intros (F & _). destruct (Nat.le_gt_cases (length (scopes s)) (length (scopes s'))) as [L|L]; auto. exfalso.
  destruct (nth_error (scopes s) (length (scopes s'))) as [c|] eqn:E; [|apply nth_error_None in E; lia]. destruct (F _ _ E) as (c' & E' & _). apply nth_lt in E'. lia.
Qed.
(** A scope that is new may get names. *)
Lemma core_new i s s1 s2 : core None s s1 -> length (scopes s) <= i -> core (Some i) s1 s2 -> core None s s2.
Proof.
  intros (F4 & F5 & F6 & F7 & F8 & F9 & F10) L (G4 & G5 & G6 & G7 & G8 & G9 & G10). repeat split; try congruence; try lia.
  - intros j c E. destruct (F4 j c E) as (c' & E' & (new & N) & D & O & K & A). destruct (G4 j c' E') as (c2 & E2 & (new2 & N2) & D2 & O2 & K2 & A2).
    assert (Q : declared c2 = declared c).
    { rewrite D2; [apply D; discriminate|]. intro Q. injection Q as ->. apply nth_lt in E. lia. }
    exists c2. repeat split; auto; try congruence. exists []. now rewrite app_nil_r.
  - destruct F8 as (l & E). destruct G8 as (l' & E'). exists (l ++ l'). rewrite E', E. now rewrite app_assoc.
Qed.
Lemma core_put_new i c s s1 : core None s s1 -> length (scopes s) <= i -> core None s (set_scopes (upd i c (scopes s1)) s1).
Proof.
  intros (F4 & F5 & F6 & F7 & F8 & F9 & F10) L. repeat split; auto. intros j cj E. destruct (F4 j cj E) as (c' & E' & Q). exists c'. split; auto. cbn.
  rewrite upd_other; auto. apply nth_lt in E. lia.
Qed.

Lemma upd_end {A} (x y : A) l : upd (length l) x (l ++ [y]) = l ++ [x].
Proof. induction l as [|z l IH]; cbn; [reflexivity|now rewrite IH]. Qed.


Lemma attach_inv i (s : st H) u s' : attach i s = Ret u s' -> exists l, nth_error (envs s) (cur_env s) = Some l /\ s' = set_envs (upd (cur_env s) (i :: l) (envs s)) s.
Proof. unfold attach, set_stack. intro E. apply bind_ret_inv in E as (l & s1 & E1 & E). apply cur_stack_inv in E1 as (-> & E1). apply modify_inv in E. eauto. Qed.
Lemma detach_inv i (s : st H) s' : detach s = Ret i s' -> exists l, nth_error (envs s) (cur_env s) = Some (i :: l) /\ s' = set_envs (upd (cur_env s) l (envs s)) s.
Proof.
  unfold detach, set_stack. intro E. apply bind_ret_inv in E as (l & s1 & E1 & E). apply cur_stack_inv in E1 as (-> & E1). destruct l as [|j l]; [discriminate|].
  apply bind_ret_inv in E as (u & s1 & E2 & E). apply modify_inv in E2. apply ret_inv in E as (-> & ->). eauto.
Qed.
Lemma push_inv (s : st H) i s' : push_scope s = Ret i s' -> exists l c, nth_error (envs s) (cur_env s) = Some l /\ i = length (scopes s) /\
  sc_vars c = [] /\ sc_owner c = None /\ sc_alive c = true /\ s' = set_scopes (scopes s ++ [c]) (set_envs (upd (cur_env s) (i :: l) (envs s)) s).
Proof.
  unfold push_scope, scope_alloc. intro E. apply bind_ret_inv in E as (j & s1 & E1 & E). injection E1 as <- <-.
  apply bind_ret_inv in E as (u & s1 & E1 & E). apply attach_inv in E1 as (l & L & ->). cbn in L.
  apply bind_ret_inv in E as (l' & s1 & E1 & E). apply cur_stack_inv in E1 as (-> & E1). cbn in E1. rewrite upd_same in E1 by (eapply nth_lt; eauto). injection E1 as <-.
  destruct l as [|p l].
  - apply ret_inv in E as (-> & ->). exists [], (Scope [] None false true). auto 10.
  - apply bind_ret_inv in E as (c & s1 & E1 & E). apply get_scope_inv in E1 as (-> & _). apply bind_ret_inv in E as (u' & s1 & E1 & E). apply modify_inv in E1. subst s1.
    apply ret_inv in E as (-> & ->). exists (p :: l), (Scope [] None (sc_class c) true). repeat split; auto. cbn [scopes set_scopes set_envs]. rewrite upd_end. reflexivity.
Qed.

(** ** Interpreters *)
Definition top (s : st H) : option nat := match nth_error (envs s) (cur_env s) with Some (i :: _) => Some i | _ => None end.
Definition not_ret (d : dest) : bool := match d with RetSlot => false | _ => true end.
Definition quiet (x : stmt) : bool := match x with SReturn _ | SBlock _ => false | _ => true end.
Record good (R : @rec H) : Prop := Good {
  g_eval : forall d e s r s', r_eval R d e s = Ret r s' -> fr None (not_ret d) s s';
  g_call : forall f acc d args s r s', r_call R f acc d args s = Ret r s' -> fr None true s s' /\ cur_rv s' = None;
  g_block : forall ss s i s', r_block R ss s = Ret i s' -> fr None false s s' /\ length (scopes s) <= i;
  g_stmt : forall x s u s' i, top s = Some i -> r_stmt R x s = Ret u s' -> fr (Some i) (quiet x) s s';
  g_fun : forall k st x ps ss s u s' i, top s = Some i -> r_fun R k st x ps ss s = Ret u s' -> fr (Some i) true s s';
}.
Lemma top_kept t r s s' i : fr t r s s' -> top s = Some i -> top s' = Some i.
Proof.
  intros F T. unfold top in *. destruct (nth_error (envs s) (cur_env s)) as [[|j l]|] eqn:E; try discriminate. injection T as ->.
  rewrite (fr_env _ _ _ _ F), (fr_envs _ _ _ _ F _ _ E). reflexivity.
Qed.
Lemma fr_none_top t r s s' : fr None r s s' -> fr t r s s'.
Proof. apply fr_top. Qed.

Variable T : tame cf.
Section Step.
Variable R : @rec H.
Variable G : good R.

Lemma both_fr e s r s' : both R e s = Ret r s' -> fr None true s s'.
Proof.
  unfold both. intro E. apply bind_ret_inv in E as ([[a|] x] & s1 & E1 & E); [|discriminate]. apply ret_inv in E as (_ & ->). exact (g_eval _ G _ _ _ _ _ E1).
Qed.
Lemma value_fr e s a s' : value R e s = Ret a s' -> fr None true s s'.
Proof. unfold value. intro E. apply bind_ret_inv in E as (r & s1 & E1 & E). apply ret_inv in E as (_ & ->). eapply both_fr; eauto. Qed.
Hint Resolve both_fr value_fr : fr.
Lemma deliver_fr d a s o s' : deliver d a s = Ret o s' -> fr None (not_ret d) s s'.
Proof.
  unfold deliver. intro E. destruct d; try (apply ret_inv in E as (_ & ->); apply fr_refl). destruct (cur_rv s); [discriminate|]. injection E as <- <-.
  destruct (fr_refl None false s). constructor; auto. discriminate.
Qed.
Lemma deliver_opt_fr d a s o s' : deliver_opt d a s = Ret o s' -> fr None (not_ret d) s s'.
Proof. unfold deliver_opt. destruct a; [apply deliver_fr|]. intro E. apply ret_inv in E as (_ & ->). apply fr_refl. Qed.

Lemma access_find_fr e x s r s' : access_find cf R e x s = Ret r s' -> fr None true s s'.
Proof.
  unfold access_find. intro E. apply bind_ret_inv in E as (a & s1 & E1 & E). apply value_fr in E1. eapply fr_trans; [exact E1|]. clear E1.
  apply bind_ret_inv in E as (c & s2 & E1 & E). apply get_cell_inv in E1 as (-> & E1). cbv zeta in E.
  take; try same_with @find_var_same; apply fr_refl.
Qed.
Lemma vref_val_same r (s : st H) a s' : vref_val r s = Ret a s' -> s' = s.
Proof. unfold vref_val. intro E. take; auto. Qed.
Lemma do_access_fr d e x s r s' : do_access cf R d e x s = Ret r s' -> fr None (not_ret d) s s'.
Proof.
  unfold do_access. intro E. apply bind_ret_inv in E as (ra & s1 & E1 & E). apply access_find_fr in E1.
  destruct d; [apply ret_inv in E as (_ & ->); chain|..]; take; try same_with @vref_val_same.
  all: match goal with E : deliver _ _ _ = Ret _ _ |- _ => apply deliver_fr in E end; chain.
Qed.
Lemma do_ident_fr d x s r s' : do_ident cf d x s = Ret r s' -> fr None (not_ret d) s s'.
Proof.
  unfold do_ident. intro E. take; try same_with @env_find_same.
  match goal with E : deliver _ _ _ = Ret _ _ |- _ => apply deliver_fr in E end; chain.
Qed.
Lemma do_lambda_fr d ps b s r s' : do_lambda d ps b s = Ret r s' -> fr None (not_ret d) s s'.
Proof.
  unfold do_lambda. intro E. apply bind_ret_inv in E as (e & s1 & E1 & E). apply bind_ret_inv in E as (b' & s2 & E2 & E). apply bind_ret_inv in E as (a & s3 & E3 & E).
  apply deliver_fr in E. chain.
Qed.
Lemma has_key_same k : forall keys (s : st H) b s', has_key R k keys s = Ret b s' -> s' = s.
Proof. induction keys as [|k' keys IH]; intros s b s' E; cbn in E; take; auto; try same_with @val_eq_same; eauto. Qed.
Lemma map_items_fr : forall kvs acc s r s', map_items cf R kvs acc s = Ret r s' -> fr None true s s'.
Proof.
  induction kvs as [|[k v] kvs IH]; intros acc s r s' E; cbn [map_items] in E; take; [apply fr_refl|]. same_with has_key_same.
  match goal with E : map_items _ _ _ _ _ = Ret _ _ |- _ => apply IH in E end. chain.
Qed.
Lemma mapM_value_fr es s l s' : mapM (value R) es s = Ret l s' -> fr None true s s'.
Proof. apply mapM_fr. apply value_fr. Qed.
Lemma vec_index_fr es z s a s' : vec_index cf es z s = Ret a s' -> fr None true s s'.
Proof. unfold vec_index. intro E. cbv zeta in E. take; chain. Qed.
Lemma map_index_fr : forall kvs i s a s', map_index R kvs i s = Ret a s' -> fr None true s s'.
Proof. induction kvs as [|[k v] kvs IH]; intros i s a s' E; cbn [map_index] in E; take; try same_with @val_eq_same; chain. Qed.
Hint Resolve map_items_fr mapM_value_fr vec_index_fr map_index_fr access_find_fr : fr.
Lemma do_index_fr d e i s o s' : do_index cf R d e i s = Ret o s' -> fr None (not_ret d) s s'.
Proof.
  unfold do_index. intro E. take; try match goal with E : deliver _ _ _ = Ret _ _ |- _ => apply deliver_fr in E end; chain.
Qed.
Lemma do_call_fr d f args s o s' : do_call cf R d f args s = Ret o s' -> fr None (not_ret d) s s'.
Proof.
  unfold do_call. intro E. apply bind_ret_inv in E as (r & s1 & E1 & E). apply bind_ret_inv in E as (c & s2 & E2 & E). apply get_cell_inv in E2 as (-> & E2).
  destruct (c_val c); try (now destruct (raise_not_ret _ _ _ _ _ E)). apply bind_ret_inv in E as (l & s2 & E3 & E). apply (g_call _ G) in E as (E & _). chain.
Qed.
Lemma plain_inv (m : M H (option addr)) s r s' : plain m s = Ret r s' -> exists o, m s = Ret o s' /\ r = (o, None).
Proof. unfold plain. intro E. take. eauto. Qed.

Lemma eval_fr d e s r s' : eval_ cf R d e s = Ret r s' -> fr None (not_ret d) s s'.
Proof.
  intro E. unfold eval_ in E. cbv zeta in E.
  destruct e; try (match type of E with (match d with _ => _ end) _ = _ => destruct d; [now destruct (raise_not_ret _ _ _ _ _ E)|..] end);
    try (apply plain_inv in E as (o & E & ->)).
  all: try (now destruct (raise_not_ret _ _ _ _ _ E)).
  all: try (eapply do_ident_fr; eassumption); try (eapply do_lambda_fr; eassumption); try (eapply do_call_fr; eassumption); try (eapply do_access_fr; eassumption);
    try (eapply do_index_fr; eassumption); try (eapply (g_eval _ G); eassumption).
  all: try (apply bind_ret_inv in E as (x & s1 & E1 & E); try (apply parse_number_same in E1; subst s1);
    try (destruct d; [apply ret_inv in E as (_ & ->); chain|..]);
    try (apply bind_ret_inv in E as (x2 & s2 & E2 & E));
    try (apply bind_ret_inv in E as (x3 & s3 & E3 & E));
    try apply deliver_fr in E; try apply deliver_opt_fr in E; chain).
Qed.

(** ** Members and calls *)
Lemma callback_fr f x s a s' : callback R f x s = Ret a s' -> fr None true s s'.
Proof.
  unfold callback. intro E. apply bind_ret_inv in E as (r & s1 & E1 & E). apply (g_call _ G) in E1 as (E1 & _). destruct r; [|discriminate]. apply ret_inv in E as (_ & ->). exact E1.
Qed.
Hint Resolve callback_fr : fr.
Lemma map_loop_fr self f : forall k i s l s', map_loop R self f i k s = Ret l s' -> fr None true s s'.
Proof.
  induction k as [|k IH]; intros i s l s' E; cbn [map_loop] in E; unfold vec_again in E; take; try apply fr_refl.
  match goal with E : map_loop _ _ _ _ _ _ = Ret _ _ |- _ => apply IH in E end. chain.
Qed.
Lemma where_loop_fr self f : forall k i s l s', where_loop cf R self f i k s = Ret l s' -> fr None true s s'.
Proof.
  induction k as [|k IH]; intros i s l s' E; cbn [where_loop] in E; unfold vec_again in E; take; try apply fr_refl.
  all: match goal with E : where_loop _ _ _ _ _ _ _ = Ret _ _ |- _ => apply IH in E end; chain.
Qed.
Hint Resolve map_loop_fr where_loop_fr : fr.
Lemma call_member_fr p self args s a s' : call_member cf R p self args s = Ret a s' -> fr None true s s'.
Proof.
  destruct p; cbn [call_member]; unfold str_len, str_ends, str_starts, vec_len, vec_map, vec_where, self_str, self_vec, arg_count_error; intro E; take; repeat same0; chain.
Qed.
Hint Resolve call_member_fr : fr.

Lemma add_var_inv i x b (s : st H) j s' : add_var i x b s = Ret j s' -> exists c, nth_error (scopes s) i = Some c /\ sc_alive c = true /\ j = length (sc_vars c) /\
  s' = set_scopes (upd i (Scope (sc_vars c ++ [Var x b None]) (sc_owner c) (sc_class c) true) (scopes s)) s.
Proof. unfold add_var, put_scope. intro E. take. eauto 10. Qed.
Lemma add_var_fr i x b s j s' : add_var i x b s = Ret j s' -> fr (Some i) true s s'.
Proof.
  intro E. apply add_var_inv in E as (c & E & A & -> & ->). destruct (fr_refl (Some i) true s) as [F1 F2 F3 F4 F5 F6 F7 F8 F9 F10 F11]. constructor; auto.
  intros k ck Ek. cbn. destruct (Nat.eq_dec i k) as [<-|N].
  - rewrite upd_same by (eapply nth_lt; eauto). rewrite E in Ek. injection Ek as <-. eexists. split; [reflexivity|]. unfold declared. cbn. rewrite map_app. repeat split; eauto. congruence.
  - rewrite upd_other by auto. apply F4. auto.
Qed.
Lemma add_args_fr i : forall ps args s u s', add_args i ps args s = Ret u s' -> fr (Some i) true s s'.
Proof.
  induction ps as [|p ps IH]; intros [|a args] s u s' E; cbn [add_args] in E; try (apply ret_inv in E as (_ & ->); apply fr_refl).
  unfold add_arg in E. apply bind_ret_inv in E as (u1 & s1 & E1 & E). apply bind_ret_inv in E1 as (j & s2 & E1 & E2). apply IH in E. apply add_var_fr in E1. chain.
Qed.
Lemma setup_args_fr f args s u s' : setup_args cf f args s = Ret u s' -> fr (top s) true s s'.
Proof.
  unfold setup_args. intro E. apply bind_ret_inv in E as (i & s1 & E1 & E). apply cur_scope_inv in E1 as (-> & l & L). unfold top. rewrite L. cbv zeta in E.
  take; eapply add_args_fr; eassumption.
Qed.
Lemma arg_vals_same (s : st H) l s' : arg_vals s = Ret l s' -> s' = s.
Proof.
  unfold arg_vals. intro E. apply bind_ret_inv in E as (i & s1 & E1 & E). apply cur_scope_inv in E1 as (-> & _). apply bind_ret_inv in E as (c & s1 & E1 & E).
  apply get_scope_inv in E1 as (-> & _). eapply mapM_same; [|exact E]. cbn. intros x t b t' Q. destruct (v_val x); [|discriminate]. now apply ret_inv in Q as (_ & ->).
Qed.
Lemma set_rv_fr x s : fr None false s (set_rv x s).
Proof. destruct (fr_refl None false s). constructor; auto. discriminate. Qed.
Lemma run_body_fr fa f self d s b s' : run_body cf R fa f self d s = Ret b s' -> fr None false s s' /\ (forall i, b = BScope i -> length (scopes s) <= i).
Proof.
  unfold run_body. intro E. destruct (f_kind f).
  1,2: destruct (f_body f) as [bd|]; [|discriminate]; apply bind_ret_inv in E as (x & s1 & E1 & E); apply read_body_same in E1; subst s1; destruct x as [ss|e];
    [apply bind_ret_inv in E as (i & s1 & E1 & E); apply (g_block _ G) in E1 as (E1 & L); apply ret_inv in E as (-> & ->); split; [exact E1|];
      intros j Q; try discriminate; injection Q as <-; exact L
    |apply bind_ret_inv in E as (u & s1 & E1 & E); apply assert_inv in E1 as (_ & ->); apply bind_ret_inv in E as (r & s1 & E1 & E); apply (g_eval _ G) in E1;
      apply ret_inv in E as (-> & ->); split; [|discriminate]; destruct d; try exact E1; apply fr_loud; exact E1].
  - apply bind_ret_inv in E as (l & s1 & E1 & E). apply arg_vals_same in E1. subst s1. apply bind_ret_inv in E as (u & s1 & E1 & E). apply no_rv_same in E1 as (-> & _).
    apply bind_ret_inv in E as (r & s1 & E1 & E). apply (ext_fr cf T) in E1. apply bind_ret_inv in E as (u' & s2 & E2 & E). apply ret_inv in E as (-> & ->). split; [|discriminate].
    eapply fr_trans; [apply fr_weak; exact E1|]. destruct r; [apply modify_inv in E2; subst; apply set_rv_fr|apply ret_inv in E2 as (_ & ->); apply fr_refl].
  - apply bind_ret_inv in E as (l & s1 & E1 & E). apply arg_vals_same in E1. subst s1. apply bind_ret_inv in E as (u & s1 & E1 & E). apply no_rv_same in E1 as (-> & _).
    destruct self as [x|]; [|discriminate]. apply bind_ret_inv in E as (a & s1 & E1 & E). apply call_member_fr in E1. apply bind_ret_inv in E as (u' & s2 & E2 & E). apply ret_inv in E as (-> & ->).
    split; [|discriminate]. apply modify_inv in E2. subst. eapply fr_trans; [apply fr_weak; exact E1|]. apply set_rv_fr.
Qed.

(** [finish] leaves the scopes there were at the beginning of the call alone. *)
Lemma finish_core fa b d args s0 s o s' : core None s0 s -> (forall i, b = BScope i -> length (scopes s0) <= i) -> finish cf R fa b d args s = Ret o s' ->
  core None s0 s' /\ stacks s s'.
Proof.
  intros C L E. assert (FR : forall r t, fr None r s t -> core None s0 t /\ stacks s t).
  { intros r t F. split; [eapply core_trans; [exact C|]; eapply fr_core; eauto|eapply fr_stacks; eauto]. }
  destruct b as [|i|o'].
  - unfold finish in E. apply bind_ret_inv in E as (c & s1 & E1 & E). apply get_cell_inv in E1 as (-> & E1). apply FR with (r := false).
    take; try apply fr_refl; chain.
  - unfold finish in E. apply bind_ret_inv in E as (c & s1 & E1 & E). apply get_cell_inv in E1 as (-> & E1).
    destruct (c_val c) as [| | | | | |f|]; try discriminate. destruct (f_kind f) eqn:K.
    2: { destruct d; [apply ret_inv in E as (-> & ->); split; auto; apply stacks_refl|..].
      all: apply bind_ret_inv in E as (u & s1 & E2 & E); assert (s1 = s) by (first [apply ret_inv in E2 as (_ & ->); reflexivity|apply no_rv_same in E2 as (-> & _); reflexivity]); clear E2; subst s1.
      all: apply bind_ret_inv in E as (a & s1 & E2 & E); apply alloc_fr in E2; apply bind_ret_inv in E as (o' & s2 & E3 & E); apply deliver_fr in E3;
        apply bind_ret_inv in E as (sc & s3 & E4 & E); apply get_scope_inv in E4 as (-> & _); apply bind_ret_inv in E as (u' & s3 & E4 & E); apply modify_inv in E4;
        apply bind_ret_inv in E as (u'' & s4 & E5 & E); apply (inst_fr cf T) in E5; apply ret_inv in E as (-> & ->);
        (assert (F : fr None false s s2) by chain); destruct (FR _ _ F) as (C2 & S2); apply (core_put_new i (Scope (sc_vars sc) (Some a) (sc_class sc) true)) in C2; [|auto];
        (split; [eapply core_trans; [exact C2|]; rewrite <- E4; eapply fr_core; eauto|]); eapply stacks_trans; [exact S2|];
        (assert (S3 : stacks s2 s3) by (subst s3; split; [reflexivity|split; [reflexivity|auto]])); eapply stacks_trans; [exact S3|]; eapply fr_stacks; eauto. }
    all: apply FR with (r := false); take; try apply fr_refl; chain.
  - unfold finish in E. apply ret_inv in E as (-> & ->). split; auto. apply stacks_refl.
Qed.

Lemma stack_at_kept (s s' : st H) : stacks s s' -> forall l, nth_error (envs s) (cur_env s) = Some l -> nth_error (envs s') (cur_env s') = Some l.
Proof. intros (A & _ & B) l E. rewrite A. auto. Qed.

Lemma call_fr fa acc d args s o s' : call_ cf R fa acc d args s = Ret o s' -> fr None true s s' /\ cur_rv s' = None.
Proof.
  unfold call_. intro E. apply bind_ret_inv in E as (c & s1 & E1 & E). apply get_cell_inv in E1 as (-> & E1). destruct (c_val c) as [| | | | | |f|]; try discriminate.
  apply bind_ret_inv in E as (on & s1 & E2 & E). assert (s1 = s) by (clear E; take; reflexivity). subst s1. clear E2.
  apply bind_ret_inv in E as (pb & s1 & E2 & E). apply gets_inv in E2 as (-> & ->). apply bind_ret_inv in E as (pe & s1 & E2 & E). apply gets_inv in E2 as (-> & ->).
  apply bind_ret_inv in E as (u1 & sA & E2 & E). apply modify_inv in E2. apply bind_ret_inv in E as (u2 & sB & E3 & E).
  assert (AB : exists e0, sB = set_env e0 sA) by (destruct (f_env f) as [e0|]; cbn in E3; [apply modify_inv in E3; eauto|apply ret_inv in E3 as (_ & ->); exists (cur_env sA); now destruct sA]).
  destruct AB as (e0 & AB). clear E3. apply bind_ret_inv in E as (u3 & sC & E3 & E).
  apply bind_ret_inv in E as (i & sD & E4 & E). apply push_inv in E4 as (lC & cn & LC & -> & V0 & O0 & A0 & SD).
  apply bind_ret_inv in E as (sc & s1 & E5 & E). apply get_scope_inv in E5 as (-> & _). apply bind_ret_inv in E as (u4 & sE & E5 & E). apply modify_inv in E5.
  apply bind_ret_inv in E as (u5 & sF & E6 & E). apply setup_args_fr in E6. apply bind_ret_inv in E as (b & sG & E7 & E). apply run_body_fr in E7 as (E7 & BS).
  apply bind_ret_inv in E as (i' & sH & E8 & E). apply detach_inv in E8 as (lH & LH & SH). apply bind_ret_inv in E as (u6 & sI & E9 & E).
  apply bind_ret_inv in E as (u7 & sJ & E10 & E). apply modify_inv in E10. apply bind_ret_inv in E as (u8 & sK & E11 & E). apply modify_inv in E11.
  apply bind_ret_inv in E as (o' & sL & E12 & E). apply bind_ret_inv in E as (u9 & sM & E13 & E). apply modify_inv in E13. apply ret_inv in E as (-> & ->).
  (* the scopes *)
  assert (LB : exists lB, nth_error (envs sB) e0 = Some lB /\ envs sC = match on with Some i => upd e0 (i :: lB) (envs sB) | None => envs sB end /\ scopes sC = scopes sB /\
    sC = set_envs (envs sC) sB /\ lC = match on with Some i => i :: lB | None => lB end).
  { destruct on as [i|]; cbn in E3.
    - apply attach_inv in E3 as (l & L & ->). subst sB. cbn in *. exists l. repeat split; auto. rewrite upd_same in LC by (eapply nth_lt; eauto). congruence.
    - apply ret_inv in E3 as (_ & ->). exists lC. subst sB. cbn in *. repeat split; auto. }
  destruct LB as (lB & LB & EC & SC & SetC & QC). clear E3.
  assert (EnvC : cur_env sC = e0) by (rewrite SetC, AB; reflexivity).
  assert (ScS : scopes sC = scopes s) by (rewrite SC, AB, E2; reflexivity).
  assert (CE : core None s sE).
  { subst sE. apply core_put_new; [|rewrite ScS; lia].
    assert (C0 : core None s sC) by (rewrite SetC, AB, E2; apply core_same; reflexivity).
    eapply core_trans; [exact C0|]. subst sD. destruct (fr_refl None true sC) as [F1 F2 F3 F4 F5 F6 F7 F8 F9 F10 F11]. repeat split; cbn; auto.
    intros j cj Ej. exists cj. split; [cbn; now apply nth_app_l|]. repeat split; auto. exists []. now rewrite app_nil_r. }
  assert (TopE : top sE = Some (length (scopes sC))).
  { unfold top. subst sE sD. cbn. rewrite upd_same by (eapply nth_lt; eauto). reflexivity. }
  rewrite TopE in E6. pose proof (fr_core _ _ _ _ E6) as C6. pose proof (fr_stacks _ _ _ _ E6) as S6. pose proof (fr_core _ _ _ _ E7) as C7. pose proof (fr_stacks _ _ _ _ E7) as S7.
  assert (CF : core None s sF) by (eapply core_new; [exact CE| |exact C6]; rewrite ScS; lia).
  assert (CG : core None s sG) by (eapply core_trans; eassumption).
  (* the stacks *)
  pose proof (stacks_trans _ _ _ S6 S7) as (EnvG & _ & StG).
  assert (EnvE : cur_env sE = e0) by (subst sE sD; cbn; exact EnvC).
  assert (EnvsE : envs sE = upd e0 (length (scopes sC) :: lC) (envs sC)) by (subst sE sD; cbn; now rewrite EnvC).
  assert (LtC : e0 < length (envs sC)) by (rewrite <- EnvC; eapply nth_lt; eauto).
  assert (Top : nth_error (envs sG) e0 = Some (length (scopes sC) :: lC)) by (apply StG; rewrite EnvsE; apply upd_same; auto).
  rewrite EnvG, EnvE in LH. rewrite Top in LH. injection LH as <- <-.
  assert (EnvsH : envs sH = upd e0 lC (envs sG)) by (subst sH; cbn; now rewrite EnvG, EnvE).
  assert (LtG : e0 < length (envs sG)) by (eapply nth_lt; eauto).
  assert (EnvsI : nth_error (envs sI) e0 = Some lB /\ (forall j, j <> e0 -> nth_error (envs sI) j = nth_error (envs sG) j) /\ sI = set_envs (envs sI) sG).
  { destruct on as [i|]; cbn in E9.
    - apply bind_ret_inv in E9 as (i2 & s2 & E9 & Q). apply ret_inv in Q as (_ & ->). apply detach_inv in E9 as (l2 & L2 & ->). subst sH. cbn in *.
      rewrite EnvG, EnvE in *. rewrite upd_same in L2 by auto. rewrite QC in L2. injection L2 as <- <-. rewrite upd_same by (rewrite upd_length; auto). split; auto. split; auto.
      intros j Nj. rewrite !upd_other; auto.
    - apply ret_inv in E9 as (_ & ->). rewrite EnvsH, QC. rewrite upd_same by auto. split; auto. split; [intros j Nj; rewrite upd_other; auto|]. rewrite SH, EnvG, EnvE, QC. reflexivity. }
  destruct EnvsI as (I1 & I2 & I3).
  assert (CK : core None s sK).
  { eapply core_trans; [exact CG|]. subst sK sJ. rewrite I3. apply core_same; reflexivity. }
  assert (BS' : forall j, b = BScope j -> length (scopes s) <= j).
  { intros j Q. apply BS in Q. pose proof (core_len _ _ _ CF). lia. }
  destruct (finish_core _ _ _ _ _ _ _ _ CK BS' E12) as (CL & SL). split; [|subst; reflexivity]. apply mk_fr.
  - eapply core_trans; [exact CL|]. subst sM. apply core_same; reflexivity.
  - eapply stacks_trans with (s1 := sK); [|eapply stacks_trans; [exact SL|subst sM; repeat split; auto]].
    split; [subst sK; reflexivity|]. split; [subst sK sJ; reflexivity|]. intros j l Ej. replace (envs sK) with (envs sI) by (subst sK sJ; reflexivity).
    assert (Ej' : nth_error (envs sB) j = Some l) by (rewrite AB, E2; exact Ej).
    destruct (Nat.eq_dec j e0) as [->|Nj]; [congruence|]. rewrite I2 by auto. apply StG. rewrite EnvsE, upd_other by auto. rewrite EC. destruct on; auto. rewrite upd_other; auto.
  - intros _ _. subst sM. reflexivity.
Qed.

(** ** Statements *)
Lemma iterM_top {A} q (f : A -> M H unit) i : (forall x s u s', top s = Some i -> f x s = Ret u s' -> fr (Some i) q s s') ->
  forall xs s u s', top s = Some i -> iterM f xs s = Ret u s' -> fr (Some i) q s s'.
Proof.
  intros F. induction xs as [|x xs IH]; intros s u s' Tp E; cbn in E.
  - apply ret_inv in E as (_ & ->). apply fr_refl.
  - apply bind_ret_inv in E as (u1 & s1 & E1 & E). apply F in E1; auto. eapply fr_trans; [exact E1|]. eapply IH; [|exact E]. eapply top_kept; eauto.
Qed.
Lemma top_cur (s : st H) i s' : cur_scope s = Ret i s' -> s' = s /\ top s = Some i.
Proof. intro E. apply cur_scope_inv in E as (-> & l & L). split; auto. unfold top. now rewrite L. Qed.

(** Code run with one more scope on the stack. *)
Lemma attached sc sA sB sC sD r q : top sB = Some sc -> stacks (set_envs (envs sA) sB) sA -> (exists lA, nth_error (envs sA) (cur_env sA) = Some lA /\ envs sB = upd (cur_env sA) (sc :: lA) (envs sA)) ->
  cur_env sB = cur_env sA -> cur_body sB = cur_body sA ->
  fr (Some sc) q sB sC -> detach sC = Ret r sD -> r = sc /\ stacks sA sD.
Proof.
  intros Tp _ (lA & LA & EB) EnvB BodB F D. apply detach_inv in D as (l & L & ->). destruct F as [F1 F2 F3 _ _ _ _ _ _ _ _].
  assert (Q : nth_error (envs sC) (cur_env sA) = Some (sc :: lA)) by (apply F3; rewrite EB; apply upd_same; eapply nth_lt; eauto).
  rewrite F1, EnvB, Q in L. injection L as <- <-. split; auto. split; [cbn; congruence|]. split; [cbn; congruence|].
  intros j lj Ej. cbn. rewrite F1, EnvB. destruct (Nat.eq_dec (cur_env sA) j) as [<-|N].
  - rewrite upd_same by (eapply nth_lt; eauto). congruence.
  - rewrite upd_other by auto. apply F3. rewrite EB. rewrite upd_other; auto.
Qed.

Lemma block_fr ss s i s' : block_ R ss s = Ret i s' -> fr None false s s' /\ length (scopes s) <= i.
Proof.
  unfold block_. intro E. apply bind_ret_inv in E as (j & sB & E1 & E). apply push_inv in E1 as (l & c & L & -> & V & O & A & SB).
  apply bind_ret_inv in E as (u & sC & E2 & E).
  assert (Tp : top sB = Some (length (scopes s))) by (unfold top; subst sB; cbn; rewrite upd_same by (eapply nth_lt; eauto); reflexivity).
  apply (iterM_top false) with (i := length (scopes s)) in E2; auto.
  2: { intros x t u' t' Tt Q. apply (g_stmt _ G) with (i := length (scopes s)) in Q; auto. destruct (quiet x); [now apply fr_loud|exact Q]. }
  destruct (attached (length (scopes s)) s sB sC s' i false Tp) as (-> & St); auto.
  - subst sB. split; [reflexivity|]. split; [reflexivity|]. auto.
  - exists l. split; auto. subst sB. reflexivity.
  - subst sB. reflexivity.
  - subst sB. reflexivity.
  - split; [|lia]. apply mk_fr; auto; [|discriminate].
    assert (CB : core None s sB).
    { subst sB. destruct (fr_refl None true s) as [F1 F2 F3 F4 F5 F6 F7 F8 F9 F10 F11]. repeat split; cbn; auto.
      intros k ck Ek. exists ck. split; [cbn; now apply nth_app_l|]. repeat split; auto. exists []. now rewrite app_nil_r. }
    assert (CC : core None s sC) by (eapply core_new; [exact CB| |eapply fr_core; exact E2]; lia).
    eapply core_trans; [exact CC|]. apply detach_inv in E as (l' & _ & ->). apply core_same; reflexivity.
Qed.

Lemma let_parts st x e s u s' i : top s = Some i -> let_ cf R st x e s = Ret u s' -> exists j s1, add_var i x st s = Ret j s1 /\ fr None true s1 s'.
Proof.
  intros Tp E. unfold let_ in E. apply bind_ret_inv in E as (j & s1 & E1 & E). apply top_cur in E1 as (-> & Tp'). assert (j = i) by congruence. subst j.
  apply bind_ret_inv in E as (r & s1 & E1 & E). apply find_var_same in E1. subst s1. destruct r as [[k v]|].
  - take.
  - apply bind_ret_inv in E as (j & s1 & E1 & E). exists j, s1. split; [exact E1|]. clear E1. apply bind_ret_inv in E as (a & s2 & E2 & E). apply bind_ret_inv in E as (u1 & s3 & E3 & E).
    destruct e; chain.
Qed.
Lemma let_fr st x e s u s' i : top s = Some i -> let_ cf R st x e s = Ret u s' -> fr (Some i) true s s'.
Proof. intros Tp E. apply (let_parts _ _ _ _ _ _ _ Tp) in E as (j & s1 & E1 & E). eapply fr_trans; [eapply add_var_fr; exact E1|now apply fr_top]. Qed.
Lemma static_member_fr x s u s' i : top s = Some i -> static_member cf R x s = Ret u s' -> fr (Some i) true s s'.
Proof.
  intros Tp E. unfold static_member in E.
  destruct x; try (apply ret_inv in E as (_ & ->); apply fr_refl); destruct static; try (apply ret_inv in E as (_ & ->); apply fr_refl);
    first [eapply let_fr; eassumption|eapply (g_fun _ G); eassumption].
Qed.

Lemma fun_parts k st x ps ss s u s' i : top s = Some i -> fun_ cf R k st x ps ss s = Ret u s' -> exists j s1, add_var i x st s = Ret j s1 /\ fr None true s1 s'.
Proof.
  intros Tp E. unfold fun_ in E. apply bind_ret_inv in E as (j & s1 & E1 & E). apply top_cur in E1 as (-> & Tp'). assert (j = i) by congruence. subst j.
  apply bind_ret_inv in E as (r & s1 & E1 & E). apply find_var_same in E1. subst s1. destruct r as [[n v]|]; [take|].
  apply bind_ret_inv in E as (j & s1 & E1 & E). exists j, s1. split; [exact E1|]. assert (Tp1 : top s1 = Some i) by (eapply top_kept; [eapply add_var_fr; exact E1|exact Tp]). clear E1.
  apply bind_ret_inv in E as (a & s2 & E2 & E). apply bind_ret_inv in E as (u1 & s3 & E3 & E).
  apply bind_ret_inv in E as (env & s4 & E4 & E). apply bind_ret_inv in E as (b & s5 & E5 & E).
  assert (F5 : fr None true s4 s5) by (clear E; destruct k; take; chain).
  assert (F : fr None true s1 s5) by (clear Tp Tp' E5; chain).
  assert (Tp5 : top s5 = Some i) by (eapply top_kept; eauto). clear E2 E3 E4 E5 F5 Tp'.
  destruct k; try (eapply fr_trans; [exact F|]; apply fr_weak; eapply put_cell_fr; exact E).
  apply bind_ret_inv in E as (sc & s6 & E1 & E). injection E1 as <- <-. apply bind_ret_inv in E as (u2 & s7 & E1 & E). apply modify_inv in E1. cbn [scopes set_scopes] in E1. rewrite upd_end in E1.
  apply bind_ret_inv in E as (u3 & s8 & E2 & E). pose proof (put_cell_fr _ _ _ _ _ E2) as F8.
  assert (F7 : fr None true s5 s7).
  { subst s7. destruct (fr_refl None true s5) as [F1 F2 F3 F4 F5 F6 F7' F8' F9 F10 F11]. constructor; auto.
    intros n cn En. exists cn. split; [cbn; now apply nth_app_l|]. repeat split; auto. exists []. now rewrite app_nil_r. }
  assert (FA : fr None true s5 s8) by (eapply fr_trans; eauto). clear F7 F8.
  assert (L8 : length (scopes s5) < length (scopes s8)) by (pose proof E2 as Q; unfold put_cell in Q; apply modify_inv in Q; rewrite Q, E1; cbn; rewrite app_length; cbn; lia). clear E1 E2 s7 u2 u3.
  apply bind_ret_inv in E as (u2 & s9 & E1 & E). apply attach_inv in E1 as (l & L & S9). apply bind_ret_inv in E as (u3 & s10 & E1 & E).
  assert (Tp9 : top s9 = Some (length (scopes s5))) by (unfold top; subst s9; cbn; rewrite upd_same by (eapply nth_lt; eauto); reflexivity).
  apply (iterM_top true) with (i := length (scopes s5)) in E1; auto. 2: { intros y t u4 t' Tt Q. eapply static_member_fr; eauto. }
  apply bind_ret_inv in E as (r & s11 & E2 & E). apply (decl_fr cf T) in E.
  destruct (attached (length (scopes s5)) s8 s9 s10 s11 r true Tp9) as (-> & St); auto.
  { subst s9. split; [reflexivity|]. split; [reflexivity|]. auto. }
  { exists l. split; auto. subst s9. reflexivity. }
  { subst s9. reflexivity. }
  { subst s9. reflexivity. }
  eapply fr_trans; [exact F|]. eapply fr_trans; [|exact E]. apply mk_fr.
  - assert (C9 : core None s5 s9) by (eapply core_trans; [eapply fr_core; exact FA|]; subst s9; apply core_same; reflexivity).
    assert (C10 : core None s5 s10) by (eapply core_new; [exact C9| |eapply fr_core; exact E1]; lia).
    eapply core_trans; [exact C10|]. apply detach_inv in E2 as (l' & _ & ->). apply core_same; reflexivity.
  - eapply stacks_trans; [eapply fr_stacks; exact FA|exact St].
  - intros _ Rv. apply detach_inv in E2 as (l' & _ & ->). cbn. apply (fr_rv _ _ _ _ E1); auto. subst s9. cbn. apply (fr_rv _ _ _ _ FA); auto.
Qed.

Lemma fun_fr k st x ps ss s u s' i : top s = Some i -> fun_ cf R k st x ps ss s = Ret u s' -> fr (Some i) true s s'.
Proof. intros Tp E. apply (fun_parts _ _ _ _ _ _ _ _ _ Tp) in E as (j & s1 & E1 & E). eapply fr_trans; [eapply add_var_fr; exact E1|now apply fr_top]. Qed.
Lemma do_return_fr e s u s' : do_return cf R e s = Ret u s' -> fr None false s s'.
Proof.
  unfold do_return. intro E. apply bind_ret_inv in E as (l & s1 & E1 & E). apply cur_stack_inv in E1 as (-> & E1).
  destruct l as [|i [|j l]]; try (now destruct (raise_not_ret _ _ _ _ _ E)). apply bind_ret_inv in E as (sc & s1 & E2 & E). apply get_scope_inv in E2 as (-> & _).
  destruct (sc_class sc).
  - destruct e; [now destruct (raise_not_ret _ _ _ _ _ E)|]. apply bind_ret_inv in E as (u1 & s1 & E2 & E). apply no_rv_same in E2 as (-> & _). apply modify_inv in E. subst. apply set_rv_fr.
  - apply bind_ret_inv in E as (u1 & s1 & E2 & E). apply no_rv_same in E2 as (-> & _). destruct e.
    + apply bind_ret_inv in E as (r & s1 & E2 & E). apply (g_eval _ G) in E2. apply ret_inv in E as (_ & ->). exact E2.
    + apply bind_ret_inv in E as (r & s1 & E2 & E). apply modify_inv in E. subst. eapply fr_trans; [apply fr_weak; eapply alloc_fr; exact E2|]. apply set_rv_fr.
Qed.
Lemma do_print_fr e s u s' : do_print cf R e s = Ret u s' -> fr None true s s'.
Proof.
  unfold do_print. intro E. apply bind_ret_inv in E as (a & s1 & E1 & E). apply bind_ret_inv in E as (t & s2 & E2 & E). apply repr_same in E2. subst s2.
  apply bind_ret_inv in E as (u1 & s2 & E2 & E). apply modify_inv in E2. apply (decref_fr cf T) in E. eapply fr_trans; [eapply value_fr; exact E1|]. eapply fr_trans; [|exact E].
  subst s2. destruct (fr_refl None true s1) as [F1 F2 F3 F4 F5 F6 F7 F8 F9 F10 F11]. constructor; auto. cbn. eauto.
Qed.
Lemma do_assert_fr e x s u s' : do_assert cf R e x s = Ret u s' -> fr None true s s'.
Proof. unfold do_assert. intro E. take. chain. Qed.
Lemma target_fr l s r s' : target cf R l s = Ret r s' -> fr None true s s'.
Proof.
  unfold target. intro E. destruct l as [x|e x|e i]; take.
  - match goal with E : env_find _ _ = Ret _ _ |- _ => apply env_find_same in E; subst end. match goal with E : vref_val _ _ = Ret _ _ |- _ => apply vref_val_same in E; subst end. apply fr_refl.
  - match goal with E : vref_val _ _ = Ret _ _ |- _ => apply vref_val_same in E; subst end. chain.
  - match goal with E : do_index _ _ _ _ _ _ = Ret _ _ |- _ => apply do_index_fr in E end. chain.
Qed.
Lemma set_vref_fr r a s u s' : set_vref r a s = Ret u s' -> fr None true s s'.
Proof.
  unfold set_vref. intro E. destruct r as [i j v|i x m]; [eapply var_set_val_fr; exact E|].
  apply bind_ret_inv in E as (u1 & s1 & E1 & E). apply modify_inv in E1. apply bind_ret_inv in E as (c & s2 & E2 & E). apply get_cell_inv in E2 as (-> & _). apply put_cell_fr in E.
  eapply fr_trans; [|exact E]. subst s1. destruct (fr_refl None true s). constructor; auto.
Qed.
Hint Resolve target_fr set_vref_fr : fr.
Lemma do_assign_fr l x e s u s' : do_assign cf R l x e s = Ret u s' -> fr None true s s'.
Proof.
  unfold do_assign. intro E. apply bind_ret_inv in E as (t & s1 & E1 & E). apply bind_ret_inv in E as (c & s2 & E2 & E). apply get_cell_inv in E2 as (-> & E2).
  assert (Q : mbind (value R e) (fun rhs => mbind (match fst t with
      | Some r => mbind (decref cf (r_fuel R) (snd t)) (fun _ => set_vref r rhs)
      | None => mbind (get_cell rhs) (fun x => put_cell (snd t) x)
      end) (fun _ => mbind (get_cell (snd t)) (fun c' =>
    if negb (kind_eqb (kind_of (c_val c')) (kind_of (c_val c))) && negb (kind_eqb (kind_of (c_val c)) TNone) && negb (kind_eqb (kind_of (c_val c')) TNone)
    then error cf (lit "cannot assign " ++ type_str (c_val c') ++ lit " to " ++ quoted x ++ lit " (" ++ type_str (c_val c) ++ lit ")")
    else ret tt))) s1 = Ret u s').
  { destruct (fst t); [destruct (c_val c); try exact E; now destruct (raise_not_ret _ _ _ _ _ E)|exact E]. }
  clear E. apply bind_ret_inv in Q as (rhs & s2 & E3 & E). apply bind_ret_inv in E as (u1 & s3 & E4 & E). apply bind_ret_inv in E as (c' & s4 & E5 & E). apply get_cell_inv in E5 as (-> & _).
  destruct (_ && _ && _); [now destruct (raise_not_ret _ _ _ _ _ E)|]. apply ret_inv in E as (_ & ->).
  destruct (fst t); [apply bind_ret_inv in E4 as (u2 & s4 & E4 & E6)|apply bind_ret_inv in E4 as (u2 & s4 & E4 & E6)]; chain.
Qed.

Lemma import_file_fr path s u s' i : top s = Some i -> import_file cf R path s = Ret u s' -> fr (Some i) true s s'.
Proof.
  intros Tp E. unfold import_file in E. destruct (cf_file cf path) as [why|ss]; [now destruct (raise_not_ret _ _ _ _ _ E)|].
  match type of E with match ?m s with _ => _ end = _ => destruct (m s) as [u1 s1|s1| |w|] eqn:Q end; try discriminate; [|now destruct (raise_not_ret _ _ _ _ _ E)].
  injection E as _ <-. apply bind_ret_inv in Q as (ms & s2 & E1 & Q). apply bind_ret_inv in Q as (u2 & s3 & E2 & Q). apply modify_inv in E2.
  assert (F2 : fr None true s s2).
  { unfold new_members in E1. eapply mapM_fr; [|exact E1]. intros [[k x] p] t b t' E. unfold add_member in E.
    apply bind_ret_inv in E as (a & t1 & E & E'). apply bind_ret_inv in E' as (u3 & t2 & E2' & E'). apply ret_inv in E' as (_ & ->). clear - E E2'. chain. }
  assert (Tp3 : top s3 = Some i) by (subst s3; exact (top_kept _ _ _ _ _ F2 Tp)).
  apply (iterM_top false) with (i := i) in Q; auto.
  2: { intros x t u' t' Tt Q'. apply (g_stmt _ G) with (i := i) in Q'; auto. destruct (quiet x); [now apply fr_loud|exact Q']. }
  pose proof (fr_trans _ _ _ _ _ (fr_weak (Some i) false _ _ F2) (fr_refl _ _ _)) as F2'.
  destruct F2' as [A1 A2 A3 A4 A5 A6 A7 A8 A9 A10 A11]. destruct Q as [B1 B2 B3 B4 B5 B6 B7 B8 B9 B10 B11]. subst s3. cbn in *.
  constructor; cbn; auto; try congruence; try lia.
  - intros n c En. destruct (A4 n c En) as (c1 & E1' & (new & N) & D & O & K & A). destruct (B4 n c1 E1') as (c2 & E2 & (new2 & N2) & D2 & O2 & K2 & A').
    exists c2. repeat split; auto; try congruence.
    + exists (new ++ new2). rewrite N2, N. now rewrite app_assoc.
    + intro X. rewrite D2, D; auto.
  - destruct A8 as (l1 & P1). destruct B8 as (l2 & P2). exists (l1 ++ l2). rewrite P2, P1. now rewrite app_assoc.
Qed.

Lemma returning_same (s : st H) b s' : returning s = Ret b s' -> s' = s.
Proof.
  unfold returning. intro E. destruct (cur_body s) as [bd|]; [|now injection E]. destruct (cur_rv s); [|now injection E]. apply bind_ret_inv in E as (x & s1 & E1 & E). apply ret_inv in E as (_ & ->).
  eapply read_body_same; eauto.
Qed.

Lemma stmt_fr x s u s' i : top s = Some i -> stmt_ cf R x s = Ret u s' -> fr (Some i) (quiet x) s s'.
Proof.
  intros Tp E. unfold stmt_ in E. destruct x; cbn [quiet].
  1: apply bind_ret_inv in E as (j & s1 & E1 & E); apply ret_inv in E as (_ & ->); apply (g_block _ G) in E1 as (E1 & _); now apply fr_top.
  1,2: eapply (g_fun _ G); eassumption.
  all: apply bind_ret_inv in E as (b & s1 & E1 & E); apply returning_same in E1; subst s1; destruct b; [apply ret_inv in E as (_ & ->); apply fr_refl|].
  - eapply (g_fun _ G); eassumption.
  - apply fr_weak. eapply do_print_fr; eassumption.
  - apply fr_top. eapply do_return_fr; eassumption.
  - apply fr_weak. eapply do_assert_fr; eassumption.
  - eapply let_fr; eassumption.
  - apply fr_weak. eapply do_assign_fr; eassumption.
  - apply bind_ret_inv in E as (r & s1 & E1 & E). apply ret_inv in E as (_ & ->). apply (g_eval _ G) in E1. apply fr_weak. exact E1.
  - unfold do_import in E. cbv zeta in E. destruct (has_byte NUL (slashes path)); [now destruct (raise_not_ret _ _ _ _ _ E)|].
    apply bind_ret_inv in E as (ps & s1 & E1 & E). apply gets_inv in E1 as (-> & ->). eapply import_file_fr; eassumption.
Qed.
End Step.

Theorem interp_good : forall n, good (interp cf n).
Proof.
  induction n as [|n IH]; [constructor; cbn; discriminate|]. constructor; cbn [interp r_eval r_call r_block r_stmt r_fun].
  - intros. eapply eval_fr; eauto.
  - intros. eapply call_fr; eauto.
  - intros. eapply block_fr; eauto.
  - intros. eapply stmt_fr; eauto.
  - intros. eapply fun_fr; eauto.
Qed.
End Balance.
