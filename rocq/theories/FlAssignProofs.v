(** * Assignments. *)

From Coq Require Import ZArith Arith Ascii String Lia Bool List.
From Verif Require Import Base FlAst FlState FlInterp FlMonad SpecFlamingo FlEqProofs SpecScript SpecFrame SpecScope FlOpProofs FlExprProofs FlFrame FlBalance FlMemberProofs FlHigherProofs FlSeqProofs FlScopeProofs.
Import ListNotations.
Local Open Scope nat_scope.

Definition dkind (v : data) : kind :=
  match v with
  | DNone => TNone | DBool _ => TBool | DInt _ => TInt | DStr _ => TStr | DVec _ => TVec | DMap _ => TMap | DFn _ => TFn | DInst _ _ _ => TInst
  end.
Lemma same_type_kind v w : same_type v w <-> kind_eqb (dkind v) (dkind w) = true.
Proof. destruct v, w; cbn; intuition discriminate. Qed.

Section Assign.
Context {H : Type}.
Variable cf : conf H.
Implicit Types s t : st H.

Lemma holds_kind s v a c : holds s v a -> nth_error (cells s) a = Some c -> type_str (c_val c) = type_name v /\ kind_of (c_val c) = dkind v.
Proof.
  intros Hv E. destruct v as [|b|z|t|vs|vs|f|k i dd].
  1,2,3,7,8: cbn in Hv; destruct Hv as (c' & E' & V); assert (c' = c) by congruence; subst c'; rewrite V; auto; split; auto; cbn; destruct (f_kind f); reflexivity.
  - cbn in Hv. destruct Hv as (c' & E' & b & k & u & V & Rest). assert (c' = c) by congruence. subst c'. now rewrite V.
  - apply holds_vec in Hv as (c' & es & E' & V & G). assert (c' = c) by congruence. subst c'. now rewrite V.
  - apply holds_map in Hv as (c' & es & E' & V & G). assert (c' = c) by congruence. subst c'. now rewrite V.
Qed.

Variable T : tame cf.

Lemma evals_fr n e s a s' : evals cf n e s a s' -> fr None true s s'.
Proof. intros (x & E). exact (g_eval _ (interp_good cf T n) _ _ _ _ _ E). Qed.
Lemma evals_value n e s a s' : evals cf n e s a s' -> value (interp cf n) e s = Ret a s'.
Proof. intros (x & E). unfold value, both. erewrite bind_step by (erewrite bind_step by exact E; reflexivity). reflexivity. Qed.

(** ** Elements *)
Lemma assign_element n e i text e2 s a s1 b s2 v w cb : cur_rv s = None ->
  evals cf (S n) (EIndex e i) s a s1 -> holds s1 v a -> evals cf n e2 s1 b s2 -> holds s2 w b -> nth_error (cells s2) b = Some cb ->
  let s' := set_cells (upd a cb (cells s2)) s2 in
  r_stmt (interp cf (S n)) (SAssign (LIndex e i) text e2) s =
    if kind_eqb (dkind w) (dkind v) || kind_eqb (dkind v) TNone || kind_eqb (dkind w) TNone then Ret tt s'
    else reports cf (lit "cannot assign " ++ type_name w ++ lit " to " ++ quoted text ++ lit " (" ++ type_name v ++ lit ")") s'.
Proof.
  intros R Ea Hv Eb Hw Cb s'. pose proof (evals_fr _ _ _ _ _ Eb) as F2. destruct (holds_cell _ _ _ Hv) as (c & Ec).
  rewrite stmt_S. cbn [stmt_]. erewrite bind_step by (apply returning_no; assumption). cbv beta iota. unfold do_assign.
  destruct Ea as (y & Ea). rewrite eval_S in Ea. cbn [eval_] in Ea. apply plain_inv in Ea as (o & Ea & Q). injection Q as <- ->.
  erewrite bind_step; [|cbn [target]; erewrite bind_step by exact Ea; reflexivity]. cbn [fst snd].
  erewrite bind_step by (apply get_cell_ok; exact Ec).
  erewrite bind_step by (apply evals_value; exact Eb). cbv beta iota.
  erewrite bind_step; [|erewrite bind_step by (apply get_cell_ok; exact Cb); reflexivity].
  erewrite bind_step; [|apply get_cell_ok; cbn; apply upd_same; apply (Nat.lt_le_trans _ (length (cells s1))); [eapply nth_lt; exact Ec|exact (fr_cells _ _ _ _ F2)]].
  destruct (holds_kind _ _ _ _ Hv Ec) as (-> & ->). destruct (holds_kind _ _ _ _ Hw Cb) as (-> & ->).
  destruct (kind_eqb (dkind w) (dkind v)); [reflexivity|]. destruct (kind_eqb (dkind v) TNone); [reflexivity|]. destruct (kind_eqb (dkind w) TNone); reflexivity.
Qed.

Lemma kind_eqb_none k : kind_eqb k TNone = true <-> k = TNone.
Proof. destruct k; cbn; intuition discriminate. Qed.
Lemma dkind_none v : dkind v = TNone <-> v = DNone.
Proof. destruct v; cbn; intuition discriminate. Qed.

Lemma assign_other_type n e i text e2 s a s1 b s2 v w : cur_rv s = None ->
  evals cf (S n) (EIndex e i) s a s1 -> holds s1 v a -> evals cf n e2 s1 b s2 -> holds s2 w b ->
  ~ same_type w v -> v <> DNone -> w <> DNone ->
  exists s', (forall d, d <> a -> nth_error (cells s') d = nth_error (cells s2) d) /\
  r_stmt (interp cf (S n)) (SAssign (LIndex e i) text e2) s =
    reports cf (lit "cannot assign " ++ type_name w ++ lit " to '" ++ cstr text ++ lit "' (" ++ type_name v ++ lit ")") s'.
Proof.
  intros R Ea Hv Eb Hw N Nv Nw. destruct (holds_cell _ _ _ Hw) as (cb & Cb). eexists. split; [|rewrite (assign_element _ _ _ _ _ _ _ _ _ _ _ _ _ R Ea Hv Eb Hw Cb)].
  2: { rewrite same_type_kind in N. apply Bool.not_true_is_false in N. rewrite N. cbn [orb].
    assert (K1 : kind_eqb (dkind v) TNone = false) by (apply Bool.not_true_is_false; rewrite kind_eqb_none, dkind_none; exact Nv).
    assert (K2 : kind_eqb (dkind w) TNone = false) by (apply Bool.not_true_is_false; rewrite kind_eqb_none, dkind_none; exact Nw). rewrite K1, K2. cbn [orb].
    unfold quoted. rewrite <- !app_assoc. reflexivity. }
  intros d Nd. cbn. apply upd_other. auto.
Qed.
Lemma assign_same_type n e i text e2 s a s1 b s2 v w cb : cur_rv s = None ->
  evals cf (S n) (EIndex e i) s a s1 -> holds s1 v a -> evals cf n e2 s1 b s2 -> holds s2 w b -> nth_error (cells s2) b = Some cb ->
  same_type w v \/ v = DNone \/ w = DNone ->
  executes cf (S n) (SAssign (LIndex e i) text e2) s (set_cells (upd a cb (cells s2)) s2) /\
  nth_error (cells (set_cells (upd a cb (cells s2)) s2)) a = Some cb.
Proof.
  intros R Ea Hv Eb Hw Cb N. split.
  - unfold executes. rewrite (assign_element _ _ _ _ _ _ _ _ _ _ _ _ _ R Ea Hv Eb Hw Cb). rewrite same_type_kind, <- (dkind_none v), <- (dkind_none w), <- !kind_eqb_none in N.
    destruct N as [-> | [-> | ->]]; rewrite ?orb_true_r; reflexivity.
  - cbn. apply upd_same. destruct (holds_cell _ _ _ Hv) as (c & Ec). apply (Nat.lt_le_trans _ (length (cells s1))); [eapply nth_lt; exact Ec|].
    exact (fr_cells _ _ _ _ (evals_fr _ _ _ _ _ Eb)).
Qed.

(** ** Functions *)
Lemma assign_function n x text e s i j v a c f : cur_rv s = None -> names s x i j v -> v_val v = Some a -> nth_error (cells s) a = Some c -> c_val c = PFn f ->
  r_stmt (interp cf (S n)) (SAssign (LId x) text e) s = reports cf (lit "cannot assign to " ++ role (PFn f) ++ lit " '" ++ cstr text ++ lit "'") s.
Proof.
  intros R N V Ec Ef. rewrite stmt_S. cbn [stmt_]. erewrite bind_step by (apply returning_no; assumption). cbv beta iota. unfold do_assign.
  erewrite bind_step; [|cbn [target]; erewrite bind_step by (apply env_find_names; exact N); cbv beta iota; erewrite bind_step by (unfold vref_val; rewrite V; reflexivity); reflexivity].
  cbn [fst snd]. erewrite bind_step by (apply get_cell_ok; exact Ec). rewrite Ef. rewrite role_spec. reflexivity.
Qed.
Lemma assign_unknown n x text e s : cur_rv s = None -> unknown s x ->
  r_stmt (interp cf (S n)) (SAssign (LId x) text e) s = reports cf (lit "'" ++ cstr x ++ lit "' was never declared") s.
Proof.
  intros R U. rewrite stmt_S. cbn [stmt_]. erewrite bind_step by (apply returning_no; assumption). cbv beta iota. unfold do_assign.
  apply bind_raise. cbn [target]. erewrite bind_step by (apply env_find_unknown; exact U). unfold error, quoted, reports. f_equal. rewrite <- !app_assoc. reflexivity.
Qed.

(** ** Variables *)
Variable F : releases_own cf.
Lemma decref_keeps n a s s' : decref cf n a s = Ret tt s' -> payloads s s'.
Proof. intro E. pose proof (decref_released cf F n a s) as P. rewrite E in P. exact P. Qed.
Lemma payloads_at s s' : payloads s s' -> forall d p, payload_at s d p -> payload_at s' d p.
Proof. intros P d p (c & E & V). destruct (P _ _ E) as (c' & E' & V'). exists c'. split; congruence. Qed.

Lemma var_set_inv i j b s u s' : var_set_val i j b s = Ret u s' -> exists c v x, nth_error (scopes s) i = Some c /\ sc_alive c = true /\ nth_error (sc_vars c) j = Some v /\
  nth_error (cells s) b = Some x /\
  s' = set_cells (upd b (Cell (NKey i (v_key v)) (c_cnt x) (c_owner x) (c_val x)) (cells s))
    (set_scopes (upd i (Scope (upd j (Var (v_key v) (v_static v) (Some b)) (sc_vars c)) (sc_owner c) (sc_class c) true) (scopes s)) s).
Proof.
  unfold var_set_val. intro E. apply bind_ret_inv in E as (c & s1 & E1 & E). apply get_scope_inv in E1 as (-> & E1 & A). destruct (nth_error (sc_vars c) j) as [v|] eqn:V; [|discriminate].
  apply bind_ret_inv in E as (u1 & s1 & E2 & E). apply write_var_inv in E2 as (c' & v' & E1' & A' & V' & S1). assert (c' = c) by congruence. subst c'. assert (v' = v) by congruence. subst v'.
  apply bind_ret_inv in E as (x & s2 & E2 & E). apply get_cell_inv in E2 as (-> & E2). apply modify_inv in E. exists c, v, x. subst s1. cbn in E2, E. auto.
Qed.

Lemma assign_to n lh x text e s0 s s' i j v a' : cur_rv s0 = None -> target cf (interp cf n) lh s0 = Ret (Some (VVar i j v), a') s -> declares s x i j v ->
  executes cf (S n) (SAssign lh text e) s0 s' ->
  exists b s1 vs, evals cf n e s b s1 /\ nth_error (map sc_vars (scopes s1)) i = Some vs /\
  map sc_vars (scopes s') = upd i (upd j (Var x (v_static v) (Some b)) vs) (map sc_vars (scopes s1)) /\
  vars s' i (upd j (Var x (v_static v) (Some b)) vs) /\ j < length vs /\
  prints s' = prints s1 /\ envs s' = envs s1 /\ cur_env s' = cur_env s /\ (forall d p, payload_at s1 d p -> payload_at s' d p).
Proof.
  intros R Tg N. unfold executes. rewrite stmt_S. cbn [stmt_]. erewrite bind_step by (apply returning_no; assumption). cbv beta iota. unfold do_assign. intro E.
  rewrite (bind_step _ _ _ _ _ Tg) in E. cbn [fst snd] in E.
  apply bind_ret_inv in E as (c & s1 & E1 & E). apply get_cell_inv in E1 as (-> & Ec).
  assert (E' : (rhs <- value (interp cf n) e;; decref cf (r_fuel (interp cf n)) a';; set_vref (VVar i j v) rhs)%fl s = Ret tt s').
  { destruct (c_val c) eqn:Ev; try (exfalso; eapply raise_not_ret; exact E).
    all: apply bind_ret_inv in E as (rhs & s1 & E1 & E); apply bind_ret_inv in E as (u & s2 & E2 & E); apply bind_ret_inv in E as (c' & s3 & E3 & E); apply get_cell_inv in E3 as (-> & E3);
      destruct (negb _ && _ && _); [exfalso; eapply raise_not_ret; exact E|]; apply ret_inv in E as (_ & ->);
      rewrite (bind_step _ _ _ _ _ E1); destruct u; exact E2. }
  clear E. rename E' into E.
  apply bind_ret_inv in E as (b & s1 & E1 & E). apply value_evals in E1. apply bind_ret_inv in E as (u & s2 & E2 & E). destruct u. cbn [set_vref] in E.
  pose proof (calm_decref cf F _ _ _ _ _ E2) as (P2 & V2 & C2 & M2). pose proof (decref_keeps _ _ _ _ E2) as K2.
  apply var_set_inv in E as (c2 & v2 & xb & Ec2 & A2 & Ev2 & Eb & ->).
  pose proof (evals_fr _ _ _ _ _ E1) as F1.
  destruct N as (be & af & (c0 & Ec0 & A0 & Q0) & L & Kx & Fb).
  destruct (fr_scopes _ _ _ _ F1 _ _ Ec0) as (c1 & Ec1 & _ & Dc & _). specialize (Dc ltac:(discriminate)).
  assert (Vs2 : sc_vars c2 = sc_vars c1).
  { apply (map_nth_error sc_vars) in Ec2. apply (map_nth_error sc_vars) in Ec1. congruence. }
  assert (Kv : v_key v2 = x /\ v_static v2 = v_static v).
  { unfold declared in Dc. rewrite Q0 in Dc. rewrite Vs2 in Ev2. apply (map_nth_error (fun v => (v_key v, v_static v))) in Ev2. rewrite Dc in Ev2.
    rewrite map_app, nth_error_app2, map_length, L, Nat.sub_diag in Ev2 by (rewrite map_length; lia). cbn in Ev2. injection Ev2 as Qk Qs. split; congruence. }
  destruct Kv as (Kv & Ks).
  exists b, s1, (sc_vars c2). split; [exact E1|]. split; [rewrite Vs2; now apply map_nth_error|].
  split. { cbn. rewrite upd_map. cbn. rewrite Kv, Ks. now rewrite M2. }
  split. { eexists. split; [cbn; apply upd_same; eapply nth_lt; eauto|]. cbn. rewrite Kv, Ks. auto. }
  split; [eapply nth_lt; exact Ev2|]. cbn. split; [exact P2|]. split; [exact V2|]. split; [rewrite C2; exact (fr_env _ _ _ _ F1)|].
  intros d p Pd. apply (payloads_at _ _ K2) in Pd. destruct Pd as (cd & Ed & Vd). unfold payload_at. cbn. destruct (Nat.eq_dec b d) as [<-|Nd].
  - rewrite upd_same by (eapply nth_lt; eauto). eexists. split; [reflexivity|]. cbn. congruence.
  - rewrite upd_other by auto. eauto.
Qed.
Lemma assign_variable n x text e s s' i j v : cur_rv s = None -> names s x i j v -> executes cf (S n) (SAssign (LId x) text e) s s' ->
  exists a b s1 vs, v_val v = Some a /\ evals cf n e s b s1 /\ nth_error (map sc_vars (scopes s1)) i = Some vs /\
  map sc_vars (scopes s') = upd i (upd j (Var x (v_static v) (Some b)) vs) (map sc_vars (scopes s1)) /\
  vars s' i (upd j (Var x (v_static v) (Some b)) vs) /\ j < length vs /\
  prints s' = prints s1 /\ envs s' = envs s1 /\ cur_env s' = cur_env s /\ (forall d p, payload_at s1 d p -> payload_at s' d p).
Proof.
  intros R N E. assert (X : exists a, v_val v = Some a /\ target cf (interp cf n) (LId x) s = Ret (Some (VVar i j v), a) s).
  { pose proof E as E0. unfold executes in E0. rewrite stmt_S in E0. cbn [stmt_] in E0. erewrite bind_step in E0 by (apply returning_no; assumption). cbv beta iota in E0. unfold do_assign in E0.
    apply bind_ret_inv in E0 as (r & s0 & E1 & _). cbn [target] in E1 |- *. erewrite bind_step in E1 |- * by (apply env_find_names; exact N). cbv beta iota in E1 |- *.
    unfold vref_val in *. destruct (v_val v) as [a|]; [|discriminate]. exists a. split; reflexivity. }
  destruct X as (a & V & Tg). destruct N as (inner & outer & _ & _ & D). destruct (assign_to _ _ x _ _ _ _ _ _ _ _ _ R Tg D E) as (b & s1 & vs & Q). exists a, b, s1, vs. split; [exact V|exact Q].
Qed.
End Assign.
