(** * Calls of [map] and [where] that succeed, and that fail. *)

From Coq Require Import ZArith Arith Ascii String Lia Bool List Permutation.
From Verif Require Import Base FlAst FlState FlInterp FlMonad SpecFlamingo FlEqProofs SpecScript SpecFrame FlOpProofs FlExprProofs FlFrame FlBalance FlMemberProofs.
Import ListNotations.
Local Open Scope nat_scope.

Section Higher.
Context {H : Type}.
Variable cf : conf H.

Lemma bind_eq A B (m m' : @M H A) (k : A -> @M H B) s t : m s = m' t -> mbind m k s = mbind m' k t.
Proof. intro E. unfold mbind. now rewrite E. Qed.

(** A call of a member on a vector, up to its body. *)
Lemma higher_enter n e x args s a s1 es0 p m bs s2 cm ca es :
  evals cf n e s a s1 -> (exists c, nth_error (cells s1) a = Some c /\ c_val c = PVec es0) -> provides s1 TVec x p m ->
  evals_each cf (S n) args (held m s1) bs s2 -> Forall (fun b => b < length (cells s2)) bs -> ready s2 ->
  nth_error (cells s2) m = Some cm -> c_val cm = PFn (Fn (KPtm p) [] None None None) -> nth_error (cells s2) a = Some ca -> c_val ca = PVec es ->
  exists t0 i l, entered s2 t0 /\ cur_rv t0 = None /\ nth_error (envs t0) (cur_env t0) = Some (length (scopes s2) :: i :: l) /\
    outcome cf (S (S n)) (ECall (EAccess e x) args) s =
    mbind (mbind (call_member cf (interp cf n) p a bs) (fun r => mbind (modify (set_rv (Some (RVal r)))) (fun _ =>
      mbind detach (fun _ => mbind (modify (set_body (cur_body s2))) (fun _ => mbind (modify (set_env (cur_env s2))) (fun _ =>
      mbind (finish cf (interp cf n) m BDone Slot bs) (fun o => mbind (modify (set_rv None)) (fun _ => ret o)))))))) (fun o => ret (o, None)) t0.
Proof.
  intros E (c1 & C1 & V1) P Ea Lb Rd Cm Vm Ca Va.
  assert (Ac : both (interp cf (S n)) (EAccess e x) s = Ret (m, Some a) (held m s1)).
  { unfold both, mbind. rewrite eval_S. cbn [eval_]. unfold do_access, access_find. unfold mbind at 1. unfold mbind at 1. rewrite (value_evals cf _ _ _ _ _ E).
    rewrite (bind_step _ _ _ _ _ (get_cell_ok _ _ _ C1)), V1. cbn [kind_of]. destruct (provides_find _ _ _ _ _ P) as (i & Fm). destruct P as (_ & c & C & Pm & Vm').
    unfold mbind at 1. unfold gets. rewrite Fm. unfold ret. unfold vref_val; cbn [fst snd]; unfold mbind at 1, ret. rewrite (bind_step _ _ _ _ _ (incref_held _ _ _ C Pm)). reflexivity. }
  assert (Ch : exists c f, nth_error (cells (held m s1)) m = Some c /\ c_val c = PFn f).
  { destruct P as (_ & c & C & _ & Vm'). unfold held. rewrite C. cbn. rewrite upd_same by (eapply nth_lt; eauto). eexists _, _. split; [reflexivity|]. exact Vm'. }
  destruct Ch as (c & f & C & Vf).
  destruct (ptm_enter cf (interp cf n) m p a bs s2 cm ca Cm Vm Ca) as (t0 & i & l & En & Rv & St & _ & _ & Q); auto; [now rewrite Va|].
  exists t0, i, l. repeat (split; [assumption|]). transitivity (mbind (call_ cf (interp cf n) m (Some a) Slot bs) (fun o => ret (o, @None addr)) s2); [|now apply bind_eq].
  unfold outcome. rewrite eval_S. cbn [eval_]. unfold plain, do_call. unfold mbind at 1. unfold mbind at 1. rewrite Ac. cbn [fst snd].
  rewrite (bind_step _ _ _ _ _ (get_cell_ok _ _ _ C)), Vf. unfold mbind at 1. rewrite (evals_each_mapM cf _ _ _ _ _ Ea). cbv beta iota. rewrite call_S. reflexivity.
Qed.

Lemma higher_leave (R : rec) m p r bs t1 (s2 : st H) i l c : nth_error (envs t1) (cur_env t1) = Some (i :: l) -> nth_error (cells t1) m = Some c -> c_val c = PFn (Fn (KPtm p) [] None None None) ->
  exists s', mbind (modify (set_rv (Some (RVal r)))) (fun _ =>
      mbind detach (fun _ => mbind (modify (set_body (cur_body s2))) (fun _ => mbind (modify (set_env (cur_env s2))) (fun _ =>
      mbind (finish cf R m BDone Slot bs) (fun o => mbind (modify (set_rv None)) (fun _ => ret o)))))) t1 = Ret (Some r) s' /\
    cells s' = cells t1 /\ bufs s' = bufs t1 /\ prints s' = prints t1 /\ host s' = host t1.
Proof.
  intros St C V. unfold mbind at 1, modify. unfold mbind at 1, detach. unfold mbind at 1, cur_stack. cbn [envs cur_env set_rv]. rewrite St.
  unfold mbind at 1, set_stack, modify, ret. unfold mbind at 1. unfold mbind at 1.
  match goal with |- context [mbind (finish _ _ _ _ _ _) _ ?t] => set (t5 := t) end.
  unfold mbind at 1. rewrite (finish_member cf R m r bs t5 c p eq_refl C V). unfold mbind. eexists. split; [reflexivity|]. repeat split; reflexivity.
Qed.

Variable T : tame cf.

Lemma applied_fr n f v i k s ys s' : applied cf n f v i k s ys s' -> fr None true s s'.
Proof.
  induction 1 as [i s|i k s x y s1 ys s2 El Ca _ IH]; [apply fr_refl|]. eapply fr_trans; [|exact IH]. unfold calls in Ca. now apply (g_call _ (interp_good cf T n)) in Ca as (Ca & _).
Qed.
Lemma selected_fr n f v i s ys s' : selected cf n f v i s ys s' -> fr None true s s'.
Proof.
  induction 1 as [i s c es C V L|i s x y s1 z s2 zs s3 El Ca Hy Cz _ IH|i s x y s1 zs s3 El Ca Hy _ IH]; [apply fr_refl| |]; unfold calls in Ca; apply (g_call _ (interp_good cf T n)) in Ca as (Ca & _).
  - eapply fr_trans; [exact Ca|]. eapply fr_trans; [eapply val_copy_fr; exact Cz|exact IH].
  - eapply fr_trans; [exact Ca|exact IH].
Qed.

(** The elements of a vector change only if the vector itself is assigned to, so their number is [k] to the end. *)
Lemma selected_loop n f v i s zs s' : selected cf n f v i s zs s' -> exists k0, forall k, k0 <= k -> where_loop cf (interp cf n) v f i k s = Ret zs s'.
Proof.
  induction 1 as [i s c es C V L|i s x y s1 z s2 zs s3 (cv & es & Cv & Vv & X) Ca (cy & Cy & Vy) Cz _ (k0 & IH)|i s x y s1 zs s3 (cv & es & Cv & Vv & X) Ca (cy & Cy & Vy) _ (k0 & IH)].
  - exists 1. intros [|k] Hk; [lia|]. cbn [where_loop]. unfold vec_again, mbind. rewrite (get_cell_ok _ _ _ C), V. unfold ret at 1. rewrite (proj2 (nth_error_None _ _)) by auto. reflexivity.
  - exists (S k0). intros [|k] Hk; [lia|]. cbn [where_loop]. unfold vec_again, mbind. rewrite (get_cell_ok _ _ _ Cv), Vv. unfold ret at 1. rewrite X.
    unfold callback, mbind. rewrite Ca. unfold ret at 1. rewrite (get_cell_ok _ _ _ Cy), Vy, Cz. rewrite IH by lia. reflexivity.
  - exists (S k0). intros [|k] Hk; [lia|]. cbn [where_loop]. unfold vec_again, mbind. rewrite (get_cell_ok _ _ _ Cv), Vv. unfold ret at 1. rewrite X.
    unfold callback, mbind. rewrite Ca. unfold ret at 1. rewrite (get_cell_ok _ _ _ Cy), Vy. apply IH. lia.
Qed.

Lemma map_total n e args s a s1 es0 m b s2 es fn :
  evals cf n e s a s1 -> (exists c, nth_error (cells s1) a = Some c /\ c_val c = PVec es0) -> provides s1 TVec (lit "map") PtMap m ->
  evals_each cf (S n) args (held m s1) [b] s2 -> ready s2 ->
  (exists c, nth_error (cells s2) m = Some c /\ c_val c = PFn (Fn (KPtm PtMap) [] None None None)) ->
  (exists ca, nth_error (cells s2) a = Some ca /\ c_val ca = PVec es) -> (exists cb, nth_error (cells s2) b = Some cb /\ c_val cb = PFn fn) ->
  exists t0, entered s2 t0 /\ forall ys t1, applied cf n b a 0 (length es) t0 ys t1 ->
    (exists c, nth_error (cells t1) m = Some c /\ c_val c = PFn (Fn (KPtm PtMap) [] None None None)) ->
    exists r x s', outcome cf (S (S n)) (ECall (EAccess e (lit "map")) args) s = Ret (Some r, x) s' /\
      (exists c, nth_error (cells s') r = Some c /\ c_val c = PVec ys) /\ (forall v d, holds t1 d v -> holds s' d v) /\ prints s' = prints t1.
Proof.
  intros E V P Ea Rd (cm & Cm & Vm) (ca & Ca & Va) (cb & Cb & Vb).
  destruct (higher_enter n e (lit "map") args s a s1 es0 PtMap m [b] s2 cm ca es E V P Ea) as (t0 & i & l & En & Rv & St & Q); auto; [constructor; auto; eapply nth_lt; eauto|].
  exists t0. split; auto. intros ys t1 Ap (c1 & C1 & V1). rewrite Q. unfold mbind at 1. unfold mbind at 1. cbn [call_member]. unfold vec_map, self_vec.
  destruct (names_only_cell s2 t0 a ca (proj1 En) Ca) as (ca' & Ca' & Va'). destruct (names_only_cell s2 t0 b cb (proj1 En) Cb) as (cb' & Cb' & Vb').
  unfold mbind at 1. unfold mbind at 1. rewrite (get_cell_ok _ _ _ Ca'), Va', Va. unfold ret at 1. unfold mbind at 1. rewrite (get_cell_ok _ _ _ Cb'), Vb', Vb.
  unfold mbind at 1. rewrite (applied_map_loop cf _ _ _ _ _ _ _ _ Ap). unfold alloc.
  pose proof (applied_fr _ _ _ _ _ _ _ _ Ap) as F. set (t2 := set_cells _ t1).
  destruct (higher_leave (interp cf n) m PtMap (length (cells t1)) [b] t2 s2 (length (scopes s2)) (i :: l) c1) as (s' & -> & Cs & Bs & Ps & _); auto.
  { unfold t2. cbn. rewrite (fr_env _ _ _ _ F). apply (fr_envs _ _ _ _ F). exact St. }
  { unfold t2. cbn. now apply nth_app_l. }
  unfold ret. eexists _, _, _. split; [reflexivity|]. split; [|split].
  - rewrite Cs. unfold t2. cbn. eexists. split; [apply nth_app_new|reflexivity].
  - intros v d Hd. eapply holds_keeps; [|exact Hd]. destruct (keeps_append t1 [Cell NNone 1 None (PVec ys)]) as (K1 & K2). split; [rewrite Cs; exact K1|rewrite Bs; exact K2].
  - rewrite Ps. reflexivity.
Qed.

Lemma where_call n e args s a s1 es0 m b s2 es fn :
  evals cf n e s a s1 -> (exists c, nth_error (cells s1) a = Some c /\ c_val c = PVec es0) -> provides s1 TVec (lit "where") PtWhere m ->
  evals_each cf (S n) args (held m s1) [b] s2 -> ready s2 ->
  (exists c, nth_error (cells s2) m = Some c /\ c_val c = PFn (Fn (KPtm PtWhere) [] None None None)) ->
  (exists ca, nth_error (cells s2) a = Some ca /\ c_val ca = PVec es) -> (exists cb, nth_error (cells s2) b = Some cb /\ c_val cb = PFn fn) ->
  exists t0, entered s2 t0 /\
    (forall j t x y t' c, selecting cf n b a 0 t0 j t -> element t a j x -> calls cf n b x t y t' -> nth_error (cells t') y = Some c ->
      (forall d, c_val c <> PBool d) -> j < n -> forall t'', let_go (c_val c) t' t'' ->
      outcome cf (S (S n)) (ECall (EAccess e (lit "where")) args) s = reports cf (lit "'vec.where' expected 'fn' to return a boolean, got a " ++ type_str (c_val c)) t'').
Proof.
  intros E V P Ea Rd (cm & Cm & Vm) (ca & Ca & Va) (cb & Cb & Vb).
  destruct (higher_enter n e (lit "where") args s a s1 es0 PtWhere m [b] s2 cm ca es E V P Ea) as (t0 & i & l & En & Rv & St & Q); auto; [constructor; auto; eapply nth_lt; eauto|].
  exists t0. split; auto. intros j t x y t' c Sl El Cl Cy Vy L t2 G. rewrite Q.
  apply bind_raise, bind_raise. cbn [call_member]. unfold vec_where, self_vec.
  destruct (names_only_cell s2 t0 a ca (proj1 En) Ca) as (ca' & Ca' & Va'). destruct (names_only_cell s2 t0 b cb (proj1 En) Cb) as (cb' & Cb' & Vb').
  unfold mbind at 1. unfold mbind at 1. rewrite (get_cell_ok _ _ _ Ca'), Va', Va. unfold ret at 1. unfold mbind at 1. rewrite (get_cell_ok _ _ _ Cb'), Vb', Vb.
  apply bind_raise. rewrite interp_fuel. apply (where_loop_nonbool cf n a b 0 t0 j t Sl x y t' c El Cl Cy Vy _ G). lia.
Qed.
End Higher.
