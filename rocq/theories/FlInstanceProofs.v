(** * Classes, instances and their members. *)

From Coq Require Import ZArith Arith Ascii String Lia Bool List.
From Verif Require Import Base FlAst FlState FlInterp FlMonad SpecFlamingo FlEqProofs SpecScript SpecFrame SpecScope SpecImport FlOpProofs FlExprProofs FlFrame FlBalance FlMemberProofs FlHigherProofs FlSeqProofs FlScopeProofs FlAssignProofs FlReturnProofs FlExternProofs FlScopeClaims SpecCall FlCallProofs SpecEnd EndProofs SpecInstance.
Import ListNotations.
Local Open Scope nat_scope.

Section Instance.
Context {H : Type}.
Variable cf : conf H.
Implicit Types s t : st H.

(** ** Members *)
Lemma called_str p : type_str p = called p. Proof. destruct p; try reflexivity. cbn. now destruct (f_kind f). Qed.

Lemma find_instance n e s a s1 k i x : evals cf n e s a s1 -> instance_at s1 a k i ->
  access_find cf (interp cf n) e x s = (r <- find_var i x ;;
    match r with
    | None => error cf (lit "member " ++ quoted x ++ lit " was never declared")
    | Some (j, v) => if v_static v then error cf (lit "member " ++ quoted x ++ lit " is static and can't be accessed through an instance") else ret (VVar i j v, a)
    end)%fl s1.
Proof. intros E (d & c & Ec & Ev). unfold access_find. rewrite (bind_step _ _ _ _ _ (FlExprProofs.value_evals cf _ _ _ _ _ E)), (bind_step _ _ _ _ _ (get_cell_ok _ _ _ Ec)), Ev. reflexivity. Qed.
Lemma find_class n e s a s1 i x : evals cf n e s a s1 -> class_with s1 a i ->
  access_find cf (interp cf n) e x s = (r <- find_var i x ;;
    match r with
    | None => error cf (lit "static member " ++ quoted x ++ lit " was never declared")
    | Some (j, v) => ret (VVar i j v, a)
    end)%fl s1.
Proof. intros E (f & (c & Ec & Ev) & K & S'). unfold access_find. rewrite (bind_step _ _ _ _ _ (FlExprProofs.value_evals cf _ _ _ _ _ E)), (bind_step _ _ _ _ _ (get_cell_ok _ _ _ Ec)), Ev, K, S'. reflexivity. Qed.

Lemma accessed n e x s i j v a s1 b : access_find cf (interp cf n) e x s = Ret (VVar i j v, a) s1 -> v_val v = Some b -> live s1 b ->
  outcome cf (S n) (EAccess e x) s = Ret (Some b, Some a) (held b s1).
Proof.
  intros E V L. unfold outcome. rewrite eval_S. cbn [eval_]. unfold do_access. rewrite (bind_step _ _ _ _ _ E). cbn [fst snd].
  rewrite (bind_step _ _ s1 b s1) by (unfold vref_val; now rewrite V). rewrite (bind_step _ _ _ _ _ (FlScopeProofs.incref_live _ _ L)). reflexivity.
Qed.
Lemma unaccessed n e x s s1 msg : access_find cf (interp cf n) e x s = reports cf msg s1 -> outcome cf (S n) (EAccess e x) s = reports cf msg s1.
Proof. intro E. unfold outcome. rewrite eval_S. cbn [eval_]. unfold do_access. eapply bind_raise. exact E. Qed.

Lemma instance_member n e s a s1 k i x j v b : evals cf n e s a s1 -> instance_at s1 a k i -> declares s1 x i j v -> v_static v = false -> v_val v = Some b -> live s1 b ->
  outcome cf (S n) (EAccess e x) s = Ret (Some b, Some a) (held b s1).
Proof.
  intros E I D S' V L. apply (accessed _ _ _ _ i j v); auto. rewrite (find_instance _ _ _ _ _ _ _ _ E I). rewrite (bind_step _ _ _ _ _ (find_var_declares _ _ _ _ _ D)). cbv beta iota. now rewrite S'.
Qed.
Lemma instance_lacks n e s a s1 k i x : evals cf n e s a s1 -> instance_at s1 a k i -> lacks s1 x i ->
  outcome cf (S n) (EAccess e x) s = reports cf (lit "member '" ++ cstr x ++ lit "' was never declared") s1.
Proof.
  intros E I D. apply unaccessed. rewrite (find_instance _ _ _ _ _ _ _ _ E I). rewrite (bind_step _ _ _ _ _ (find_var_lacks _ _ _ D)). unfold error, quoted, reports. f_equal. rewrite <- !app_assoc. reflexivity.
Qed.
Lemma instance_static n e s a s1 k i x j v : evals cf n e s a s1 -> instance_at s1 a k i -> declares s1 x i j v -> v_static v = true ->
  outcome cf (S n) (EAccess e x) s = reports cf (lit "member '" ++ cstr x ++ lit "' is static and can't be accessed through an instance") s1.
Proof.
  intros E I D S'. apply unaccessed. rewrite (find_instance _ _ _ _ _ _ _ _ E I). rewrite (bind_step _ _ _ _ _ (find_var_declares _ _ _ _ _ D)). cbv beta iota. rewrite S'. unfold error, quoted, reports. f_equal. rewrite <- !app_assoc. reflexivity.
Qed.
Lemma class_member n e s a s1 i x j v b : evals cf n e s a s1 -> class_with s1 a i -> declares s1 x i j v -> v_val v = Some b -> live s1 b ->
  outcome cf (S n) (EAccess e x) s = Ret (Some b, Some a) (held b s1).
Proof.
  intros E I D V L. apply (accessed _ _ _ _ i j v); auto. rewrite (find_class _ _ _ _ _ _ _ E I). now rewrite (bind_step _ _ _ _ _ (find_var_declares _ _ _ _ _ D)).
Qed.
Lemma class_lacks n e s a s1 i x : evals cf n e s a s1 -> class_with s1 a i -> lacks s1 x i ->
  outcome cf (S n) (EAccess e x) s = reports cf (lit "static member '" ++ cstr x ++ lit "' was never declared") s1.
Proof.
  intros E I D. apply unaccessed. rewrite (find_class _ _ _ _ _ _ _ E I). rewrite (bind_step _ _ _ _ _ (find_var_lacks _ _ _ D)). unfold error, quoted, reports. f_equal. rewrite <- !app_assoc. reflexivity.
Qed.
Lemma no_member k x : forall ms i, Forall (fun m => ~ (fst (fst m) = k /\ snd (fst m) = x)) ms -> find_member k x ms i = None.
Proof.
  intros ms i F. revert i. induction F as [|((k', y), a) ms N F IH]; intro i; [reflexivity|]. cbn [find_member]. destruct (kind_eqb k' k && bytes_eqb y x) eqn:Q; [|apply IH].
  apply andb_prop in Q as (Q1 & Q2). apply bytes_eqb_eq in Q2. exfalso. apply N. cbn. split; auto. destruct k', k; try reflexivity; discriminate.
Qed.
Lemma other_lacks n e s a s1 p x : evals cf n e s a s1 -> payload_at s1 a p -> no_members p -> not_built_in s1 p x ->
  outcome cf (S n) (EAccess e x) s = reports cf (lit "primitive type member '" ++ cstr x ++ lit "' doesn't exist on expression of type " ++ called p) s1.
Proof.
  intros E (c & Ec & Ev) N B. apply unaccessed. unfold access_find. rewrite (bind_step _ _ _ _ _ (FlExprProofs.value_evals cf _ _ _ _ _ E)), (bind_step _ _ _ _ _ (get_cell_ok _ _ _ Ec)), Ev. cbv zeta.
  assert (Q : (ms <- gets members ;; match find_member (kind_of p) x ms 0 with
    | Some (i, m) => ret (VMember i x m, a) | None => error cf (lit "primitive type member " ++ quoted x ++ lit " doesn't exist on expression of type " ++ type_str p) end)%fl s1 =
    reports cf (lit "primitive type member '" ++ cstr x ++ lit "' doesn't exist on expression of type " ++ called p) s1).
  { rewrite (bind_step _ _ s1 (members s1) s1) by reflexivity. rewrite no_member by exact B. unfold error, quoted, reports. rewrite called_str. f_equal. rewrite <- !app_assoc. reflexivity. }
  destruct p as [| | | | | |f|]; try exact Q; [|contradiction]. cbn in N. destruct (f_kind f); try exact Q. now destruct N.
Qed.

(** ** Assigning to members *)
Section Assign.
Variables (T : tame cf) (Rl : releases_own cf).
Lemma target_member n e x s i j v a s1 b : access_find cf (interp cf n) e x s = Ret (VVar i j v, a) s1 -> v_val v = Some b -> target cf (interp cf n) (LAccess e x) s = Ret (Some (VVar i j v), b) s1.
Proof. intros E V. cbn [target]. rewrite (bind_step _ _ _ _ _ E). cbn [fst]. rewrite (bind_step _ _ s1 b s1) by (unfold vref_val; now rewrite V). reflexivity. Qed.

Lemma assign_member n e x text e2 s s0 s' a k i j v b0 : cur_rv s = None -> evals cf n e s a s0 -> instance_at s0 a k i -> declares s0 x i j v -> v_static v = false -> v_val v = Some b0 ->
  executes cf (S n) (SAssign (LAccess e x) text e2) s s' ->
  exists b s1 vs, evals cf n e2 s0 b s1 /\ nth_error (map sc_vars (scopes s1)) i = Some vs /\
  map sc_vars (scopes s') = upd i (upd j (Var x false (Some b)) vs) (map sc_vars (scopes s1)) /\
  vars s' i (upd j (Var x false (Some b)) vs) /\ j < length vs /\
  prints s' = prints s1 /\ envs s' = envs s1 /\ cur_env s' = cur_env s0 /\ (forall d p, payload_at s1 d p -> payload_at s' d p).
Proof.
  intros R E I D S' V X. rewrite <- S'. eapply (assign_to cf T Rl); [exact R| |exact D|exact X]. apply (target_member n e x s i j v a s0 b0); [|exact V].
  rewrite (find_instance _ _ _ _ _ _ _ _ E I). rewrite (bind_step _ _ _ _ _ (find_var_declares _ _ _ _ _ D)). cbv beta iota. now rewrite S'.
Qed.
Lemma assign_static n e x text e2 s s0 s' a i j v b0 : cur_rv s = None -> evals cf n e s a s0 -> class_with s0 a i -> declares s0 x i j v -> v_val v = Some b0 ->
  executes cf (S n) (SAssign (LAccess e x) text e2) s s' ->
  exists b s1 vs, evals cf n e2 s0 b s1 /\ nth_error (map sc_vars (scopes s1)) i = Some vs /\
  map sc_vars (scopes s') = upd i (upd j (Var x (v_static v) (Some b)) vs) (map sc_vars (scopes s1)) /\
  vars s' i (upd j (Var x (v_static v) (Some b)) vs) /\ j < length vs /\
  prints s' = prints s1 /\ envs s' = envs s1 /\ cur_env s' = cur_env s0 /\ (forall d p, payload_at s1 d p -> payload_at s' d p).
Proof.
  intros R E I D V X. eapply (assign_to cf T Rl); [exact R| |exact D|exact X]. apply (target_member n e x s i j v a s0 b0); [|exact V].
  rewrite (find_class _ _ _ _ _ _ _ E I). now rewrite (bind_step _ _ _ _ _ (find_var_declares _ _ _ _ _ D)).
Qed.
Lemma assign_no_target n e x text e2 s s1 msg : cur_rv s = None -> access_find cf (interp cf n) e x s = reports cf msg s1 ->
  r_stmt (interp cf (S n)) (SAssign (LAccess e x) text e2) s = reports cf msg s1.
Proof.
  intros R E. rewrite stmt_S. cbn [stmt_]. erewrite bind_step by (apply returning_no; assumption). cbv beta iota. unfold do_assign. eapply bind_raise. cbn [target]. eapply bind_raise. exact E.
Qed.
Lemma assign_static_through_instance n e x text e2 s s1 a k i j v : cur_rv s = None -> evals cf n e s a s1 -> instance_at s1 a k i -> declares s1 x i j v -> v_static v = true ->
  r_stmt (interp cf (S n)) (SAssign (LAccess e x) text e2) s = reports cf (lit "member '" ++ cstr x ++ lit "' is static and can't be accessed through an instance") s1.
Proof.
  intros R E I D S'. apply assign_no_target; [exact R|]. rewrite (find_instance _ _ _ _ _ _ _ _ E I). rewrite (bind_step _ _ _ _ _ (find_var_declares _ _ _ _ _ D)). cbv beta iota. rewrite S'. unfold error, quoted, reports. f_equal. rewrite <- !app_assoc. reflexivity.
Qed.
Lemma assign_undeclared n e x text e2 s s1 a k i : cur_rv s = None -> evals cf n e s a s1 -> instance_at s1 a k i -> lacks s1 x i ->
  r_stmt (interp cf (S n)) (SAssign (LAccess e x) text e2) s = reports cf (lit "member '" ++ cstr x ++ lit "' was never declared") s1.
Proof.
  intros R E I D. apply assign_no_target; [exact R|]. rewrite (find_instance _ _ _ _ _ _ _ _ E I). rewrite (bind_step _ _ _ _ _ (find_var_lacks _ _ _ D)). unfold error, quoted, reports. f_equal. rewrite <- !app_assoc. reflexivity.
Qed.
End Assign.

(** ** New instances *)
Section New.
Variable T : tame cf.

Lemma class_called n g args s fa acc s1 f1 as_ s2 f e l l' b ss a s' : outcome cf (S (S n)) g s = Ret (Some fa, acc) s1 -> payload_at s1 fa (PFn f1) -> evals_each cf (S (S n)) args s1 as_ s2 ->
  callable s2 fa f e l -> f_kind f = KClass -> f_body f = Some b -> nth_error (bodies s2) b = Some (Some (BBlock ss)) ->
  around s2 l acc l' -> usable_in s2 l' -> length args = length (f_params f) -> Forall (fun a => a < length (cells s2)) as_ ->
  (forall t u u2, enters f e l' as_ s2 t -> opened t u -> exec cf n ss u = Ret tt u2 -> exists g, payload_at u2 fa (PFn g) /\ f_kind g = KClass) ->
  evals cf (S (S (S n))) (ECall g args) s a s' ->
  exists t u u2 v v', enters f e l' as_ s2 t /\ opened t u /\ exec cf n ss u = Ret tt u2 /\ becomes fa e l (S (length (scopes s2))) a s2 u2 v /\
  cf_inst cf a as_ v = Ret tt v' /\ s' = set_rv None v'.
Proof.
  intros E P Ea (Pf & Kf & Ef & Ee) Kd Bf Bd Ar (p & q & vs & -> & (cp & Ep & Ap & _)) L Fa Still Ev. apply around_over in Ar as (Xa & Ov).
  assert (La : length as_ = length args) by (clear - Ea; induction Ea; cbn; congruence).
  destruct (call_enter_to cf fa f e l acc as_ s2 p q cp Pf Kf Ef Ee Xa Ov Ep Ap (eq_trans La L) Fa) as (cs & Rn & Q).
  set (t := inside f e l (on_scope s2 acc) as_ cs s2) in *. set (k := length (scopes s2)) in *.
  assert (En : enters f e (p :: q) as_ s2 t) by (rewrite <- Ov; apply inside_enters; exact Rn).
  pose proof (enters_open f e (p :: q) as_ s2 t ltac:(congruence) En) as Ot. fold k in Ot. pose proof (enters_scope f e (p :: q) as_ s2 t En) as Et. fold k in Et.
  pose proof (push_ok t k (p :: q) _ Ot Et eq_refl) as Push. set (u := set_scopes _ _) in Push.
  assert (Op : opened t u) by (exists k, (p :: q); eexists; split; [exact Ot|]; split; [exact Et|]; split; reflexivity).
  assert (Lt : length (scopes t) = S k). { destruct En as (_ & _ & Sc & _). rewrite Sc, app_length. cbn. fold k. lia. }
  specialize (Still t u). exists t, u.
  destruct Ev as (ac & Ev). change (r_eval (interp cf (S (S (S n)))) Slot (ECall g args) s) with (outcome cf (S (S (S n))) (ECall g args) s) in Ev.
  rewrite (call_of cf (S (S n)) g args s fa acc s1 f1 as_ s2 E P Ea), call_S in Ev. unfold plain in Ev. unfold exec in *.
  apply bind_ret_inv in Ev as (o & w' & Ev & Er). apply ret_inv in Er as (Er & ->). injection Er as <- _. rewrite Q in Ev. apply bind_ret_inv in Ev as (be & w & Rb & Lv).
  unfold run_body in Rb. rewrite Kd, Bf in Rb. rewrite (bind_step _ _ t (BBlock ss) t) in Rb by (unfold read_body; change (bodies t) with (bodies s2); now rewrite Bd).
  apply bind_ret_inv in Rb as (i & w2 & Rb & Re). apply ret_inv in Re as (-> & ->). change (r_block (interp cf (S n))) with (block_ (interp cf n)) in Rb. unfold block_ in Rb.
  rewrite (bind_step _ _ _ _ _ Push) in Rb. apply bind_ret_inv in Rb as ([] & u2 & R & Dt). exists u2.
  assert (Ex : executes_each cf n ss u u2) by (apply each_iter; exact R).
  assert (Tp : top u = Some (length (scopes t))). { unfold top, u. cbn. rewrite upd_same by (eapply nth_lt; exact Ot). reflexivity. }
  pose proof (each_fr cf T _ _ _ _ _ Tp Ex) as F.
  assert (Ce : cur_env u2 = e) by (rewrite (fr_env _ _ _ _ F); reflexivity).
  assert (O2 : nth_error (envs u2) e = Some (length (scopes t) :: k :: p :: q)). { apply (fr_envs _ _ _ _ F). unfold u. cbn [envs set_scopes set_envs]. apply upd_same. eapply nth_lt; exact Ot. }
  rewrite (detach_ok u2 (length (scopes t)) (k :: p :: q)) in Dt by (unfold open; now rewrite Ce). rewrite Ce in Dt. injection Dt as <- <-.
  set (v := set_envs (upd e (k :: p :: q) (envs u2)) u2) in *.
  assert (Ov2 : nth_error (envs v) e = Some (k :: over (on_scope s2 acc) l)) by (rewrite Ov; unfold v; cbn; apply upd_same; eapply nth_lt; exact O2).
  rewrite (leave_ok cf (interp cf (S n)) fa e l (on_scope s2 acc) Slot as_ s2 v _ k Ce Ov2) in Lv.
  assert (Ew : set_envs (upd e l (envs v)) v = set_envs (upd e l (envs u2)) u2) by (unfold v; cbn; now rewrite upd_upd). rewrite Ew in Lv. clear Ew.
  set (w := set_env _ _) in Lv. destruct (Still u2 En Op R) as (g2 & (c2 & Ec2 & Ev2) & Kg).
  apply bind_ret_inv in Lv as (o' & w3 & Fi & Lv). rewrite (bind_step _ _ w3 tt (set_rv None w3)) in Lv by reflexivity. apply ret_inv in Lv as (<- & ->).
  unfold finish in Fi. rewrite (bind_step _ _ w c2 w) in Fi by (apply get_cell_ok; exact Ec2). rewrite Ev2, Kg in Fi.
  rewrite (bind_step _ _ w tt w) in Fi by reflexivity. assert (Lt2 : length (scopes s2 ++ [params_scope f as_]) = S k) by exact Lt. rewrite Lt2 in Fi.
  rewrite (bind_step _ _ w (length (cells u2)) (set_cells (cells u2 ++ [Cell NNone 1 None (PInst fa (S k) None)]) w)) in Fi by reflexivity.
  set (w4 := set_cells _ w) in Fi. cbn [deliver] in Fi. rewrite (bind_step _ _ w4 (Some (length (cells u2))) w4) in Fi by reflexivity.
  apply bind_ret_inv in Fi as (c & w5 & G & Fi). apply get_scope_inv in G as (-> & G & A).
  rewrite (bind_step _ _ w4 tt (set_scopes (upd (S k) (Scope (sc_vars c) (Some (length (cells u2))) (sc_class c) true) (scopes u2)) w4)) in Fi by reflexivity.
  apply bind_ret_inv in Fi as ([] & v' & Ci & Fi). apply ret_inv in Fi as (Q' & ->). injection Q' as ->.
  eexists. exists v'. split; [exact En|]. split; [exact Op|]. split; [exact R|]. split; [|split; [exact Ci|reflexivity]].
  split; [reflexivity|]. split; [reflexivity|]. split; [exists c; split; [exact G|split; [exact A|reflexivity]]|]. do 9 (split; [reflexivity|]). split; reflexivity.
Qed.

Lemma goes_on_quiet y : goes_on y -> quiet y = true.
Proof. intros (A & B). destruct y; try reflexivity; exfalso; [eapply B|eapply A]; reflexivity. Qed.

Lemma class_names n ss u u2 t : opened t u -> cur_rv u = None -> Forall goes_on ss -> exec cf n ss u = Ret tt u2 ->
  exists xs, leaves cf (import_paths u) ss xs /\ declares_names u2 (length (scopes t)) xs.
Proof.
  intros (i & l & c & O & C & A & Eu) R F E.
  assert (Tp : top u = Some (length (scopes t))). { subst u. unfold top. cbn. rewrite upd_same by (eapply nth_lt; exact O). reflexivity. }
  destruct (exec_names_going cf T n ss u u2 (length (scopes t)) (Scope [] None (sc_class c) true) Tp) as (xs & c' & L & C' & K).
  - right. split; [exact R|]. eapply Forall_impl; [|exact F]. exact goes_on_quiet.
  - subst u. cbn. apply nth_app_new.
  - exact E.
  - exists xs. split; [exact L|]. exists c'. split; [exact C'|exact K].
Qed.

(** ** Declaring classes *)
Lemma static_names n : forall ss s s' i c, top s = Some i -> nth_error (scopes s) i = Some c -> iterM (static_member cf (interp cf n)) ss s = Ret tt s' ->
  exists xs c', statics ss xs /\ nth_error (scopes s') i = Some c' /\ keys c' = keys c ++ xs.
Proof.
  induction ss as [|y ss IH]; intros s s' i c Tp C E; [injection E as <-; exists [], c; rewrite app_nil_r; split; [constructor|auto]|].
  cbn [iterM] in E. apply bind_ret_inv in E as ([] & s1 & E1 & E).
  pose proof (static_member_fr cf _ (interp_good cf T n) _ _ _ _ _ Tp E1) as F.
  assert (Tp1 : top s1 = Some i) by (eapply top_kept; eauto). destruct (fr_scopes _ _ _ _ F _ _ C) as (c1 & C1 & _).
  destruct (IH s1 s' i c1 Tp1 C1 E) as (xs & c' & St & C' & K').
  assert (Step : (exists x, (forall xs, statics ss xs -> statics (y :: ss) (x :: xs)) /\ more i x s s1) \/ ((forall xs, statics ss xs -> statics (y :: ss) xs) /\ s1 = s)).
  { clear - T E1 Tp. unfold static_member in E1.
    destruct y; try (right; apply ret_inv in E1 as (_ & ->); split; [intros; apply statics_other; auto; discriminate|reflexivity]); destruct static;
      try (right; apply ret_inv in E1 as (_ & ->); split; [intros; apply statics_other; auto; discriminate|reflexivity]); left; eexists.
    1-3: (split; [intros; constructor; eassumption|eapply (fun_more cf T); eassumption]).
    split; [intros; constructor; eassumption|]. eapply parts_more. exact (let_parts cf _ (interp_good cf T n) _ _ _ _ _ _ _ Tp E1). }
  destruct Step as [(x & S1 & M)|(S1 & ->)].
  - destruct (M c C) as (c2 & C2 & K2). rewrite C1 in C2. injection C2 as <-. exists (x :: xs), c'. split; [auto|]. split; [auto|]. rewrite K', K2. now rewrite <- app_assoc.
  - rewrite C in C1. injection C1 as <-. exists xs, c'. auto.
Qed.

Lemma class_declared n b x ps ss s s' i l : open s (i :: l) -> executes cf (S (S n)) (SClass b x ps ss) s s' ->
  exists t a f body sc j xs, declares t x i j (Var x b (Some a)) /\ payload_at t a (PFn f) /\ f_kind f = KClass /\ f_params f = ps /\
    f_body f = Some body /\ nth_error (bodies t) body = Some (Some (BBlock ss)) /\ f_scope f = Some sc /\ length (scopes s) <= sc /\ vars t sc [] /\
    prints t = prints s /\ host t = host s /\ statics ss xs /\ declares_names s' sc xs.
Proof.
  intros O E. unfold executes in E. rewrite stmt_S in E. cbn [stmt_] in E. rewrite fun_S in E. assert (Tp : top s = Some i) by (unfold top; now rewrite O).
  unfold fun_ in E. rewrite (bind_step _ _ _ _ _ (cur_scope_ok _ _ _ O)) in E.
  apply bind_ret_inv in E as (r & s1 & E1 & E). apply find_var_inv in E1 as (-> & Nx). destruct r as [[k v]|].
  { exfalso. destruct (v_val v); [|discriminate]. apply bind_ret_inv in E as (c & s1 & _ & E). eapply raise_not_ret; exact E. }
  apply bind_ret_inv in E as (j & s1 & E1 & E). apply add_var_inv in E1 as (c & C & A & -> & S1).
  apply bind_ret_inv in E as (a & s2 & E2 & E). apply alloc_inv in E2 as (-> & S2).
  apply bind_ret_inv in E as (u & s3 & E3 & E). apply var_set_inv in E3 as (c3 & v3 & x3 & C3 & A3 & V3 & X3 & S3).
  apply bind_ret_inv in E as (env & s4 & E4 & E). unfold close_over in E4. apply bind_ret_inv in E4 as (l4 & s4' & E4 & E4'). apply cur_stack_inv in E4 as (-> & L4). injection E4' as <- S4.
  apply bind_ret_inv in E as (bd & s5 & E5 & E). apply bind_ret_inv in E5 as (bd' & s5' & E5 & E5'). apply ret_inv in E5' as (-> & ->). apply new_body_inv in E5 as (-> & S5).
  apply bind_ret_inv in E as (sc & s6 & E6 & E). injection E6 as <- S6. apply bind_ret_inv in E as (u7 & s7 & E7 & E). apply modify_inv in E7.
  apply bind_ret_inv in E as (u8 & s8 & E8 & E). apply modify_inv in E8.
  apply bind_ret_inv in E as (u9 & s9 & E9 & E). apply attach_inv in E9 as (l9 & L9 & S9). apply bind_ret_inv in E as ([] & s10 & E10 & E).
  apply bind_ret_inv in E as (r & s11 & E11 & E). apply detach_inv in E11 as (l11 & _ & S11). apply (decl_fr cf T) in E.
  assert (Sc1 : scopes s2 = upd i (Scope (sc_vars c ++ [Var x b None]) (sc_owner c) (sc_class c) true) (scopes s)) by (now rewrite S2, S1).
  rewrite Sc1, upd_same in C3 by (eapply nth_lt; exact C). injection C3 as <-. cbn [sc_vars sc_owner sc_class] in *. rewrite nth_app_new in V3. injection V3 as <-. cbn [v_key v_static] in S3.
  rewrite Sc1, upd_upd, upd_end in S3. set (a := length (cells s1)) in *. set (cx := Scope (sc_vars c ++ [Var x b (Some a)]) (sc_owner c) (sc_class c) true) in S3.
  assert (Sc3 : scopes s5' = upd i cx (scopes s)) by (now rewrite S5, <- S4, S3).
  assert (Sc6 : scopes s7 = upd i cx (scopes s) ++ [Scope [] (Some a) false true]) by (rewrite E7, <- S6; cbn [scopes set_scopes]; rewrite upd_end; now rewrite Sc3).
  assert (Ls : length (scopes s5') = length (scopes s)) by (rewrite Sc3; apply upd_length).
  assert (Sc8 : scopes s8 = upd i cx (scopes s) ++ [Scope [] (Some a) false true]) by (now rewrite E8).
  assert (Tp9 : top s9 = Some (length (scopes s5'))) by (unfold top; rewrite S9; cbn; rewrite upd_same by (eapply nth_lt; exact L9); reflexivity).
  assert (C9 : nth_error (scopes s9) (length (scopes s5')) = Some (Scope [] (Some a) false true)) by (rewrite S9; cbn [scopes set_envs]; rewrite Sc8, Sc3; apply nth_app_new).
  destruct (static_names n ss s9 s10 _ _ Tp9 C9 E10) as (xs & c' & St & C' & K).
  assert (C11 : nth_error (scopes s11) (length (scopes s5')) = Some c') by (now rewrite S11).
  destruct (fr_keys _ _ _ _ _ E C11) as (c'' & C'' & K'').
  exists s8, a. eexists. exists (length (bodies s4)), (length (scopes s5')), (length (sc_vars c)), xs.
  split. { exists (sc_vars c), []. split; [exists cx; rewrite Sc8; split; [rewrite nth_error_app1 by (rewrite upd_length; eapply nth_lt; exact C); apply upd_same; eapply nth_lt; exact C|split; reflexivity]|].
    split; [reflexivity|]. split; [reflexivity|]. destruct Nx as (vs & (c0 & C0 & _ & <-) & F). rewrite C in C0. injection C0 as <-. exact F. }
  split. { eexists. split; [rewrite E8; cbn [cells set_cells]; apply upd_same|reflexivity]. rewrite E7, <- S6, S5, <- S4, S3. cbn. rewrite upd_length, S2. cbn. rewrite app_length. cbn. unfold a. lia. }
  split; [reflexivity|]. split; [reflexivity|]. split; [reflexivity|].
  split. { rewrite E8, E7, <- S6, S5. cbn. apply nth_app_new. }
  split; [reflexivity|]. split; [lia|]. split. { exists (Scope [] (Some a) false true). rewrite Sc8, Sc3. split; [apply nth_app_new|split; reflexivity]. }
  split; [now rewrite E8, E7, <- S6, S5, <- S4, S3, S2, S1|]. split; [now rewrite E8, E7, <- S6, S5, <- S4, S3, S2, S1|].
  split; [exact St|]. exists c''. split; [exact C''|]. change (map v_key (sc_vars c'')) with (keys c''). now rewrite K'', K.
Qed.
End New.
End Instance.
