(** * Calls. *)

From Coq Require Import ZArith Arith Ascii String Lia Bool List.
From Verif Require Import Base FlAst FlState FlInterp FlMonad SpecFlamingo FlEqProofs SpecScript SpecFrame SpecScope SpecImport FlOpProofs FlExprProofs FlFrame FlBalance FlMemberProofs FlHigherProofs FlSeqProofs FlScopeProofs FlAssignProofs FlReturnProofs FlExternProofs FlScopeClaims SpecCall.
Import ListNotations.
Local Open Scope nat_scope.

Section Call.
Context {H : Type}.
Variable cf : conf H.
Implicit Types s t : st H.

Lemma around_over s l acc l' : around s l acc l' -> exists_acc s acc /\ over (on_scope s acc) l = l'.
Proof.
  destruct 1 as [|x k i d (c & E & V)|x p (c & E & V) N]; cbn; [auto| |]; rewrite E, V; (split; [eapply nth_lt; exact E|]); [reflexivity|].
  destruct p; try reflexivity. exfalso. eapply N. reflexivity.
Qed.

Lemma inside_enters f e l on args cs s : renamed_to (length (scopes s)) args (cells s) cs -> enters f e (over on l) args s (inside f e l on args cs s).
Proof. intros ((V & C & _) & _). unfold enters, inside, params_scope. cbn. repeat split; assumption. Qed.

Lemma mapM_each n es : forall s l s', evals_each cf n es s l s' -> mapM (value (interp cf n)) es s = Ret l s'.
Proof.
  induction es as [|e es IH]; intros s l s' E; inversion E; subst; [reflexivity|]. cbn [mapM]. erewrite bind_step by (apply FlExprProofs.value_evals; eassumption).
  erewrite bind_step by (apply IH; eassumption). reflexivity.
Qed.

Lemma bind_alike {A B} (m m' : M H A) (k : A -> M H B) s s' : m s = m' s' -> mbind m k s = mbind m' k s'.
Proof. unfold mbind. now intros ->. Qed.
Lemma bind_other {A B} (m : M H A) (k : A -> M H B) s (o : out H A) (o' : out H B) : m s = o ->
  match o with Ret _ _ => False | Fail t => o' = Fail t | Died => o' = Died | Undef u => o' = Undef u | NoFuel => o' = NoFuel end -> mbind m k s = o'.
Proof. unfold mbind. intros ->. now destruct o. Qed.
Lemma both_outcome n g s fa acc s1 : outcome cf n g s = Ret (Some fa, acc) s1 -> both (interp cf n) g s = Ret (fa, acc) s1.
Proof. intro E. unfold both. rewrite (bind_step _ _ _ _ _ E). reflexivity. Qed.

(** To the call itself. *)
Lemma call_of n g args s fa acc s1 f1 as_ s2 : outcome cf n g s = Ret (Some fa, acc) s1 -> payload_at s1 fa (PFn f1) -> evals_each cf n args s1 as_ s2 ->
  outcome cf (S n) (ECall g args) s = plain (r_call (interp cf n) fa acc Slot as_) s2.
Proof.
  intros E (c & Ec & Ev) Ea. unfold outcome. rewrite eval_S. cbn [eval_]. unfold plain. apply bind_alike. unfold do_call. rewrite (bind_step _ _ _ _ _ (both_outcome _ _ _ _ _ _ E)).
  cbn [fst snd]. rewrite (bind_step _ _ _ _ _ (get_cell_ok _ _ _ Ec)), Ev. rewrite (bind_step _ _ _ _ _ (mapM_each _ _ _ _ _ Ea)). reflexivity.
Qed.
Lemma call_not n g args s a acc s1 p : outcome cf n g s = Ret (Some a, acc) s1 -> payload_at s1 a p -> (forall f, p <> PFn f) ->
  outcome cf (S n) (ECall g args) s = reports cf (lit "callable expression is of type " ++ type_str p ++ lit ", which is not callable") s1.
Proof.
  intros E (c & Ec & Ev) N. unfold outcome. rewrite eval_S. cbn [eval_]. unfold plain.
  assert (Q : do_call cf (interp cf n) Slot g args s = reports cf (lit "callable expression is of type " ++ type_str p ++ lit ", which is not callable") s1).
  { unfold do_call. rewrite (bind_step _ _ _ _ _ (both_outcome _ _ _ _ _ _ E)). cbn [fst snd]. rewrite (bind_step _ _ _ _ _ (get_cell_ok _ _ _ Ec)), Ev.
    destruct p; try reflexivity. exfalso. eapply N. reflexivity. }
  eapply bind_other; [exact Q|]. unfold reports, raise. destruct (Nat.leb _ _); [reflexivity|]. destruct (err s1); destruct (Nat.leb _ _); reflexivity.
Qed.

(** An argument that can't be evaluated. *)
Lemma call_argument n g before x after s fa acc s1 f1 as_ s2 o : outcome cf n g s = Ret (Some fa, acc) s1 -> payload_at s1 fa (PFn f1) -> evals_each cf n before s1 as_ s2 ->
  outcome cf n x s2 = o -> (forall r t, o <> Ret r t) -> outcome cf (S n) (ECall g (before ++ x :: after)) s = o.
Proof.
  intros E (c & Ec & Ev) Ea Eo N. unfold outcome. rewrite eval_S. cbn [eval_]. unfold plain.
  assert (Q : forall es t as_, evals_each cf n es t as_ s2 -> mapM (value (interp cf n)) (es ++ x :: after) t = match o with Ret _ _ => Died | Fail t => Fail t | Died => Died | Undef u => Undef u | NoFuel => NoFuel end).
  { assert (Eo2 := conj Eo Logic.I). clear Eo. induction es as [|e es IH]; intros t l El; inversion El; subst; destruct Eo2 as (Eo, _).
    - cbn [app mapM]. eapply bind_other; [unfold value; eapply bind_other; [unfold both; eapply bind_other; [exact Eo|]|]|].
      1: instantiate (1 := match o with Ret _ _ => Died | Fail t => Fail t | Died => Died | Undef u => Undef u | NoFuel => NoFuel end).
      2: instantiate (1 := match o with Ret _ _ => Died | Fail t => Fail t | Died => Died | Undef u => Undef u | NoFuel => NoFuel end).
      all: destruct o; try reflexivity. now destruct (N a s0).
    - cbn [app mapM]. erewrite bind_step by (apply FlExprProofs.value_evals; eassumption). erewrite bind_other; [reflexivity|eapply IH; eassumption|]. now destruct o. }
  specialize (Q _ _ _ Ea).
  assert (Q2 : do_call cf (interp cf n) Slot g (before ++ x :: after) s = match o with Ret _ _ => Died | Fail t => Fail t | Died => Died | Undef u => Undef u | NoFuel => NoFuel end).
  { unfold do_call. rewrite (bind_step _ _ _ _ _ (both_outcome _ _ _ _ _ _ E)). cbn [fst snd]. rewrite (bind_step _ _ _ _ _ (get_cell_ok _ _ _ Ec)), Ev.
    eapply bind_other; [exact Q|]. destruct o; reflexivity. }
  eapply bind_other; [exact Q2|]. destruct o; try reflexivity. now destruct (N a s0).
Qed.

(** The wrong number of arguments. *)
Lemma call_miscounted n g args s fa acc s1 f1 as_ s2 f e l l' : outcome cf (S n) g s = Ret (Some fa, acc) s1 -> payload_at s1 fa (PFn f1) -> evals_each cf (S n) args s1 as_ s2 ->
  callable s2 fa f e l -> around s2 l acc l' -> usable_in s2 l' -> length args <> length (f_params f) ->
  exists t, cells t = cells s2 /\ bufs t = bufs s2 /\ bodies t = bodies s2 /\ prints t = prints s2 /\ host t = host s2 /\ err t = err s2 /\
  outcome cf (S (S n)) (ECall g args) s = reports cf (lit "callable expected " ++ dec_n (length (f_params f)) ++ lit " arguments, got " ++ dec_n (length args) ++ lit " instead") t.
Proof.
  intros E P Ea ((c & Ec & Ev) & Kf & Ef & Ee) Ar (p & q & vs & -> & (cp & Ep & Ap & _)) N. apply around_over in Ar as (Xa & Ov). set (on := on_scope s2 acc) in *.
  assert (La : length as_ = length args). { clear - Ea. induction Ea; cbn; congruence. }
  set (k := length (scopes s2)). set (sA := set_env e (set_body (f_body f) s2)). set (sA' := set_envs (upd e (p :: q) (envs s2)) sA).
  assert (OA : open sA' (p :: q)) by (unfold open, sA'; cbn; apply upd_same; eapply nth_lt; exact Ee).
  pose proof (push_ok sA' p q cp OA Ep Ap) as PushA. change (length (scopes sA')) with k in PushA. set (sB := set_scopes _ _) in PushA.
  assert (EB : nth_error (scopes sB) k = Some (Scope [] None (sc_class cp) true)) by (unfold sB, k; cbn; apply nth_app_new).
  set (sc0 := Scope [] None (match f_kind f with KClass => true | _ => false end) true).
  set (sC := set_scopes (upd k sc0 (scopes sB)) sB).
  assert (OC : open sC (k :: p :: q)) by (unfold open, sC, sB; cbn; rewrite upd_upd; apply upd_same; eapply nth_lt; exact Ee).
  exists sC. do 6 (split; [reflexivity|]). rewrite (call_of (S n) g args s fa acc s1 f1 as_ s2 E P Ea), call_S.
  assert (Q : call_ cf (interp cf n) fa acc Slot as_ s2 = reports cf (lit "callable expected " ++ dec_n (length (f_params f)) ++ lit " arguments, got " ++ dec_n (length args) ++ lit " instead") sC).
  { unfold call_. rewrite (bind_step _ _ _ _ _ (get_cell_ok _ _ _ Ec)), Ev.
    rewrite (bind_step _ _ s2 on s2).
    2: { unfold on, on_scope, exists_acc in *. destruct acc as [x|]; [|reflexivity]. destruct (nth_error (cells s2) x) as [cx|] eqn:Ex; [|apply nth_error_None in Ex; lia].
         rewrite (bind_step _ _ _ _ _ (get_cell_ok _ _ _ Ex)). reflexivity. }
    rewrite (bind_step _ _ s2 (cur_body s2) s2) by reflexivity. rewrite (bind_step _ _ s2 (cur_env s2) s2) by reflexivity.
    rewrite (bind_step _ _ s2 tt (set_body (f_body f) s2)) by reflexivity. rewrite Ef. rewrite (bind_step _ _ (set_body (f_body f) s2) tt sA) by reflexivity.
    rewrite (bind_step _ _ sA tt sA').
    2: { destruct on as [i|]; cbn [over] in Ov.
         - injection Ov as <- <-. cbn [unless]. unfold attach. rewrite (bind_step _ _ sA l sA) by (apply cur_stack_ok; exact Ee). reflexivity.
         - cbn [unless]. unfold ret. f_equal. unfold sA'. subst l. rewrite (upd_id (p :: q)) by exact Ee. unfold sA. destruct s2; reflexivity. }
    rewrite (bind_step _ _ _ _ _ PushA).
    rewrite (bind_step _ _ _ _ _ (get_scope_ok _ _ _ EB eq_refl)). cbn [sc_vars sc_owner]. rewrite (bind_step _ _ sB tt sC) by reflexivity.
    eapply bind_other.
    - unfold setup_args. rewrite (bind_step _ _ _ _ _ (cur_scope_ok _ _ _ OC)). rewrite La. assert (Ne : Nat.eqb (length args) (length (f_params f)) = false) by (now apply Nat.eqb_neq).
      destruct (f_kind f) as [| | |m] eqn:Kd; try (now destruct (Kf m)); rewrite Ne; reflexivity.
    - unfold error, reports, raise. destruct (Nat.leb _ _); [reflexivity|]. destruct (err sC); destruct (Nat.leb _ _); reflexivity. }
  unfold plain. eapply bind_other; [exact Q|]. unfold reports, raise. destruct (Nat.leb _ _); [reflexivity|]. destruct (err sC); destruct (Nat.leb _ _); reflexivity.
Qed.

(** ** Running the body *)
Variable T : tame cf.

Lemma enters_open f e l (args : list addr) s t : nth_error (envs s) e <> None -> enters f e l args s t -> open t (length (scopes s) :: l).
Proof. intros N (C & E & _). unfold open. rewrite C, E. apply upd_same. now apply nth_error_Some. Qed.
Lemma enters_scope f e l (args : list addr) s t : enters f e l args s t -> nth_error (scopes t) (length (scopes s)) =
  Some (Scope (map (fun pa => Var (fst pa) false (Some (snd pa))) (combine (f_params f) args)) None (match f_kind f with KClass => true | _ => false end) true).
Proof. intros (_ & _ & Q & _). rewrite Q. apply nth_app_new. Qed.

Lemma over_nil_on s acc l l' : over (on_scope s acc) l = l' -> over (on_scope s acc) l = l'. Proof. auto. Qed.

Lemma call_expression n g args s fa acc s1 f1 as_ s2 f e l l' b x : outcome cf (S n) g s = Ret (Some fa, acc) s1 -> payload_at s1 fa (PFn f1) -> evals_each cf (S n) args s1 as_ s2 ->
  callable s2 fa f e l -> f_kind f = KFun -> f_body f = Some b -> nth_error (bodies s2) b = Some (Some (BExpr x)) ->
  around s2 l acc l' -> usable_in s2 l' -> length args = length (f_params f) -> Forall (fun a => a < length (cells s2)) as_ ->
  exists t, enters f e l' as_ s2 t /\ outcome cf (S (S n)) (ECall g args) s = expression_ends (comes_back e l s2) (outcome cf n x t).
Proof.
  intros E P Ea (Pf & Kf & Ef & Ee) Kd Bf Bd Ar (p & q & vs & -> & (cp & Ep & Ap & _)) L Fa. apply around_over in Ar as (Xa & Ov).
  assert (La : length as_ = length args) by (clear - Ea; induction Ea; cbn; congruence).
  destruct (call_enter_to cf fa f e l acc as_ s2 p q cp Pf Kf Ef Ee Xa Ov Ep Ap (eq_trans La L) Fa) as (cs & Rn & Q).
  set (t := inside f e l (on_scope s2 acc) as_ cs s2) in *. exists t. assert (En : enters f e (p :: q) as_ s2 t) by (rewrite <- Ov; apply inside_enters; exact Rn). split; [exact En|].
  rewrite (call_of (S n) g args s fa acc s1 f1 as_ s2 E P Ea), call_S. unfold plain.
  assert (Rb : run_body cf (interp cf n) fa f acc Slot t = (r <- r_eval (interp cf n) Slot x ;; ret (BExprVal (fst r)))%fl t).
  { unfold run_body. rewrite Kd, Bf. rewrite (bind_step _ _ t (BExpr x) t) by (unfold read_body; change (bodies t) with (bodies s2); now rewrite Bd). reflexivity. }
  unfold outcome. destruct (r_eval (interp cf n) Slot x t) as [(a, acc') t2|t2| |u|] eqn:R.
  2-5: cbn [expression_ends]; (eapply bind_other; [rewrite Q; eapply bind_other; [rewrite Rb; eapply bind_other; [exact R|reflexivity]|reflexivity]|reflexivity]).
  cbn [expression_ends]. pose proof (eval_balanced cf T n Slot x t _ t2 R) as (Ce & Es & _).
  assert (O2 : nth_error (envs t2) e = Some (length (scopes s2) :: over (on_scope s2 acc) l)).
  { apply Es. rewrite Ov. pose proof (enters_open f e (p :: q) as_ s2 t ltac:(congruence) En) as O. unfold open in O. exact O. }
  assert (C2 : cur_env t2 = e) by (rewrite Ce; reflexivity).
  rewrite (bind_step _ _ s2 a (comes_back e l s2 t2)); [reflexivity|]. rewrite Q. rewrite (bind_step _ _ t (BExprVal a) t2).
  2: { rewrite Rb. rewrite (bind_step _ _ _ _ _ R). reflexivity. }
  rewrite (leave_ok cf (interp cf n) fa e l (on_scope s2 acc) Slot as_ s2 t2 (BExprVal a) _ C2 O2). reflexivity.
Qed.

Lemma call_block n g args s fa acc s1 f1 as_ s2 f e l l' b ss : outcome cf (S (S n)) g s = Ret (Some fa, acc) s1 -> payload_at s1 fa (PFn f1) -> evals_each cf (S (S n)) args s1 as_ s2 ->
  callable s2 fa f e l -> f_kind f = KFun -> f_body f = Some b -> nth_error (bodies s2) b = Some (Some (BBlock ss)) ->
  around s2 l acc l' -> usable_in s2 l' -> length args = length (f_params f) -> Forall (fun a => a < length (cells s2)) as_ ->
  exists t u, enters f e l' as_ s2 t /\ opened t u /\
  ((forall u2, exec cf n ss u = Ret tt u2 -> exists g, payload_at u2 fa (PFn g) /\ f_kind g = KFun) ->
   outcome cf (S (S (S n))) (ECall g args) s = block_ends (comes_back e l s2) (exec cf n ss u)).
Proof.
  intros E P Ea (Pf & Kf & Ef & Ee) Kd Bf Bd Ar (p & q & vs & -> & (cp & Ep & Ap & _)) L Fa. apply around_over in Ar as (Xa & Ov).
  assert (La : length as_ = length args) by (clear - Ea; induction Ea; cbn; congruence).
  destruct (call_enter_to cf fa f e l acc as_ s2 p q cp Pf Kf Ef Ee Xa Ov Ep Ap (eq_trans La L) Fa) as (cs & Rn & Q).
  set (t := inside f e l (on_scope s2 acc) as_ cs s2) in *. set (k := length (scopes s2)).
  assert (En : enters f e (p :: q) as_ s2 t) by (rewrite <- Ov; apply inside_enters; exact Rn).
  pose proof (enters_open f e (p :: q) as_ s2 t ltac:(congruence) En) as Ot. fold k in Ot. pose proof (enters_scope f e (p :: q) as_ s2 t En) as Et. fold k in Et.
  pose proof (push_ok t k (p :: q) _ Ot Et eq_refl) as Push. set (u := set_scopes _ _) in Push.
  assert (Op : opened t u) by (exists k, (p :: q); eexists; split; [exact Ot|]; split; [exact Et|]; split; reflexivity).
  exists t, u. split; [exact En|]. split; [exact Op|]. intro Still.
  rewrite (call_of (S (S n)) g args s fa acc s1 f1 as_ s2 E P Ea), call_S. unfold plain. unfold exec in *.
  assert (Rb : run_body cf (interp cf (S n)) fa f acc Slot t = (i <- (iterM (r_stmt (interp cf n)) ss ;; detach) ;; ret BDone)%fl u).
  { unfold run_body. rewrite Kd, Bf. rewrite (bind_step _ _ t (BBlock ss) t) by (unfold read_body; change (bodies t) with (bodies s2); now rewrite Bd).
    change (r_block (interp cf (S n))) with (block_ (interp cf n)). apply bind_alike. unfold block_. rewrite (bind_step _ _ _ _ _ Push). reflexivity. }
  destruct (iterM (r_stmt (interp cf n)) ss u) as [[] u2|t2| |w|] eqn:R.
  2-5: cbn [block_ends]; (eapply bind_other; [rewrite Q; eapply bind_other; [rewrite Rb; eapply bind_other; [eapply bind_other; [exact R|reflexivity]|reflexivity]|reflexivity]|reflexivity]).
  cbn [block_ends]. assert (Ex : executes_each cf n ss u u2) by (apply each_iter; exact R).
  assert (Tp : top u = Some (length (scopes t))). { unfold top, u. cbn. rewrite upd_same by (eapply nth_lt; exact Ot). reflexivity. }
  pose proof (each_fr cf T _ _ _ _ _ Tp Ex) as F.
  assert (Ce : cur_env u2 = e) by (rewrite (fr_env _ _ _ _ F); reflexivity).
  assert (O2 : nth_error (envs u2) e = Some (length (scopes t) :: k :: p :: q)). { apply (fr_envs _ _ _ _ F). unfold u. cbn [envs set_scopes set_envs]. apply upd_same. eapply nth_lt; exact Ot. }
  set (v := set_envs (upd e (k :: p :: q) (envs u2)) u2).
  assert (Rb2 : run_body cf (interp cf (S n)) fa f acc Slot t = Ret BDone v).
  { rewrite Rb. rewrite (bind_step _ _ u (length (scopes t)) v); [reflexivity|]. rewrite (bind_step _ _ _ _ _ R). rewrite (detach_ok u2 (length (scopes t)) (k :: p :: q)); [|unfold open; now rewrite Ce]. unfold v. now rewrite Ce. }
  assert (Ov2 : nth_error (envs v) e = Some (k :: over (on_scope s2 acc) l)) by (rewrite Ov; unfold v; cbn; apply upd_same; eapply nth_lt; exact O2).
  assert (Lv : leave cf (interp cf (S n)) fa (on_scope s2 acc) Slot as_ s2 BDone v =
    (o <- finish cf (interp cf (S n)) fa BDone Slot as_ ;; modify (set_rv None) ;; ret o)%fl (set_env (cur_env s2) (set_body (cur_body s2) (set_envs (upd e l (envs u2)) u2)))).
  { rewrite (leave_ok cf (interp cf (S n)) fa e l (on_scope s2 acc) Slot as_ s2 v BDone k Ce Ov2). f_equal. unfold v. cbn. now rewrite upd_upd. }
  set (w := set_env _ _) in Lv. destruct (Still u2 eq_refl) as (g2 & (c2 & Ec2 & Ev2) & Kg).
  assert (Fi : finish cf (interp cf (S n)) fa BDone Slot as_ w = match cur_rv u2 with None => Ret (Some (length (cells u2))) (set_cells (cells u2 ++ [Cell NNone 1 None PNone]) w) | Some (RVal a) => Ret (Some a) w | Some RMark => Undef UMark end).
  { unfold finish. rewrite (bind_step _ _ w c2 w) by (apply get_cell_ok; exact Ec2). rewrite Ev2, Kg. rewrite (bind_step _ _ w (cur_rv u2) w) by reflexivity.
    destruct (cur_rv u2) as [[a|]|]; reflexivity. }
  destruct (cur_rv u2) as [[a|]|].
  - rewrite (bind_step _ _ s2 (Some a) (comes_back e l s2 u2)); [reflexivity|]. rewrite Q. rewrite (bind_step _ _ _ _ _ Rb2), Lv. rewrite (bind_step _ _ _ _ _ Fi). reflexivity.
  - eapply bind_other; [rewrite Q; rewrite (bind_step _ _ _ _ _ Rb2), Lv; eapply bind_other; [exact Fi|reflexivity]|reflexivity].
  - erewrite bind_step; [|rewrite Q; rewrite (bind_step _ _ _ _ _ Rb2), Lv; rewrite (bind_step _ _ _ _ _ Fi); reflexivity]. reflexivity.
Qed.

(** ** What names denote in a body *)
Lemma enters_names f e l (args : list addr) s t x i j v : nth_error (envs s) e <> None -> enters f e l args s t -> Forall (fun k => k < length (scopes s)) l -> ~ In x (f_params f) ->
  (names t x i j v <-> names_in s l x i j v).
Proof.
  intros N En Fl Nx. pose proof (enters_open f e l args s t N En) as O. pose proof (enters_scope f e l args s t En) as Sc.
  assert (Old : forall k vs, k < length (scopes s) -> (vars t k vs <-> vars s k vs)).
  { intros k vs Lk. unfold vars. destruct En as (_ & _ & Q & _). rewrite Q, nth_error_app1 by exact Lk. reflexivity. }
  assert (Lp : lacks t x (length (scopes s))).
  { eexists. split; [eexists; split; [exact Sc|split; reflexivity]|]. apply Forall_forall. intros w J. apply in_map_iff in J as ((y, a) & <- & J). cbn. intros ->. apply Nx. eapply in_combine_l; exact J. }
  assert (Lo : forall k, k < length (scopes s) -> (lacks t x k <-> lacks s x k)) by (intros k Lk; unfold lacks; split; intros (vs & V & F); exists vs; (split; [now apply (Old k vs Lk)|exact F])).
  assert (Do : forall k, k < length (scopes s) -> (declares t x k j v <-> declares s x k j v)) by (intros k Lk; unfold declares; split; intros (b & a & V & F); exists b, a; (split; [now apply (Old k _ Lk)|exact F])).
  assert (Lall : forall inner, Forall (fun k => k < length (scopes s)) inner -> (Forall (lacks t x) inner <-> Forall (lacks s x) inner)).
  { intros inner Fi. rewrite !Forall_forall in *. split; intros F k J; apply Lo; auto. }
  split.
  - intros (inner & outer & O' & F & D). unfold open in O, O'. rewrite O' in O. injection O as O. destruct inner as [|k inner].
    + injection O as -> ->. exfalso. destruct D as (b & a & (c & Ec & _ & Vc) & _ & Kx & _). rewrite Sc in Ec. injection Ec as <-. cbn in Vc.
      assert (J : In v (b ++ v :: a)) by (apply in_or_app; right; now left). rewrite <- Vc in J. apply in_map_iff in J as ((y, a') & <- & J). cbn in Kx. subst y. apply Nx. eapply in_combine_l; exact J.
    + injection O as -> O. subst l. exists inner, outer. split; [reflexivity|]. apply Forall_app in Fl as (Fi & Fo). inversion F; subst. inversion Fo; subst. split; [now apply Lall|now apply Do].
  - intros (inner & outer & -> & F & D). apply Forall_app in Fl as (Fi & Fo). inversion Fo; subst. exists (length (scopes s) :: inner), outer. split; [exact O|]. split; [constructor; [exact Lp|now apply Lall]|now apply Do].
Qed.
Lemma enters_parameter f e l (args : list addr) s t j x a : nth_error (envs s) e <> None -> enters f e l args s t -> nth_error (f_params f) j = Some x -> (forall i, i < j -> nth_error (f_params f) i <> Some x) ->
  nth_error args j = Some a -> names t x (length (scopes s)) j (Var x false (Some a)).
Proof.
  intros N En Ex Fx Ea. exists [], l. split; [exact (enters_open f e l args s t N En)|]. split; [constructor|]. pose proof (enters_scope f e l args s t En) as Sc.
  set (mk := fun pa : bytes * addr => Var (fst pa) false (Some (snd pa))) in *.
  assert (Q : forall ps as_ j, nth_error ps j = Some x -> nth_error as_ j = Some a -> (forall i, i < j -> nth_error ps i <> Some x) ->
    exists b r, map mk (combine ps as_) = b ++ Var x false (Some a) :: r /\ length b = j /\ Forall (fun w => v_key w <> x) b).
  { clear. induction ps as [|p ps IH]; intros [|a' as_] [|j] P A F; try discriminate; cbn in P, A.
    - injection P as ->. injection A as ->. exists [], (map mk (combine ps as_)). repeat split; constructor.
    - destruct (IH as_ j P A) as (b & r & Q & L & Fb). { intros i Li. specialize (F (S i) ltac:(lia)). exact F. }
      exists (mk (p, a') :: b), r. split; [cbn; now rewrite Q|]. split; [cbn; congruence|]. constructor; [|exact Fb]. cbn. intros ->. now apply (F 0 ltac:(lia)). }
  destruct (Q _ _ _ Ex Ea Fx) as (b & r & Qm & Lb & Fb). exists b, r. split; [eexists; split; [exact Sc|split; [reflexivity|exact Qm]]|]. auto.
Qed.

(** ** Functions see what is declared where they are *)
Lemma lambda_declares n ps b s a s' : evals cf (S n) (ELambda ps b) s a s' -> exists l, open s l /\ a = length (cells s) /\
  payload_at s' a (PFn (Fn KFun ps (Some (length (bodies s))) (Some (length (envs s))) None)) /\
  bodies s' = bodies s ++ [Some b] /\ envs s' = envs s ++ [l] /\ cur_env s' = cur_env s /\ scopes s' = scopes s /\
  (forall d, d < a -> nth_error (cells s') d = nth_error (cells s) d) /\ bufs s' = bufs s /\ prints s' = prints s /\ host s' = host s.
Proof.
  intros (x & E). rewrite eval_S in E. cbn [eval_] in E. unfold plain in E. apply bind_ret_inv in E as (o & s1 & E & E2). apply ret_inv in E2 as (Q & ->). injection Q as Q1 Q2. subst.
  unfold do_lambda in E. apply bind_ret_inv in E as (env & s2 & E1 & E). unfold close_over in E1. apply bind_ret_inv in E1 as (l & s3 & E0 & E1).
  unfold cur_stack in E0. destruct (nth_error (envs s) (cur_env s)) as [l0|] eqn:O; [|discriminate]. injection E0 as -> ->. 
  injection E1 as <- <-. unfold new_body, alloc in E. unfold mbind in E. cbn in E. injection E as <- <-. exists l. split; [exact O|]. split; [reflexivity|].
  split; [eexists; split; [cbn; apply nth_app_new|reflexivity]|]. cbn. repeat (split; [reflexivity|]). split; [intros d L; now rewrite nth_error_app1|]. repeat split.
Qed.
Lemma later_envs e s t l : later cf e s t -> nth_error (envs s) e = Some l -> nth_error (envs t) e = Some l.
Proof.
  intros La E. induction La as [|n x t a u _ IH Ev|n x t u i l' _ IH O Ex|i v t _ IH|t u _ IH N (i & l' & c & O & Ec & A & ->)|f e' l' args t u _ IH N (C & Q & _)|args t u _ IH N (l' & c & O & Q & _)|t u _ IH En]; [exact E| | | | | | |].
  - destruct Ev as (y & Ev). destruct (eval_balanced cf T n Slot x t _ u Ev) as (_ & Es & _). auto.
  - assert (Tp : top t = Some i) by (unfold top; unfold open in O; now rewrite O). pose proof (g_stmt _ (interp_good cf T n) _ _ _ _ _ Tp Ex) as F. exact (fr_envs _ _ _ _ F _ _ IH).
  - unfold with_var. destruct (nth_error (scopes t) i); exact IH.
  - cbn. rewrite upd_other by exact N. exact IH.
  - rewrite Q, upd_other by exact N. exact IH.
  - rewrite Q. cbn. rewrite upd_other by exact N. exact IH.
  - destruct En as (_ & _ & _ & _ & Q & _). now rewrite Q.
Qed.
Lemma fr_scopes_length top q s t : fr top q s t -> length (scopes s) <= length (scopes t).
Proof.
  intro F. destruct (length (scopes s)) as [|k] eqn:L; [lia|]. destruct (nth_error (scopes s) k) as [c|] eqn:Ec; [|apply nth_error_None in Ec; lia].
  destruct (fr_scopes _ _ _ _ F _ _ Ec) as (c' & Ec' & _). apply nth_lt in Ec'. lia.
Qed.
Lemma later_scopes e s t : later cf e s t -> length (scopes s) <= length (scopes t).
Proof.
  intro La. induction La as [|n x t a u _ IH Ev|n x t u i l' _ IH O Ex|i v t _ IH|t u _ IH N (i & l' & c & O & Ec & A & ->)|f e' l' args t u _ IH N (C & _ & Q & _)|args t u _ IH N (l' & c & O & Q & _)|t u _ IH En]; [lia| | | | | | |].
  - destruct Ev as (y & Ev). pose proof (fr_scopes_length _ _ _ _ (g_eval _ (interp_good cf T n) _ _ _ _ _ Ev)). lia.
  - assert (Tp : top t = Some i) by (unfold top; unfold open in O; now rewrite O). pose proof (fr_scopes_length _ _ _ _ (g_stmt _ (interp_good cf T n) _ _ _ _ _ Tp Ex)). lia.
  - unfold with_var. destruct (nth_error (scopes t) i); cbn; rewrite ?upd_length; exact IH.
  - cbn. rewrite app_length. lia.
  - rewrite Q, app_length. lia.
  - rewrite Q. cbn. rewrite app_length. lia.
  - destruct En as (_ & _ & _ & Q & _). now rewrite Q.
Qed.

Lemma new_env_sees s0 s1 l : well_scoped s0 -> open s0 l -> envs s1 = envs s0 ++ [l] -> length (scopes s0) <= length (scopes s1) -> sees cf s0 s1.
Proof.
  intros (l0 & O0 & W) O E Ls s La. unfold open in O0, O. rewrite O in O0. injection O0 as <-. exists l. split; [exact O|].
  intros fa f l' args t y i j v (_ & _ & _ & Ee) En Ny.
  assert (E1 : nth_error (envs s1) (length (envs s0)) = Some l) by (rewrite E; apply nth_app_new).
  pose proof (later_envs _ _ _ _ La E1) as E2. rewrite Ee in E2. injection E2 as ->. pose proof (later_scopes _ _ _ La) as Lt.
  apply (enters_names f (length (envs s0)) l args s t y i j v); [rewrite Ee; discriminate|exact En| |exact Ny]. apply Forall_forall. intros k J. rewrite Forall_forall in W. specialize (W k J). lia.
Qed.
Lemma function_sees n b x ps ss s0 s1 : well_scoped s0 -> executes cf (S (S n)) (SFun b x ps ss) s0 s1 -> sees cf s0 s1.
Proof.
  intros W E. destruct (fun_declares cf n b x ps ss s0 s1 E) as (i & l & vs & O & _ & _ & _ & _ & _ & _ & Q & _).
  eapply new_env_sees; [exact W|exact O|exact Q|]. assert (Tp : top s0 = Some i) by (unfold top; unfold open in O; now rewrite O).
  exact (fr_scopes_length _ _ _ _ (g_stmt _ (interp_good cf T _) _ _ _ _ _ Tp E)).
Qed.
Lemma lambda_sees n ps b s0 a s1 : well_scoped s0 -> evals cf (S n) (ELambda ps b) s0 a s1 -> sees cf s0 s1.
Proof.
  intros W E. destruct (lambda_declares n ps b s0 a s1 E) as (l & O & _ & _ & _ & Q & _ & Qs & _). eapply new_env_sees; [exact W|exact O|exact Q|]. now rewrite Qs.
Qed.
End Call.
