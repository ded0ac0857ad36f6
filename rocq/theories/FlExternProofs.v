(** * Calls of functions that are only declared, and of classes. *)

From Coq Require Import ZArith Arith Ascii String Lia Bool List.
From Verif Require Import Base FlAst FlState FlInterp FlMonad SpecFlamingo FlEqProofs SpecScript SpecFrame SpecScope FlOpProofs FlExprProofs FlFrame FlBalance FlMemberProofs FlHigherProofs FlSeqProofs FlScopeProofs FlAssignProofs FlReturnProofs.
Import ListNotations.
Local Open Scope nat_scope.

Section Extern.
Context {H : Type}.
Variable cf : conf H.
Implicit Types s t : st H.

(** Values other than [args] are left as they are, and those only get another name. *)
Definition renamed (args : list addr) (cs cs' : list cell) : Prop :=
  map c_val cs' = map c_val cs /\ map c_cnt cs' = map c_cnt cs /\ map c_owner cs' = map c_owner cs /\
  forall a, ~ In a args -> nth_error cs' a = nth_error cs a.

Lemma renamed_refl args cs : renamed args cs cs.
Proof. repeat split. Qed.
Lemma renamed_trans args cs cs1 cs2 : renamed args cs cs1 -> renamed args cs1 cs2 -> renamed args cs cs2.
Proof.
  intros (A & B & C & D) (A' & B' & C' & D'). split; [congruence|]. split; [congruence|]. split; [congruence|]. intros a N. now rewrite (D' a N), (D a N).
Qed.
Lemma renamed_more args args' cs cs' : (forall a, In a args -> In a args') -> renamed args cs cs' -> renamed args' cs cs'.
Proof. intros I (A & B & C & D). split; [auto|]. split; [auto|]. split; [auto|]. intros a N. apply D. auto. Qed.
Lemma renamed_length args cs cs' : renamed args cs cs' -> length cs' = length cs.
Proof. intros (A & _). apply (f_equal (@length _)) in A. now rewrite !map_length in A. Qed.
Lemma map_nth_some {A B} (f : A -> B) : forall l l' i x, map f l' = map f l -> nth_error l i = Some x -> exists y, nth_error l' i = Some y /\ f y = f x.
Proof.
  intros l l' i x E N. pose proof (map_nth_error f _ _ N) as M. rewrite <- E in M. destruct (nth_error l' i) as [y|] eqn:Y.
  - exists y. split; [reflexivity|]. apply (map_nth_error f) in Y. congruence.
  - apply nth_error_None in Y. pose proof (nth_lt _ _ _ N) as L. apply (f_equal (@length _)) in E. rewrite !map_length in E. lia.
Qed.
Lemma renamed_cell args cs cs' a c : renamed args cs cs' -> nth_error cs a = Some c ->
  exists c', nth_error cs' a = Some c' /\ c_val c' = c_val c /\ c_cnt c' = c_cnt c /\ c_owner c' = c_owner c.
Proof.
  intros (A & B & C & _) E. destruct (map_nth_some _ _ _ _ _ A E) as (y & Y & V). destruct (map_nth_some _ _ _ _ _ B E) as (y2 & Y2 & V2).
  destruct (map_nth_some _ _ _ _ _ C E) as (y3 & Y3 & V3). rewrite Y in Y2, Y3. injection Y2 as <-. injection Y3 as <-. eauto.
Qed.

(** Their name is now one of scope [i]. *)
Definition renamed_to (i : nat) (args : list addr) (cs cs' : list cell) : Prop :=
  renamed args cs cs' /\ forall a c, In a args -> nth_error cs' a = Some c -> exists x, c_name c = NKey i x.

Lemma add_arg_ok i x a s c : nth_error (scopes s) i = Some c -> sc_alive c = true -> a < length (cells s) ->
  exists cs, add_arg i x a s = Ret tt (set_cells cs (set_scopes (upd i (Scope (sc_vars c ++ [Var x false (Some a)]) (sc_owner c) (sc_class c) true) (scopes s)) s)) /\
  renamed_to i [a] (cells s) cs.
Proof.
  intros Ec A La. destruct (nth_error (cells s) a) as [ca|] eqn:Ea; [|apply nth_error_None in Ea; lia].
  set (c1 := Scope (sc_vars c ++ [Var x false None]) (sc_owner c) (sc_class c) true). set (s1 := set_scopes (upd i c1 (scopes s)) s).
  assert (E1 : nth_error (scopes s1) i = Some c1) by (cbn; apply upd_same; eapply nth_lt; eauto).
  assert (V1 : nth_error (sc_vars c1) (length (sc_vars c)) = Some (Var x false None)) by (cbn; apply nth_app_new).
  exists (upd a (Cell (NKey i x) (c_cnt ca) (c_owner ca) (c_val ca)) (cells s)). split.
  - unfold add_arg. rewrite (bind_step _ _ s (length (sc_vars c)) s1).
    2: { unfold add_var. rewrite (bind_step _ _ _ _ _ (get_scope_ok _ _ _ Ec A)). reflexivity. }
    unfold var_set_val. rewrite (bind_step _ _ _ _ _ (get_scope_ok _ _ _ E1 eq_refl)). rewrite V1.
    rewrite (bind_step _ _ s1 tt (set_scopes (upd i (Scope (sc_vars c ++ [Var x false (Some a)]) (sc_owner c) (sc_class c) true) (scopes s)) s)).
    2: { unfold write_var. rewrite (bind_step _ _ _ _ _ (get_scope_ok _ _ _ E1 eq_refl)). rewrite V1. unfold put_scope, modify, s1. cbn. rewrite upd_upd, upd_end. reflexivity. }
    match goal with |- mbind _ _ ?s2 = _ => rewrite (bind_step _ _ s2 ca s2) by (apply get_cell_ok; exact Ea) end. reflexivity.
  - split; [|intros b cb [<-|[]] Eb; rewrite upd_same in Eb by exact La; injection Eb as <-; eexists; reflexivity]. unfold renamed. rewrite !upd_map. cbn. split; [apply upd_id; now apply map_nth_error|]. split; [apply upd_id; now apply map_nth_error|]. split; [apply upd_id; now apply map_nth_error|].
    intros b N. apply upd_other. intro Q. apply N. now left.
Qed.

Lemma add_args_ok i : forall ps args s c, length args = length ps -> nth_error (scopes s) i = Some c -> sc_alive c = true -> Forall (fun a => a < length (cells s)) args ->
  exists cs, add_args i ps args s = Ret tt (set_cells cs (set_scopes (upd i (Scope (sc_vars c ++ map (fun pa => Var (fst pa) false (Some (snd pa))) (combine ps args)) (sc_owner c) (sc_class c) true) (scopes s)) s)) /\
  renamed_to i args (cells s) cs.
Proof.
  induction ps as [|p ps IH]; intros [|a args] s c L Ec A Fa; try discriminate.
  - exists (cells s). split; [|split; [apply renamed_refl|intros ? ? []]]. cbn. rewrite app_nil_r. unfold ret. f_equal.
    replace (upd i _ (scopes s)) with (scopes s); [now destruct s|]. symmetry. apply upd_id. rewrite Ec. destruct c; cbn in *; congruence.
  - inversion Fa as [|? ? La Fa']; subst. destruct (add_arg_ok i p a s c Ec A La) as (cs & E & V & Va). cbn [add_args]. rewrite (bind_step _ _ _ _ _ E). set (s1 := set_cells cs _).
    destruct (IH args s1 (Scope (sc_vars c ++ [Var p false (Some a)]) (sc_owner c) (sc_class c) true)) as (cs' & E' & V' & Va').
    { cbn in L. lia. } { unfold s1. cbn. apply upd_same. eapply nth_lt; eauto. } { reflexivity. }
    { unfold s1. cbn. rewrite (renamed_length _ _ _ V). exact Fa'. }
    exists cs'. split.
    + rewrite E'. unfold s1. cbn. rewrite upd_upd, <- app_assoc. reflexivity.
    + split; [eapply renamed_trans; [eapply renamed_more; [|exact V]|eapply renamed_more; [|exact V']]; cbn; intuition|].
      intros b cb Ib Eb. destruct (in_dec Nat.eq_dec b args) as [J|J]; [exact (Va' _ _ J Eb)|]. destruct Ib as [<-|Ib]; [|contradiction].
      destruct V' as (_ & _ & _ & D). rewrite (D a J) in Eb. apply (Va a cb); [now left|exact Eb].
Qed.

(** ** Entering and leaving *)

(** The scope of the instance a call is on. *)
Definition on_scope (s : st H) (acc : option addr) : option nat :=
  match acc with
  | Some x => match nth_error (cells s) x with Some c => match c_val c with PInst _ i _ => Some i | _ => None end | None => None end
  | None => None
  end.
Definition exists_acc (s : st H) (acc : option addr) : Prop := match acc with Some x => x < length (cells s) | None => True end.
Definition over (on : option nat) (l : list nat) : list nat := match on with Some i => i :: l | None => l end.

(** The scope of the parameters. *)
Definition params_scope (f : fnval) (args : list addr) : scope :=
  Scope (map (fun pa => Var (fst pa) false (Some (snd pa))) (combine (f_params f) args)) None (match f_kind f with KClass => true | _ => false end) true.

(** The state in which the callback is called, or the body begins. *)
Definition inside (f : fnval) (e : nat) (l : list nat) (on : option nat) (args : list addr) (cs : list cell) (s : st H) : st H :=
  set_cells cs (set_scopes (scopes s ++ [params_scope f args]) (set_envs (upd e (length (scopes s) :: over on l) (envs s)) (set_env e (set_body (f_body f) s)))).

(** The rest of a call. *)
Definition leave (R : @rec H) (fa : addr) (on : option nat) (d : dest) (args : list addr) (s : st H) (b : body_end) : M H (option addr) :=
  (detach ;; unless on (fun _ => detach ;; ret tt) ;; modify (set_body (cur_body s)) ;; modify (set_env (cur_env s)) ;;
   o <- finish cf R fa b d args ;; modify (set_rv None) ;; ret o)%fl.

Lemma call_enter_to fa f e l acc (args : list addr) s p l' cp : payload_at s fa (PFn f) -> (forall m, f_kind f <> KPtm m) -> f_env f = Some e -> nth_error (envs s) e = Some l ->
  exists_acc s acc -> over (on_scope s acc) l = p :: l' -> nth_error (scopes s) p = Some cp -> sc_alive cp = true ->
  length args = length (f_params f) -> Forall (fun a => a < length (cells s)) args ->
  exists cs, renamed_to (length (scopes s)) args (cells s) cs /\
  forall R d, call_ cf R fa acc d args s = mbind (run_body cf R fa f acc d) (leave R fa (on_scope s acc) d args s) (inside f e l (on_scope s acc) args cs s).
Proof.
  intros (c & Ec & Ev) Kf Ef Ee Xa Ov Ep Ap L Fa. set (on := on_scope s acc) in *.
  set (k := length (scopes s)). set (sA := set_env e (set_body (f_body f) s)). set (sA' := set_envs (upd e (p :: l') (envs s)) sA).
  assert (OA : open sA' (p :: l')) by (unfold open, sA'; cbn; apply upd_same; eapply nth_lt; exact Ee).
  pose proof (push_ok sA' p l' cp OA Ep Ap) as PushA. change (length (scopes sA')) with k in PushA. set (sB := set_scopes _ _) in PushA.
  assert (EB : nth_error (scopes sB) k = Some (Scope [] None (sc_class cp) true)) by (unfold sB, k; cbn; apply nth_app_new).
  set (sc0 := Scope [] None (match f_kind f with KClass => true | _ => false end) true).
  set (sC := set_scopes (upd k sc0 (scopes sB)) sB).
  assert (OC : open sC (k :: p :: l')) by (unfold open, sC, sB; cbn; rewrite upd_upd; apply upd_same; eapply nth_lt; exact Ee).
  assert (EC : nth_error (scopes sC) k = Some sc0) by (unfold sC; cbn [scopes set_scopes]; apply upd_same; eapply nth_lt; exact EB).
  destruct (add_args_ok k (f_params f) args sC sc0 L EC eq_refl Fa) as (cs & EA & Rn).
  exists cs. split; [exact Rn|]. intros R d.
  unfold call_. rewrite (bind_step _ _ _ _ _ (get_cell_ok _ _ _ Ec)), Ev.
  rewrite (bind_step _ _ s on s).
  2: { unfold on, on_scope, exists_acc in *. destruct acc as [x|]; [|reflexivity]. destruct (nth_error (cells s) x) as [cx|] eqn:Ex; [|apply nth_error_None in Ex; lia].
       rewrite (bind_step _ _ _ _ _ (get_cell_ok _ _ _ Ex)). reflexivity. }
  rewrite (bind_step _ _ s (cur_body s) s) by reflexivity. rewrite (bind_step _ _ s (cur_env s) s) by reflexivity.
  rewrite (bind_step _ _ s tt (set_body (f_body f) s)) by reflexivity. rewrite Ef. rewrite (bind_step _ _ (set_body (f_body f) s) tt sA) by reflexivity.
  rewrite (bind_step _ _ sA tt sA').
  2: { destruct on as [i|]; cbn [over] in Ov.
       - injection Ov as <- <-. cbn [unless]. unfold attach. rewrite (bind_step _ _ sA l sA) by (apply cur_stack_ok; exact Ee). reflexivity.
       - cbn [unless]. unfold ret. f_equal. unfold sA'. subst l. rewrite (upd_id (p :: l')) by exact Ee. unfold sA. destruct s; reflexivity. }
  rewrite (bind_step _ _ _ _ _ PushA).
  rewrite (bind_step _ _ _ _ _ (get_scope_ok _ _ _ EB eq_refl)). cbn [sc_vars sc_owner]. rewrite (bind_step _ _ sB tt sC) by reflexivity.
  set (sD := set_cells cs _) in EA.
  assert (SA : setup_args cf f args sC = Ret tt sD).
  { unfold setup_args. rewrite (bind_step _ _ _ _ _ (cur_scope_ok _ _ _ OC)). destruct (f_kind f) as [| | |m]; try (rewrite L, Nat.eqb_refl; exact EA). now destruct (Kf m). }
  rewrite (bind_step _ _ _ _ _ SA).
  assert (Q : sD = inside f e l on args cs s).
  { unfold sD, sC, sB, sA', sA, inside, params_scope, sc0. cbn. rewrite !upd_upd, Ov. unfold k. rewrite upd_end. reflexivity. }
  rewrite Q. reflexivity.
Qed.
Lemma call_enter fa f e l acc (args : list addr) s p l' cp : payload_at s fa (PFn f) -> (forall m, f_kind f <> KPtm m) -> f_env f = Some e -> nth_error (envs s) e = Some l ->
  exists_acc s acc -> over (on_scope s acc) l = p :: l' -> nth_error (scopes s) p = Some cp -> sc_alive cp = true ->
  length args = length (f_params f) -> Forall (fun a => a < length (cells s)) args ->
  exists cs, renamed args (cells s) cs /\
  forall R d, call_ cf R fa acc d args s = mbind (run_body cf R fa f acc d) (leave R fa (on_scope s acc) d args s) (inside f e l (on_scope s acc) args cs s).
Proof. intros A B C D E F G K L M. destruct (call_enter_to fa f e l acc args s p l' cp A B C D E F G K L M) as (cs & (Rn & _) & Q). eauto. Qed.

(** The same for members of strings and vectors, which run in the current environment. *)
Definition member_scope (args : list addr) : scope := Scope (map (fun pa => Var (fst pa) false (Some (snd pa))) (combine (map (fun _ => []) args) args)) None false true.
Definition inside_member (l : list nat) (args : list addr) (cs : list cell) (s : st H) : st H :=
  set_cells cs (set_scopes (scopes s ++ [member_scope args]) (set_envs (upd (cur_env s) (length (scopes s) :: l) (envs s)) (set_body None s))).
Lemma member_enter fa m (args : list addr) s p l cp x cx : payload_at s fa (PFn (Fn (KPtm m) [] None None None)) -> nth_error (cells s) x = Some cx -> (forall k i d, c_val cx <> PInst k i d) ->
  open s (p :: l) -> nth_error (scopes s) p = Some cp -> sc_alive cp = true -> Forall (fun a => a < length (cells s)) args -> cur_rv s = None ->
  exists cs, renamed_to (length (scopes s)) args (cells s) cs /\
  forall R r t, call_member cf R m x args (inside_member (p :: l) args cs s) = Ret r t -> cur_env t = cur_env s -> nth_error (envs t) (cur_env s) = Some (length (scopes s) :: p :: l) ->
    payload_at t fa (PFn (Fn (KPtm m) [] None None None)) ->
    call_ cf R fa (Some x) Slot args s = Ret (Some r) (set_rv None (set_env (cur_env s) (set_body (cur_body s) (set_envs (upd (cur_env s) (p :: l) (envs t)) t)))).
Proof.
  intros (c & Ec & Ev) Ex Nx O Ep Ap Fa Rv. set (k := length (scopes s)). set (f := Fn (KPtm m) [] None None None) in *.
  set (sA := set_body None s). pose proof (push_ok sA p l cp O Ep Ap) as PushA. change (length (scopes sA)) with k in PushA. set (sB := set_scopes _ _) in PushA.
  assert (EB : nth_error (scopes sB) k = Some (Scope [] None (sc_class cp) true)) by (unfold sB, k; cbn; apply nth_app_new).
  set (sc0 := Scope [] None false true). set (sC := set_scopes (upd k sc0 (scopes sB)) sB).
  assert (OC : open sC (k :: p :: l)) by (unfold open, sC, sB; cbn; apply upd_same; eapply nth_lt; exact O).
  assert (EC : nth_error (scopes sC) k = Some sc0) by (unfold sC; cbn [scopes set_scopes]; apply upd_same; eapply nth_lt; exact EB).
  destruct (add_args_ok k (map (fun _ => []) args) args sC sc0 ltac:(now rewrite map_length) EC eq_refl Fa) as (cs & EA & Rn).
  exists cs. split; [exact Rn|]. intros R r t Em Ce Oe (ct & Ect & Evt). set (sD := set_cells cs _) in EA.
  assert (Q : sD = inside_member (p :: l) args cs s).
  { unfold sD, sC, sB, sA, inside_member, member_scope, sc0. cbn. rewrite !upd_upd. unfold k. repeat rewrite upd_end. reflexivity. }
  unfold call_. rewrite (bind_step _ _ _ _ _ (get_cell_ok _ _ _ Ec)), Ev. subst f. cbn [f_body f_env f_kind unless].
  rewrite (bind_step _ _ s None s).
  2: { rewrite (bind_step _ _ _ _ _ (get_cell_ok _ _ _ Ex)). destruct (c_val cx) eqn:V; try reflexivity. exfalso; eapply Nx; reflexivity. }
  rewrite (bind_step _ _ s (cur_body s) s) by reflexivity. rewrite (bind_step _ _ s (cur_env s) s) by reflexivity.
  rewrite (bind_step _ _ s tt sA) by reflexivity. rewrite (bind_step _ _ sA tt sA) by reflexivity. rewrite (bind_step _ _ sA tt sA) by reflexivity.
  rewrite (bind_step _ _ _ _ _ PushA). rewrite (bind_step _ _ _ _ _ (get_scope_ok _ _ _ EB eq_refl)). cbn [sc_vars sc_owner]. rewrite (bind_step _ _ sB tt sC) by reflexivity.
  rewrite (bind_step _ _ sC tt sD).
  2: { unfold setup_args. rewrite (bind_step _ _ _ _ _ (cur_scope_ok _ _ _ OC)). exact EA. }
  rewrite Q. set (u := inside_member (p :: l) args cs s) in *.
  assert (Sc : nth_error (scopes u) k = Some (member_scope args)) by (unfold u, inside_member; cbn; apply nth_app_new).
  assert (Ou : open u (k :: p :: l)) by (unfold open, u, inside_member; cbn; apply upd_same; eapply nth_lt; exact O).
  rewrite (bind_step _ _ u BDone (set_rv (Some (RVal r)) t)).
  2: { unfold run_body. cbn [f_kind]. rewrite (bind_step _ _ u args u).
       2: { unfold arg_vals. rewrite (bind_step _ _ _ _ _ (cur_scope_ok u k (p :: l) Ou)). rewrite (bind_step _ _ _ _ _ (get_scope_ok _ _ _ Sc eq_refl)). unfold member_scope. cbn [sc_vars]. apply mapM_vals. now rewrite map_length. }
       rewrite (bind_step _ _ u tt u). 2: { unfold no_rv. replace (cur_rv u) with (@None rvp) by (symmetry; exact Rv). reflexivity. }
       rewrite (bind_step _ _ _ _ _ Em). reflexivity. }
  set (t1 := set_rv (Some (RVal r)) t).
  rewrite (bind_step _ _ t1 k (set_envs (upd (cur_env s) (p :: l) (envs t)) t1)).
  2: { rewrite (detach_ok t1 k (p :: l)); [cbn [cur_env t1 set_rv]; rewrite Ce; reflexivity|]. unfold open, t1. cbn. rewrite Ce. exact Oe. }
  set (t2 := set_envs _ t1). rewrite (bind_step _ _ t2 tt t2) by reflexivity. set (t3 := set_env (cur_env s) (set_body (cur_body s) t2)).
  rewrite (bind_step _ _ t2 tt (set_body (cur_body s) t2)) by reflexivity. rewrite (bind_step _ _ _ tt t3) by reflexivity.
  rewrite (bind_step _ _ t3 (Some r) t3).
  2: { unfold finish. rewrite (bind_step _ _ t3 ct t3) by (apply get_cell_ok; exact Ect). rewrite Evt. cbn [f_kind]. rewrite (bind_step _ _ t3 (Some (RVal r)) t3) by reflexivity. reflexivity. }
  reflexivity.
Qed.

Lemma leave_ok R fa e l on d (args : list addr) s t b k : cur_env t = e -> nth_error (envs t) e = Some (k :: over on l) ->
  leave R fa on d args s b t = (o <- finish cf R fa b d args ;; modify (set_rv None) ;; ret o)%fl
    (set_env (cur_env s) (set_body (cur_body s) (set_envs (upd e l (envs t)) t))).
Proof.
  intros Ce O. unfold leave. rewrite (bind_step _ _ _ _ _ (detach_ok t k (over on l) ltac:(unfold open; now rewrite Ce))). rewrite Ce. set (t1 := set_envs _ t).
  assert (O1 : nth_error (envs t1) e = Some (over on l)) by (cbn; apply upd_same; eapply nth_lt; exact O).
  rewrite (bind_step _ _ t1 tt (set_envs (upd e l (envs t)) t)).
  2: { destruct on as [i|]; cbn [unless over] in *.
       - rewrite (bind_step _ _ t1 i (set_envs (upd e l (envs t1)) t1)).
         + unfold ret, t1. cbn. rewrite upd_upd. reflexivity.
         + rewrite (detach_ok t1 i l); [unfold t1; cbn [cur_env set_envs]; rewrite Ce; reflexivity|]. unfold open, t1. cbn [cur_env set_envs]. rewrite Ce. exact O1.
       - unfold ret, t1. reflexivity. }
  reflexivity.
Qed.

(** A callback that succeeds, leaves the callable a function and has a value gives this value. *)
Lemma extern_gives_to fa f e l acc (args : list addr) s p l' cp : payload_at s fa (PFn f) -> f_kind f = KExtern -> f_env f = Some e -> nth_error (envs s) e = Some l ->
  exists_acc s acc -> over (on_scope s acc) l = p :: l' -> nth_error (scopes s) p = Some cp -> sc_alive cp = true ->
  length args = length (f_params f) -> Forall (fun a => a < length (cells s)) args -> cur_rv s = None ->
  exists cs, renamed_to (length (scopes s)) args (cells s) cs /\ forall R, let t := inside f e l (on_scope s acc) args cs s in
  (forall r t1, cf_ext cf fa args t = Ret (Some r) t1 -> fr None true t t1 -> payload_at t1 fa (PFn f) ->
     call_ cf R fa acc Slot args s = Ret (Some r) (set_rv None (set_env (cur_env s) (set_body (cur_body s) (set_envs (upd e l (envs t1)) t1))))) /\
  (forall t1 d, cf_ext cf fa args t = Fail t1 -> call_ cf R fa acc d args s = Fail t1) /\
  (forall u d, cf_ext cf fa args t = Undef u -> call_ cf R fa acc d args s = Undef u) /\
  (forall t1 msg d, cf_ext cf fa args t = reports cf msg t1 -> call_ cf R fa acc d args s = reports cf msg t1).
Proof.
  intros Pf Kf Ef Ee Xa Ov Ep Ap L Fa Rv.
  assert (K : forall m, f_kind f <> KPtm m) by (rewrite Kf; discriminate).
  destruct (call_enter_to fa f e l acc args s p l' cp Pf K Ef Ee Xa Ov Ep Ap L Fa) as (cs & Rn & Q). exists cs. split; [exact Rn|]. intros R t. fold t in Q.
  assert (Sc : nth_error (scopes t) (length (scopes s)) = Some (params_scope f args)) by (unfold t, inside; cbn; apply nth_app_new).
  assert (Oe : nth_error (envs t) e = Some (length (scopes s) :: over (on_scope s acc) l)) by (unfold t, inside; cbn; apply upd_same; eapply nth_lt; exact Ee).
  assert (Av : arg_vals t = Ret args t).
  { unfold arg_vals. rewrite (bind_step _ _ _ _ _ (cur_scope_ok t (length (scopes s)) (over (on_scope s acc) l) Oe)).
    rewrite (bind_step _ _ _ _ _ (get_scope_ok _ _ _ Sc eq_refl)). unfold params_scope. cbn [sc_vars]. apply mapM_vals. now symmetry. }
  assert (Rb : forall d, run_body cf R fa f acc d t = (r <- cf_ext cf fa args ;; match r with Some a => modify (set_rv (Some (RVal a))) | None => ret tt end ;; ret BDone)%fl t).
  { intro d. unfold run_body. rewrite Kf. rewrite (bind_step _ _ _ _ _ Av). rewrite (bind_step _ _ t tt t); [reflexivity|]. unfold no_rv. replace (cur_rv t) with (@None rvp) by (symmetry; exact Rv). reflexivity. }
  split; [|split; [|split]].
  - intros r t1 E F (c1 & C1 & V1). rewrite Q. rewrite (bind_step _ _ t BDone (set_rv (Some (RVal r)) t1)).
    2: { rewrite Rb, (bind_step _ _ _ _ _ E). reflexivity. }
    rewrite (leave_ok R fa e l (on_scope s acc) Slot args s (set_rv (Some (RVal r)) t1) BDone (length (scopes s))).
    3: { cbn [envs set_rv]. apply (fr_envs _ _ _ _ F). exact Oe. }
    2: { cbn [cur_env set_rv]. rewrite (fr_env _ _ _ _ F). reflexivity. }
    cbn [envs set_rv]. set (t2 := set_env _ _).
    rewrite (bind_step _ _ t2 (Some r) t2); [reflexivity|].
    unfold finish. rewrite (bind_step _ _ t2 c1 t2) by (apply get_cell_ok; exact C1). rewrite V1, Kf. reflexivity.
  - intros t1 d E. rewrite Q. apply bind_fail. rewrite Rb. apply bind_fail. exact E.
  - intros u d E. rewrite Q. unfold mbind at 1. rewrite Rb. unfold mbind at 1. rewrite E. reflexivity.
  - intros t1 msg d E. rewrite Q. apply bind_raise. rewrite Rb. apply bind_raise. exact E.
Qed.
Lemma extern_gives fa f e l acc (args : list addr) s p l' cp : payload_at s fa (PFn f) -> f_kind f = KExtern -> f_env f = Some e -> nth_error (envs s) e = Some l ->
  exists_acc s acc -> over (on_scope s acc) l = p :: l' -> nth_error (scopes s) p = Some cp -> sc_alive cp = true ->
  length args = length (f_params f) -> Forall (fun a => a < length (cells s)) args -> cur_rv s = None ->
  exists cs, renamed args (cells s) cs /\ forall R, let t := inside f e l (on_scope s acc) args cs s in
  (forall r t1, cf_ext cf fa args t = Ret (Some r) t1 -> fr None true t t1 -> payload_at t1 fa (PFn f) ->
     call_ cf R fa acc Slot args s = Ret (Some r) (set_rv None (set_env (cur_env s) (set_body (cur_body s) (set_envs (upd e l (envs t1)) t1))))) /\
  (forall t1 d, cf_ext cf fa args t = Fail t1 -> call_ cf R fa acc d args s = Fail t1) /\
  (forall u d, cf_ext cf fa args t = Undef u -> call_ cf R fa acc d args s = Undef u) /\
  (forall t1 msg d, cf_ext cf fa args t = reports cf msg t1 -> call_ cf R fa acc d args s = reports cf msg t1).
Proof. intros A B C D E F G K L M N. destruct (extern_gives_to fa f e l acc args s p l' cp A B C D E F G K L M N) as (cs & (Rn & _) & Q). eauto. Qed.
End Extern.
