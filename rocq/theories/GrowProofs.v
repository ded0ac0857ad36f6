(** * Evaluation that only adds: tests of strings, functions that are expressions, calls of members. *)

From Coq Require Import ZArith Arith Ascii String Lia Bool List.
From Verif Require Import Base FlAst FlState FlInterp FlMonad SpecFlamingo FlEqProofs SpecScript SpecFrame SpecScope FlOpProofs FlExprProofs FlFrame FlBalance FlMemberProofs FlHigherProofs FlSeqProofs
  FlScopeProofs FlAssignProofs FlReturnProofs FlFuel FlExternProofs Bob SpecBob BobScriptProofs.
Import ListNotations.
Local Open Scope nat_scope.

Section Grow.
Context {H : Type}.
Variable cf : conf H.
Implicit Types s t u : st H.

Lemma evals_more n n' e s a s' : n <= n' -> evals cf n e s a s' -> evals cf n' e s a s'.
Proof.
  intros L (x & E). exists x. destruct (interp_below cf n n' L) as (_ & B & _). destruct (B Slot e s) as [Q|Q]; congruence.
Qed.

(** ** Releasing a value there is one more holder of *)

Definition spare s s' (a : addr) : Prop := forall c, nth_error (cells s) a = Some c -> (0 <= c_cnt c)%Z /\ exists c', nth_error (cells s') a = Some c' /\ (c_cnt c < c_cnt c')%Z.
Definition fresh s (a : addr) : Prop := length (cells s) <= a.
Lemma fresh_spare s s' a : fresh s a -> spare s s' a.
Proof. intros F c E. apply nth_lt in E. unfold fresh in F. lia. Qed.
Lemma spare_later s s' t a xs : spare s s' a -> grows_by xs s' t -> spare s t a.
Proof. intros S G c E. destruct (S c E) as (Z & c' & E' & L). split; [exact Z|]. destruct (gr_cells _ _ _ G _ _ E') as (c2 & E2 & _ & L2 & _). exists c2. split; [exact E2|lia]. Qed.
Lemma fresh_earlier s s' a xs : grows_by xs s s' -> fresh s' a -> fresh s a.
Proof.
  intros G F. unfold fresh in *. enough (length (cells s) <= length (cells s')) by lia. destruct (Nat.le_gt_cases (length (cells s)) (length (cells s'))) as [L|L]; [exact L|].
  destruct (nth_error (cells s) (length (cells s'))) as [c|] eqn:E; [|apply nth_error_None in E; lia]. destruct (gr_cells _ _ _ G _ _ E) as (c' & E' & _). apply nth_lt in E'. lia.
Qed.
Lemma held_spare s a : live s a -> spare s (held a s) a.
Proof.
  intros (c0 & C0 & L0) c E. rewrite E in C0. injection C0 as <-. split; [lia|]. unfold held. rewrite E. cbn. rewrite upd_same by (eapply nth_lt; eauto). eexists. split; [reflexivity|]. cbn. lia.
Qed.

Definition no_parts (p : payload) : Prop := match p with PStr _ _ | PFn _ | PInst _ _ _ => False | _ => True end.
Definition dropped (a : addr) s : st H :=
  match nth_error (cells s) a with Some c => set_cells (upd a (Cell (c_name c) (down (c_cnt c)) (c_owner c) (c_val c)) (cells s)) s | None => s end.
Lemma decref_ok n a s p : payload_at s a p -> no_parts p -> decref cf (S n) a s = Ret tt (dropped a s).
Proof. intros (c & E & V) N. unfold dropped. rewrite E. apply decref_plain; [exact E|]. now rewrite V. Qed.
Lemma down_lt x y : (x < y)%Z -> (0 <= x)%Z -> (x <= down y)%Z.
Proof. unfold down. destruct (Z.eqb_spec y 0); lia. Qed.
Lemma dropped_cell a s b c : nth_error (cells s) b = Some c -> exists c', nth_error (cells (dropped a s)) b = Some c' /\ c_val c' = c_val c /\ c_name c' = c_name c /\ c_owner c' = c_owner c /\
  c_cnt c' = if Nat.eq_dec b a then down (c_cnt c) else c_cnt c.
Proof.
  intros E. unfold dropped. destruct (Nat.eq_dec b a) as [->|N].
  - rewrite E. cbn. rewrite upd_same by (eapply nth_lt; eauto). eexists. split; [reflexivity|]. auto.
  - exists c. destruct (nth_error (cells s) a); cbn; [rewrite upd_other by auto|]; auto.
Qed.
Lemma dropped_rest a s : bufs (dropped a s) = bufs s /\ bodies (dropped a s) = bodies s /\ scopes (dropped a s) = scopes s /\ envs (dropped a s) = envs s /\ cur_env (dropped a s) = cur_env s /\
  cur_rv (dropped a s) = cur_rv s /\ members (dropped a s) = members s /\ host (dropped a s) = host s /\ cur_body (dropped a s) = cur_body s.
Proof. unfold dropped. destruct (nth_error (cells s) a); repeat split. Qed.
Lemma dropped_grows xs a s s1 p : grows_by xs s s1 -> spare s s1 a -> payload_at s1 a p -> no_parts p -> grows_by xs s (dropped a s1).
Proof.
  intros G S (c0 & C0 & V0) Np. destruct (dropped_rest a s1) as (B1 & B2 & B3 & B4 & B5 & B6 & B7 & B8 & B9). split.
  - intros b c E. destruct (gr_cells _ _ _ G _ _ E) as (c1 & E1 & V1 & L1 & N1). destruct (dropped_cell a s1 b c1 E1) as (c2 & E2 & V2 & M2 & O2 & Q2). exists c2. split; [exact E2|].
    split; [congruence|]. split.
    + rewrite Q2. destruct (Nat.eq_dec b a) as [->|N]; [|exact L1]. destruct (S c E) as (Z & c3 & E3 & L3). rewrite E1 in E3. injection E3 as <-. apply down_lt; [exact L3|exact Z].
    + intros f Qf Kf. destruct (N1 f Qf Kf). split; congruence.
  - rewrite B1. apply G.
  - rewrite B2. apply G.
  - rewrite B3. apply G.
  - rewrite B4. apply G.
  - rewrite B5. apply G.
  - rewrite B6. apply G.
  - rewrite B7. apply G.
  - intros b c u n E V K. destruct (gr_strs _ _ _ G _ _ _ _ E V K) as (c1 & E1 & K1). destruct (dropped_cell a s1 b c1 E1) as (c2 & E2 & V2 & M2 & _). exists c2. split; [exact E2|]. rewrite M2.
    eapply same_name; [|exact K1]. now rewrite B3.
Qed.

(** ** Calls *)

Definition renamable s (args : list addr) : Prop := forall a c f, In a args -> nth_error (cells s) a = Some c -> c_val c = PFn f -> f_kind f = KFun.

(** A function called in [s] runs in [u], ends in [t] and is left. *)
Lemma call_grows s u t (args : list addr) cs sc e l l' b : renamed_to (length (scopes s)) args (cells s) cs -> renamable s args -> sc_alive sc = true -> nth_error (envs s) e = Some l -> cur_rv s = None ->
  cells u = cs -> scopes u = scopes s ++ [sc] -> envs u = upd e l' (envs s) -> bufs u = bufs s -> bodies u = bodies s -> members u = members s ->
  grows u t -> grows s (set_rv None (set_env (cur_env s) (set_body b (set_envs (upd e l (envs t)) t)))).
Proof.
  intros (R & Rt) Rb Al Ee Rv Uc Us Ue Ub Ubo Um G. split; cbn.
  - intros a c E. destruct (renamed_cell _ _ _ _ _ R E) as (c1 & E1 & V1 & C1 & O1). rewrite <- Uc in E1. destruct (gr_cells _ _ _ G _ _ E1) as (c2 & E2 & V2 & L2 & N2). exists c2.
    split; [exact E2|]. split; [congruence|]. split; [lia|]. intros f Q K. destruct (N2 f ltac:(congruence) K) as (Na & Nb). rewrite Na, Nb. split; [|exact O1].
    destruct (in_dec Nat.eq_dec a args) as [I|I]; [now destruct (K (Rb a c f I E Q))|]. destruct R as (_ & _ & _ & D). rewrite Uc, (D a I), E in E1. now injection E1 as <-.
  - intros x y E. apply (gr_bufs _ _ _ G). now rewrite Ub.
  - intros x y E. apply (gr_bodies _ _ _ G). now rewrite Ubo.
  - intros i c E. apply (gr_scopes _ _ _ G). rewrite Us. now apply nth_app_l.
  - intros i x E. destruct (Nat.eq_dec i e) as [->|N].
    + rewrite Ee in E. injection E as <-. apply upd_same. pose proof (gr_envs _ _ _ G e l') as Q. rewrite Ue, upd_same in Q by (eapply nth_lt; eauto). eapply nth_lt. now apply Q.
    + rewrite upd_other by auto. apply (gr_envs _ _ _ G). rewrite Ue, upd_other by auto. exact E.
  - reflexivity.
  - now rewrite Rv.
  - now rewrite (gr_members _ _ _ G).
  - intros a c x n E V K. destruct (renamed_cell _ _ _ _ _ R E) as (c1 & E1 & V1 & C1 & O1). pose proof E1 as E1'. rewrite <- Uc in E1.
    assert (K1 : name_kept u (c_name c1)).
    { destruct (in_dec Nat.eq_dec a args) as [I|I].
      - destruct (Rt a c1 I E1') as (y & ->). cbn. exists sc. rewrite Us, nth_app_new. auto.
      - destruct R as (_ & _ & _ & D). rewrite (D a I), E in E1'. injection E1' as <-. eapply same_name; [|exact K]. intros. rewrite Us. now apply nth_app_l. }
    destruct (gr_strs _ _ _ G a c1 x n E1 ltac:(congruence) K1) as (c2 & E2 & K2). exists c2. split; [exact E2|]. exact K2.
Qed.

(** Members of strings and vectors stay. *)
Lemma grows_provides xs s t k x p m : grows_by xs s t -> provides s k x p m -> provides t k x p m.
Proof.
  intros G ((bf & af & E & F) & c & C & L & V). split; [exists bf, af; now rewrite (gr_members _ _ _ G)|]. destruct (gr_cells _ _ _ G _ _ C) as (c' & C' & V' & L' & _). exists c'.
  split; [exact C'|]. split; [lia|congruence].
Qed.
Definition strings_have s : Prop := exists m1 m2 m3, provides s TStr (lit "endswith") PtEndswith m1 /\ provides s TStr (lit "startswith") PtStartswith m2 /\ provides s TVec (lit "where") PtWhere m3.
Lemma grows_have xs s t : grows_by xs s t -> strings_have s -> strings_have t.
Proof. intros G (m1 & m2 & m3 & A & B & C). exists m1, m2, m3. split; [|split]; eapply grows_provides; eassumption. Qed.

(** There is a scope to call members in. *)
Definition can_call s : Prop := cur_rv s = None /\ exists p l cp, open s (p :: l) /\ nth_error (scopes s) p = Some cp /\ sc_alive cp = true.
Lemma grows_can xs s t : grows_by xs s t -> can_call s -> can_call t.
Proof.
  intros G (R & p & l & cp & O & E & A). split; [now rewrite (gr_rv _ _ _ G)|]. destruct (gr_scopes _ _ _ G _ _ E) as (c' & E' & A' & _). exists p, l, c'.
  split; [eapply grows_open; eauto|]. split; [exact E'|congruence].
Qed.

(** ** Tests *)

Lemma alloc_grows s p : grows s (set_cells (cells s ++ [Cell NNone 1 None p]) s).
Proof.
  split; cbn; auto; [| |].
  - intros a c E. exists c. split; [now apply nth_app_l|]. split; [reflexivity|]. split; [lia|auto].
  - apply same_scopes; auto.
  - intros a c b n E _ K. exists c. split; [now apply nth_app_l|exact K].
Qed.

Lemma make_str_evals n x s : exists s', evals cf (S n) (EStr x) s (length (cells s)) s' /\ grows s s' /\ host s' = host s /\ holds s' (DStr x) (length (cells s)) /\ usable s' (length (cells s)) /\
  (exists b, payload_at s' (length (cells s)) (PStr b (length x)) /\ nth_error (bufs s') b = Some (Some x)).
Proof.
  set (s' := set_cells (cells s ++ [Cell NNone 1 None (PStr (length (bufs s)) (length x))]) (set_bufs (bufs s ++ [Some x]) s)). exists s'.
  assert (C : nth_error (cells s') (length (cells s)) = Some (Cell NNone 1 None (PStr (length (bufs s)) (length x)))) by (unfold s'; cbn; apply nth_app_new).
  assert (B : nth_error (bufs s') (length (bufs s)) = Some (Some x)) by (unfold s'; cbn; apply nth_app_new).
  split; [exists None; rewrite eval_S; reflexivity|]. split; [|split; [reflexivity|split; [|split]]].
  - split; cbn; auto; [| | |].
    + intros a c E. exists c. split; [now apply nth_app_l|]. split; [reflexivity|]. split; [lia|auto].
    + intros; now apply nth_app_l.
    + apply same_scopes; auto.
    + intros a c b m E _ K. exists c. split; [now apply nth_app_l|exact K].
  - eexists. split; [exact C|]. cbn. exists (length (bufs s)), (length x), x. split; [reflexivity|]. split; [exact B|]. split; [lia|]. now rewrite firstn_all.
  - eexists. split; [exact C|]. split; [reflexivity|exact I].
  - exists (length (bufs s)). split; [eexists; split; [exact C|reflexivity]|exact B].
Qed.

(** [e] is string [w]; [e.x("t")] says whether it begins or ends with [t]. *)
Definition answers (p : ptm) (z w : bytes) : option bool :=
  match p with PtStartswith => Some (is_prefix z w) | PtEndswith => Some (is_prefix (rev z) (rev w)) | _ => None end.
Lemma holds_str s x a : holds s (DStr x) a <-> exists b n w, payload_at s a (PStr b n) /\ nth_error (bufs s) b = Some (Some w) /\ n <= length w /\ x = firstn n w.
Proof.
  split.
  - intros (c & C & b & n & u & V & U & L & Q). exists b, n, u. split; [exists c; auto|]. auto.
  - intros (b & n & u & (c & C & V) & U & L & Q). exists c. split; [exact C|]. cbn. exists b, n, u. auto.
Qed.
Lemma str_test p (z w : bytes) s x y b R : answers p z w = Some b -> holds s (DStr w) x -> holds s (DStr z) y ->
  call_member cf R p x [y] s = Ret (length (cells s)) (set_cells (cells s ++ [Cell NNone 1 None (PBool b)]) s).
Proof.
  intros An Hx Hy. apply holds_str in Hx as (bx & nx & ux & (cx & Cx & Vx) & Ux & Lx & ->). apply holds_str in Hy as (by_ & ny & uy & (cy & Cy & Vy) & Uy & Ly & ->).
  assert (Ln : length (firstn nx ux) = nx) by (rewrite firstn_length; lia). assert (Ln' : length (firstn ny uy) = ny) by (rewrite firstn_length; lia).
  assert (Rb : forall b n w (s0 : st H), nth_error (bufs s0) b = Some (Some w) -> n <= length w -> read_buf b n s0 = Ret (firstn n w) s0).
  { intros b0 n0 u0 s0 U0 L0. unfold read_buf. rewrite U0. replace (Nat.leb n0 (length u0)) with true by (symmetry; now apply Nat.leb_le). reflexivity. }
  destruct p; try discriminate; cbn [answers call_member] in *; injection An as <-.
  - unfold str_ends, self_str. rewrite (bind_step _ _ s (bx, nx) s) by (rewrite (bind_step _ _ _ _ _ (get_cell_ok _ _ _ Cx)), Vx; reflexivity).
    rewrite (bind_step _ _ _ _ _ (get_cell_ok _ _ _ Cy)), Vy. cbn [fst snd]. destruct (Nat.leb ny nx) eqn:Q.
    + apply Nat.leb_le in Q. rewrite (bind_step _ _ _ _ _ (Rb _ _ _ _ Ux Lx)). rewrite (bind_step _ _ _ _ _ (Rb _ _ _ _ Uy Ly)).
      rewrite is_suffix_skipn by lia. rewrite Ln, Ln'. reflexivity.
    + apply Nat.leb_gt in Q. rewrite is_prefix_long; [reflexivity|]. rewrite !rev_length. lia.
  - unfold str_starts, self_str. rewrite (bind_step _ _ s (bx, nx) s) by (rewrite (bind_step _ _ _ _ _ (get_cell_ok _ _ _ Cx)), Vx; reflexivity).
    rewrite (bind_step _ _ _ _ _ (get_cell_ok _ _ _ Cy)), Vy. cbn [fst snd]. destruct (Nat.leb ny nx) eqn:Q.
    + apply Nat.leb_le in Q. rewrite (bind_step _ _ _ _ _ (Rb bx ny ux s Ux ltac:(lia))). rewrite (bind_step _ _ _ _ _ (Rb _ _ _ _ Uy Ly)).
      rewrite is_prefix_firstn by lia. rewrite Ln', firstn_firstn. rewrite Nat.min_l by lia. reflexivity.
    + apply Nat.leb_gt in Q. rewrite is_prefix_long; [reflexivity|]. lia.
Qed.

(** [e] gives a new boolean [b]. *)
Definition decides n e s (b : bool) : Prop :=
  exists a s', evals cf n e s a s' /\ grows s s' /\ host s' = host s /\ payload_at s' a (PBool b) /\ fresh s a.

(** [y] stands for string [w]. *)
Definition is_string s (y w : bytes) : Prop := exists i j v a, names s y i j v /\ v_val v = Some a /\ holds s (DStr w) a /\ live s a.
Lemma grows_string s t y w : grows s t -> is_string s y w -> is_string t y w.
Proof.
  intros G (i & j & v & a & N & V & Hd & L). exists i, j, v, a. split; [eapply grows_names; eauto; congruence|]. split; [exact V|]. split; [eapply grows_holds|eapply grows_live]; eauto.
Qed.

Lemma held_host s a : host (held a s) = host s.
Proof. unfold held. destruct (nth_error (cells s) a); reflexivity. Qed.
Lemma not_inst s w x c : holds s (DStr w) x -> nth_error (cells s) x = Some c -> forall k i d, c_val c <> PInst k i d.
Proof. intros (c0 & C & b & n & u & V & _) E. rewrite E in C. injection C as <-. rewrite V. discriminate. Qed.
Lemma str_renamable s w x : holds s (DStr w) x -> renamable s [x].
Proof. intros (c0 & C & b & n & u & V & _) a c f [<-|[]] E F. rewrite E in C. injection C as <-. congruence. Qed.
Lemma holds_lt s v x : holds s v x -> x < length (cells s).
Proof. intros Q. destruct (holds_cell _ _ _ Q) as (c & C). eapply nth_lt; eauto. Qed.

Lemma one_lt s v x : holds s v x -> Forall (fun a => a < length (cells s)) [x].
Proof. intro Q. constructor; [eapply holds_lt; eauto|constructor]. Qed.

Lemma same_cells_holds s t (E : forall a c, nth_error (cells s) a = Some c -> exists c', nth_error (cells t) a = Some c' /\ c_val c' = c_val c) (B : bufs t = bufs s) w x :
  holds s (DStr w) x -> holds t (DStr w) x.
Proof. intros (c & C & b & n & u & V & U & L & Q). destruct (E _ _ C) as (c' & C' & V'). exists c'. split; [exact C'|]. exists b, n, u. rewrite B. split; [congruence|auto]. Qed.

(** [y.endswith("z")] and [y.startswith("z")]. *)
Lemma str_member_decides n x p m y z w s b : answers p z w = Some b -> can_call s -> provides s TStr x p m -> is_string s y w -> decides (S (S (S n))) (ECall (EAccess (EId y) x) [EStr z]) s b.
Proof.
  intros An Cc Pv (i & j & v & a & N & V & Hd & L). set (s1 := held a s).
  assert (E1 : evals cf (S n) (EId y) s a s1) by (exists None; exact (ident_value cf n y s i j v a N V L)).
  assert (G1 : grows s s1) by apply grows_held. assert (Hd1 : holds s1 (DStr w) a) by (eapply grows_holds; eauto). pose proof (grows_provides _ _ _ _ _ _ _ G1 Pv) as P1.
  assert (G2 : grows s1 (held m s1)) by apply grows_held. set (s2 := held m s1) in *.
  destruct (make_str_evals (S n) z s2) as (s3 & E3 & G3 & H3 & Hz & _ & _). set (az := length (cells s2)) in *.
  assert (G : grows s s3) by (eapply grows_trans; [exact G1|]; eapply grows_trans; [exact G2|exact G3]).
  assert (Pm : payload_at s2 m (PFn (Fn (KPtm p) [] None None None))).
  { eapply grows_payload; [exact G2|]. destruct P1 as (_ & c & C & _ & Vc). exists c. auto. }
  destruct Pm as (cm & Cm & Vm).
  pose proof (call_member_expr cf (S n) (EId y) x [EStr z] s a s1 (DStr w) p m [az] s3 cm E1 Hd1 (or_introl eq_refl) P1 (evals_each_cons _ _ _ _ _ _ _ _ _ E3 (evals_each_nil _ _ _)) Cm) as Q.
  assert (Hd3 : holds s3 (DStr w) a) by (eapply grows_holds; [exact G3|]; eapply grows_holds; [exact G2|exact Hd1]).
  assert (Pm3 : payload_at s3 m (PFn (Fn (KPtm p) [] None None None))) by (eapply grows_payload; [exact G3|]; exists cm; auto).
  destruct (holds_cell _ _ _ Hd3) as (ca & Ca).
  assert (Cc3 : can_call s3) by (eapply grows_can; eauto).
  destruct Cc3 as (Rv & q & l & cp & O & Eq & Aq).
  destruct (member_enter cf m p [az] s3 q l cp a ca Pm3 Ca (not_inst _ _ _ _ Hd3 Ca) O Eq Aq (one_lt _ _ _ Hz) Rv) as (cs & (Rn & Rt) & K).
  set (u := inside_member (q :: l) [az] cs s3) in *.
  assert (Sc : forall d c, nth_error (cells s3) d = Some c -> exists c', nth_error (cells u) d = Some c' /\ c_val c' = c_val c).
  { intros d c E. destruct (renamed_cell _ _ _ _ _ Rn E) as (c' & E' & V' & _). eauto. }
  set (t := set_cells (cells u ++ [Cell NNone 1 None (PBool b)]) u).
  assert (Gt : grows u t) by apply alloc_grows.
  assert (Em : call_member cf (interp cf (S n)) p a [az] u = Ret (length (cells u)) t).
  { apply (str_test p z w u a az b); [exact An| |]; eapply same_cells_holds; eauto; reflexivity. }
  assert (Lu : length (cells u) = length (cells s3)) by (unfold u, inside_member; cbn; apply (renamed_length _ _ _ Rn)).
  specialize (K (interp cf (S n)) (length (cells u)) t Em eq_refl).
  assert (Ou : nth_error (envs u) (cur_env s3) = Some (length (scopes s3) :: q :: l)) by (unfold u, inside_member; cbn; apply upd_same; eapply nth_lt; exact O).
  specialize (K Ou). match type of K with ?P -> _ => assert (Pt : P) end.
  { destruct Pm3 as (c & C & Vc). destruct (Sc _ _ C) as (c' & C' & Vc'). exists c'. split; [unfold t; cbn; now apply nth_app_l|congruence]. }
  specialize (K Pt). eexists (length (cells u)), _. split; [exists None; unfold outcome in Q; rewrite Q, (bind_step _ _ _ _ _ K); reflexivity|].
  split; [eapply grows_trans; [exact G|]; eapply (call_grows s3 u t [az] cs (member_scope [az]) (cur_env s3) (q :: l)); try reflexivity; eauto using str_renamable; split; assumption|].
  split; [cbn; unfold u; cbn; rewrite H3; unfold s2, s1; now rewrite !held_host|].
  split; [eexists; cbn; rewrite nth_app_new; split; reflexivity|]. unfold fresh. rewrite Lu. destruct (Nat.le_gt_cases (length (cells s)) (length (cells s3))) as [Le|Le]; [exact Le|].
  eapply fresh_earlier; [exact G|]. unfold fresh. lia.
Qed.

Lemma fresh_later s s1 a : grows s s1 -> fresh s1 a -> fresh s a.
Proof. apply fresh_earlier. Qed.
Lemma fresh_none s a c : fresh s a -> nth_error (cells s) a = Some c -> False.
Proof. intros F E. apply nth_lt in E. unfold fresh in F. lia. Qed.

Lemma drop_fresh s s1 a p : grows s s1 -> fresh s a -> payload_at s1 a p -> no_parts p -> grows s (dropped a s1).
Proof. intros G F P N. eapply dropped_grows; [exact G|now apply fresh_spare|exact P|exact N]. Qed.
Lemma dropped_payload s a b p : payload_at s b p -> payload_at (dropped a s) b p.
Proof. intros (c & C & V). destruct (dropped_cell a s b c C) as (c' & C' & V' & _). exists c'. split; [exact C'|congruence]. Qed.

Lemma not_decides n e s b : decides (S n) e s b -> decides (S (S n)) (EUn (lit "!") e) s (negb b).
Proof.
  intros (a & s1 & E & G & Hh & (ca & Ca & Va) & F). set (s2 := set_cells (cells s1 ++ [Cell NNone 1 None (PBool (negb b))]) s1).
  assert (P2 : payload_at s2 a (PBool b)) by (exists ca; split; [unfold s2; cbn; now apply nth_app_l|exact Va]).
  exists (length (cells s1)), (dropped a s2). split.
  - exists None. rewrite eval_S. cbn [eval_]. unfold plain. rewrite (bind_step _ _ s (Some (length (cells s1))) (dropped a s2)); [reflexivity|].
    rewrite (bind_step _ _ _ _ _ (evals_value _ _ _ _ _ _ E)). rewrite (bind_step _ _ s1 (Some (length (cells s1))) (dropped a s2)); [reflexivity|].
    unfold unary. rewrite (bind_step _ _ _ _ _ (get_cell_ok _ _ _ Ca)), Va. change (is_op (lit "!") "!") with true. cbv iota. rewrite (bind_step _ _ s1 (Some (PBool (negb b))) s1) by reflexivity. cbv beta iota.
    rewrite (bind_step _ _ s1 (length (cells s1)) s2) by reflexivity. rewrite (bind_step _ _ _ _ _ (decref_ok n a s2 (PBool b) P2 I)). reflexivity.
  - assert (G2 : grows s s2) by (eapply grows_trans; [exact G|apply alloc_grows]). split; [eapply drop_fresh; [exact G2|exact F|exact P2|exact I]|].
    split; [destruct (dropped_rest a s2) as (_ & _ & _ & _ & _ & _ & _ & Q & _); rewrite Q; exact Hh|].
    split; [apply dropped_payload; eexists; unfold s2; cbn; rewrite nth_app_new; split; reflexivity|]. eapply fresh_later; [exact G|]. unfold fresh. lia.
Qed.

Definition bool_op (op : bytes) (a b : bool) : option bool :=
  if bytes_eqb op (lit "&&") then Some (a && b) else if bytes_eqb op (lit "||") then Some (a || b) else None.
Lemma both_decides n e f op s b1 b2 b : bool_op op b1 b2 = Some b -> decides (S n) e s b1 -> (forall t, grows s t -> host t = host s -> decides (S n) f t b2) -> decides (S (S n)) (EBin e op f) s b.
Proof.
  intros Op (a1 & s1 & E1 & G1 & H1 & P1 & F1) D2. destruct (D2 s1 G1 H1) as (a2 & s2 & E2 & G2 & H2 & P2 & F2).
  assert (P1' : payload_at s2 a1 (PBool b1)) by (eapply grows_payload; eauto).
  pose proof P1' as (c1 & C1 & V1). pose proof P2 as (c2 & C2 & V2). set (s3 := set_cells (cells s2 ++ [Cell NNone 1 None (PBool b)]) s2).
  assert (G : grows s s2) by (eapply grows_trans; eauto). assert (G3 : grows s2 s3) by apply alloc_grows.
  assert (Ga : grows s (dropped a1 s3)).
  { eapply drop_fresh; [eapply grows_trans; [exact G|exact G3]|exact F1|eapply grows_payload; [exact G3|exact P1']|exact I]. }
  assert (P2d : payload_at (dropped a1 s3) a2 (PBool b2)) by (apply dropped_payload; eapply grows_payload; [exact G3|exact P2]).
  exists (length (cells s2)), (dropped a2 (dropped a1 s3)). split.
  - exists None. rewrite eval_S. cbn [eval_]. unfold plain. rewrite (bind_step _ _ s (Some (length (cells s2))) (dropped a2 (dropped a1 s3))); [reflexivity|].
    rewrite (bind_step _ _ _ _ _ (evals_value _ _ _ _ _ _ E1)). rewrite (bind_step _ _ _ _ _ (evals_value _ _ _ _ _ _ E2)). rewrite (bind_step _ _ s2 (Some (length (cells s2))) (dropped a2 (dropped a1 s3))); [reflexivity|]. unfold binary.
    rewrite (bind_step _ _ _ _ _ (get_cell_ok _ _ _ C1)), (bind_step _ _ _ _ _ (get_cell_ok _ _ _ C2)), V1, V2. cbn [kind_of kind_eqb negb andb orb].
    rewrite (bind_step _ _ s2 (PBool b) s2).
    2: { unfold bool_op in Op. cbn [bin_op]. destruct (bytes_eqb op (lit "&&")) eqn:Q1; [apply bytes_eqb_eq in Q1; subst op; injection Op as <-; reflexivity|].
         destruct (bytes_eqb op (lit "||")) eqn:Q2; [apply bytes_eqb_eq in Q2; subst op; injection Op as <-; reflexivity|discriminate]. }
    rewrite (bind_step _ _ s2 (length (cells s2)) s3) by reflexivity.
    rewrite (bind_step _ _ _ _ _ (decref_ok n a1 s3 (PBool b1) ltac:(eapply grows_payload; [exact G3|exact P1']) I)).
    rewrite (bind_step _ _ _ _ _ (decref_ok n a2 _ (PBool b2) P2d I)). reflexivity.
  - split; [eapply drop_fresh; [exact Ga|eapply fresh_later; [exact G1|exact F2]|exact P2d|exact I]|].
    split; [|split].
    + destruct (dropped_rest a2 (dropped a1 s3)) as (_ & _ & _ & _ & _ & _ & _ & Q & _). rewrite Q. destruct (dropped_rest a1 s3) as (_ & _ & _ & _ & _ & _ & _ & Q' & _). rewrite Q'. unfold s3. cbn. congruence.
    + do 2 apply dropped_payload. eexists. unfold s3. cbn. rewrite nth_app_new. split; reflexivity.
    + eapply fresh_later; [exact G|]. unfold fresh. lia.
Qed.

(** ** Functions that are expressions *)

(** [f] is [|y| e]. *)
Definition lambda_at s f y e : Prop :=
  exists b env p l cp, payload_at s f (PFn (Fn KFun [y] (Some b) (Some env) None)) /\ nth_error (bodies s) b = Some (Some (BExpr e)) /\ nth_error (envs s) env = Some (p :: l) /\
    nth_error (scopes s) p = Some cp /\ sc_alive cp = true.
Lemma grows_lambda s t f y e : grows s t -> lambda_at s f y e -> lambda_at t f y e.
Proof.
  intros G (b & env & p & l & cp & P & B & E & S & A). destruct (gr_scopes _ _ _ G _ _ S) as (c' & S' & A' & _). exists b, env, p, l, c'.
  split; [eapply grows_payload; eauto|]. split; [eapply gr_bodies; eauto|]. split; [eapply gr_envs; eauto|]. split; [exact S'|congruence].
Qed.
Lemma lambda_evals n y e s p l cp : open s (p :: l) -> nth_error (scopes s) p = Some cp -> sc_alive cp = true ->
  exists f s', evals cf (S n) (ELambda [y] (BExpr e)) s f s' /\ grows s s' /\ host s' = host s /\ lambda_at s' f y e /\ fresh s f.
Proof.
  intros O E A. set (s' := set_cells (cells s ++ [Cell NNone 1 None (PFn (Fn KFun [y] (Some (length (bodies s))) (Some (length (envs s))) None))]) (set_bodies (bodies s ++ [Some (BExpr e)]) (set_envs (envs s ++ [p :: l]) s))).
  exists (length (cells s)), s'. split.
  - exists None. rewrite eval_S. cbn [eval_]. unfold plain. rewrite (bind_step _ _ s (Some (length (cells s))) s'); [reflexivity|].
    unfold do_lambda. rewrite (bind_step _ _ s (length (envs s)) (set_envs (envs s ++ [p :: l]) s)) by (unfold close_over, cur_stack, mbind; unfold open in O; rewrite O; reflexivity). reflexivity.
  - split; [|split; [reflexivity|split]].
    + split; cbn; auto; try (intros; now apply nth_app_l).
      * intros a c Ea. exists c. split; [now apply nth_app_l|]. split; [reflexivity|]. split; [lia|auto].
      * apply same_scopes; auto.
      * intros a c b m Ea _ K. exists c. split; [now apply nth_app_l|exact K].
    + exists (length (bodies s)), (length (envs s)), p, l, cp. split; [eexists; unfold s'; cbn; rewrite nth_app_new; split; reflexivity|]. unfold s'. cbn. rewrite !nth_app_new. auto.
    + unfold fresh. lia.
Qed.

(** What [e] says of the string called [y]. *)
Definition tests K e (y : bytes) (c : bytes -> bool) : Prop := forall n s w, K <= n -> can_call s -> strings_have s -> is_string s y w -> decides n e s (c w).

Lemma lambda_calls K n f y e c s x w : tests K e y c -> K <= n -> lambda_at s f y e -> cur_rv s = None -> strings_have s -> holds s (DStr w) x -> live s x ->
  exists r s', calls cf (S n) f x s r s' /\ grows s s' /\ host s' = host s /\ payload_at s' r (PBool (c w)) /\ fresh s r.
Proof.
  intros T Le (b & env & p & l & cp & P & B & E & S & A) Rv Sh Hx Lx. set (fv := Fn KFun [y] (Some b) (Some env) None) in *.
  destruct (call_enter_to cf f fv env (p :: l) None [x] s p l cp P ltac:(discriminate) eq_refl E I eq_refl S A eq_refl (one_lt _ _ _ Hx)) as (cs & (Rn & Rt) & Q).
  set (u := inside fv env (p :: l) (on_scope s None) [x] cs s) in *.
  assert (Su : scopes u = scopes s ++ [params_scope fv [x]]) by reflexivity.
  assert (Eu : nth_error (envs u) env = Some (length (scopes s) :: p :: l)) by (unfold u, inside; cbn; apply upd_same; eapply nth_lt; exact E).
  assert (Sc : forall d c0, nth_error (cells s) d = Some c0 -> exists c', nth_error (cells u) d = Some c' /\ c_val c' = c_val c0 /\ c_cnt c' = c_cnt c0).
  { intros d c0 Ed. destruct (renamed_cell _ _ _ _ _ Rn Ed) as (c' & E' & V' & C' & _). eauto. }
  assert (Cu : can_call u).
  { split; [exact Rv|]. exists (length (scopes s)), (p :: l), (params_scope fv [x]). split; [exact Eu|]. rewrite Su, nth_app_new. auto. }
  assert (Pv : forall k z q m, provides s k z q m -> provides u k z q m).
  { intros k z q m (M & cm & Cm & Lm & Vm). split; [exact M|]. destruct (Sc _ _ Cm) as (c' & C' & V' & N'). exists c'. split; [exact C'|]. split; [lia|congruence]. }
  assert (Shu : strings_have u) by (destruct Sh as (m1 & m2 & m3 & A1 & A2 & A3); exists m1, m2, m3; split; [|split]; apply Pv; assumption).
  assert (Hu : holds u (DStr w) x) by (apply (same_cells_holds s u); [|reflexivity|exact Hx]; intros d c0 Ed; destruct (Sc _ _ Ed) as (c' & C' & V' & _); exists c'; auto).
  assert (Iu : is_string u y w).
  { exists (length (scopes s)), 0, (Var y false (Some x)), x. split; [|split; [reflexivity|split; [exact Hu|]]].
    - exists [], (p :: l). split; [exact Eu|]. split; [constructor|]. exists [], []. split; [exists (params_scope fv [x]); rewrite Su, nth_app_new; auto|]. split; [reflexivity|]. split; [reflexivity|constructor].
    - destruct Lx as (c0 & C0 & L0). destruct (Sc _ _ C0) as (c' & C' & _ & N'). exists c'. split; [exact C'|lia]. }
  destruct (T n u w Le Cu Shu Iu) as (r & t & (z & Et) & Gt & Ht & Pt & Ft).
  exists r. eexists. split; [|split; [|split; [|split]]].
  - unfold calls. rewrite call_S, Q. rewrite (bind_step _ _ u (BExprVal (Some r)) t).
    + rewrite (leave_ok cf (interp cf n) f env (p :: l) (on_scope s None) Slot [x] s t (BExprVal (Some r)) (length (scopes s))); [reflexivity| |].
      * rewrite (gr_env _ _ _ Gt). reflexivity.
      * apply (gr_envs _ _ _ Gt). exact Eu.
    + unfold run_body, fv. cbn [f_kind f_body]. rewrite (bind_step _ _ u (BExpr e) u) by (unfold read_body; change (bodies u) with (bodies s); rewrite B; reflexivity).
      cbn [assert]. rewrite (bind_step _ _ u tt u) by reflexivity. rewrite (bind_step _ _ _ _ _ Et). reflexivity.
  - eapply (call_grows s u t [x] cs (params_scope fv [x]) env (p :: l)); try reflexivity; eauto using str_renamable. split; assumption.
  - exact Ht.
  - destruct Pt as (c0 & C0 & V0). exists c0. split; [exact C0|exact V0].
  - unfold fresh in *. unfold u, inside in Ft. cbn in Ft. rewrite (renamed_length _ _ _ Rn) in Ft. exact Ft.
Qed.

(** ** Vectors *)

Lemma copy_ok x w s : holds s (DStr w) x -> usable s x -> nul_free w ->
  exists s', val_copy x s = Ret (length (cells s)) s' /\ grows s s' /\ host s' = host s /\ holds s' (DStr w) (length (cells s)) /\ usable s' (length (cells s)).
Proof.
  intros (c & C & b & n & u & V & U & L & ->) (c' & C' & Lc & K) N. rewrite C in C'. injection C' as <-.
  assert (Nm : exists y, (match c_name c with NNone => ret NNone | x => t <- read_name x ;; ret (NOwn t) end)%fl s = Ret y s /\ name_kept s y).
  { destruct (c_name c) as [|i z|z]; [exists NNone; split; [reflexivity|exact I]| |eexists; split; [reflexivity|exact I]].
    destruct K as (sc & Es & As). eexists. unfold mbind, read_name. rewrite Es, As. split; [reflexivity|exact I]. }
  destruct Nm as (y & Ny & Ky). set (s' := set_cells (cells s ++ [Cell y 1 (c_owner c) (PStr (length (bufs s)) n)]) (set_bufs (bufs s ++ [Some (firstn n u ++ [NUL])]) s)). exists s'.
  assert (E' : nth_error (cells s') (length (cells s)) = Some (Cell y 1 (c_owner c) (PStr (length (bufs s)) n))) by (unfold s'; cbn; apply nth_app_new).
  split; [|split; [|split; [reflexivity|split]]].
  - unfold val_copy. rewrite (bind_step _ _ _ _ _ (get_cell_ok _ _ _ C)), (bind_step _ _ _ _ _ Ny), V.
    rewrite (bind_step _ _ s (PStr (length (bufs s)) n) (set_bufs (bufs s ++ [Some (firstn n u ++ [NUL])]) s)); [reflexivity|].
    rewrite (bind_step _ _ s (firstn n u) s); [reflexivity|]. unfold read_upto. rewrite U. replace (Nat.leb n (length u)) with true by (symmetry; now apply Nat.leb_le). cbn [orb]. now rewrite cstr_nul_free.
  - split; cbn; auto; try (intros; now apply nth_app_l).
    + intros a c0 Ea. exists c0. split; [now apply nth_app_l|]. split; [reflexivity|]. split; [lia|auto].
    + apply same_scopes; auto.
    + intros a c0 b0 m Ea _ K0. exists c0. split; [now apply nth_app_l|exact K0].
  - eexists. split; [exact E'|]. cbn. exists (length (bufs s)), n, (firstn n u ++ [NUL]). split; [reflexivity|]. split; [unfold s'; cbn; apply nth_app_new|].
    split; [rewrite app_length, firstn_length; lia|]. rewrite firstn_app, firstn_firstn, Nat.min_id, firstn_length, Nat.min_l by lia. rewrite Nat.sub_diag. cbn. now rewrite app_nil_r.
  - eexists. split; [exact E'|]. split; [reflexivity|exact Ky].
Qed.

Definition held_strings s (ws : list bytes) (es : list addr) : Prop := Forall2 (fun w x => holds s (DStr w) x /\ usable s x) ws es.
Lemma grows_strings xs s t ws es : grows_by xs s t -> held_strings s ws es -> held_strings t ws es.
Proof. intros G F. eapply forall2_impl; [|exact F]. intros x e (A & B). split; [eapply grows_holds; eauto|eapply grows_usable; eauto]. Qed.

Lemma copies_ok : forall es ws s, held_strings s ws es -> Forall nul_free ws ->
  exists zs s', mapM val_copy es s = Ret zs s' /\ grows s s' /\ host s' = host s /\ held_strings s' ws zs.
Proof.
  induction es as [|x es IH]; intros ws s F N; inversion F as [|w ? ws' ? (Hx & Ux) F']; subst.
  - exists [], s. split; [reflexivity|]. split; [apply grows_refl|]. split; [reflexivity|constructor].
  - inversion N as [|? ? Nw Nr]; subst. destruct (copy_ok x w s Hx Ux Nw) as (s1 & E1 & G1 & H1 & A1 & B1).
    destruct (IH ws' s1 (grows_strings _ _ _ _ _ G1 F') Nr) as (zs & s2 & E2 & G2 & H2 & A2). exists (length (cells s) :: zs), s2.
    cbn [mapM]. rewrite (bind_step _ _ _ _ _ E1), (bind_step _ _ _ _ _ E2). split; [reflexivity|]. split; [eapply grows_trans; eauto|]. split; [congruence|].
    constructor; [split; [eapply grows_holds; eauto|eapply grows_usable; eauto]|exact A2].
Qed.

Lemma where_keeps K n f y e c v all : tests K e y c -> K <= n -> forall k i ws s, one_vec_at s v all -> held_strings s ws (skipn i all) -> Forall nul_free ws -> length ws < k ->
  lambda_at s f y e -> cur_rv s = None -> strings_have s ->
  exists zs s', where_loop cf (interp cf (S n)) v f i k s = Ret zs s' /\ grows s s' /\ host s' = host s /\ held_strings s' (filter c ws) zs.
Proof.
  intros T Le. induction k as [|k IH]; intros i ws s (cv & Cv & Vv) F N Lk La Rv Sh; [lia|].
  cbn [where_loop]. assert (Va : vec_again v s = Ret all s) by (unfold vec_again; rewrite (bind_step _ _ _ _ _ (get_cell_ok _ _ _ Cv)), Vv; reflexivity).
  rewrite (bind_step _ _ _ _ _ Va). destruct (nth_error all i) as [x|] eqn:X.
  2: { apply nth_error_None in X. rewrite skipn_all2 in F by exact X. inversion F; subst. exists [], s. split; [reflexivity|]. split; [apply grows_refl|]. split; [reflexivity|constructor]. }
  assert (Sk : skipn i all = x :: skipn (S i) all).
  { clear - X. revert all X. induction i as [|i IHi]; intros [|a all] X; try discriminate; [injection X as ->; reflexivity|]. cbn in *. now apply IHi. }
  rewrite Sk in F. inversion F as [|w ? ws' ? (Hx & Ux) F']; subst. inversion N as [|? ? Nw Nr]; subst. cbn [length] in Lk.
  assert (Lx : live s x) by (destruct Ux as (c0 & C0 & L0 & _); exists c0; auto).
  destruct (lambda_calls K n f y e c s x w T Le La Rv Sh Hx Lx) as (r & s1 & E1 & G1 & H1 & (cr & Cr & Vr) & _).
  rewrite (bind_step _ _ s r s1) by (unfold callback; rewrite (bind_step _ _ _ _ _ E1); reflexivity).
  rewrite (bind_step _ _ _ _ _ (get_cell_ok _ _ _ Cr)), Vr.
  assert (later : forall t, grows s t -> one_vec_at t v all /\ held_strings t ws' (skipn (S i) all) /\ lambda_at t f y e /\ cur_rv t = None /\ strings_have t).
  { intros t G. split; [destruct (gr_cells _ _ _ G _ _ Cv) as (c' & C' & V' & _); exists c'; split; [exact C'|congruence]|]. split; [eapply grows_strings; eauto|].
    split; [eapply grows_lambda; eauto|]. split; [now rewrite (gr_rv _ _ _ G)|eapply grows_have; eauto]. }
  cbn [filter]. destruct (c w).
  - destruct (copy_ok x w s1 (grows_holds _ _ _ _ _ G1 Hx) (grows_usable _ _ _ _ _ G1 Hx Ux) Nw) as (s2 & E2 & G2 & H2 & A2 & B2).
    assert (G : grows s s2) by (eapply grows_trans; eauto). destruct (later s2 G) as (L1 & L2 & L3 & L4 & L5).
    destruct (IH (S i) ws' s2 L1 L2 Nr ltac:(lia) L3 L4 L5) as (zs & s3 & E3 & G3 & H3 & A3).
    rewrite (bind_step _ _ _ _ _ E2), (bind_step _ _ _ _ _ E3). exists (length (cells s1) :: zs), s3. split; [reflexivity|]. split; [eapply grows_trans; eauto|]. split; [congruence|].
    constructor; [split; [eapply grows_holds; eauto|eapply grows_usable; eauto]|exact A3].
  - destruct (later s1 G1) as (L1 & L2 & L3 & L4 & L5). destruct (IH (S i) ws' s1 L1 L2 Nr ltac:(lia) L3 L4 L5) as (zs & s3 & E3 & G3 & H3 & A3).
    exists zs, s3. split; [exact E3|]. split; [eapply grows_trans; eauto|]. split; [congruence|exact A3].
Qed.

(** [e] gives a vector of the strings [ws]. *)
Definition lists n e s (ws : list bytes) : Prop := exists v s', evals cf n e s v s' /\ grows s s' /\ host s' = host s /\ usable_strings s' v ws /\ live s' v /\ spare s s' v.

Lemma new_vec_strings s ws es : held_strings s ws es -> let s' := set_cells (cells s ++ [Cell NNone 1 None (PVec es)]) s in
  grows s s' /\ usable_strings s' (length (cells s)) ws /\ live s' (length (cells s)).
Proof.
  intros F s'. assert (G : grows s s') by apply alloc_grows. split; [exact G|]. split.
  - exists es. split; [eexists; unfold s'; cbn; rewrite nth_app_new; split; reflexivity|]. exact (grows_strings _ _ _ _ _ G F).
  - eexists. unfold s'. cbn. rewrite nth_app_new. split; [reflexivity|]. cbn. lia.
Qed.
Lemma usable_vec s v ws : usable_strings s v ws -> holds s (DVec (map DStr ws)) v.
Proof.
  intros (es & (c & C & V) & F). apply holds_vec. exists c, es. split; [exact C|]. split; [exact V|]. clear - F. induction F as [|x e l es (A & _) F IH]; cbn; constructor; auto.
Qed.

(** [g.where(|y| e)] *)
Lemma where_lists K n g y e c s ws : tests K e y c -> K <= n -> length ws < n -> can_call s -> strings_have s -> Forall nul_free ws -> lists (S n) g s ws ->
  lists (S (S (S n))) (ECall (EAccess g (lit "where")) [ELambda [y] (BExpr e)]) s (filter c ws).
Proof.
  intros T Le Lw Cc Sh Nf (v & s1 & E1 & G1 & H1 & U1 & L1 & _). pose proof Sh as (_ & _ & m & _ & _ & Pv).
  pose proof (grows_provides _ _ _ _ _ _ _ G1 Pv) as P1. assert (Hd1 : holds s1 (DVec (map DStr ws)) v) by now apply usable_vec.
  assert (G2 : grows s1 (held m s1)) by apply grows_held. set (s2 := held m s1) in *.
  assert (G12 : grows s s2) by (eapply grows_trans; eauto).
  destruct (grows_can _ _ _ G12 Cc) as (_ & p & l & cp & O2 & Ep & Ap).
  destruct (lambda_evals (S n) y e s2 p l cp O2 Ep Ap) as (f & s3 & E3 & G3 & H3 & La & _).
  assert (G : grows s s3) by (eapply grows_trans; eauto).
  assert (Pm : payload_at s2 m (PFn (Fn (KPtm PtWhere) [] None None None))).
  { eapply grows_payload; [exact G2|]. destruct P1 as (_ & c0 & C & _ & Vc). exists c0. auto. }
  destruct Pm as (cm & Cm & Vm).
  pose proof (call_member_expr cf (S n) g (lit "where") [ELambda [y] (BExpr e)] s v s1 (DVec (map DStr ws)) PtWhere m [f] s3 cm E1 Hd1 (or_intror eq_refl) P1
    (evals_each_cons _ _ _ _ _ _ _ _ _ E3 (evals_each_nil _ _ _)) Cm) as Q.
  assert (U3 : usable_strings s3 v ws) by (eapply grows_usable_strings; [exact G3|]; eapply grows_usable_strings; [exact G2|exact U1]).
  assert (Pm3 : payload_at s3 m (PFn (Fn (KPtm PtWhere) [] None None None))) by (eapply grows_payload; [exact G3|]; exists cm; auto).
  destruct U3 as (es & (cv & Cv & Vv) & F3).
  pose proof La as (b & env & p' & l' & cp' & (cfn & Cfn & Vfn) & Bo & Ee & Se & Ae).
  destruct (grows_can _ _ _ G Cc) as (Rv & q & l2 & cq & O & Eq & Aq).
  assert (Lf : Forall (fun a => a < length (cells s3)) [f]) by (constructor; [eapply nth_lt; eauto|constructor]).
  destruct (member_enter cf m PtWhere [f] s3 q l2 cq v cv Pm3 Cv ltac:(rewrite Vv; discriminate) O Eq Aq Lf Rv) as (cs & (Rn & Rt) & K0).
  set (u := inside_member (q :: l2) [f] cs s3) in *.
  assert (Su : scopes u = scopes s3 ++ [member_scope [f]]) by reflexivity.
  assert (Ou : nth_error (envs u) (cur_env s3) = Some (length (scopes s3) :: q :: l2)) by (unfold u, inside_member; cbn; apply upd_same; eapply nth_lt; exact O).
  assert (Sc : forall d c0, nth_error (cells s3) d = Some c0 -> exists c', nth_error (cells u) d = Some c' /\ c_val c' = c_val c0 /\ c_cnt c' = c_cnt c0 /\ (d <> f -> c' = c0)).
  { intros d c0 E. destruct (renamed_cell _ _ _ _ _ Rn E) as (c' & E' & V' & C' & _). exists c'. split; [exact E'|]. split; [exact V'|]. split; [exact C'|]. intro Nd.
    destruct Rn as (_ & _ & _ & D). rewrite (D d) in E' by (intros [Q'|[]]; congruence). congruence. }
  assert (Lau : lambda_at u f y e).
  { destruct (Sc _ _ Cfn) as (c' & C' & V' & _). destruct (Nat.eq_dec env (cur_env s3)) as [->|Ne].
    - exists b, (cur_env s3), (length (scopes s3)), (q :: l2), (member_scope [f]). split; [exists c'; split; [exact C'|congruence]|]. split; [exact Bo|]. split; [exact Ou|]. rewrite Su, nth_app_new. auto.
    - exists b, env, p', l', cp'. split; [exists c'; split; [exact C'|congruence]|]. split; [exact Bo|]. split; [unfold u, inside_member; cbn; now rewrite upd_other by auto|]. rewrite Su, (nth_app_l _ _ _ _ Se). auto. }
  assert (Shu : strings_have u).
  { destruct (grows_have _ _ _ G Sh) as (m1 & m2 & m3 & A1 & A2 & A3). exists m1, m2, m3.
    assert (Pu : forall k z q0 m0, provides s3 k z q0 m0 -> provides u k z q0 m0).
    { intros k z q0 m0 (M & c0 & C0 & L0 & V0). split; [exact M|]. destruct (Sc _ _ C0) as (c' & C' & V' & N' & _). exists c'. split; [exact C'|]. split; [lia|congruence]. }
    split; [|split]; apply Pu; assumption. }
  assert (Fu : held_strings u ws es).
  { eapply forall2_impl; [|exact F3]. intros w x (Hx & (c0 & C0 & Lc & Kc)). assert (Nx : x <> f).
    { intros ->. rewrite Cfn in C0. injection C0 as <-. destruct Hx as (c1 & C1 & b1 & n1 & u1 & V1 & _). rewrite Cfn in C1. injection C1 as <-. congruence. }
    split; [apply (same_cells_holds s3 u); [|reflexivity|exact Hx]; intros d c1 Ed; destruct (Sc _ _ Ed) as (c' & C' & V' & _); exists c'; auto|].
    destruct (Sc _ _ C0) as (c' & C' & _ & _ & Qx). rewrite (Qx Nx) in C'. exists c0. split; [exact C'|]. split; [exact Lc|]. eapply same_name; [|exact Kc]. intros. rewrite Su. now apply nth_app_l. }
  assert (Vu : one_vec_at u v es) by (destruct (Sc _ _ Cv) as (c' & C' & V' & _); exists c'; split; [exact C'|congruence]).
  destruct n as [|n]; [lia|].
  destruct (where_keeps K (S n) f y e c v es T Le (S (S n)) 0 ws u Vu Fu Nf ltac:(lia) Lau Rv Shu) as (zs & t1 & Ew & Gw & Hw & Fw).
  destruct (new_vec_strings t1 _ zs Fw) as (Ga & Ua & Lv). set (t := set_cells _ t1) in *.
  assert (Gt : grows u t) by (eapply grows_trans; eauto).
  destruct Vu as (cvu & Cvu & Vvu). destruct Lau as (bu & eu & pu & lu & cpu & (cfu & Cfu & Vfu) & _).
  assert (Em : call_member cf (interp cf (S (S n))) PtWhere v [f] u = Ret (length (cells t1)) t).
  { cbn [call_member]. unfold vec_where. rewrite (bind_step _ _ u es u) by (unfold self_vec; rewrite (bind_step _ _ _ _ _ (get_cell_ok _ _ _ Cvu)), Vvu; reflexivity).
    rewrite (bind_step _ _ _ _ _ (get_cell_ok _ _ _ Cfu)), Vfu. change (r_fuel (interp cf (S (S n)))) with (S (S n)). rewrite (bind_step _ _ _ _ _ Ew). reflexivity. }
  specialize (K0 (interp cf (S (S n))) (length (cells t1)) t Em).
  specialize (K0 (eq_trans (gr_env _ _ _ Gt) eq_refl) (gr_envs _ _ _ Gt _ _ Ou)). match type of K0 with ?P -> _ => assert (Pt : P) end.
  { eapply grows_payload; [exact Gt|]. destruct Pm3 as (c0 & C & Vc). destruct (Sc _ _ C) as (c' & C' & Vc' & _). exists c'. split; [exact C'|congruence]. }
  specialize (K0 Pt). eexists (length (cells t1)), _. split; [exists None; unfold outcome in Q; rewrite Q, (bind_step _ _ _ _ _ K0); reflexivity|].
  split; [eapply grows_trans; [exact G|]; eapply (call_grows s3 u t [f] cs (member_scope [f]) (cur_env s3) (q :: l2)); try reflexivity; eauto; [split; assumption|]|].
  { intros a c0 f0 [<-|[]] Ea Va. rewrite Cfn in Ea. injection Ea as <-. rewrite Vfn in Va. now injection Va as <-. }
  split; [cbn; rewrite Hw; unfold u; cbn; rewrite H3; unfold s2; now rewrite held_host|].
  split; [destruct Ua as (zs' & Va & Fa); exists zs'; split; [exact Va|exact Fa]|]. split; [exact Lv|]. apply fresh_spare. eapply fresh_later; [exact G|]. unfold fresh.
  rewrite <- (renamed_length _ _ _ Rn). change cs with (cells u). eapply (fresh_earlier u t1); [exact Gw|]. unfold fresh. lia.
Qed.

(** [g + h] *)
Lemma upd_comm {A} (a b : A) : forall (l : list A) i j, i <> j -> upd i a (upd j b l) = upd j b (upd i a l).
Proof. induction l as [|x l IH]; intros [|i] [|j] N; cbn; try reflexivity; [congruence|]. f_equal. apply IH. congruence. Qed.
Lemma dropped_comm s a b : dropped a (dropped b s) = dropped b (dropped a s).
Proof.
  destruct (Nat.eq_dec a b) as [->|N]; [reflexivity|]. unfold dropped at 2 4.
  destruct (nth_error (cells s) a) as [ca|] eqn:A, (nth_error (cells s) b) as [cb|] eqn:B; unfold dropped; cbn; try rewrite !upd_other by auto; rewrite ?A, ?B; auto.
  destruct s; unfold set_cells; cbn in *. f_equal. apply upd_comm. auto.
Qed.
Lemma plus_lists n g h s ws ws' : Forall nul_free ws -> Forall nul_free ws' -> lists (S n) g s ws -> (forall t, grows s t -> host t = host s -> lists (S n) h t ws') ->
  lists (S (S n)) (EBin g (lit "+") h) s (ws ++ ws').
Proof.
  intros N1 N2 (a1 & s1 & E1 & G1 & H1 & U1 & L1 & S1) D2. destruct (D2 s1 G1 H1) as (a2 & s2 & E2 & G2 & H2 & U2 & L2 & S2).
  pose proof (grows_usable_strings _ _ _ _ _ G2 U1) as (es1 & V1 & F1). destruct U2 as (es2 & V2 & F2).
  assert (F : held_strings s2 (ws ++ ws') (es1 ++ es2)) by (apply Forall2_app; [exact F1|exact F2]).
  destruct (copies_ok (es1 ++ es2) (ws ++ ws') s2 F ltac:(apply Forall_app; auto)) as (zs & s3 & Ez & G3 & H3 & Fz).
  destruct (new_vec_strings s3 _ zs Fz) as (Ga & Ua & La). set (s4 := set_cells _ s3) in *.
  assert (G24 : grows s2 s4) by (eapply grows_trans; eauto). assert (G14 : grows s1 s4) by (eapply grows_trans; eauto). assert (G : grows s s2) by (eapply grows_trans; eauto).
  assert (P1 : payload_at s4 a1 (PVec es1)) by (eapply grows_payload; [exact G24|exact V1]).
  assert (P2 : payload_at s4 a2 (PVec es2)) by (eapply grows_payload; [exact G24|exact V2]).
  set (s5 := dropped a2 (dropped a1 s4)). 
  assert (G5a : grows s1 (dropped a2 s4)).
  { eapply dropped_grows; [exact G14|eapply spare_later; [exact S2|exact G24]|exact P2|exact I]. }
  assert (G5 : grows s s5).
  { unfold s5. rewrite dropped_comm. eapply dropped_grows; [eapply grows_trans; [exact G1|exact G5a]|eapply spare_later; [exact S1|exact G5a]|apply dropped_payload; exact P1|exact I]. }
  assert (Fr : fresh s2 (length (cells s3))) by (eapply (fresh_earlier s2 s3); [exact G3|unfold fresh; lia]).
  assert (Na1 : length (cells s3) <> a1) by (intros Q; destruct V1 as (c1 & C1 & _); rewrite <- Q in C1; exact (fresh_none _ _ _ Fr C1)).
  assert (Na2 : length (cells s3) <> a2) by (intros Q; destruct V2 as (c1 & C1 & _); rewrite <- Q in C1; exact (fresh_none _ _ _ Fr C1)).
  pose proof V1 as (c1 & C1 & Q1). pose proof V2 as (c2 & C2 & Q2).
  assert (Keep : forall t a b, holds t (DStr b) a -> forall d, holds (dropped d t) (DStr b) a).
  { intros t a b Hb d. apply (same_cells_holds t (dropped d t)); [|apply dropped_rest|exact Hb]. intros x c Ex. destruct (dropped_cell d t x c Ex) as (c' & ? & ? & _). eauto. }
  assert (Keepu : forall t a w d p, usable t a -> holds t (DStr w) a -> payload_at t d p -> no_parts p -> usable (dropped d t) a).
  { intros t a w d p (c & C & Lc & Kc) (c0 & C0 & b0 & n0 & u0 & V0 & _) (cd & Cd & Vd) Np. destruct (dropped_cell d t a c C) as (c' & C' & V' & M' & _ & Q'). exists c'. split; [exact C'|].
    split; [|rewrite M'; eapply same_name; [|exact Kc]; intros; now rewrite (proj1 (proj2 (proj2 (dropped_rest d t))))].
    rewrite Q'. destruct (Nat.eq_dec a d) as [->|_]; [|exact Lc]. rewrite C in C0. injection C0 as <-. rewrite C in Cd. injection Cd as <-. rewrite <- Vd, V0 in Np. destruct Np. }
  exists (length (cells s3)), s5. split; [|split; [exact G5|split; [|split; [|split]]]].
  - exists None. rewrite eval_S. cbn [eval_]. unfold plain. rewrite (bind_step _ _ s (Some (length (cells s3))) s5); [reflexivity|].
    rewrite (bind_step _ _ _ _ _ (evals_value _ _ _ _ _ _ E1)). rewrite (bind_step _ _ _ _ _ (evals_value _ _ _ _ _ _ E2)). rewrite (bind_step _ _ s2 (Some (length (cells s3))) s5); [reflexivity|].
    unfold binary. rewrite (bind_step _ _ _ _ _ (get_cell_ok _ _ _ C1)), (bind_step _ _ _ _ _ (get_cell_ok _ _ _ C2)), Q1, Q2. cbn [kind_of kind_eqb negb andb orb].
    rewrite (bind_step _ _ s2 (PVec zs) s3).
    2: { cbn [bin_op]. change (is_op (lit "+") "+") with true. cbv iota. rewrite (bind_step _ _ s2 (Some (PVec zs)) s3) by (rewrite (bind_step _ _ _ _ _ Ez); reflexivity). reflexivity. }
    rewrite (bind_step _ _ s3 (length (cells s3)) s4) by reflexivity.
    rewrite (bind_step _ _ _ _ _ (decref_ok n a1 s4 (PVec es1) P1 I)). rewrite (bind_step _ _ _ _ _ (decref_ok n a2 _ (PVec es2) (dropped_payload _ _ _ _ P2) I)). reflexivity.
  - unfold s5. rewrite !(proj1 (proj2 (proj2 (proj2 (proj2 (proj2 (proj2 (proj2 (dropped_rest _ _))))))))). unfold s4. cbn. congruence.
  - destruct Ua as (zs' & Vz & Fz'). exists zs'. split; [unfold s5; do 2 apply dropped_payload; exact Vz|].
    eapply forall2_impl; [|exact Fz']. intros w x (Hx & Ux). pose proof (Keep _ _ _ Hx a1) as Hx1. split; [unfold s5; now apply Keep|]. unfold s5.
    eapply (Keepu (dropped a1 s4)); [eapply (Keepu s4); [exact Ux|exact Hx|exact P1|exact I]|exact Hx1|apply dropped_payload; exact P2|exact I].
  - destruct La as (c & C & Lc). destruct (dropped_cell a1 s4 _ _ C) as (c' & C' & _ & _ & _ & Q'). destruct (dropped_cell a2 _ _ _ C') as (c'' & C'' & _ & _ & _ & Q''). exists c''.
    split; [exact C''|]. rewrite Q'', Q'. destruct (Nat.eq_dec (length (cells s3)) a1), (Nat.eq_dec (length (cells s3)) a2); first [congruence|exact Lc].
  - apply fresh_spare. eapply fresh_later; [exact G|exact Fr].
Qed.

Lemma named_lists n x s i j v a ws : names s x i j v -> v_val v = Some a -> live s a -> usable_strings s a ws -> lists (S n) (EId x) s ws.
Proof.
  intros N V L U. exists a, (held a s). split; [exists None; exact (ident_value cf n x s i j v a N V L)|]. split; [apply grows_held|]. split; [apply held_host|].
  split; [eapply grows_usable_strings; [apply (grows_held [])|exact U]|]. split; [eapply grows_live; [apply (grows_held [])|exact L]|]. now apply held_spare.
Qed.
End Grow.
