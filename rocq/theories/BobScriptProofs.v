(** * Scripts that ask Bob to build things. *)

From Coq Require Import ZArith Arith Ascii String Lia Bool List.
From Verif Require Import Base Hash Cookie CookieProofs FlAst FlState FlInterp FlMonad SpecFlamingo FlEqProofs SpecScript SpecFrame SpecScope SpecImport SpecPlan
  FlOpProofs FlExprProofs FlFrame FlBalance FlMemberProofs FlSeqProofs FlScopeProofs FlAssignProofs FlReturnProofs FlExternProofs Bob SpecBob SpecProject BobProofs BobCallProofs BobMethodProofs BobInstanceProofs.
Import ListNotations.
Local Open Scope nat_scope.

(** ** What evaluation only adds to *)

(** Values are as they were, and so are the names of classes and of functions without a body; names of strings can still be read; scopes, environments and bodies are still there, scopes have got no new variables
    but [xs], and no variables have got other values but those of [xs] that had none. *)
Definition var_le (xs : list bytes) (v w : var) : Prop := v_key w = v_key v /\ (w = v \/ v_val v = None /\ In (v_key v) xs).
Definition more_vars (xs : list bytes) (vs ws : list var) : Prop := exists olds more, ws = olds ++ more /\ Forall2 (var_le xs) vs olds /\ Forall (fun v => In (v_key v) xs) more.
Record grows_by {H} (xs : list bytes) (s s' : st H) : Prop := Grows {
  gr_cells : forall a c, nth_error (cells s) a = Some c -> exists c', nth_error (cells s') a = Some c' /\ c_val c' = c_val c /\ (c_cnt c <= c_cnt c')%Z /\
    (forall f, c_val c = PFn f -> f_kind f <> KFun -> c_name c' = c_name c /\ c_owner c' = c_owner c);
  gr_bufs : forall b u, nth_error (bufs s) b = Some (Some u) -> nth_error (bufs s') b = Some (Some u);
  gr_bodies : forall b u, nth_error (bodies s) b = Some u -> nth_error (bodies s') b = Some u;
  gr_scopes : forall i c, nth_error (scopes s) i = Some c -> exists c', nth_error (scopes s') i = Some c' /\ sc_alive c' = sc_alive c /\ sc_owner c' = sc_owner c /\ more_vars xs (sc_vars c) (sc_vars c');
  gr_envs : forall i l, nth_error (envs s) i = Some l -> nth_error (envs s') i = Some l;
  gr_env : cur_env s' = cur_env s;
  gr_rv : cur_rv s' = cur_rv s;
  gr_members : members s' = members s;
  gr_strs : forall a c b n, nth_error (cells s) a = Some c -> c_val c = PStr b n -> name_kept s (c_name c) -> exists c', nth_error (cells s') a = Some c' /\ name_kept s' (c_name c');
}.
Notation grows := (grows_by []).
Section Grows.
Context {H : Type}.
Variable xs : list bytes.
Implicit Types s t u : st H.

Lemma var_le_refl v : var_le xs v v. Proof. split; auto. Qed.
Lemma vars_le_refl vs : Forall2 (var_le xs) vs vs. Proof. induction vs; constructor; auto using var_le_refl. Qed.
Lemma vars_le_trans : forall a b c, Forall2 (var_le xs) a b -> Forall2 (var_le xs) b c -> Forall2 (var_le xs) a c.
Proof.
  intros a b c F. revert c. induction F as [|v w a b (K & Q) F IH]; intros c G; inversion G as [|? z ? c' (K' & Q') G']; subst; constructor; auto.
  split; [congruence|]. destruct Q as [->|Q]; auto.
Qed.
Lemma more_vars_refl vs : more_vars xs vs vs.
Proof. exists vs, []. rewrite app_nil_r. auto using vars_le_refl. Qed.
Lemma more_vars_trans a b c : more_vars xs a b -> more_vars xs b c -> more_vars xs a c.
Proof.
  intros (o1 & m1 & -> & F1 & G1) (o2 & m2 & -> & F2 & G2). apply Forall2_app_inv_l in F2 as (o3 & o4 & F3 & F4 & ->). exists o3, (o4 ++ m2). rewrite <- app_assoc. split; [reflexivity|].
  split; [eapply vars_le_trans; eauto|]. apply Forall_app. split; [|exact G2]. clear - G1 F4. revert G1. induction F4 as [|v w a b (K & _) F IH]; intro G; constructor; inversion G; subst; auto. now rewrite K.
Qed.
Lemma more_vars_keys x vs ws : more_vars xs vs ws -> ~ In x xs -> Forall (fun v => v_key v <> x) vs -> Forall (fun v => v_key v <> x) ws.
Proof.
  intros (o & m & -> & F & G) N L. apply Forall_app. split.
  - clear - F L. revert L. induction F as [|v w a b (K & _) F IH]; intro L; constructor; inversion L; subst; auto. now rewrite K.
  - eapply Forall_impl; [|exact G]. intros v I Q. subst x. contradiction.
Qed.
Lemma same_scopes s t : (forall i c, nth_error (scopes s) i = Some c -> nth_error (scopes t) i = Some c) ->
  forall i c, nth_error (scopes s) i = Some c -> exists c', nth_error (scopes t) i = Some c' /\ sc_alive c' = sc_alive c /\ sc_owner c' = sc_owner c /\ more_vars xs (sc_vars c) (sc_vars c').
Proof. intros G i c E. exists c. split; [auto|]. split; [reflexivity|]. split; [reflexivity|]. apply more_vars_refl. Qed.
Lemma kept_name s t x : (forall i c, nth_error (scopes s) i = Some c -> exists c', nth_error (scopes t) i = Some c' /\ sc_alive c' = sc_alive c) -> name_kept s x -> name_kept t x.
Proof. intros G K. destruct x as [|i y|y]; auto. destruct K as (c & E & A). destruct (G _ _ E) as (c' & E' & A'). exists c'. split; [exact E'|congruence]. Qed.
Lemma same_name s t x : (forall i c, nth_error (scopes s) i = Some c -> nth_error (scopes t) i = Some c) -> name_kept s x -> name_kept t x.
Proof. intros G. apply kept_name. eauto. Qed.
Lemma grows_refl s : grows_by xs s s.
Proof. split; auto; [|apply same_scopes; auto|eauto]. intros a c E. exists c. split; [exact E|]. split; [reflexivity|]. split; [lia|auto]. Qed.
Lemma grows_trans s t u : grows_by xs s t -> grows_by xs t u -> grows_by xs s u.
Proof.
  intros A B. split.
  - intros a c E. destruct (gr_cells _ _ _ A _ _ E) as (c1 & E1 & V1 & L1 & N1). destruct (gr_cells _ _ _ B _ _ E1) as (c2 & E2 & V2 & L2 & N2). exists c2.
    split; [exact E2|]. split; [congruence|]. split; [lia|]. intros f Q Kf. destruct (N1 f Q Kf) as (A1 & A2), (N2 f ltac:(congruence) Kf) as (B1 & B2). split; congruence.
  - intros b x E. exact (gr_bufs _ _ _ B _ _ (gr_bufs _ _ _ A _ _ E)).
  - intros b x E. exact (gr_bodies _ _ _ B _ _ (gr_bodies _ _ _ A _ _ E)).
  - intros i c E. destruct (gr_scopes _ _ _ A _ _ E) as (c1 & E1 & A1 & O1 & V1). destruct (gr_scopes _ _ _ B _ _ E1) as (c2 & E2 & A2 & O2 & V2).
    exists c2. split; [exact E2|]. split; [congruence|]. split; [congruence|]. eapply more_vars_trans; eauto.
  - intros b x E. exact (gr_envs _ _ _ B _ _ (gr_envs _ _ _ A _ _ E)).
  - rewrite (gr_env _ _ _ B). apply A.
  - rewrite (gr_rv _ _ _ B). apply A.
  - rewrite (gr_members _ _ _ B). apply A.
  - intros a c b n E V K. destruct (gr_strs _ _ _ A _ _ _ _ E V K) as (c1 & E1 & K1). destruct (gr_cells _ _ _ A _ _ E) as (c2 & E2 & V2 & _). rewrite E1 in E2. injection E2 as <-.
    eapply (gr_strs _ _ _ B); [exact E1|rewrite V2; exact V|exact K1].
Qed.
Lemma grows_more s t : grows s t -> grows_by xs s t.
Proof.
  intros A. split; try apply A. intros i c E. destruct (gr_scopes _ _ _ A _ _ E) as (c1 & E1 & A1 & O1 & (o & m & V1 & F1 & G1)). exists c1. do 3 (split; [assumption|]).
  exists o, m. split; [assumption|]. split.
  - eapply Forall2_impl'; [|exact F1]. intros v w (K & [->|(_ & [])]). split; auto.
  - eapply Forall_impl; [|exact G1]. intros ? [].
Qed.
Lemma grows_keeps s t : grows_by xs s t -> keeps s t.
Proof. intro G. split; [|apply (gr_bufs _ _ _ G)]. intros a c E. destruct (gr_cells _ _ _ G _ _ E) as (c' & E' & V & _). eauto. Qed.
Lemma grows_holds s t v a : grows_by xs s t -> holds s v a -> holds t v a.
Proof. intros G. apply holds_keeps. now apply grows_keeps. Qed.
Lemma grows_live s t a : grows_by xs s t -> live s a -> live t a.
Proof. intros G (c & E & L). destruct (gr_cells _ _ _ G _ _ E) as (c' & E' & _ & L' & _). exists c'. split; [exact E'|lia]. Qed.
Lemma grows_kept s t x : grows_by xs s t -> name_kept s x -> name_kept t x.
Proof. intros G. apply kept_name. intros i c E. destruct (gr_scopes _ _ _ G _ _ E) as (c' & E' & A & _). eauto. Qed.
Lemma grows_usable s t x a : grows_by xs s t -> holds s (DStr x) a -> usable s a -> usable t a.
Proof.
  intros G (c0 & C0 & b & n & u & V & _) (c & E & L & K). rewrite E in C0. injection C0 as <-. destruct (gr_strs _ _ _ G _ _ _ _ E V K) as (c' & E' & K').
  destruct (gr_cells _ _ _ G _ _ E) as (c1 & E1 & _ & L' & _). rewrite E' in E1. injection E1 as <-. exists c'. split; [exact E'|]. split; [lia|exact K'].
Qed.
Lemma grows_vars s t i vs : grows_by xs s t -> vars s i vs -> exists ws, vars t i ws /\ more_vars xs vs ws.
Proof. intros G (c & E & A & <-). destruct (gr_scopes _ _ _ G _ _ E) as (c1 & E1 & A1 & O1 & V1). exists (sc_vars c1). split; [|exact V1]. exists c1. split; [exact E1|]. split; congruence. Qed.
Lemma grows_same_vars s t i vs : grows s t -> vars s i vs -> vars t i vs.
Proof.
  intros G (c & E & A & <-). destruct (gr_scopes _ _ _ G _ _ E) as (c1 & E1 & A1 & O1 & (o & m & V & F & Fm)). exists c1. split; [exact E1|]. split; [congruence|]. rewrite V.
  replace m with (@nil var) by (destruct Fm as [|? ? []]; reflexivity). rewrite app_nil_r. clear - F. induction F as [|v w a b (_ & Q) F IH]; [reflexivity|].
  destruct Q as [->|(_ & [])]. now rewrite IH.
Qed.
Lemma grows_lacks s t x i : grows_by xs s t -> ~ In x xs -> lacks s x i -> lacks t x i.
Proof. intros G N (vs & V & F). destruct (grows_vars _ _ _ _ G V) as (ws & V' & M). exists ws. split; [exact V'|]. eapply more_vars_keys; eauto. Qed.
Lemma grows_declares s t x i j v : grows_by xs s t -> v_val v <> None -> declares s x i j v -> declares t x i j v.
Proof.
  intros G Nv (b & a & V & L & K & F). destruct (grows_vars _ _ _ _ G V) as (ws & V' & (o & m & -> & Fo & _)). apply Forall2_app_inv_l in Fo as (o1 & o2 & F1 & F2 & ->).
  inversion F2 as [|? w ? o3 (Kw & Q) F3]; subst. destruct Q as [->|(Q & _)]; [|contradiction]. exists o1, (o3 ++ m). rewrite <- app_assoc in V'. split; [exact V'|].
  split; [clear - F1; induction F1; cbn; auto|]. split; [reflexivity|]. clear - F1 F. revert F. induction F1 as [|? ? ? ? (Q & _) ? IH]; intro F; constructor; inversion F; subst; auto. congruence.
Qed.
Lemma grows_open s t l : grows_by xs s t -> open s l -> open t l.
Proof. intros G O. unfold open. rewrite (gr_env _ _ _ G). apply (gr_envs _ _ _ G). exact O. Qed.
Lemma grows_names s t x i j v : grows_by xs s t -> ~ In x xs -> v_val v <> None -> names s x i j v -> names t x i j v.
Proof.
  intros G N Nv (l & r & O & F & D). exists l, r. split; [eapply grows_open; eauto|]. split; [|eapply grows_declares; eauto].
  eapply Forall_impl; [|exact F]. intros. eapply grows_lacks; eauto.
Qed.
Lemma grows_payload s t a p : grows_by xs s t -> payload_at s a p -> payload_at t a p.
Proof. intros G (c & E & V). destruct (gr_cells _ _ _ G _ _ E) as (c' & E' & V' & _). exists c'. split; [exact E'|congruence]. Qed.
Lemma grows_class s t ka f b e p l ps ms : grows_by xs s t -> class_at s ka f b e p l ps ms -> class_at t ka f b e p l ps ms.
Proof.
  intros G (P & K & Pm & B & Eb & Ef & Ee & vs & V). split; [eapply grows_payload; eauto|]. do 3 (split; [assumption|]). split; [exact (gr_bodies _ _ _ G _ _ Eb)|].
  split; [assumption|]. split; [exact (gr_envs _ _ _ G _ _ Ee)|]. destruct (grows_vars _ _ _ _ G V) as (ws & V' & _). eauto.
Qed.

Lemma grows_held s a : grows_by xs s (held a s).
Proof.
  unfold held. destruct (nth_error (cells s) a) as [c|] eqn:C; [|apply grows_refl]. split; cbn; auto; [|apply same_scopes; auto|].
  2: { intros b x u n E _ K. destruct (Nat.eq_dec b a) as [->|N]; [rewrite upd_same by (eapply nth_lt; eauto); rewrite C in E; injection E as <-; eauto|rewrite upd_other by auto; eauto]. }
  intros b x E. destruct (Nat.eq_dec b a) as [->|N].
  - rewrite upd_same by (eapply nth_lt; eauto). rewrite C in E. injection E as <-. eexists. split; [reflexivity|]. split; [reflexivity|]. split; [cbn; lia|auto].
  - rewrite upd_other by auto. exists x. split; [exact E|]. split; [reflexivity|]. split; [lia|auto].
Qed.
End Grows.

Lemma grows_name xs (s t : st bob) a f x : grows_by xs s t -> payload_at s a (PFn f) -> f_kind f <> KFun -> has_name s a x -> has_name t a x.
Proof.
  intros G (c & C & V) Kf (c' & C' & N). rewrite C in C'. injection C' as <-. destruct (gr_cells _ _ _ G _ _ C) as (c' & E' & V' & _ & Q). destruct (Q f V Kf) as (Qn & _).
  exists c'. split; [exact E'|]. rewrite Qn. destruct (c_name c) as [|i y|y]; auto. destruct N as (-> & sc & S0 & A). split; [reflexivity|].
  destruct (gr_scopes _ _ _ G _ _ S0) as (sc' & S1 & A1 & _). exists sc'. split; [exact S1|congruence].
Qed.
Lemma grows_method xs (s t : st bob) i k d x ps fa : grows_by xs s t -> method s i k d x ps fa -> method t i k d x ps fa.
Proof.
  intros G (sc & j & f & e & l & P & (cs & Sc & As & Os) & D & Pf & Kf & Pm & Nm & (c & C & Oc) & Ef & Ee). exists sc, j, f, e, l.
  split; [eapply grows_payload; eauto|]. split.
  { destruct (gr_scopes _ _ _ G _ _ Sc) as (sc' & S1 & A1 & O1 & _). exists sc'. split; [exact S1|]. split; congruence. }
  split; [eapply grows_declares; eauto; discriminate|].
  split; [eapply grows_payload; eauto|]. do 2 (split; [assumption|]). split; [eapply grows_name; eauto; congruence|]. split.
  - destruct Pf as (c0 & C0 & V0). rewrite C in C0. injection C0 as <-. destruct (gr_cells _ _ _ G _ _ C) as (c' & E' & _ & _ & Q). destruct (Q f V0 ltac:(congruence)) as (_ & Qo). exists c'. split; [exact E'|congruence].
  - split; [assumption|]. exact (gr_envs _ _ _ G _ _ Ee).
Qed.

Lemma grown_grows (s t : st bob) : grown s t -> grows s t.
Proof.
  intros (c & b & ->). split; cbn; auto; try (apply (same_scopes []); auto).
  - intros a x E. exists x. split; [now apply nth_app_l|]. split; [reflexivity|]. split; [lia|auto].
  - intros; now apply nth_app_l.
  - intros a x u n E _ K. exists x. split; [now apply nth_app_l|exact K].
Qed.
Lemma grows_usable_strings {H} xs (s t : st H) a l : grows_by xs s t -> usable_strings s a l -> usable_strings t a l.
Proof.
  intros G (es & (c & C & V) & F). exists es. destruct (gr_cells _ _ _ G _ _ C) as (c' & C' & V' & _). split; [exists c'; split; [exact C'|congruence]|].
  eapply Forall2_impl'; [|exact F]. intros x e (A & B). split; [eapply grows_holds; eauto|eapply grows_usable; eauto].
Qed.
Lemma renamed_no_fn s v l (cs : list cell) more h sm em bm : strings s v l -> renamed [v] (cells s) cs ->
  grows s (set_host h (set_cells (cs ++ more) (set_bufs (bufs s ++ bm) (set_scopes (scopes s ++ sm) (set_envs (envs s ++ em) s))))).
Proof.
  intros Sv R. split; cbn; auto; try (intros; now apply nth_app_l); try (intros i c E; exists c; split; [now apply nth_app_l|]; split; [reflexivity|]; split; [reflexivity|]; apply more_vars_refl).
  - intros a c E. destruct (renamed_cell _ _ _ _ _ R E) as (c' & E' & V & Cn & Ow). exists c'. split; [now apply nth_app_l|]. split; [exact V|]. split; [lia|]. intros f Q _. split; [|exact Ow].
    destruct (Nat.eq_dec a v) as [->|N].
    apply holds_vec in Sv as (c0 & es & C0 & V0 & _). rewrite E in C0. injection C0 as <-. congruence.
    destruct R as (_ & _ & _ & R). rewrite R in E' by (intros [->|[]]; now apply N). congruence.
  - intros a c b n E V K. destruct R as (_ & _ & _ & R). exists c. split; [apply nth_app_l; rewrite R; [exact E|]|eapply same_name; [|exact K]; intros; now apply nth_app_l].
    intros [->|[]]. apply holds_vec in Sv as (c0 & es & C0 & V0 & _). rewrite E in C0. injection C0 as <-. congruence.
Qed.
Lemma after_grows ps v l x s s' : strings s v l -> after ps [v] x s s' -> grows s s'.
Proof.
  intros Sv (cs & new & bs & R & ->). pose proof (renamed_no_fn s v l cs new (ask x (host s)) [Scope (map (fun pa => Var (fst pa) false (Some (snd pa))) (combine ps [v])) None false true] [] bs Sv R) as G.
  rewrite app_nil_r in G. replace (set_envs (envs s) s) with s in G by (destruct s; reflexivity). exact G.
Qed.
Lemma made_grows f p l ka v fl ms cs s : strings s v fl -> renamed [v] (cells s) cs -> grows s (made f p l ka v ms cs s).
Proof.
  intros Sv R. set (k := length (scopes s)).
  pose proof (renamed_no_fn s v fl cs (proto_cells (S k) (length (envs s)) ms ++ [Cell NNone 1 None (PInst ka (S k) (Some (length (b_states (host s)))))]) (set_states (b_states (host s) ++ [Some v]) (host s))
    [params_scope f [v]; Scope (proto_vars (length (cells s)) ms) (Some (length (cells s) + length ms)) true true] (repeat (S k :: k :: p :: l) (length ms)) [] Sv R) as G.
  rewrite app_nil_r in G. assert (Q : made f p l ka v ms cs s = set_host (set_states (b_states (host s) ++ [Some v]) (host s)) (set_cells (cs ++ proto_cells (S k) (length (envs s)) ms ++ [Cell NNone 1 None (PInst ka (S k) (Some (length (b_states (host s)))))]) (set_bufs (bufs s) (set_scopes (scopes s ++ [params_scope f [v]; Scope (proto_vars (length (cells s)) ms) (Some (length (cells s) + length ms)) true true]) (set_envs (envs s ++ repeat (S k :: k :: p :: l) (length ms)) s)))))
    by (apply st_ext; reflexivity).
  rewrite Q. exact G.
Qed.

(** The members of an instance that has been made. *)
Lemma made_method f p l ka v fl ms cs s j x ps : strings s v fl -> renamed [v] (cells s) cs -> NoDup (map fst ms) -> nth_error ms j = Some (x, ps) ->
  let t := made f p l ka v ms cs s in method t (length (cells s) + length ms) ka (Some (length (b_states (host s)))) x ps (length (cells s) + j) /\ live t (length (cells s) + j).
Proof.
  intros Sv R N Ej t. pose proof (nth_lt _ _ _ Ej) as Lj. pose proof (renamed_length _ _ _ R) as Lc. set (k := length (scopes s)).
  set (cl := Cell (NKey (S k) x) 1 (Some (S k)) (PFn (Fn KExtern ps None (Some (length (envs s) + j)) None))).
  assert (Cj : nth_error (cells t) (length (cells s) + j) = Some cl).
  { unfold t, made. cbn [cells set_host set_scopes set_envs set_cells]. rewrite nth_error_app2 by lia. rewrite Lc. replace (length (cells s) + j - length (cells s)) with j by lia.
    apply nth_app_l. now apply proto_cell. }
  assert (Ci : nth_error (cells t) (length (cells s) + length ms) = Some (Cell NNone 1 None (PInst ka (S k) (Some (length (b_states (host s))))))).
  { unfold t, made. cbn [cells set_host set_scopes set_envs set_cells]. rewrite nth_error_app2 by lia. rewrite Lc. replace (length (cells s) + length ms - length (cells s)) with (length (proto_cells (S k) (length (envs s)) ms)) by (rewrite proto_cells_length; lia).
    apply nth_app_new. }
  set (sc := Scope (proto_vars (length (cells s)) ms) (Some (length (cells s) + length ms)) true true).
  assert (Si : nth_error (scopes t) (S k) = Some sc).
  { change (scopes t) with (scopes s ++ [params_scope f [v]; sc]). rewrite nth_error_app2 by (unfold k; lia). replace (S k - length (scopes s)) with 1 by (unfold k; lia). reflexivity. }
  split; [|exists cl; split; [exact Cj|reflexivity]].
  destruct (proto_split ms (length (cells s)) j x ps Ej N) as (b & r & Q & Lb & F).
  exists (S k), j, (Fn KExtern ps None (Some (length (envs s) + j)) None), (length (envs s) + j), (S k :: k :: p :: l).
  split; [eexists; split; [exact Ci|reflexivity]|]. split; [exists sc; auto|]. split.
  { exists b, r. split; [exists sc; split; [exact Si|split; [reflexivity|exact Q]]|]. auto. }
  split; [exists cl; split; [exact Cj|reflexivity]|]. do 2 (split; [reflexivity|]). split.
  { exists cl. split; [exact Cj|]. cbn. split; [reflexivity|]. exists sc. auto. }
  split; [exists cl; auto|]. split; [reflexivity|].
  unfold t, made. cbn [envs set_host set_scopes set_envs]. rewrite nth_error_app2 by lia. replace (length (envs s) + j - length (envs s)) with j by lia.
  fold k. rewrite nth_error_repeat; auto.
Qed.

Section Scripts.
Variables (sg : bool) (out : bytes) (listing : bytes -> option (list bytes)) (pow : Z -> Z -> option Z) (exists_ : bytes -> bool) (files : bytes -> file).
Let cf := bob_conf sg out listing pow exists_ files.
Implicit Types s t : st bob.

Definition same_classes s t : Prop := forall k, class_val (host t) k = class_val (host s) k.
Lemma grows_offers xs s t k ka : grows_by xs s t -> ~ In (class_name k) xs -> same_classes s t -> offers s k ka -> offers t k ka.
Proof.
  intros G Nx C ((i & j & v & N & V) & L & (f & b & e & p & l & Ca) & Hn & K & U). split; [exists i, j, v; split; [eapply grows_names; eauto; congruence|exact V]|]. split; [eapply grows_live; eauto|].
  split; [exists f, b, e, p, l; eapply grows_class; eauto|]. split; [destruct Ca as (? & Kc & _); eapply grows_name; eauto; congruence|]. split; [now rewrite C|]. intros k'. rewrite C. apply U.
Qed.

(** ** Literals *)

Lemma mapM_strs n : forall l s, exists es s', mapM (value (interp cf (S n))) (map EStr l) s = Ret es s' /\ grown s s' /\ Forall2 (holds s') (map DStr l) es.
Proof.
  induction l as [|x l IH]; intro s; cbn [map mapM].
  - exists [], s. split; [reflexivity|]. split; [apply grown_refl|constructor].
  - destruct (make_str_holds s x) as (s1 & E1 & G1 & H1). destruct (IH s1) as (es & s2 & E2 & G2 & F2).
    rewrite (bind_step _ _ s (length (cells s)) s1).
    2: { apply evals_value. exists None. rewrite eval_S. cbn [eval_]. unfold plain. rewrite (bind_step _ _ s (Some (length (cells s))) s1); [reflexivity|]. rewrite (bind_step _ _ _ _ _ E1). reflexivity. }
    rewrite (bind_step _ _ _ _ _ E2). exists (length (cells s) :: es), s2. split; [reflexivity|]. split; [eapply grown_trans; eauto|]. constructor; [|exact F2].
    eapply holds_keeps; [apply grown_keeps; exact G2|exact H1].
Qed.
Lemma strs_lit_evals n l s : exists v s', evals cf (S (S n)) (strs_lit l) s v s' /\ grown s s' /\ host s' = host s /\ strings s' v l.
Proof.
  destruct (mapM_strs n l s) as (es & s1 & E1 & G1 & F1). set (s2 := set_cells (cells s1 ++ [Cell NNone 1 None (PVec es)]) s1).
  assert (G2 : grown s1 s2) by (exists [Cell NNone 1 None (PVec es)], []; unfold s2; destruct s1; cbn; rewrite app_nil_r; reflexivity).
  exists (length (cells s1)), s2. split.
  - exists None. rewrite eval_S. unfold strs_lit. cbn [eval_]. unfold plain. rewrite (bind_step _ _ s (Some (length (cells s1))) s2); [reflexivity|]. rewrite (bind_step _ _ _ _ _ E1). reflexivity.
  - split; [eapply grown_trans; eauto|]. split.
    + destruct G1 as (c & b & ->). reflexivity.
    + apply holds_vec. exists (Cell NNone 1 None (PVec es)), es. split; [unfold s2; cbn; apply nth_app_new|]. split; [reflexivity|].
      eapply Forall2_impl'; [|exact F1]. intros. eapply holds_keeps; [apply grown_keeps; exact G2|assumption].
Qed.

(** ** Instances *)

Lemma names_call n x s i j v ka f args bs s1 : names s x i j v -> v_val v = Some ka -> live s ka -> payload_at s ka (PFn f) -> evals_each cf (S n) args (held ka s) bs s1 ->
  outcome cf (S (S n)) (ECall (EId x) args) s = mbind (call_ cf (interp cf n) ka None Slot bs) (fun o => ret (o, None)) s1.
Proof.
  intros N V L Pf Ea. unfold outcome. rewrite eval_S. cbn [eval_]. unfold plain, do_call, both.
  pose proof (ident_value cf n x s i j v ka N V L) as I. unfold outcome in I.
  unfold mbind at 1. unfold mbind at 1. unfold mbind at 1. rewrite I. unfold ret at 1. cbn [fst snd].
  destruct (grows_payload [] _ _ _ _ (grows_held [] s ka) Pf) as (c & C & Vc).
  rewrite (bind_step _ _ _ _ _ (get_cell_ok _ _ _ C)), Vc. rewrite (bind_step _ _ _ _ _ (evals_each_mapM cf _ _ _ _ _ Ea)). rewrite call_S. reflexivity.
Qed.

Lemma functions_nodup k : NoDup (map fst (functions_of k)).
Proof. destruct k; cbn; repeat constructor; cbn; intuition discriminate. Qed.
Lemma function_of o : exists j p, nth_error (functions_of (op_class o)) j = Some (op_name o, [p]).
Proof. destruct o as [|[]]; [exists 0|exists 0|exists 1]; eexists; reflexivity. Qed.
Lemma op_flagged o : flagged (op_class o).
Proof. destruct o; discriminate. Qed.

(** A new instance: its flags are [v]. *)
Definition new_instance k ka v s a s' : Prop :=
  grows s s' /\ host s' = set_states (b_states (host s) ++ [Some v]) (host s) /\ live s' a /\
  forall o, op_class o = k -> exists p fa, method s' a ka (Some (length (b_states (host s)))) (op_name o) [p] fa /\ live s' fa.

Lemma instantiates n k ka fe s v s1 flags : flagged k -> cur_rv s = None -> offers s k ka -> evals cf (S (S (S (S n)))) fe (held ka s) v s1 -> offers s1 k ka -> strings s1 v flags ->
  exists a s', outcome cf (S (S (S (S (S n))))) (ECall (EId (class_name k)) [fe]) s = Ret (Some a, None) s' /\ new_instance k ka v s1 a s'.
Proof.
  intros K Rv ((i & j & w & N & V) & L & (f & b & e & p & l & Ca) & _) E (_ & _ & (f1 & b1 & e1 & p1 & l1 & Ca1) & Hn1 & _) Sv.
  assert (Rv1 : cur_rv s1 = None).
  { apply (fr_rv _ _ _ _ (evals_fr cf (bob_tame sg out listing pow exists_ files) _ _ _ _ _ E) eq_refl). rewrite (gr_rv _ _ _ (grows_held [] s ka)). exact Rv. }
  destruct (instance_made sg out listing pow exists_ files k n f1 b1 e1 p1 l1 _ _ s1 ka v flags K Ca1 eq_refl (functions_nodup k) Rv1 Hn1 Sv) as (cs & Rn & Q).
  exists (length (cells s1) + length (functions_of k)), (made f1 p1 l1 ka v (functions_of k) cs s1). split.
  - rewrite (names_call _ _ s i j w ka f [fe] [v] s1 N V L ltac:(destruct Ca; assumption)); [|econstructor; [exact E|constructor]]. fold cf in Q. rewrite (bind_step _ _ _ _ _ Q). reflexivity.
  - split; [eapply made_grows; eauto|]. split; [reflexivity|]. split.
    { unfold live, made. cbn [cells set_host set_scopes set_envs set_cells]. exists (Cell NNone 1 None (PInst ka (S (length (scopes s1))) (Some (length (b_states (host s1)))))). split; [|reflexivity].
      pose proof (renamed_length _ _ _ Rn) as Lc. rewrite nth_error_app2 by lia. rewrite Lc.
      replace (length (cells s1) + length (functions_of k) - length (cells s1)) with (length (proto_cells (S (length (scopes s1))) (length (envs s1)) (functions_of k))) by (rewrite proto_cells_length; lia). apply nth_app_new. }
    intros o <-. destruct (function_of o) as (jj & q & Ej). exists q.
    destruct (made_method f1 p1 l1 ka v flags _ cs s1 jj _ _ Sv Rn (functions_nodup _) Ej) as (M & Lv). eauto.
Qed.

(** ** Build methods *)

Lemma performs n o e s i s1 k d ps fa p arg v s2 srcs : cur_rv s = None -> evals cf n e s i s1 -> method s1 i k d (op_name o) ps fa -> live s1 fa ->
  evals cf (S n) arg (held fa s1) v s2 -> method s2 i k d (op_name o) [p] fa -> class_val (host s2) (op_class o) = Some k -> (forall b, class_val (host s2) b = Some k -> b = op_class o) ->
  strings s2 v srcs -> takes sg out o srcs ->
  exists r s', outcome cf (S (S n)) (method_call e (op_name o) [arg]) s = Ret (Some r, None) s' /\ gives sg out o s' srcs r /\ asked_for [op_asks o d v r] s2 s' /\ grows s2 s'.
Proof.
  intros Rv E M Lv Ea M2 K U Sv Nf.
  assert (Rv2 : cur_rv s2 = None).
  { apply (fr_rv _ _ _ _ (evals_fr cf (bob_tame sg out listing pow exists_ files) _ _ _ _ _ Ea) eq_refl). rewrite (gr_rv _ _ _ (grows_held [] s1 fa)).
    exact (fr_rv _ _ _ _ (evals_fr cf (bob_tame sg out listing pow exists_ files) _ _ _ _ _ E) eq_refl Rv). }
  destruct (method_call_does sg out listing pow exists_ files o n s2 i k d p fa v srcs Rv2 M2 K U Sv Nf) as (r & s' & Q & A & G). exists r, s'.
  split; [|split; [exact G|split; [|eapply after_grows; eauto]]].
  - assert (Es : evals_each cf (S n) [arg] (held fa s1) [v] s2) by (econstructor; [exact Ea|constructor]).
    pose proof (method_call_enters sg out listing pow exists_ files n e (op_name o) [arg] s i s1 k d ps fa [v] s2 E M Lv Es) as W. fold cf in W, Q. rewrite W, (bind_step _ _ _ _ _ Q). reflexivity.
  - destruct A as (cs & new & bs & _ & ->). unfold asked_for. cbn. repeat split; reflexivity.
Qed.
End Scripts.
