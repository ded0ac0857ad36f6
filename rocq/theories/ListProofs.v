(** * Evaluation that only adds: elements, maps, listings; and assignments. *)

From Coq Require Import ZArith Arith Ascii String Lia Bool List.
From Verif Require Import Base FlAst FlState FlInterp FlMonad SpecFlamingo FlEqProofs SpecScript SpecFrame SpecScope SpecImport FlOpProofs FlExprProofs FlFrame FlBalance FlMemberProofs FlHigherProofs FlSeqProofs
  FlScopeProofs FlAssignProofs FlReturnProofs FlFuel FlExternProofs Bob SpecBob SpecProject BobProofs BobCallProofs BobMethodProofs BobInstanceProofs BobScriptProofs BobFailProofs GrowProofs.
Import ListNotations.
Local Open Scope nat_scope.

Lemma upd_app_r {A} (x : A) : forall l r i, length l <= i -> upd i x (l ++ r) = l ++ upd (i - length l) x r.
Proof. induction l as [|y l IH]; intros r i L; cbn [app length] in *; [now rewrite Nat.sub_0_r|]. destruct i as [|i]; [lia|]. cbn. f_equal. apply IH. lia. Qed.

(** ** Numbers *)

Lemma decimal_denotes : forall l l0 n z, denotes l0 n -> decimal n l = Some z -> denotes (l0 ++ l) z.
Proof.
  induction l as [|c l IH]; intros l0 n z D E; cbn [decimal] in E.
  - injection E as <-. now rewrite app_nil_r.
  - replace (l0 ++ c :: l) with ((l0 ++ [c]) ++ l) by (rewrite <- app_assoc; reflexivity). destruct (byte_eqb c "_"%char) eqn:U.
    + unfold byte_eqb in U. apply Ascii.eqb_eq in U. subst c. eapply IH; [constructor; exact D|exact E].
    + destruct ((0 <=? Z.of_N (N_of_ascii c) - 48)%Z && (Z.of_N (N_of_ascii c) - 48 <=? 9)%Z) eqn:R; [|discriminate]. apply andb_true_iff in R as (R1 & R2). apply Z.leb_le in R1, R2.
      eapply IH; [|exact E]. constructor; [exact D|]. split; [lia|]. apply N2Z.inj. rewrite Z2N.id by lia. lia.
Qed.
Lemma number_denotes k z : number k = Some z -> k <> [] /\ denotes k z /\ (z < 2 ^ 63)%Z.
Proof.
  unfold number. destruct k as [|c k]; [discriminate|]. destruct (decimal 0 (c :: k)) as [y|] eqn:E; [|discriminate]. destruct (y <? 2 ^ 63)%Z eqn:L; [|discriminate]. intro Q.
  assert (y = z) by congruence. subst y. split; [discriminate|]. split; [exact (decimal_denotes _ [] 0%Z z denotes_nil E)|now apply Z.ltb_lt].
Qed.

Section Lists.
Context {H : Type}.
Variable cf : conf H.
Implicit Types s t u : st H.

Lemma num_evals n k z s : number k = Some z -> evals cf (S n) (ENum k) s (length (cells s)) (set_cells (cells s ++ [Cell NNone 1 None (PInt z)]) s).
Proof.
  intros E. destruct (number_denotes k z E) as (N & D & L). exists None. rewrite eval_S. cbn [eval_]. unfold plain.
  rewrite (bind_step _ _ s (Some (length (cells s))) (set_cells (cells s ++ [Cell NNone 1 None (PInt z)]) s)); [reflexivity|].
  assert (P : parse_number cf k s = Ret z s).
  { destruct k as [|c l]; [congruence|]. unfold parse_number.
    assert (A : byte_eqb c "-"%char = false).
    { unfold byte_eqb. destruct (Ascii.eqb_spec c "-"%char) as [->|]; auto. exfalso. apply (denotes_no_minus _ _ D). now left. }
    rewrite A. cbn [andb negb assert]. unfold mbind at 1, ret. pose proof (parse_denotes cf _ _ D [] s) as Q. rewrite app_nil_r in Q. rewrite Q. apply Z.ltb_lt in L. rewrite L. reflexivity. }
  rewrite (bind_step _ _ _ _ _ P). reflexivity.
Qed.

(** A string that has not been released. *)
Definition gives_string n e s w : Prop := exists a s', evals cf n e s a s' /\ grows s s' /\ host s' = host s /\ holds s' (DStr w) a /\ usable s' a.

Lemma usable_live s a : usable s a -> live s a.
Proof. intros (c & E & L & _). exists c. auto. Qed.
Lemma forall2_at {A B} (P : A -> B -> Prop) : forall l m i x, Forall2 P l m -> nth_error l i = Some x -> exists y, nth_error m i = Some y /\ P x y.
Proof. intros l m i x F. revert i. induction F as [|a b l m Q F IH]; intros [|i] E; cbn in *; try discriminate; [injection E as <-; eauto|auto]. Qed.

Lemma nth_gives n x k z s i j v a ws w : names s x i j v -> v_val v = Some a -> live s a -> usable_strings s a ws -> number k = Some z -> nth_error ws (Z.to_nat z) = Some w ->
  gives_string (S (S n)) (EIndex (EId x) (ENum k)) s w.
Proof.
  intros N V L (es & (c & C & Vc) & F) Ek Ew. destruct (number_denotes k z Ek) as (_ & D & _). pose proof (denotes_nonneg _ _ D) as Nz.
  destruct (forall2_at _ _ _ _ _ F Ew) as (e & Ee & He & Ue).
  set (s1 := held a s). set (s2 := set_cells (cells s1 ++ [Cell NNone 1 None (PInt z)]) s1).
  assert (E1 : evals cf (S n) (EId x) s a s1) by (exists None; exact (ident_value cf n x s i j v a N V L)).
  pose proof (num_evals n k z s1 Ek) as E2. fold s2 in E2.
  assert (G1 : grows s s1) by apply grows_held. assert (G2 : grows s1 s2) by apply alloc_grows. assert (G : grows s s2) by (eapply grows_trans; [exact G1|exact G2]).
  assert (Pa : payload_at s1 a (PVec es)) by (eapply grows_payload; [exact G1|]; exists c; auto). pose proof (grows_payload _ _ _ _ _ G2 Pa) as Pa2.
  destruct Pa as (c1 & C1 & V1), Pa2 as (c2 & C2 & V2).
  assert (Le : live s2 e) by (eapply grows_live; [exact G|now apply usable_live]).
  exists e, (held e s2). assert (G3 : grows s (held e s2)) by (eapply grows_trans; [exact G|apply grows_held]). split; [|split; [exact G3|split; [|split]]].
  - exists None. rewrite eval_S. cbn [eval_]. unfold plain. rewrite (bind_step _ _ s (Some e) (held e s2)); [reflexivity|]. unfold do_index.
    rewrite (bind_step _ _ _ _ _ (evals_value _ _ _ _ _ _ E1)). rewrite (bind_step _ _ _ _ _ (get_cell_ok _ _ _ C1)), V1.
    rewrite (bind_step _ _ _ _ _ (evals_value _ _ _ _ _ _ E2)). rewrite (bind_step _ _ s2 (Cell NNone 1 None (PInt z)) s2) by (apply get_cell_ok; unfold s2; cbn; apply nth_app_new). cbn [c_val].
    rewrite (bind_step _ _ _ _ _ (get_cell_ok _ _ _ C2)), V2. rewrite (bind_step _ _ s2 e (held e s2)); [reflexivity|].
    unfold vec_index. replace (0 <=? z)%Z with true by lia. pose proof (nth_lt _ _ _ Ee) as Lz. replace (Z.of_nat (length es) <=? z)%Z with false by lia. rewrite Ee.
    rewrite (bind_step _ _ _ _ _ (FlScopeProofs.incref_live _ _ Le)). reflexivity.
  - rewrite held_host. unfold s2, s1. cbn. apply held_host.
  - eapply grows_holds; [exact G3|exact He].
  - eapply grows_usable; [exact G3|exact He|exact Ue].
Qed.

Lemma name_gives n x s i j v a w : names s x i j v -> v_val v = Some a -> usable s a -> holds s (DStr w) a -> gives_string (S n) (EId x) s w.
Proof.
  intros N V U Hd. exists a, (held a s). assert (G : grows s (held a s)) by apply grows_held. split; [exists None; exact (ident_value cf n x s i j v a N V (usable_live _ _ U))|].
  split; [exact G|]. split; [apply held_host|]. split; [eapply grows_holds; [exact G|exact Hd]|eapply grows_usable; [exact G|exact Hd|exact U]].
Qed.
Lemma text_gives n w s : gives_string (S n) (EStr w) s w.
Proof. destruct (make_str_evals cf n w s) as (s' & E & G & Hh & Hd & U & _). exists (length (cells s)), s'. auto. Qed.
Lemma gives_more n n' e s w : n <= n' -> gives_string n e s w -> gives_string n' e s w.
Proof. intros L (a & s' & E & R). exists a, s'. split; [eapply evals_more; [exact L|exact E]|exact R]. Qed.
Lemma lists_more n n' e s ws : n <= n' -> lists cf n e s ws -> lists cf n' e s ws.
Proof. intros L (a & s' & E & R). exists a, s'. split; [eapply evals_more; [exact L|exact E]|exact R]. Qed.

(** ** Literals *)

(** In every state after [s] with the same host. *)
Definition after s (P : st H -> Prop) : Prop := forall t, grows s t -> host t = host s -> P t.
Lemma after_now s P : after s P -> P s. Proof. intro A. apply A; [apply grows_refl|reflexivity]. Qed.
Lemma after_later s t P : grows s t -> host t = host s -> after s P -> after t P.
Proof. intros G Q A u Gu Qu. apply A; [eapply grows_trans; [exact G|exact Gu]|congruence]. Qed.

Lemma each_gives n : forall es ws s, Forall2 (fun e w => after s (fun t => gives_string n e t w)) es ws ->
  exists vs s', mapM (value (interp cf n)) es s = Ret vs s' /\ grows s s' /\ host s' = host s /\ Forall2 (fun w v => holds s' (DStr w) v /\ usable s' v) ws vs.
Proof.
  induction es as [|e es IH]; intros ws s F; inversion F as [|? w ? ws' Q F']; subst; cbn [mapM].
  - exists [], s. split; [reflexivity|]. split; [apply grows_refl|]. split; [reflexivity|constructor].
  - destruct (after_now _ _ Q) as (a & s1 & E1 & G1 & H1 & D1 & U1).
    destruct (IH ws' s1) as (vs & s2 & E2 & G2 & H2 & D2). { eapply forall2_impl; [|exact F']. intros x y A. eapply after_later; eauto. }
    exists (a :: vs), s2. rewrite (bind_step _ _ _ _ _ (evals_value _ _ _ _ _ _ E1)), (bind_step _ _ _ _ _ E2). split; [reflexivity|]. split; [eapply grows_trans; [exact G1|exact G2]|]. split; [congruence|].
    constructor; [|exact D2]. split; [eapply grows_holds; [exact G2|exact D1]|eapply grows_usable; [exact G2|exact D1|exact U1]].
Qed.
Lemma each_lists n es ws s : Forall2 (fun e w => after s (fun t => gives_string n e t w)) es ws -> lists cf (S n) (EVec es) s ws.
Proof.
  intros F. destruct (each_gives n es ws s F) as (vs & s1 & E & G & Hh & D). set (s2 := set_cells (cells s1 ++ [Cell NNone 1 None (PVec vs)]) s1).
  assert (G2 : grows s1 s2) by apply alloc_grows. exists (length (cells s1)), s2. split; [|split; [eapply grows_trans; [exact G|exact G2]|split; [exact Hh|split; [|split]]]].
  - exists None. rewrite eval_S. cbn [eval_]. unfold plain. rewrite (bind_step _ _ s (Some (length (cells s1))) s2); [reflexivity|]. rewrite (bind_step _ _ _ _ _ E). reflexivity.
  - exists vs. split; [eexists; split; [unfold s2; cbn; apply nth_app_new|reflexivity]|]. eapply forall2_impl; [|exact D]. intros x y (A & B).
    split; [eapply grows_holds; [exact G2|exact A]|eapply grows_usable; [exact G2|exact A|exact B]].
  - eexists. split; [unfold s2; cbn; apply nth_app_new|cbn; lia].
  - apply fresh_spare. eapply fresh_earlier; [exact G|]. unfold fresh. lia.
Qed.

(** Maps from strings to strings. *)
Definition string_map s (a : addr) (m : list (bytes * bytes)) : Prop :=
  exists kvs, payload_at s a (PMap kvs) /\ Forall2 (fun kv ab => holds s (DStr (fst kv)) (fst ab) /\ holds s (DStr (snd kv)) (snd ab)) m kvs.
Lemma pairs_give n : 0 < n -> forall es m s (acc : list (addr * addr)) (ks : list bytes), Forall2 (fun e kv => after s (fun t => gives_string n (fst e) t (fst kv)) /\ after s (fun t => gives_string n (snd e) t (snd kv))) es m ->
  Forall2 (fun k ab => holds s (DStr k) (fst ab)) ks acc -> distinct_keys (ks ++ map fst m) = true ->
  exists kvs s', map_items cf (interp cf n) es acc s = Ret (acc ++ kvs) s' /\ grows s s' /\ host s' = host s /\
    Forall2 (fun kv ab => holds s' (DStr (fst kv)) (fst ab) /\ holds s' (DStr (snd kv)) (snd ab)) m kvs.
Proof.
  intros Pn. induction es as [|[ke ve] es IH]; intros m s acc ks F Fk Nd; inversion F as [|? [k v] ? m' (Qk & Qv) F']; subst; cbn [map_items fst snd] in *.
  - exists [], s. rewrite app_nil_r. split; [reflexivity|]. split; [apply grows_refl|]. split; [reflexivity|constructor].
  - destruct (after_now _ _ Qk) as (a & s1 & E1 & G1 & H1 & D1 & U1). rewrite (bind_step _ _ _ _ _ (evals_value _ _ _ _ _ _ E1)).
    assert (Fk1 : Forall2 (fun k ab => holds s1 (DStr k) (fst ab)) ks acc) by (eapply forall2_impl; [|exact Fk]; intros x0 y0 Q0; eapply grows_holds; [exact G1|exact Q0]).
    assert (Nk : ~ In k ks).
    { clear - Nd. induction ks as [|x ks IH]; [intros []|]. cbn [app distinct_keys map] in Nd. apply andb_true_iff in Nd as (A & B). intros [->|I]; [|now apply IH].
      apply negb_true_iff in A. rewrite existsb_app in A. apply orb_false_iff in A as (_ & A). cbn in A. rewrite bytes_eqb_refl in A. discriminate. }
    assert (Hk : has_key (interp cf n) a (map fst acc) s1 = Ret false s1).
    { pose proof (has_key_fresh cf n s1 a (DStr k) D1 I (combine (map fst acc) (map DStr ks))) as W.
      replace (map fst (combine (map fst acc) (map DStr ks))) with (map fst acc) in W.
      2: { clear - Fk. induction Fk; cbn; [reflexivity|f_equal; auto]. }
      apply W. clear - Fk1 Nk Pn. induction Fk1 as [|x y ks acc Q F IH]; cbn; constructor.
      - cbn. split; [exact Q|]. split; [exact I|]. split; [lia|]. intro Sm. inversion Sm. subst. apply Nk. now left.
      - apply IH. intro J. apply Nk. now right. }
    rewrite (bind_step _ _ _ _ _ Hk). cbv iota.
    destruct (Qv s1 G1 H1) as (b & s2 & E2 & G2 & H2 & D2 & U2). rewrite (bind_step _ _ _ _ _ (evals_value _ _ _ _ _ _ E2)).
    assert (G12 : grows s s2) by (eapply grows_trans; [exact G1|exact G2]).
    destruct (IH m' s2 (acc ++ [(a, b)]) (ks ++ [k])) as (kvs & s3 & E3 & G3 & H3 & D3).
    + eapply forall2_impl; [|exact F']. intros x y (A & B). split; (eapply after_later; [exact G12|congruence|assumption]).
    + apply Forall2_app; [eapply forall2_impl; [|exact Fk1]; intros x0 y0 Q0; eapply grows_holds; [exact G2|exact Q0]|]. constructor; [|constructor]. cbn [fst]. eapply grows_holds; [exact G2|exact D1].
    + rewrite <- app_assoc. exact Nd.
    + exists ((a, b) :: kvs), s3. rewrite E3, <- app_assoc. split; [reflexivity|]. split; [eapply grows_trans; [exact G12|exact G3]|]. split; [congruence|]. constructor; [|exact D3].
      cbn [fst snd]. split; [eapply grows_holds; [exact G3|]; eapply grows_holds; [exact G2|exact D1]|eapply grows_holds; [exact G3|exact D2]].
Qed.
Lemma map_gives n es m s : 0 < n -> Forall2 (fun e kv => after s (fun t => gives_string n (fst e) t (fst kv)) /\ after s (fun t => gives_string n (snd e) t (snd kv))) es m -> distinct_keys (map fst m) = true ->
  exists a s', evals cf (S n) (EMap es) s a s' /\ grows s s' /\ host s' = host s /\ string_map s' a m /\ fresh s a.
Proof.
  intros Pn F Nd. destruct (pairs_give n Pn es m s [] [] F (Forall2_nil _) Nd) as (kvs & s1 & E & G & Hh & D). set (s2 := set_cells (cells s1 ++ [Cell NNone 1 None (PMap kvs)]) s1).
  assert (G2 : grows s1 s2) by apply alloc_grows. exists (length (cells s1)), s2. split; [|split; [eapply grows_trans; [exact G|exact G2]|split; [exact Hh|split]]].
  - exists None. rewrite eval_S. cbn [eval_]. unfold plain. rewrite (bind_step _ _ s (Some (length (cells s1))) s2); [reflexivity|]. rewrite (bind_step _ _ _ _ _ E). reflexivity.
  - exists kvs. split; [eexists; split; [unfold s2; cbn; apply nth_app_new|reflexivity]|]. eapply forall2_impl; [|exact D]. intros x y (A & B). split; eapply grows_holds; first [exact G2|assumption].
  - eapply fresh_earlier; [exact G|]. unfold fresh. lia.
Qed.

(** ** Assignments *)

(** The [j]-th variable of scope [i], [v], whose value was at [o], now has the value at [b]. *)
Record assigns (v : var) (i j : nat) (o b : addr) s s' : Prop := Assigns {
  as_cells : forall d c, nth_error (cells s) d = Some c -> exists c', nth_error (cells s') d = Some c' /\ c_val c' = c_val c /\ c_owner c' = c_owner c /\ (d <> o -> c_cnt c' = c_cnt c) /\ (d <> b -> c_name c' = c_name c);
  as_scopes : forall k c, nth_error (scopes s) k = Some c -> exists c', nth_error (scopes s') k = Some c' /\ sc_alive c' = sc_alive c /\ sc_owner c' = sc_owner c /\
    sc_vars c' = if k =? i then upd j (Var (v_key v) (v_static v) (Some b)) (sc_vars c) else sc_vars c;
  as_bufs : bufs s' = bufs s;
  as_bodies : bodies s' = bodies s;
  as_envs : envs s' = envs s;
  as_env : cur_env s' = cur_env s;
  as_rv : cur_rv s' = cur_rv s;
  as_members : members s' = members s;
  as_host : host s' = host s;
}.

Lemma names_at s x i j v : names s x i j v -> exists c, nth_error (scopes s) i = Some c /\ sc_alive c = true /\ nth_error (sc_vars c) j = Some v /\ v_key v = x.
Proof.
  intros (inner & outer & O & Fi & (be & af & (c & Ec & A & Q) & L & Kx & Fb)). exists c. split; [exact Ec|]. split; [exact A|]. split; [|exact Kx]. rewrite Q. rewrite nth_error_app2 by lia. rewrite L, Nat.sub_diag. reflexivity.
Qed.

Lemma assign_ok n x e s i j v o p b s1 : cur_rv s = None -> names s x i j v -> v_val v = Some o -> payload_at s o p -> no_parts p -> evals cf (S n) e s b s1 -> grows s s1 -> b < length (cells s1) ->
  exists s', executes cf (S (S n)) (SAssign (LId x) x e) s s' /\ assigns v i j o b s1 s'.
Proof.
  intros Rv N Vo Po Np E G Lb. pose proof (grows_payload _ _ _ _ _ G Po) as Po1. set (s2 := dropped o s1). destruct (dropped_rest o s1) as (B1 & B2 & B3 & B4 & B5 & B6 & B7 & B8 & B9). fold s2 in B1, B2, B3, B4, B5, B6, B7, B8, B9.
  assert (N1 : names s1 x i j v) by (eapply grows_names; [exact G|intros []|congruence|exact N]).
  destruct (names_at _ _ _ _ _ N1) as (c & Ec & A & Ev & Kx).
  destruct (nth_error (cells s1) b) as [cb|] eqn:Cb; [|apply nth_error_None in Cb; lia]. destruct (dropped_cell o s1 b cb Cb) as (cb2 & Cb2 & Vb2 & Nb2 & Ob2 & Qb2). fold s2 in Cb2.
  assert (E2 : nth_error (scopes s2) i = Some c) by (rewrite B3; exact Ec).
  set (s3 := set_scopes (upd i (Scope (upd j (Var (v_key v) (v_static v) (Some b)) (sc_vars c)) (sc_owner c) (sc_class c) true) (scopes s2)) s2).
  set (s' := set_cells (upd b (Cell (NKey i x) (c_cnt cb2) (c_owner cb2) (c_val cb2)) (cells s3)) s3).
  assert (Cells : forall d cd, nth_error (cells s1) d = Some cd -> exists c', nth_error (cells s') d = Some c' /\ c_val c' = c_val cd /\ c_owner c' = c_owner cd /\ (d <> o -> c_cnt c' = c_cnt cd) /\ (d <> b -> c_name c' = c_name cd)).
  { intros d cd Ed. destruct (dropped_cell o s1 d cd Ed) as (c1 & C1 & V1 & M1 & O1 & Q1). fold s2 in C1. unfold s'. cbn. destruct (Nat.eq_dec d b) as [->|Nd].
    - rewrite upd_same by (eapply nth_lt; exact C1). rewrite C1 in Cb2. injection Cb2 as <-. eexists. split; [reflexivity|]. cbn. split; [exact V1|]. split; [exact O1|]. split; [|congruence].
      intros No. rewrite Q1. destruct (Nat.eq_dec b o); [contradiction|reflexivity].
    - rewrite upd_other by auto. exists c1. split; [exact C1|]. split; [exact V1|]. split; [exact O1|]. split; [|auto]. intros No. rewrite Q1. destruct (Nat.eq_dec d o); [contradiction|reflexivity]. }
  assert (Keep : assigns v i j o b s1 s').
  { split; auto; cbn; auto. intros k ck Ek. rewrite B3. destruct (Nat.eqb_spec k i) as [->|Nk].
    - rewrite upd_same by (eapply nth_lt; exact Ek). rewrite Ec in Ek. injection Ek as <-. eexists. split; [reflexivity|]. cbn. auto.
    - rewrite upd_other by auto. exists ck. auto. }
  exists s'. split; [|exact Keep].
  destruct Po as (co & Co & Vc). destruct Po1 as (co1 & Co1 & Vc1). destruct (Cells _ _ Co1) as (co' & Co' & Vc' & _).
  unfold executes. rewrite stmt_S. cbn [stmt_]. rewrite (bind_step _ _ _ _ _ (returning_no s Rv)). cbv beta iota. unfold do_assign.
  rewrite (bind_step _ _ s (Some (VVar i j v), o) s).
  2: { cbn [target]. rewrite (bind_step _ _ _ _ _ (env_find_names _ _ _ _ _ N)). rewrite (bind_step _ _ s o s); [reflexivity|]. unfold vref_val. rewrite Vo. reflexivity. }
  cbn [fst snd]. rewrite (bind_step _ _ _ _ _ (get_cell_ok _ _ _ Co)).
  assert (Rest : (rhs <- value (interp cf (S n)) e ;; (decref cf (r_fuel (interp cf (S n))) o ;; set_vref (VVar i j v) rhs) ;;
      c' <- get_cell o ;;
      (if negb (kind_eqb (kind_of (c_val c')) (kind_of (c_val co))) && negb (kind_eqb (kind_of (c_val co)) TNone) && negb (kind_eqb (kind_of (c_val c')) TNone)
       then error cf (lit "cannot assign " ++ type_str (c_val c') ++ lit " to " ++ quoted x ++ lit " (" ++ type_str (c_val co) ++ lit ")") else ret tt))%fl s = Ret tt s').
  { rewrite (bind_step _ _ _ _ _ (evals_value _ _ _ _ _ _ E)). rewrite (bind_step _ _ s1 tt s').
    2: { rewrite interp_fuel. rewrite (bind_step _ _ _ _ _ (decref_ok cf n o s1 p (ex_intro _ co1 (conj Co1 Vc1)) Np)). fold s2. cbn [set_vref]. unfold var_set_val.
         rewrite (bind_step _ _ _ _ _ (get_scope_ok _ _ _ E2 A)). rewrite Ev. rewrite (bind_step _ _ s2 tt s3).
         2: { unfold write_var. rewrite (bind_step _ _ _ _ _ (get_scope_ok _ _ _ E2 A)). rewrite Ev. unfold put_scope, modify, s3. reflexivity. }
         rewrite (bind_step _ _ s3 cb2 s3) by (apply get_cell_ok; exact Cb2). unfold put_cell, modify, s'. rewrite Kx. reflexivity. }
    rewrite (bind_step _ _ _ _ _ (get_cell_ok _ _ _ Co')). rewrite Vc', Vc1, Vc. replace (kind_eqb (kind_of p) (kind_of p)) with true by (destruct (kind_of p); reflexivity). reflexivity. }
  destruct (c_val co) eqn:Q; try exact Rest. exfalso. rewrite <- Vc in Np. exact Np.
Qed.

Section Assigned.
Variables (v : var) (i j : nat) (o b : addr) (s s' : st H) (A : assigns v i j o b s s').
Lemma assigns_payload d p : payload_at s d p -> payload_at s' d p.
Proof. intros (c & E & V). destruct (as_cells _ _ _ _ _ _ _ A _ _ E) as (c' & E' & V' & _). exists c'. split; [exact E'|congruence]. Qed.
Lemma assigns_keeps : keeps s s'.
Proof. split; [|rewrite (as_bufs _ _ _ _ _ _ _ A); auto]. intros d c E. destruct (as_cells _ _ _ _ _ _ _ A _ _ E) as (c' & E' & V' & _). eauto. Qed.
Lemma assigns_holds x d : holds s x d -> holds s' x d.
Proof. apply holds_keeps. exact assigns_keeps. Qed.
Lemma assigns_live d : d <> o -> live s d -> live s' d.
Proof. intros N (c & E & L). destruct (as_cells _ _ _ _ _ _ _ A _ _ E) as (c' & E' & _ & _ & Q & _). exists c'. split; [exact E'|]. now rewrite (Q N). Qed.
Lemma assigns_kept x : name_kept s x -> name_kept s' x.
Proof. apply kept_name. intros k c E. destruct (as_scopes _ _ _ _ _ _ _ A _ _ E) as (c' & E' & Al & _). eauto. Qed.
Lemma assigns_usable d : d <> o -> d <> b -> usable s d -> usable s' d.
Proof.
  intros No Nb (c & E & L & K). destruct (as_cells _ _ _ _ _ _ _ A _ _ E) as (c' & E' & _ & _ & Qc & Qn). exists c'. split; [exact E'|]. rewrite (Qc No), (Qn Nb). split; [exact L|now apply assigns_kept].
Qed.
Lemma assigns_vars k vs : vars s k vs -> vars s' k (if k =? i then upd j (Var (v_key v) (v_static v) (Some b)) vs else vs).
Proof. intros (c & E & Al & <-). destruct (as_scopes _ _ _ _ _ _ _ A _ _ E) as (c' & E' & Al' & _ & Q). exists c'. split; [exact E'|]. split; [congruence|exact Q]. Qed.
Lemma assigns_open l : open s l -> open s' l.
Proof. unfold open. now rewrite (as_envs _ _ _ _ _ _ _ A), (as_env _ _ _ _ _ _ _ A). Qed.
Lemma assigns_can : can_call s -> can_call s'.
Proof.
  intros (R & p & l & cp & O & E & Al). split; [now rewrite (as_rv _ _ _ _ _ _ _ A)|]. destruct (as_scopes _ _ _ _ _ _ _ A _ _ E) as (c' & E' & Al' & _). exists p, l, c'.
  split; [now apply assigns_open|]. split; [exact E'|congruence].
Qed.
Lemma assigns_provides k x p m : m <> o -> provides s k x p m -> provides s' k x p m.
Proof.
  intros No ((bf & af & E & F) & c & C & L & V). split; [exists bf, af; now rewrite (as_members _ _ _ _ _ _ _ A)|]. destruct (as_cells _ _ _ _ _ _ _ A _ _ C) as (c' & C' & V' & _ & Q & _). exists c'.
  split; [exact C'|]. split; [now rewrite (Q No)|congruence].
Qed.
(** Other variables are as they were. *)
Hypothesis Old : exists vs, vars s i vs /\ nth_error vs j = Some v.
Lemma upd_keys (vs : list var) x : nth_error vs j = Some v -> Forall (fun w => v_key w <> x) vs -> Forall (fun w => v_key w <> x) (upd j (Var (v_key v) (v_static v) (Some b)) vs).
Proof.
  intros E F. rewrite Forall_forall in *. intros w I. apply In_nth_error in I as (k & Ek). destruct (Nat.eq_dec k j) as [->|N].
  - rewrite upd_same in Ek by (eapply nth_lt; eauto). injection Ek as <-. cbn. apply F. eapply nth_error_In; exact E.
  - rewrite upd_other in Ek by auto. apply F. eapply nth_error_In; exact Ek.
Qed.
Lemma assigns_lacks x k : lacks s x k -> lacks s' x k.
Proof.
  intros (vs & V & F). exists (if k =? i then upd j (Var (v_key v) (v_static v) (Some b)) vs else vs). split; [now apply assigns_vars|]. destruct (Nat.eqb_spec k i) as [->|]; [|exact F].
  apply upd_keys; [|exact F]. destruct Old as (ws & (c & E & _ & <-) & Q), V as (c' & E' & _ & <-). congruence.
Qed.
Lemma assigns_declares x k l w : x <> v_key v -> declares s x k l w -> declares s' x k l w.
Proof.
  intros Nx (be & af & V & L & K & F). pose proof (assigns_vars _ _ V) as V'. destruct (Nat.eqb_spec k i) as [->|]; [|exists be, af; auto].
  assert (Q : nth_error (be ++ w :: af) j = Some v) by (destruct Old as (ws & (c & E & _ & <-) & Q), V as (c' & E' & _ & E2); congruence).
  assert (Njl : j <> l). { intros ->. rewrite nth_error_app2, L, Nat.sub_diag in Q by lia. cbn in Q. injection Q as <-. congruence. }
  set (nv := Var (v_key v) (v_static v) (Some b)) in *.
  destruct (Nat.lt_ge_cases j l) as [Lj|Lj].
  - exists (upd j nv be), af. split; [rewrite <- upd_app_l by lia; exact V'|]. split; [now rewrite upd_length|]. split; [exact K|]. apply upd_keys; [|exact F]. rewrite nth_error_app1 in Q by lia. exact Q.
  - exists be, (upd (j - S l) nv af). split; [|auto]. replace (be ++ w :: upd (j - S l) nv af) with (upd j nv (be ++ w :: af)); [exact V'|].
    rewrite upd_app_r by lia. f_equal. replace (j - length be) with (S (j - S l)) by lia. reflexivity.
Qed.
Lemma assigns_names x k l w : x <> v_key v -> names s x k l w -> names s' x k l w.
Proof.
  intros Nx (li & r & O & F & D). exists li, r. split; [now apply assigns_open|]. split; [|now apply assigns_declares]. eapply Forall_impl; [|exact F]. intros. now apply assigns_lacks.
Qed.
Lemma assigns_new : declares s (v_key v) i j v -> declares s' (v_key v) i j (Var (v_key v) (v_static v) (Some b)).
Proof.
  intros (be & af & V & L & K & F). pose proof (assigns_vars _ _ V) as V'. rewrite Nat.eqb_refl in V'. exists be, af. split; [|auto].
  replace (be ++ Var (v_key v) (v_static v) (Some b) :: af) with (upd j (Var (v_key v) (v_static v) (Some b)) (be ++ v :: af)); [exact V'|]. rewrite <- L. clear. induction be; cbn; congruence.
Qed.
End Assigned.
End Lists.

(** ** Listings *)

Section Listing.
Variables (sg : bool) (out : bytes) (listing : bytes -> option (list bytes)) (pow : Z -> Z -> option Z) (exists_ : bytes -> bool) (files : bytes -> file).
Let cf := bob_conf sg out listing pow exists_ files.
Implicit Types s t : st bob.

(** [Fs] is the class bob.fl declared, and its [list] the function Bob knows. *)
Definition has_fs s : Prop :=
  exists i j v k p fa, names s (lit "Fs") i j v /\ v_val v = Some k /\ live s k /\ static_method s k (lit "list") [p] fa /\ live s fa /\ class_val (host s) CFs = Some k /\ b_list (host s) = Some fa.

Lemma grows_static xs s t k x ps fa : grows_by xs s t -> static_method s k x ps fa -> static_method t k x ps fa.
Proof.
  intros G (g & sc & j & f & e & p & l & vs & Pk & Kg & Sg & (cs & Sc & As & Os) & D & Pf & Kf & Pm & Nm & (c & C & Oc) & Ef & Ee & Vs). destruct (grows_vars _ _ _ _ _ G Vs) as (ws & V' & _).
  exists g, sc, j, f, e, p, l, ws. split; [eapply grows_payload; eauto|]. do 2 (split; [assumption|]). split.
  { destruct (gr_scopes _ _ _ G _ _ Sc) as (sc' & S1 & A1 & O1 & _). exists sc'. split; [exact S1|]. split; congruence. }
  split; [eapply grows_declares; eauto; discriminate|].
  split; [eapply grows_payload; eauto|]. do 2 (split; [assumption|]). split; [eapply grows_name; eauto; congruence|]. split.
  - destruct Pf as (c0 & C0 & V0). rewrite C in C0. injection C0 as <-. destruct (gr_cells _ _ _ G _ _ C) as (c' & E' & _ & _ & Q). destruct (Q f V0 ltac:(congruence)) as (_ & Qo). exists c'. split; [exact E'|congruence].
  - split; [assumption|]. split; [exact (gr_envs _ _ _ G _ _ Ee)|exact V'].
Qed.
Lemma grows_fs xs s t : grows_by xs s t -> ~ In (lit "Fs") xs -> class_val (host t) CFs = class_val (host s) CFs -> b_list (host t) = b_list (host s) -> has_fs s -> has_fs t.
Proof.
  intros G Nx Qc Ql (i & j & v & k & p & fa & N & V & Lk & M & Lf & K & L). exists i, j, v, k, p, fa. split; [eapply grows_names; eauto; congruence|]. split; [exact V|]. split; [eapply grows_live; eauto|].
  split; [eapply grows_static; eauto|]. split; [eapply grows_live; eauto|]. split; congruence.
Qed.

Lemma mapM_usable : forall l s, exists es s', mapM (fun p => make_str (cstr p)) l s = Ret es s' /\ grown s s' /\ host s' = host s /\ Forall2 (fun x e => holds s' (DStr x) e /\ usable s' e) (map cstr l) es.
Proof.
  induction l as [|p l IH]; intro s; cbn [mapM map].
  - exists [], s. split; [reflexivity|]. split; [apply grown_refl|]. split; [reflexivity|constructor].
  - set (s1 := set_cells (cells s ++ [Cell NNone 1 None (PStr (length (bufs s)) (length (cstr p)))]) (set_bufs (bufs s ++ [Some (cstr p)]) s)).
    assert (E1 : make_str (cstr p) s = Ret (length (cells s)) s1) by reflexivity.
    assert (G1 : grown s s1) by (exists [Cell NNone 1 None (PStr (length (bufs s)) (length (cstr p)))], [Some (cstr p)]; apply st_ext; reflexivity).
    assert (H1 : holds s1 (DStr (cstr p)) (length (cells s)) /\ usable s1 (length (cells s))).
    { assert (C : nth_error (cells s1) (length (cells s)) = Some (Cell NNone 1 None (PStr (length (bufs s)) (length (cstr p))))) by (unfold s1; cbn; apply nth_app_new). split.
      - eexists. split; [exact C|]. cbn. exists (length (bufs s)), (length (cstr p)), (cstr p). split; [reflexivity|]. split; [apply nth_app_new|]. split; [lia|]. now rewrite firstn_all.
      - eexists. split; [exact C|]. split; [reflexivity|exact I]. }
    destruct (IH s1) as (es & s2 & E2 & G2 & Q2 & F). exists (length (cells s) :: es), s2. rewrite (bind_step _ _ _ _ _ E1), (bind_step _ _ _ _ _ E2). split; [reflexivity|]. split; [eapply grown_trans; eauto|].
    split; [rewrite Q2; reflexivity|]. pose proof (grown_grows _ _ G2) as Gr. constructor; [|exact F]. destruct H1 as (A & B). split; [eapply grows_holds; eauto|eapply grows_usable; eauto].
Qed.
Lemma fs_list_usable s a path l : holds s (DStr path) a -> listing (cstr path) = Some l ->
  exists r s', fs_list listing [a] s = Ret r s' /\ grown s s' /\ host s' = host s /\ usable_strings s' r (map cstr l) /\ live s' r /\ fresh s r.
Proof.
  intros Ha Hl. destruct Ha as (c & C & b & n & u & V & U & L & Q).
  destruct (mapM_usable l s) as (es & s1 & E & G & Q1 & F). set (s2 := set_cells (cells s1 ++ [Cell NNone 1 None (PVec es)]) s1). exists (length (cells s1)), s2.
  assert (G1 : grown s1 s2).
  { exists [Cell NNone 1 None (PVec es)], []. rewrite app_nil_r. apply st_ext; reflexivity. }
  pose proof (grown_grows _ _ G) as Gs. pose proof (grown_grows _ _ G1) as Gs1.
  split; [|split; [eapply grown_trans; [exact G|exact G1]|split; [exact Q1|split; [|split]]]].
  - unfold fs_list. rewrite (bind_step _ _ _ _ _ (get_cell_ok _ _ _ C)), V. rewrite (bind_step _ _ s (cstr path) s).
    2: { unfold read_upto. rewrite U. apply Nat.leb_le in L. rewrite L. cbn [orb]. now rewrite Q. }
    rewrite Hl. rewrite (bind_step _ _ _ _ _ E). reflexivity.
  - exists es. split; [eexists; split; [apply nth_app_new|reflexivity]|]. eapply forall2_impl; [|exact F]. intros x e (A & B). split; [eapply grows_holds; eauto|eapply grows_usable; eauto].
  - eexists. split; [apply nth_app_new|reflexivity].
  - eapply fresh_earlier; [exact Gs|]. unfold fresh. lia.
Qed.

(** [Fs.list("path")]. *)
Lemma entries_lists n s path l : cur_rv s = None -> has_fs s -> listing (cstr path) = Some l -> lists cf (S (S (S n))) (method_call (EId (lit "Fs")) (lit "list") [EStr path]) s (map cstr l).
Proof.
  intros Rv (i & j & v & k & p & fa & N & V & Lk & M & Lf & K & Bl) Hl.
  set (s1 := held k s). assert (E1 : evals cf (S n) (EId (lit "Fs")) s k s1) by (exists None; exact (ident_value cf n _ s i j v k N V Lk)).
  assert (G1 : grows s s1) by apply grows_held. assert (H1 : host s1 = host s) by apply held_host.
  assert (M1 : static_method s1 k (lit "list") [p] fa) by (eapply grows_static; eauto). assert (Lf1 : live s1 fa) by (eapply grows_live; eauto).
  set (s1h := held fa s1). assert (G1h : grows s1 s1h) by apply grows_held. assert (H1h : host s1h = host s1) by apply held_host.
  destruct (text_gives cf (S n) path s1h) as (a & s2 & E2 & G2 & H2 & Hp & _).
  assert (G02 : grows s s2) by (eapply grows_trans; [exact G1|]; eapply grows_trans; [exact G1h|exact G2]). assert (H02 : host s2 = host s) by congruence.
  assert (M2 : static_method s2 k (lit "list") [p] fa) by (eapply grows_static; [exact G02|exact M]).
  assert (Rv2 : cur_rv s2 = None) by (rewrite (gr_rv _ _ _ G02); exact Rv).
  pose proof M2 as (g & sc & j' & f & en & q & l' & vs & (ck & Ck & Vk) & Kg & Sg & (cs' & Sc & As & Os) & D & Pf & Kf & Pm & _ & (c2 & C2 & O2) & Ef & Ee & (cp & Ep & Ap & _)).
  assert (La : a < length (cells s2)) by (destruct Hp as (c & C & _); eapply nth_lt; exact C).
  assert (On : on_scope s2 (Some k) = None) by (unfold on_scope; now rewrite Ck, Vk).
  destruct (extern_gives_to cf fa f en (q :: l') (Some k) [a] s2 q l' cp) as (cs & Rt & G); auto.
  { cbn. eapply nth_lt; exact Ck. } { now rewrite On. } { rewrite Pm. reflexivity. }
  specialize (G (interp cf (S n))). cbv zeta in G. rewrite On in G. destruct G as (G & _). set (t := FlExternProofs.inside f en (q :: l') None [a] cs s2) in *.
  pose proof Rt as (Rn & _).
  assert (Kt : keeps s2 t). { destruct (renamed_keeps _ _ _ Rn) as (A & B). split; [exact A|exact B]. }
  assert (Bt : belongs t fa k).
  { destruct (renamed_cell _ _ _ _ _ Rn C2) as (c3 & C3 & V3 & _ & O3). exists sc. split; [exists c3; split; [exact C3|congruence]|exists cs'; split; [unfold t, FlExternProofs.inside; cbn; now apply nth_app_l|auto]]. }
  assert (Wt : owner_class t k k).
  { right. split; [reflexivity|]. destruct Kt as (A & _). destruct (A _ _ Ck) as (c3 & C3 & V3). exists g. split; [exists c3; split; [exact C3|congruence]|exact Kg]. }
  destruct (fs_list_usable t a path l ltac:(eapply holds_keeps; [exact Kt|exact Hp]) Hl) as (r & t1 & X & Gr & Ht & Sr & Lr & Fr).
  assert (Y : external_fn_cb sg out listing fa [a] t = Ret (Some r) t1).
  { rewrite (external_list sg out listing t fa k [a] Bt Wt); [|change (host t) with (host s2); congruence|change (host t) with (host s2); congruence]. unfold mbind. rewrite X. reflexivity. }
  assert (F : fr None true t t1) by (eapply external_fr; exact Y).
  assert (P1 : payload_at t1 fa (PFn f)).
  { destruct Pf as (c & C & Vc). destruct (keeps_trans _ _ _ Kt (grown_keeps _ _ Gr)) as (A & _). destruct (A _ _ C) as (c' & C' & V'). exists c'. split; [exact C'|congruence]. }
  specialize (G r t1 Y F P1). set (s' := set_rv None _) in G.
  assert (Gc : grows s2 s').
  { eapply (call_grows s2 t t1 [a] cs (params_scope f [a]) en (q :: l') (length (scopes s2) :: q :: l')); try reflexivity; auto.
    - eapply str_renamable; exact Hp.
    - now apply grown_grows. }
  assert (Gs : grows s s') by (eapply grows_trans; [exact G02|exact Gc]).
  exists r, s'. split; [|split; [exact Gs|split; [|split; [|split]]]].
  - exists None. assert (Es : evals_each cf (S (S n)) [EStr path] s1h [a] s2) by (econstructor; [exact E2|constructor]).
    pose proof (static_call_enters sg out listing pow exists_ files (S n) (EId (lit "Fs")) (lit "list") [EStr path] s k s1 [p] fa [a] s2 E1 M1 Lf1 Es) as W. unfold outcome in W. fold cf in W. rewrite W.
    rewrite (bind_step _ _ _ _ _ G). reflexivity.
  - unfold s'. cbn. rewrite Ht. exact H02.
  - exact Sr.
  - exact Lr.
  - apply fresh_spare. unfold fresh in *. unfold t, FlExternProofs.inside in Fr. cbn in Fr. rewrite (renamed_length _ _ _ Rn) in Fr. eapply fresh_earlier; [exact G02|exact Fr].
Qed.
End Listing.
