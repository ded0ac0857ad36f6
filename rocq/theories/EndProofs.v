(** * What a build file leaves to Bob when it has been run. *)

From Coq Require Import ZArith Arith Ascii String Lia Bool List.
From Verif Require Import Base Cmd SpecCmd FlAst FlState FlInterp FlMonad SpecFlamingo SpecScript SpecFrame SpecScope SpecImport SpecEnd FlEqProofs FlFrame FlBalance FlScopeProofs FlImportProofs
  Install Main SpecMain MainProofs Bob BobProofs BobCallProofs Project ProjectProofs RecipeProofs.
Import ListNotations.
Local Open Scope nat_scope.

(** ** The names at the outermost level *)
Section Names.
Context {H : Type}.
Variable cf : conf H.
Hypothesis T : tame cf.
Notation fr := (@fr H).

Definition keys (c : scope) : list bytes := map v_key (sc_vars c).
Lemma keys_declared c : keys c = map fst (declared c).
Proof. unfold keys, declared. rewrite map_map. reflexivity. Qed.
Lemma fr_keys r s s' i c : fr None r s s' -> nth_error (scopes s) i = Some c -> exists c', nth_error (scopes s') i = Some c' /\ keys c' = keys c.
Proof. intros F E. destruct (fr_scopes _ _ _ _ F _ _ E) as (c' & E' & _ & D & _). exists c'. split; auto. rewrite !keys_declared. now rewrite D by discriminate. Qed.

(** One name more. *)
Definition more (i : nat) (x : bytes) (s s' : st H) : Prop := forall c, nth_error (scopes s) i = Some c -> exists c', nth_error (scopes s') i = Some c' /\ keys c' = keys c ++ [x].
Lemma parts_more i x b s s' : (exists j s1, add_var i x b s = Ret j s1 /\ fr None true s1 s') -> more i x s s'.
Proof.
  intros (j & s1 & E & F) c C. apply add_var_inv in E as (c0 & C0 & _ & _ & ->). rewrite C in C0. injection C0 as <-.
  destruct (fr_keys _ _ _ i (Scope (sc_vars c ++ [Var x b None]) (sc_owner c) (sc_class c) true) F) as (c' & E' & K).
  - cbn. rewrite upd_same by (eapply nth_lt; eauto). reflexivity.
  - exists c'. split; auto. rewrite K. unfold keys. cbn. now rewrite map_app.
Qed.
Lemma fun_more n k st x ps ss s u s' i : top s = Some i -> r_fun (interp cf n) k st x ps ss s = Ret u s' -> more i x s s'.
Proof. destruct n; [discriminate|]. intros Tp E. eapply parts_more. exact (fun_parts cf T _ (interp_good cf T n) _ _ _ _ _ _ _ _ _ Tp E). Qed.

Lemma resolve_located path dirs : located cf dirs path false (resolve cf dirs (file_name path)).
Proof.
  assert (X : (exists before d after, dirs = before ++ d :: after /\ Forall (fun d => cf_exists cf (in_dir d (file_name path)) = false) before /\ cf_exists cf (in_dir d (file_name path)) = true) \/
    Forall (fun d => cf_exists cf (in_dir d (file_name path)) = false) dirs).
  { induction dirs as [|d dirs [(b & e & a & -> & F & E)|F]]; [right; constructor| |]; destruct (cf_exists cf (in_dir d (file_name path))) eqn:Q.
    - left. exists [], d, (b ++ e :: a). auto.
    - left. exists (d :: b), e, a. repeat split; auto.
    - left. exists [], d, dirs. auto.
    - right. auto. }
  destruct X as [(b & d & a & E & F & Q)|F].
  - rewrite E, resolve_first by auto. eapply located_in; eauto.
  - rewrite resolve_none by auto. now constructor.
Qed.
Lemma slashes_name' l : slashes l ++ lit ".fl" = file_name l.
Proof. destruct l; [reflexivity|]. now apply slashes_name. Qed.

(** Nothing is being returned, nor will be. *)
Definition going (ss : list stmt) (s : st H) : Prop := cur_body s = None \/ (cur_rv s = None /\ Forall (fun y => quiet y = true) ss).
Lemma going_returning ss s : going ss s -> returning s = Ret false s.
Proof. unfold returning. intros [->|(-> & _)]; [reflexivity|]. now destruct (cur_body s). Qed.

Lemma exec_names_going : forall n ss s s' i c, top s = Some i -> going ss s -> nth_error (scopes s) i = Some c -> exec cf n ss s = Ret tt s' ->
  exists xs c', leaves cf (import_paths s) ss xs /\ nth_error (scopes s') i = Some c' /\ keys c' = keys c ++ xs.
Proof.
  induction n as [|n IHn]; (induction ss as [|x ss IH]; intros s s' i c Tp B C E; [injection E as <-; exists [], c; rewrite app_nil_r; split; [constructor|auto]|]); [discriminate|].
  unfold exec in E. cbn [iterM] in E. apply bind_ret_inv in E as ([] & s1 & E1 & E).
  pose proof (interp_good cf T (S n)) as G. pose proof (g_stmt _ G _ _ _ _ _ Tp E1) as F.
  assert (Tp1 : top s1 = Some i) by (eapply top_kept; eauto). assert (B1 : going ss s1).
  { destruct B as [B|(B & Q)]; [left; rewrite (fr_body _ _ _ _ F); exact B|right]. inversion Q as [|? ? Q1 Q2]; subst. split; [apply (fr_rv _ _ _ _ F); auto|exact Q2]. }
  destruct (fr_scopes _ _ _ _ F _ _ C) as (c1 & C1 & _).
  destruct (IH s1 s' i c1 Tp1 B1 C1 E) as (xs & c' & L & C' & K'). rewrite (fr_paths _ _ _ _ F) in L.
  assert (Step : (exists y b a, declaration y x b a /\ more i y s s1) \/ (exists rel path, x = SImport rel path) \/
    ((forall y b a, ~ declaration y x b a) /\ (forall rel path, x <> SImport rel path) /\ exists r, fr None r s s1)).
  { clear IH L C' K' E F. rewrite stmt_S in E1. unfold stmt_ in E1.
    destruct x; try (rewrite (bind_step _ _ _ _ _ (going_returning _ _ B)) in E1; cbv beta iota in E1).
    - right; right. split; [intros y b a D; inversion D|]. split; [discriminate|]. apply bind_ret_inv in E1 as (j & s2 & Q & E1). apply ret_inv in E1 as (_ & ->).
      apply (g_block _ (interp_good cf T n)) in Q as (Q & _). eauto.
    - left. do 3 eexists. split; [constructor|]. eapply fun_more; eauto.
    - left. do 3 eexists. split; [constructor|]. eapply fun_more; eauto.
    - left. do 3 eexists. split; [constructor|]. eapply fun_more; eauto.
    - right; right. split; [intros y b a D; inversion D|]. split; [discriminate|]. apply (do_print_fr cf T _ (interp_good cf T n)) in E1. eauto.
    - right; right. split; [intros y b a D; inversion D|]. split; [discriminate|]. apply (do_return_fr cf _ (interp_good cf T n)) in E1. eauto.
    - right; right. split; [intros y b a D; inversion D|]. split; [discriminate|]. apply (do_assert_fr cf T _ (interp_good cf T n)) in E1. eauto.
    - left. do 3 eexists. split; [constructor|]. eapply parts_more. exact (let_parts cf _ (interp_good cf T n) _ _ _ _ _ _ _ Tp E1).
    - right; right. split; [intros y b a D; inversion D|]. split; [discriminate|]. apply (do_assign_fr cf T _ (interp_good cf T n)) in E1. eauto.
    - right; right. split; [intros y b a D; inversion D|]. split; [discriminate|]. apply bind_ret_inv in E1 as (r & s2 & Q & E1). apply ret_inv in E1 as (_ & ->).
      apply (g_eval _ (interp_good cf T n)) in Q. eauto.
    - right; left. eauto. }
  destruct Step as [(y & b & a & D & M)|[(rel & path & ->)|(ND & NI & r & F')]].
  - destruct (M c C) as (c2 & C2 & K2). rewrite C1 in C2. injection C2 as <-. exists (y :: xs), c'. split; [econstructor; eauto|]. split; auto. rewrite K', K2. now rewrite <- app_assoc.
  - rewrite stmt_S in E1. unfold stmt_ in E1. rewrite (bind_step _ _ _ _ _ (going_returning _ _ B)) in E1. cbv beta iota in E1. unfold do_import in E1. cbv zeta in E1.
    destruct (has_byte NUL (slashes path)); [now destruct (raise_not_ret _ _ _ _ _ E1)|]. apply bind_ret_inv in E1 as (ps & s2 & Q & E1). apply gets_inv in Q as (-> & ->). rewrite slashes_name' in E1.
    set (f := if rel then file_name path else resolve cf (import_paths s) (file_name path)) in *.
    assert (Lo : located cf (import_paths s) path rel f) by (unfold f; destruct rel; [constructor|apply resolve_located]).
    pose proof (import_file_imports cf n f s) as Im. rewrite E1 in Im.
    inversion Im as [why Ef Er|ss' s0 s2 Ef En Ex Es|ss' s0 s2 msg Ef En Ex Sd Er|ss' s0 o Ef En Ex Bad Eo]; subst.
    + unfold reports in Er. now destruct (raise_not_ret _ _ _ _ _ Er).
    + destruct En as (_ & _ & _ & Q1 & Q2 & Q3 & _ & _ & Q4 & _ & Q5 & _).
      destruct (IHn ss' s0 s2 i c) as (xs' & c2 & L2 & C2 & K2); auto; [unfold top in *; now rewrite Q2, Q3|left; exact Q4|now rewrite Q1|]. rewrite Q5 in L2.
      cbn in C1. rewrite C1 in C2. injection C2 as <-. exists (xs' ++ xs), c'. split; [econstructor; eauto|]. split; auto. rewrite K', K2. now rewrite <- app_assoc.
    + now destruct (raise_not_ret _ _ _ _ _ Er).
    + destruct Bad as [Q|[Q|(w & Q)]]; discriminate.
  - destruct (fr_keys _ _ _ _ _ F' C) as (c2 & C2 & K2). rewrite C1 in C2. injection C2 as <-. exists xs, c'. split; [apply leaves_other; auto|]. split; auto. now rewrite K', K2.
Qed.

Lemma exec_names n ss s s' i c : top s = Some i -> cur_body s = None -> nth_error (scopes s) i = Some c -> exec cf n ss s = Ret tt s' ->
  exists xs c', leaves cf (import_paths s) ss xs /\ nth_error (scopes s') i = Some c' /\ keys c' = keys c ++ xs.
Proof. intros Tp B. apply exec_names_going; [exact Tp|now left]. Qed.

Lemma run_names n dirs h ss s : run cf n dirs h ss = Ret tt s -> exists xs, leaves cf dirs ss xs /\ declares_names s 0 xs /\ open s [0].
Proof.
  unfold run, create. rewrite (bind_step _ _ _ _ _ (members_new _)). cbn [modify]. intro E.
  match type of E with exec _ _ _ ?x = _ => set (s0 := x) in * end.
  destruct (exec_names n ss s0 s 0 (Scope [] None false true) eq_refl eq_refl eq_refl E) as (xs & c & L & C & K). exists xs. split; [exact L|]. split; [exists c; auto|].
  assert (F : fr (Some 0) false s0 s).
  { unfold exec in E. eapply (iterM_top false); [|reflexivity|exact E]. intros y t u' t' Tt Q'. apply (g_stmt _ (interp_good cf T n)) with (i := 0) in Q'; auto. destruct (quiet y); [now apply fr_loud|exact Q']. }
  unfold open. rewrite (fr_env _ _ _ _ F). apply (fr_envs _ _ _ _ F). reflexivity.
Qed.
End Names.

(** ** Setting up *)
Section Setup.
Variables (sg : bool) (out : bytes) (listing : bytes -> option (list bytes)) (pow : Z -> Z -> option Z) (exists_ : bytes -> bool) (files : bytes -> file).
Notation cf := (bob_conf sg out listing pow exists_ files).
Notation IMP := (lit "__bob_has_been_imported__").

Lemma setup_accepts n prefix ss s : setup sg out listing pow exists_ files n prefix ss = Ret tt s ->
  run cf n [prefix ++ lit "/share/flamingo/import"; lit "import"] fresh_bob ss = Ret tt s /\
  exists xs, leaves cf [prefix ++ lit "/share/flamingo/import"; lit "import"] ss xs /\ declares_names s 0 xs /\ In IMP xs.
Proof.
  unfold setup. intro E. change (import_dirs prefix) with [prefix ++ lit "/share/flamingo/import"; lit "import"] in E.
  destruct (run cf n _ fresh_bob ss) as [[] t|t| |u|] eqn:R; try discriminate.
  destruct (run_names cf (bob_tame _ _ _ _ _ _) _ _ _ _ _ R) as (xs & L & (c & C & K) & O).
  unfold top_vars in E. apply bind_ret_inv in E as (vs & t1 & E1 & E). rewrite (bind_step _ _ _ _ _ (cur_stack_ok _ _ O)) in E1. cbn [rev app] in E1.
  apply bind_ret_inv in E1 as (c' & t2 & E1 & E2). apply get_scope_inv in E1 as (-> & C'). apply ret_inv in E2 as (-> & ->).
  destruct C' as (C' & _). rewrite C in C'. injection C' as <-.
  destruct (existsb _ (sc_vars c)) eqn:X; [|discriminate]. apply ret_inv in E as (_ & ->). split; [reflexivity|]. exists xs. split; [exact L|]. split; [exists c; auto|].
  apply existsb_exists in X as (v & I & Q). apply bytes_eqb_eq in Q. rewrite <- K. unfold IMPORTED in Q. rewrite <- Q. now apply in_map.
Qed.
Lemma setup_refuses n prefix ss s' : setup sg out listing pow exists_ files n prefix ss = Fail s' -> exists s,
  (run cf n [prefix ++ lit "/share/flamingo/import"; lit "import"] fresh_bob ss = Ret tt s /\
    (exists xs, leaves cf [prefix ++ lit "/share/flamingo/import"; lit "import"] ss xs /\ declares_names s 0 xs /\ ~ In IMP xs) /\
    told_last (lit "Invalid build file; missing 'bob' import") s s') \/
  (run cf n [prefix ++ lit "/share/flamingo/import"; lit "import"] fresh_bob ss = Fail s /\ exists msg, said s msg /\ told_last (lit "Failed to run build program: " ++ msg) s s').
Proof.
  unfold setup. intro E. change (import_dirs prefix) with [prefix ++ lit "/share/flamingo/import"; lit "import"] in E.
  destruct (run cf n _ fresh_bob ss) as [[] t|t| |u|] eqn:R; try discriminate; exists t; [left|right].
  - split; [reflexivity|]. destruct (run_names cf (bob_tame _ _ _ _ _ _) _ _ _ _ _ R) as (xs & L & (c & C & K) & O).
    unfold top_vars, mbind in E. rewrite (cur_stack_ok _ _ O) in E. cbn [rev app] in E. destruct (get_scope 0 t) as [c0 t0|t0| |u|] eqn:G; try discriminate.
    + apply get_scope_inv in G as (-> & C' & _). rewrite C in C'. injection C' as <-. cbn [ret] in E. destruct (existsb _ (sc_vars c)) eqn:X; [discriminate|]. injection E as <-.
      split; [|reflexivity]. exists xs. split; [exact L|]. split; [exists c; auto|]. rewrite <- K. intro I. apply in_map_iff in I as (v & Q & I).
      assert (Y : existsb (fun v => bytes_eqb (v_key v) IMPORTED) (sc_vars c) = true) by (apply existsb_exists; exists v; split; auto; apply bytes_eqb_eq; exact Q). congruence.
    + exfalso. unfold get_scope in G. rewrite C in G. destruct (sc_alive c); discriminate.
  - split; [reflexivity|]. injection E as <-. destruct (err t) as [m|] eqn:Er; eexists; (split; [|reflexivity]); unfold said; auto.
Qed.
Lemma setup_names n prefix ss s xs : run cf n [prefix ++ lit "/share/flamingo/import"; lit "import"] fresh_bob ss = Ret tt s -> (exists vs, vars s 0 vs /\ map v_key vs = xs) ->
  exists s', (In IMP xs -> setup sg out listing pow exists_ files n prefix ss = Ret tt s) /\
    (~ In IMP xs -> setup sg out listing pow exists_ files n prefix ss = Fail s' /\ told_last (lit "Invalid build file; missing 'bob' import") s s').
Proof.
  intros R (vs & V & <-). unfold setup. change (import_dirs prefix) with [prefix ++ lit "/share/flamingo/import"; lit "import"]. rewrite R.
  destruct (run_names cf (bob_tame _ _ _ _ _ _) _ _ _ _ _ R) as (xs & _ & _ & O). eexists. rewrite (bind_step _ _ _ _ _ (top_vars_ok _ _ O V)). split; intro I.
  - assert (Y : existsb (fun v => bytes_eqb (v_key v) IMPORTED) vs = true) by (apply existsb_exists; apply in_map_iff in I as (v & Q & I); exists v; split; auto; apply bytes_eqb_eq; exact Q).
    rewrite Y. reflexivity.
  - destruct (existsb _ vs) eqn:X; [exfalso; apply I|split; reflexivity]. apply existsb_exists in X as (v & Iv & Q). apply bytes_eqb_eq in Q. unfold IMPORTED in Q. rewrite <- Q. now apply in_map.
Qed.
End Setup.

(** ** The variables Bob reads *)
Lemma top_vars_out (s : st bob) i vs : outermost s i -> vars s i vs -> top_vars s = Ret vs s.
Proof.
  intros (l & O) (c & E & A & Q). unfold top_vars. rewrite (bind_step _ _ _ _ _ (cur_stack_ok _ _ O)). rewrite rev_app_distr. cbn [rev app]. rewrite (bind_step _ _ _ _ _ (get_scope_ok _ _ _ E A)). now rewrite Q.
Qed.
Lemma top_val_global s x a p : globally s x a -> payload_at s a p -> top_val x s = Ret (Some p) s.
Proof.
  intros (i & j & v & O & (b & af & V & _ & K & F) & Va) (c & C & Q). unfold top_val. rewrite (bind_step _ _ _ _ _ (top_vars_out _ _ _ O V)). rewrite (find_top_ok x v af b F K), Va.
  rewrite (bind_step _ _ _ _ _ (get_cell_ok _ _ _ C)). now rewrite Q.
Qed.
Lemma top_val_missing s x : nowhere_global s x -> top_val x s = Ret None s.
Proof.
  intros (i & O & vs & V & F). unfold top_val. rewrite (bind_step _ _ _ _ _ (top_vars_out _ _ _ O V)).
  replace (find_top x vs) with (@None var); [reflexivity|]. clear - F. induction F as [|v vs N F IH]; [reflexivity|]. cbn [find_top]. destruct (bytes_eqb (v_key v) x) eqn:Q; [apply bytes_eqb_eq in Q; contradiction|exact IH].
Qed.

Lemma str_at_any s v a : holds s v a -> str_at a s = Ret (match v with DStr t => Some t | _ => None end) s.
Proof.
  destruct v; intro Hv; try (now apply str_at_holds); destruct Hv as (ce & C & V); unfold str_at; rewrite (bind_step _ _ _ _ _ (get_cell_ok _ _ _ C)).
  1,2,3,6,7: now rewrite V.
  all: destruct V as (es & V & _); now rewrite V.
Qed.
Definition as_string (v : data) : option bytes := match v with DStr t => Some t | _ => None end.
Lemma strs_any s : forall vs es, Forall2 (holds s) vs es -> mapM str_at es s = Ret (map as_string vs) s.
Proof.
  induction vs as [|x l IH]; intros es F; inversion F as [|? ? ? ? Hx F']; subst; cbn [mapM map]; [reflexivity|].
  rewrite (bind_step _ _ _ _ _ (str_at_any _ _ _ Hx)), (bind_step _ _ _ _ _ (IH _ F')). reflexivity.
Qed.
Lemma pairs_any s : forall m kvs, Forall2 (fun kv ab => holds s (fst kv) (fst ab) /\ holds s (snd kv) (snd ab)) m kvs ->
  mapM (fun kv => (k <- str_at (fst kv) ;; v <- str_at (snd kv) ;; ret (k, v))%fl) kvs s = Ret (map (fun kv => (as_string (fst kv), as_string (snd kv))) m) s.
Proof.
  induction m as [|x m IH]; intros kvs F; inversion F as [|? ab ? kvs' (Hk & Hv) F']; subst; cbn [mapM map]; [reflexivity|].
  rewrite (bind_step _ _ s (as_string (fst x), as_string (snd x)) s).
  2: { rewrite (bind_step _ _ _ _ _ (str_at_any _ _ _ Hk)), (bind_step _ _ _ _ _ (str_at_any _ _ _ Hv)). reflexivity. }
  rewrite (bind_step _ _ _ _ _ (IH _ F')). reflexivity.
Qed.

(** ** The program to run *)
Notation RUN := (lit "run").
Lemma run_missing s : nowhere_global s RUN -> exists r, run_vector s = Ret r s /\ forall S e argv, s_run S = r -> bob_run S e argv = RValue (-1).
Proof. intro N. exists RunMissing. unfold run_vector. rewrite (bind_step _ _ _ _ _ (top_val_missing _ _ N)). split; [reflexivity|]. intros S e argv R. unfold bob_run. now rewrite R. Qed.
Lemma run_none s a : globally s RUN a -> holds s DNone a -> exists r, run_vector s = Ret r s /\ forall S e argv, s_run S = r -> bob_run S e argv = RValue 0.
Proof. intros G (c & C & V). exists RunNone. unfold run_vector. rewrite (bind_step _ _ _ _ _ (top_val_global _ _ _ _ G (ex_intro _ c (conj C eq_refl)))), V. split; [reflexivity|]. intros S e argv R. unfold bob_run. now rewrite R. Qed.
Lemma run_other s a v : globally s RUN a -> holds s v a -> v <> DNone -> (forall l, v <> DVec l) ->
  exists r, run_vector s = Ret r s /\ forall S e argv, s_run S = r -> bob_run S e argv = RValue (-1).
Proof.
  intros G Hv N1 N2. exists RunOther. split; [|intros S e argv R; unfold bob_run; now rewrite R].
  destruct v; try contradiction; try (now destruct (N2 l eq_refl)); destruct Hv as (ce & C & V); unfold run_vector; rewrite (bind_step _ _ _ _ _ (top_val_global _ _ _ _ G (ex_intro _ ce (conj C eq_refl)))).
  all: first [now rewrite V|destruct V as (x & V); first [now rewrite (proj1 V)|destruct V as (y & u & V); now rewrite (proj1 V)]].
Qed.
Lemma run_vec s a l : globally s RUN a -> holds s (DVec l) a -> run_vector s = Ret (RunVec (map as_string l)) s.
Proof.
  intros G Hv. apply holds_vec in Hv as (c & es & C & V & F). unfold run_vector. rewrite (bind_step _ _ _ _ _ (top_val_global _ _ _ _ G (ex_intro _ c (conj C eq_refl)))), V.
  rewrite (bind_step _ _ _ _ _ (strs_any _ _ _ F)). reflexivity.
Qed.
Lemma run_bad s a l v : globally s RUN a -> holds s (DVec l) a -> In v l -> no_string v ->
  exists r, run_vector s = Ret r s /\ forall S e argv, s_run S = r -> bob_run S e argv = RValue (-1).
Proof.
  intros G Hv I N. exists (RunVec (map as_string l)). split; [eapply run_vec; eauto|]. intros S e argv R. unfold bob_run. rewrite R.
  replace (run_args (map as_string l)) with (@None (list bytes)); [reflexivity|]. clear - I N. induction l as [|w l IH]; [easy|]. cbn [map run_args]. destruct I as [->|I].
  - destruct v; try reflexivity. now edestruct N.
  - rewrite <- IH by auto. now destruct (as_string w).
Qed.
Lemma run_strings s a l : globally s RUN a -> holds s (DVec (map DStr l)) a ->
  exists r, run_vector s = Ret r s /\
  forall S e argv, s_run S = r -> bob_run S e argv = match map cstr l ++ user_words argv with [] => RValue 0 | ws => exec_inplace S e ws end.
Proof.
  intros G Hv. exists (RunVec (map as_string (map DStr l))). split; [eapply run_vec; eauto|]. intros S e argv R. unfold bob_run. rewrite R, map_map.
  assert (X : run_args (map (fun x => as_string (DStr x)) l) = Some (map cstr l)) by (apply run_args_some; exists l; auto). rewrite X. rewrite argv_added. reflexivity.
Qed.

(** ** The install map *)
Notation INSTALL := (lit "install").
Notation nothing st := {| i_map := None; i_prefix := i_prefix st |}.
Lemma install_missing s : nowhere_global s INSTALL -> exists r, install_var s = Ret r s /\ forall st prefix, setup_install_map st r prefix = (false, nothing st).
Proof. intro N. exists None. unfold install_var. rewrite (bind_step _ _ _ _ _ (top_val_missing _ _ N)). split; reflexivity. Qed.
Lemma install_none s a : globally s INSTALL a -> holds s DNone a -> exists r, install_var s = Ret r s /\ forall st prefix, setup_install_map st r prefix = (true, nothing st).
Proof. intros G (c & C & V). exists (Some SNone). unfold install_var. rewrite (bind_step _ _ _ _ _ (top_val_global _ _ _ _ G (ex_intro _ c (conj C eq_refl)))), V. split; reflexivity. Qed.
Lemma install_other s a v : globally s INSTALL a -> holds s v a -> v <> DNone -> (forall l, v <> DMap l) ->
  exists r, install_var s = Ret r s /\ forall st prefix, setup_install_map st r prefix = (false, nothing st).
Proof.
  intros G Hv N1 N2. exists (Some SOther). split; [|reflexivity].
  destruct v; try contradiction; try (now destruct (N2 l eq_refl)); destruct Hv as (ce & C & V); unfold install_var; rewrite (bind_step _ _ _ _ _ (top_val_global _ _ _ _ G (ex_intro _ ce (conj C eq_refl)))).
  all: first [now rewrite V|destruct V as (x & V); first [now rewrite (proj1 V)|destruct V as (y & u & V); now rewrite (proj1 V)]].
Qed.
Lemma install_pairs s a l : globally s INSTALL a -> holds s (DMap l) a -> install_var s = Ret (Some (SMap (map (fun kv => (as_string (fst kv), as_string (snd kv))) l))) s.
Proof.
  intros G Hv. apply holds_map in Hv as (c & es & C & V & F). unfold install_var. rewrite (bind_step _ _ _ _ _ (top_val_global _ _ _ _ G (ex_intro _ c (conj C eq_refl)))), V.
  rewrite (bind_step _ _ _ _ _ (pairs_any _ _ _ F)). reflexivity.
Qed.
Lemma install_bad s a l k v : globally s INSTALL a -> holds s (DMap l) a -> In (k, v) l -> no_string k \/ no_string v ->
  exists r, install_var s = Ret r s /\ forall st prefix, setup_install_map st r prefix = (false, nothing st).
Proof.
  intros G Hv I N. eexists. split; [eapply install_pairs; eauto|]. intros st prefix. unfold setup_install_map. destruct l as [|x l]; [easy|]. cbn [map].
  change ((as_string (fst x), as_string (snd x)) :: map (fun kv => (as_string (fst kv), as_string (snd kv))) l) with (map (fun kv => (as_string (fst kv), as_string (snd kv))) (x :: l)).
  replace (all_strings (map (fun kv => (as_string (fst kv), as_string (snd kv))) (x :: l))) with (@None (list (bytes * bytes))); [reflexivity|].
  generalize dependent (x :: l). clear - N. intros l _ I. induction l as [|w l IH]; [easy|]. cbn [map all_strings]. destruct I as [->|I].
  - cbn. destruct N as [N|N]; [destruct k; try reflexivity; now edestruct N|destruct k; try reflexivity; destruct v; try reflexivity; now edestruct N].
  - destruct (as_string (fst w)), (as_string (snd w)); try reflexivity. now rewrite <- IH.
Qed.
Lemma install_strings s a m : globally s INSTALL a -> holds s (DMap (map (fun kv => (DStr (fst kv), DStr (snd kv))) m)) a ->
  exists r, install_var s = Ret r s /\
  forall st prefix, setup_install_map st r prefix = (true, match m with [] => nothing st | _ => {| i_map := Some m; i_prefix := prefix |} end).
Proof.
  intros G Hv. eexists. split; [eapply install_pairs; eauto|]. intros st prefix. rewrite map_map. cbn [fst snd as_string]. unfold setup_install_map. destruct m as [|x m]; [reflexivity|]. cbn [map].
  assert (X : forall m, all_strings (map (fun kv : bytes * bytes => (Some (fst kv), Some (snd kv))) m) = Some m).
  { clear. induction m as [|[k v] m IH]; [reflexivity|]. cbn [map all_strings fst snd]. now rewrite IH. }
  cbn [all_strings]. rewrite X. destruct x. reflexivity.
Qed.

(** ** Importing bob *)
Section Import.
Variables (sg : bool) (out : bytes) (listing : bytes -> option (list bytes)) (pow : Z -> Z -> option Z) (exists_ : bytes -> bool) (files : bytes -> file).
Notation cf := (bob_conf sg out listing pow exists_ files).
Lemma located_is {H} (c : conf H) dirs path f : located c dirs path false f -> f = resolve c dirs (file_name path).
Proof. intro L. inversion L as [|b d a E F Q|F]; subst; [now rewrite resolve_first|now rewrite resolve_none]. Qed.
Lemma leaves_import {H} (c : conf H) dirs rel path ss xs : leaves c dirs ss xs -> In (SImport rel path) ss ->
  exists f ss' xs', located c dirs path rel f /\ cf_file c f = File ss' /\ leaves c [] ss' xs' /\ incl xs' xs.
Proof.
  induction 1 as [|dirs x y b a ss xs D L IH|dirs r p f ss' xs' ss xs Lo Fi L' _ L IH|dirs y ss xs N1 N2 L IH]; intro I; [easy| | |].
  - destruct I as [->|I]; [inversion D|]. destruct (IH I) as (f & ss' & xs' & A & B & C & D'). exists f, ss', xs'. repeat split; auto. intros z Iz. right. auto.
  - destruct I as [Q|I].
    + injection Q as -> ->. exists f, ss', xs'. repeat split; auto. intros z Iz. apply in_or_app. auto.
    + destruct (IH I) as (f' & ss2 & xs2 & A & B & C & D'). exists f', ss2, xs2. repeat split; auto. intros z Iz. apply in_or_app. auto.
  - destruct I as [->|I]; [now destruct (N2 rel path)|auto].
Qed.
Lemma leaves_declared {H} (c : conf H) dirs y x b a ss xs : leaves c dirs ss xs -> In y ss -> declaration x y b a -> In x xs.
Proof.
  induction 1 as [|dirs x' y' b' a' ss xs D' L IH|dirs r p f ss' xs' ss xs Lo Fi L' _ L IH|dirs y' ss xs N1 N2 L IH]; intros I D; [easy| | |].
  - destruct I as [->|I]; [left; inversion D; subst; inversion D'; auto|right; auto].
  - destruct I as [Q|I]; [subst y; inversion D|apply in_or_app; auto].
  - destruct I as [->|I]; [now destruct (N1 x b a)|auto].
Qed.
Lemma bob_leaves {H} (c : conf H) dirs xs : leaves c dirs bob_fl xs -> incl SpecProject.reserved xs.
Proof.
  intros L x I. unfold SpecProject.reserved in I. cbn [map] in I. repeat destruct I as [<-|I]; try easy;
    first [solve [eapply leaves_declared; [exact L| |apply decl_let]; unfold bob_fl; cbn [In]; eauto 10]|eapply leaves_declared; [exact L| |apply decl_class]; unfold bob_fl; cbn [In]; eauto 10].
Qed.
Lemma imports_bob n prefix ss s : SpecProject.finds_bob exists_ files prefix -> In (SImport false [lit "bob"]) ss ->
  run cf n [prefix ++ lit "/share/flamingo/import"; lit "import"] fresh_bob ss = Ret tt s ->
  (exists xs, declares_names s 0 xs /\ incl SpecProject.reserved xs) /\ forall s', setup sg out listing pow exists_ files n prefix ss <> Fail s'.
Proof.
  intros Fb I R. destruct (run_names cf (bob_tame _ _ _ _ _ _) _ _ _ _ _ R) as (xs & L & D & _).
  assert (X : incl SpecProject.reserved xs).
  { destruct (leaves_import _ _ _ _ _ _ L I) as (f & ss' & xs' & Lo & Fi & L' & In'). apply located_is in Lo. subst f.
    change (file_name [lit "bob"]) with (lit "bob.fl") in Fi. change [prefix ++ lit "/share/flamingo/import"; lit "import"] with (import_dirs prefix) in Fi.
    rewrite (finds_resolved sg out listing pow exists_ files prefix Fb) in Fi. injection Fi as <-. intros x Ix. apply In'. now apply (bob_leaves _ _ _ L'). }
  split; [exists xs; auto|]. intros s' E. apply setup_refuses in E as (t & [(R' & (xs2 & _ & D2 & N) & _)|(R' & _)]); rewrite R in R'; [|discriminate]. injection R' as <-.
  apply N. destruct D as (c & C & K). destruct D2 as (c2 & C2 & K2). rewrite C in C2. injection C2 as <-. rewrite <- K2, K. apply X. left. reflexivity.
Qed.
End Import.
