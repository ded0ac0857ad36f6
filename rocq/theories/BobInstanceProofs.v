(** * Making instances of Bob's classes. *)

From Coq Require Import ZArith Arith Ascii String Lia Bool List.
From Verif Require Import Base Hash Cookie CookieProofs FlAst FlState FlInterp FlMonad SpecFlamingo FlEqProofs SpecScript SpecFrame SpecScope SpecImport SpecPlan
  FlOpProofs FlExprProofs FlFrame FlBalance FlMemberProofs FlSeqProofs FlScopeProofs FlAssignProofs FlReturnProofs FlExternProofs Bob SpecBob BobProofs BobCallProofs BobMethodProofs.
Import ListNotations.
Local Open Scope nat_scope.

Lemma upd_upd_app {A} (x y : A) : forall l r, upd (length l) x (l ++ y :: r) = l ++ x :: r.
Proof. induction l as [|z l IH]; intro r; cbn; [reflexivity|]. now rewrite IH. Qed.

Lemma upd_app_l {A} (x : A) : forall l r i, i < length l -> upd i x (l ++ r) = upd i x l ++ r.
Proof. induction l as [|z l IH]; intros r [|i] L; cbn in *; try lia; [reflexivity|]. rewrite IH by lia. reflexivity. Qed.

Section Protos.
Context {H : Type} (cf : conf H).
Implicit Types s t : st H.

(** The functions with no body, and the variables for them, that prototypes [ms] declare in scope [i]; [e]: their environments; [a]: where they are. *)
Fixpoint proto_cells (i e : nat) (ms : list (bytes * list bytes)) : list cell :=
  match ms with [] => [] | (x, ps) :: ms => Cell (NKey i x) 1 (Some i) (PFn (Fn KExtern ps None (Some e) None)) :: proto_cells i (S e) ms end.
Fixpoint proto_vars (a : addr) (ms : list (bytes * list bytes)) : list var :=
  match ms with [] => [] | (x, _) :: ms => Var x false (Some a) :: proto_vars (S a) ms end.

Lemma proto_cells_length i : forall ms e, length (proto_cells i e ms) = length ms.
Proof. induction ms as [|(x & ps) ms IH]; intro e; cbn; auto. Qed.
Lemma proto_vars_length : forall ms a, length (proto_vars a ms) = length ms.
Proof. induction ms as [|(x & ps) ms IH]; intro e; cbn; auto. Qed.
Lemma proto_cell i : forall ms e j x ps, nth_error ms j = Some (x, ps) ->
  nth_error (proto_cells i e ms) j = Some (Cell (NKey i x) 1 (Some i) (PFn (Fn KExtern ps None (Some (e + j)) None))).
Proof.
  induction ms as [|(y & qs) ms IH]; intros e [|j] x ps E; cbn in *; try discriminate.
  - injection E as <- <-. now rewrite Nat.add_0_r.
  - rewrite (IH _ _ _ _ E). now rewrite Nat.add_succ_r.
Qed.
Lemma proto_split : forall ms a j x ps, nth_error ms j = Some (x, ps) -> NoDup (map fst ms) ->
  exists before after, proto_vars a ms = before ++ Var x false (Some (a + j)) :: after /\ length before = j /\ Forall (fun w => v_key w <> x) before.
Proof.
  induction ms as [|(y & qs) ms IH]; intros a [|j] x ps E N; cbn in *; try discriminate.
  - injection E as <- <-. exists [], (proto_vars (S a) ms). rewrite Nat.add_0_r. auto.
  - inversion N as [|? ? Ny N']; subst. destruct (IH (S a) j x ps E N') as (b & r & -> & L & F).
    exists (Var y false (Some a) :: b), r. rewrite Nat.add_succ_r. cbn. do 2 (split; [auto; try lia|]). constructor; auto. cbn. intros ->. apply Ny.
    apply in_map_iff. exists (x, ps). split; auto. eapply nth_error_In; eauto.
Qed.

(** One prototype. *)
Lemma proto_ok R x ps s i l c : open s (i :: l) -> nth_error (scopes s) i = Some c -> sc_alive c = true -> Forall (fun v => v_key v <> x) (sc_vars c) ->
  fun_ cf R KExtern false x ps [] s = Ret tt
    (set_envs (envs s ++ [i :: l]) (set_cells (cells s ++ [Cell (NKey i x) 1 (Some i) (PFn (Fn KExtern ps None (Some (length (envs s))) None))])
      (set_scopes (upd i (Scope (sc_vars c ++ [Var x false (Some (length (cells s)))]) (sc_owner c) (sc_class c) true) (scopes s)) s))).
Proof.
  intros O E A F. pose proof (nth_lt _ _ _ E) as Li. unfold fun_. rewrite (bind_step _ _ _ _ _ (cur_scope_ok _ _ _ O)).
  assert (Lk : lacks s x i) by (exists (sc_vars c); split; [exists c; auto|exact F]).
  rewrite (bind_step _ _ _ _ _ (find_var_lacks _ _ _ Lk)).
  set (sA := set_scopes (upd i (Scope (sc_vars c ++ [Var x false None]) (sc_owner c) (sc_class c) true) (scopes s)) s).
  rewrite (bind_step _ _ s (length (sc_vars c)) sA).
  2: { unfold add_var. rewrite (bind_step _ _ _ _ _ (get_scope_ok _ _ _ E A)). reflexivity. }
  set (sB := set_cells (cells s ++ [Cell NNone 1 None PNone]) sA).
  rewrite (bind_step _ _ sA (length (cells s)) sB) by reflexivity.
  set (c1 := Scope (sc_vars c ++ [Var x false None]) (sc_owner c) (sc_class c) true).
  assert (E1 : nth_error (scopes sB) i = Some c1) by (unfold sB, sA; cbn; now apply upd_same).
  assert (V1 : nth_error (sc_vars c1) (length (sc_vars c)) = Some (Var x false None)) by (unfold c1; cbn; apply nth_app_new).
  set (c2 := Scope (sc_vars c ++ [Var x false (Some (length (cells s)))]) (sc_owner c) (sc_class c) true).
  set (sC := set_scopes (upd i c2 (scopes sB)) sB).
  set (sD := set_cells (upd (length (cells s)) (Cell (NKey i x) 1 None PNone) (cells sC)) sC).
  rewrite (bind_step _ _ sB tt sD).
  2: { unfold var_set_val. rewrite (bind_step _ _ _ _ _ (get_scope_ok _ _ _ E1 eq_refl)), V1.
       rewrite (bind_step _ _ sB tt sC).
       2: { unfold write_var. rewrite (bind_step _ _ _ _ _ (get_scope_ok _ _ _ E1 eq_refl)), V1. unfold put_scope, modify, sC, c2, c1. cbn. rewrite upd_end. reflexivity. }
       rewrite (bind_step _ _ sC (Cell NNone 1 None PNone) sC) by (apply get_cell_ok; unfold sC, sB; cbn; apply nth_app_new). reflexivity. }
  set (sE := set_envs (envs s ++ [i :: l]) sD).
  rewrite (bind_step _ _ sD (length (envs s)) sE).
  2: { unfold close_over. rewrite (bind_step _ _ sD (i :: l) sD) by (apply cur_stack_ok; exact O). reflexivity. }
  rewrite (bind_step _ _ sE None sE) by reflexivity. unfold put_cell, modify. f_equal. unfold sE, sD, sC, sB, sA. cbn. rewrite !upd_upd, upd_end. reflexivity.
Qed.

Lemma protos_ok n i l : forall ms s c, open s (i :: l) -> nth_error (scopes s) i = Some c -> sc_alive c = true -> cur_rv s = None ->
  NoDup (map v_key (sc_vars c) ++ map fst ms) ->
  iterM (r_stmt (interp cf (S (S n)))) (map proto ms) s = Ret tt
    (set_envs (envs s ++ repeat (i :: l) (length ms)) (set_cells (cells s ++ proto_cells i (length (envs s)) ms)
      (set_scopes (upd i (Scope (sc_vars c ++ proto_vars (length (cells s)) ms) (sc_owner c) (sc_class c) true) (scopes s)) s))).
Proof.
  induction ms as [|(x & ps) ms IH]; intros s c O E A Rv N.
  - cbn. rewrite !app_nil_r. unfold ret. f_equal. rewrite (upd_id (Scope (sc_vars c) (sc_owner c) (sc_class c) true)); [now destruct s|]. rewrite E. f_equal. destruct c; cbn in *; congruence.
  - cbn [map iterM]. assert (F : Forall (fun v => v_key v <> x) (sc_vars c)).
    { apply Forall_forall. intros v I Q. cbn in N. apply NoDup_remove_2 in N. apply N. apply in_or_app. left. apply in_map_iff. eauto. }
    set (s1 := set_envs (envs s ++ [i :: l]) (set_cells (cells s ++ [Cell (NKey i x) 1 (Some i) (PFn (Fn KExtern ps None (Some (length (envs s))) None))])
      (set_scopes (upd i (Scope (sc_vars c ++ [Var x false (Some (length (cells s)))]) (sc_owner c) (sc_class c) true) (scopes s)) s))).
    rewrite (bind_step _ _ s tt s1).
    2: { rewrite stmt_S. unfold proto. cbn [stmt_ fst snd]. rewrite (bind_step _ _ _ _ _ (returning_no _ Rv)). rewrite fun_S. apply proto_ok; auto. }
    rewrite (IH s1 (Scope (sc_vars c ++ [Var x false (Some (length (cells s)))]) (sc_owner c) (sc_class c) true)).
    + f_equal. unfold s1. cbn. rewrite !upd_upd, !app_length, <- !app_assoc. cbn. rewrite !Nat.add_1_r. reflexivity.
    + unfold s1, open in *. cbn. now apply nth_app_l.
    + unfold s1. cbn. apply upd_same. eapply nth_lt; eauto.
    + reflexivity.
    + exact Rv.
    + cbn. rewrite map_app, <- app_assoc. exact N.
Qed.

(** The block of a class of prototypes, begun in [s]. *)
Lemma proto_block n i l ms s c : open s (i :: l) -> nth_error (scopes s) i = Some c -> sc_alive c = true -> cur_rv s = None -> NoDup (map fst ms) ->
  let k := length (scopes s) in
  r_block (interp cf (S (S (S n)))) (map proto ms) s = Ret k
    (set_envs (envs s ++ repeat (k :: i :: l) (length ms)) (set_cells (cells s ++ proto_cells k (length (envs s)) ms)
      (set_scopes (scopes s ++ [Scope (proto_vars (length (cells s)) ms) None (sc_class c) true]) s))).
Proof.
  intros O E A Rv N k. change (r_block (interp cf (S (S (S n))))) with (block_ (interp cf (S (S n)))). unfold block_. rewrite (bind_step _ _ _ _ _ (push_ok _ _ _ _ O E A)). fold k.
  set (t := set_scopes _ (set_envs _ s)).
  assert (Ot : open t (k :: i :: l)) by (unfold open, t; cbn; apply upd_same; eapply nth_lt; exact O).
  rewrite (bind_step _ _ _ _ _ (protos_ok n k (i :: l) ms t (Scope [] None (sc_class c) true) Ot ltac:(unfold t, k; cbn; apply nth_app_new) eq_refl Rv N)).
  set (t2 := set_envs _ _).
  assert (O2 : open t2 (k :: i :: l)) by (unfold open in *; unfold t2; cbn; apply nth_app_l; exact Ot).
  rewrite (detach_ok t2 k (i :: l) O2). f_equal. unfold t2, t, k. cbn. rewrite upd_length, upd_end. unfold open in O.
  assert (Q : forall (r : list (list nat)) x y, upd (cur_env s) x (upd (cur_env s) y (envs s) ++ r) = upd (cur_env s) x (envs s) ++ r).
  { intros r x y. assert (Lc : cur_env s < length (envs s)) by (eapply nth_lt; exact O). clear - Lc. revert Lc. generalize (cur_env s), (envs s). intros m L. revert m.
    induction L as [|z L IH]; intros [|m] Lc; cbn in *; try lia; [reflexivity|]. rewrite IH by lia. reflexivity. }
  rewrite Q, (upd_id _ _ _ O). reflexivity.
Qed.
End Protos.


Section Instances.
Variables (sg : bool) (out : bytes) (listing : bytes -> option (list bytes)) (pow : Z -> Z -> option Z) (exists_ : bytes -> bool) (files : bytes -> file).
Let cf := bob_conf sg out listing pow exists_ files.
Implicit Types s t : st bob.

(** What is there once the body of a class of prototypes has been run and left. *)
Definition body_left (f : fnval) (p : nat) (l : list nat) (args : list addr) (ms : list (bytes * list bytes)) (cs : list cell) (s : st bob) : st bob :=
  let k := length (scopes s) in
  set_scopes (scopes s ++ [params_scope f args; Scope (proto_vars (length (cells s)) ms) None true true])
    (set_envs (envs s ++ repeat (S k :: k :: p :: l) (length ms)) (set_cells (cs ++ proto_cells (S k) (length (envs s)) ms) s)).

Lemma class_enters n f b e p l ps ms s ka (args : list addr) : class_at s ka f b e p l ps ms -> length args = length ps -> Forall (fun a => a < length (cells s)) args ->
  NoDup (map fst ms) -> cur_rv s = None ->
  exists cs, renamed args (cells s) cs /\
  call_ cf (interp cf (S (S (S n)))) ka None Slot args s =
  mbind (finish cf (interp cf (S (S (S n)))) ka (BScope (S (length (scopes s)))) Slot args) (fun o => mbind (modify (set_rv None)) (fun _ => ret o)) (body_left f p l args ms cs s).
Proof.
  intros (Pf & Kf & Pm & Bf & Eb & Ef & Ee & vs & (cp & Ep & Ap & _)) L Fa N Rv.
  assert (Kn : forall m, f_kind f <> KPtm m) by (rewrite Kf; discriminate).
  destruct (call_enter cf ka f e (p :: l) None args s p l cp) as (cs & Rn & Q); auto; [exact I|congruence|].
  exists cs. split; [exact Rn|]. rewrite Q. cbn [on_scope]. set (t := inside f e (p :: l) None args cs s).
  set (k := length (scopes s)).
  assert (Ot : open t (k :: p :: l)) by (unfold open, t, inside; cbn; apply upd_same; eapply nth_lt; exact Ee).
  assert (Et : nth_error (scopes t) k = Some (params_scope f args)) by (unfold t, k, inside; cbn; apply nth_app_new).
  pose proof (proto_block cf n k (p :: l) ms t (params_scope f args) Ot Et eq_refl Rv N) as Pb. cbv zeta in Pb. set (t2 := set_envs _ _) in Pb.
  assert (Lt : length (scopes t) = S k) by (unfold t, inside, k; cbn; rewrite app_length; cbn; lia).
  rewrite Lt in Pb.
  rewrite (bind_step _ _ t (BScope (S k)) t2).
  2: { unfold run_body. rewrite Kf, Bf. rewrite (bind_step _ _ t (BBlock (map proto ms)) t).
       2: { unfold read_body. change (bodies t) with (bodies s). rewrite Eb. reflexivity. }
       rewrite (bind_step _ _ _ _ _ Pb). reflexivity. }
  rewrite (leave_ok cf _ ka e (p :: l) None Slot args s t2 (BScope (S k)) k).
  2: { reflexivity. }
  2: { unfold t2. cbn. apply nth_app_l. apply upd_same. eapply nth_lt; exact Ee. }
  f_equal. clear - Rn Kf Ee. apply st_ext; try reflexivity; unfold t2, t, inside, body_left; cbn.
  - rewrite upd_length, app_length. cbn. rewrite Nat.add_1_r. reflexivity.
  - rewrite (renamed_length _ _ _ Rn), Kf, <- app_assoc. reflexivity.
  - rewrite upd_app_l by (rewrite upd_length; eapply nth_lt; exact Ee). rewrite upd_upd, (upd_id _ _ _ Ee), app_length. cbn. rewrite Nat.add_1_r. reflexivity.
Qed.
(** ** The callback *)

Lemma check_strs_ok who : forall l es i s, Forall2 (holds s) (map DStr l) es -> check_strs who i es s = Ret tt s.
Proof.
  induction l as [|t l IH]; intros es i s F; inversion F as [|? a ? es' Ha F']; subst; [reflexivity|]. cbn [check_strs].
  destruct Ha as (c & C & b & n & u & V & _). rewrite (bind_step _ _ _ _ _ (get_cell_ok _ _ _ C)), V. auto.
Qed.
Lemma check_strs_bad who : forall good es i s bad rest, Forall2 (holds s) (map DStr good) es -> not_string s bad ->
  check_strs who i (es ++ bad :: rest) s = fatal (nth_msg who (i + length good)) s.
Proof.
  induction good as [|t l IH]; intros es i s bad rest F B; inversion F as [|? a ? es' Ha F']; subst; cbn [check_strs app].
  - destruct B as (c & C & V). rewrite (bind_step _ _ _ _ _ (get_cell_ok _ _ _ C)). destruct (c_val c) as [| | |b n| | | |] eqn:Q; try (rewrite Nat.add_0_r; reflexivity). now destruct (V b n).
  - destruct Ha as (c & C & b & n & u & V & _). rewrite (bind_step _ _ _ _ _ (get_cell_ok _ _ _ C)), V. rewrite (IH _ (S i) _ _ rest F' B). cbn [length]. rewrite Nat.add_succ_r. reflexivity.
Qed.

(** The classes whose instances have flags. *)
Definition flagged (k : bclass) : Prop := k <> CFs.

Lemma class_inst_does k s a ka sc d (args : list addr) : flagged k -> payload_at s a (PInst ka sc d) -> has_name s ka (class_name k) -> class_inst_cb a args s = instantiate k a args s.
Proof.
  intros K (c & C & V) N. destruct (read_has_name _ _ _ N) as (ck & Ck & Rn). unfold class_inst_cb.
  rewrite (bind_step _ _ _ _ _ (get_cell_ok _ _ _ C)), V. rewrite (bind_step _ _ _ _ _ (get_cell_ok _ _ _ Ck)), (bind_step _ _ _ _ _ Rn). destruct k; [now destruct K| |]; reflexivity.
Qed.
Lemma instantiate_ok k s a ka sc d c v flags : nth_error (cells s) a = Some c -> c_val c = PInst ka sc d -> strings s v flags ->
  instantiate k a [v] s = Ret tt (set_cells (upd a (Cell (c_name c) (c_cnt c) (c_owner c) (PInst ka sc (Some (length (b_states (host s)))))) (cells s))
    (set_host (set_states (b_states (host s) ++ [Some v]) (host s)) s)).
Proof.
  intros C V Sv. destruct (strings_vec _ _ _ Sv) as (es & Ov & F). unfold instantiate.
  rewrite (bind_step _ _ _ _ _ (one_vec_ok _ _ _ _ Ov)). cbn [fst snd]. rewrite (bind_step _ _ _ _ _ (check_strs_ok _ _ _ 0 _ F)). rewrite (bind_step _ _ s (host s) s) by reflexivity.
  set (s1 := set_host (set_states _ _) s). rewrite (bind_step _ _ s tt s1) by reflexivity. rewrite (bind_step _ _ s1 c s1) by (apply get_cell_ok; exact C). rewrite V. reflexivity.
Qed.
Lemma instantiate_bad k s a v good es bad rest : one_vec_at s v (es ++ bad :: rest) -> Forall2 (holds s) (map DStr good) es -> not_string s bad ->
  instantiate k a [v] s = fatal (nth_msg (class_name k) (length good)) s.
Proof.
  intros Ov F B. unfold instantiate. rewrite (bind_step _ _ _ _ _ (one_vec_ok _ _ _ _ Ov)). cbn [fst snd]. apply bind_fail. rewrite (check_strs_bad _ good); auto.
Qed.

(** The state an instance has been made in. *)
Definition made (f : fnval) (p : nat) (l : list nat) (ka v : addr) (ms : list (bytes * list bytes)) (cs : list cell) (s : st bob) : st bob :=
  let k := length (scopes s) in
  set_host (set_states (b_states (host s) ++ [Some v]) (host s))
  (set_scopes (scopes s ++ [params_scope f [v]; Scope (proto_vars (length (cells s)) ms) (Some (length (cells s) + length ms)) true true])
    (set_envs (envs s ++ repeat (S k :: k :: p :: l) (length ms))
      (set_cells (cs ++ proto_cells (S k) (length (envs s)) ms ++ [Cell NNone 1 None (PInst ka (S k) (Some (length (b_states (host s)))))]) s))).

Lemma made_keeps f p l ka v ms cs s : renamed [v] (cells s) cs -> keeps s (made f p l ka v ms cs s).
Proof.
  intro R. split; cbn; auto. intros a c E. destruct (renamed_cell _ _ _ _ _ R E) as (c' & E' & V & _). exists c'. split; [|exact V]. now apply nth_app_l.
Qed.

Lemma instance_made k n f b e p l ps ms s ka v flags : flagged k -> class_at s ka f b e p l ps ms -> length ps = 1 -> NoDup (map fst ms) -> cur_rv s = None ->
  has_name s ka (class_name k) -> strings s v flags ->
  exists cs, renamed [v] (cells s) cs /\
  call_ cf (interp cf (S (S (S n)))) ka None Slot [v] s = Ret (Some (length (cells s) + length ms)) (made f p l ka v ms cs s).
Proof.
  intros K Ca L1 N Rv Nm Sv. destruct (strings_vec _ _ _ Sv) as (es & (c & C & V) & _).
  destruct (class_enters n f b e p l ps ms s ka [v] Ca (eq_sym L1) ltac:(constructor; [eapply nth_lt; eauto|constructor]) N Rv) as (cs & Rn & Q).
  exists cs. split; [exact Rn|]. rewrite Q. set (t := body_left f p l [v] ms cs s). set (kk := S (length (scopes s))).
  destruct Ca as (Pf & Kf & _). pose proof Pf as (cf0 & Cf & Vf).
  assert (Ne : ka <> v) by (intros ->; rewrite C in Cf; injection Cf as <-; congruence).
  assert (Ck : nth_error (cells t) ka = Some cf0). { unfold t, body_left. cbn. apply nth_app_l. destruct Rn as (_ & _ & _ & Rn). rewrite Rn; [exact Cf|]. intros [->|[]]. now apply Ne. }
  set (a := length (cells s) + length ms).
  assert (La : length (cells t) = a) by (unfold t, body_left, a; cbn; rewrite app_length, proto_cells_length, (renamed_length _ _ _ Rn); reflexivity).
  set (t1 := set_cells (cells t ++ [Cell NNone 1 None (PInst ka kk None)]) t).
  set (sc := Scope (proto_vars (length (cells s)) ms) None true true).
  set (t2 := set_scopes (upd kk (Scope (sc_vars sc) (Some a) (sc_class sc) true) (scopes t1)) t1).
  assert (Esc : nth_error (scopes t1) kk = Some sc).
  { change (scopes t1) with (scopes s ++ [params_scope f [v]; sc]). unfold kk. rewrite nth_error_app2 by lia. replace (S (length (scopes s)) - length (scopes s)) with 1 by lia. reflexivity. }
  assert (Ki : keeps s t2).
  { split; cbn; auto. intros a0 c0 E0. destruct (renamed_cell _ _ _ _ _ Rn E0) as (c' & E' & V' & _). exists c'. split; [|exact V']. apply nth_app_l. now apply nth_app_l. }
  assert (Ca2 : nth_error (cells t2) a = Some (Cell NNone 1 None (PInst ka kk None))) by (unfold t2, t1; cbn; rewrite <- La; apply nth_app_new).
  assert (Nm2 : has_name t2 ka (class_name k)).
  { destruct Nm as (c0 & C0 & N0). rewrite Cf in C0. injection C0 as <-. exists cf0. split; [unfold t2, t1; cbn; apply nth_app_l; exact Ck|].
    destruct (c_name cf0) as [|i0 y|y]; auto. destruct N0 as (-> & s0 & S0 & A0). split; auto. exists s0. split; [|exact A0].
    pose proof (nth_lt _ _ _ S0). unfold t2. cbn [scopes set_scopes]. rewrite upd_other by (unfold kk; lia). unfold t1, t, body_left. cbn. now apply nth_app_l. }
  assert (Sv2 : strings t2 v flags) by (eapply holds_keeps; [exact Ki|exact Sv]).
  rewrite (bind_step _ _ t (Some a) (made f p l ka v ms cs s)).
  2: { unfold finish. rewrite (bind_step _ _ _ _ _ (get_cell_ok _ _ _ Ck)), Vf, Kf. rewrite (bind_step _ _ t tt t) by reflexivity.
       rewrite (bind_step _ _ t a t1) by (unfold alloc; rewrite La; reflexivity). rewrite (bind_step _ _ t1 (Some a) t1) by reflexivity.
       rewrite (bind_step _ _ _ _ _ (get_scope_ok _ _ _ Esc eq_refl)). rewrite (bind_step _ _ t1 tt t2) by reflexivity.
       change (cf_inst cf a [v]) with (class_inst_cb a [v]).
       assert (E : class_inst_cb a [v] t2 = Ret tt (made f p l ka v ms cs s)).
       { rewrite (class_inst_does k t2 a ka kk None [v] K ltac:(eexists; split; [exact Ca2|reflexivity]) Nm2).
         rewrite (instantiate_ok k t2 a ka kk None _ v flags Ca2 eq_refl Sv2). f_equal.
         apply st_ext; try reflexivity.
         - cbn. rewrite <- La at 1. unfold t1. cbn. rewrite upd_end. unfold t, body_left. cbn. rewrite <- app_assoc. reflexivity.
         - change (upd kk (Scope (sc_vars sc) (Some a) (sc_class sc) true) (scopes s ++ [params_scope f [v]; sc]) = scopes s ++ [params_scope f [v]; Scope (sc_vars sc) (Some a) (sc_class sc) true]). unfold kk. replace (scopes s ++ [params_scope f [v]; sc]) with ((scopes s ++ [params_scope f [v]]) ++ [sc]) by (rewrite <- app_assoc; reflexivity).
           replace (S (length (scopes s))) with (length (scopes s ++ [params_scope f [v]])) by (rewrite app_length; cbn; lia). rewrite upd_end, <- app_assoc. reflexivity. }
       rewrite (bind_step _ _ _ _ _ E). reflexivity. }
  unfold mbind, modify, ret. f_equal. apply st_ext; try reflexivity. symmetry. exact Rv.
Qed.
End Instances.
