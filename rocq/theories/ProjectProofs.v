(** * Build scripts of a common form ask for what they say. *)

From Coq Require Import ZArith Arith Ascii String Lia Bool List.
From Verif Require Import Base Hash Cookie CookieProofs BuildStep Build Plan SpecPlan FlAst FlState FlInterp FlMonad SpecFlamingo FlEqProofs SpecScript SpecFrame SpecScope SpecImport
  FlOpProofs FlExprProofs FlFrame FlBalance FlMemberProofs FlSeqProofs FlScopeProofs FlAssignProofs FlReturnProofs FlFuel FlImportProofs FlExternProofs Bob SpecBob SpecProject BobProofs BobCallProofs BobMethodProofs BobInstanceProofs BobScriptProofs GrowProofs ListProofs Install Main Project.
Import ListNotations.
Local Open Scope nat_scope.

Section Lets.
Variables (sg : bool) (out : bytes) (listing : bytes -> option (list bytes)) (pow : Z -> Z -> option Z) (exists_ : bytes -> bool) (files : bytes -> file).
Let cf := bob_conf sg out listing pow exists_ files.
Implicit Types s t : st bob.

Lemma upd_alive s (h : st bob) i (c0 c1 : scope) : nth_error (scopes s) i = Some c0 -> sc_alive c1 = sc_alive c0 ->
  forall k c, nth_error (scopes s) k = Some c -> exists c', nth_error (scopes (set_scopes (upd i c1 (scopes s)) h)) k = Some c' /\ sc_alive c' = sc_alive c.
Proof.
  intros E A k c Ek. cbn. destruct (Nat.eq_dec k i) as [->|N]; [|rewrite upd_other by auto; eauto]. rewrite upd_same by (eapply nth_lt; eauto). exists c1. split; [reflexivity|congruence].
Qed.
Lemma with_var_grows x s i vs : vars s i vs -> grows_by [x] s (with_var i (Var x false None) s) /\ vars (with_var i (Var x false None) s) i (vs ++ [Var x false None]).
Proof.
  intros (c & E & A & <-). unfold with_var. rewrite E. pose proof (nth_lt _ _ _ E) as L. split.
  - split; cbn; auto.
    + intros a c0 E0. exists c0. split; [exact E0|]. split; [reflexivity|]. split; [lia|auto].
    + intros k c0 E0. destruct (Nat.eq_dec k i) as [->|N].
      * rewrite upd_same by exact L. rewrite E in E0. injection E0 as <-. eexists. split; [reflexivity|]. cbn. split; [now rewrite A|]. split; [reflexivity|].
        exists (sc_vars c), [Var x false None]. split; [reflexivity|]. split; [apply vars_le_refl|]. repeat constructor.
      * rewrite upd_other by auto. exists c0. do 3 (split; [first [exact E0|reflexivity]|]). apply more_vars_refl.
    + intros a c0 b n E0 _ K. exists c0. split; [exact E0|]. eapply kept_name; [|exact K]. now apply upd_alive with (c0 := c).
  - eexists. cbn. rewrite upd_same by exact L. split; [reflexivity|]. split; reflexivity.
Qed.

Lemma let_ok n x e s i l vs a s1 : cur_rv s = None -> open s (i :: l) -> vars s i vs -> Forall (fun v => v_key v <> x) vs ->
  evals cf n e (with_var i (Var x false None) s) a s1 -> grows (with_var i (Var x false None) s) s1 -> (exists p, payload_at s1 a p /\ forall f, p <> PFn f) ->
  exists s', executes cf (S n) (SLet false x (Some e)) s s' /\ grows_by [x] s s' /\ grows_by [x] s1 s' /\ host s' = host s1 /\
    names s' x i (length vs) (Var x false (Some a)) /\ vars s' i (vs ++ [Var x false (Some a)]).
Proof.
  intros Rv O V F E G (p & (ca & Ca & Vp) & Np).
  destruct (with_var_grows x s i vs V) as (Gw & Vw). pose proof (grows_same_vars _ _ _ _ G Vw) as V1. destruct V1 as (c1 & E1 & A1 & Q1).
  pose proof (nth_lt _ _ _ E1) as L1.
  set (s2 := set_scopes (upd i (Scope (vs ++ [Var x false (Some a)]) (sc_owner c1) (sc_class c1) true) (scopes s1)) s1).
  set (s' := set_cells (upd a (Cell (c_name ca) (c_cnt ca) (Some i) (c_val ca)) (cells s2)) s2).
  assert (X : executes cf (S n) (SLet false x (Some e)) s s').
  { unfold executes. rewrite stmt_S. cbn [stmt_]. rewrite (bind_step _ _ _ _ _ (returning_no s Rv)). cbv beta iota. unfold let_.
    rewrite (bind_step _ _ _ _ _ (cur_scope_ok _ _ _ O)). rewrite (bind_step _ _ _ _ _ (find_var_lacks s x i (ex_intro _ vs (conj V F)))).
    destruct V as (c & Ec & A & Q).
    rewrite (bind_step _ _ _ (length vs) (with_var i (Var x false None) s)).
    2: { unfold add_var. rewrite (bind_step _ _ _ _ _ (get_scope_ok _ _ _ Ec A)). unfold with_var. rewrite Ec. unfold put_scope, modify, mbind, ret. now rewrite Q. }
    rewrite (bind_step _ _ _ _ _ (evals_value _ _ _ _ _ _ E)).
    rewrite (bind_step _ _ _ tt s2).
    2: { unfold write_var. rewrite (bind_step _ _ _ _ _ (get_scope_ok _ _ _ E1 A1)). rewrite Q1. rewrite nth_app_new. cbn [v_key v_static]. rewrite upd_end. reflexivity. }
    unfold set_owner_of. rewrite (bind_step _ _ _ _ _ (get_cell_ok a s2 _ Ca)). reflexivity. }
  assert (G2 : grows_by [x] s1 s').
  { split; cbn; auto.
    - intros b c0 E0. destruct (Nat.eq_dec b a) as [->|N].
      + rewrite upd_same by (eapply nth_lt; eauto). rewrite Ca in E0. injection E0 as <-. eexists. split; [reflexivity|]. cbn. split; [reflexivity|]. split; [lia|]. intros f Qf _. exfalso. eapply Np. rewrite <- Vp. exact Qf.
      + rewrite upd_other by auto. exists c0. split; [exact E0|]. split; [reflexivity|]. split; [lia|auto].
    - intros k c0 E0. destruct (Nat.eq_dec k i) as [->|N].
      + rewrite upd_same by exact L1. rewrite E1 in E0. injection E0 as <-. eexists. split; [reflexivity|]. cbn. split; [now rewrite A1|]. split; [reflexivity|].
        exists (vs ++ [Var x false (Some a)]), []. rewrite app_nil_r. split; [reflexivity|]. split; [|constructor]. rewrite Q1. apply Forall2_app; [apply vars_le_refl|].
        constructor; [|constructor]. split; [reflexivity|]. right. split; [reflexivity|]. now left.
      + rewrite upd_other by auto. exists c0. do 3 (split; [first [exact E0|reflexivity]|]). apply more_vars_refl.
    - intros b c0 u m E0 _ K. assert (K' : name_kept s' (c_name c0)) by (eapply kept_name; [|exact K]; apply (upd_alive s1 s1 i c1); [exact E1|now rewrite A1]).
      destruct (Nat.eq_dec b a) as [->|N]; [|rewrite upd_other by auto; eauto]. rewrite upd_same by (eapply nth_lt; eauto). rewrite Ca in E0. injection E0 as <-. eauto. }
  assert (V' : vars s' i (vs ++ [Var x false (Some a)])).
  { eexists. cbn. rewrite upd_same by exact L1. split; [reflexivity|]. split; reflexivity. }
  assert (G' : grows_by [x] s s') by (eapply grows_trans; [exact Gw|]; eapply grows_trans; [apply grows_more; exact G|exact G2]).
  exists s'. split; [exact X|]. split; [exact G'|]. split; [exact G2|]. split; [reflexivity|]. split; [|exact V'].
  exists [], l. split; [eapply grows_open; eauto|]. split; [constructor|]. exists vs, []. rewrite app_nil_r || idtac. repeat split; auto.
Qed.
End Lets.

(** ** What is known in a state *)

Section Known.
Variables (sg : bool) (out : bytes) (listing : bytes -> option (list bytes)) (pow : Z -> Z -> option Z) (exists_ : bytes -> bool) (files : bytes -> file).
Let cf := bob_conf sg out listing pow exists_ files.
Implicit Types s : st bob.

(** The value at [a] is [t]. *)
Definition a_tool s (a : addr) (k : bclass) (d : nat) (flags : list bytes) : Prop :=
  live s a /\ (exists sc ka, payload_at s a (PInst ka sc (Some d))) /\
  (exists ka, class_val (host s) k = Some ka /\ (forall b, class_val (host s) b = Some ka -> b = k) /\
     forall o, op_class o = k -> exists p fa, method s a ka (Some d) (op_name o) [p] fa /\ live s fa) /\
  exists fv, flags_of s d fv /\ strings s fv flags.
Definition is_thing s (a : addr) (t : thing) : Prop :=
  match t with
  | ATool k d flags => a_tool s a k d flags
  | Strings l => live s a /\ usable_strings s a l /\ Forall nul_free l
  | AString p => usable s a /\ holds s (DStr p) a /\ nul_free p
  end.
Definition knows (env : list (bytes * thing)) s : Prop :=
  forall x t, meaning env x = Some t -> exists i j v a, names s x i j v /\ v_val v = Some a /\ is_thing s a t.

Definition more_tools s (t : st bob) : Prop := exists more, b_states (host t) = b_states (host s) ++ more.
Lemma more_tools_refl s (t : st bob) : b_states (host t) = b_states (host s) -> more_tools s t.
Proof. intro Q. exists []. now rewrite app_nil_r. Qed.

Lemma is_thing_later xs s s' a t : grows_by xs s s' -> same_classes s s' -> more_tools s s' -> is_thing s a t -> is_thing s' a t.
Proof.
  intros G C (more & Q). destruct t as [k d flags|l|p]; cbn [is_thing].
  - intros (L & (sc & ka & P) & (ka' & K & U & M) & fv & F & Sf). split; [eapply grows_live; eauto|]. split; [exists sc, ka; eapply grows_payload; eauto|]. split.
    + exists ka'. rewrite C. split; [exact K|]. split; [intros b; rewrite C; apply U|]. intros o E. destruct (M o E) as (p & fa & Mm & Lf). exists p, fa. split; [eapply grows_method; eauto|eapply grows_live; eauto].
    + exists fv. split; [unfold flags_of; rewrite Q; apply nth_app_l; exact F|]. eapply grows_holds; eauto.
  - intros (L & Sv & N). split; [eapply grows_live; eauto|]. split; [eapply grows_usable_strings; eauto|exact N].
  - intros (L & Sv & N). split; [eapply grows_usable; eauto|]. split; [eapply grows_holds; eauto|exact N].
Qed.
Lemma meaning_in env x t : meaning env x = Some t -> In x (map fst env).
Proof. induction env as [|[y u] env IH]; cbn; [discriminate|]. destruct (bytes_eqb y x) eqn:E; [left; now apply bytes_eqb_eq|right; auto]. Qed.
Lemma knows_later xs env s s' : grows_by xs s s' -> (forall x, In x (map fst env) -> ~ In x xs) -> same_classes s s' -> more_tools s s' -> knows env s -> knows env s'.
Proof.
  intros G N C T K x t M. destruct (K x t M) as (i & j & v & a & Nm & V & A). exists i, j, v, a. split; [|split; [exact V|eapply is_thing_later; eauto]].
  eapply grows_names; eauto; [eapply N, meaning_in; eauto|congruence].
Qed.

(** ** Expressions *)

Lemma same_host_classes s (t : st bob) : host t = host s -> same_classes s t.
Proof. intros Q k. now rewrite Q. Qed.
Lemma same_host_tools s (t : st bob) : host t = host s -> more_tools s t.
Proof. intros Q. apply more_tools_refl. now rewrite Q. Qed.
Lemma id_evals n x s i j v a : names s x i j v -> v_val v = Some a -> live s a -> exists s', evals cf (S n) (EId x) s a s' /\ grows s s' /\ host s' = host s.
Proof.
  intros N V L. exists (held a s). split; [|split; [apply grows_held|apply held_host]]. exists None. exact (ident_value cf n x s i j v a N V L).
Qed.


(** ** Strings and lists *)

(** What a string or a list needs in order to be evaluated. *)
Record fit (env : list (bytes * thing)) s : Prop := Fit {
  ft_can : can_call s;
  ft_have : strings_have s;
  ft_fs : has_fs s;
  ft_knows : forall x t, meaning env x = Some t -> match t with ATool _ _ _ => True | _ => exists i j v a, names s x i j v /\ v_val v = Some a /\ is_thing s a t end;
}.
Lemma fit_more xs env s (t : st bob) : grows_by xs s t -> (forall x, In x (map fst env) -> ~ In x xs) -> ~ In (lit "Fs") xs -> class_val (host t) CFs = class_val (host s) CFs -> b_list (host t) = b_list (host s) ->
  fit env s -> fit env t.
Proof.
  intros G Nx Nf Qc Ql F. split.
  - eapply grows_can; [exact G|apply F].
  - eapply grows_have; [exact G|apply F].
  - eapply grows_fs; [exact G|exact Nf|exact Qc|exact Ql|apply F].
  - intros x th M. pose proof (ft_knows _ _ F x th M) as K. pose proof (Nx x (meaning_in _ _ _ M)) as Nxx. destruct th as [|l|p]; [exact I| |]; destruct K as (i & j & v & a & N & V & A & B & C); exists i, j, v, a;
      (split; [eapply grows_names; [exact G|exact Nxx|congruence|exact N]|]); (split; [exact V|]).
    + split; [eapply grows_live; eauto|]. split; [eapply grows_usable_strings; eauto|exact C].
    + split; [eapply grows_usable; eauto|]. split; [eapply grows_holds; eauto|exact C].
Qed.
Lemma fit_later env s : fit env s -> after s (fit env).
Proof. intros F t G Q. eapply (fit_more []); [exact G|auto|auto|now rewrite Q|now rewrite Q|exact F]. Qed.
Definition plain_env (env : list (bytes * thing)) : Prop := forall x t, meaning env x = Some t -> match t with ATool _ _ _ => True | Strings l => Forall nul_free l | AString w => nul_free w end.
Lemma fit_plain env s : fit env s -> plain_env env.
Proof.
  intros F x th M. pose proof (ft_knows _ _ F x th M) as K. destruct th as [|l|p]; [exact I| |]; destruct K as (i & j & v & a & N & V & A & B & C); exact C.
Qed.

Lemma one_gives n env s i w : fit env s -> one_means env i = Some w -> gives_string cf (S (S n)) (one_expr i) s w.
Proof.
  intros F E. destruct i as [t|x|x k]; cbn [one_means one_expr] in *.
  - injection E as <-. apply text_gives.
  - destruct (meaning env x) as [[| |p]|] eqn:M; try discriminate. injection E as <-. destruct (ft_knows _ _ F x _ M) as (i & j & v & a & N & V & U & Hd & _). eapply name_gives; eassumption.
  - destruct (meaning env x) as [[|l|]|] eqn:M; try discriminate. destruct (number k) as [z|] eqn:Ek; [|discriminate]. destruct (ft_knows _ _ F x _ M) as (i & j & v & a & N & V & L & U & _).
    eapply nth_gives; eassumption.
Qed.
Lemma one_plain env i w : plain_env env -> one_means env i = Some w -> Forall nul_free (one_texts i) -> nul_free w.
Proof.
  intros P E T. destruct i as [t|x|x k]; cbn [one_means one_texts] in *.
  - injection E as <-. now inversion T.
  - destruct (meaning env x) as [[| |p]|] eqn:M; try discriminate. injection E as <-. exact (P _ _ M).
  - destruct (meaning env x) as [[|l|]|] eqn:M; try discriminate. destruct (number k) as [z|]; [|discriminate]. pose proof (P _ _ M) as Q. cbn in Q. rewrite Forall_forall in Q. apply Q. eapply nth_error_In; exact E.
Qed.
Lemma all_forall2 {A B} (f : A -> option B) : forall l r, all f l = Some r -> Forall2 (fun a b => f a = Some b) l r.
Proof.
  induction l as [|a l IH]; intros r E; cbn in E.
  - injection E as <-. constructor.
  - destruct (f a) as [b|] eqn:Q; [|discriminate]. destruct (all f l) as [r'|] eqn:W; [|discriminate]. injection E as <-. constructor; auto.
Qed.
Lemma given_plain env : plain_env env -> forall g ws, given_means listing env g = Some ws -> Forall nul_free (given_texts g) -> Forall nul_free ws.
Proof.
  intros P. induction g as [l|x|dir|g IH y c|g IHg h IHh]; intros ws E T; cbn [given_means given_texts] in *.
  - apply all_forall2 in E. induction E as [|i w l r Q F IH]; constructor; cbn [flat_map] in T; apply Forall_app in T as (T1 & T2); [eapply one_plain; eassumption|now apply IH].
  - destruct (meaning env x) as [[|l|]|] eqn:M; try discriminate. injection E as <-. exact (P _ _ M).
  - destruct (listing (cstr dir)) as [l|]; [|discriminate]. injection E as <-. clear. induction l; cbn; constructor; auto using cstr_is_nul_free.
  - destruct (given_means listing env g) as [l|]; [|discriminate]. injection E as <-. specialize (IH l eq_refl T). clear - IH. induction IH; cbn; [constructor|]. destruct (passes c x); [constructor|]; auto.
  - destruct (given_means listing env g) as [a|]; [|discriminate]. destruct (given_means listing env h) as [b|]; [|discriminate]. injection E as <-. apply Forall_app in T as (T1 & T2). apply Forall_app. auto.
Qed.

Lemma test_tests y : forall c, exists K, tests cf K (test_expr y c) y (passes c).
Proof.
  induction c as [t|t|c (K & IH)|a (Ka & IHa) b (Kb & IHb)|a (Ka & IHa) b (Kb & IHb)]; cbn [test_expr passes].
  - exists 3. intros n s w L C (m1 & m2 & m3 & A & _) Sx. destruct n as [|[|[|n]]]; try lia. eapply (str_member_decides cf n _ PtEndswith); [reflexivity|exact C|exact A|exact Sx].
  - exists 3. intros n s w L C (m1 & m2 & m3 & _ & A & _) Sx. destruct n as [|[|[|n]]]; try lia. eapply (str_member_decides cf n _ PtStartswith); [reflexivity|exact C|exact A|exact Sx].
  - exists (S (S K)). intros n s w L C Hv Sx. destruct n as [|[|n]]; try lia. apply not_decides. apply IH; auto. lia.
  - exists (S (S (Ka + Kb))). intros n s w L C Hv Sx. destruct n as [|[|n]]; try lia. eapply (both_decides cf n _ _ _ _ (passes a w) (passes b w)); [reflexivity|apply IHa; auto; lia|].
    intros t G _. apply IHb; [lia|eapply grows_can; [exact G|exact C]|eapply grows_have; [exact G|exact Hv]|eapply grows_string; [exact G|exact Sx]].
  - exists (S (S (Ka + Kb))). intros n s w L C Hv Sx. destruct n as [|[|n]]; try lia. eapply (both_decides cf n _ _ _ _ (passes a w) (passes b w)); [reflexivity|apply IHa; auto; lia|].
    intros t G _. apply IHb; [lia|eapply grows_can; [exact G|exact C]|eapply grows_have; [exact G|exact Hv]|eapply grows_string; [exact G|exact Sx]].
Qed.

Lemma given_lists env : forall g ws, given_means listing env g = Some ws -> Forall nul_free (given_texts g) -> exists N, forall n s, N <= n -> fit env s -> lists cf n (given_expr g) s ws.
Proof.
  induction g as [l|x|dir|g IH y c|g IHg h IHh]; intros ws E T; cbn [given_means given_texts given_expr] in *.
  - exists 3. intros n s L F. destruct n as [|[|[|n]]]; try lia. apply each_lists. apply all_forall2 in E. clear T L. induction E as [|i w l r Q E IH]; cbn [map]; constructor; [|exact IH].
    intros t G Hh. eapply one_gives; [eapply fit_later; [exact F|exact G|exact Hh]|exact Q].
  - destruct (meaning env x) as [[|l|]|] eqn:M; try discriminate. injection E as <-. exists 1. intros n s L F. destruct n as [|n]; try lia.
    destruct (ft_knows _ _ F x _ M) as (i & j & v & a & N & V & Lv & U & _). eapply named_lists; eassumption.
  - destruct (listing (cstr dir)) as [l|] eqn:Q; [|discriminate]. injection E as <-. exists 3. intros n s L F. destruct n as [|[|[|n]]]; try lia. apply entries_lists; [apply F|apply F|exact Q].
  - destruct (given_means listing env g) as [l|] eqn:Eg; [|discriminate]. injection E as <-. destruct (IH l eq_refl T) as (N & L). destruct (test_tests y c) as (K & Tc).
    exists (S (S (S (S (N + K + length l))))). intros n s Ln F. destruct n as [|[|[|n]]]; try lia. eapply where_lists; [exact Tc|lia|lia|apply F|apply F| |apply L; [lia|exact F]].
    eapply given_plain; [eapply fit_plain; exact F|exact Eg|exact T].
  - destruct (given_means listing env g) as [a|] eqn:Eg; [|discriminate]. destruct (given_means listing env h) as [b|] eqn:Eh; [|discriminate]. injection E as <-. apply Forall_app in T as (T1 & T2).
    destruct (IHg a eq_refl T1) as (Ng & Lg), (IHh b eq_refl T2) as (Nh & Lh). exists (S (S (Ng + Nh))). intros n s Ln F. destruct n as [|[|n]]; try lia.
    apply plus_lists; [eapply given_plain; [eapply fit_plain; exact F|exact Eg|exact T1]|eapply given_plain; [eapply fit_plain; exact F|exact Eh|exact T2]|apply Lg; [lia|exact F]|].
    intros t G Hh. apply Lh; [lia|]. eapply fit_later; [exact F|exact G|exact Hh].
Qed.

(** A new tool. *)
Lemma new_evals n o flags s ka : cur_rv s = None -> offers s (op_class o) ka ->
  exists a s' v, evals cf (S (S (S (S (S n))))) (new_expr o flags) s a s' /\ grows s s' /\ host s' = set_states (b_states (host s) ++ [Some v]) (host s) /\
    is_thing s' a (ATool (op_class o) (length (b_states (host s))) flags).
Proof.
  intros Rv Of. set (k := op_class o) in *. 
  destruct (strs_lit_evals sg out listing pow exists_ files (S (S n)) flags (held ka s)) as (v & s1 & E1 & G1 & H1 & S1). fold cf in E1.
  assert (Gh : grows s s1) by (eapply grows_trans; [exact (grows_held [] s ka)|apply grown_grows; exact G1]).
  assert (Hh : host s1 = host s) by (rewrite H1; apply held_host).
  assert (O1 : offers s1 k ka) by (eapply grows_offers; [exact Gh|intros []|now apply same_host_classes|exact Of]).
  destruct (instantiates sg out listing pow exists_ files n k ka (strs_lit flags) s v s1 flags (op_flagged o) Rv Of E1 O1 S1) as (a & s' & E & (G & Hs & L & M)). fold cf in E.
  rewrite Hh in Hs, M. exists a, s', v. split; [exists None; exact E|]. split; [eapply grows_trans; eauto|]. split; [exact Hs|].
  assert (C : same_classes s s') by (intro b; rewrite Hs; destruct b; reflexivity).
  cbn [is_thing]. split; [exact L|]. split; [|split].
  - destruct (M o eq_refl) as (p & fa & (sc & j & f & e & l & P & _) & _). eauto.
  - destruct Of as (_ & _ & _ & _ & K & U). exists ka. rewrite C. split; [exact K|]. split; [intros b; rewrite C; apply U|]. intros o' E'. destruct (M o' E') as (p & fa & Mm & Lf). eauto.
  - exists v. split; [unfold flags_of; rewrite Hs; cbn; apply nth_app_new|]. eapply grows_holds; eauto.
Qed.

Lemma tool_evals n env tools o t d flags tools' s ka : knows env s -> tool_means env (op_class o) tools t = Some (d, flags, tools') -> cur_rv s = None -> offers s (op_class o) ka ->
  length (b_states (host s)) = tools ->
  exists a s' more, evals cf (S (S (S (S (S n))))) (tool_expr o t) s a s' /\ grows s s' /\ host s' = set_states (b_states (host s) ++ more) (host s) /\
    is_thing s' a (ATool (op_class o) d flags) /\ length (b_states (host s')) = tools'.
Proof.
  intros K E Rv Of Lt. destruct t as [fl|x]; cbn [tool_means tool_expr] in *.
  - injection E as <- <- <-. destruct (new_evals n o fl s ka Rv Of) as (a & s' & v & A & B & C & D). exists a, s', [Some v]. rewrite Lt in D. repeat (split; [assumption|]).
    rewrite C. cbn. rewrite app_length. cbn. lia.
  - destruct (meaning env x) as [[k' d' fl| |]|] eqn:M; try discriminate. destruct (K _ _ M) as (i & j & v & a & Nm & V & Th).
    assert (k' = op_class o /\ d' = d /\ fl = flags /\ tools = tools') as (-> & -> & -> & <-).
    { destruct (op_class o), k'; try discriminate; injection E as <- <- <-; auto. }
    pose proof Th as (L & _). destruct (id_evals (S (S (S (S n)))) x s i j v a Nm V L) as (s' & A & B & C).
    exists a, s', []. split; [exact A|]. split; [exact B|]. split; [rewrite C, app_nil_r; destruct (host s); reflexivity|].
    split; [|now rewrite C]. eapply is_thing_later; [exact B|now apply same_host_classes|now apply same_host_tools|exact Th].
Qed.
End Known.

(** ** Products *)

Lemma nul_free_lit x : forallb (fun c => negb (byte_eqb c NUL)) (lit x) = true -> nul_free (lit x).
Proof. intros E I. rewrite forallb_forall in E. specialize (E _ I). rewrite byte_eqb_refl in E. discriminate. Qed.
Lemma nul_free_hex z : (0 <= z)%Z -> nul_free (hex64 z).
Proof. intros L. apply hex64_not_in; auto. Qed.
Lemma object_nul_free sg out src c : nul_free out -> nul_free src -> object_of sg out src c -> nul_free c.
Proof.
  intros No Ns E. unfold object_of in E. rewrite gen_cookie_ok in E by (auto; intros [Q|[]]; discriminate).
  assert (Q : c = (out ++ lit "/bob/") ++ flat src ++ cookie_tail sg src (lit "o")) by congruence. rewrite Q. unfold cookie_tail. repeat rewrite nul_free_app. clear Q E.
  repeat split; auto; try (apply nul_free_lit; reflexivity).
  - unfold flat. intro I. apply in_map_iff in I as (x & Q & I). unfold flat1 in Q. destruct (byte_eqb x SLASH); [discriminate|]. subst x. contradiction.
  - apply nul_free_hex. pose proof (str_hash_range sg src). lia.
Qed.
Lemma product_nul_free sg out k srcs : nul_free out -> nul_free (link_cookie sg out k srcs).
Proof.
  intros No. unfold link_cookie. repeat rewrite nul_free_app. repeat split; auto; try (apply nul_free_lit; reflexivity); try (destruct k; apply nul_free_lit; reflexivity).
  apply nul_free_hex, link_hash_nonneg.
Qed.
Lemma all_objects sg out srcs objs : Forall2 (object_of sg out) srcs objs -> all (object sg out) srcs = Some objs.
Proof. induction 1 as [|x c srcs objs E F IH]; cbn; [reflexivity|]. unfold object at 1. unfold object_of in E. now rewrite E, IH. Qed.

(** ** Lines *)

Section Lines.
Variables (sg : bool) (out : bytes) (listing : bytes -> option (list bytes)) (pow : Z -> Z -> option Z) (exists_ : bytes -> bool) (files : bytes -> file).
Let cf := bob_conf sg out listing pow exists_ files.
Implicit Types s : st bob.

(** [x] is the [i]-th request and asks for [r]. *)
Definition wants s (i : nat) (r : req) (x : asked) : Prop :=
  exists o d flags srcs v res fv, r = request_for o i d flags srcs /\ x = op_asks o (Some d) v res /\ flags_of s d fv /\ strings s fv flags /\ strings s v srcs /\ Forall nul_free srcs /\
  match o with Compiling => exists objs, Forall2 (object_of sg out) srcs objs /\ strings s res objs | Linking k => holds s (DStr (link_cookie sg out k srcs)) res end.
Fixpoint wants_all s (i : nat) (rs : list req) (xs : list asked) : Prop :=
  match rs, xs with
  | [], [] => True
  | r :: rs, x :: xs => wants s i r x /\ wants_all s (S i) rs xs
  | _, _ => False
  end.
Lemma wants_later s s' i r x : keeps s s' -> more_tools s s' -> wants s i r x -> wants s' i r x.
Proof.
  intros G (more & Q) (o & d & flags & srcs & v & res & fv & E1 & E2 & F & Sf & Sv & Nf & Gv). exists o, d, flags, srcs, v, res, fv. do 2 (split; [assumption|]).
  split; [unfold flags_of; rewrite Q; apply nth_app_l; exact F|]. split; [eapply holds_keeps; eauto|]. split; [eapply holds_keeps; eauto|]. split; [exact Nf|].
  destruct o as [|k]; [|eapply holds_keeps; eauto]. destruct Gv as (objs & F2 & So). exists objs. split; [exact F2|eapply holds_keeps; eauto].
Qed.
Lemma wants_all_later s s' : keeps s s' -> more_tools s s' -> forall rs i xs, wants_all s i rs xs -> wants_all s' i rs xs.
Proof. intros G T. induction rs as [|r rs IH]; intros i [|x xs]; cbn; auto. intros (A & B). split; [eapply wants_later; eauto|auto]. Qed.
Lemma wants_all_app s r x : forall rs i xs, wants_all s i rs xs -> wants s (i + length rs) r x -> wants_all s i (rs ++ [r]) (xs ++ [x]).
Proof.
  induction rs as [|r0 rs IH]; intros i [|x0 xs]; cbn [wants_all length app]; try contradiction.
  - rewrite Nat.add_0_r. auto.
  - intros (A & B) W. split; [exact A|]. apply IH; [exact B|]. now rewrite Nat.add_succ_comm.
Qed.

(** The variable [x] of the outermost scope is as [P] says. *)
Definition top_at s (x : bytes) (P : addr -> Prop) : Prop := exists j v a, declares s x 0 j v /\ v_val v = Some a /\ P a.
Lemma top_at_later xs s s' x (P Q : addr -> Prop) : grows_by xs s s' -> (forall a, P a -> Q a) -> top_at s x P -> top_at s' x Q.
Proof. intros G I (j & v & a & D & V & Pa). exists j, v, a. split; [eapply grows_declares; eauto; congruence|]. split; [exact V|auto]. Qed.

Record ready (env : list (bytes * thing)) (tools : nat) (rs : list req) s : Prop := Ready {
  rd_rv : cur_rv s = None;
  rd_open : open s [0];
  rd_vars : exists vs, vars s 0 vs /\ (forall x, In x (map v_key vs) -> In x (reserved ++ map fst env));
  rd_classes : forall k, flagged k -> exists ka, offers s k ka;
  rd_tools : length (b_states (host s)) = tools;
  rd_log : b_log (host s) = [];
  rd_knows : knows env s;
  rd_asked : wants_all s 0 rs (b_asked (host s));
  rd_install : top_at s (lit "install") (fun a => payload_at s a PNone);
  rd_run : top_at s (lit "run") (fun a => payload_at s a (PVec []));
  rd_imported : exists j v, declares s IMPORTED 0 j v /\ v_val v <> None;
  rd_have : strings_have s;
  rd_fs : has_fs s;
  rd_names : forall x, In x (map fst env) -> ~ In x reserved;
}.
Lemma ready_fit env tools rs s : ready env tools rs s -> fit env s.
Proof.
  intros R. split; [|apply R|apply R|].
  - split; [apply R|]. destruct (rd_vars _ _ _ _ R) as (vs & (c & E & A & _) & _). exists 0, [], c. split; [apply R|auto].
  - intros x th M. pose proof (rd_knows _ _ _ _ R x th M) as K. destruct th; [exact I|exact K|exact K].
Qed.

Lemma not_reserved_class x k : ~ In x reserved -> ~ In (class_name k) [x].
Proof. intros N [Q|[]]. apply N. rewrite Q. destruct k; cbn; auto 8. Qed.

(** A [let] of which the value is [t]. *)
Lemma let_thing n x e s a s1 t env tools tools' rs rs' : ready env tools rs s -> ~ In x (reserved ++ map fst env) ->
  evals cf n e (with_var 0 (Var x false None) s) a s1 -> grows (with_var 0 (Var x false None) s) s1 -> (exists p, payload_at s1 a p /\ forall f, p <> PFn f) ->
  is_thing s1 a t -> same_classes s s1 -> b_list (host s1) = b_list (host s) -> more_tools s s1 -> length (b_states (host s1)) = tools' -> b_log (host s1) = [] ->
  ((exists xs, wants_all s1 0 rs' xs /\ b_asked (host s1) = xs)) ->
  exists s', executes cf (S n) (SLet false x (Some e)) s s' /\ ready ((x, t) :: env) tools' rs' s'.
Proof.
  intros R Nx E G P Th C Bl T Lt Lg (xs & W & Qa). destruct (rd_vars _ _ _ _ R) as (vs & V & I).
  assert (F : Forall (fun v => v_key v <> x) vs).
  { apply Forall_forall. intros v Iv Q. apply Nx. rewrite <- Q. apply I. now apply in_map. }
  destruct (let_ok sg out listing pow exists_ files n x e s 0 [] vs a s1 (rd_rv _ _ _ _ R) (rd_open _ _ _ _ R) V F E G P) as (s' & X & Gs & G1 & Hh & Nm & V').
  rewrite in_app_iff in Nx.
  assert (C1 : same_classes s1 s') by now apply same_host_classes.
  assert (T1 : more_tools s1 s') by now apply same_host_tools.
  assert (C' : same_classes s s') by (intro k; rewrite C1; apply C).
  assert (T' : more_tools s s'). { destruct T as (m & Q). exists m. now rewrite Hh. }
  exists s'. split; [exact X|]. split.
  - rewrite (gr_rv _ _ _ Gs). apply R.
  - eapply grows_open; [exact Gs|apply R].
  - exists (vs ++ [Var x false (Some a)]). split; [exact V'|]. intros y Iy. rewrite map_app, in_app_iff in Iy. rewrite in_app_iff. cbn [map v_key In] in *.
    destruct Iy as [Iy|[<-|[]]]; [|right; now left]. apply I in Iy. rewrite in_app_iff in Iy. cbn. tauto.
  - intros k K. destruct (rd_classes _ _ _ _ R k K) as (ka & Of). exists ka. eapply grows_offers; [exact Gs|apply not_reserved_class; tauto|exact C'|exact Of].
  - now rewrite Hh.
  - now rewrite Hh.
  - intros y u M. cbn [meaning] in M. destruct (bytes_eqb x y) eqn:Q.
    + apply bytes_eqb_eq in Q. subst y. injection M as <-. exists 0, (length vs), (Var x false (Some a)), a. split; [exact Nm|]. split; [reflexivity|].
      eapply is_thing_later; eauto.
    + revert M. assert (K : knows env s') by (eapply knows_later; [exact Gs| |exact C'|exact T'|apply R]; intros z Iz [<-|[]]; tauto). apply K.
  - rewrite Hh, Qa. eapply wants_all_later; [apply (grows_keeps _ _ _ G1)|exact T1|exact W].
  - eapply top_at_later; [exact Gs| |exact (rd_install _ _ _ _ R)]. intros b Pb. exact (grows_payload _ _ _ _ _ Gs Pb).
  - eapply top_at_later; [exact Gs| |exact (rd_run _ _ _ _ R)]. intros b Pb. exact (grows_payload _ _ _ _ _ Gs Pb).
  - destruct (rd_imported _ _ _ _ R) as (j & v & D & Nv). exists j, v. split; [eapply grows_declares; [exact Gs|exact Nv|exact D]|exact Nv].
  - eapply grows_have; [exact Gs|apply R].
  - eapply grows_fs; [exact Gs| |apply C'|now rewrite Hh|apply R]. intros [Q|[]]. apply Nx. left. rewrite Q. cbn. auto.
  - intros y Iy. cbn [map fst In] in Iy. destruct Iy as [<-|Iy]; [tauto|]. now apply (rd_names _ _ _ _ R).
Qed.

Lemma with_var_ready x env tools rs s : ready env tools rs s -> ~ In x (reserved ++ map fst env) ->
  let s0 := with_var 0 (Var x false None) s in grows_by [x] s s0 /\ host s0 = host s /\ cur_rv s0 = None /\ knows env s0 /\ (forall k, flagged k -> exists ka, offers s0 k ka) /\ fit env s0.
Proof.
  intros R Nx s0. destruct (rd_vars _ _ _ _ R) as (vs & V & _). destruct (with_var_grows x s 0 vs V) as (G & _). fold s0 in G.
  assert (Hh : host s0 = host s) by (unfold s0, with_var; destruct (nth_error (scopes s) 0); reflexivity). rewrite in_app_iff in Nx.
  split; [exact G|]. split; [exact Hh|]. split; [rewrite (gr_rv _ _ _ G); apply R|]. split; [|split].
  - eapply knows_later; [exact G| |now apply same_host_classes|now apply same_host_tools|apply R]. intros z Iz [<-|[]]; tauto.
  - intros k K. destruct (rd_classes _ _ _ _ R k K) as (ka & Of). exists ka. eapply grows_offers; [exact G|apply not_reserved_class; tauto|now apply same_host_classes|exact Of].
  - eapply fit_more; [exact G| | |now rewrite Hh|now rewrite Hh|eapply ready_fit; exact R].
    + intros z Iz [<-|[]]; tauto.
    + intros [Q|[]]. apply Nx. left. rewrite Q. cbn. auto.
Qed.

Lemma define_ok n x o flags env tools rs s : ready env tools rs s -> ~ In x (reserved ++ map fst env) ->
  exists s', executes cf (6 + n) (line_stmt (Define x o flags)) s s' /\ ready ((x, ATool (op_class o) tools flags) :: env) (S tools) rs s'.
Proof.
  intros R Nx. destruct (with_var_ready x env tools rs s R Nx) as (G0 & H0 & Rv0 & K0 & O0 & _). set (s0 := with_var 0 _ s) in *.
  destruct (O0 _ (op_flagged o)) as (ka & Of). destruct (new_evals sg out listing pow exists_ files n o flags s0 ka Rv0 Of) as (a & s1 & v & E & G & Hs & Th). fold cf in E.
  rewrite H0 in Hs, Th. rewrite (rd_tools _ _ _ _ R) in Th.
  assert (T1 : more_tools s s1) by (exists [Some v]; now rewrite Hs).
  apply (let_thing (5 + n) x (new_expr o flags) s a s1 (ATool (op_class o) tools flags) env tools (S tools) rs rs R Nx E G); auto.
  - destruct Th as (_ & (sc & kb & P) & _). eexists. split; [exact P|discriminate].
  - intro k. rewrite Hs. destruct k; reflexivity.
  - rewrite Hs. reflexivity.
  - rewrite Hs. cbn. rewrite app_length, (rd_tools _ _ _ _ R). cbn. lia.
  - rewrite Hs. apply R.
  - exists (b_asked (host s)). split; [|now rewrite Hs]. eapply wants_all_later; [|exact T1|apply R]. eapply grows_keeps. eapply grows_trans; [exact G0|apply grows_more; exact G].
Qed.

(** A [let] of a string or of a list. *)
Lemma let_data n x e t env tools rs s : ready env tools rs s -> ~ In x (reserved ++ map fst env) ->
  (forall s0, fit env s0 -> exists a s1, evals cf n e s0 a s1 /\ grows s0 s1 /\ host s1 = host s0 /\ is_thing s1 a t /\ exists p, payload_at s1 a p /\ forall f, p <> PFn f) ->
  exists s', executes cf (S n) (SLet false x (Some e)) s s' /\ ready ((x, t) :: env) tools rs s'.
Proof.
  intros R Nx E. destruct (with_var_ready x env tools rs s R Nx) as (G0 & H0 & Rv0 & K0 & O0 & F0). set (s0 := with_var 0 _ s) in *.
  destruct (E s0 F0) as (a & s1 & X & G & Hs & Th & P). rewrite H0 in Hs.
  apply (let_thing n x e s a s1 t env tools tools rs rs R Nx X G P Th); try (rewrite Hs; first [reflexivity|apply R]).
  - now apply same_host_classes.
  - now apply same_host_tools.
  - exists (b_asked (host s)). split; [|now rewrite Hs]. apply (wants_all_later s); [|now apply same_host_tools|apply R]. eapply grows_keeps. eapply grows_trans; [exact G0|apply grows_more; exact G].
Qed.
Lemma let_one_ok n x i w env tools rs s : ready env tools rs s -> ~ In x (reserved ++ map fst env) -> one_means env i = Some w -> Forall nul_free (one_texts i) ->
  exists s', executes cf (3 + n) (line_stmt (LetOne x i)) s s' /\ ready ((x, AString w) :: env) tools rs s'.
Proof.
  intros R Nx E T. apply (let_data (2 + n) x (one_expr i) (AString w) env tools rs s R Nx). intros s0 F.
  destruct (one_gives sg out listing pow exists_ files n env s0 i w F E) as (a & s1 & A & B & C & D & U). exists a, s1. do 3 (split; [assumption|]). split.
  - split; [exact U|]. split; [exact D|]. eapply one_plain; [eapply fit_plain; exact F|exact E|exact T].
  - destruct D as (c & Cc & b & m & u & Vc & _). exists (PStr b m). split; [exists c; auto|discriminate].
Qed.
Lemma let_many_ok x g ws env : given_means listing env g = Some ws -> Forall nul_free (given_texts g) -> exists N, forall n tools rs s, N <= n -> ready env tools rs s -> ~ In x (reserved ++ map fst env) ->
  exists s', executes cf n (line_stmt (LetMany x g)) s s' /\ ready ((x, Strings ws) :: env) tools rs s'.
Proof.
  intros E T. destruct (given_lists sg out listing pow exists_ files env g ws E T) as (N & Lg). exists (S N). intros n tools rs s Ln R Nx. destruct n as [|n]; [lia|].
  apply (let_data n x (given_expr g) (Strings ws) env tools rs s R Nx). intros s0 F. destruct (Lg n s0 ltac:(lia) F) as (a & s1 & A & B & C & D & U & _). exists a, s1. do 3 (split; [assumption|]). split.
  - split; [exact U|]. split; [exact D|]. eapply given_plain; [eapply fit_plain; exact F|exact E|exact T].
  - destruct D as (es & (c & Cc & Vc) & _). exists (PVec es). split; [exists c; auto|discriminate].
Qed.

Lemma make_ok x o t g d flags tools tools' srcs r env : nul_free out ->
  tool_means env (op_class o) tools t = Some (d, flags, tools') -> given_means listing env g = Some srcs -> Forall nul_free (given_texts g) -> result_of sg out o srcs = Some r ->
  exists N, forall n rs s, N <= n -> ready env tools rs s -> ~ In x (reserved ++ map fst env) ->
  exists s', executes cf n (line_stmt (Make x o t g)) s s' /\ ready ((x, r) :: env) tools' (rs ++ [request_for o (length rs) d flags srcs]) s'.
Proof.
  intros No Et Eg Pg Er. destruct (given_lists sg out listing pow exists_ files env g srcs Eg Pg) as (N & Lg). exists (8 + N). intros n0 rs s Ln R Nx.
  assert (exists n, n0 = 8 + n /\ N <= n) as (n & -> & Lm) by (exists (n0 - 8); lia). clear Ln.
  destruct (with_var_ready x env tools rs s R Nx) as (G0 & H0 & Rv0 & K0 & O0 & F0). set (s0 := with_var 0 _ s) in *.
  destruct (O0 _ (op_flagged o)) as (ka & Of).
  destruct (tool_evals sg out listing pow exists_ files n env tools o t d flags tools' s0 ka K0 Et Rv0 Of) as (i & s1 & more & E1 & G1 & H1 & Th & Lt); [rewrite H0; apply R|]. fold cf in E1.
  rewrite H0 in H1.
  assert (C1 : same_classes s0 s1) by (intro k; rewrite H1, H0; destruct k; reflexivity).
  assert (T1 : more_tools s0 s1) by (exists more; now rewrite H1, H0).
  pose proof Th as (_ & _ & (kb & Kb & Ub & M) & _). destruct (M o eq_refl) as (p & fa & Mm & Lf).
  set (s1h := held fa s1).
  assert (Gh : grows s1 s1h) by apply grows_held. assert (Hh : host s1h = host s1) by apply held_host.
  assert (Fh : fit env s1h).
  { apply (fit_later env s1); [|exact Gh|exact Hh]. eapply (fit_more []); [exact G1|auto|auto| | |exact F0]; rewrite H1, H0; reflexivity. }
  destruct (Lg (6 + n) s1h ltac:(lia) Fh) as (v & s2 & E2 & G2 & H2 & Uv & _ & _). fold cf in E2.
  assert (Sv : strings s2 v srcs) by now apply usable_strings_strings.
  assert (Nf : Forall nul_free srcs) by (eapply given_plain; [eapply fit_plain; exact Fh|exact Eg|exact Pg]).
  assert (G12 : grows s1 s2) by (eapply grows_trans; eauto).
  assert (H12 : host s2 = host s1) by congruence.
  destruct (performs sg out listing pow exists_ files (5 + n) o (tool_expr o t) s0 i s1 kb (Some d) [p] fa p (given_expr g) v s2 srcs Rv0 E1 Mm Lf E2) as (res & s3 & E3 & Gv & Af & G3).
  { eapply grows_method; eauto. } { now rewrite H12. } { intros b. rewrite H12. apply Ub. } { exact Sv. } { now apply nul_free_takes. }
  fold cf in E3. destruct Af as (Aa & Af & Ac & Al & Ali & As & Alog).
  assert (G : grows s0 s3) by (eapply grows_trans; [exact G1|]; eapply grows_trans; [exact G12|exact G3]).
  assert (C23 : same_classes s2 s3) by (intros []; cbn; congruence).
  assert (T23 : more_tools s2 s3) by now apply more_tools_refl.
  assert (C13 : same_classes s1 s3) by (intro k; rewrite C23, H12; reflexivity).
  assert (T13 : more_tools s1 s3) by (apply more_tools_refl; congruence).
  assert (Cs : same_classes s s3) by (intro k; rewrite C13, C1, H0; reflexivity).
  assert (Ts : more_tools s s3). { exists more. rewrite As, H12, H1. reflexivity. }
  assert (Th3 : is_thing s3 i (ATool (op_class o) d flags)) by (eapply (is_thing_later []); [eapply grows_trans; [exact G12|exact G3]|exact C13|exact T13|exact Th]).
  apply (let_thing (7 + n) x _ s res s3 r env tools tools' rs (rs ++ [request_for o (length rs) d flags srcs]) R Nx (ex_intro _ None E3) G); auto.
  - destruct Gv as (_ & Gv). destruct o as [|k].
    + destruct Gv as (objs & _ & es & (c & Cc & Vc) & _). exists (PVec es). split; [exists c; auto|discriminate].
    + destruct Gv as ((c & Cc & b & m & u & Vc & _) & _). exists (PStr b m). split; [exists c; auto|discriminate].
  - destruct Gv as (Lv & Gv). destruct o as [|k]; cbn [result_of] in Er.
    + destruct Gv as (objs & F & Q). rewrite (all_objects _ _ _ _ F) in Er. injection Er as <-. cbn [is_thing]. split; [exact Lv|]. split; [exact Q|].
      clear - F Nf No. induction F as [|y c ys cs Oy F IH]; constructor; inversion Nf as [|? ? Ny Nys]; subst; [exact (object_nul_free _ _ _ _ No Ny Oy)|apply IH; exact Nys].
    + injection Er as <-. cbn [is_thing]. destruct Gv as (Gv & Ur). split; [exact Ur|]. split; [exact Gv|]. now apply product_nul_free.
  - rewrite Ali, H12, H1. reflexivity.
  - rewrite As, H12. exact Lt.
  - rewrite Alog, H12, H1. apply R.
  - exists (b_asked (host s) ++ [op_asks o (Some d) v res]). split; [|rewrite Aa, H12, H1; reflexivity].
    apply wants_all_app; [eapply wants_all_later; [|exact Ts|apply R]; eapply grows_keeps, grows_trans; [exact G0|apply grows_more; exact G]|].
    destruct Th3 as (_ & _ & _ & fv & Ff & Sf). exists o, d, flags, srcs, v, res, fv. do 4 (split; [first [reflexivity|assumption]|]).
    split; [exact (grows_holds [] _ _ _ _ G3 Sv)|]. split; [exact Nf|]. destruct Gv as (_ & Gv). destruct o as [|k]; [|apply Gv].
    destruct Gv as (objs & F & Q). exists objs. split; [exact F|now apply usable_strings_strings].
Qed.

(** ** Scripts *)

Lemma lines_ok : nul_free out -> forall ls env tools made new env', NoDup (reserved ++ map fst env ++ map line_name ls) -> Forall nul_free (flat_map line_texts ls) ->
  asks sg out listing env tools made ls = Some (new, env') -> exists N, forall n rs s, N <= n -> length rs = made -> ready env tools rs s ->
  exists tools' s', iterM (r_stmt (interp cf n)) (map line_stmt ls) s = Ret tt s' /\ ready env' tools' (rs ++ new) s'.
Proof.
  intros No. induction ls as [|l ls IH]; intros env tools made new env' Nd Pt E.
  - cbn [asks] in E. injection E as <- <-. exists 0. intros n rs s _ _ R. exists tools, s. rewrite app_nil_r. split; [reflexivity|exact R].
  - assert (Nx : ~ In (line_name l) (reserved ++ map fst env)).
    { rewrite app_assoc in Nd. cbn [map] in Nd. apply NoDup_remove_2 in Nd. rewrite in_app_iff in Nd. tauto. }
    assert (Nd' : forall t, NoDup (reserved ++ map fst ((line_name l, t) :: env) ++ map line_name ls)).
    { intro t. cbn [map fst app]. rewrite app_assoc in Nd. cbn [map] in Nd. pose proof (NoDup_remove_1 _ _ _ Nd) as N1. apply NoDup_remove_2 in Nd. rewrite <- app_assoc in N1, Nd. apply NoDup_Add with (a := line_name l) (l := reserved ++ map fst env ++ map line_name ls); [apply Add_app|]. split; assumption. }
    cbn [flat_map] in Pt. apply Forall_app in Pt as (Pl & Pt'). cbn [map iterM].
    assert (Step : forall t tools1 more rest, (exists N, forall n rs s, N <= n -> length rs = made -> ready env tools rs s -> exists s', executes cf n (line_stmt l) s s' /\ ready ((line_name l, t) :: env) tools1 (rs ++ more) s') ->
      asks sg out listing ((line_name l, t) :: env) tools1 (length more + made) ls = Some (rest, env') -> new = more ++ rest ->
      exists N, forall n rs s, N <= n -> length rs = made -> ready env tools rs s -> exists tools' s', (_ <- r_stmt (interp cf n) (line_stmt l) ;; iterM (r_stmt (interp cf n)) (map line_stmt ls))%fl s = Ret tt s' /\ ready env' tools' (rs ++ new) s').
    { intros t tools1 more rest (N1 & X1) Ea ->. destruct (IH _ _ _ _ _ (Nd' t) Pt' Ea) as (N2 & X2). exists (N1 + N2). intros n rs s Ln Lr R.
      destruct (X1 n rs s ltac:(lia) Lr R) as (s1 & E1 & R1). destruct (X2 n (rs ++ more) s1 ltac:(lia) ltac:(rewrite app_length; lia) R1) as (tools' & s' & E2 & R2).
      exists tools', s'. rewrite app_assoc. split; [|exact R2]. rewrite (bind_step _ _ _ _ _ E1). exact E2. }
    destruct l as [x o flags|x o t g|x i|x g]; cbn [asks line_name line_texts] in *.
    + apply (Step _ _ [] new) with (2 := E); [|reflexivity]. exists 6. intros n rs s Ln Lr R. rewrite app_nil_r. destruct (define_ok (n - 6) x o flags env tools rs s R Nx) as (s' & A & B). replace (6 + (n - 6)) with n in A by lia. eauto.
    + destruct (tool_means env (op_class o) tools t) as [[[d flags] tools1]|] eqn:Et; [|discriminate]. destruct (given_means listing env g) as [srcs|] eqn:Eg; [|discriminate].
      destruct (result_of sg out o srcs) as [r|] eqn:Er; [|discriminate]. destruct (asks sg out listing ((x, r) :: env) tools1 (S made) ls) as [[rest env1]|] eqn:Ea; [|discriminate]. injection E as <- <-.
      destruct (make_ok x o t g d flags tools tools1 srcs r env No Et Eg Pl Er) as (N & X).
      apply (Step r tools1 [request_for o made d flags srcs] rest); [|exact Ea|reflexivity]. exists N. intros n rs s Ln Lr R. rewrite <- Lr. apply X; auto.
    + destruct (one_means env i) as [w|] eqn:Ew; [|discriminate]. apply (Step _ _ [] new) with (2 := E); [|reflexivity]. exists 3. intros n rs s Ln Lr R. rewrite app_nil_r.
      destruct (let_one_ok (n - 3) x i w env tools rs s R Nx Ew Pl) as (s' & A & B). replace (3 + (n - 3)) with n in A by lia. eauto.
    + destruct (given_means listing env g) as [ws|] eqn:Ew; [|discriminate]. apply (Step _ _ [] new) with (2 := E); [|reflexivity]. destruct (let_many_ok x g ws env Ew Pl) as (N & X).
      exists N. intros n rs s Ln Lr R. rewrite app_nil_r. apply X; auto.
Qed.
End Lines.

(** ** The install map and the run vector *)

Section Endings.
Variables (sg : bool) (out : bytes) (listing : bytes -> option (list bytes)) (pow : Z -> Z -> option Z) (exists_ : bytes -> bool) (files : bytes -> file).
Let cf := bob_conf sg out listing pow exists_ files.
Implicit Types s : st bob.

Definition install_is s (m : option (list (bytes * bytes))) (a : addr) : Prop := match m with None => payload_at s a PNone | Some l => string_map s a l end.
Record ended (rs : list req) (m : option (list (bytes * bytes))) (l : list bytes) s : Prop := Ended {
  en_rv : cur_rv s = None;
  en_open : open s [0];
  en_log : b_log (host s) = [];
  en_asked : wants_all sg out s 0 rs (b_asked (host s));
  en_install : top_at s (lit "install") (install_is s m);
  en_run : top_at s (lit "run") (fun a => strings s a l);
  en_imported : exists j v, declares s IMPORTED 0 j v /\ v_val v <> None;
}.
Lemma install_is_keeps s s' m a : keeps s s' -> install_is s m a -> install_is s' m a.
Proof.
  intros K. destruct m as [m|]; cbn [install_is].
  - intros (kvs & (c & C & V) & F). destruct (proj1 K _ _ C) as (c' & C' & V'). exists kvs. split; [exists c'; split; [exact C'|congruence]|]. eapply forall2_impl; [|exact F]. intros x y (A & B). split; eapply holds_keeps; eauto.
  - intros (c & C & V). destruct (proj1 K _ _ C) as (c' & C' & V'). exists c'. split; [exact C'|congruence].
Qed.
Lemma ready_ended env tools rs s : ready sg out env tools rs s -> ended rs None [] s.
Proof.
  intros R. split; try apply R. destruct (rd_run _ _ _ _ _ _ R) as (j & v & a & D & V & (c & C & Vc)). exists j, v, a. split; [exact D|]. split; [exact V|]. apply holds_vec. exists c, []. split; [exact C|]. split; [exact Vc|constructor].
Qed.
Lemma ended_later rs m l s (t : st bob) : ended rs m l s -> grows s t -> host t = host s -> ended rs m l t.
Proof.
  intros E G Q. pose proof (grows_keeps _ _ _ G) as K. split.
  - rewrite (gr_rv _ _ _ G). apply E.
  - eapply grows_open; [exact G|apply E].
  - rewrite Q. apply E.
  - rewrite Q. apply (wants_all_later sg out s); [exact K|now apply same_host_tools|apply E].
  - eapply top_at_later; [exact G| |exact (en_install _ _ _ _ E)]. intros a. now apply install_is_keeps.
  - eapply top_at_later; [exact G| |exact (en_run _ _ _ _ E)]. intros a. now apply holds_keeps.
  - destruct (en_imported _ _ _ _ E) as (j & v & D & Nv). exists j, v. split; [eapply grows_declares; [exact G|exact Nv|exact D]|exact Nv].
Qed.
Lemma declares_old s x j v : declares s x 0 j v -> exists vs, vars s 0 vs /\ nth_error vs j = Some v.
Proof. intros (b & a & V & <- & _). exists (b ++ v :: a). split; [exact V|]. rewrite nth_error_app2 by lia. now rewrite Nat.sub_diag. Qed.
Lemma top_names s x j v : open s [0] -> declares s x 0 j v -> names s x 0 j v.
Proof. intros O D. exists [], []. split; [exact O|]. split; [constructor|exact D]. Qed.

Section Assigning.
Variables (x : bytes) (j : nat) (v : var) (o b : addr) (s s' : st bob) (A : assigns v 0 j o b s s') (D : declares s x 0 j v).
Lemma key_is : v_key v = x.
Proof. destruct D as (? & ? & _ & _ & K & _). exact K. Qed.
Lemma assigns_top y (P Q : addr -> Prop) : y <> x -> (forall a, P a -> Q a) -> top_at s y P -> top_at s' y Q.
Proof.
  intros N I (k & w & a & Dy & V & Pa). exists k, w, a. split; [|auto]. eapply assigns_declares; [exact A|eapply declares_old; exact D|rewrite key_is; exact N|exact Dy].
Qed.
Lemma assigns_asked rs : wants_all sg out s 0 rs (b_asked (host s)) -> wants_all sg out s' 0 rs (b_asked (host s')).
Proof.
  intros W. rewrite (as_host _ _ _ _ _ _ _ A). apply (wants_all_later sg out s); [eapply assigns_keeps; exact A|apply same_host_tools; exact (as_host _ _ _ _ _ _ _ A)|exact W].
Qed.
Lemma assigns_here (P : addr -> Prop) : P b -> top_at s' x P.
Proof.
  intros Pb. pose proof (assigns_new v 0 j o b s s' A) as N. rewrite key_is in N. specialize (N D). exists j, (Var x (v_static v) (Some b)), b. auto.
Qed.

(** Strings and lists of them stay as they were when neither the old value nor the new one is one. *)
Hypothesis Old : forall p, payload_at s o p -> p = PNone.
Hypothesis New : forall p, payload_at s b p -> exists m, p = PMap m.
Lemma not_old a p : payload_at s a p -> p <> PNone -> a <> o.
Proof. intros P N ->. apply N. now apply Old. Qed.
Lemma not_new a p : payload_at s a p -> (forall m, p <> PMap m) -> a <> b.
Proof. intros P N ->. destruct (New _ P) as (m & Q). now apply (N m). Qed.
Lemma assigns_string w a : holds s (DStr w) a -> usable s a -> usable s' a.
Proof.
  intros (c & C & u & n & z & V & _) U. assert (P : payload_at s a (PStr u n)) by (exists c; auto). eapply assigns_usable; [exact A|eapply not_old; [exact P|discriminate]|eapply not_new; [exact P|discriminate]|exact U].
Qed.
Lemma assigns_static k y ps fa : y <> x -> static_method s k y ps fa -> static_method s' k y ps fa.
Proof.
  intros Ny (g & sc & i & f & e & p & l & vs & Pk & Kg & Sg & (cs & Sc & As & Os) & Dy & Pf & Kf & Pm & Nm & (c & C & Oc) & Ef & Ee & Vs).
  pose proof (assigns_vars _ _ _ _ _ _ _ A _ _ Vs) as Vs'. eexists g, sc, i, f, e, p, l, _. split; [eapply assigns_payload; eauto|]. do 2 (split; [assumption|]). split.
  { destruct (as_scopes _ _ _ _ _ _ _ A _ _ Sc) as (c' & E' & Al & Ow & _). exists c'. split; [exact E'|]. split; congruence. }
  split; [eapply assigns_declares; [exact A|eapply declares_old; exact D|rewrite key_is; exact Ny|exact Dy]|]. split; [eapply assigns_payload; eauto|]. do 2 (split; [assumption|]). split.
  { destruct Nm as (cf0 & Cf & Nf). destruct (as_cells _ _ _ _ _ _ _ A _ _ Cf) as (c' & C' & _ & _ & _ & Qn). exists c'. split; [exact C'|]. rewrite Qn by (eapply not_new; [exact Pf|discriminate]).
    destruct (c_name cf0) as [|q r|n0]; auto. destruct Nf as (Er & ck & Ck & Ak). split; [exact Er|]. destruct (as_scopes _ _ _ _ _ _ _ A _ _ Ck) as (c2 & E2 & Al & _). exists c2. split; [exact E2|congruence]. }
  split; [destruct (as_cells _ _ _ _ _ _ _ A _ _ C) as (c' & C' & _ & Qo & _); exists c'; split; [exact C'|congruence]|]. split; [exact Ef|]. split; [rewrite (as_envs _ _ _ _ _ _ _ A); exact Ee|exact Vs'].
Qed.
Lemma assigns_fit env : (forall y, In y (map fst env) -> y <> x) -> x <> lit "Fs" -> x <> lit "list" -> fit env s -> fit env s'.
Proof.
  intros Ne Nfs Nl F. split.
  - eapply assigns_can; [exact A|apply F].
  - destruct (ft_have _ _ F) as (m1 & m2 & m3 & P1 & P2 & P3). assert (N : forall k y p m, provides s k y p m -> m <> o).
    { intros k y p m (_ & c & C & _ & V). eapply not_old; [exists c; split; [exact C|exact V]|discriminate]. }
    exists m1, m2, m3. split; [|split]; eapply assigns_provides; eauto.
  - destruct (ft_fs _ _ F) as (i & jj & w & k & p & fa & N & V & Lk & M & Lf & K & L). pose proof M as (g & sc & i0 & f & e & p0 & l & vs & Pk & _ & _ & _ & _ & Pf & _).
    exists i, jj, w, k, p, fa. split; [eapply assigns_names; [exact A|eapply declares_old; exact D|rewrite key_is; congruence|exact N]|]. split; [exact V|].
    split; [eapply assigns_live; [exact A|eapply not_old; [exact Pk|discriminate]|exact Lk]|]. split; [apply assigns_static; [congruence|exact M]|]. split; [eapply assigns_live; [exact A|eapply not_old; [exact Pf|discriminate]|exact Lf]|].
    rewrite (as_host _ _ _ _ _ _ _ A). auto.
  - intros y th M. pose proof (ft_knows _ _ F y th M) as K. pose proof (Ne y (meaning_in _ _ _ M)) as Ny. destruct th as [|l|p]; [exact I| |]; destruct K as (i & jj & w & a & N & V & B & C & Nf); exists i, jj, w, a;
      (split; [eapply assigns_names; [exact A|eapply declares_old; exact D|rewrite key_is; exact Ny|exact N]|]); (split; [exact V|]).
    + destruct C as (es & (c & Cc & Vc) & Fe). assert (P : payload_at s a (PVec es)) by (exists c; auto). split; [eapply assigns_live; [exact A|eapply not_old; [exact P|discriminate]|exact B]|]. split; [|exact Nf].
      exists es. split; [destruct (as_cells _ _ _ _ _ _ _ A _ _ Cc) as (c' & C' & V' & _); exists c'; split; [exact C'|congruence]|]. eapply forall2_impl; [|exact Fe]. intros z e (Hz & Uz).
      split; [eapply assigns_holds; eauto|eapply assigns_string; eauto].
    + split; [eapply assigns_string; eauto|]. split; [eapply assigns_holds; eauto|exact Nf].
Qed.
End Assigning.

Lemma evals_bound n e s a s1 (p : FlState.payload) : evals cf n e s a s1 -> payload_at s1 a p -> a < length (cells s1).
Proof. intros _ (c & C & _). eapply nth_lt; exact C. Qed.

(** [install = {…}] *)
Lemma pair_gives n env s : fit env s -> forall l m, all (pair_means env) l = Some m ->
  Forall2 (fun e kv => after s (fun t => gives_string cf (S (S n)) (fst e) t (fst kv)) /\ after s (fun t => gives_string cf (S (S n)) (snd e) t (snd kv))) (map (fun kv => (one_expr (fst kv), one_expr (snd kv))) l) m.
Proof.
  intros F l m E. apply all_forall2 in E. induction E as [|[k v] [k' v'] l m Q E IH]; cbn [map]; constructor; [|exact IH]. unfold pair_means in Q. cbn [fst snd] in *.
  destruct (one_means env k) as [k0|] eqn:Ek; [|discriminate]. destruct (one_means env v) as [v0|] eqn:Ev; [|discriminate]. injection Q as <- <-.
  split; intros t G Hh; eapply one_gives; eauto; eapply fit_later; eauto.
Qed.
Lemma install_ok n env rs s l m : fit env s -> ended rs None [] s -> (forall x, In x (map fst env) -> ~ In x reserved) -> all (pair_means env) l = Some m -> distinct_keys (map fst m) = true ->
  exists s', executes cf (S (S (S (S n)))) (install_stmt l) s s' /\ fit env s' /\ ended rs (Some m) [] s'.
Proof.
  intros F En Nr Em Dk. destruct (map_gives cf (S (S n)) _ m s ltac:(lia) (pair_gives n env s F l m Em) Dk) as (b & s1 & E & G & Hh & Sm & Fr).
  pose proof (fit_later env s F s1 G Hh) as F1. pose proof (ended_later _ _ _ _ s1 En G Hh) as En1.
  destruct (en_install _ _ _ _ En) as (j & v & o & D & V & Po). cbn [install_is] in Po. pose proof Sm as (kvs & Pb & _).
  assert (D1 : declares s1 (lit "install") 0 j v) by (eapply grows_declares; [exact G|congruence|exact D]).
  destruct (assign_ok cf (S (S n)) (lit "install") _ s 0 j v o PNone b s1 (en_rv _ _ _ _ En) (top_names _ _ _ _ (en_open _ _ _ _ En) D) V Po I E G (evals_bound _ _ _ _ _ _ E Pb)) as (s' & X & A).
  exists s'. split; [exact X|]. assert (Po1 : payload_at s1 o PNone) by (eapply grows_payload; eauto). split.
  - eapply (assigns_fit (lit "install") j v o b s1 s' A D1); [| | |discriminate|discriminate|exact F1].
    + intros p (c & C & Q). destruct Po1 as (c' & C' & Q'). congruence.
    + intros p (c & C & Q). destruct Pb as (c' & C' & Q'). exists kvs. congruence.
    + intros y Iy ->. apply (Nr _ Iy). cbn. tauto.
  - split.
    + rewrite (as_rv _ _ _ _ _ _ _ A). apply En1.
    + eapply assigns_open; [exact A|apply En1].
    + rewrite (as_host _ _ _ _ _ _ _ A). apply En1.
    + eapply assigns_asked; [exact A|apply En1].
    + eapply assigns_here; [exact A|exact D1|]. apply (install_is_keeps s1); [eapply assigns_keeps; exact A|exact Sm].
    + eapply (assigns_top _ _ _ _ _ _ _ A D1); [discriminate| |exact (en_run _ _ _ _ En1)]. intros a. eapply assigns_holds; exact A.
    + destruct (en_imported _ _ _ _ En1) as (j1 & v1 & D2 & Nv). exists j1, v1. split; [|exact Nv]. eapply assigns_declares; [exact A|eapply declares_old; exact D1|rewrite (key_is _ _ _ _ D1); discriminate|exact D2].
Qed.

(** [run = …] *)
Lemma run_ok env g ws : given_means listing env g = Some ws -> Forall nul_free (given_texts g) -> exists N, forall n rs m s, N <= n -> fit env s -> ended rs m [] s ->
  exists s', executes cf n (run_stmt g) s s' /\ ended rs m ws s'.
Proof.
  intros Eg Pg. destruct (given_lists sg out listing pow exists_ files env g ws Eg Pg) as (N & Lg). exists (S (S N)). intros n rs m s Ln F En. destruct n as [|[|n]]; try lia.
  destruct (Lg (S n) s ltac:(lia) F) as (b & s1 & E & G & Hh & U & _ & _). pose proof (ended_later _ _ _ _ s1 En G Hh) as En1. apply usable_strings_strings in U.
  destruct (en_run _ _ _ _ En) as (j & v & o & D & V & Po). apply holds_vec in Po as (co & es & Co & Vo & Fo). inversion Fo; subst. assert (Pb : b < length (cells s1)) by (pose proof U as U0; apply holds_vec in U0 as (c & es & C & _); eapply nth_lt; exact C).
  assert (D1 : declares s1 (lit "run") 0 j v) by (eapply grows_declares; [exact G|congruence|exact D]).
  destruct (assign_ok cf n (lit "run") _ s 0 j v o (PVec []) b s1 (en_rv _ _ _ _ En) (top_names _ _ _ _ (en_open _ _ _ _ En) D) V (ex_intro _ co (conj Co Vo)) I E G Pb) as (s' & X & A).
  exists s'. split; [exact X|]. split.
  - rewrite (as_rv _ _ _ _ _ _ _ A). apply En1.
  - eapply assigns_open; [exact A|apply En1].
  - rewrite (as_host _ _ _ _ _ _ _ A). apply En1.
  - eapply assigns_asked; [exact A|apply En1].
  - eapply (assigns_top _ _ _ _ _ _ _ A D1); [discriminate| |exact (en_install _ _ _ _ En1)]. intros a. apply install_is_keeps. eapply assigns_keeps; exact A.
  - eapply assigns_here; [exact A|exact D1|]. eapply assigns_holds; [exact A|exact U].
  - destruct (en_imported _ _ _ _ En1) as (j1 & v1 & D2 & Nv). exists j1, v1. split; [|exact Nv]. eapply assigns_declares; [exact A|eapply declares_old; exact D1|rewrite (key_is _ _ _ _ D1); discriminate|exact D2].
Qed.
End Endings.

(** ** After [import bob] *)

Section Begun.
Local Open Scope fl_scope.
Definition any_conf : conf bob := bob_conf true [] (fun _ => None) (fun _ _ => None) (fun _ => false) (fun _ => File bob_fl).
(** The state a script begins in, the one bob.fl begins in and the one it ends in. *)
Definition created (ps : list bytes) : st bob := Eval vm_compute in match create ps fresh_bob with Ret _ s => s | _ => blank [] fresh_bob end.
Definition inside : st bob :=
  Eval vm_compute in match (ms <- new_members ;; modify (set_engine None None ms [] None)) (created []) with Ret _ s => s | _ => blank [] fresh_bob end.
Definition imported : st bob := Eval vm_compute in match iterM (r_stmt (interp any_conf 7)) bob_fl inside with Ret _ s => s | _ => blank [] fresh_bob end.
Definition begun (ps : list bytes) : st bob := SpecImport.left (created ps) imported.
Lemma created_ok ps : create ps fresh_bob = Ret tt (created ps).
Proof. vm_compute. reflexivity. Qed.
Lemma inside_ok ps : (ms <- new_members ;; modify (set_engine None None ms [] None)) (created ps) = Ret tt inside.
Proof. vm_compute. reflexivity. Qed.

Variables (sg : bool) (out : bytes) (listing : bytes -> option (list bytes)) (pow : Z -> Z -> option Z) (exists_ : bytes -> bool) (files : bytes -> file).
Let cf := bob_conf sg out listing pow exists_ files.
Lemma imported_ok : exec cf 7 bob_fl inside = Ret tt imported.
Proof. vm_compute. reflexivity. Qed.
Lemma imported_more n : exec cf (7 + n) bob_fl inside = Ret tt imported.
Proof.
  assert (L : 7 <= 7 + n) by lia. assert (N : exec cf 7 bob_fl inside <> NoFuel) by (rewrite imported_ok; discriminate).
  rewrite (exec_more cf 7 (7 + n) bob_fl inside L N). exact imported_ok.
Qed.
Lemma exec_iter (c : conf bob) n ss s : exec c n ss s = iterM (r_stmt (interp c n)) ss s.
Proof. reflexivity. Qed.
Lemma import_file_ok (c : conf bob) (R : @rec bob) p ss s i i' : cf_file c p = File ss -> (ms <- new_members ;; modify (set_engine None None ms [] None)) s = Ret tt i -> iterM (r_stmt R) ss i = Ret tt i' ->
  import_file c R p s = Ret tt (SpecImport.left s i').
Proof.
  intros F E I. unfold import_file. rewrite F. unfold mbind in *. destruct (new_members s) as [ms s1| | | |]; try discriminate. destruct (modify _ s1) as [u s2| | | |]; try discriminate. injection E as -> ->.
  rewrite I. reflexivity.
Qed.
Lemma finds_resolved prefix : finds_bob exists_ files prefix -> cf_file cf (resolve cf (import_dirs prefix) (lit "bob.fl")) = File bob_fl.
Proof.
  intros F. unfold import_dirs. cbn [resolve]. change (cf_exists cf) with exists_. change (cf_file cf) with files.
  replace ((prefix ++ lit "/share/flamingo/import") ++ lit "/" ++ lit "bob.fl") with (prefix ++ lit "/share/flamingo/import/bob.fl") by (rewrite <- app_assoc; reflexivity).
  change (lit "import" ++ lit "/" ++ lit "bob.fl") with (lit "import/bob.fl"). destruct F as [(E & Fl)|(E & E' & Fl)]; cbn beta zeta in *; [now rewrite E|now rewrite E, E'].
Qed.
Lemma import_bob n prefix : finds_bob exists_ files prefix -> r_stmt (interp cf (S (7 + n))) (SImport false [lit "bob"]) (created (import_dirs prefix)) = Ret tt (begun (import_dirs prefix)).
Proof.
  intros F. rewrite import_resolved; [|reflexivity|discriminate|repeat constructor; cbn; intuition discriminate].
  pose proof (imported_more n) as W. rewrite exec_iter in W. cbv iota. change (file_name [lit "bob"]) with (lit "bob.fl"). change (import_paths (created (import_dirs prefix))) with (import_dirs prefix).
  apply (import_file_ok cf (interp cf (7 + n)) _ bob_fl _ inside imported (finds_resolved prefix F) (inside_ok _)). exact W.
Qed.

(** Where bob.fl declares [x]. *)
Fixpoint at_key (x : bytes) (vs : list var) (j : nat) : option (nat * var) :=
  match vs with [] => None | v :: vs => if bytes_eqb (v_key v) x then Some (j, v) else at_key x vs (S j) end.
Lemma at_key_split x : forall vs j k v, at_key x vs j = Some (k, v) -> exists b a, vs = b ++ v :: a /\ k = j + length b /\ v_key v = x /\ Forall (fun w => v_key w <> x) b.
Proof.
  induction vs as [|w vs IH]; intros j k v E; cbn [at_key] in E; [discriminate|]. destruct (bytes_eqb (v_key w) x) eqn:Q.
  - injection E as <- <-. exists [], vs. apply bytes_eqb_eq in Q. rewrite Nat.add_0_r. auto.
  - apply IH in E as (b & a & -> & -> & K & F). exists (w :: b), a. cbn. rewrite Nat.add_succ_r. repeat split; auto. constructor; auto. intro Q'. apply bytes_eqb_eq in Q'. congruence.
Qed.
Definition top_of (s : st bob) : list var := match nth_error (scopes s) 0 with Some c => sc_vars c | None => [] end.
Lemma top_declares (s : st bob) c x j v : nth_error (scopes s) 0 = Some c -> sc_alive c = true -> at_key x (top_of s) 0 = Some (j, v) -> declares s x 0 j v.
Proof.
  intros E A K. unfold top_of in K. rewrite E in K. apply at_key_split in K as (b & a & Q & -> & Kx & F). exists b, a. split; [exists c; auto|]. auto.
Qed.

Lemma begun_ready ps : ready sg out [] 0 [] (begun ps).
Proof.
  assert (D : forall x j v, at_key x (top_of imported) 0 = Some (j, v) -> declares (begun ps) x 0 j v).
  { intros x j v E. eapply top_declares; [reflexivity|reflexivity|exact E]. }
  assert (O : open (begun ps) [0]) by (reflexivity).
  split.
  - reflexivity.
  - exact O.
  - eexists. split; [eexists; split; [reflexivity|split; reflexivity]|]. intros x I. vm_compute in I. vm_compute. tauto.
  - intros k K. destruct (at_key (class_name k) (top_of imported) 0) as [[j v]|] eqn:E; [|destruct k; vm_compute in E; discriminate].
    destruct (v_val v) as [ka|] eqn:V; [|destruct k; vm_compute in E; injection E as <- <-; discriminate].
    exists ka. split; [exists 0, j, v; split; [|exact V]; exists [], []; split; [exact O|]; split; [constructor|]; apply D; exact E|].
    assert (Cl : live (begun ps) ka /\ (exists f b e p l, class_at (begun ps) ka f b e p l [lit "flags"] (functions_of k)) /\ has_name (begun ps) ka (class_name k) /\ class_val (host (begun ps)) k = Some ka /\
      forall k', class_val (host (begun ps)) k' = Some ka -> k' = k); [|exact Cl].
    destruct k; [now destruct K| |]; vm_compute in E; injection E as <- <-; vm_compute in V; injection V as <-.
    + split; [eexists; split; [reflexivity|reflexivity]|]. split.
      { do 5 eexists. split; [eexists; split; [reflexivity|reflexivity]|]. do 3 (split; [reflexivity|]). split; [reflexivity|]. split; [reflexivity|]. split; [reflexivity|].
        eexists. eexists. split; [reflexivity|split; reflexivity]. }
      split; [eexists; split; [reflexivity|]; vm_compute; split; [reflexivity|]; eexists; split; reflexivity|]. split; [reflexivity|]. intros [] Q; vm_compute in Q; (discriminate || reflexivity).
    + split; [eexists; split; [reflexivity|reflexivity]|]. split.
      { do 5 eexists. split; [eexists; split; [reflexivity|reflexivity]|]. do 3 (split; [reflexivity|]). split; [reflexivity|]. split; [reflexivity|]. split; [reflexivity|].
        eexists. eexists. split; [reflexivity|split; reflexivity]. }
      split; [eexists; split; [reflexivity|]; vm_compute; split; [reflexivity|]; eexists; split; reflexivity|]. split; [reflexivity|]. intros [] Q; vm_compute in Q; (discriminate || reflexivity).
  - reflexivity.
  - reflexivity.
  - intros x t E. discriminate.
  - vm_compute. exact I.
  - do 3 eexists. split; [apply D; reflexivity|]. split; [reflexivity|]. eexists. split; [reflexivity|reflexivity].
  - do 3 eexists. split; [apply D; reflexivity|]. split; [reflexivity|]. eexists. split; [reflexivity|reflexivity].
  - do 2 eexists. split; [apply D; reflexivity|discriminate].
  - assert (W : forall k, Forall (fun e => fst e <> nth k (map fst (members (begun ps))) (TStr, [])) (firstn k (members (begun ps))) \/ 6 < k).
    { intros k. destruct k as [|[|[|[|[|[|[|k]]]]]]]; [left..|right; lia]; vm_compute; repeat constructor; discriminate. }
    exists 1, 2, 5. split; [|split].
    + split; [|eexists; split; [reflexivity|]; split; reflexivity]. exists (firstn 1 (members (begun ps))), (skipn 2 (members (begun ps))). split; [reflexivity|]. destruct (W 1) as [Q|Q]; [exact Q|lia].
    + split; [|eexists; split; [reflexivity|]; split; reflexivity]. exists (firstn 2 (members (begun ps))), (skipn 3 (members (begun ps))). split; [reflexivity|]. destruct (W 2) as [Q|Q]; [exact Q|lia].
    + split; [|eexists; split; [reflexivity|]; split; reflexivity]. exists (firstn 5 (members (begun ps))), (skipn 6 (members (begun ps))). split; [reflexivity|]. destruct (W 5) as [Q|Q]; [exact Q|lia].
  - exists 0, 1. do 2 eexists. exists (lit "path"), 14. split; [exists [], []; split; [exact O|]; split; [constructor|]; apply D; reflexivity|]. split; [reflexivity|]. split; [eexists; split; reflexivity|].
    split; [|split; [eexists; split; reflexivity|split; reflexivity]].
    do 8 eexists. split; [eexists; split; reflexivity|]. do 2 (split; [reflexivity|]). split; [eexists; split; [reflexivity|]; split; reflexivity|].
    split; [exists []; eexists; split; [eexists; split; [reflexivity|]; split; reflexivity|]; split; [reflexivity|]; split; [reflexivity|constructor]|]. split; [eexists; split; reflexivity|]. do 2 (split; [reflexivity|]).
    split; [eexists; split; [reflexivity|]; vm_compute; split; [reflexivity|]; eexists; split; reflexivity|]. split; [eexists; split; reflexivity|]. split; [reflexivity|]. split; [reflexivity|]. eexists. split; [reflexivity|]. split; reflexivity.
  - intros x [].
Qed.
End Begun.

(** ** What the build is given *)

Section Given.
Variables (sg : bool) (out : bytes).
Implicit Types s : st bob.

Lemma text_ok s a x : holds s (DStr x) a -> text a s = Ret x s.
Proof. intros Hx. unfold text. rewrite (bind_step _ _ _ _ _ (str_at_holds _ _ _ Hx)). reflexivity. Qed.
Lemma texts_ok s : forall l es, Forall2 (holds s) (map DStr l) es -> mapM text es s = Ret l s.
Proof.
  induction l as [|x l IH]; intros es F; inversion F as [|? ? ? ? Hx F']; subst; cbn [mapM]; [reflexivity|].
  rewrite (bind_step _ _ _ _ _ (text_ok _ _ _ Hx)), (bind_step _ _ _ _ _ (IH _ F')). reflexivity.
Qed.
Lemma elems_ok s v l : strings s v l -> exists es, elems v s = Ret es s /\ Forall2 (holds s) (map DStr l) es.
Proof. intros Sv. apply holds_vec in Sv as (c & es & C & V & F). exists es. split; [|exact F]. unfold elems. rewrite (bind_step _ _ _ _ _ (get_cell_ok _ _ _ C)), V. reflexivity. Qed.
Lemma flags_ok s d fv flags : flags_of s d fv -> strings s fv flags -> flags_at (Some d) s = Ret flags s.
Proof.
  intros F Sf. unfold flags_at, flags_of in *. rewrite F. destruct (elems_ok _ _ _ Sf) as (es & E & Fe). rewrite (bind_step _ _ _ _ _ E). now apply texts_ok.
Qed.
Lemma items_ok s d flags : flags_at (Some d) s = Ret flags s -> nul_free out ->
  forall srcs objs es os, Forall nul_free srcs -> Forall2 (object_of sg out) srcs objs -> Forall2 (holds s) (map DStr srcs) es -> Forall2 (holds s) (map DStr objs) os ->
  exists its, items (Some d) es os s = Ret its s /\ compile_items sg out flags srcs = Ok its.
Proof.
  intros Ef No. induction srcs as [|x srcs IH]; intros objs es os Nf Fo Fs Fb.
  - inversion Fo; subst. inversion Fs; subst. inversion Fb; subst. exists []. split; reflexivity.
  - inversion Fo as [|? y ? objs' Oy Fo']; subst. inversion Fs as [|? e ? es' He Fs']; subst. inversion Fb as [|? b ? os' Hb Fb']; subst. inversion Nf as [|? ? Nx Nf']; subst.
    destruct (IH _ _ _ Nf' Fo' Fs' Fb') as (its & E & Q). exists (Item flags (cstr x) y :: its). split.
    + cbn [items]. rewrite (bind_step _ _ _ _ _ (text_ok _ _ _ He)), (bind_step _ _ _ _ _ (text_ok _ _ _ Hb)), (bind_step _ _ _ _ _ Ef), (bind_step _ _ _ _ _ E).
      rewrite (cstr_nul_free y) by exact (object_nul_free sg out x y No Nx Oy). reflexivity.
    + cbn [compile_items]. unfold object_of in Oy. rewrite Oy. cbn [bind]. rewrite Q. reflexivity.
Qed.
Lemma requested_ok s i r x : nul_free out -> wants sg out s i r x -> exists q, requested i x s = Ret q s /\ request_of sg out r = Ok q.
Proof.
  intros No (o & d & flags & srcs & v & res & fv & -> & -> & F & Sf & Sv & Nf & Gv). pose proof (flags_ok _ _ _ _ F Sf) as Ef. destruct (elems_ok _ _ _ Sv) as (es & Ee & Fe).
  destruct o as [|k].
  - destruct Gv as (objs & Fo & So). destruct (elems_ok _ _ _ So) as (os & Eo & Fb). destruct (items_ok s d flags Ef No srcs objs es os Nf Fo Fe Fb) as (its & E & Q).
    exists (Req (cc_id (Some d)) (lit "C source file compilation") CbCompile (PCompile its)). split.
    + cbn [op_asks requested]. rewrite (bind_step _ _ _ _ _ Ee), (bind_step _ _ _ _ _ Eo), (bind_step _ _ _ _ _ E). reflexivity.
    + cbn [request_for request_of]. rewrite Q. reflexivity.
  - eexists. split.
    + cbn [op_asks requested]. rewrite (bind_step _ _ _ _ _ (text_ok _ _ _ Gv)), (bind_step _ _ _ _ _ Ee), (bind_step _ _ _ _ _ (texts_ok _ _ _ Fe)), (bind_step _ _ _ _ _ Ef). reflexivity.
    + cbn [request_for request_of]. rewrite (cstr_nul_free (link_cookie _ _ _ _)) by now apply product_nul_free.
      replace (map cstr srcs) with srcs; [reflexivity|]. clear - Nf. induction Nf as [|x l Nx F IH]; cbn; [reflexivity|]. now rewrite (cstr_nul_free x Nx), <- IH.
Qed.
Lemma requests_ok s : nul_free out -> forall rs i xs, wants_all sg out s i rs xs -> exists qs, requests i xs s = Ret qs s /\ requests_of sg out rs = Ok qs.
Proof.
  intros No. induction rs as [|r rs IH]; intros i [|x xs] W; cbn [wants_all] in W; try contradiction.
  - exists []. split; reflexivity.
  - destruct W as (W & Ws). destruct (requested_ok s i r x No W) as (q & E & Q). destruct (IH _ _ Ws) as (qs & E' & Q'). exists (q :: qs). split.
    + cbn [requests]. rewrite (bind_step _ _ _ _ _ E), (bind_step _ _ _ _ _ E'). reflexivity.
    + cbn [requests_of]. rewrite Q. cbn [bind]. rewrite Q'. reflexivity.
Qed.

Lemma top_vars_ok s vs : open s [0] -> vars s 0 vs -> top_vars s = Ret vs s.
Proof.
  intros O (c & E & A & Q). unfold top_vars. rewrite (bind_step _ _ _ _ _ (cur_stack_ok _ _ O)). cbn [rev app]. rewrite (bind_step _ _ _ _ _ (get_scope_ok _ _ _ E A)). now rewrite Q.
Qed.
Lemma find_top_ok x v after : forall before, Forall (fun w => v_key w <> x) before -> v_key v = x -> find_top x (before ++ v :: after) = Some v.
Proof.
  induction before as [|w b IH]; intros F K; cbn [app find_top].
  - rewrite (proj2 (bytes_eqb_eq _ _) K). reflexivity.
  - inversion F; subst. destruct (bytes_eqb (v_key w) (v_key v)) eqn:Q; [apply bytes_eqb_eq in Q; contradiction|auto].
Qed.
Lemma top_val_ok s x (P : addr -> Prop) : open s [0] -> top_at s x P -> exists a, P a /\ forall p, payload_at s a p -> top_val x s = Ret (Some p) s.
Proof.
  intros O (j & v & a & (b & af & V & _ & K & F) & Va & Pa). exists a. split; [exact Pa|]. intros p (c & C & Q). unfold top_val. rewrite (bind_step _ _ _ _ _ (top_vars_ok _ _ O V)). rewrite (find_top_ok x v af b F K), Va.
  rewrite (bind_step _ _ _ _ _ (get_cell_ok _ _ _ C)). now rewrite Q.
Qed.
Lemma pairs_ok s : forall m kvs, Forall2 (fun kv ab => holds s (DStr (fst kv)) (fst ab) /\ holds s (DStr (snd kv)) (snd ab)) m kvs ->
  mapM (fun kv => (k <- str_at (fst kv) ;; v <- str_at (snd kv) ;; ret (k, v))%fl) kvs s = Ret (map (fun kv => (Some (fst kv), Some (snd kv))) m) s.
Proof.
  induction m as [|x m IH]; intros kvs F; inversion F as [|? ab ? kvs' (Hk & Hv) F']; subst; cbn [mapM map]; [reflexivity|].
  rewrite (bind_step _ _ s (Some (fst x), Some (snd x)) s).
  2: { rewrite (bind_step _ _ _ _ _ (str_at_holds _ _ _ Hk)), (bind_step _ _ _ _ _ (str_at_holds _ _ _ Hv)). reflexivity. }
  rewrite (bind_step _ _ _ _ _ (IH _ F')). reflexivity.
Qed.
Lemma strs_ok s : forall l es, Forall2 (holds s) (map DStr l) es -> mapM str_at es s = Ret (map Some l) s.
Proof.
  induction l as [|x l IH]; intros es F; inversion F as [|? ? ? ? Hx F']; subst; cbn [mapM map]; [reflexivity|].
  rewrite (bind_step _ _ _ _ _ (str_at_holds _ _ _ Hx)), (bind_step _ _ _ _ _ (IH _ F')). reflexivity.
Qed.

Lemma ended_steps rs m l s : nul_free out -> ended sg out rs m l s ->
  project_steps s = Ret (plan sg out rs) s /\ install_var s = Ret (Some (found_install m)) s /\ run_vector s = Ret (found_run l) s.
Proof.
  intros No R. split; [|split].
  - destruct (requests_ok s No rs 0 _ (en_asked _ _ _ _ _ _ R)) as (qs & E & Q). unfold project_steps. rewrite (bind_step (gets host) _ s (host s) s eq_refl). rewrite (bind_step _ _ _ _ _ E). unfold plan. now rewrite Q.
  - destruct (top_val_ok s _ _ (en_open _ _ _ _ _ _ R) (en_install _ _ _ _ _ _ R)) as (a & P & T). unfold install_var. destruct m as [m|]; cbn [install_is] in P.
    + destruct P as (kvs & P & F). rewrite (bind_step _ _ _ _ _ (T _ P)). rewrite (bind_step _ _ _ _ _ (pairs_ok s _ _ F)). reflexivity.
    + rewrite (bind_step _ _ _ _ _ (T _ P)). reflexivity.
  - destruct (top_val_ok s _ _ (en_open _ _ _ _ _ _ R) (en_run _ _ _ _ _ _ R)) as (a & P & T). apply holds_vec in P as (c & es & C & V & F). unfold run_vector.
    rewrite (bind_step _ _ _ _ _ (T _ (ex_intro _ c (conj C V)))). rewrite (bind_step _ _ _ _ _ (strs_ok s _ _ F)). reflexivity.
Qed.

Variables (listing : bytes -> option (list bytes)) (pow : Z -> Z -> option Z) (exists_ : bytes -> bool) (files : bytes -> file).
Let cf := bob_conf sg out listing pow exists_ files.

Lemma iter_app n a b s s1 s2 : iterM (r_stmt (interp cf n)) a s = Ret tt s1 -> iterM (r_stmt (interp cf n)) b s1 = Ret tt s2 -> iterM (r_stmt (interp cf n)) (a ++ b) s = Ret tt s2.
Proof.
  revert s. induction a as [|x a IH]; intros s A B; cbn [app iterM] in *; [injection A as ->; exact B|]. unfold mbind in *. destruct (r_stmt (interp cf n) x s) as [u t| | | |]; try discriminate. now apply IH.
Qed.
Lemma run_script prefix r p : nul_free out -> finds_bob exists_ files prefix -> distinct_names (recipe_lines r) -> plain_texts r -> recipe_means sg out listing r = Some p ->
  exists N, forall n, N <= n -> exists s, run cf n (import_dirs prefix) fresh_bob (script r) = Ret tt s /\ ended sg out (to_build p) (to_install p) (to_run p) s.
Proof.
  intros No F Nd Pt E. unfold recipe_means in E. destruct (asks sg out listing [] 0 0 (recipe_lines r)) as [[rs env]|] eqn:Ea; [|discriminate].
  unfold plain_texts, recipe_texts in Pt. apply Forall_app in Pt as (P1 & Pt). apply Forall_app in Pt as (P2 & P3).
  destruct (lines_ok sg out listing pow exists_ files No (recipe_lines r) [] 0 0 rs env Nd P1 Ea) as (N1 & X1). fold cf in X1.
  assert (X3 : forall m ws, match recipe_run r with None => Some [] | Some g => given_means listing env g end = Some ws -> exists N, forall n s, N <= n -> fit env s -> ended sg out rs m [] s ->
    exists s', iterM (r_stmt (interp cf n)) (some_stmt run_stmt (recipe_run r)) s = Ret tt s' /\ ended sg out rs m ws s').
  { intros m ws Er. destruct (recipe_run r) as [g|]; cbn [some_stmt iterM].
    - destruct (run_ok sg out listing pow exists_ files env g ws Er P3) as (N & X). fold cf in X. exists N. intros n s Ln Ft En. destruct (X n rs m s Ln Ft En) as (s' & Q & En'). exists s'. split; [|exact En']. rewrite (bind_step _ _ _ _ _ Q). reflexivity.
    - injection Er as <-. exists 0. intros n s _ _ En. exists s. split; [reflexivity|exact En]. }
  destruct (match recipe_install r with None => Some None | Some l => match all (pair_means env) l with Some m => if distinct_keys (map fst m) then Some (Some m) else None | None => None end end) as [m|] eqn:Em; [|discriminate].
  destruct (match recipe_run r with None => Some [] | Some g => given_means listing env g end) as [ws|] eqn:Er; [|discriminate]. injection E as <-. cbn [to_build to_install to_run].
  destruct (X3 m ws eq_refl) as (N3 & Y3).
  assert (X2 : exists N, forall n s, N <= n -> fit env s -> (forall x, In x (map fst env) -> ~ In x reserved) -> ended sg out rs None [] s ->
    exists s', iterM (r_stmt (interp cf n)) (some_stmt install_stmt (recipe_install r)) s = Ret tt s' /\ fit env s' /\ ended sg out rs m [] s').
  { destruct (recipe_install r) as [l|]; cbn [some_stmt iterM].
    - destruct (all (pair_means env) l) as [m'|] eqn:Ep; [|discriminate]. destruct (distinct_keys (map fst m')) eqn:Dk; [|discriminate]. injection Em as <-. exists 4. intros n s Ln Ft Nr En. destruct n as [|[|[|[|n]]]]; try lia.
      destruct (install_ok sg out listing pow exists_ files n env rs s l m' Ft En Nr Ep Dk) as (s' & Q & Ft' & En'). fold cf in Q. exists s'. split; [|auto]. rewrite (bind_step _ _ _ _ _ Q). reflexivity.
    - injection Em as <-. exists 0. intros n s _ Ft _ En. exists s. split; [reflexivity|auto]. }
  destruct X2 as (N2 & Y2). exists (8 + N1 + N2 + N3). intros n Ln.
  pose proof (import_bob sg out listing pow exists_ files (n - 8) prefix F) as I. fold cf in I. replace (S (7 + (n - 8))) with n in I by lia.
  destruct (X1 n [] (begun (import_dirs prefix)) ltac:(lia) eq_refl (begun_ready sg out _)) as (tools & s1 & Q1 & R1). cbn [app] in R1.
  destruct (Y2 n s1 ltac:(lia) (ready_fit _ _ _ _ _ _ R1) (rd_names _ _ _ _ _ _ R1) (ready_ended _ _ _ _ _ _ R1)) as (s2 & Q2 & Ft2 & En2). destruct (Y3 n s2 ltac:(lia) Ft2 En2) as (s3 & Q3 & En3).
  exists s3. split; [|exact En3]. unfold run. rewrite created_ok. rewrite exec_iter. unfold script. cbn [iterM]. rewrite (bind_step _ _ _ _ _ I). eapply iter_app; [exact Q1|]. eapply iter_app; [exact Q2|exact Q3].
Qed.

Theorem script_builds prefix r p : nul_free out -> finds_bob exists_ files prefix -> distinct_names (recipe_lines r) -> plain_texts r -> recipe_means sg out listing r = Some p ->
  exists N, forall n, N <= n -> exists s, setup sg out listing pow exists_ files n prefix (script r) = Ret tt s /\ b_log (host s) = [] /\
  project_steps s = Ret (plan sg out (to_build p)) s /\ install_var s = Ret (Some (found_install (to_install p))) s /\ run_vector s = Ret (found_run (to_run p)) s.
Proof.
  intros No F Nd Pt E. destruct (run_script prefix r p No F Nd Pt E) as (N & X). exists N. intros n L. destruct (X n L) as (s & Q & R).
  exists s. split; [|split; [apply R|now apply ended_steps]].
  unfold setup. fold cf. rewrite Q. destruct (en_imported _ _ _ _ _ _ R) as (j & v & (b & af & V & _ & K & _) & _). rewrite (bind_step _ _ _ _ _ (top_vars_ok _ _ (en_open _ _ _ _ _ _ R) V)).
  replace (existsb (fun v => bytes_eqb (v_key v) IMPORTED) (b ++ v :: af)) with true; [reflexivity|]. symmetry. apply existsb_exists. exists v. split; [apply in_app_iff; right; now left|].
  now apply bytes_eqb_eq.
Qed.
End Given.
