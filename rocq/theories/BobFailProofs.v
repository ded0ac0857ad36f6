(** * Calls of Bob's functions that fail, calls of other functions without a body, and [Fs.list]. *)

From Coq Require Import ZArith Arith Ascii String Lia Bool List.
From Verif Require Import Base Hash Cookie CookieProofs FlAst FlState FlInterp FlMonad SpecFlamingo FlEqProofs SpecScript SpecFrame SpecScope SpecImport SpecPlan
  FlOpProofs FlExprProofs FlFrame FlBalance FlMemberProofs FlSeqProofs FlScopeProofs FlAssignProofs FlReturnProofs FlExternProofs Bob SpecBob SpecProject BobProofs BobCallProofs BobMethodProofs
  BobInstanceProofs BobScriptProofs FlErrorProofs FlImportProofs.
Import ListNotations.
Local Open Scope nat_scope.

Section Fail.
Variables (sg : bool) (out : bytes) (listing : bytes -> option (list bytes)) (pow : Z -> Z -> option Z) (exists_ : bytes -> bool) (files : bytes -> file).
Let cf := bob_conf sg out listing pow exists_ files.
Implicit Types s t : st bob.

Lemma strings_until_keeps s t v good : keeps s t -> strings_until s v good -> strings_until t v good.
Proof.
  intros K (es & bad & rest & (c & C & V) & F & B). exists es, bad, rest. split; [|split].
  - destruct K as (K & _). destruct (K _ _ C) as (c' & C' & V'). exists c'. split; [exact C'|congruence].
  - eapply Forall2_impl'; [|exact F]. intros. eapply holds_keeps; eauto.
  - eapply not_string_keeps; eauto.
Qed.
Lemma evals_rv n e s a s' : evals cf n e s a s' -> cur_rv s = None -> cur_rv s' = None.
Proof. intros E Rv. exact (fr_rv _ _ _ _ (evals_fr cf (bob_tame sg out listing pow exists_ files) _ _ _ _ _ E) eq_refl Rv). Qed.
Lemma held_rv a s : cur_rv s = None -> cur_rv (held a s) = None.
Proof. intro Rv. rewrite (gr_rv _ _ _ (grows_held [] s a)). exact Rv. Qed.
Lemma evals_each_rv n : forall es s bs s', evals_each cf n es s bs s' -> cur_rv s = None -> cur_rv s' = None.
Proof. intros es s bs s' E. induction E; intro Rv; auto. apply IHE. eapply evals_rv; eauto. Qed.

(** ** Methods *)

(** A call of a method fails if the callback does. *)
Lemma method_call_fails n s i k d x ps fa (args : list addr) : cur_rv s = None -> method s i k d x ps fa -> length args = length ps ->
  Forall (fun a => a < length (cells s)) args ->
  exists t, keeps s t /\ host t = host s /\ err t = err s /\ instance t i k d /\ belongs t fa i /\ (~ In fa args -> has_name t fa x) /\
  (forall t1, external_fn_cb sg out listing fa args t = Fail t1 -> call_ cf (interp cf n) fa (Some i) Slot args s = Fail t1) /\
  (forall t1 msg, external_fn_cb sg out listing fa args t = reports cf msg t1 -> call_ cf (interp cf n) fa (Some i) Slot args s = reports cf msg t1).
Proof.
  intros Rv M L Fa. pose proof M as (sc & j & f & en & l & (ci & Ci & Vi) & (cs' & Sc & As & Os) & D & Pf & Kf & Pm & _ & (c2 & C2 & O2) & Ef & Ee).
  assert (On : on_scope s (Some i) = Some sc) by (unfold on_scope; now rewrite Ci, Vi).
  destruct (extern_gives cf fa f en l (Some i) args s sc l cs') as (cs & Rn & G); auto.
  { cbn. eapply nth_lt; eauto. } { now rewrite On. } { rewrite Pm. exact L. }
  specialize (G (interp cf n)). cbv zeta in G. rewrite On in G. destruct G as (_ & G & _ & G2). set (t := inside f en l (Some sc) args cs s) in *. exists t.
  split. { destruct (renamed_keeps _ _ _ Rn) as (A & B). split; [exact A|exact B]. }
  split; [reflexivity|]. split; [reflexivity|]. split; [|split; [|split; [|split]]].
  - destruct (renamed_cell _ _ _ _ _ Rn Ci) as (ci' & Ci' & Vi' & _). exists sc, ci'. split; [exact Ci'|]. congruence.
  - destruct (renamed_cell _ _ _ _ _ Rn C2) as (c3 & C3 & V3 & O3). exists sc. split; [exists c3; split; [exact C3|]|exists cs'; split; [unfold t, inside; cbn; now apply nth_app_l|auto]]. destruct O3 as (_ & O3). congruence.
  - intro Ni. exact (proj1 (inside_method s i k d x ps fa args f en l (Some sc) cs M Rn Ni)).
  - intros t1 E. apply G. exact E.
  - intros t1 msg E. apply G2. exact E.
Qed.
(** Sources that are not all strings: nothing is asked for, and there is a message. *)
Lemma performs_bad n o e s i s1 k d ps fa p arg v s2 good : cur_rv s = None -> evals cf n e s i s1 -> method s1 i k d (op_name o) ps fa -> live s1 fa ->
  evals cf (S n) arg (held fa s1) v s2 -> method s2 i k d (op_name o) [p] fa -> class_val (host s2) (op_class o) = Some k -> (forall b, class_val (host s2) b = Some k -> b = op_class o) ->
  strings_until s2 v good -> takes sg out o good ->
  exists s', outcome cf (S (S n)) (method_call e (op_name o) [arg]) s = Fail s' /\ complained (nth_msg (op_who o) (length good)) s2 s'.
Proof.
  intros Rv E M Lv Ea M2 K U Sv Nf. assert (Rv2 : cur_rv s2 = None) by (eapply evals_rv; [exact Ea|apply held_rv; eapply evals_rv; [exact E|exact Rv]]).
  pose proof Sv as (es & bad & rest & (c & C & V) & _).
  destruct (method_call_fails n s2 i k d (op_name o) [p] fa [v] Rv2 M2 eq_refl ltac:(constructor; [eapply nth_lt; exact C|constructor])) as (t & Kt & Ht & _ & It & Bt & Nt & Q & _).
  assert (Nv : ~ In fa [v]).
  { intros [->|[]]. destruct M2 as (sc & j & f & en & l & _ & _ & _ & (c2 & C2 & V2) & _). rewrite C in C2. injection C2 as <-. congruence. }
  destruct (strings_until_keeps _ _ _ _ Kt Sv) as (es' & bad' & rest' & Ov & F & B).
  destruct (external_bad sg out listing o t fa i k d v good es' bad' rest' (Nt Nv) Bt It) as (s' & X & A & L); auto; [now rewrite Ht|now rewrite Ht|].
  exists s'. split; [|unfold complained; rewrite <- Ht; auto].
  assert (Es : evals_each cf (S n) [arg] (held fa s1) [v] s2) by (econstructor; [exact Ea|constructor]).
  pose proof (method_call_enters sg out listing pow exists_ files n e (op_name o) [arg] s i s1 k d ps fa [v] s2 E M Lv Es) as W. fold cf in W. rewrite W. apply bind_fail. apply Q. exact X.
Qed.

(** A method Bob has no operation for. *)
Definition unsupported (x : bytes) (n : nat) : bytes := lit "Bob doesn't support the '" ++ cstr x ++ lit "' external function call (" ++ dec_n n ++ lit " arguments passed)".
Lemma method_unsupported n e x s i s1 k d ps ps' fa args bs s2 : cur_rv s = None -> evals cf n e s i s1 -> method s1 i k d x ps' fa -> live s1 fa ->
  evals_each cf (S n) args (held fa s1) bs s2 -> method s2 i k d x ps fa -> length bs = length ps -> Forall (fun a => a < length (cells s2)) bs -> ~ In fa bs -> no_operation s2 k x fa ->
  exists t, outcome cf (S (S n)) (method_call e x args) s = reports cf (unsupported x (length bs)) t /\ host t = host s2 /\ err t = err s2.
Proof.
  intros Rv E M Lv Ea M2 L Fa Ni (Nl & No). assert (Rv2 : cur_rv s2 = None) by (eapply evals_each_rv; [exact Ea|apply held_rv; eapply evals_rv; [exact E|exact Rv]]).
  destruct (method_call_fails n s2 i k d x ps fa bs Rv2 M2 L Fa) as (t & Kt & Ht & Et & It & Bt & Nt & _ & Q). exists t. split; [|auto].
  pose proof (method_call_enters sg out listing pow exists_ files n e x args s i s1 k d ps' fa bs s2 E M Lv Ea) as W. fold cf in W. rewrite W.
  assert (X : external_fn_cb sg out listing fa bs t = reports cf (unsupported x (length bs)) t).
  { eapply external_unsupported; [exact (Nt Ni)|exact Bt|left; exists d; exact It|now rewrite Ht|now rewrite Ht]. }
  apply bind_raise. exact (Q _ _ X).
Qed.

(** ** Instances *)
Lemma instantiates_bad n k ka fe s v s1 good : flagged k -> cur_rv s = None -> offers s k ka -> evals cf (S (S (S (S n)))) fe (held ka s) v s1 -> offers s1 k ka -> strings_until s1 v good ->
  exists s', outcome cf (S (S (S (S (S n))))) (ECall (EId (class_name k)) [fe]) s = Fail s' /\ complained (nth_msg (class_name k) (length good)) s1 s' /\ b_states (host s') = b_states (host s1).
Proof.
  intros K Rv ((i & j & w & N & V) & L & (f & b & e & p & l & Ca) & _) E (_ & _ & (f1 & b1 & e1 & p1 & l1 & Ca1) & Hn1 & _) Sv.
  assert (Rv1 : cur_rv s1 = None) by (eapply evals_rv; [exact E|apply held_rv; exact Rv]).
  pose proof Sv as (es & bad & rest & (c & C & Vv) & _).
  destruct (class_enters sg out listing pow exists_ files n f1 b1 e1 p1 l1 _ _ s1 ka [v] Ca1 eq_refl ltac:(constructor; [eapply nth_lt; exact C|constructor]) (functions_nodup k) Rv1) as (cs & Rn & Q).
  set (t := body_left f1 p1 l1 [v] (functions_of k) cs s1) in *. pose proof Ca1 as (Pf & Kf & _). pose proof Pf as (cf0 & Cf & Vf).
  assert (Ne : ka <> v) by (intros ->; rewrite C in Cf; injection Cf as <-; congruence).
  assert (Ck : nth_error (cells t) ka = Some cf0). { unfold t, body_left. cbn. apply nth_app_l. destruct Rn as (_ & _ & _ & Rn). rewrite Rn; [exact Cf|]. intros [->|[]]. now apply Ne. }
  set (a := length (cells t)).
  set (t1 := set_cells (cells t ++ [Cell NNone 1 None (PInst ka (S (length (scopes s1))) None)]) t).
  set (kk := S (length (scopes s1))) in *.
  set (sc := Scope (proto_vars (length (cells s1)) (functions_of k)) None true true).
  set (t2 := set_scopes (upd kk (Scope (sc_vars sc) (Some a) (sc_class sc) true) (scopes t1)) t1).
  assert (Esc : nth_error (scopes t1) kk = Some sc).
  { change (scopes t1) with (scopes s1 ++ [params_scope f1 [v]; sc]). unfold kk. rewrite nth_error_app2 by lia. replace (S (length (scopes s1)) - length (scopes s1)) with 1 by lia. reflexivity. }
  assert (Ki : keeps s1 t2).
  { split; cbn; auto. intros a0 c0 E0. destruct (renamed_cell _ _ _ _ _ Rn E0) as (c' & E' & V' & _). exists c'. split; [|exact V']. apply nth_app_l. now apply nth_app_l. }
  assert (Ca2 : nth_error (cells t2) a = Some (Cell NNone 1 None (PInst ka kk None))) by (unfold t2, t1, a; cbn; apply nth_app_new).
  assert (Nm2 : has_name t2 ka (class_name k)).
  { destruct Hn1 as (c0 & C0 & N0). rewrite Cf in C0. injection C0 as <-. exists cf0. split; [unfold t2, t1; cbn; apply nth_app_l; exact Ck|].
    destruct (c_name cf0) as [|i0 y|y]; auto. destruct N0 as (-> & s0 & S0 & A0). split; auto. exists s0. split; [|exact A0].
    pose proof (nth_lt _ _ _ S0). unfold t2. cbn [scopes set_scopes]. rewrite upd_other by (unfold kk; lia). unfold t1, t, body_left. cbn. now apply nth_app_l. }
  destruct (strings_until_keeps _ _ _ _ Ki Sv) as (es' & bad' & rest' & Ov & F & B).
  eexists. split.
  - rewrite (names_call sg out listing pow exists_ files _ _ s i j w ka f [fe] [v] s1 N V L ltac:(destruct Ca; assumption)); [|econstructor; [exact E|constructor]]. fold cf in Q |- *. apply bind_fail. rewrite Q. apply bind_fail.
    unfold finish. rewrite (bind_step _ _ _ _ _ (get_cell_ok _ _ _ Ck)), Vf, Kf. rewrite (bind_step _ _ t tt t) by reflexivity.
    rewrite (bind_step _ _ t a t1) by reflexivity. rewrite (bind_step _ _ t1 (Some a) t1) by reflexivity.
    rewrite (bind_step _ _ _ _ _ (get_scope_ok _ _ _ Esc eq_refl)). rewrite (bind_step _ _ t1 tt t2) by reflexivity.
    apply bind_fail. change (cf_inst cf a [v]) with (class_inst_cb a [v]).
    rewrite (class_inst_does k t2 a ka kk None [v] K ltac:(eexists; split; [exact Ca2|reflexivity]) Nm2).
    rewrite (instantiate_bad k t2 a v good es' bad' rest' Ov F B). reflexivity.
  - split; [split; reflexivity|reflexivity].
Qed.

(** ** [Fs.list] *)
Lemma mapM_cstrs : forall l s, exists es s', mapM (fun p => make_str (cstr p)) l s = Ret es s' /\ grown s s' /\ Forall2 (holds s') (map DStr (map cstr l)) es.
Proof.
  induction l as [|p l IH]; intro s; cbn [mapM map].
  - exists [], s. split; [reflexivity|]. split; [apply grown_refl|constructor].
  - destruct (make_str_holds s (cstr p)) as (s1 & E1 & G1 & H1). destruct (IH s1) as (es & s2 & E2 & G2 & F). exists (length (cells s) :: es), s2. split; [|split; [eapply grown_trans; eauto|]].
    + rewrite (bind_step _ _ _ _ _ E1), (bind_step _ _ _ _ _ E2). reflexivity.
    + constructor; [eapply holds_keeps; [apply grown_keeps; exact G2|exact H1]|exact F].
Qed.
Lemma fs_list_ok s a path l : holds s (DStr path) a -> listing (cstr path) = Some l ->
  exists r s', fs_list listing [a] s = Ret r s' /\ grown s s' /\ strings s' r (map cstr l) /\ live s' r.
Proof.
  intros Ha Hl. destruct Ha as (c & C & b & n & u & V & U & L & Q).
  destruct (mapM_cstrs l s) as (es & s1 & E & G & F). exists (length (cells s1)), (set_cells (cells s1 ++ [Cell NNone 1 None (PVec es)]) s1).
  assert (G1 : grown s1 (set_cells (cells s1 ++ [Cell NNone 1 None (PVec es)]) s1)).
  { exists [Cell NNone 1 None (PVec es)], []. rewrite app_nil_r. apply st_ext; reflexivity. }
  split; [|split; [eapply grown_trans; [exact G|exact G1]|split]].
  - unfold fs_list. rewrite (bind_step _ _ _ _ _ (get_cell_ok _ _ _ C)), V. rewrite (bind_step _ _ s (cstr path) s).
    2: { unfold read_upto. rewrite U. apply Nat.leb_le in L. rewrite L. cbn [orb]. now rewrite Q. }
    rewrite Hl. rewrite (bind_step _ _ _ _ _ E). reflexivity.
  - apply holds_vec. eexists. exists es. split; [apply nth_app_new|]. split; [reflexivity|]. eapply Forall2_impl'; [|exact F]. intros. eapply holds_keeps; [apply grown_keeps; exact G1|assumption].
  - eexists. split; [apply nth_app_new|reflexivity].
Qed.
Lemma access_static n e s k s1 x ps fa : evals cf n e s k s1 -> static_method s1 k x ps fa -> live s1 fa ->
  r_eval (interp cf (S n)) Slot (EAccess e x) s = Ret (Some fa, Some k) (held fa s1).
Proof.
  intros E (g & sc & j & f & en & p & l & vs & (ci & Ci & Vi) & Kg & Sg & Sc & D & _) Lv. rewrite eval_S. cbn [eval_]. unfold do_access.
  rewrite (bind_step _ _ s (VVar sc j (Var x true (Some fa)), k) s1).
  2: { unfold access_find. rewrite (bind_step _ _ _ _ _ (FlExprProofs.value_evals cf _ _ _ _ _ E)). rewrite (bind_step _ _ _ _ _ (get_cell_ok _ _ _ Ci)), Vi, Kg, Sg. cbv zeta.
       rewrite (bind_step _ _ _ _ _ (find_var_declares _ _ _ _ _ D)). reflexivity. }
  cbn [fst snd]. rewrite (bind_step _ _ s1 fa s1) by reflexivity. rewrite (bind_step _ _ _ _ _ (FlScopeProofs.incref_live _ _ Lv)). reflexivity.
Qed.
Lemma static_call_enters n e x args s k s1 ps fa bs s2 : evals cf n e s k s1 -> static_method s1 k x ps fa -> live s1 fa -> evals_each cf (S n) args (held fa s1) bs s2 ->
  outcome cf (S (S n)) (method_call e x args) s = mbind (call_ cf (interp cf n) fa (Some k) Slot bs) (fun o => ret (o, None)) s2.
Proof.
  intros E M Lv Ea. unfold outcome, method_call. rewrite eval_S. cbn [eval_]. unfold plain, do_call, both.
  pose proof (access_static _ _ _ _ _ _ _ _ E M Lv) as A. destruct M as (g & sc & j & f & en & p & l & vs & _ & _ & _ & _ & _ & (cf' & Cf & Vf) & _).
  unfold mbind at 1. unfold mbind at 1. unfold mbind at 1. rewrite A. unfold ret at 1. cbn [fst snd].
  rewrite (bind_step _ _ (held fa s1) (Cell (c_name cf') (c_cnt cf' + 1) (c_owner cf') (c_val cf')) (held fa s1)).
  2: { apply get_cell_ok. unfold held. rewrite Cf. cbn. apply upd_same. eapply nth_lt; eauto. }
  cbn [c_val]. rewrite Vf. rewrite (bind_step _ _ _ _ _ (evals_each_mapM cf _ _ _ _ _ Ea)). rewrite call_S. reflexivity.
Qed.

(** The callback, for the function Bob knows as [Fs.list]. *)
Lemma external_list s fa k (args : list addr) : belongs s fa k -> owner_class s k k -> class_val (host s) CFs = Some k -> b_list (host s) = Some fa ->
  external_fn_cb sg out listing fa args s = (r <- (r <- (a <- fs_list listing args ;; ret (Some a)) ;; match r with Some a => ret (Some a) | None => ret None end) ;; match r with Some a => ret (Some a) | None => ret None end)%fl s.
Proof.
  intros B W K L. destruct (owner_class_of _ _ _ _ B W) as (w & E & Kw). unfold external_fn_cb. rewrite (bind_step _ _ _ _ _ E). cbn [try_classes].
  assert (Q : mbind (gets host) (fun h => if passed_over h w CFs then try_classes sg out listing [CCc; CLinker] fa w args else
     mbind (class_call sg out listing CFs fa w args) (fun r => match r with Some a => ret (Some a) | None => try_classes sg out listing [CCc; CLinker] fa w args end)) s =
     mbind (mbind (fs_list listing args) (fun a => ret (Some a))) (fun r => match r with Some a => ret (Some a) | None => try_classes sg out listing [CCc; CLinker] fa w args end) s).
  { rewrite (bind_step _ _ s (host s) s) by reflexivity. rewrite (not_passed _ k _ _ Kw K). cbn [class_call]. unfold mbind at 1 3. f_equal.
    rewrite (bind_step _ _ s (host s) s) by reflexivity. rewrite L. cbn. rewrite Nat.eqb_refl. reflexivity. }
  unfold mbind at 1. cbn [try_classes] in Q. rewrite Q. clear Q. unfold mbind. destruct (fs_list listing args s); reflexivity.
Qed.

(** [Fs.list(path)]: one string for each entry. *)
Lemma lists n e s k s1 x ps fa p arg a s2 path l : cur_rv s = None -> evals cf n e s k s1 -> static_method s1 k x ps fa -> live s1 fa ->
  evals cf (S n) arg (held fa s1) a s2 -> static_method s2 k x [p] fa -> class_val (host s2) CFs = Some k -> b_list (host s2) = Some fa ->
  holds s2 (DStr path) a -> listing (cstr path) = Some l ->
  exists r s', outcome cf (S (S n)) (method_call e x [arg]) s = Ret (Some r, None) s' /\ strings s' r (map cstr l) /\ live s' r /\ asked_for [] s2 s'.
Proof.
  intros Rv E M Lv Ea M2 K Bl Hp Hl. assert (Rv2 : cur_rv s2 = None) by (eapply evals_rv; [exact Ea|apply held_rv; eapply evals_rv; [exact E|exact Rv]]).
  pose proof M2 as (g & sc & j & f & en & q & l' & vs & (ck & Ck & Vk) & Kg & Sg & (cs' & Sc & As & Os) & D & Pf & Kf & Pm & _ & (c2 & C2 & O2) & Ef & Ee & (cp & Ep & Ap & _)).
  assert (La : a < length (cells s2)) by (destruct Hp as (c & C & _); eapply nth_lt; exact C).
  assert (On : on_scope s2 (Some k) = None) by (unfold on_scope; now rewrite Ck, Vk).
  destruct (extern_gives cf fa f en (q :: l') (Some k) [a] s2 q l' cp) as (cs & Rn & G); auto.
  { cbn. eapply nth_lt; exact Ck. } { now rewrite On. } { rewrite Pm. reflexivity. }
  specialize (G (interp cf n)). cbv zeta in G. rewrite On in G. destruct G as (G & _). set (t := inside f en (q :: l') None [a] cs s2) in *.
  assert (Kt : keeps s2 t). { destruct (renamed_keeps _ _ _ Rn) as (A & B). split; [exact A|exact B]. }
  assert (Bt : belongs t fa k).
  { destruct (renamed_cell _ _ _ _ _ Rn C2) as (c3 & C3 & V3 & _ & O3). exists sc. split; [exists c3; split; [exact C3|congruence]|exists cs'; split; [unfold t, inside; cbn; now apply nth_app_l|auto]]. }
  assert (Wt : owner_class t k k).
  { right. split; [reflexivity|]. destruct Kt as (A & _). destruct (A _ _ Ck) as (c3 & C3 & V3). exists g. split; [exists c3; split; [exact C3|congruence]|exact Kg]. }
  destruct (fs_list_ok t a path l ltac:(eapply holds_keeps; [exact Kt|exact Hp]) Hl) as (r & t1 & X & Gr & Sr & Lr).
  assert (Y : external_fn_cb sg out listing fa [a] t = Ret (Some r) t1).
  { rewrite (external_list t fa k [a] Bt Wt K Bl). unfold mbind. rewrite X. reflexivity. }
  assert (F : fr None true t t1) by (eapply external_fr; exact Y).
  assert (P1 : payload_at t1 fa (PFn f)).
  { destruct Pf as (c & C & V). destruct (keeps_trans _ _ _ Kt (grown_keeps _ _ Gr)) as (A & _). destruct (A _ _ C) as (c' & C' & V'). exists c'. split; [exact C'|congruence]. }
  specialize (G r t1 Y F P1). exists r. eexists. split; [|split; [|split]].
  - assert (Es : evals_each cf (S n) [arg] (held fa s1) [a] s2) by (econstructor; [exact Ea|constructor]).
    rewrite (static_call_enters n e x [arg] s k s1 ps fa [a] s2 E M Lv Es), (bind_step _ _ _ _ _ G). reflexivity.
  - eapply holds_keeps; [|exact Sr]. split; cbn; eauto.
  - exact Lr.
  - destruct Gr as (new & bs & ->). unfold asked_for. cbn. rewrite app_nil_r. repeat split; reflexivity.
Qed.

(** ** Claims *)
Lemma instance_has_flags n k ka fe s v s1 flags : k <> CFs -> cur_rv s = None -> offers s k ka -> evals cf (S (S (S (S n)))) fe (held ka s) v s1 -> offers s1 k ka -> strings s1 v flags ->
  exists a d s', outcome cf (S (S (S (S (S n))))) (ECall (EId (class_name k)) [fe]) s = Ret (Some a, None) s' /\ live s' a /\ flags_of s' d v /\
  (forall d0 v0, flags_of s1 d0 v0 -> flags_of s' d0 v0 /\ d0 <> d) /\ b_asked (host s') = b_asked (host s1) /\
  forall o, op_class o = k -> exists p fa, method s' a ka (Some d) (op_name o) [p] fa /\ live s' fa.
Proof.
  intros K Rv O E O1 Sv. destruct (instantiates sg out listing pow exists_ files n k ka fe s v s1 flags K Rv O E O1 Sv) as (a & s' & Q & (G & Hh & L & M)).
  exists a, (length (b_states (host s1))), s'. split; [exact Q|]. split; [exact L|]. unfold flags_of. rewrite Hh. cbn [b_states set_states]. split; [apply nth_app_new|]. split; [|split; [reflexivity|exact M]].
  intros d0 v0 F. split; [now apply nth_app_l|]. apply nth_lt in F. lia.
Qed.
Lemma compiles_each n e s i s1 k d ps fa p arg v s2 srcs : cur_rv s = None -> evals cf n e s i s1 -> method s1 i k d (lit "compile") ps fa -> live s1 fa ->
  evals cf (S n) arg (held fa s1) v s2 -> method s2 i k d (lit "compile") [p] fa -> known_as s2 CCc k -> (forall b, known_as s2 b k -> b = CCc) ->
  strings s2 v srcs -> Forall (nameable sg out) srcs ->
  exists r s' objs, outcome cf (S (S n)) (method_call e (lit "compile") [arg]) s = Ret (Some r, None) s' /\ Forall2 (object_of sg out) srcs objs /\ strings s' r objs /\
  asked_for [ACompile d v r] s2 s'.
Proof.
  intros. destruct (performs sg out listing pow exists_ files n Compiling e s i s1 k d ps fa p arg v s2 srcs) as (r & s' & Q & (_ & objs & F & S) & A & _); auto. exists r, s', objs. split; [exact Q|]. split; [exact F|]. split; [now apply usable_strings_strings|exact A].
Qed.
Lemma performs_operation n o e s i s1 k d ps fa p arg v s2 srcs : cur_rv s = None -> evals cf n e s i s1 -> method s1 i k d (op_name o) ps fa -> live s1 fa ->
  evals cf (S n) arg (held fa s1) v s2 -> method s2 i k d (op_name o) [p] fa -> known_as s2 (op_class o) k -> (forall b, known_as s2 b k -> b = op_class o) ->
  strings s2 v srcs -> takes sg out o srcs ->
  exists r s', outcome cf (S (S n)) (method_call e (op_name o) [arg]) s = Ret (Some r, None) s' /\ gives sg out o s' srcs r /\ asked_for [op_asks o d v r] s2 s'.
Proof.
  intros. destruct (performs sg out listing pow exists_ files n o e s i s1 k d ps fa p arg v s2 srcs) as (r & s' & Q & G & A & _); auto. exists r, s'. auto.
Qed.
Lemma bob_failures n paths ss : orderly cf logged (run cf n paths fresh_bob ss).
Proof. apply failures_explained. exact (bob_reports sg out listing pow exists_ files). Qed.
End Fail.
