(** * What calls of Bob's functions do. *)

From Coq Require Import ZArith Arith Ascii String Lia Bool List.
From Verif Require Import Base Hash Cookie CookieProofs FlAst FlState FlInterp FlMonad SpecFlamingo FlEqProofs SpecScript SpecFrame SpecScope SpecImport SpecPlan
  FlOpProofs FlExprProofs FlFrame FlBalance FlMemberProofs FlScopeProofs FlReturnProofs FlExternProofs Bob SpecBob BobProofs.
Import ListNotations.
Local Open Scope nat_scope.

Ltac use L := match goal with Q : _ = Ret _ _ |- _ => apply L in Q end.
Section Calls.
Variables (sg : bool) (out : bytes) (listing : bytes -> option (list bytes)) (pow : Z -> Z -> option Z) (exists_ : bytes -> bool) (files : bytes -> file).
Let cf := bob_conf sg out listing pow exists_ files.
Implicit Types s t : st bob.

(** ** Strings *)

(** Values have been added. *)
Definition grown (s s' : st bob) : Prop := exists cs bs, s' = set_cells (cells s ++ cs) (set_bufs (bufs s ++ bs) s).
Lemma grown_refl s : grown s s.
Proof. exists [], []. destruct s; cbn. now rewrite !app_nil_r. Qed.
Lemma grown_trans s t u : grown s t -> grown t u -> grown s u.
Proof. intros (c & b & ->) (c' & b' & ->). exists (c ++ c'), (b ++ b'). destruct s; cbn. now rewrite !app_assoc. Qed.
Lemma grown_keeps s t : grown s t -> keeps s t.
Proof. intros (c & b & ->). split; cbn; [|intros; now apply nth_app_l]. intros a x E. exists x. split; auto. now apply nth_app_l. Qed.

Lemma read_buf_holds s b n u : nth_error (bufs s) b = Some (Some u) -> n <= length u -> read_buf b n s = Ret (firstn n u) s.
Proof. intros E L. unfold read_buf. rewrite E. apply Nat.leb_le in L. now rewrite L. Qed.
Lemma str_at_holds s a x : holds s (DStr x) a -> str_at a s = Ret (Some x) s.
Proof.
  intros (c & C & b & n & u & V & U & L & ->). unfold str_at. rewrite (bind_step _ _ _ _ _ (get_cell_ok _ _ _ C)), V.
  rewrite (bind_step _ _ _ _ _ (read_buf_holds _ _ _ _ U L)). reflexivity.
Qed.
Lemma make_str_holds s x : exists s', make_str x s = Ret (length (cells s)) s' /\ grown s s' /\ holds s' (DStr x) (length (cells s)).
Proof.
  eexists. split; [reflexivity|]. split.
  - exists [Cell NNone 1 None (PStr (length (bufs s)) (length x))], [Some x]. destruct s; reflexivity.
  - exists (Cell NNone 1 None (PStr (length (bufs s)) (length x))). split; [cbn; apply nth_app_new|]. exists (length (bufs s)), (length x), x.
    split; [reflexivity|]. split; [cbn; apply nth_app_new|]. split; [lia|]. now rewrite firstn_all.
Qed.

Lemma Forall2_impl' {A B} (P Q : A -> B -> Prop) : (forall a b, P a b -> Q a b) -> forall l m, Forall2 P l m -> Forall2 Q l m.
Proof. induction 2; constructor; auto. Qed.

Lemma usable_live {H} (s : st H) a : usable s a -> live s a.
Proof. intros (c & E & L & _). exists c. auto. Qed.
Lemma usable_strings_strings s a l : usable_strings s a l -> strings s a l.
Proof.
  intros (es & (c & C & V) & F). apply holds_vec. exists c, es. split; [exact C|]. split; [exact V|]. clear - F. induction F as [|x e l es (A & _) F IH]; cbn; constructor; auto.
Qed.
Lemma grown_cell s t a c : grown s t -> nth_error (cells s) a = Some c -> nth_error (cells t) a = Some c.
Proof. intros (c' & b & ->) E. now apply nth_app_l. Qed.
Lemma grown_usable s t a : grown s t -> usable s a -> usable t a.
Proof. intros G (c & E & L & N). exists c. split; [eapply grown_cell; eauto|]. split; [exact L|]. destruct G as (c' & b & ->). exact N. Qed.
Lemma make_str_usable s x s' : make_str x s = Ret (length (cells s)) s' -> usable s' (length (cells s)).
Proof. intro E. unfold make_str in E. cbn in E. injection E as <-. eexists. split; [cbn; apply nth_app_new|]. split; [reflexivity|exact I]. Qed.

Lemma nul_free_nameable p : nul_free p -> nameable sg out p.
Proof. intro N. eexists. apply gen_cookie_ok; [exact N|]. apply not_in_lit_dec. reflexivity. Qed.
Lemma nameable_iff p : nameable sg out p <-> length p <= length (cstr p) + length (hex64 (str_hash sg p)) + 11.
Proof.
  unfold nameable, object_of, gen_cookie. cbv zeta. rewrite !app_length. change (length (lit ".cookie.")) with 8. change (length (lit ".")) with 1. change (length (lit "o")) with 1.
  set (n := length (lit "/bob/")). match goal with |- context [Nat.ltb ?a ?b] => destruct (Nat.ltb_spec a b) end; split; intro H1; try lia.
  - destruct H1 as (c & H1). discriminate H1.
  - eexists. reflexivity.
Qed.
Lemma nul_free_takes o srcs : Forall nul_free srcs -> takes sg out o srcs.
Proof. intro N. destruct o; [|exact I]. eapply Forall_impl; [exact nul_free_nameable|exact N]. Qed.
Lemma objects_ok who : forall srcs es i s, Forall2 (holds s) (map DStr srcs) es -> Forall (nameable sg out) srcs ->
  exists objs os s', objects sg out who i es s = Ret os s' /\ grown s s' /\ Forall2 (object_of sg out) srcs objs /\ Forall2 (fun x e => holds s' (DStr x) e /\ usable s' e) objs os.
Proof.
  induction srcs as [|p srcs IH]; intros es i s F N; inversion F as [|? a ? es' Hp F']; subst; cbn [objects].
  - exists [], [], s. split; [reflexivity|]. split; [apply grown_refl|]. split; constructor.
  - inversion N as [|? ? Np N']; subst. rewrite (bind_step _ _ _ _ _ (str_at_holds _ _ _ Hp)).
    destruct Np as (x & Q). rewrite Q.
    destruct (make_str_holds s x) as (s1 & E1 & G1 & H1). rewrite (bind_step _ _ _ _ _ E1).
    destruct (IH es' (S i) s1) as (objs & os & s2 & E2 & G2 & O2 & H2); auto.
    { eapply Forall2_impl'; [|exact F']. intros. eapply holds_keeps; [apply grown_keeps; exact G1|assumption]. }
    rewrite (bind_step _ _ _ _ _ E2). exists (x :: objs), (length (cells s) :: os), s2. split; [reflexivity|]. split; [eapply grown_trans; eauto|].
    split; constructor; auto. split; [eapply holds_keeps; [apply grown_keeps; exact G2|exact H1]|]. eapply grown_usable; [exact G2|]. eapply make_str_usable; exact E1.
Qed.

Lemma strings_vec s v l : strings s v l -> exists es, one_vec_at s v es /\ Forall2 (holds s) (map DStr l) es.
Proof. intro S. apply holds_vec in S as (c & es & C & V & F). exists es. split; [exists c; auto|exact F]. Qed.
Lemma one_vec_ok who s v es : one_vec_at s v es -> one_vec who [v] s = Ret (v, es) s.
Proof. intros (c & C & V). unfold one_vec. rewrite (bind_step _ _ _ _ _ (get_cell_ok _ _ _ C)), V. reflexivity. Qed.

(** A value has been added and something asked for. *)
Definition answered (x : asked) (s s' : st bob) : Prop := exists s1, grown s s1 /\ s' = set_host (ask x (host s)) s1.
Lemma answered_keeps x s s' : answered x s s' -> keeps s s'.
Proof. intros (s1 & G & ->). apply grown_keeps in G as (A & B). split; [exact A|exact B]. Qed.
Lemma holds_host h s v a : holds s v a -> holds (set_host h s) v a.
Proof. apply holds_keeps. split; cbn; eauto. Qed.

Lemma prep_compile_ok d v s srcs : strings s v srcs -> Forall (nameable sg out) srcs ->
  exists r s', prep_compile sg out (Some d) [v] s = Ret r s' /\ answered (ACompile d v r) s s' /\ gives sg out Compiling s' srcs r.
Proof.
  intros S N. destruct (strings_vec _ _ _ S) as (es & V & F). unfold prep_compile. rewrite (bind_step _ _ _ _ _ (one_vec_ok _ _ _ _ V)). cbn [fst snd].
  destruct (objects_ok (lit "Cc.compile") srcs es 0 s F N) as (objs & os & s1 & E1 & G1 & O1 & H1). rewrite (bind_step _ _ _ _ _ E1).
  set (r := length (cells s1)). set (s2 := set_cells (cells s1 ++ [Cell NNone 1 None (PVec os)]) s1). rewrite (bind_step _ _ s1 r s2) by reflexivity.
  rewrite (bind_step _ _ s2 d s2) by reflexivity. exists r. eexists. split; [reflexivity|].
  assert (G2 : grown s1 s2) by (exists [Cell NNone 1 None (PVec os)], []; unfold s2; destruct s1; cbn; now rewrite app_nil_r).
  assert (Hh : host s2 = host s) by (destruct G1 as (? & ? & ->); reflexivity).
  split; [exists s2; split; [eapply grown_trans; eauto|now rewrite Hh]|].
  split; [exists (Cell NNone 1 None (PVec os)); split; [unfold s2, r; cbn; apply nth_app_new|reflexivity]|].
  exists objs. split; [exact O1|]. exists os. split; [exists (Cell NNone 1 None (PVec os)); split; [unfold s2, r; cbn; apply nth_app_new|reflexivity]|].
  eapply Forall2_impl'; [|exact H1]. intros x e (A & B). split; [apply holds_host; eapply holds_keeps; [apply grown_keeps; exact G2|assumption]|]. exact (grown_usable _ _ _ G2 B).
Qed.

Lemma strs_ok who : forall srcs es i s, Forall2 (holds s) (map DStr srcs) es -> strs who i es s = Ret srcs s.
Proof.
  induction srcs as [|p srcs IH]; intros es i s F; inversion F as [|? a ? es' Hp F']; subst; cbn [strs]; [reflexivity|].
  rewrite (bind_step _ _ _ _ _ (str_at_holds _ _ _ Hp)). rewrite (bind_step _ _ _ _ _ (IH _ _ _ F')). reflexivity.
Qed.
Lemma prep_link_ok k d v s srcs : strings s v srcs ->
  exists r s', prep_link sg out k (Some d) [v] s = Ret r s' /\ answered (ALink k d v r) s s' /\ gives sg out (Linking k) s' srcs r.
Proof.
  intros S. destruct (strings_vec _ _ _ S) as (es & V & F). unfold prep_link. rewrite (bind_step _ _ _ _ _ (one_vec_ok _ _ _ _ V)). cbn [fst snd].
  rewrite (bind_step _ _ _ _ _ (strs_ok _ _ _ _ _ F)). destruct (make_str_holds s (link_cookie sg out k srcs)) as (s1 & E1 & G1 & H1). rewrite (bind_step _ _ _ _ _ E1).
  rewrite (bind_step _ _ s1 d s1) by reflexivity. exists (length (cells s)). eexists. split; [reflexivity|].
  assert (Hh : host s1 = host s) by (destruct G1 as (? & ? & ->); reflexivity).
  split; [exists s1; split; [exact G1|now rewrite Hh]|]. pose proof (make_str_usable _ _ _ E1) as U. split; [exact (usable_live _ _ U)|]. split; [apply holds_host; exact H1|exact U].
Qed.
Definition perform (o : operation) (d : garbage) (args : list addr) : M bob addr :=
  match o with Compiling => prep_compile sg out d args | Linking k => prep_link sg out k d args end.
Lemma perform_ok o d v s srcs : strings s v srcs -> takes sg out o srcs ->
  exists r s', perform o (Some d) [v] s = Ret r s' /\ answered (op_asks o d v r) s s' /\ gives sg out o s' srcs r.
Proof. destruct o; cbn [perform op_asks]; intros; [now apply prep_compile_ok|now apply prep_link_ok]. Qed.

(** ** Finding the operation *)
Lemma read_has_name s fa x : has_name s fa x -> exists c, nth_error (cells s) fa = Some c /\ read_name (c_name c) s = Ret x s.
Proof.
  intros (c & C & N). exists c. split; auto. unfold read_name. destruct (c_name c) as [|i y|y]; [now subst| |now subst]. destruct N as (-> & sc & S & A). now rewrite S, A.
Qed.
Lemma has_name_read s fa c x s' : nth_error (cells s) fa = Some c -> read_name (c_name c) s = Ret x s' -> has_name s fa x.
Proof.
  intros C E. exists c. split; auto. unfold read_name in E. destruct (c_name c) as [|i y|y]; [now injection E|..|now injection E].
  destruct (nth_error (scopes s) i) as [sc|] eqn:S; [|discriminate E]. destruct (sc_alive sc) eqn:A; [|discriminate E]. injection E as -> _. eauto.
Qed.
Lemma owner_inst s fa i k d : belongs s fa i -> instance s i k d -> owner_of fa s = Ret (OInst k d) s.
Proof.
  intros (j & (c & C & O) & (sc & S & A & W)) (u & ci & Ci & Vi). unfold owner_of. rewrite (bind_step _ _ _ _ _ (get_cell_ok _ _ _ C)), O.
  rewrite (bind_step _ _ _ _ _ (get_scope_ok _ _ _ S A)), W. rewrite (bind_step _ _ _ _ _ (get_cell_ok _ _ _ Ci)), Vi. reflexivity.
Qed.
(** The class of the owner. *)
Lemma owner_class_of s fa o k : belongs s fa o -> owner_class s o k -> exists w, owner_of fa s = Ret w s /\ (w = OClass k \/ exists d, w = OInst k d).
Proof.
  intros B [(d & I)|(-> & f & (cf' & Cf & Vf) & Kf)]; [eexists; split; [eapply owner_inst; eauto|eauto]|].
  destruct B as (j & (c & C & O) & (sc & S & A & W)). exists (OClass k). split; [|auto]. unfold owner_of. rewrite (bind_step _ _ _ _ _ (get_cell_ok _ _ _ C)), O.
  rewrite (bind_step _ _ _ _ _ (get_scope_ok _ _ _ S A)), W. rewrite (bind_step _ _ _ _ _ (get_cell_ok _ _ _ Cf)), Vf, Kf. reflexivity.
Qed.
Lemma passed w k b h : (w = OClass k \/ exists d, w = OInst k d) -> class_val h b <> Some k -> passed_over h w b = true.
Proof.
  intros W N. assert (X : onat_eqb (class_val h b) (Some k) = false).
  { destruct (onat_eqb _ _) eqn:Q; auto. apply onat_eqb_eq in Q. contradiction. }
  destruct W as [->|(d & ->)]; cbn; now rewrite X.
Qed.
Lemma not_passed w k b h : (w = OClass k \/ exists d, w = OInst k d) -> class_val h b = Some k -> passed_over h w b = false.
Proof. intros [->|(d & ->)] E; cbn; rewrite E; cbn; now rewrite Nat.eqb_refl. Qed.

Lemma link_names k : bytes_eqb (op_name (Linking k)) (lit "compile") = false /\ bytes_eqb (op_name (Linking k)) (lit "link") = match k with Link => true | Archive => false end /\
  bytes_eqb (op_name (Linking k)) (lit "archive") = match k with Link => false | Archive => true end.
Proof. destruct k; repeat split. Qed.

(** Nothing else is known as [k]. *)
Lemma external_does o s fa i k d args : has_name s fa (op_name o) -> belongs s fa i -> instance s i k d -> class_val (host s) (op_class o) = Some k ->
  (forall b, class_val (host s) b = Some k -> b = op_class o) ->
  external_fn_cb sg out listing fa args s = (r <- (a <- perform o (Some d) args ;; ret (Some a)) ;;
    match r with Some a => ret (Some a) | None => c <- get_cell fa ;; x <- read_name (c_name c) ;; raise PROG (lit "Bob doesn't support the '" ++ cstr x ++ lit "' external function call (" ++ dec_n (length args) ++ lit " arguments passed)") end)%fl s.
Proof.
  intros N B I K U. destruct (read_has_name _ _ _ N) as (c & C & Rn). unfold external_fn_cb. rewrite (bind_step _ _ _ _ _ (owner_inst _ _ _ _ _ B I)).
  assert (W : OInst k d = OClass k \/ exists d', OInst k d = OInst k d') by eauto.
  assert (P : forall b, b <> op_class o -> passed_over (host s) (OInst k d) b = true) by (intros b Nb; apply (passed _ k); auto).
  assert (D : forall ks, try_classes sg out listing (op_class o :: ks) fa (OInst k d) args s = (a <- perform o (Some d) args ;; ret (Some a))%fl s).
  { intro ks. cbn [try_classes]. rewrite (bind_step _ _ s (host s) s) by reflexivity. rewrite (not_passed _ k _ _ W K).
    assert (D : class_call sg out listing (op_class o) fa (OInst k d) args s = (a <- perform o (Some d) args ;; ret (Some a))%fl s).
    { destruct o as [|kk]; cbn [op_class class_call data_of].
      - rewrite (bind_step _ _ s (Some d) s) by reflexivity. rewrite (bind_step _ _ _ _ _ (get_cell_ok _ _ _ C)). rewrite (bind_step _ _ _ _ _ Rn). reflexivity.
      - rewrite (bind_step _ _ s (Some d) s) by reflexivity. rewrite (bind_step _ _ _ _ _ (get_cell_ok _ _ _ C)). rewrite (bind_step _ _ _ _ _ Rn).
        destruct (link_names kk) as (_ & -> & ->). destruct kk; reflexivity. }
    unfold mbind at 1. rewrite D. unfold mbind. destruct (perform o (Some d) args s); reflexivity. }
  assert (Sk : forall b ks, b <> op_class o -> try_classes sg out listing (b :: ks) fa (OInst k d) args s = try_classes sg out listing ks fa (OInst k d) args s).
  { intros b ks Nb. cbn [try_classes]. rewrite (bind_step _ _ s (host s) s) by reflexivity. now rewrite P. }
  assert (E : try_classes sg out listing [CFs; CCc; CLinker] fa (OInst k d) args s = (a <- perform o (Some d) args ;; ret (Some a))%fl s).
  { rewrite Sk by (destruct o; discriminate). destruct o as [|kk]; cbn [op_class] in *; [apply D|]. rewrite Sk by discriminate. apply D. }
  unfold mbind at 1. rewrite E. unfold mbind at 2. reflexivity.
Qed.

Lemma external_ok o s fa i k d v srcs : has_name s fa (op_name o) -> belongs s fa i -> instance s i k d -> class_val (host s) (op_class o) = Some k ->
  (forall b, class_val (host s) b = Some k -> b = op_class o) -> strings s v srcs -> takes sg out o srcs ->
  exists r s', external_fn_cb sg out listing fa [v] s = Ret (Some r) s' /\ answered (op_asks o d v r) s s' /\ gives sg out o s' srcs r.
Proof.
  intros N B I K U S F. destruct (perform_ok o d v s srcs S F) as (r & s' & E & A & G). exists r, s'. split; [|auto].
  rewrite (external_does o s fa i k d [v] N B I K U). rewrite (bind_step _ _ s (Some r) s'); [reflexivity|]. rewrite (bind_step _ _ _ _ _ E). reflexivity.
Qed.

(** ** Only from there *)
Lemma objects_host who : forall es i s r s', objects sg out who i es s = Ret r s' -> host s' = host s.
Proof.
  induction es as [|a es IH]; intros i s r s' E; cbn [objects] in E; [inv1; reflexivity|]. inv1. use str_at_same. subst. split_match. split_match. inv1. inv1. inv1.
  match goal with Q : make_str _ _ = _ |- _ => unfold make_str in Q; inv1; inv1; inv1 end. match goal with Q : objects _ _ _ _ _ _ = _ |- _ => apply IH in Q; exact Q end.
Qed.
Lemma perform_inv o g args s a s' : perform o g args s = Ret a s' -> exists d v, g = Some d /\ args = [v] /\ asked_for [op_asks o d v a] s s'.
Proof.
  assert (V : forall who r t, one_vec who args s = Ret r t -> t = s /\ args = [fst r]).
  { intros who r t E. split; [eapply one_vec_same; eauto|]. unfold one_vec in E. destruct args as [|x [|y args]]; try discriminate E. inv1. inv1. destruct (c_val a0); try discriminate E. inv1. reflexivity. }
  destruct o as [|k]; cbn [perform]; intro E.
  - unfold prep_compile in E. inv1. apply V in E0 as (-> & ->). inv1. apply objects_host in E0. inv1. inv1. inv1. inv1. inv1. 
    destruct g as [d|]; [|discriminate E2]. apply ret_inv in E2 as (-> & ->). unfold on_host in E3. apply modify_inv in E3. subst. exists d, (fst a0). split; [reflexivity|]. split; [reflexivity|].
    unfold asked_for. cbn. rewrite E0. repeat split.
  - unfold prep_link in E. inv1. apply V in E0 as (-> & ->). inv1. apply strs_same in E0 as ->. inv1. inv1. inv1. inv1.
    destruct g as [d|]; [|discriminate E1]. apply ret_inv in E1 as (-> & ->). unfold on_host in E2. apply modify_inv in E2. subst. exists d, (fst a0). split; [reflexivity|]. split; [reflexivity|].
    unfold make_str in E0. inv1. inv1. inv1. unfold asked_for. cbn. repeat split.
Qed.

Lemma asked_none s : asked_for [] s s.
Proof. unfold asked_for. rewrite app_nil_r. repeat split. Qed.
Lemma mapM_strs_host : forall l s r s', mapM (fun p => make_str (cstr p)) l s = Ret r s' -> host s' = host s.
Proof.
  induction l as [|p l IH]; intros s r s' E; cbn [mapM] in E; [inv1; reflexivity|]. inv1. inv1. inv1. apply IH in E1. unfold make_str in E0. inv1. inv1. inv1. exact E1.
Qed.
Lemma fs_list_host args s a s' : fs_list listing args s = Ret a s' -> host s' = host s.
Proof.
  unfold fs_list. intro E. destruct args as [|x [|y args]]; try discriminate E. inv1. inv1. destruct (c_val a0); try discriminate E. inv1. use @read_upto_same. subst. split_match. inv1.
  match goal with Q : mapM _ _ _ = _ |- _ => apply mapM_strs_host in Q; rename Q into M end. inv1. exact M.
Qed.

(** What the owner is. *)
Lemma owner_inv fa s w s' : owner_of fa s = Ret w s' -> s' = s /\
  match w with
  | ONull => True
  | OClass k => belongs s fa k /\ exists f, payload_at s k (PFn f) /\ f_kind f = KClass
  | OInst k d => exists i, belongs s fa i /\ instance s i k d
  | OOther => True
  end.
Proof.
  unfold owner_of. intro E. inv1. inv1. destruct (c_owner a) as [i|] eqn:O; [|discriminate E]. inv1. inv1. destruct (sc_owner a0) as [o|] eqn:W; [|inv1; auto]. inv1. inv1. inv1. split; [reflexivity|].
  assert (B : belongs s fa o) by (exists i; split; [exists a; auto|exists a0; auto]).
  destruct (c_val a1) as [| | | | | |f|k sc d] eqn:V; auto; [destruct (f_kind f) eqn:K; auto; split; [exact B|]; exists f; split; [exists a1; auto|auto]|].
  exists o. split; [exact B|]. exists sc, a1. auto.
Qed.

Definition done_by (fa : addr) (args : list addr) (w : owner) (s : st bob) (r : option addr) (s' : st bob) : Prop :=
  (exists o k d v a, has_name s fa (op_name o) /\ w = OInst k d /\ class_val (host s) (op_class o) = Some k /\ args = [v] /\ r = Some a /\ asked_for [op_asks o d v a] s s') \/
  (b_list (host s) = Some fa /\ exists a, r = Some a /\ asked_for [] s s').

Lemma class_call_inv b fa w args s r s' : (passed_over (host s) w b = false) -> class_call sg out listing b fa w args s = Ret r s' -> (r = None /\ s' = s) \/ done_by fa args w s r s'.
Proof.
  intros P E.
  assert (D : forall g t, data_of w s = Ret g t -> t = s /\ match g with Some d => exists k, w = OInst k d | None => True end).
  { intros g t Q. unfold data_of in Q. destruct w; try discriminate Q; apply ret_inv in Q as (-> & ->); eauto. }
  destruct b; cbn [class_call] in E.
  - inv1. inv1. destruct (onat_eqb _ _) eqn:Q; [|inv1; auto]. apply onat_eqb_eq in Q. inv1. inv1. right. right. split; [exact Q|]. eexists. split; [reflexivity|].
    use fs_list_host. unfold asked_for. match goal with X : host _ = host _ |- _ => rewrite X end. rewrite app_nil_r. repeat split.
  - inv1. apply D in E0 as (-> & G). inv1. inv1. inv1. match goal with X : read_name _ _ = Ret _ _ |- _ => pose proof X as Rn; apply read_name_same in X; subst end.
    destruct (bytes_eqb _ _) eqn:Q; [|inv1; auto]. apply bytes_eqb_eq in Q. subst. inv1. inv1. right. left. match goal with X : prep_compile _ _ _ _ _ = _ |- _ => apply (perform_inv Compiling) in X as (d & v & -> & -> & A) end.
    destruct G as (k & ->). exists Compiling, k, d, v. eexists. split; [eapply has_name_read; eauto|]. split; [reflexivity|]. split.
    + cbn in P. apply negb_false_iff in P. now apply onat_eqb_eq in P.
    + split; [reflexivity|]. split; [reflexivity|exact A].
  - inv1. apply D in E0 as (-> & G). inv1. inv1. inv1. match goal with X : read_name _ _ = Ret _ _ |- _ => pose proof X as Rn; apply read_name_same in X; subst end.
    assert (X : forall k a1 s1, prep_link sg out k a args s = Ret a1 s1 -> has_name s fa (op_name (Linking k)) -> r = Some a1 -> s' = s1 -> r = None /\ s' = s \/ done_by fa args w s r s').
    { intros k a3 s3 E3 Hn -> ->. right. left. apply (perform_inv (Linking k)) in E3 as (d & v & -> & -> & A). destruct G as (k' & ->). exists (Linking k), k', d, v. eexists. split; [exact Hn|]. split; [reflexivity|]. split.
      + cbn in P. apply negb_false_iff in P. now apply onat_eqb_eq in P.
      + split; [reflexivity|]. split; [reflexivity|exact A]. }
    destruct (bytes_eqb _ (lit "link")) eqn:Q; [|destruct (bytes_eqb _ (lit "archive")) eqn:Q2; [|inv1; auto]].
    + apply bytes_eqb_eq in Q. subst. inv1. inv1. eapply (X Link); eauto. eapply has_name_read; eauto.
    + apply bytes_eqb_eq in Q2. subst. inv1. inv1. eapply (X Archive); eauto. eapply has_name_read; eauto.
Qed.
Lemma try_inv fa w args : forall ks s r s', try_classes sg out listing ks fa w args s = Ret r s' -> (r = None /\ s' = s) \/ done_by fa args w s r s'.
Proof.
  induction ks as [|b ks IH]; intros s r s' E; cbn [try_classes] in E; [inv1; auto|]. inv1. inv1. destruct (passed_over (host s) w b) eqn:P; [eauto|]. inv1.
  match goal with Q : class_call _ _ _ _ _ _ _ _ = _ |- _ => rename Q into X end. apply class_call_inv in X; [|exact P]. destruct X as [(-> & ->)|X]; [eauto|].
  right. split_match; [inv1; exact X|]. exfalso. destruct X as [(? & ? & ? & ? & ? & _ & _ & _ & _ & Q & _)|(_ & ? & Q & _)]; discriminate Q.
Qed.

(** A call that succeeds is one of an operation of the instance the function was declared in, or of [Fs.list]. *)
Lemma external_inv fa args s r s' : external_fn_cb sg out listing fa args s = Ret r s' ->
  (exists o i k d v a, has_name s fa (op_name o) /\ belongs s fa i /\ instance s i k d /\ class_val (host s) (op_class o) = Some k /\ args = [v] /\ r = Some a /\ asked_for [op_asks o d v a] s s') \/
  (b_list (host s) = Some fa /\ exists a, r = Some a /\ asked_for [] s s').
Proof.
  unfold external_fn_cb. intro E. inv1. apply owner_inv in E0 as (-> & W). inv1. apply try_inv in E0. destruct E0 as [(-> & ->)|D]; [repeat inv1|].
  assert (Q : r = a0 /\ s' = s0).
  { split_match; [inv1; auto|]. exfalso. destruct D as [(? & ? & ? & ? & ? & _ & _ & _ & _ & Q & _)|(_ & ? & Q & _)]; discriminate Q. }
  destruct Q as (-> & ->). destruct D as [(o & k & d & v & a1 & N & -> & K & -> & -> & A)|D]; [|auto].
  left. destruct W as (i & B & I). exists o, i, k, d, v, a1. repeat (split; [assumption || reflexivity|]). exact A.
Qed.

(** ** Other functions *)
Lemma external_unsupported fa args s x o k : has_name s fa x -> belongs s fa o -> owner_class s o k -> b_list (host s) <> Some fa ->
  (forall p, op_name p = x -> class_val (host s) (op_class p) <> Some k) ->
  external_fn_cb sg out listing fa args s =
  reports cf (lit "Bob doesn't support the '" ++ cstr x ++ lit "' external function call (" ++ dec_n (length args) ++ lit " arguments passed)") s.
Proof.
  intros N B W L U. destruct (owner_class_of _ _ _ _ B W) as (w & E & Kw). destruct (read_has_name _ _ _ N) as (c & C & Rn).
  assert (D : exists g, data_of w s = Ret g s) by (destruct Kw as [->|(d & ->)]; cbn; eauto). destruct D as (g & D).
  assert (St : forall b ks, try_classes sg out listing (b :: ks) fa w args s = try_classes sg out listing ks fa w args s).
  { intros b ks. cbn [try_classes]. rewrite (bind_step _ _ s (host s) s) by reflexivity. destruct (onat_eqb (class_val (host s) b) (Some k)) eqn:Q.
    - apply onat_eqb_eq in Q. rewrite (not_passed _ k _ _ Kw Q). rewrite (bind_step _ _ s None s); [reflexivity|]. destruct b; cbn [class_call].
      + rewrite (bind_step _ _ s (host s) s) by reflexivity. destruct (onat_eqb (b_list (host s)) (Some fa)) eqn:X; [|reflexivity]. apply onat_eqb_eq in X. contradiction.
      + rewrite (bind_step _ _ _ _ _ D), (bind_step _ _ _ _ _ (get_cell_ok _ _ _ C)), (bind_step _ _ _ _ _ Rn). destruct (bytes_eqb x (lit "compile")) eqn:X; [|reflexivity].
        apply bytes_eqb_eq in X. now destruct (U Compiling).
      + rewrite (bind_step _ _ _ _ _ D), (bind_step _ _ _ _ _ (get_cell_ok _ _ _ C)), (bind_step _ _ _ _ _ Rn). destruct (bytes_eqb x (lit "link")) eqn:X; [apply bytes_eqb_eq in X; now destruct (U (Linking Link))|].
        destruct (bytes_eqb x (lit "archive")) eqn:X2; [|reflexivity]. apply bytes_eqb_eq in X2. now destruct (U (Linking Archive)).
    - rewrite (passed _ k); [reflexivity|exact Kw|]. intro X. rewrite X in Q. cbn in Q. now rewrite Nat.eqb_refl in Q. }
  unfold external_fn_cb. rewrite (bind_step _ _ _ _ _ E). rewrite (bind_step _ _ s None s) by (rewrite !St; reflexivity).
  rewrite (bind_step _ _ _ _ _ (get_cell_ok _ _ _ C)), (bind_step _ _ _ _ _ Rn). reflexivity.
Qed.

(** ** Sources that are no strings *)
Lemma str_at_not s a : not_string s a -> str_at a s = Ret None s.
Proof. intros (c & C & V). unfold str_at. rewrite (bind_step _ _ _ _ _ (get_cell_ok _ _ _ C)). destruct (c_val c) as [| | |b n| | | |] eqn:Q; try reflexivity. now destruct (V b n). Qed.
Lemma not_string_keeps s t a : keeps s t -> not_string s a -> not_string t a.
Proof. intros (K & _) (c & C & V). destruct (K _ _ C) as (c' & C' & V'). exists c'. split; auto. rewrite V'. exact V. Qed.
Lemma objects_bad who : forall good es i s bad rest, Forall2 (holds s) (map DStr good) es -> Forall (nameable sg out) good -> not_string s bad ->
  exists s', grown s s' /\ objects sg out who i (es ++ bad :: rest) s = fatal (nth_msg who (i + length good)) s'.
Proof.
  induction good as [|p good IH]; intros es i s bad rest F N B; inversion F as [|? a ? es' Hp F']; subst; cbn [objects app].
  - exists s. split; [apply grown_refl|]. rewrite (bind_step _ _ _ _ _ (str_at_not _ _ B)). cbn [length]. now rewrite Nat.add_0_r.
  - inversion N as [|? ? Np N']; subst. rewrite (bind_step _ _ _ _ _ (str_at_holds _ _ _ Hp)).
    destruct Np as (x & Q). rewrite Q. clear Q.
    destruct (make_str_holds s x) as (s1 & E1 & G1 & H1). rewrite (bind_step _ _ _ _ _ E1).
    destruct (IH es' (S i) s1 bad rest) as (s2 & G2 & E2); auto.
    { eapply Forall2_impl'; [|exact F']. intros. eapply holds_keeps; [apply grown_keeps; exact G1|assumption]. }
    { eapply not_string_keeps; [apply grown_keeps; exact G1|exact B]. }
    exists s2. split; [eapply grown_trans; eauto|]. unfold mbind at 1. rewrite E2. unfold fatal. replace (i + length (p :: good)) with (S i + length good) by (cbn; lia). reflexivity.
Qed.
Lemma strs_bad who : forall good es i s bad rest, Forall2 (holds s) (map DStr good) es -> not_string s bad ->
  strs who i (es ++ bad :: rest) s = fatal (nth_msg who (i + length good)) s.
Proof.
  induction good as [|p good IH]; intros es i s bad rest F B; inversion F as [|? a ? es' Hp F']; subst; cbn [strs app].
  - rewrite (bind_step _ _ _ _ _ (str_at_not _ _ B)). cbn [length]. now rewrite Nat.add_0_r.
  - rewrite (bind_step _ _ _ _ _ (str_at_holds _ _ _ Hp)). unfold mbind. rewrite (IH es' (S i) s bad rest F' B). unfold fatal. replace (i + length (p :: good)) with (S i + length good) by (cbn; lia). reflexivity.
Qed.
Lemma perform_bad o g v s good es bad rest : one_vec_at s v (es ++ bad :: rest) -> Forall2 (holds s) (map DStr good) es -> takes sg out o good -> not_string s bad ->
  exists s', perform o g [v] s = Fail s' /\ b_asked (host s') = b_asked (host s) /\ b_log (host s') = b_log (host s) ++ [nth_msg (op_who o) (length good)].
Proof.
  intros V F N B. destruct o as [|k]; cbn [perform].
  - unfold prep_compile. rewrite (bind_step _ _ _ _ _ (one_vec_ok _ _ _ _ V)). cbn [fst snd]. destruct (objects_bad (lit "Cc.compile") good es 0 s bad rest F N B) as (s1 & G & E).
    eexists. split; [unfold mbind at 1; rewrite E; reflexivity|]. destruct G as (? & ? & ->). split; reflexivity.
  - unfold prep_link. rewrite (bind_step _ _ _ _ _ (one_vec_ok _ _ _ _ V)). cbn [fst snd]. eexists. split; [unfold mbind at 1; rewrite (strs_bad _ good es 0 s bad rest F B); reflexivity|].
    split; destruct k; reflexivity.
Qed.
Lemma external_bad o s fa i k d v good es bad rest : has_name s fa (op_name o) -> belongs s fa i -> instance s i k d -> class_val (host s) (op_class o) = Some k ->
  (forall b, class_val (host s) b = Some k -> b = op_class o) -> one_vec_at s v (es ++ bad :: rest) -> Forall2 (holds s) (map DStr good) es -> takes sg out o good -> not_string s bad ->
  exists s', external_fn_cb sg out listing fa [v] s = Fail s' /\ b_asked (host s') = b_asked (host s) /\ b_log (host s') = b_log (host s) ++ [nth_msg (op_who o) (length good)].
Proof.
  intros N B I K U V F Nf Bd. destruct (perform_bad o (Some d) v s good es bad rest V F Nf Bd) as (s' & E & A). exists s'. split; [|exact A].
  rewrite (external_does o s fa i k d [v] N B I K U). apply bind_fail. apply bind_fail. exact E.
Qed.
End Calls.
