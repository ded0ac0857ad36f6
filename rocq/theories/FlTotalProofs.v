(** * Operators on ordinary values that can be let go of have an outcome. *)

From Coq Require Import ZArith Arith Ascii String Lia Bool List.
From Verif Require Import Base FlAst FlState FlInterp FlMonad SpecFlamingo FlEqProofs SpecScript SpecFrame FlOpProofs FlExprProofs SpecOps.
Import ListNotations.
Local Open Scope nat_scope.

Section Total.
Context {H : Type}.
Variable cf : conf H.

Definition intact (s : st H) (p : payload) : Prop :=
  match p with
  | PStr b _ => exists u, nth_error (bufs s) b = Some (Some u)
  | PFn _ | PInst _ _ _ => False
  | _ => True
  end.

Definition bufs_after (c : cell) (s : st H) : list (option bytes) :=
  if (0 <? down (c_cnt c))%Z then bufs s else match c_val c with PStr b _ => upd b None (bufs s) | _ => bufs s end.

Lemma decref_intact m a s c : nth_error (cells s) a = Some c -> intact s (c_val c) ->
  exists s', decref cf (S m) a s = Ret tt s' /\ cells s' = upd a (Cell (c_name c) (down (c_cnt c)) (c_owner c) (c_val c)) (cells s) /\ bufs s' = bufs_after c s.
Proof.
  intros E I. cbn [decref]. rewrite (bind_step _ _ _ _ _ (get_cell_ok _ _ _ E)). unfold put_cell, modify, mbind at 1. unfold bufs_after.
  destruct (0 <? down (c_cnt c))%Z; [eexists; split; [reflexivity|split; reflexivity]|].
  unfold val_free, mbind, get_cell. cbn [cells set_cells]. rewrite upd_same by (eapply nth_lt; eauto). cbn [c_val].
  destruct (c_val c) as [|b|z|b k|l|l|f|k i d]; try contradiction; try (eexists; split; [reflexivity|split; reflexivity]).
  destruct I as (u & B). unfold free_buf. cbn [bufs set_cells]. rewrite B. eexists. split; [reflexivity|split; reflexivity].
Qed.

Lemma conclude_ret n p l r s cl cr : nth_error (cells s) l = Some cl -> nth_error (cells s) r = Some cr ->
  intact s (c_val cl) -> intact s (c_val cr) -> separate s l r -> exists a s', conclude cf (S n) p l r s = Ret (Some a) s'.
Proof.
  intros El Er Il Ir Sp. unfold conclude, mbind at 1, alloc. set (s2 := set_cells _ s).
  assert (El2 : nth_error (cells s2) l = Some cl) by (now apply nth_app_l).
  assert (Er2 : nth_error (cells s2) r = Some cr) by (now apply nth_app_l).
  destruct (decref_intact n l s2 cl El2 Il) as (s3 & D3 & C3 & B3). rewrite (bind_step _ _ _ _ _ D3).
  assert (X : exists cr', nth_error (cells s3) r = Some cr' /\ intact s3 (c_val cr')).
  { rewrite C3. destruct (Nat.eq_dec l r) as [->|N].
    - assert (cl = cr) by congruence. subst cr. exists (Cell (c_name cl) (down (c_cnt cl)) (c_owner cl) (c_val cl)). rewrite upd_same by (eapply nth_lt; eauto). split; auto. cbn [c_val].
      unfold intact in *. rewrite B3. unfold bufs_after. destruct (c_val cl) as [| | |b k| | | |] eqn:V; auto.
      destruct (Sp cl cl b k b k El El V V) as (Q & _). specialize (Q eq_refl).
      assert (0 <? down (c_cnt cl) = true)%Z as ->; [|exact Ir]. unfold down. destruct (c_cnt cl =? 0)%Z eqn:Z0; lia.
    - exists cr. rewrite upd_other by auto. split; auto. unfold intact in *. rewrite B3. unfold bufs_after. destruct (c_val cr) as [| | |b k| | | |] eqn:V; auto.
      destruct (0 <? down (c_cnt cl))%Z; [exact Ir|]. destruct (c_val cl) as [| | |b1 k1| | | |] eqn:V1; try exact Ir.
      destruct (Sp cl cr b1 k1 b k El Er V1 V) as (_ & Q). rewrite upd_other by auto. exact Ir. }
  destruct X as (cr' & Er3 & Ir3). destruct (decref_intact n r s3 cr' Er3 Ir3) as (s4 & D4 & _). rewrite (bind_step _ _ _ _ _ D4). eexists _, _. reflexivity.
Qed.

Lemma holds_intact s v a c : holds s v a -> ordinary v -> nth_error (cells s) a = Some c -> intact s (c_val c).
Proof.
  intros Hd O E. destruct v; cbn in Hd; destruct Hd as (c' & E' & V); assert (c' = c) by congruence; subst c'; try contradiction.
  - rewrite V. exact I.
  - rewrite V. exact I.
  - rewrite V. exact I.
  - destruct V as (b & k & u & V & B & _). rewrite V. exists u. exact B.
  - destruct V as (es & V & _). rewrite V. exact I.
  - destruct V as (es & V & _). rewrite V. exact I.
Qed.

Lemma holds_pay (s : st H) v a c : holds s v a -> nth_error (cells s) a = Some c ->
  match v with
  | DNone => c_val c = PNone
  | DBool b => c_val c = PBool b
  | DInt z => c_val c = PInt z
  | DStr _ => exists b k u, c_val c = PStr b k /\ nth_error (bufs s) b = Some (Some u) /\ k <= length u
  | DVec _ => exists es, c_val c = PVec es
  | DMap _ => exists es, c_val c = PMap es
  | DFn f => c_val c = PFn f
  | DInst k i d => c_val c = PInst k i d
  end.
Proof.
  intros Hd E. destruct v; cbn in Hd; destruct Hd as (c' & E' & V); assert (c' = c) by congruence; subst c'; auto.
  - destruct V as (b & k & u & V & B & L & _). eauto 8.
  - destruct V as (es & V & _). eauto.
  - destruct V as (es & V & _). eauto.
Qed.

Definition ends {A} (o : out H A) : Prop := (forall u, o = Undef u -> u = UOverflow) /\ o <> NoFuel.

Lemma ends_error {A} msg s : ends (@error H cf A msg s).
Proof. unfold error. destruct (reports_cases cf (A := A) msg s) as [(s' & -> & _)|(-> & _)]; split; discriminate. Qed.
Lemma ends_bind {A B} (X : M H A) (K : A -> M H B) s : ends (X s) -> (forall a s', X s = Ret a s' -> ends (K a s')) -> ends (mbind X K s).
Proof.
  intros (U & N) K2. unfold mbind. destruct (X s) as [a s'|s'| |u|] eqn:E; try (split; discriminate).
  - auto.
  - split; [|discriminate]. intros u' Q. injection Q as <-. now apply U.
  - congruence.
Qed.

(** Only values and bytes were added. *)
Definition grown (s s1 : st H) : Prop :=
  (exists y, cells s1 = cells s ++ y) /\ (exists x, bufs s1 = bufs s ++ x) /\ scopes s1 = scopes s.
Lemma grown_refl s : grown s s.
Proof. split; [|split]; try (exists []; now rewrite app_nil_r). reflexivity. Qed.
Lemma grown_trans s1 s2 s3 : grown s1 s2 -> grown s2 s3 -> grown s1 s3.
Proof.
  intros ((y & C) & (x & B) & E) ((y' & C') & (x' & B') & E'). split; [|split]; [exists (y ++ y')|exists (x ++ x')|congruence].
  - now rewrite C', C, app_assoc.
  - now rewrite B', B, app_assoc.
Qed.

(** Ends, and has only added values and bytes if it returns. *)
Definition mild {A} (s : st H) (o : out H A) : Prop := ends o /\ forall a s1, o = Ret a s1 -> grown s s1.

Lemma mild_ret {A} (a : A) s : mild s (Ret a s).
Proof. split; [split; discriminate|]. intros ? ? Q. injection Q as _ <-. apply grown_refl. Qed.
Lemma mild_error {A} msg s : mild s (@error H cf A msg s).
Proof. split; [apply ends_error|]. unfold error. destruct (reports_cases cf (A := A) msg s) as [(s' & -> & _)|(-> & _)]; discriminate. Qed.
Lemma mild_over {A} s : mild s (@Undef H A UOverflow).
Proof. split; [split; [|discriminate]|discriminate]. now intros u [= <-]. Qed.
Lemma mild_bind {A B} (X : M H A) (K : A -> M H B) s : mild s (X s) -> (forall a s', X s = Ret a s' -> mild s' (K a s')) -> mild s (mbind X K s).
Proof.
  intros (E & R) K2. split.
  - apply ends_bind; auto. intros a s' Q. apply (K2 _ _ Q).
  - unfold mbind. destruct (X s) as [a s'|s'| |u|]; try discriminate. intros b s1 Q.
    exact (grown_trans _ _ _ (R _ _ eq_refl) (proj2 (K2 _ _ eq_refl) _ _ Q)).
Qed.

(** ** Copying *)

Definition copyable (s : st H) (a : addr) : Prop :=
  name_kept s a /\ exists c, nth_error (cells s) a = Some c /\
  match c_val c with PStr b n => exists u, nth_error (bufs s) b = Some (Some u) /\ n <= length u | _ => True end.

Lemma copyable_grown s s1 a : grown s s1 -> copyable s a -> copyable s1 a.
Proof.
  intros ((y & C) & (x & B) & E) (N & c & Ec & V). assert (Ec1 : nth_error (cells s1) a = Some c) by (rewrite C; now apply nth_app_l). split.
  - intros c' i t Q Q'. assert (c' = c) by congruence. subst c'. rewrite E. exact (N c i t Ec Q').
  - exists c. split; [exact Ec1|]. destruct (c_val c); auto. destruct V as (u & U & L). exists u. split; [rewrite B; now apply nth_app_l|exact L].
Qed.

Lemma val_copy_mild s a : copyable s a -> mild s (val_copy a s).
Proof.
  intros (N & c & E & V). unfold val_copy. rewrite (bind_step _ _ _ _ _ (get_cell_ok _ _ _ E)).
  apply mild_bind.
  - destruct (c_name c) as [|i x|x] eqn:Q; try apply mild_ret. unfold mbind, read_name. destruct (N c i x E Q) as (sc & S1 & S2). rewrite S1, S2. apply mild_ret.
  - intros x s' Q. assert (s' = s).
    { destruct (c_name c) as [|i t|t]; try (cbv in Q; congruence). revert Q. unfold mbind, read_name. destruct (nth_error (scopes s) i) as [sc|]; [|discriminate]. destruct (sc_alive sc); [|discriminate]. cbv. congruence. }
    subst s'. apply mild_bind.
    + destruct (c_val c) as [| | |b n| | | |]; try apply mild_ret. destruct V as (u & U & L). apply mild_bind.
      * unfold read_upto. rewrite U. replace (Nat.leb n (length u)) with true by (symmetry; now apply Nat.leb_le). apply mild_ret.
      * intros t s' _. apply mild_bind; [|intros; apply mild_ret]. split; [split; discriminate|]. unfold new_buf. intros b0 s1 X. injection X as _ <-.
        split; [exists []; cbn; now rewrite app_nil_r|]. split; [eexists; reflexivity|reflexivity].
    + intros p s' _. split; [split; discriminate|]. intros b0 s1 X. injection X as _ <-. split; [eexists; reflexivity|]. split; [exists []; cbn; now rewrite app_nil_r|reflexivity].
Qed.

Lemma mapM_mild {A B} (f : A -> M H B) (P : st H -> A -> Prop) : (forall s s1 a, grown s s1 -> P s a -> P s1 a) -> (forall s a, P s a -> mild s (f a s)) ->
  forall l s, Forall (P s) l -> mild s (mapM f l s).
Proof.
  intros G M0. induction l as [|x l IH]; intros s Fa; [apply mild_ret|]. inversion Fa; subst. cbn [mapM]. apply mild_bind; [auto|]. intros b s' Q.
  apply mild_bind; [|intros; apply mild_ret]. apply IH. pose proof (proj2 (M0 s x H2) _ _ Q) as Gr. eapply Forall_impl; [|eassumption]. eauto.
Qed.

Lemma equality_mild n o l r s v w : holds s v l -> holds s w r -> (o = OEq \/ o = ONe -> depth v < S n /\ distinct v /\ distinct w) ->
  mild s (equality (S n) (spelling o) l r s).
Proof.
  intros V W D. unfold equality.
  assert (Q : o = OEq \/ o = ONe -> exists b, val_eq (S n) l r s = Ret b s).
  { intro Ho. destruct (D Ho) as (Dp & Dv & Dw). destruct (val_eq_decides s (S n) v w l r Dp V W Dv Dw) as (b & E & _). eauto. }
  destruct o; try apply mild_ret; destruct Q as (b & E); auto; cbn [spelling is_op is_prefix lit list_ascii_of_string byte_eqb Ascii.eqb Bool.eqb andb];
    (apply mild_bind; [rewrite E; apply mild_ret|intros; apply mild_ret]).
Qed.

Lemma forall2_in {A B} (R : A -> B -> Prop) l m b : Forall2 R l m -> In b m -> exists a, R a b.
Proof. induction 1; intros []; subst; eauto. Qed.
Lemma holds_copyable s v a : holds s v a -> name_kept s a -> copyable s a.
Proof.
  intros Hd N. split; [exact N|]. destruct (holds_cell _ _ _ Hd) as (c & E). exists c. split; [exact E|]. pose proof (holds_pay _ _ _ _ Hd E) as P.
  destruct v; repeat match goal with K : exists _, _ |- _ => destruct K as (? & K) | K : _ /\ _ |- _ => destruct K end;
    repeat match goal with K : c_val _ = _ |- _ => rewrite K end; try exact I. eauto.
Qed.

Definition elements_copyable (s : st H) (p : payload) : Prop :=
  match p with
  | PVec es => Forall (copyable s) es
  | PMap kvs => Forall (fun kv => copyable s (fst kv) /\ copyable s (snd kv)) kvs
  | _ => True
  end.
Lemma holds_elements s v a c : holds s v a -> nth_error (cells s) a = Some c -> element_names_kept s a -> elements_copyable s (c_val c).
Proof.
  intros Hd E N. destruct (N c E) as (Nv & Nm). destruct v.
  5: { apply holds_vec in Hd as (c' & es & E' & V & G). assert (c' = c) by congruence. subst c'. rewrite V. cbn. apply Forall_forall. intros e In0.
       destruct (forall2_in _ _ _ _ G In0) as (x & Hx). eapply holds_copyable; eauto. }
  5: { apply holds_map in Hd as (c' & es & E' & V & G). assert (c' = c) by congruence. subst c'. rewrite V. cbn. apply Forall_forall. intros [k x] In0. cbn [fst snd].
       destruct (forall2_in _ _ _ _ G In0) as ([y z] & Hx). destruct Hx as (Hk & Hx). destruct (Nm _ _ _ V In0). split; eapply holds_copyable; eauto. }
  all: pose proof (holds_pay _ _ _ _ Hd E) as P; cbn in P; repeat match goal with K : exists _, _ |- _ => destruct K as (? & K) | K : _ /\ _ |- _ => destruct K end;
    match goal with K : c_val _ = _ |- _ => rewrite K end; exact I.
Qed.

Lemma bin_op_mild n o l r s v w cl cr : holds s v l -> holds s w r -> nth_error (cells s) l = Some cl -> nth_error (cells s) r = Some cr ->
  (o = OEq \/ o = ONe -> depth v < S n /\ distinct v /\ distinct w) -> (o = OAdd -> elements_copyable s (c_val cl) /\ elements_copyable s (c_val cr)) ->
  intact s (c_val cl) -> intact s (c_val cr) -> (forall b k u, c_val cl = PStr b k \/ c_val cr = PStr b k -> nth_error (bufs s) b = Some (Some u) -> k <= length u) ->
  mild s (bin_op cf (S n) (spelling o) l r (c_val cl) (c_val cr) s).
Proof.
  intros V W El Er D Ad Il Ir Len. pose proof (equality_mild n o l r s v w V W D) as Eq. unfold bin_op, some_res, int_res.
  assert (Rd : forall b k, intact s (PStr b k) -> (c_val cl = PStr b k \/ c_val cr = PStr b k) -> exists t, read_buf b k s = Ret t s).
  { intros b k (u & B) Q. specialize (Len b k u Q B). unfold read_buf. rewrite B. destruct (k <=? length u) eqn:X; [eauto|apply Nat.leb_gt in X; lia]. }
  destruct (c_val cl) as [|x|x|b1 n1|xs|xs|x|k1 i1 d1], (c_val cr) as [|y|y|b2 n2|ys|ys|y|k2 i2 d2]; try apply mild_ret; try exact Eq.
  - destruct (is_op _ _); [apply mild_ret|]. destruct (is_op _ _); [apply mild_ret|]. destruct (is_op _ _); [apply mild_ret|]. exact Eq.
  - repeat match goal with
       | |- context [if is_op ?a ?b then _ else _] => destruct (is_op a b)
       | |- context [if (?a =? ?b)%Z then _ else _] => destruct (a =? b)%Z
       | |- context [if int64 ?a then _ else _] => destruct (int64 a) eqn:?
       | |- context [match cf_pow cf ?a ?b with _ => _ end] => destruct (cf_pow cf a b)
       end; try apply mild_error; try apply mild_ret; try apply mild_over.
    all: apply mild_bind; [exact Eq|intros [?|] ? _; apply mild_ret].
  - destruct (is_op _ _); [|exact Eq]. destruct (Rd b1 n1 Il) as (t1 & R1); auto. destruct (Rd b2 n2 Ir) as (t2 & R2); auto.
    apply mild_bind; [rewrite R1; apply mild_ret|]. intros t s' Q. assert (s' = s) by congruence. subst s'.
    apply mild_bind; [rewrite R2; apply mild_ret|]. intros t' s' Q'. assert (s' = s) by congruence. subst s'.
    apply mild_bind; [|intros; apply mild_ret]. split; [split; discriminate|]. unfold new_buf. intros b s1 X. injection X as _ <-. split; [exists []; cbn; now rewrite app_nil_r|]. split; [eexists; reflexivity|reflexivity].
  - destruct (is_op (spelling o) "+") eqn:X; [|exact Eq]. destruct o; try discriminate X. destruct (Ad eq_refl) as (Q1 & Q2).
    apply mild_bind; [|intros; apply mild_ret]. apply (mapM_mild _ copyable); [exact copyable_grown|exact val_copy_mild|now apply Forall_app].
  - destruct (is_op (spelling o) "+") eqn:X; [|exact Eq]. destruct o; try discriminate X. destruct (Ad eq_refl) as (Q1 & Q2).
    apply mild_bind; [|intros; apply mild_ret]. apply (mapM_mild _ (fun s kv => copyable s (fst kv) /\ copyable s (snd kv))); [| |now apply Forall_app].
    + intros s0 s1 kv G (K1 & K2). split; eapply copyable_grown; eauto.
    + intros s0 kv (K1 & K2). apply mild_bind; [now apply val_copy_mild|]. intros k0 s1 Qk. pose proof (proj2 (val_copy_mild _ _ K1) _ _ Qk) as G.
      apply mild_bind; [apply val_copy_mild; eapply copyable_grown; eauto|intros; apply mild_ret].
Qed.

Lemma binary_ends n o l r s v w : holds s v l -> holds s w r -> ordinary v -> ordinary w -> separate s l r ->
  (o = OEq \/ o = ONe -> depth v < S n /\ distinct v /\ distinct w) -> (o = OAdd -> element_names_kept s l /\ element_names_kept s r) ->
  ends (binary cf (S n) Slot l (spelling o) r s).
Proof.
  intros V W Ov Ow Sp D Ad. destruct (holds_cell _ _ _ V) as (cl & El). destruct (holds_cell _ _ _ W) as (cr & Er).
  pose proof (holds_intact _ _ _ _ V Ov El) as Il. pose proof (holds_intact _ _ _ _ W Ow Er) as Ir.
  unfold binary. rewrite (bind_step _ _ _ _ _ (get_cell_ok _ _ _ El)), (bind_step _ _ _ _ _ (get_cell_ok _ _ _ Er)). cbv zeta.
  destruct (negb _ && negb _); [apply ends_error|].
  assert (Go : forall X : M H payload, mild s (X s) -> ends (mbind X (fun p => conclude cf (S n) p l r) s)).
  { intros X (E & R). apply ends_bind; auto. intros p s1 Q. destruct (R _ _ Q) as ((y & C) & (x & B) & _).
    assert (El1 : nth_error (cells s1) l = Some cl) by (rewrite C; now apply nth_app_l). assert (Er1 : nth_error (cells s1) r = Some cr) by (rewrite C; now apply nth_app_l).
    destruct (conclude_ret n p l r s1 cl cr El1 Er1) as (a & s' & ->); [| | |split; discriminate].
    - revert Il. unfold intact. destruct (c_val cl); auto. rewrite B. intros (u & Q2). exists u. rewrite nth_error_app1; [exact Q2|eapply nth_lt; eauto].
    - revert Ir. unfold intact. destruct (c_val cr); auto. rewrite B. intros (u & Q2). exists u. rewrite nth_error_app1; [exact Q2|eapply nth_lt; eauto].
    - intros ca cb b1 n1 b2 n2 Qa Qb. assert (ca = cl) by congruence. assert (cb = cr) by congruence. subst. exact (Sp cl cr b1 n1 b2 n2 El Er). }
  apply Go. destruct (kind_eqb _ _ || kind_eqb _ _).
  - destruct (is_op _ _); [apply mild_ret|]. destruct (is_op _ _); [apply mild_ret|]. apply mild_error.
  - apply mild_bind; [|intros [p|] s' _; [apply mild_ret|apply mild_error]]. apply (bin_op_mild n o l r s v w); auto.
    + intro Q. destruct (Ad Q). split; [exact (holds_elements _ _ _ _ V El H0)|exact (holds_elements _ _ _ _ W Er H1)].
    + intros b k u [Q|Q] B; [pose proof (holds_pay _ _ _ _ V El) as P|pose proof (holds_pay _ _ _ _ W Er) as P]; rewrite Q in P;
        [destruct v|destruct w]; try contradiction; repeat match goal with K : exists _, _ |- _ => destruct K as (? & K) | K : _ /\ _ |- _ => destruct K end; try discriminate;
        match goal with K : PStr _ _ = PStr _ _ |- _ => injection K as <- <- end; congruence.
Qed.

(** ** Expressions *)

Lemma agrees_some s o means : (forall u, o = Undef u -> u = UOverflow) -> o <> NoFuel -> agrees cf s o means ->
  exists ans, means ans /\ comes_to cf s o ans.
Proof.
  intros U N A. assert (exists ans, means ans /\ agrees cf s o (fun x => x = ans)) as (ans & Mn & A2).
  { destruct o as [[[a|] x] s'|s'| |u|]; cbn [agrees] in *; try contradiction.
    - destruct A as (v & Q & Hd). eauto.
    - destruct A as (msg & Q & Hd). eauto.
    - destruct A as (msg & Q & Hd). eauto.
    - rewrite (U u eq_refl) in *. eauto. }
  exists ans. split; [exact Mn|]. now apply agrees_comes_to.
Qed.

Lemma bin_ordinary_comes_to (F : releases_own cf) n o e1 e2 s a s1 b s2 v w :
  evals cf n e1 s a s1 -> evals cf n e2 s1 b s2 -> holds s2 v a -> holds s2 w b -> ordinary v -> ordinary w -> separate s2 a b ->
  (o = OEq \/ o = ONe -> depth v < n /\ distinct v /\ distinct w) ->
  (o = OAdd -> (text v /\ text w) /\ element_names_kept s2 a /\ element_names_kept s2 b) ->
  (forall z, v = DInt z \/ w = DInt z -> is_int64 z) ->
  exists ans, op_means (cf_pow cf) o v w ans /\ comes_to cf s2 (outcome cf (S n) (EBin e1 (spelling o) e2) s) ans.
Proof.
  intros E1 E2 V W Ov Ow Sp D Ad Rg. destruct (evals_fuel cf _ _ _ _ _ E1) as (m & ->).
  destruct (binary_ends m o a b s2 v w V W Ov Ow Sp D (fun q => proj2 (Ad q))) as (T1 & T2).
  assert (A : agrees cf s2 (outcome cf (S (S m)) (EBin e1 (spelling o) e2) s) (op_means (cf_pow cf) o v w)).
  { apply (bin_agrees cf F (S m) o e1 e2 s a s1 b s2 v w); auto. intro Q. apply (Ad Q). }
  apply agrees_some; [| |exact A]; rewrite (bin_outcome cf _ _ _ _ _ _ _ _ _ E1 E2); unfold mbind;
    destruct (binary cf (S m) Slot a (spelling o) b s2) as [x s3|s3| |u|]; try discriminate; try congruence.
  intros u' Q. injection Q as <-. now apply T1.
Qed.

Lemma concat_comes_to (F : releases_own cf) n e1 e2 s a s1 b s2 :
  evals cf n e1 s a s1 -> evals cf n e2 s1 b s2 -> separate s2 a b -> element_names_kept s2 a -> element_names_kept s2 b ->
  (forall t u, holds s2 (DStr t) a -> holds s2 (DStr u) b -> nul_free t -> nul_free u ->
     comes_to cf s2 (outcome cf (S n) (EBin e1 (lit "+") e2) s) (AVal (DStr (t ++ u)))) /\
  (forall l m, holds s2 (DVec l) a -> holds s2 (DVec m) b -> text (DVec l) -> text (DVec m) ->
     comes_to cf s2 (outcome cf (S n) (EBin e1 (lit "+") e2) s) (AVal (DVec (l ++ m)))).
Proof.
  intros E1 E2 Sp N1 N2. split; intros x y V W T1 T2.
  - destruct (bin_ordinary_comes_to F n OAdd e1 e2 s a s1 b s2 _ _ E1 E2 V W I I Sp) as (ans & Mn & C); auto.
    + intros [Q|Q]; discriminate Q.
    + intros z [Q|Q]; discriminate Q.
    + cbn in Mn. now subst ans.
  - destruct (bin_ordinary_comes_to F n OAdd e1 e2 s a s1 b s2 _ _ E1 E2 V W I I Sp) as (ans & Mn & C); auto.
    + intros [Q|Q]; discriminate Q.
    + intros z [Q|Q]; discriminate Q.
    + cbn in Mn. now subst ans.
Qed.
End Total.
