(** * Operators and literals of scripts. *)

From Coq Require Import ZArith Arith Ascii String Lia Bool List Permutation.
From Verif Require Import Base FlAst FlState FlInterp FlMonad SpecFlamingo FlEqProofs SpecScript.
Import ListNotations.
Local Open Scope nat_scope.

(** ** Values in a state that has grown *)

(** Payloads stay, and every buffer that is not freed. *)
Definition keeps {H} (s s' : st H) : Prop :=
  (forall a c, nth_error (cells s) a = Some c -> exists c', nth_error (cells s') a = Some c' /\ c_val c' = c_val c) /\
  (forall b u, nth_error (bufs s) b = Some (Some u) -> nth_error (bufs s') b = Some (Some u)).

Lemma keeps_refl {H} (s : st H) : keeps s s.
Proof. split; eauto. Qed.
Lemma keeps_trans {H} (s t u : st H) : keeps s t -> keeps t u -> keeps s u.
Proof.
  intros (A & B) (A' & B'). split; [|auto]. intros a c E. destruct (A _ _ E) as (c' & E' & V). destruct (A' _ _ E') as (c2 & E2 & V2).
  exists c2. split; auto. congruence.
Qed.

Lemma holds_keeps {H} (s s' : st H) : keeps s s' -> forall v a, holds s v a -> holds s' v a.
Proof.
  intros (K & B). induction v as [|b|z|t|l IH|l IH|f|c i d] using data_rect'; intros a Hd.
  1,2,3,7,8: cbn in *; destruct Hd as (x & E & V); destruct (K _ _ E) as (x' & E' & V'); exists x'; split; auto; congruence.
  - cbn in *. destruct Hd as (x & E & b & n & u & V & U & L & ->). destruct (K _ _ E) as (x' & E' & V').
    exists x'. split; auto. exists b, n, u. repeat split; auto. congruence.
  - apply holds_vec in Hd as (x & es & E & V & F). apply holds_vec. destruct (K _ _ E) as (x' & E' & V'). exists x', es. repeat split; auto; try congruence.
    clear - IH F. revert es F. induction l as [|v l IHl]; intros es F; inversion F; subst; constructor; inversion IH; subst; auto.
  - apply holds_map in Hd as (x & es & E & V & F). apply holds_map. destruct (K _ _ E) as (x' & E' & V'). exists x', es. repeat split; auto; try congruence.
    clear - IH F. revert es F. induction l as [|v l IHl]; intros es F; inversion F as [|? ? ? ? [F1 F2] F3]; subst; constructor; inversion IH as [|? ? [I1 I2] I3]; subst; auto. split; auto.
Qed.

(** A value without strings needs no buffers. *)
Definition payloads {H} (s s' : st H) : Prop :=
  forall a c, nth_error (cells s) a = Some c -> exists c', nth_error (cells s') a = Some c' /\ c_val c' = c_val c.
Lemma payloads_refl {H} (s : st H) : payloads s s.
Proof. intros a c E. eauto. Qed.
Lemma payloads_trans {H} (s t u : st H) : payloads s t -> payloads t u -> payloads s u.
Proof. intros A B a c E. destruct (A _ _ E) as (c' & E' & V). destruct (B _ _ E') as (c2 & E2 & V2). exists c2. split; auto. congruence. Qed.

Lemma keeps_append {H} (s : st H) l : keeps s (set_cells (cells s ++ l) s).
Proof. split; cbn; auto. intros a c E. exists c. split; auto. now apply nth_app_l. Qed.
Lemma keeps_buf {H} (s : st H) l : keeps s (set_bufs (bufs s ++ l) s).
Proof. split; cbn; eauto. intros. now apply nth_app_l. Qed.

Lemma put_cell_keeps {H} (s : st H) a c c' : nth_error (cells s) a = Some c -> c_val c' = c_val c ->
  keeps s (set_cells (upd a c' (cells s)) s).
Proof.
  intros E V. split; cbn; auto. intros b x Eb. destruct (Nat.eq_dec a b) as [<-|D].
  - exists c'. rewrite upd_same by (eapply nth_lt; eauto). split; auto. congruence.
  - exists x. now rewrite upd_other.
Qed.

(** ** Releasing *)

Section Release.
Context {H : Type}.
Variable cf : conf H.
Hypothesis F : releases_own cf.

(** What a release may come to: the payloads are unchanged, memory errors aside. *)
Definition released (s : st H) (o : out H unit) : Prop :=
  match o with
  | Ret _ s' => payloads s s'
  | Fail _ | Died => False
  | Undef UOverflow => False
  | Undef _ | NoFuel => True
  end.

Lemma released_bind s m k : released s (m s) -> (forall s', payloads s s' -> released s' (k s')) -> released s (mbind m (fun _ => k) s).
Proof.
  intros A B. unfold mbind. destruct (m s) as [u s'|s'| |u|]; cbn in *; auto.
  specialize (B s' A). destruct (k s') as [v s2|s2| |[]|]; cbn in *; auto. eapply payloads_trans; eauto.
Qed.

Lemma free_buf_released b s : released s (free_buf b s).
Proof. unfold free_buf. destruct (nth_error (bufs s) b) as [[u|]|]; cbn; auto. intros a c E. eauto. Qed.
Lemma free_body_released b s : released s (free_body b s).
Proof. unfold free_body. destruct (nth_error (bodies s) b) as [[u|]|]; cbn; auto. intros a c E. eauto. Qed.

Lemma get_scope_cases i s : (exists c, get_scope i s = Ret c s) \/ get_scope i s = @Undef H scope UFreedScope \/ get_scope i s = @Undef H scope UWild.
Proof. unfold get_scope. destruct (nth_error (scopes s) i) as [c|]; auto. destruct (sc_alive c); eauto. Qed.

Lemma iterM_released {A} (f : A -> M H unit) : (forall a s, released s (f a s)) -> forall l s, released s (iterM f l s).
Proof.
  intro D. induction l as [|x l IH]; intro s; cbn; [apply payloads_refl|]. apply released_bind; [apply D|]. intros s' _. apply IH.
Qed.

Lemma scope_free_released dec i s : (forall a s, released s (dec a s)) -> released s (scope_free dec i s).
Proof.
  intro D. unfold scope_free. unfold mbind at 1. destruct (get_scope_cases i s) as [(c & ->)|[-> | ->]]; [|exact I|exact I].
  apply released_bind.
  - apply iterM_released. intros v s'. destruct (v_val v); [apply D|apply payloads_refl].
  - intros s' _. unfold mbind. destruct (get_scope_cases i s') as [(c' & ->)|[-> | ->]]; [|exact I|exact I].
    intros a x E. eauto.
Qed.

Lemma val_free_released dec a s : (forall a s, released s (dec a s)) -> released s (val_free cf dec a s).
Proof.
  intro D. unfold val_free, mbind at 1, get_cell. destruct (nth_error (cells s) a) as [c|]; [|exact I].
  destruct (c_val c) as [|b|z|b n|es|es|f|k i d]; try apply payloads_refl.
  - apply free_buf_released.
  - destruct (f_body f); [apply free_body_released|apply payloads_refl].
  - apply released_bind; [now apply scope_free_released|]. intros s' _. destruct d as [d|]; [|apply payloads_refl].
    destruct (F d s') as [(h & ->)|(u & -> & U)]; [|destruct u; try exact I; congruence]. intros b x E. eauto.
Qed.

Lemma decref_released : forall n a s, released s (decref cf n a s).
Proof.
  induction n as [|n IH]; intros a s; [exact I|]. cbn [decref]. unfold mbind at 1, get_cell.
  destruct (nth_error (cells s) a) as [c|] eqn:E; [|exact I].
  apply released_bind.
  - unfold put_cell, modify. eapply proj1, put_cell_keeps; [exact E|reflexivity].
  - intros s' _. destruct (0 <? down (c_cnt c))%Z; [apply payloads_refl|]. apply val_free_released, IH.
Qed.

(** Releasing a value that is not a string, function or object only counts. *)
Lemma decref_plain n a s c : nth_error (cells s) a = Some c ->
  match c_val c with PStr _ _ | PFn _ | PInst _ _ _ => False | _ => True end ->
  decref cf (S n) a s = Ret tt (set_cells (upd a (Cell (c_name c) (down (c_cnt c)) (c_owner c) (c_val c)) (cells s)) s).
Proof.
  intros E P. cbn [decref]. rewrite (bind_step _ _ _ _ _ (get_cell_ok _ _ _ E)).
  unfold put_cell, modify, mbind at 1. destruct (0 <? down (c_cnt c))%Z; [reflexivity|].
  unfold val_free, mbind, get_cell. cbn [cells set_cells]. rewrite upd_same by (eapply nth_lt; eauto). cbn [c_val].
  destruct (c_val c); try contradiction; reflexivity.
Qed.
Lemma decref_plain_keeps n a s c : nth_error (cells s) a = Some c ->
  match c_val c with PStr _ _ | PFn _ | PInst _ _ _ => False | _ => True end ->
  exists s', decref cf (S n) a s = Ret tt s' /\ keeps s s'.
Proof.
  intros E P. eexists. split; [apply decref_plain; [exact E|exact P]|]. eapply put_cell_keeps; [exact E|reflexivity].
Qed.
End Release.

(** ** Copying *)

Lemma text_vec l : text (DVec l) <-> Forall text l.
Proof.
  cbn [text]. induction l as [|v l IH]; split; intro G; auto.
  - constructor; [apply G|apply IH, G].
  - inversion G; subst. split; auto. now apply IH.
Qed.
Lemma text_map l : text (DMap l) <-> Forall (both_of text) l.
Proof.
  cbn [text]. induction l as [|[k v] l IH]; split; intro G; auto.
  - destruct G as (G1 & G2 & G). constructor; [split; auto|now apply IH].
  - inversion G as [|? ? [G1 G2] G3]; subst. repeat split; auto. now apply IH.
Qed.

(** A copy has the value, if its strings have no NULs; no other outcome than memory errors. *)
Definition copied {H A} (s : st H) (o : out H A) (P : st H -> A -> Prop) : Prop :=
  match o with
  | Ret a s' => keeps s s' /\ P s' a
  | Fail _ | Died | NoFuel => False
  | Undef UOverflow => False
  | Undef _ => True
  end.

Lemma val_copy_copied {H} (s : st H) v a : holds s v a -> text v -> copied s (val_copy a s) (fun s' b => holds s' v b).
Proof.
  intros Hd T. destruct (holds_cell _ _ _ Hd) as (c & E). unfold val_copy. rewrite (bind_step _ _ _ _ _ (get_cell_ok _ _ _ E)).
  match goal with |- copied _ (mbind ?m ?k _) _ =>
    assert (N : (exists x, m s = Ret x s) \/ m s = Undef UFreedScope \/ m s = Undef UWild)
  end.
  { destruct (c_name c) as [|i x|x]; [left; eexists; reflexivity| |left; eexists; reflexivity].
    unfold mbind, read_name. destruct (nth_error (scopes s) i) as [sc|]; [|auto]. destruct (sc_alive sc); [left; eexists; reflexivity|auto]. }
  destruct N as [(x & N)|[N|N]]; [rewrite (bind_step _ _ _ _ _ N)|unfold mbind at 1; rewrite N; exact I|unfold mbind at 1; rewrite N; exact I].
  assert (D : forall p, (match v with DStr _ => False | _ => True end) -> p = c_val c ->
    copied s (Ret (length (cells s)) (set_cells (cells s ++ [Cell x 1 (c_owner c) p]) s)) (fun s' b => holds s' v b)).
  { intros p NS ->. cbn [copied]. split; [apply keeps_append|].
    assert (Kp := keeps_append s [Cell x 1 (c_owner c) (c_val c)]).
    pose proof (nth_app_new (cells s) (Cell x 1 (c_owner c) (c_val c))) as New.
    apply (holds_keeps _ _ Kp) in Hd. destruct v as [|b|z|t|l|l|f|k i d]; try contradiction.
    1,2,3,6,7: cbn in Hd |- *; destruct Hd as (y & Ey & Vy); cbn in Ey; rewrite (nth_app_l _ _ _ _ E) in Ey; injection Ey as <-; eauto.
    - apply holds_vec in Hd as (y & es & Ey & Vy & G). cbn in Ey. rewrite (nth_app_l _ _ _ _ E) in Ey. injection Ey as <-.
      apply holds_vec. eauto.
    - apply holds_map in Hd as (y & es & Ey & Vy & G). cbn in Ey. rewrite (nth_app_l _ _ _ _ E) in Ey. injection Ey as <-.
      apply holds_map. eauto. }
  destruct (c_val c) as [|bb|z|b n|es|es|f|k i d] eqn:V;
    try (apply D; [|reflexivity]; destruct v; auto; cbn in Hd; destruct Hd as (y & Ey & ? & ? & ? & Vy & _); congruence).
  clear D.
  assert (X : exists t u, v = DStr t /\ nth_error (bufs s) b = Some (Some u) /\ n <= length u /\ t = firstn n u).
  { destruct v as [|bb|z|t|l|l|f|k i d].
    1,2,3,7,8: cbn in Hd; destruct Hd as (y & Ey & Vy); congruence.
    - cbn in Hd. destruct Hd as (y & Ey & b' & n' & u & Vy & U & L & ->). assert (y = c) by congruence. subst y.
      rewrite V in Vy. injection Vy as <- <-. eauto 8.
    - apply holds_vec in Hd as (y & es & Ey & Vy & G). congruence.
    - apply holds_map in Hd as (y & es & Ey & Vy & G). congruence. }
  destruct X as (t & u & -> & U & L & ->). cbn in T.
  unfold mbind, read_upto. rewrite U. replace (Nat.leb n (length u)) with true by (symmetry; now apply Nat.leb_le). cbn [orb].
  rewrite cstr_nul_free by exact T. cbn. split.
  - eapply keeps_trans; [apply (keeps_buf s [Some (firstn n u ++ [NUL])])|].
    exact (keeps_append (set_bufs (bufs s ++ [Some (firstn n u ++ [NUL])]) s) _).
  - eexists. split; [apply nth_app_new|]. cbn. exists (length (bufs s)), n, (firstn n u ++ [NUL]).
    repeat split; [apply nth_app_new|rewrite app_length, firstn_length; lia|].
    rewrite firstn_app, firstn_firstn, Nat.min_id, firstn_length, Nat.min_l by lia. rewrite Nat.sub_diag. cbn. now rewrite app_nil_r.
Qed.

Lemma forall2_impl {A B} (P Q : A -> B -> Prop) : (forall a b, P a b -> Q a b) -> forall l m, Forall2 P l m -> Forall2 Q l m.
Proof. intros I l m G. induction G; constructor; auto. Qed.

Lemma mapM_copied {H} {A D B} (f : A -> M H B) (P : st H -> D -> A -> Prop) (Q : st H -> D -> B -> Prop) :
  (forall s s' v a, keeps s s' -> P s v a -> P s' v a) -> (forall s s' v a, keeps s s' -> Q s v a -> Q s' v a) ->
  (forall s v a, P s v a -> copied s (f a s) (fun s' b => Q s' v b)) ->
  forall vs es s, Forall2 (P s) vs es -> copied s (mapM f es s) (fun s' bs => Forall2 (Q s') vs bs).
Proof.
  intros PK QK C. induction vs as [|v vs IH]; intros es s G; inversion G; subst; cbn; [split; [apply keeps_refl|constructor]|].
  match goal with G1 : P s v _ |- _ => specialize (C s v _ G1) end. unfold mbind at 1.
  match goal with |- context [f ?x s] => destruct (f x s) as [b s1|s1| |u|] end; cbn in C; auto. destruct C as (K1 & Q1).
  assert (G' : Forall2 (P s1) vs l') by (eapply forall2_impl; [|eassumption]; eauto).
  specialize (IH _ _ G'). unfold mbind. destruct (mapM f l' s1) as [bs s2|s2| |u|]; cbn in IH |- *; auto.
  destruct IH as (K2 & Q2). split; [exact (keeps_trans _ _ _ K1 K2)|constructor; eauto].
Qed.

(** ** Binary operators *)

Section Binary.
Context {H : Type}.
Variable cf : conf H.
Hypothesis F : releases_own cf.

(** As [agrees], for a result without an accessed value. *)
Definition agrees1 (s : st H) (o : out H (option addr)) (means : answer -> Prop) : Prop :=
  match o with
  | Ret (Some a) s' => exists v, means (AVal v) /\ holds s' v a
  | Ret None _ => False
  | Fail s' => exists msg, means (AError msg) /\ reports (A := unit) cf msg s = Fail s'
  | Died => exists msg, means (AError msg) /\ reports (A := unit) cf msg s = Died
  | Undef UOverflow => means AOverflow
  | Undef _ => True
  | NoFuel => True
  end.

Lemma reports_cases {A} msg s : (exists s', raise (cf_prog cf) msg s = @Fail H A s' /\ reports (A := unit) cf msg s = Fail s') \/
  (raise (cf_prog cf) msg s = @Died H A /\ reports (A := unit) cf msg s = Died).
Proof.
  unfold reports, raise. destruct (Nat.leb _ _); auto. destruct (err s); destruct (Nat.leb _ _); eauto.
Qed.

Lemma agrees_error {B} msg s (k : B -> M H (option addr)) (means : answer -> Prop) :
  means (AError msg) -> agrees1 s (mbind (error cf msg) k s) means.
Proof.
  intro E. unfold error, mbind. destruct (reports_cases (A := B) msg s) as [(s' & -> & R)|(-> & R)]; cbn; eauto.
Qed.
Lemma agrees_error0 msg s (means : answer -> Prop) : means (AError msg) -> agrees1 s (error cf msg s) means.
Proof. intro E. unfold error. destruct (reports_cases (A := option addr) msg s) as [(s' & -> & R)|(-> & R)]; cbn; eauto. Qed.

(** Make the result and release the operands. *)
Definition conclude (n : nat) (p : payload) (l r : addr) : M H (option addr) :=
  (a <- alloc p ;; decref cf n l ;; decref cf n r ;; ret (Some a))%fl.

Definition scalar (v : data) (p : payload) : Prop :=
  match v, p with
  | DNone, PNone => True
  | DBool a, PBool b => a = b
  | DInt a, PInt b => a = b
  | _, _ => False
  end.
Lemma conclude_scalar n p l r s s1 v (means : answer -> Prop) : scalar v p -> means (AVal v) -> agrees1 s (conclude n p l r s1) means.
Proof.
  intros S Mn. unfold conclude, mbind at 1, alloc. set (s2 := set_cells _ s1).
  assert (N : nth_error (cells s2) (length (cells s1)) = Some (Cell NNone 1 None p)) by apply nth_app_new.
  unfold mbind at 1. pose proof (decref_released cf F n l s2) as R1. destruct (decref cf n l s2) as [u s3|s3| |u|]; cbn in R1; try contradiction; [| |exact I].
  2: { destruct u; try contradiction; exact I. }
  unfold mbind. pose proof (decref_released cf F n r s3) as R2. destruct (decref cf n r s3) as [u' s4|s4| |u'|]; cbn in R2; try contradiction; [| |exact I].
  2: { destruct u'; try contradiction; exact I. }
  cbn. exists v. split; auto. destruct (payloads_trans _ _ _ R1 R2 _ _ N) as (c & E & V). cbn in V.
  destruct v, p; cbn in S; try contradiction; subst; cbn; eauto.
Qed.

Lemma conclude_keeps n p l r s s1 v (means : answer -> Prop) cl cr :
  nth_error (cells s1) l = Some cl -> nth_error (cells s1) r = Some cr ->
  match c_val cl with PStr _ _ | PFn _ | PInst _ _ _ => False | _ => True end ->
  match c_val cr with PStr _ _ | PFn _ | PInst _ _ _ => False | _ => True end ->
  (let s2 := set_cells (cells s1 ++ [Cell NNone 1 None p]) s1 in holds s2 v (length (cells s1))) ->
  means (AVal v) -> agrees1 s (conclude n p l r s1) means.
Proof.
  intros El Er Pl Pr Hd Mn. unfold conclude, mbind at 1, alloc. set (s2 := set_cells _ s1) in *. cbn zeta in Hd.
  destruct n as [|n]; [exact I|].
  assert (El2 : nth_error (cells s2) l = Some cl) by (now apply nth_app_l).
  destruct (decref_plain_keeps cf n l s2 cl El2 Pl) as (s3 & E3 & K3). rewrite (bind_step _ _ _ _ _ E3).
  destruct (proj1 K3 r cr (nth_app_l _ _ _ _ Er)) as (cr' & Er' & Vr). 
  destruct (decref_plain_keeps cf n r s3 cr' Er') as (s4 & E4 & K4); [now rewrite Vr|]. rewrite (bind_step _ _ _ _ _ E4).
  cbn. exists v. split; auto. eapply holds_keeps; [exact K4|]. eapply holds_keeps; [exact K3|]. exact Hd.
Qed.

(** Adding two strings. *)
Lemma conclude_str n l r s b1 n1 u1 b2 n2 u2 cl cr (means : answer -> Prop) :
  nth_error (cells s) l = Some cl -> nth_error (cells s) r = Some cr -> c_val cl = PStr b1 n1 -> c_val cr = PStr b2 n2 ->
  nth_error (bufs s) b1 = Some (Some u1) -> nth_error (bufs s) b2 = Some (Some u2) -> n1 <= length u1 -> n2 <= length u2 ->
  let t := firstn n1 u1 ++ firstn n2 u2 in
  means (AVal (DStr t)) ->
  agrees1 s (conclude n (PStr (length (bufs s)) (n1 + n2)) l r (set_bufs (bufs s ++ [Some t]) s)) means.
Proof.
  intros El Er Vl Vr B1 B2 L1 L2 t Mn. unfold conclude, mbind at 1, alloc. cbn [cells set_bufs set_cells]. set (p := PStr _ _).
  destruct n as [|n]; [exact I|].
  set (s2 := set_cells (cells s ++ [Cell NNone 1 None p]) (set_bufs (bufs s ++ [Some t]) s)).
  assert (Lt : length t = n1 + n2) by (unfold t; rewrite app_length, !firstn_length; lia).
  assert (D : forall m a c b k s0, nth_error (cells s0) a = Some c -> c_val c = PStr b k -> b < length (bufs s) ->
     match decref cf (S m) a s0 with
     | Ret _ s' => payloads s0 s' /\ (nth_error (bufs s0) (length (bufs s)) = Some (Some t) -> nth_error (bufs s') (length (bufs s)) = Some (Some t))
     | Undef UDoubleFree | Undef UWild => True
     | _ => False end).
  { intros m a c b k s0 E V Lb. cbn [decref]. rewrite (bind_step _ _ _ _ _ (get_cell_ok _ _ _ E)). unfold put_cell, modify, mbind at 1.
    set (s1 := set_cells _ s0). assert (K : keeps s0 s1) by (eapply put_cell_keeps; [exact E|reflexivity]).
    destruct (0 <? down (c_cnt c))%Z; [cbn; split; [exact (proj1 K)|auto]|].
    unfold val_free, mbind, get_cell. unfold s1 at 1. cbn [cells set_cells]. rewrite upd_same by (eapply nth_lt; eauto). cbn [c_val]. rewrite V.
    unfold free_buf. change (bufs s1) with (bufs s0). destruct (nth_error (bufs s0) b) as [[u|]|]; auto. split; [exact (proj1 K)|].
    cbn. intro Q. rewrite upd_other; auto. lia. }
  assert (El2 : nth_error (cells s2) l = Some cl) by (now apply nth_app_l).
  assert (L0 : nth_error (bufs s2) (length (bufs s)) = Some (Some t)) by apply nth_app_new.
  pose proof (D n l cl b1 n1 s2 El2 Vl (nth_lt _ _ _ B1)) as D1. unfold mbind at 1.
  destruct (decref cf (S n) l s2) as [? s3| | |u|]; try contradiction; [|destruct u; try contradiction; exact I].
  destruct D1 as (K3 & Q3). destruct (K3 r cr (nth_app_l _ _ _ _ Er)) as (cr' & Er' & Vr').
  pose proof (D n r cr' b2 n2 s3 Er' (eq_trans Vr' Vr) (nth_lt _ _ _ B2)) as D2. unfold mbind at 1.
  destruct (decref cf (S n) r s3) as [? s4| | |u'|]; try contradiction; [|destruct u'; try contradiction; exact I].
  destruct D2 as (K4 & Q4). cbn. exists (DStr t). split; auto.
  destruct (payloads_trans _ _ _ K3 K4 (length (cells s)) (Cell NNone 1 None p) (nth_app_new _ _)) as (c & E & V).
  exists c. split; auto. exists (length (bufs s)), (n1 + n2), t. repeat split; auto; [lia|]. rewrite <- Lt. symmetry. apply firstn_all.
Qed.

Lemma int64_fits z : fits z = if int64 z then AVal (DInt z) else AOverflow.
Proof. reflexivity. Qed.

(** The same for the computation of the result's payload. *)
Definition pre {A} (s : st H) (o : out H A) (k : A -> st H -> Prop) (means : answer -> Prop) : Prop :=
  match o with
  | Ret p s1 => k p s1
  | Fail s' => exists msg, means (AError msg) /\ reports (A := unit) cf msg s = Fail s'
  | Died => exists msg, means (AError msg) /\ reports (A := unit) cf msg s = Died
  | Undef UOverflow => means AOverflow
  | Undef _ => True
  | NoFuel => True
  end.
Lemma pre_error {A} msg s (k : A -> st H -> Prop) (means : answer -> Prop) : means (AError msg) -> pre s (error cf msg s) k means.
Proof. intro E. unfold error. destruct (reports_cases (A := A) msg s) as [(s' & -> & R)|(-> & R)]; cbn; eauto. Qed.
Lemma pre_bind {A B} (X : M H A) (K : A -> M H B) s s0 k means : pre s (X s0) (fun p s1 => pre s (K p s1) k means) means -> pre s (mbind X K s0) k means.
Proof. unfold mbind. destruct (X s0) as [p s1|s1| |u|]; auto. Qed.
Lemma pre_agrees (X : M H payload) s n l r means :
  pre s (X s) (fun p s1 => agrees1 s (conclude n p l r s1) means) means -> agrees1 s (mbind X (fun p => conclude n p l r) s) means.
Proof. unfold mbind. destruct (X s) as [p s1|s1| |u|]; auto. Qed.

Lemma quot_range x y : is_int64 x -> is_int64 y -> y <> 0%Z -> int64 (Z.quot x y) = negb ((x =? - 2 ^ 63) && (y =? -1))%Z.
Proof.
  unfold is_int64, int64. intros X Y Z0.
  destruct (Z.eqb_spec y (-1)) as [->|N1].
  - rewrite andb_true_r. assert (E : Z.quot x (-1) = (- x)%Z) by (change (-1)%Z with (- (1))%Z; rewrite Z.quot_opp_r by lia; now rewrite Z.quot_1_r).
    rewrite E. clear E.
    destruct (Z.eqb_spec x (- 2 ^ 63)); cbn [negb]; [apply andb_false_iff; right; lia|apply andb_true_iff; lia].
  - rewrite andb_false_r. cbn [negb].
    assert (Q : (Z.abs (Z.quot x y) <= Z.abs x)%Z).
    { rewrite <- (Z.quot_abs x y Z0). apply Z.quot_le_upper_bound; try lia. assert (1 <= Z.abs y)%Z by lia. nia. }
    assert (Q2 : (Z.quot x y <> 2 ^ 63)%Z).
    { intro E. destruct (Z.eq_dec y 1) as [->|N2]; [rewrite Z.quot_1_r in E; lia|].
      assert (A : (Z.abs x = Z.abs (Z.quot x y) * Z.abs y + Z.abs (Z.rem x y))%Z).
      { rewrite <- (Z.quot_abs x y Z0), <- (Z.rem_abs x y Z0). rewrite Z.mul_comm. apply Z.quot_rem'. }
      rewrite E in A. assert (2 <= Z.abs y)%Z by lia. nia. }
    apply andb_true_iff. lia.
Qed.

Lemma says_same_pre n l r s v w b : (b = true <-> same v w) -> forall means : answer -> Prop, (forall ans, says_same v w ans -> means ans) ->
  pre s (Ret (PBool b) s) (fun p s1 => agrees1 s (conclude n p l r s1) means) means.
Proof. intros B means S. eapply conclude_scalar with (v := DBool b); [reflexivity|]. apply S. exists b. auto. Qed.
Lemma says_different_pre n l r s v w b : (b = true <-> same v w) -> forall means : answer -> Prop, (forall ans, says_different v w ans -> means ans) ->
  pre s (Ret (PBool (negb b)) s) (fun p s1 => agrees1 s (conclude n p l r s1) means) means.
Proof.
  intros B means S. eapply conclude_scalar with (v := DBool (negb b)); [reflexivity|]. apply S. exists (negb b). split; auto.
  rewrite negb_true_iff. destruct b; split; intro Q; try discriminate; auto; [destruct Q; now apply B|intro Q'; apply B in Q'; discriminate].
Qed.

(** Comparing with none. *)
Lemma none_pre n l r s o b v w means : (b = true <-> same v w) ->
  means = op_means (cf_pow cf) o v w ->
  (op_means (cf_pow cf) o v w = fun ans => match o with
    | OEq => says_same v w ans
    | ONe => says_different v w ans
    | _ => ans = AError (lit "can only check for equality to none value")
    end) ->
  pre s ((if is_op (spelling o) "==" then ret (PBool b)
          else if is_op (spelling o) "!=" then ret (PBool (negb b))
          else error cf (lit "can only check for equality to none value")) s)
    (fun p s1 => agrees1 s (conclude n p l r s1) means) means.
Proof.
  intros B -> ->. destruct o; try (apply pre_error; reflexivity).
  - now apply says_same_pre with (v := v) (w := w).
  - now apply says_different_pre with (v := v) (w := w).
Qed.

(** Comparing values of one kind, or adding them. *)
Lemma compared_pre n l r s o v w pl (Z : M H (option payload)) : o <> OAdd ->
  type_name v = type_str pl -> (o = OEq \/ o = ONe -> exists b, val_eq n l r s = Ret b s /\ (b = true <-> same v w)) ->
  (forall ans, op_means (cf_pow cf) o v w ans <-> match o with
    | OEq => says_same v w ans
    | ONe => says_different v w ans
    | _ => ans = not_applicable o v
    end) ->
  pre s ((mbind (if is_op (spelling o) "+" then Z else equality n (spelling o) l r)
            (fun p => match p with
             | Some p => ret p
             | None => error cf (lit "unknown operator " ++ quoted (spelling o) ++ lit " for type " ++ type_str pl)
             end)) s)
    (fun p s1 => agrees1 s (conclude n p l r s1) (op_means (cf_pow cf) o v w)) (op_means (cf_pow cf) o v w).
Proof.
  intros NA T EB Mn.
  destruct o; try congruence; try (apply pre_error; apply Mn; unfold not_applicable; rewrite T; reflexivity);
    (destruct EB as (b & E & B); [auto|]).
  - unfold equality. cbn [is_op is_prefix spelling lit list_ascii_of_string byte_eqb Ascii.eqb Bool.eqb andb].
    unfold mbind at 1. unfold mbind. rewrite E. cbv beta iota. apply says_same_pre with (v := v) (w := w); auto. intros ans A. now apply Mn.
  - unfold equality. cbn [is_op is_prefix spelling lit list_ascii_of_string byte_eqb Ascii.eqb Bool.eqb andb].
    unfold mbind at 1. unfold mbind. rewrite E. cbv beta iota. apply says_different_pre with (v := v) (w := w); auto. intros ans A. now apply Mn.
Qed.

(** One of the operators, on operands [v] and [w] at [l] and [r]. *)
Lemma binary_means n d o l r v w s : d <> Discard ->
  holds s v l -> holds s w r -> (o = OEq \/ o = ONe -> depth v < n /\ distinct v /\ distinct w) -> (o = OAdd -> text v /\ text w) ->
  (forall z, v = DInt z \/ w = DInt z -> is_int64 z) ->
  agrees1 s (binary cf n d l (spelling o) r s) (op_means (cf_pow cf) o v w).
Proof.
  intros Dd Hv Hw Dvw Tvw Rg.
  destruct (holds_cell _ _ _ Hv) as (cl & El). destruct (holds_cell _ _ _ Hw) as (cr & Er).
  unfold binary. rewrite (bind_step _ _ _ _ _ (get_cell_ok _ _ _ El)), (bind_step _ _ _ _ _ (get_cell_ok _ _ _ Er)).
  assert (Beq : o = OEq \/ o = ONe -> exists b, val_eq n l r s = Ret b s /\ (b = true <-> same v w)).
  { intro Ho. destruct (Dvw Ho) as (Dp & Dv & Dw). exact (val_eq_decides s n v w l r Dp Hv Hw Dv Dw). }
  assert (KV : forall x c a, holds s x a -> nth_error (cells s) a = Some c -> type_name x = type_str (c_val c) /\
     match x with
     | DNone => c_val c = PNone
     | DBool b => c_val c = PBool b
     | DInt z => c_val c = PInt z
     | DStr t => exists b k u, c_val c = PStr b k /\ nth_error (bufs s) b = Some (Some u) /\ k <= length u /\ t = firstn k u
     | DVec vs => exists es, c_val c = PVec es /\ Forall2 (holds s) vs es
     | DMap vs => exists es, c_val c = PMap es /\ Forall2 (holds2 s) vs es
     | DFn f => c_val c = PFn f
     | DInst k i d => c_val c = PInst k i d
     end).
  { intros x c a Hx E. destruct x as [|b|z|t|vs|vs|f|k i dd].
    1,2,3,7,8: cbn in Hx; destruct Hx as (c' & E' & V); assert (c' = c) by congruence; subst c'; rewrite V; auto; split; auto; cbn; destruct (f_kind f); reflexivity.
    - cbn in Hx. destruct Hx as (c' & E' & b & k & u & V & Rest). assert (c' = c) by congruence. subst c'. split; [now rewrite V|eauto 8].
    - apply holds_vec in Hx as (c' & es & E' & V & G). assert (c' = c) by congruence. subst c'. split; [now rewrite V|eauto].
    - apply holds_map in Hx as (c' & es & E' & V & G). assert (c' = c) by congruence. subst c'. split; [now rewrite V|eauto]. }
  destruct (KV v cl l Hv El) as (TNv & Kl). destruct (KV w cr r Hw Er) as (TNw & Kr).
  assert (ND : forall (A : Type) (x y : A), match d with Discard => x | _ => y end = y) by (destruct d; congruence).
  rewrite ND. clear ND Dd d.
  destruct v as [|bv|zv|tv|lv|lv|fv|kv iv dv], w as [|bw|zw|tw|lw|lw|fw|kw iw dw];
    repeat match goal with K : exists _, _ |- _ => destruct K as (? & K) | K : _ /\ _ |- _ => destruct K end;
    repeat match goal with K : c_val _ = _ |- _ => rewrite K in * end; cbn [kind_of kind_eqb negb andb orb];
    try (apply agrees_error0; cbn [op_means]; rewrite TNv, TNw; reflexivity).
  all: match goal with |- agrees1 _ (mbind ?X _ _) _ => refine (pre_agrees X s n l r _ _) end.
  all: match goal with
       | |- context [op_means _ _ DNone DNone] => eapply (none_pre _ _ _ _ _ true); [|reflexivity|reflexivity]; split; [constructor|auto]
       | |- pre _ ((if is_op _ _ then _ else _) _) _ _ => eapply (none_pre _ _ _ _ _ false); [|reflexivity|reflexivity]; split; intro Q; [discriminate Q|now inversion Q]
       | _ => idtac
       end.
  - (* booleans *)
    assert (Eq : o = OEq \/ o = ONe -> val_eq n l r s = Ret (Bool.eqb bv bw) s).
    { intro Ho. destruct (Dvw Ho) as (Dp & _). destruct n; [lia|]. cbn. unfold mbind. now rewrite (get_cell_ok _ _ _ El), (get_cell_ok _ _ _ Er), Kl, Kr. }
    destruct o; try (apply pre_error; reflexivity);
      try (eapply conclude_scalar with (v := DBool _); [reflexivity|reflexivity]).
    + unfold bin_op, equality. cbn [is_op is_prefix spelling lit list_ascii_of_string byte_eqb Ascii.eqb Bool.eqb andb]. unfold mbind at 1. unfold mbind at 1. rewrite Eq by auto. cbv beta iota.
      eapply conclude_scalar with (v := DBool _); reflexivity.
    + unfold bin_op, equality. cbn [is_op is_prefix spelling lit list_ascii_of_string byte_eqb Ascii.eqb Bool.eqb andb]. unfold mbind at 1. unfold mbind at 1. rewrite Eq by auto. cbv beta iota.
      eapply conclude_scalar with (v := DBool _); reflexivity.
  - (* integers *)
    assert (Eq : o = OEq \/ o = ONe -> val_eq n l r s = Ret (zv =? zw)%Z s).
    { intro Ho. destruct (Dvw Ho) as (Dp & _). destruct n; [lia|]. cbn. unfold mbind. now rewrite (get_cell_ok _ _ _ El), (get_cell_ok _ _ _ Er), Kl, Kr. }
    assert (Rv : is_int64 zv) by auto. assert (Rw : is_int64 zw) by auto.
    assert (Fits : forall z, int_answer (cf_pow cf) o zv zw = fits z ->
      pre s (int_res z s) (fun p s1 => agrees1 s (conclude n p l r s1) (op_means (cf_pow cf) o (DInt zv) (DInt zw))) (op_means (cf_pow cf) o (DInt zv) (DInt zw))).
    { intros z. unfold int_res. rewrite int64_fits. intro Q'. destruct (int64 z); [|cbn; now rewrite Q']. eapply conclude_scalar with (v := DInt _); [reflexivity|]. cbn. now rewrite Q'. }
    destruct o; try (apply pre_error; reflexivity);
      try (eapply conclude_scalar with (v := DBool _); [reflexivity|reflexivity]).
    + apply pre_bind, pre_bind. eapply (Fits (zv + zw)%Z). reflexivity.
    + apply pre_bind, pre_bind. eapply (Fits (zv - zw)%Z). reflexivity.
    + apply pre_bind, pre_bind. eapply (Fits (zv * zw)%Z). reflexivity.
    + unfold bin_op. cbn [is_op is_prefix spelling lit list_ascii_of_string byte_eqb Ascii.eqb Bool.eqb andb].
      destruct (zw =? 0)%Z eqn:E0; [apply pre_bind, pre_error; cbn [op_means int_answer]; now rewrite E0|].
      apply pre_bind, pre_bind. apply (Fits (Z.quot zv zw)). cbn [int_answer]. now rewrite E0.
    + unfold bin_op. cbn [is_op is_prefix spelling lit list_ascii_of_string byte_eqb Ascii.eqb Bool.eqb andb].
      destruct (zw =? 0)%Z eqn:E0; [apply pre_bind, pre_error; cbn [op_means int_answer]; now rewrite E0|].
      rewrite quot_range by (auto; lia). destruct ((zv =? - 2 ^ 63) && (zw =? -1))%Z eqn:E1; cbn [negb]; [unfold mbind, undef; cbn [pre op_means int_answer]; now rewrite E0, E1|].
      eapply conclude_scalar with (v := DInt _); [reflexivity|]. cbn [op_means int_answer]. now rewrite E0, E1.
    + unfold bin_op. cbn [is_op is_prefix spelling lit list_ascii_of_string byte_eqb Ascii.eqb Bool.eqb andb].
      destruct (cf_pow cf zv zw) eqn:E0; [|unfold mbind, undef; cbn; now rewrite E0]. eapply conclude_scalar with (v := DInt _); [reflexivity|]. cbn. now rewrite E0.
    + unfold bin_op, equality. cbn [is_op is_prefix spelling lit list_ascii_of_string byte_eqb Ascii.eqb Bool.eqb andb]. unfold mbind at 1. unfold mbind at 1. unfold mbind at 1. rewrite Eq by auto. cbv beta iota.
      eapply conclude_scalar with (v := DBool _); reflexivity.
    + unfold bin_op, equality. cbn [is_op is_prefix spelling lit list_ascii_of_string byte_eqb Ascii.eqb Bool.eqb andb]. unfold mbind at 1. unfold mbind at 1. unfold mbind at 1. rewrite Eq by auto. cbv beta iota.
      eapply conclude_scalar with (v := DBool _); reflexivity.
    + eapply conclude_scalar with (v := DBool _); [reflexivity|]. cbn. now rewrite Z.gtb_ltb.
    + eapply conclude_scalar with (v := DBool _); [reflexivity|]. cbn. now rewrite Z.geb_leb.
  - (* strings *)
    destruct (match o with OAdd => true | _ => false end) eqn:Ho.
    + destruct o; try discriminate. unfold bin_op. cbn [is_op is_prefix spelling lit list_ascii_of_string byte_eqb Ascii.eqb Bool.eqb andb].
      match goal with
      | L1 : nth_error (bufs s) ?a = Some (Some ?u), L2 : nth_error (bufs s) ?b = Some (Some ?u'), V1 : c_val cl = PStr ?a ?k, V2 : c_val cr = PStr ?b ?k',
        G1 : ?k <= length ?u, G2 : ?k' <= length ?u', E1 : tv = _, E2 : tw = _ |- _ =>
        unfold mbind, read_buf; rewrite L1, (proj2 (Nat.leb_le _ _) G1), L2, (proj2 (Nat.leb_le _ _) G2); subst tv tw;
        exact (conclude_str n l r s a k u b k' u' cl cr _ El Er V1 V2 L1 L2 G1 G2 eq_refl)
      end.
    + apply compared_pre; [intro; subst; discriminate|assumption|eauto|]. intro ans. destruct o; try discriminate; reflexivity.
  - (* vectors *)
    match goal with W1 : c_val cl = PVec ?a1, W2 : c_val cr = PVec ?a2, I1 : Forall2 _ lv _, I2 : Forall2 _ lw _ |- _ => rename a1 into es, a2 into fs, W1 into V1, W2 into V2, I1 into G1, I2 into G2 end.
    destruct (match o with OAdd => true | _ => false end) eqn:Ho.
    + destruct o; try discriminate. unfold bin_op. cbn [is_op is_prefix spelling lit list_ascii_of_string byte_eqb Ascii.eqb Bool.eqb andb].
      apply pre_bind, pre_bind.
      assert (C : copied s (mapM val_copy (es ++ fs) s) (fun s' zs => Forall2 (holds s') (lv ++ lw) zs)).
      { apply (mapM_copied val_copy (fun s v a => holds s v a /\ text v) (fun s v a => holds s v a)).
        - intros s0 s' v a K (Ha & Ta). split; auto. eapply holds_keeps; eauto.
        - intros s0 s' v a K Ha. eapply holds_keeps; eauto.
        - intros s0 v a (Ha & Ta). now apply val_copy_copied.
        - destruct (Tvw eq_refl) as (Tv & Tw). apply Forall2_app; [clear - G1 Tv|clear - G2 Tw]; [apply text_vec in Tv|apply text_vec in Tw].
          + induction G1; constructor; inversion Tv; subst; auto.
          + induction G2; constructor; inversion Tw; subst; auto. }
      destruct (mapM val_copy (es ++ fs) s) as [zs s1|s1| |u|]; cbn in C; try contradiction; [|destruct u; try contradiction; exact I].
      destruct C as (K & G). unfold ret. cbn [pre].
      destruct (proj1 K _ _ El) as (cl' & El' & Vl'). destruct (proj1 K _ _ Er) as (cr' & Er' & Vr').
      eapply conclude_keeps with (v := DVec (lv ++ lw)); [exact El'|exact Er'|rewrite Vl', V1; exact I|rewrite Vr', V2; exact I| |reflexivity].
      cbn zeta. apply holds_vec. exists (Cell NNone 1 None (PVec zs)), zs. split; [apply nth_app_new|]. split; [reflexivity|].
      eapply forall2_impl; [|exact G]. intros. eapply holds_keeps; [apply keeps_append|assumption].
    + apply compared_pre; [intro; subst; discriminate|assumption|eauto|]. intro ans. destruct o; try discriminate; reflexivity.
  - (* maps *)
    match goal with W1 : c_val cl = PMap ?a1, W2 : c_val cr = PMap ?a2, I1 : Forall2 _ lv _, I2 : Forall2 _ lw _ |- _ => rename a1 into es, a2 into fs, W1 into V1, W2 into V2, I1 into G1, I2 into G2 end.
    destruct (match o with OAdd => true | _ => false end) eqn:Ho.
    + destruct o; try discriminate. unfold bin_op. cbn [is_op is_prefix spelling lit list_ascii_of_string byte_eqb Ascii.eqb Bool.eqb andb].
      apply pre_bind, pre_bind.
      match goal with |- pre _ (mapM ?f _ _) _ _ => set (cp := f) end.
      assert (C : copied s (mapM cp (es ++ fs) s) (fun s' zs => Forall2 (holds2 s') (lv ++ lw) zs)).
      { apply (mapM_copied cp (fun s v a => holds2 s v a /\ both_of text v) (fun s v a => holds2 s v a)).
        - intros s0 s' v a K ((Ha & Ha') & Ta). repeat split; try apply Ta; eapply holds_keeps; eauto.
        - intros s0 s' v a K (Ha & Ha'). split; eapply holds_keeps; eauto.
        - intros s0 [k v] [e e'] ((Ha & Ha') & Ta & Ta'). unfold cp. cbn [fst snd] in *.
          pose proof (val_copy_copied s0 k e Ha Ta) as C1. unfold mbind at 1. destruct (val_copy e s0) as [k' s1|s1| |u|]; cbn in C1; auto.
          destruct C1 as (K1 & C1). pose proof (val_copy_copied s1 v e' (holds_keeps _ _ K1 _ _ Ha') Ta') as C2. unfold mbind.
          destruct (val_copy e' s1) as [v' s2|s2| |u|]; cbn in C2; auto. destruct C2 as (K2 & C2). cbn.
          split; [exact (keeps_trans _ _ _ K1 K2)|]. split; cbn; [exact (holds_keeps _ _ K2 _ _ C1)|exact C2].
        - destruct (Tvw eq_refl) as (Tv & Tw). apply Forall2_app; [clear - G1 Tv|clear - G2 Tw]; [apply text_map in Tv|apply text_map in Tw].
          + induction G1; constructor; inversion Tv; subst; auto.
          + induction G2; constructor; inversion Tw; subst; auto. }
      destruct (mapM cp (es ++ fs) s) as [zs s1|s1| |u|]; cbn in C; try contradiction; [|destruct u; try contradiction; exact I].
      destruct C as (K & G). unfold ret. cbn [pre].
      destruct (proj1 K _ _ El) as (cl' & El' & Vl'). destruct (proj1 K _ _ Er) as (cr' & Er' & Vr').
      eapply conclude_keeps with (v := DMap (lv ++ lw)); [exact El'|exact Er'|rewrite Vl', V1; exact I|rewrite Vr', V2; exact I| |reflexivity].
      cbn zeta. apply holds_map. exists (Cell NNone 1 None (PMap zs)), zs. split; [apply nth_app_new|]. split; [reflexivity|].
      eapply forall2_impl; [|exact G]. intros a b (Q1 & Q2). split; eapply holds_keeps; [apply keeps_append|assumption|apply keeps_append|assumption].
    + apply compared_pre; [intro; subst; discriminate|assumption|eauto|]. intro ans. destruct o; try discriminate; reflexivity.
  - (* functions *)
    unfold bin_op. unfold mbind, ret. apply pre_error. rewrite <- TNv. cbn [op_means]. unfold not_applicable. destruct o; reflexivity.
  - (* objects *)
    unfold bin_op. unfold mbind, ret. apply pre_error. rewrite <- TNv. cbn [op_means]. unfold not_applicable. destruct o; reflexivity.
Qed.
End Binary.
