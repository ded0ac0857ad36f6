(** * What scripts without assignments to elements leave as it is. *)

From Coq Require Import ZArith Arith Ascii String Lia Bool List.
From Verif Require Import Base Cookie BuildStep Build Plan FlAst FlState FlInterp FlMonad FlFrame SpecSettled Bob BobProofs Project.
Import ListNotations.
Local Open Scope nat_scope.
Local Open Scope fl_scope.

Local Notation M := (FlState.M bob).
Local Notation st := (FlState.st bob).

(** ** The relation *)

(** Instances may get their data, and functions are put where there was nothing. *)
Definition same_payload (p q : FlState.payload) : Prop :=
  q = p \/ (exists k i d d', p = PInst k i d /\ q = PInst k i d') \/ (p = PNone \/ exists f, p = PFn f) /\ exists f, q = PFn f.
Section Named.
(** What products may be called. *)
Variable named : bytes -> Prop.
(** A string with such a name. *)
Definition str_made (s : st) (a : addr) : Prop :=
  exists c b n u, nth_error (cells s) a = Some c /\ c_val c = PStr b n /\ nth_error (bufs s) b = Some u /\ forall t, u = Some t -> named (firstn n t).
Definition made (s : st) (x : asked) : Prop :=
  match x with
  | ACompile _ _ r => exists c os, nth_error (cells s) r = Some c /\ c_val c = PVec os /\ Forall (str_made s) os
  | ALink _ _ _ r => str_made s r
  end.
Record steady (s s' : st) : Prop := Steady {
  sd_cells : forall a c, nth_error (cells s) a = Some c -> exists c', nth_error (cells s') a = Some c' /\ same_payload (c_val c) (c_val c');
  sd_bufs : forall b u, nth_error (bufs s) b = Some u -> exists u', nth_error (bufs s') b = Some u' /\ (u' = u \/ u' = None);
  sd_states : forall d x, nth_error (b_states (host s)) d = Some x -> exists x', nth_error (b_states (host s')) d = Some x' /\ (x' = x \/ x' = None);
  sd_asked : exists l, b_asked (host s') = b_asked (host s) ++ l /\ Forall (made s') l;
}.
Definition calm (s : st) : Prop := forall i b, nth_error (bodies s) i = Some (Some b) -> calm_body b = true.

Lemma same_payload_refl p : same_payload p p.
Proof. now left. Qed.
Lemma same_payload_trans p q r : same_payload p q -> same_payload q r -> same_payload p r.
Proof.
  intros [->|[(k & i & d & d' & -> & ->)|(P & f & ->)]].
  - auto.
  - intros [->|[(k' & i' & e & e' & Q & ->)|([Q|(f & Q)] & _)]]; try discriminate; [right; left; eauto 8|]. injection Q as <- <- <-. right. left. eauto 8.
  - intros [->|[(k' & i' & e & e' & Q & ->)|(_ & f' & ->)]]; try discriminate; right; right; eauto.
Qed.
Lemma none_asked s s' : b_asked (host s') = b_asked (host s) -> exists l, b_asked (host s') = b_asked (host s) ++ l /\ Forall (made s') l.
Proof. intros ->. exists []. rewrite app_nil_r. auto. Qed.
Lemma steady_refl s : steady s s.
Proof. split; eauto using same_payload_refl. now apply none_asked. Qed.
Lemma same_str b n q : same_payload (PStr b n) q -> q = PStr b n.
Proof. intros [->|[(k & i & d & d' & Q & _)|([Q|(f & Q)] & _)]]; auto; discriminate. Qed.
Lemma same_vec es q : same_payload (PVec es) q -> q = PVec es.
Proof. intros [->|[(k & i & d & d' & Q & _)|([Q|(f & Q)] & _)]]; auto; discriminate. Qed.
Lemma str_made_steady s s' a : steady s s' -> str_made s a -> str_made s' a.
Proof.
  intros [A B _ _] (c & b & n & u & Q & V & Qb & K). destruct (A _ _ Q) as (c' & Q' & P). rewrite V in P. apply same_str in P. destruct (B _ _ Qb) as (u' & Qb' & U).
  exists c', b, n, u'. repeat (split; [assumption|]). intros t ->. destruct U as [U|U]; [|discriminate]. now apply K.
Qed.
Lemma made_steady s s' x : steady s s' -> made s x -> made s' x.
Proof.
  intros S0. destruct x as [d v r|k d v r]; cbn [made]; [|now apply str_made_steady]. intros (c & os & Q & V & K). destruct (sd_cells _ _ S0 _ _ Q) as (c' & Q' & P). rewrite V in P. apply same_vec in P.
  exists c', os. repeat (split; [assumption|]). eapply Forall_impl; [|exact K]. intros a. now apply str_made_steady.
Qed.
Lemma steady_trans s t u : steady s t -> steady t u -> steady s u.
Proof.
  intros [A B C (l & D & F)] T2. pose proof T2 as [A' B' C' (l' & D' & F')]. split.
  - intros a c Q. destruct (A a c Q) as (c1 & Q1 & S1), (A' a c1 Q1) as (c2 & Q2 & S2). eauto using same_payload_trans.
  - intros b x Q. destruct (B b x Q) as (c1 & Q1 & S1), (B' b c1 Q1) as (c2 & Q2 & S2). exists c2. split; [exact Q2|]. destruct S1 as [-> | ->], S2 as [-> | ->]; auto.
  - intros b x Q. destruct (C b x Q) as (c1 & Q1 & S1), (C' b c1 Q1) as (c2 & Q2 & S2). exists c2. split; [exact Q2|]. destruct S1 as [-> | ->], S2 as [-> | ->]; auto.
  - exists (l ++ l'). split; [now rewrite D', D, app_assoc|]. apply Forall_app. split; [|exact F']. eapply Forall_impl; [|exact F]. intros x. now apply made_steady.
Qed.

(** ** Parts that are all right *)
Definition okp {A} (Q : A -> Prop) (m : M A) : Prop := forall s a s', calm s -> m s = Ret a s' -> steady s s' /\ calm s' /\ Q a.
Notation ok := (okp (fun _ => True)).
Lemma ok_more {A} (Q : A -> Prop) m : okp Q m -> ok m.
Proof. intros K s a s' C E. destruct (K s a s' C E) as (? & ? & ?). auto. Qed.
Lemma ok_ret {A} (a : A) : ok (ret a).
Proof. intros s b s' C E. apply ret_inv in E as (-> & ->). auto using steady_refl. Qed.
Lemma okp_ret {A} (Q : A -> Prop) a : Q a -> okp Q (ret a).
Proof. intros K s b s' C E. apply ret_inv in E as (-> & ->). auto using steady_refl. Qed.
Lemma okp_bind {A B} (P : A -> Prop) (Q : B -> Prop) (m : M A) (k : A -> M B) : okp P m -> (forall a, P a -> okp Q (k a)) -> okp Q (mbind m k).
Proof.
  intros Km Kk s b s' C E. apply bind_ret_inv in E as (a & s1 & E1 & E). destruct (Km s a s1 C E1) as (S1 & C1 & P1). destruct (Kk a P1 s1 b s' C1 E) as (S2 & C2 & Q2).
  split; [eapply steady_trans; eassumption|auto].
Qed.
Lemma ok_bind {A B} (Q : B -> Prop) (m : M A) (k : A -> M B) : ok m -> (forall a, okp Q (k a)) -> okp Q (mbind m k).
Proof. intros Km Kk. eapply okp_bind; [exact Km|]. auto. Qed.
Lemma ok_undef {A} (Q : A -> Prop) u : okp Q (undef u).
Proof. intros s a s' _ E. discriminate E. Qed.
Lemma ok_died {A} (Q : A -> Prop) : okp Q died.
Proof. intros s a s' _ E. discriminate E. Qed.
Lemma ok_nofuel {A} (Q : A -> Prop) : okp Q nofuel.
Proof. intros s a s' _ E. discriminate E. Qed.
Lemma ok_raise {A} (Q : A -> Prop) p m : okp Q (raise p m).
Proof. intros s a s' _ E. destruct (raise_not_ret _ _ _ _ _ E). Qed.
Lemma ok_fatal {A} (Q : A -> Prop) m : okp Q (fatal m).
Proof. intros s a s' _ E. discriminate E. Qed.
Lemma ok_assert b : ok (assert b).
Proof. intros s a s' C E. apply assert_inv in E as (_ & ->). auto using steady_refl. Qed.
Lemma ok_gets {A} (f : st -> A) : ok (gets f).
Proof. intros s a s' C E. apply gets_inv in E as (-> & _). auto using steady_refl. Qed.
(** Runs that leave the state alone. *)
Lemma ok_same {A} (m : M A) : (forall s a s', m s = Ret a s' -> s' = s) -> ok m.
Proof. intros K s a s' C E. apply K in E. subst. auto using steady_refl. Qed.
(** The same cells, buffers, states, requests and bodies. *)
Lemma ok_modify (f : st -> st) : (forall s, cells (f s) = cells s /\ bufs (f s) = bufs s /\ host (f s) = host s /\ bodies (f s) = bodies s) -> ok (modify f).
Proof.
  intros K s a s' C E. apply modify_inv in E. subst s'. destruct (K s) as (A & B & D & G). split; [|split; [|exact I]].
  - split; [rewrite A; eauto using same_payload_refl|rewrite B; eauto|rewrite D; eauto|apply none_asked; now rewrite D].
  - intros i b Q. rewrite G in Q. exact (C i b Q).
Qed.
Lemma ok_iterM {A} (f : A -> M unit) l : (forall x, In x l -> ok (f x)) -> ok (iterM f l).
Proof. induction l as [|x l IH]; intro K; cbn [iterM]; [apply ok_ret|]. apply ok_bind; [apply K; now left|]. intros _. apply IH. intros y I. apply K. now right. Qed.
Lemma ok_mapM {A B} (f : A -> M B) l : (forall x, In x l -> ok (f x)) -> ok (mapM f l).
Proof.
  induction l as [|x l IH]; intro K; cbn [mapM]; [apply ok_ret|]. apply ok_bind; [apply K; now left|]. intros b. apply ok_bind; [|intros; apply ok_ret]. apply IH. intros y I. apply K. now right.
Qed.

(** A tactic for the rest. *)
Create HintDb okdb.
Ltac ok1 :=
  match goal with
  | |- forall _, _ => intro
  | |- okp _ (mbind _ _) => apply ok_bind; [|intro]
  | |- okp _ (ret _) => apply ok_ret
  | |- okp _ (undef _) => apply ok_undef
  | |- okp _ died => apply ok_died
  | |- okp _ nofuel => apply ok_nofuel
  | |- okp _ (raise _ _) => apply ok_raise
  | |- okp _ (error _ _) => apply ok_raise
  | |- okp _ (fatal _) => apply ok_fatal
  | |- okp _ (assert _) => apply ok_assert
  | |- okp _ (gets _) => apply ok_gets
  | |- okp _ (modify _) => apply ok_modify; intros; cbn; auto; fail
  | |- okp _ (match ?x with _ => _ end) => destruct x
  | |- okp _ (if ?x then _ else _) => destruct x
  | |- okp _ (let (_, _) := ?x in _) => destruct x
  | |- okp _ (mapM _ _) => solve [auto with okdb]
  | |- okp _ (iterM _ _) => apply ok_iterM; intros
  | |- okp _ (mapM _ _) => apply ok_mapM; intros
  | |- _ => solve [auto with okdb]
  end.
Ltac oks := repeat ok1.

Lemma steady_cells x s : (forall a c, nth_error (cells s) a = Some c -> exists c', nth_error x a = Some c' /\ same_payload (c_val c) (c_val c')) -> steady s (set_cells x s).
Proof. intro K. split; cbn; eauto. exists []; rewrite app_nil_r; auto. Qed.
Lemma steady_bufs x s : (forall b u, nth_error (bufs s) b = Some u -> exists u', nth_error x b = Some u' /\ (u' = u \/ u' = None)) -> steady s (set_bufs x s).
Proof. intro K. split; cbn; eauto using same_payload_refl. exists []; rewrite app_nil_r; auto. Qed.
Lemma nth_app_some {A} (l m : list A) i x : nth_error l i = Some x -> nth_error (l ++ m) i = Some x.
Proof. intro E. rewrite nth_error_app1; [exact E|]. apply nth_error_Some. congruence. Qed.
Lemma steady_put s a c : (forall c0, nth_error (cells s) a = Some c0 -> same_payload (c_val c0) (c_val c)) -> steady s (set_cells (upd a c (cells s)) s).
Proof.
  intro K. apply steady_cells. intros b d E. destruct (Nat.eq_dec a b) as [<-|N].
  - exists c. split; [|auto]. apply upd_same. apply nth_error_Some. congruence.
  - exists d. split; [|apply same_payload_refl]. rewrite upd_other by auto. exact E.
Qed.
Lemma ok_get_cell a : ok (get_cell a).
Proof. apply ok_same. intros s c s' E. now apply get_cell_inv in E as (-> & _). Qed.
Lemma ok_get_scope a : ok (get_scope a).
Proof. apply ok_same. intros s c s' E. now apply get_scope_inv in E as (-> & _). Qed.
Lemma ok_alloc p : ok (alloc p).
Proof.
  intros s a s' C E. apply alloc_inv in E as (-> & ->). split; [|split; [exact C|exact I]]. apply steady_cells. intros b d E. exists d. split; [now apply nth_app_some|apply same_payload_refl].
Qed.
Lemma ok_new_buf u : ok (new_buf u).
Proof. intros s a s' C E. apply new_buf_inv in E as (-> & ->). split; [|split; [exact C|exact I]]. apply steady_bufs. intros b d E. exists d. split; [now apply nth_app_some|auto]. Qed.
Lemma ok_new_body b : calm_body b = true -> ok (new_body b).
Proof.
  intros K s a s' C E. apply new_body_inv in E as (-> & ->). split; [|split; [|exact I]].
  - split; cbn; eauto using same_payload_refl. exists []. now rewrite app_nil_r.
  - intros i x Q. cbn in Q. destruct (Nat.lt_ge_cases i (length (bodies s))) as [L|L]; [rewrite nth_error_app1 in Q by exact L; exact (C i x Q)|].
    rewrite nth_error_app2 in Q by exact L. destruct (i - length (bodies s)) as [|[|j]]; cbn in Q; try discriminate. now injection Q as <-.
Qed.
(** A cell written again with its payload. *)
Lemma ok_put_same a (g : cell -> cell) : (forall c, c_val (g c) = c_val c) -> ok (c <- get_cell a ;; put_cell a (g c))%fl.
Proof.
  intros K s u s' C E. apply bind_ret_inv in E as (c & s1 & E1 & E). apply get_cell_inv in E1 as (-> & E1). apply modify_inv in E. subst s'. split; [|split; [exact C|exact I]].
  apply steady_put. intros c0 Q. left. rewrite K. congruence.
Qed.
Lemma ok_incref a : ok (incref a).
Proof.
  intros s u s' C E. unfold incref in E. apply bind_ret_inv in E as (c & s1 & E1 & E). apply get_cell_inv in E1 as (-> & E1). apply bind_ret_inv in E as (u1 & s1 & E2 & E).
  apply assert_inv in E2 as (_ & ->). apply modify_inv in E. subst s'. split; [|split; [exact C|exact I]]. apply steady_put. intros c0 Q. left. cbn. congruence.
Qed.
Lemma ok_put_scope i c : ok (put_scope i c).
Proof. apply ok_modify. intros s. cbn. auto. Qed.
#[local] Hint Resolve ok_get_cell ok_get_scope ok_alloc ok_new_buf ok_incref ok_put_scope : okdb.
Lemma ok_read_buf b k : ok (read_buf b k).
Proof. apply ok_same. apply read_buf_same. Qed.
Lemma ok_read_upto b k : ok (read_upto b k).
Proof. apply ok_same. apply read_upto_same. Qed.
Lemma ok_read_name b : ok (read_name b).
Proof. apply ok_same. apply read_name_same. Qed.
Lemma ok_no_rv : ok no_rv.
Proof. apply ok_same. intros s u s' E. now apply no_rv_same in E as (-> & _). Qed.
Lemma ok_val_eq n x y : ok (val_eq n x y).
Proof. apply ok_same. apply val_eq_same. Qed.
Lemma ok_repr n i x : ok (repr n i x).
Proof. apply ok_same. apply repr_same. Qed.
Lemma ok_find_var i x : ok (find_var i x).
Proof. apply ok_same. apply find_var_same. Qed.
Lemma ok_env_find x : ok (env_find x).
Proof. apply ok_same. apply env_find_same. Qed.
Lemma ok_cur_stack : ok cur_stack.
Proof. apply ok_same. intros s u s' E. now apply cur_stack_inv in E as (-> & _). Qed.
Lemma ok_cur_scope : ok cur_scope.
Proof. apply ok_same. intros s u s' E. now apply cur_scope_inv in E as (-> & _). Qed.
#[local] Hint Resolve ok_read_buf ok_read_upto ok_read_name ok_no_rv ok_val_eq ok_repr ok_find_var ok_env_find ok_cur_stack ok_cur_scope : okdb.
Lemma ok_make_str x : ok (make_str x).
Proof. unfold make_str. oks. Qed.
Lemma ok_val_copy a : ok (val_copy a).
Proof.
  unfold val_copy. apply ok_bind; [oks|]. intros c. apply ok_bind; [oks|]. intros x. apply ok_bind; [oks|]. intros p s b s' C E. injection E as <- <-. split; [|split; [exact C|exact I]].
  apply steady_cells. intros a' d E. exists d. split; [now apply nth_app_some|apply same_payload_refl].
Qed.
Lemma ok_scope_alloc : ok scope_alloc.
Proof. intros s a s' C E. injection E as <- <-. split; [|split; [exact C|exact I]]. split; cbn; eauto using same_payload_refl. exists []; rewrite app_nil_r; auto. Qed.
Lemma ok_close_over : ok close_over.
Proof. unfold close_over. apply ok_bind; [oks|]. intros l s a s' C E. injection E as <- <-. split; [|split; [exact C|exact I]]. split; cbn; eauto using same_payload_refl. exists []. now rewrite app_nil_r. Qed.
#[local] Hint Resolve ok_make_str ok_val_copy ok_scope_alloc ok_close_over : okdb.
Lemma ok_add_var i x b : ok (add_var i x b).
Proof. unfold add_var. oks. Qed.
Lemma ok_write_var i j a : ok (write_var i j a).
Proof. unfold write_var. oks. Qed.
Lemma ok_renamed a n : ok (x <- get_cell a ;; put_cell a (Cell n (c_cnt x) (c_owner x) (c_val x)))%fl.
Proof. apply (ok_put_same a (fun x => Cell n (c_cnt x) (c_owner x) (c_val x))). reflexivity. Qed.
#[local] Hint Resolve ok_add_var ok_write_var : okdb.
Lemma ok_var_set_val i j a : ok (var_set_val i j a).
Proof. unfold var_set_val. apply ok_bind; [oks|]. intros c. destruct (nth_error _ _); [|oks]. apply ok_bind; [oks|]. intros _. apply ok_renamed. Qed.
Lemma ok_set_owner_of a i : ok (set_owner_of a i).
Proof. apply (ok_put_same a (fun x => Cell (c_name x) (c_cnt x) (Some i) (c_val x))). reflexivity. Qed.
Lemma ok_attach i : ok (attach i).
Proof. unfold attach, set_stack. oks. Qed.
Lemma ok_detach : ok detach.
Proof. unfold detach, set_stack. oks. Qed.
#[local] Hint Resolve ok_var_set_val ok_set_owner_of ok_attach ok_detach : okdb.
Lemma ok_push_scope : ok push_scope.
Proof. unfold push_scope. oks. Qed.
#[local] Hint Resolve ok_push_scope : okdb.

Section Bobs.
Variables (sg : bool) (out : bytes) (listing : bytes -> option (list bytes)) (pow : Z -> Z -> option Z) (exists_ : bytes -> bool) (files : bytes -> file).
Notation cf := (bob_conf sg out listing pow exists_ files).
Hypothesis Files : forall p ss, files p = File ss -> no_element_assignment ss.
Hypothesis Named_object : forall t x, gen_cookie sg out t (lit "o") = Ok x -> named x.
Hypothesis Named_product : forall k ts, named (link_cookie sg out k ts).

(** ** Bob's functions *)
Lemma ok_free_state d : ok (free_state d).
Proof.
  intros s u s' C E. unfold free_state in E. destruct (nth_error (b_states (host s)) d) as [[x|]|] eqn:Q; try discriminate. injection E as <- <-. split; [|split; [exact C|exact I]].
  split; cbn; eauto using same_payload_refl.
  - intros d' y E. destruct (Nat.eq_dec d d') as [<-|N].
    + exists None. split; [|now right]. apply upd_same. apply nth_error_Some. congruence.
    + exists y. split; [rewrite upd_other by auto; exact E|now left].
  - exists []; rewrite app_nil_r; auto.
Qed.
Lemma same_host f : (forall h, b_states (f h) = b_states h /\ b_asked (f h) = b_asked h) -> ok (on_host f).
Proof.
  intros K s u s' C E. apply modify_inv in E. subst s'. destruct (K (host s)) as (A & B). split; [|split; [exact C|exact I]].
  split; cbn; eauto using same_payload_refl; [rewrite A; eauto|exists []; rewrite app_nil_r; auto].
Qed.
Lemma ok_str_at a : ok (str_at a).
Proof. unfold str_at. oks. Qed.
#[local] Hint Resolve ok_free_state ok_str_at : okdb.
Lemma ok_one_vec w args : ok (one_vec w args).
Proof. unfold one_vec. oks. Qed.
Lemma ok_check_strs w es : forall i, ok (check_strs w i es).
Proof. induction es; intro i; cbn [check_strs]; oks. Qed.
#[local] Hint Resolve ok_one_vec ok_check_strs : okdb.
Lemma ok_instantiate k i args : ok (instantiate k i args).
Proof.
  unfold instantiate. apply ok_bind; [oks|]. intros v. apply ok_bind; [oks|]. intros _. intros s u s' C E.
  apply bind_ret_inv in E as (h & s1 & E1 & E). apply gets_inv in E1 as (-> & ->). apply bind_ret_inv in E as (u1 & s1 & E1 & E). apply modify_inv in E1. subst s1.
  apply bind_ret_inv in E as (c & s1 & E1 & E). apply get_cell_inv in E1 as (-> & E1). cbn [cells set_host] in E1. destruct (c_val c) as [| | | | | | |class sc d] eqn:V; try discriminate.
  apply modify_inv in E. subst s'. split; [|split; [exact C|exact I]]. split; cbn.
  - intros a c0 Q. destruct (Nat.eq_dec i a) as [<-|N].
    + eexists. split; [apply upd_same; apply nth_error_Some; congruence|]. right. left. cbn. assert (c0 = c) by congruence. subst c0. rewrite V. eauto 8.
    + exists c0. split; [rewrite upd_other by auto; exact Q|apply same_payload_refl].
  - eauto.
  - intros d' x Q. exists x. split; [now apply nth_app_some|now left].
  - exists []; rewrite app_nil_r; auto.
Qed.
#[local] Hint Resolve ok_instantiate : okdb.
Lemma ok_inst_cb i args : ok (class_inst_cb i args).
Proof. unfold class_inst_cb. oks. Qed.
Lemma populate_same vs : forall h, b_states (populate vs h) = b_states h /\ b_asked (populate vs h) = b_asked h.
Proof. induction vs as [|v vs IH]; intro h; cbn [populate]; [auto|]. destruct (IH (if bytes_eqb (v_key v) (lit "list") then set_list (v_val v) h else h)) as (-> & ->). destruct (bytes_eqb _ _); auto. Qed.
Lemma ok_decl_cb a : ok (class_decl_cb a).
Proof. unfold class_decl_cb. oks; apply same_host; intro h; try (split; reflexivity). apply populate_same. Qed.
Lemma ok_objects w : forall es i, ok (objects sg out w i es).
Proof. induction es; intro i; cbn [objects]; oks. Qed.
Lemma ok_strs w : forall es i, ok (strs w i es).
Proof. induction es; intro i; cbn [strs]; oks. Qed.
#[local] Hint Resolve ok_objects ok_strs : okdb.
Lemma ask_steady x s : made s x -> steady s (set_host (ask x (host s)) s).
Proof. intro K. split; cbn; eauto using same_payload_refl. Qed.
Lemma make_str_made x s a s' : named x -> calm s -> make_str x s = Ret a s' -> steady s s' /\ calm s' /\ str_made s' a.
Proof.
  intros N C E. destruct (ok_make_str x s a s' C E) as (S1 & C1 & _). split; [exact S1|]. split; [exact C1|].
  unfold make_str in E. apply bind_ret_inv in E as (b & s1 & E1 & E). apply new_buf_inv in E1 as (-> & ->). apply alloc_inv in E as (-> & ->).
  do 4 eexists. cbn. split; [apply nth_app_new|]. split; [reflexivity|]. split; [apply nth_app_new|]. intros t Q. injection Q as <-. rewrite firstn_all. exact N.
Qed.
Lemma objects_made w : forall es i s os s', calm s -> objects sg out w i es s = Ret os s' -> steady s s' /\ calm s' /\ Forall (str_made s') os.
Proof.
  induction es as [|a es IH]; intros i s os s' C E; cbn [objects] in E.
  - apply ret_inv in E as (-> & ->). auto using steady_refl.
  - apply bind_ret_inv in E as (t & s1 & E1 & E). destruct (ok_str_at a s t s1 C E1) as (S1 & C1 & _). destruct t as [t|]; [|discriminate].
    destruct (gen_cookie sg out t (lit "o")) as [x| | | |] eqn:G; try discriminate.
    apply bind_ret_inv in E as (o & s2 & E2 & E). destruct (make_str_made x s1 o s2 (Named_object _ _ G) C1 E2) as (S2 & C2 & M2).
    apply bind_ret_inv in E as (os' & s3 & E3 & E). destruct (IH _ _ _ _ C2 E3) as (S3 & C3 & M3). apply ret_inv in E as (-> & ->).
    split; [exact (steady_trans _ _ _ S1 (steady_trans _ _ _ S2 S3))|]. split; [exact C3|]. constructor; [|exact M3]. exact (str_made_steady _ _ _ S3 M2).
Qed.
Lemma ok_need d : ok (need d).
Proof. unfold need. oks. Qed.
Lemma ok_prep_compile d args : ok (prep_compile sg out d args).
Proof.
  unfold prep_compile. apply ok_bind; [oks|]. intros v s rv s' C E.
  apply bind_ret_inv in E as (os & s1 & E1 & E). destruct (objects_made _ _ _ _ _ _ C E1) as (S1 & C1 & M1).
  apply bind_ret_inv in E as (r & s2 & E2 & E). destruct (ok_alloc _ _ _ _ C1 E2) as (S2 & C2 & _). apply alloc_inv in E2 as (-> & E2).
  apply bind_ret_inv in E as (dd & s3 & E3 & E). assert (s3 = s2) by (destruct d; [apply ret_inv in E3 as (_ & ->); reflexivity|discriminate E3]). subst s3.
  apply bind_ret_inv in E as (u & s4 & E4 & E). apply modify_inv in E4. subst s4. apply ret_inv in E as (-> & ->). split; [|split; [exact C2|exact I]].
  apply (steady_trans _ _ _ (steady_trans _ _ _ S1 S2)). apply ask_steady. cbn [made]. subst s2. do 2 eexists. split; [cbn; apply nth_app_new|]. split; [reflexivity|].
  eapply Forall_impl; [|exact M1]. intros a. exact (str_made_steady _ _ a S2).
Qed.
Lemma ok_prep_link k d args : ok (prep_link sg out k d args).
Proof.
  unfold prep_link. cbv zeta. apply ok_bind; [oks|]. intros v. apply ok_bind; [oks|]. intros ts s rv s' C E.
  apply bind_ret_inv in E as (r & s1 & E1 & E). destruct (make_str_made _ _ _ _ (Named_product k ts) C E1) as (S1 & C1 & M1).
  apply bind_ret_inv in E as (dd & s2 & E2 & E). assert (s2 = s1) by (destruct d; [apply ret_inv in E2 as (_ & ->); reflexivity|discriminate E2]). subst s2.
  apply bind_ret_inv in E as (u & s3 & E3 & E). apply modify_inv in E3. subst s3. apply ret_inv in E as (-> & ->). split; [|split; [exact C1|exact I]].
  apply (steady_trans _ _ _ S1). apply ask_steady. exact M1.
Qed.
#[local] Hint Resolve ok_prep_compile ok_prep_link : okdb.
Lemma ok_ext_cb f args : ok (external_fn_cb sg out listing f args).
Proof.
  unfold external_fn_cb. apply ok_bind; [unfold owner_of; oks|]. intros o. apply ok_bind; [|intros; oks].
  unfold try_classes, class_call, fs_list, data_of. oks.
Qed.

(** ** Releasing values *)
Lemma ok_free_buf b : ok (free_buf b).
Proof.
  intros s u s' C E. unfold free_buf in E. destruct (nth_error (bufs s) b) as [[x|]|] eqn:Q; try discriminate. injection E as <- <-. split; [|split; [exact C|exact I]].
  apply steady_bufs. intros b' y E. destruct (Nat.eq_dec b b') as [<-|N].
  - exists None. split; [|now right]. apply upd_same. apply nth_error_Some. congruence.
  - exists y. split; [rewrite upd_other by auto; exact E|now left].
Qed.
Lemma ok_free_body b : ok (free_body b).
Proof.
  intros s u s' C E. unfold free_body in E. destruct (nth_error (bodies s) b) as [[x|]|] eqn:Q; try discriminate. injection E as <- <-. split; [|split; [|exact I]].
  - split; cbn; eauto using same_payload_refl. exists []. now rewrite app_nil_r.
  - intros i y E. cbn in E. destruct (Nat.eq_dec b i) as [<-|N]; [|rewrite upd_other in E by auto; exact (C i y E)].
    rewrite upd_same in E by (apply nth_error_Some; congruence). discriminate.
Qed.
#[local] Hint Resolve ok_free_buf ok_free_body : okdb.
Lemma ok_scope_free dec i : (forall a, ok (dec a)) -> ok (scope_free dec i).
Proof. intro K. unfold scope_free. oks. Qed.
Lemma ok_val_free dec a : (forall a, ok (dec a)) -> ok (val_free cf dec a).
Proof. intro K. unfold val_free. apply ok_bind; [oks|]. intros c. destruct (c_val c); try (oks; fail). apply ok_bind; [now apply ok_scope_free|]. intros _. destruct data; [apply ok_free_state|oks]. Qed.
Lemma ok_decref : forall n a, ok (decref cf n a).
Proof.
  induction n as [|n IH]; intros a; cbn [decref]; [apply ok_nofuel|].
  intros s u s' C E. apply bind_ret_inv in E as (c & s1 & E1 & E). apply get_cell_inv in E1 as (-> & E1). apply bind_ret_inv in E as (u1 & s1 & E2 & E). apply modify_inv in E2.
  assert (S1 : steady s s1) by (subst s1; apply steady_put; intros c0 Q; left; cbn; congruence). assert (C1 : calm s1) by (subst s1; exact C).
  assert (K : ok (if (0 <? down (c_cnt c))%Z then ret tt else val_free cf (decref cf n) a)) by (destruct (_ <? _)%Z; [apply ok_ret|now apply ok_val_free]).
  destruct (K s1 u s' C1 E) as (S2 & C2 & _). split; [eapply steady_trans; eassumption|auto].
Qed.
#[local] Hint Resolve ok_decref : okdb.
Lemma ok_val_free_decref n a : ok (val_free cf (decref cf n) a).
Proof. apply ok_val_free. apply ok_decref. Qed.
#[local] Hint Resolve ok_val_free_decref : okdb.

(** ** The interpreter *)
Record good (R : FlInterp.rec) : Prop := Good {
  g_eval : forall d e, calm_expr e = true -> ok (r_eval R d e);
  g_call : forall fa acc d args, ok (r_call R fa acc d args);
  g_block : forall ss, forallb calm_stmt ss = true -> ok (r_block R ss);
  g_stmt : forall x, calm_stmt x = true -> ok (r_stmt R x);
  g_fun : forall k static x ps ss, forallb calm_stmt ss = true -> ok (r_fun R k static x ps ss);
}.
Section Step.
Variable R : @FlInterp.rec bob.
Hypothesis G : good R.

Lemma ok_both e : calm_expr e = true -> ok (both R e).
Proof. intro K. unfold both. apply ok_bind; [now apply (g_eval R G)|]. oks. Qed.
Lemma ok_value e : calm_expr e = true -> ok (value R e).
Proof. intro K. unfold value. apply ok_bind; [now apply ok_both|]. oks. Qed.
Hint Resolve ok_both ok_value : okdb.
Lemma ok_deliver d a : ok (deliver d a).
Proof.
  destruct d; [apply ok_ret|apply ok_ret|]. intros s o s' C E. cbn in E. destruct (cur_rv s); [discriminate|]. injection E as <- <-.
  exact (ok_modify (set_rv (Some (RVal a))) ltac:(intros; cbn; auto) s tt _ C eq_refl).
Qed.
Hint Resolve ok_deliver : okdb.
Lemma ok_access_find e x : calm_expr e = true -> ok (access_find cf R e x).
Proof. intro K. unfold access_find. cbv zeta. oks. Qed.
Lemma ok_vref_val r : ok (vref_val r).
Proof. unfold vref_val. oks. Qed.
Hint Resolve ok_access_find ok_vref_val : okdb.
Lemma ok_do_access d e x : calm_expr e = true -> ok (do_access cf R d e x).
Proof. intro K. unfold do_access. oks. Qed.
Lemma ok_do_ident d x : ok (do_ident cf d x).
Proof. unfold do_ident. oks. Qed.
Lemma ok_do_lambda d ps b : calm_body b = true -> ok (do_lambda d ps b).
Proof. intro K. unfold do_lambda. apply ok_bind; [oks|]. intros env. apply ok_bind; [now apply ok_new_body|]. intros. oks. Qed.
Lemma ok_has_key k l : ok (has_key R k l).
Proof. induction l; cbn [has_key]; oks. Qed.
Hint Resolve ok_has_key ok_do_access ok_do_ident ok_do_lambda : okdb.
Lemma ok_map_items kvs : forall acc, forallb (fun kv => calm_expr (fst kv) && calm_expr (snd kv)) kvs = true -> ok (map_items cf R kvs acc).
Proof.
  induction kvs as [|(k, v) kvs IH]; intros acc K; cbn [map_items]; [oks|]. cbn [forallb fst snd] in K. apply andb_prop in K as (K & K3). apply andb_prop in K as (K1 & K2). oks.
Qed.
Lemma ok_vec_index es i : ok (vec_index cf es i).
Proof. unfold vec_index. cbv zeta. oks. Qed.
Lemma ok_map_index kvs i : ok (map_index R kvs i).
Proof. induction kvs as [|(k, v) kvs IH]; cbn [map_index]; oks. Qed.
Hint Resolve ok_map_items ok_vec_index ok_map_index : okdb.
Lemma ok_do_index d e i : calm_expr e = true -> calm_expr i = true -> ok (do_index cf R d e i).
Proof. intros K L. unfold do_index. oks. Qed.
Lemma ok_values es : forallb calm_expr es = true -> ok (mapM (value R) es).
Proof. intro K. apply ok_mapM. intros x I. apply ok_value. rewrite forallb_forall in K. auto. Qed.
Hint Resolve ok_do_index ok_values : okdb.
Lemma ok_do_call d f args : calm_expr f = true -> forallb calm_expr args = true -> ok (do_call cf R d f args).
Proof.
  intros K L. unfold do_call. apply ok_bind; [auto with okdb|]. intros r. apply ok_bind; [oks|]. intros c. destruct (c_val c); try (oks; fail).
  apply ok_bind; [now apply ok_values|]. intros. apply (g_call R G).
Qed.
Lemma ok_int_res z : ok (int_res z : M _).
Proof. unfold int_res. oks. Qed.
Lemma ok_some_res m : ok m -> ok (some_res m : M _).
Proof. intro K. unfold some_res. oks. Qed.
Lemma ok_equality n op l r : ok (equality n op l r).
Proof. unfold equality. oks. Qed.
Hint Resolve ok_do_call ok_int_res ok_some_res ok_equality : okdb.
Lemma ok_bin_op n op l r p q : ok (bin_op cf n op l r p q).
Proof. unfold bin_op. oks. Qed.
Hint Resolve ok_bin_op : okdb.
Lemma ok_binary n d l op r : ok (binary cf n d l op r).
Proof. unfold binary. cbv zeta. oks. Qed.
Lemma ok_unary n d op x : ok (unary cf n d op x).
Proof. unfold unary. oks. Qed.
Lemma ok_deliver_opt d o : ok (deliver_opt d o).
Proof. unfold deliver_opt. oks. Qed.
Lemma ok_parse_digits l : forall acc, ok (parse_digits cf l acc : M _).
Proof. induction l; intro acc; cbn [parse_digits]; cbv zeta; oks. Qed.
Hint Resolve ok_binary ok_unary ok_deliver_opt ok_parse_digits : okdb.
Lemma ok_parse_number l : ok (parse_number cf l : M _).
Proof. unfold parse_number. oks. Qed.
Hint Resolve ok_parse_number : okdb.
Lemma ok_plain m : ok m -> ok (plain m : M _).
Proof. intro K. unfold plain. oks. Qed.
Lemma ok_eval d e : calm_expr e = true -> ok (eval_ cf R d e).
Proof.
  intro K. unfold eval_. cbv zeta. destruct e; cbn [calm_expr] in K; try (apply andb_prop in K as (K1 & K2)); try (destruct d; [apply ok_raise| |]; apply ok_plain; oks; fail); try (apply ok_plain; oks; fail); try (oks; fail).
  now apply (g_eval R G).
Qed.

(** *** Members of strings and vectors *)
Lemma ok_self_str a : ok (self_str a : M _).
Proof. unfold self_str. oks. Qed.
Lemma ok_self_vec a : ok (self_vec a : M _).
Proof. unfold self_vec. oks. Qed.
Lemma ok_vec_again a : ok (vec_again a : M _).
Proof. unfold vec_again. oks. Qed.
Lemma ok_callback f x : ok (callback R f x).
Proof. unfold callback. apply ok_bind; [apply (g_call R G)|]. oks. Qed.
Hint Resolve ok_self_str ok_self_vec ok_vec_again ok_callback : okdb.
Lemma ok_map_loop self f : forall k i, ok (map_loop R self f i k).
Proof. induction k; intro i; cbn [map_loop]; oks. Qed.
Lemma ok_where_loop self f : forall k i, ok (where_loop cf R self f i k).
Proof. induction k; intro i; cbn [where_loop]; oks. Qed.
Hint Resolve ok_map_loop ok_where_loop : okdb.
Lemma ok_call_member p a args : ok (call_member cf R p a args).
Proof. destruct p; cbn [call_member]; unfold str_len, str_ends, str_starts, vec_len, vec_map, vec_where, arg_count_error; oks. Qed.

(** *** Calls *)
Lemma ok_add_args i : forall ps args, ok (add_args i ps args : M _).
Proof. induction ps; intros [|x args]; cbn [add_args]; unfold add_arg; oks. Qed.
Hint Resolve ok_call_member ok_add_args : okdb.
Lemma ok_setup_args f args : ok (setup_args cf f args).
Proof. unfold setup_args. oks. Qed.
Lemma ok_arg_vals : ok (arg_vals : M _).
Proof. unfold arg_vals. oks. Qed.
Hint Resolve ok_setup_args ok_arg_vals : okdb.
Lemma read_body_ok b : okp (fun x => calm_body x = true) (read_body b : M _).
Proof.
  intros s x s' C E. unfold read_body in E. destruct (nth_error (bodies s) b) as [[y|]|] eqn:Q; try discriminate. injection E as <- <-. split; [apply steady_refl|]. split; [exact C|]. exact (C b y Q).
Qed.
Lemma ok_run_block b k d : ok (b0 <- read_body b ;; match b0 with
      | BExpr e => assert (match k with KFun => true | _ => false end) ;; r <- r_eval R d e ;; ret (BExprVal (fst r))
      | BBlock ss => i <- r_block R ss ;; ret (match k with KClass => BScope i | _ => BDone end)
      end)%fl.
Proof.
  eapply okp_bind; [apply read_body_ok|]. intros [ss|e] K; cbn [calm_body] in K.
  - apply ok_bind; [now apply (g_block R G)|]. oks.
  - apply ok_bind; [oks|]. intros _. apply ok_bind; [now apply (g_eval R G)|]. oks.
Qed.
Lemma ok_cf_ext f args : ok (cf_ext cf f args).
Proof. apply ok_ext_cb. Qed.
Lemma ok_cf_decl a : ok (cf_decl cf a).
Proof. apply ok_decl_cb. Qed.
Lemma ok_cf_inst i args : ok (cf_inst cf i args).
Proof. apply ok_inst_cb. Qed.
Hint Resolve ok_run_block ok_cf_ext ok_cf_decl ok_cf_inst : okdb.
Lemma ok_run_body fa f self d : ok (run_body cf R fa f self d).
Proof.
  unfold run_body. destruct (f_kind f) eqn:Kf; try (destruct (f_body f) as [b|]; [|apply ok_undef]);
    try exact (ok_run_block b KFun d); try exact (ok_run_block b KClass d); oks.
Qed.
Lemma ok_finish fa b d args : ok (finish cf R fa b d args).
Proof. unfold finish. oks. Qed.
Lemma ok_unless {A} (o : option A) f : (forall x, ok (f x)) -> ok (unless o f : M _).
Proof. intro K. destruct o; cbn [unless]; oks. Qed.
Hint Resolve ok_run_body ok_finish : okdb.
Lemma ok_call fa acc d args : ok (call_ cf R fa acc d args).
Proof. unfold call_. oks; apply ok_unless; intros; oks. Qed.

(** *** Statements *)
Lemma ok_stmts ss : forallb calm_stmt ss = true -> ok (iterM (r_stmt R) ss).
Proof. intro K. apply ok_iterM. intros x I. apply (g_stmt R G). rewrite forallb_forall in K. auto. Qed.
Lemma ok_block ss : forallb calm_stmt ss = true -> ok (block_ R ss).
Proof. intro K. unfold block_. apply ok_bind; [oks|]. intros _. apply ok_bind; [now apply ok_stmts|]. oks. Qed.
Definition calm_opt (e : option expr) : bool := match e with Some e => calm_expr e | None => true end.
Lemma ok_let static x e : calm_opt e = true -> ok (let_ cf R static x e).
Proof. intro K. unfold let_. destruct e; cbn [calm_opt] in K; oks. Qed.
Hint Resolve ok_let : okdb.
Lemma ok_static_member x : calm_stmt x = true -> ok (static_member cf R x).
Proof. intro K. destruct x; cbn [static_member]; cbn [calm_stmt] in K; try apply ok_ret; destruct static; try apply ok_ret; try (now apply ok_let); now apply (g_fun R G). Qed.
(** A place for a function. *)
Definition shell (a : addr) (s : st) : Prop := exists c, nth_error (cells s) a = Some c /\ (c_val c = PNone \/ exists f, c_val c = PFn f).
Lemma shell_steady a s s' : steady s s' -> shell a s -> shell a s'.
Proof.
  intros S0 (c & Q & V). destruct (sd_cells _ _ S0 _ _ Q) as (c' & Q' & P). exists c'. split; [exact Q'|].
  destruct P as [->|[(k & i & d & d' & P & _)|(_ & f & P)]]; [exact V| |eauto]. exfalso. destruct V as [V|(f & V)]; rewrite V in P; discriminate.
Qed.
Lemma put_fn a x n o f s s' u : shell a s -> put_cell a (Cell x n o (PFn f)) s = Ret u s' -> steady s s' /\ bodies s' = bodies s.
Proof.
  intros (c & Q & V) E. apply modify_inv in E. subst s'. split; [|reflexivity]. apply steady_put. intros c0 Q0. assert (c0 = c) by congruence. subst c0. right. right. cbn. eauto.
Qed.
Lemma ok_fun k static x ps ss : forallb calm_stmt ss = true -> ok (fun_ cf R k static x ps ss).
Proof.
  intro K. unfold fun_. apply ok_bind; [oks|]. intros i. apply ok_bind; [oks|]. intros [(j, v)|]; [oks|]. apply ok_bind; [oks|]. intros j s b s' C E.
  apply bind_ret_inv in E as (a & s0 & E0 & E). destruct (ok_alloc _ _ _ _ C E0) as (S0 & C0 & _).
  assert (H0 : shell a s0) by (apply alloc_inv in E0 as (-> & ->); eexists; split; [cbn; apply nth_app_new|auto]).
  apply bind_ret_inv in E as (u1 & s1 & E1 & E). destruct (ok_var_set_val i j a _ _ _ C0 E1) as (S1 & C1 & _).
  apply bind_ret_inv in E as (env & s2 & E2 & E). destruct (ok_close_over _ _ _ C1 E2) as (S2 & C2 & _).
  apply bind_ret_inv in E as (bd & s3 & E3 & E).
  assert (Kb : ok (match k with KExtern => ret None | _ => b <- new_body (BBlock ss) ;; ret (Some b) end : M (option nat))%fl).
  { destruct k; try apply ok_ret; (apply ok_bind; [apply ok_new_body; exact K|oks]). }
  destruct (Kb _ _ _ C2 E3) as (S3 & C3 & _).
  assert (S03 : steady s0 s3) by exact (steady_trans _ _ _ S1 (steady_trans _ _ _ S2 S3)).
  assert (Past : forall s', (steady s3 s' /\ calm s') -> steady s s' /\ calm s' /\ True).
  { intros t (St & Ct). split; [exact (steady_trans _ _ _ S0 (steady_trans _ _ _ S03 St))|auto]. }
  assert (H3 : shell a s3) by exact (shell_steady _ _ _ S03 H0).
  destruct k; try (apply Past; destruct (put_fn _ _ _ _ _ _ _ _ H3 E) as (S4 & B4); split; [exact S4|]; intros i0 b0 Q; rewrite B4 in Q; exact (C3 i0 b0 Q)).
  apply bind_ret_inv in E as (sc & s4 & E4 & E). destruct (ok_scope_alloc _ _ _ C3 E4) as (S4 & C4 & _).
  apply bind_ret_inv in E as (u5 & s5 & E5 & E). destruct (ok_put_scope _ _ _ _ _ C4 E5) as (S5 & C5 & _).
  assert (S35 : steady s3 s5) by exact (steady_trans _ _ _ S4 S5).
  apply bind_ret_inv in E as (u6 & s6 & E6 & E). destruct (put_fn _ _ _ _ _ _ _ _ (shell_steady _ _ _ S35 H3) E6) as (S6 & B6).
  assert (C6 : calm s6) by (intros i0 b0 Q; rewrite B6 in Q; exact (C5 i0 b0 Q)).
  assert (Kr : ok (attach sc ;; iterM (static_member cf R) ss ;; detach ;; cf_decl cf a)%fl).
  { apply ok_bind; [oks|]. intros _. apply ok_bind; [|intros _; oks]. apply ok_iterM. intros y I. apply ok_static_member. rewrite forallb_forall in K. auto. }
  destruct (Kr _ _ _ C6 E) as (S7 & C7 & _). apply Past. split; [|exact C7]. exact (steady_trans _ _ _ S35 (steady_trans _ _ _ S6 S7)).
Qed.
Lemma ok_do_return e : calm_opt e = true -> ok (do_return cf R e).
Proof. intro K. unfold do_return. destruct e; cbn [calm_opt] in K; oks. now apply (g_eval R G). Qed.
Lemma ok_do_print e : calm_expr e = true -> ok (do_print cf R e).
Proof. intro K. unfold do_print. oks. Qed.
Lemma ok_do_assert e t : calm_expr e = true -> ok (do_assert cf R e t).
Proof. intro K. unfold do_assert. oks. Qed.
Lemma target_ok l : calm_lhs l = true -> okp (fun t => fst t <> None) (target cf R l).
Proof.
  intro K. destruct l as [x|e x|e i]; cbn [target calm_lhs] in *; [| |discriminate].
  - apply ok_bind; [oks|]. intros [((i, j), v)|]; [|apply ok_raise]. apply ok_bind; [oks|]. intros a. apply okp_ret. discriminate.
  - apply ok_bind; [oks|]. intros ra. apply ok_bind; [oks|]. intros a. apply okp_ret. discriminate.
Qed.
Lemma ok_set_vref r a : ok (set_vref r a : M _).
Proof. destruct r; cbn [set_vref]; [oks|]. apply ok_bind; [oks|]. intros _. apply ok_renamed. Qed.
Hint Resolve ok_set_vref : okdb.
Lemma ok_do_assign l t e : calm_lhs l = true -> calm_expr e = true -> ok (do_assign cf R l t e).
Proof.
  intros K L. unfold do_assign. eapply okp_bind; [now apply target_ok|]. intros ([r|], a) N; [|now destruct N]. cbn [fst snd]. oks.
Qed.
Lemma ok_new_members : ok (new_members : M _).
Proof.
  unfold new_members. apply ok_mapM. intros ((k, x), p) _ s b s' C E. cbn [add_member] in E.
  apply bind_ret_inv in E as (a & s1 & E1 & E). destruct (ok_alloc _ _ _ _ C E1) as (S1 & C1 & _). apply alloc_inv in E1 as (-> & ->).
  apply bind_ret_inv in E as (u & s2 & E2 & E). apply modify_inv in E2. apply ret_inv in E as (-> & ->). subst s2. split; [|split; [exact C1|exact I]]. apply (steady_trans _ _ _ S1). apply steady_put.
  intros c0 Q. cbn in Q. rewrite nth_app_new in Q. injection Q as <-. apply same_payload_refl.
Qed.
Lemma ok_import_file p : ok (import_file cf R p).
Proof.
  unfold import_file. destruct (cf_file cf p) as [why|ss] eqn:F; [apply ok_raise|]. intros s u s' C E. cbv zeta in E.
  destruct ((ms <- new_members ;; modify (set_engine None None ms [] None) ;; iterM (r_stmt R) ss)%fl s) as [v t|t| | |] eqn:Q; try discriminate.
  - injection E as <- <-. assert (K : ok (ms <- new_members ;; modify (set_engine None None ms [] None) ;; iterM (r_stmt R) ss)%fl).
    { apply ok_bind; [apply ok_new_members|]. intros ms. apply ok_bind; [oks|]. intros _. apply ok_stmts. exact (Files p ss F). }
    destruct (K s v t C Q) as (S1 & C1 & _). split; [|split; [exact C1|exact I]]. destruct S1. split; cbn; auto.
  - destruct (raise_not_ret _ _ _ _ _ E).
Qed.
Lemma ok_do_import r p : ok (do_import cf R r p).
Proof. unfold do_import. cbv zeta. destruct (has_byte _ _); [apply ok_raise|]. apply ok_bind; [oks|]. intros. apply ok_import_file. Qed.
Lemma ok_returning : ok (returning : M _).
Proof. intros s b s' C E. unfold returning in E. destruct (cur_body s); [|injection E as <- <-; auto using steady_refl]. destruct (cur_rv s); [|injection E as <- <-; auto using steady_refl].
  apply bind_ret_inv in E as (x & s1 & E1 & E). apply ret_inv in E as (_ & ->). unfold read_body in E1. destruct (nth_error _ _) as [[y|]|]; try discriminate. injection E1 as <- <-. auto using steady_refl.
Qed.
Hint Resolve ok_returning ok_do_return ok_do_print ok_do_assert ok_do_assign ok_do_import : okdb.
Lemma ok_stmt x : calm_stmt x = true -> ok (stmt_ cf R x).
Proof.
  intro K. destruct x; cbn [stmt_]; cbn [calm_stmt] in K; try (apply ok_bind; [apply ok_returning|]; intros b; destruct b; [apply ok_ret|]); try (now apply (g_fun R G)); try (oks; fail).
  - apply ok_bind; [now apply (g_block R G)|]. oks.
  - apply andb_prop in K as (K1 & K2). oks.
  - apply ok_bind; [now apply (g_eval R G)|]. oks.
Qed.
End Step.

Theorem interp_steady : forall n, good (interp cf n).
Proof.
  induction n as [|n IH]; [constructor; cbn; intros; apply ok_nofuel|]. constructor; cbn [interp r_eval r_call r_block r_stmt r_fun]; intros.
  - now apply ok_eval.
  - now apply ok_call.
  - now apply ok_block.
  - now apply ok_stmt.
  - now apply ok_fun.
Qed.
Lemma exec_steady n ss s s' : no_element_assignment ss -> calm s -> exec cf n ss s = Ret tt s' -> steady s s' /\ calm s'.
Proof. intros K C E. destruct (ok_stmts _ (interp_steady n) ss K s tt s' C E) as (? & ? & _). auto. Qed.
Lemma create_calm dirs h t : create dirs h = Ret tt t -> calm t /\ host t = h.
Proof.
  intros Q. unfold create in Q. apply bind_ret_inv in Q as (ms & t1 & Q1 & Q). apply modify_inv in Q. subst t.
  assert (Cb : calm (blank dirs h)) by (intros i b X; destruct i; discriminate). destruct (ok_new_members _ _ _ Cb Q1) as (_ & C1 & _). split; [exact C1|]. cbn.
  change h with (host (blank dirs h)). revert Q1. generalize (blank dirs h). unfold new_members. generalize std_members. clear. intros l. revert ms t1.
  induction l as [|((k, x), p) l IH]; intros ms t1 s E; cbn [mapM] in E; [now apply ret_inv in E as (_ & ->)|].
  apply bind_ret_inv in E as (m & s1 & E1 & E). apply bind_ret_inv in E as (ms' & s2 & E2 & E). apply ret_inv in E as (_ & ->). rewrite (IH _ _ _ E2).
  cbn [add_member] in E1. apply bind_ret_inv in E1 as (a & s3 & E3 & E1). apply alloc_inv in E3 as (-> & ->). apply bind_ret_inv in E1 as (u & s4 & E4 & E1). apply modify_inv in E4. apply ret_inv in E1 as (_ & ->). now subst s4.
Qed.
Lemma run_calm n dirs h ss s : no_element_assignment ss -> run cf n dirs h ss = Ret tt s -> calm s.
Proof.
  intros K E. unfold run in E. destruct (create dirs h) as [[] t|t| | |] eqn:Q; try discriminate. destruct (create_calm _ _ _ Q) as (C & _).
  now apply exec_steady in E as (_ & ?).
Qed.
Lemma run_made n dirs ss s : no_element_assignment ss -> run cf n dirs fresh_bob ss = Ret tt s -> Forall (made s) (b_asked (host s)).
Proof.
  intros K E. unfold run in E. destruct (create dirs fresh_bob) as [[] t|t| | |] eqn:Q; try discriminate. destruct (create_calm _ _ _ Q) as (C & B).
  apply exec_steady in E as (S0 & _); auto. destruct (sd_asked _ _ S0) as (l & A & F). rewrite A, B. exact F.
Qed.
End Bobs.
End Named.

(** ** What steps are asked to do *)

(** Read in [s] and in [s'], both with a result: the same. *)
Definition agree {A} (s s' : st) (m : M A) : Prop := forall a t a' t', m s = Ret a t -> m s' = Ret a' t' -> t = s /\ t' = s' /\ a' = a.
Lemma agree_ret {A} s s' (a : A) : agree s s' (ret a).
Proof. intros x t x' t' E E'. apply ret_inv in E as (-> & ->). apply ret_inv in E' as (-> & ->). auto. Qed.
Lemma agree_bind {A B} s s' (m : M A) (k : A -> M B) : agree s s' m -> (forall a, agree s s' (k a)) -> agree s s' (mbind m k).
Proof.
  intros Km Kk b t b' t' E E'. apply bind_ret_inv in E as (a & s1 & E1 & E). apply bind_ret_inv in E' as (a' & s1' & E1' & E').
  destruct (Km _ _ _ _ E1 E1') as (-> & -> & ->). exact (Kk a _ _ _ _ E E').
Qed.
Lemma agree_undef {A} s s' u : agree s s' (undef u : M A).
Proof. intros x t x' t' E. discriminate. Qed.
Lemma agree_died {A} s s' : agree s s' (died : M A).
Proof. intros x t x' t' E. discriminate. Qed.
Lemma agree_mapM {A B} s s' (f : A -> M B) l : (forall x, agree s s' (f x)) -> agree s s' (mapM f l).
Proof. intro K. induction l; cbn [mapM]; [apply agree_ret|]. apply agree_bind; [apply K|]. intros y. apply agree_bind; [exact IHl|]. intros. apply agree_ret. Qed.
Section Agree.
Variables (named : bytes -> Prop) (s s' : st).
Hypothesis S0 : steady named s s'.
Lemma agree_read_buf b n : agree s s' (read_buf b n).
Proof.
  intros x t x' t' E E'. unfold read_buf in *. destruct (nth_error (bufs s) b) as [[c|]|] eqn:Q; try discriminate. destruct (sd_bufs _ _ _ S0 b _ Q) as (u & Q' & [-> | ->]); rewrite Q' in E'; [|discriminate].
  destruct (Nat.leb n (length c)); [|discriminate]. injection E as <- <-. injection E' as <- <-. auto.
Qed.
(** The payload of a cell, for a string or a vector. *)
Lemma agree_cell {A} a (k : FlState.payload -> M A) :
  (forall p, agree s s' (k p)) -> (forall c i d d', k (PInst c i d) = k (PInst c i d')) -> (forall f, k (PFn f) = k PNone) -> agree s s' (c <- get_cell a ;; k (c_val c)).
Proof.
  intros K L L' x t x' t' E E'. apply bind_ret_inv in E as (c & s1 & E1 & E). apply get_cell_inv in E1 as (-> & E1). apply bind_ret_inv in E' as (c' & s1' & E1' & E'). apply get_cell_inv in E1' as (-> & E1').
  destruct (sd_cells _ _ _ S0 _ _ E1) as (c2 & Q & P). assert (c2 = c') by congruence. subst c2. destruct P as [P|[(q & i & d & d' & P & P')|(P & f & P')]].
  - rewrite P in E'. exact (K _ _ _ _ _ E E').
  - rewrite P' in E'. rewrite P in E. rewrite (L q i d' d) in E'. exact (K _ _ _ _ _ E E').
  - rewrite P', L' in E'. destruct P as [P|(g & P)]; rewrite P, ?L' in E; exact (K _ _ _ _ _ E E').
Qed.
Lemma agree_text a : agree s s' (text a).
Proof.
  unfold text, str_at. apply agree_bind; [|intros [y|]; [apply agree_ret|apply agree_undef]].
  apply (agree_cell a (fun p => match p with PStr b n => t <- read_buf b n ;; ret (Some t) | _ => ret None end)); [|reflexivity|reflexivity].
  intros p. destruct p; try apply agree_ret. apply agree_bind; [apply agree_read_buf|]. intros. apply agree_ret.
Qed.
Lemma agree_elems a : agree s s' (elems a).
Proof. unfold elems. apply (agree_cell a (fun p => match p with PVec es => ret es | _ => undef UPun end)); [|reflexivity|reflexivity]. intros p. destruct p; try apply agree_undef. apply agree_ret. Qed.
Lemma agree_flags d : agree s s' (flags_at d).
Proof.
  destruct d as [d|]; [|apply agree_undef]. intros x t x' t' E E'. cbn [flags_at] in *. destruct (nth_error (b_states (host s)) d) as [[a|]|] eqn:Q; try discriminate.
  destruct (sd_states _ _ _ S0 d _ Q) as (u & Q' & [-> | ->]); rewrite Q' in E'; [|discriminate].
  assert (K : agree s s' (es <- elems a ;; mapM text es)) by (apply agree_bind; [apply agree_elems|intros; apply agree_mapM; apply agree_text]). exact (K _ _ _ _ E E').
Qed.
Lemma agree_items d : forall xs ys, agree s s' (items d xs ys).
Proof.
  induction xs as [|x xs IH]; intros [|y ys]; cbn [items]; try apply agree_ret; try apply agree_died.
  apply agree_bind; [apply agree_text|]. intros. apply agree_bind; [apply agree_text|]. intros. apply agree_bind; [apply agree_flags|]. intros. apply agree_bind; [apply IH|]. intros. apply agree_ret.
Qed.
Lemma agree_requested i x : agree s s' (requested i x).
Proof.
  destruct x as [d v r|k d v r]; cbn [requested].
  - apply agree_bind; [apply agree_elems|]. intros. apply agree_bind; [apply agree_elems|]. intros. apply agree_bind; [apply agree_items|]. intros. apply agree_ret.
  - apply agree_bind; [apply agree_text|]. intros. apply agree_bind; [apply agree_elems|]. intros. apply agree_bind; [apply agree_mapM; apply agree_text|]. intros. apply agree_bind; [apply agree_flags|]. intros. apply agree_ret.
Qed.
Lemma agree_requests_app : forall l i more rs t rs' t', requests i l s = Ret rs t -> requests i (l ++ more) s' = Ret rs' t' -> exists later, rs' = rs ++ later.
Proof.
  induction l as [|x l IH]; intros i more rs t rs' t' E E'; cbn [requests app] in *.
  - apply ret_inv in E as (-> & _). now exists rs'.
  - apply bind_ret_inv in E as (q & s1 & E1 & E). apply bind_ret_inv in E' as (q' & s1' & E1' & E'). destruct (agree_requested i x _ _ _ _ E1 E1') as (-> & -> & ->).
    apply bind_ret_inv in E as (qs & s2 & E2 & E). apply bind_ret_inv in E' as (qs' & s2' & E2' & E'). apply ret_inv in E as (-> & _). apply ret_inv in E' as (-> & _).
    destruct (IH _ _ _ _ _ _ E2 E2') as (later & ->). now exists later.
Qed.
End Agree.

(** The products are named after what they are made of. *)
Section Products.
Variables (named : bytes -> Prop) (s : st).
Lemma text_made a t s' : str_made named s a -> text a s = Ret t s' -> named t.
Proof.
  intros (c & b & n & u & Q & V & Qb & K) E. unfold text, str_at in E. apply bind_ret_inv in E as (x & s1 & E1 & E). apply bind_ret_inv in E1 as (c' & s2 & E2 & E1). apply get_cell_inv in E2 as (-> & E2).
  assert (c' = c) by congruence. subst c'. rewrite V in E1. apply bind_ret_inv in E1 as (y & s3 & E3 & E1). apply ret_inv in E1 as (-> & ->). apply ret_inv in E as (-> & _).
  unfold read_buf in E3. rewrite Qb in E3. destruct u as [w|]; [|discriminate]. destruct (Nat.leb n (length w)); [|discriminate]. injection E3 as <- _. now apply K.
Qed.
(** Reading changes nothing. *)
Lemma read_same {A} (m : M A) a s' : agree s s m -> m s = Ret a s' -> s' = s.
Proof. intros K E. now destruct (K _ _ _ _ E E) as (-> & _). Qed.
Let R : steady named s s := steady_refl named s.
Definition good_item (it : item) : Prop := exists y, it_out it = cstr y /\ named y.
Definition good_payload (p : Plan.payload) : Prop :=
  match p with PCompile its => Forall good_item its | PLink r => exists y, lk_out r = cstr y /\ named y end.
Lemma items_made d : forall xs ys its s', Forall (str_made named s) ys -> items d xs ys s = Ret its s' -> Forall good_item its.
Proof.
  induction xs as [|x xs IH]; intros [|y ys] its s' F E; cbn [items] in E; try discriminate; [apply ret_inv in E as (-> & _); constructor|].
  inversion F as [|? ? F1 F2]; subst. apply bind_ret_inv in E as (tx & s1 & E1 & E). apply (read_same _ _ _ (agree_text _ _ _ R x)) in E1 as ->.
  apply bind_ret_inv in E as (ty & s1 & E1 & E). pose proof (text_made _ _ _ F1 E1) as N. apply (read_same _ _ _ (agree_text _ _ _ R y)) in E1 as ->.
  apply bind_ret_inv in E as (fl & s1 & E1 & E). apply (read_same _ _ _ (agree_flags _ _ _ R d)) in E1 as ->.
  apply bind_ret_inv in E as (its' & s1 & E1 & E). apply ret_inv in E as (-> & _). constructor; [|exact (IH _ _ _ F2 E1)]. exists ty. auto.
Qed.
Lemma requested_made i x r s' : made named s x -> requested i x s = Ret r s' -> good_payload (rq_data r) /\ s' = s.
Proof.
  intros K E. split; [|exact (read_same _ _ _ (agree_requested _ _ _ R i x) E)]. destruct x as [d v o|k d v o]; cbn [requested made] in *.
  - destruct K as (c & os & Q & V & F). apply bind_ret_inv in E as (xs & s1 & E1 & E). apply (read_same _ _ _ (agree_elems _ _ _ R v)) in E1 as ->.
    apply bind_ret_inv in E as (ys & s1 & E1 & E).
    assert (ys = os /\ s1 = s) as (-> & ->).
    { unfold elems in E1. apply bind_ret_inv in E1 as (c' & s2 & E2 & E1). apply get_cell_inv in E2 as (-> & E2). assert (c' = c) by congruence. subst c'. rewrite V in E1. now apply ret_inv in E1 as (-> & ->). }
    apply bind_ret_inv in E as (its & s2 & E2 & E). apply ret_inv in E as (-> & _). exact (items_made _ _ _ _ _ F E2).
  - apply bind_ret_inv in E as (t & s1 & E1 & E). pose proof (text_made _ _ _ K E1) as N. apply (read_same _ _ _ (agree_text _ _ _ R o)) in E1 as ->.
    apply bind_ret_inv in E as (xs & s1 & E1 & E). apply bind_ret_inv in E as (ts & s2 & E2 & E). apply bind_ret_inv in E as (fl & s3 & E3 & E). apply ret_inv in E as (-> & _). cbn. eauto.
Qed.
Lemma requests_made : forall l i rs s', Forall (made named s) l -> requests i l s = Ret rs s' -> Forall (fun r => good_payload (rq_data r)) rs.
Proof.
  induction l as [|x l IH]; intros i rs s' F E; cbn [requests] in E; [apply ret_inv in E as (-> & _); constructor|]. inversion F as [|? ? F1 F2]; subst.
  apply bind_ret_inv in E as (r & s1 & E1 & E). destruct (requested_made _ _ _ _ F1 E1) as (G & ->). apply bind_ret_inv in E as (rs' & s1 & E2 & E). apply ret_inv in E as (-> & _).
  constructor; [exact G|]. exact (IH _ _ _ F2 E2).
Qed.
End Products.

Theorem products_named (named : bytes -> Prop) sg out listing pow exists_ files n dirs ss s rs t :
  (forall t x, gen_cookie sg out t (lit "o") = Ok x -> named x) -> (forall k ts, named (link_cookie sg out k ts)) ->
  (forall p ss, files p = File ss -> no_element_assignment ss) -> no_element_assignment ss ->
  run (bob_conf sg out listing pow exists_ files) n dirs fresh_bob ss = Ret tt s -> requests 0 (b_asked (host s)) s = Ret rs t ->
  Forall (fun r => good_payload named (rq_data r)) rs.
Proof.
  intros No Np F K E Q. refine (requests_made named s _ _ _ _ _ Q). exact (run_made named _ _ _ _ _ _ F No Np _ _ _ _ K E).
Qed.

Theorem settled sg out listing pow exists_ files n dirs ss1 ss2 s s' rs t rs' t' :
  (forall p ss, files p = File ss -> no_element_assignment ss) -> no_element_assignment ss1 -> no_element_assignment ss2 ->
  run (bob_conf sg out listing pow exists_ files) n dirs fresh_bob ss1 = Ret tt s -> exec (bob_conf sg out listing pow exists_ files) n ss2 s = Ret tt s' ->
  requests 0 (b_asked (host s)) s = Ret rs t -> requests 0 (b_asked (host s')) s' = Ret rs' t' ->
  exists later, rs' = rs ++ later.
Proof.
  intros F K1 K2 E1 E2 Q Q'. set (any := fun _ : bytes => True). assert (No : forall t x, gen_cookie sg out t (lit "o") = Ok x -> any x) by (intros; exact I). assert (Np : forall k ts, any (link_cookie sg out k ts)) by (intros; exact I).
  pose proof (run_calm any _ _ _ _ _ _ F No Np _ _ _ _ _ K1 E1) as C. destruct (exec_steady any _ _ _ _ _ _ F No Np _ _ _ _ K2 C E2) as (S0 & _).
  destruct (sd_asked _ _ _ S0) as (l & A & _). rewrite A in Q'. eapply agree_requests_app; eassumption.
Qed.
