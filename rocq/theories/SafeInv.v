(** * Reference counts: an invariant. *)

From Coq Require Import ZArith Arith Ascii String Lia Bool List.
From Verif Require Import Base FlAst FlState FlMonad SpecSettled SpecSafe Bob.
Import ListNotations.
Local Open Scope nat_scope.

(** ** Sums over lists with positions *)
Fixpoint sumi {A} (f : nat -> A -> nat) (k : nat) (l : list A) : nat := match l with [] => 0 | x :: l => f k x + sumi f (S k) l end.
Lemma sumi_upd {A} (f : nat -> A -> nat) y : forall l k i x, nth_error l i = Some x -> sumi f k (upd i y l) + f (k + i) x = sumi f k l + f (k + i) y.
Proof.
  induction l as [|z l IH]; intros k [|i] x Q; try discriminate; cbn [upd sumi].
  - injection Q as ->. rewrite Nat.add_0_r. lia.
  - specialize (IH (S k) i x Q). replace (k + S i) with (S k + i) by lia. lia.
Qed.
Lemma sumi_app {A} (f : nat -> A -> nat) m : forall l k, sumi f k (l ++ m) = sumi f k l + sumi f (k + length l) m.
Proof. induction l as [|z l IH]; intro k; cbn [app sumi length]; [now rewrite Nat.add_0_r|]. rewrite IH. replace (k + S (length l)) with (S k + length l) by lia. lia. Qed.
Lemma sumi_ext {A} (f g : nat -> A -> nat) : forall l k, (forall i x, nth_error l i = Some x -> f (k + i) x = g (k + i) x) -> sumi f k l = sumi g k l.
Proof.
  induction l as [|z l IH]; intros k K; cbn [sumi]; [reflexivity|]. pose proof (K 0 z eq_refl) as Q. rewrite Nat.add_0_r in Q. rewrite Q, (IH (S k)); [reflexivity|].
  intros i x E. replace (S k + i) with (k + S i) by lia. now apply K.
Qed.
Lemma sumi_in {A} (f : nat -> A -> nat) : forall l k i x, nth_error l i = Some x -> f (k + i) x <= sumi f k l.
Proof. induction l as [|z l IH]; intros k [|i] x Q; try discriminate; cbn [sumi]. - injection Q as ->. rewrite Nat.add_0_r. lia. - specialize (IH (S k) i x Q). replace (k + S i) with (S k + i) by lia. lia. Qed.
Lemma sumi_zero {A} (f : nat -> A -> nat) : forall l k, (forall i x, nth_error l i = Some x -> f (k + i) x = 0) -> sumi f k l = 0.
Proof. intros l k K. rewrite (sumi_ext f (fun _ _ => 0)) by exact K. clear K. revert k. induction l as [|x l IH]; intro k; cbn [sumi]; [reflexivity|]. now rewrite IH. Qed.
Lemma sumi_le {A} (f g : nat -> A -> nat) : forall l k, (forall i x, nth_error l i = Some x -> f (k + i) x <= g (k + i) x) -> sumi f k l <= sumi g k l.
Proof.
  induction l as [|z l IH]; intros k K; cbn [sumi]; [lia|]. pose proof (K 0 z eq_refl) as Q. rewrite Nat.add_0_r in Q. assert (sumi f (S k) l <= sumi g (S k) l); [|lia].
  apply IH. intros i x E. replace (S k + i) with (k + S i) by lia. now apply K.
Qed.
(** Sums of two different places. *)
Lemma sumi_plus {A} (f g : nat -> A -> nat) : forall l k, sumi (fun i x => f i x + g i x) k l = sumi f k l + sumi g k l.
Proof. induction l as [|z l IH]; intro k; cbn [sumi]; [reflexivity|]. rewrite IH. lia. Qed.

Lemma nth_lt_some {A} (l : list A) i x : nth_error l i = Some x -> i < length l.
Proof. intro Q. apply nth_error_Some. congruence. Qed.
Lemma nth_upd {A} (l : list A) i x j y : nth_error (upd i x l) j = Some y -> (i = j /\ y = x /\ j < length l) \/ (i <> j /\ nth_error l j = Some y).
Proof.
  intro Q. destruct (Nat.eq_dec i j) as [<-|N]; [|right; rewrite upd_other in Q by exact N; auto]. left. assert (L : i < length l) by (rewrite <- (upd_length x l i); apply nth_error_Some; congruence).
  rewrite upd_same in Q by exact L. injection Q as <-. auto.
Qed.
Lemma nth_snoc {A} (l : list A) x j y : nth_error (l ++ [x]) j = Some y -> (j < length l /\ nth_error l j = Some y) \/ (j = length l /\ y = x).
Proof.
  intro Q. destruct (Nat.lt_ge_cases j (length l)) as [L|L]; [left; rewrite nth_error_app1 in Q by exact L; auto|]. right. rewrite nth_error_app2 in Q by exact L.
  destruct (j - length l) as [|[|k]] eqn:D; cbn in Q; try discriminate. injection Q as <-. split; [lia|reflexivity].
Qed.
Lemma map_upd {A B} (f : A -> B) x : forall l i, map f (upd i x l) = upd i (f x) (map f l).
Proof. induction l as [|y l IH]; intros [|i]; cbn [upd map]; try reflexivity. now rewrite IH. Qed.
Lemma upd_id {A} (x : A) : forall l i, nth_error l i = Some x -> upd i x l = l.
Proof. induction l as [|y l IH]; intros [|i] Q; cbn [upd]; try discriminate; [now injection Q as ->|]. now rewrite IH. Qed.

(** ** What matters of a state *)
Record vw := Vw {
  w_cells : list (Z * payload);            (* count and value *)
  w_bufs : list (option bytes);
  w_bodies : list (option fbody);
  w_scopes : list (list var * bool);       (* variables; alive? *)
  w_body : option nat;
  w_mem : list addr;
  w_states : list (option addr);
}.
Definition cell_view (c : cell) : Z * payload := (c_cnt c, c_val c).
Definition scope_view (c : scope) : list var * bool := (sc_vars c, sc_alive c).
Definition view (s : st bob) : vw :=
  Vw (map cell_view (cells s)) (bufs s) (bodies s) (map scope_view (scopes s)) (cur_body s) (map snd (members s)) (b_states (host s)).

Definition w_set_cells x w := Vw x (w_bufs w) (w_bodies w) (w_scopes w) (w_body w) (w_mem w) (w_states w).
Definition w_set_bufs x w := Vw (w_cells w) x (w_bodies w) (w_scopes w) (w_body w) (w_mem w) (w_states w).
Definition w_set_bodies x w := Vw (w_cells w) (w_bufs w) x (w_scopes w) (w_body w) (w_mem w) (w_states w).
Definition w_set_scopes x w := Vw (w_cells w) (w_bufs w) (w_bodies w) x (w_body w) (w_mem w) (w_states w).
Definition w_set_engine b m w := Vw (w_cells w) (w_bufs w) (w_bodies w) (w_scopes w) b m (w_states w).
Definition w_set_states x w := Vw (w_cells w) (w_bufs w) (w_bodies w) (w_scopes w) (w_body w) (w_mem w) x.

(** A value that holds something that can be released. *)
Definition res (p : payload) : bool := match p with PStr _ _ | PInst _ _ _ => true | PFn f => match f_body f with Some _ => true | None => false end | _ => false end.
Definition share (p q : payload) : Prop :=
  match p, q with
  | PStr b _, PStr b' _ => b = b'
  | PFn f, PFn g => exists b, f_body f = Some b /\ f_body g = Some b
  | PInst _ i d, PInst _ i' d' => i = i' \/ exists x, d = Some x /\ d' = Some x
  | _, _ => False
  end.
Definition alive (w : vw) (p : payload) : Prop :=
  match p with
  | PStr b _ => exists t, nth_error (w_bufs w) b = Some (Some t)
  | PFn f => forall b, f_body f = Some b -> exists x, nth_error (w_bodies w) b = Some (Some x)
  | PInst _ i d => (exists vs, nth_error (w_scopes w) i = Some (vs, true)) /\ forall x, d = Some x -> exists y, nth_error (w_states w) x = Some (Some y)
  | _ => True
  end.
Definition bound (w : vw) (p : payload) : Prop :=
  match p with
  | PStr b _ => b < length (w_bufs w)
  | PFn f => (forall b, f_body f = Some b -> b < length (w_bodies w)) /\ (forall i, f_scope f = Some i -> i < length (w_scopes w))
  | PInst _ i d => i < length (w_scopes w) /\ forall x, d = Some x -> x < length (w_states w)
  | _ => True
  end.
Definition parts (p : payload) : list addr := match p with PVec es => es | PMap kvs => map fst kvs ++ map snd kvs | _ => [] end.
Definition inst (w : vw) (i : nat) : Prop := exists a n k d, nth_error (w_cells w) a = Some (n, PInst k i d).
Definition stat (w : vw) (i : nat) : Prop := exists a n f, nth_error (w_cells w) a = Some (n, PFn f) /\ f_scope f = Some i.

(** [P]: values one reference to which is never given up. [K]: scopes whose variables have references of their own (the others hold values that are
    in [P]). *)
Record gh := Gh { P : addr -> bool; K : nat -> bool }.
Definition pin (a : addr) (g : gh) : gh := Gh (fun b => Nat.eqb b a || P g b) (K g).
Definition pins (l : list addr) (g : gh) : gh := Gh (fun b => existsb (Nat.eqb b) l || P g b) (K g).
Definition set_K (i : nat) (b : bool) (g : gh) : gh := Gh (P g) (fun j => if Nat.eqb j i then b else K g j).

Definition has (a : addr) (v : var) : nat := match v_val v with Some b => if Nat.eqb b a then 1 else 0 | None => 0 end.
Definition in_vars (E : nat -> bool) (a : addr) (vs : list var) : nat := sumi (fun j v => if E j then 0 else has a v) 0 vs.
Definition in_scope (g : gh) (E : nat -> nat -> bool) (a : addr) (i : nat) (sc : list var * bool) : nat := if K g i && snd sc then in_vars (E i) a (fst sc) else 0.
Definition stored (g : gh) (E : nat -> nat -> bool) (w : vw) (a : addr) : nat := sumi (in_scope g E a) 0 (w_scopes w).
Definition count (L : list addr) (a : addr) : nat := count_occ Nat.eq_dec L a.
Definition bit (b : bool) : nat := if b then 1 else 0.
(** The references to [a]: those in [L], in variables (but those of [E]), and that of [P]. *)
Definition owed (g : gh) (E : nat -> nat -> bool) (L : list addr) (w : vw) (a : addr) : nat := count L a + stored g E w a + bit (P g a).

(** [E]: variables whose reference is being given up. [X]: values with a reference that stays for now. [Z]: data about to be released. *)
Record inv (g : gh) (E : nat -> nat -> bool) (X : list addr) (Z : list nat) (L : list addr) (w : vw) : Prop := Inv {
  v_tok : forall a, In a L -> a < length (w_cells w);
  v_held : forall a, In a X -> In a L;
  v_var : forall i vs al v a, nth_error (w_scopes w) i = Some (vs, al) -> In v vs -> v_val v = Some a -> a < length (w_cells w) /\ (K g i = false -> P g a = true);
  v_part : forall x n p a, nth_error (w_cells w) x = Some (n, p) -> In a (parts p) -> P g a = true;
  v_pin : forall a, P g a = true -> a < length (w_cells w);
  v_cnt : forall a n p, nth_error (w_cells w) a = Some (n, p) -> res p = true -> (Z.of_nat (owed g E L w a) <= n)%Z;
  v_share : forall a a' n n' p p', nth_error (w_cells w) a = Some (n, p) -> nth_error (w_cells w) a' = Some (n', p') -> a <> a' -> share p p' -> P g a = true;
  v_alive : forall a n p, nth_error (w_cells w) a = Some (n, p) -> res p = true -> (0 < n)%Z -> alive w p;
  v_bound : forall a n p, nth_error (w_cells w) a = Some (n, p) -> bound w p;
  v_free : forall i j a n k d, E i j = true -> nth_error (w_cells w) a = Some (n, PInst k i d) -> (n <= 0)%Z \/ In a X \/ P g a = true;
  v_open : forall i j, E i j = true -> exists vs, nth_error (w_scopes w) i = Some (vs, true);
  v_pend : forall d a n k i, In d Z -> nth_error (w_cells w) a = Some (n, PInst k i (Some d)) -> (n <= 0)%Z \/ In a X \/ P g a = true;
  v_pends : forall d, In d Z -> exists y, nth_error (w_states w) d = Some (Some y);
  v_inst : forall i, inst w i -> K g i = true;
  v_stat : forall i, stat w i -> K g i = true /\ ~ inst w i;
  v_dead : forall i vs, nth_error (w_scopes w) i = Some (vs, false) -> inst w i;
  v_body : forall b, w_body w = Some b -> exists a n f, P g a = true /\ nth_error (w_cells w) a = Some (n, PFn f) /\ f_body f = Some b;
  v_mem : forall a, In a (w_mem w) -> exists n f, nth_error (w_cells w) a = Some (n, PFn f);
  v_code : forall i b, nth_error (w_bodies w) i = Some (Some b) -> still_body b = true;
}.
Definition none (i j : nat) : bool := false.
Definition ok (g : gh) (L : list addr) (w : vw) : Prop := inv g none [] [] L w.

Lemma share_sym p q : share p q -> share q p.
Proof. destruct p, q; cbn; try tauto. - intros ->. reflexivity. - intros (b & A & B). eauto. - intros [->|(x & A & B)]; [now left|right; eauto]. Qed.
Lemma share_res p q : share p q -> res p = true /\ res q = true.
Proof. destruct p, q; cbn; try tauto. intros (b & A & B). rewrite A, B. auto. Qed.

(** ** Steps that don't touch counts *)
Lemma inv_weak g E X Z L L' w : inv g E X Z L w -> (forall a, count L' a <= count L a) -> (forall a, In a X -> In a L') -> inv g E X Z L' w.
Proof.
  intros [] C H. split; auto.
  - intros a I. apply v_tok0. apply (count_occ_In Nat.eq_dec). apply (count_occ_In Nat.eq_dec) in I. specialize (C a). unfold count in C. lia.
  - intros a n p Q R. specialize (v_cnt0 a n p Q R). specialize (C a). unfold owed in *. lia.
Qed.
Lemma ok_weak g L L' w : ok g L w -> (forall a, count L' a <= count L a) -> ok g L' w.
Proof. intros I C. eapply inv_weak; [exact I|exact C|contradiction]. Qed.
Lemma count_cons a b L : count (a :: L) b = bit (Nat.eqb b a) + count L b.
Proof. unfold count, bit. cbn [count_occ]. destruct (Nat.eq_dec a b) as [->|N]; [now rewrite Nat.eqb_refl|]. destruct (Nat.eqb_spec b a); [congruence|reflexivity]. Qed.
Lemma count_app L M b : count (L ++ M) b = count L b + count M b.
Proof. apply count_occ_app. Qed.
Lemma count_none L a : ~ In a L -> count L a = 0.
Proof. apply count_occ_not_In. Qed.
Lemma count_in L a : In a L -> 1 <= count L a.
Proof. intro I. apply (count_occ_In Nat.eq_dec) in I. unfold count. lia. Qed.
Lemma ok_drop g a L w : ok g (a :: L) w -> ok g L w.
Proof. intro I. eapply ok_weak; [exact I|]. intro b. rewrite count_cons. lia. Qed.
Lemma ok_drops g M L w : ok g (M ++ L) w -> ok g L w.
Proof. intro I. eapply ok_weak; [exact I|]. intro b. rewrite count_app. lia. Qed.

Lemma stored_K g g' E w a : (forall i, i < length (w_scopes w) -> K g' i = K g i) -> stored g' E w a = stored g E w a.
Proof. intro Q. unfold stored. apply sumi_ext. intros i x N. unfold in_scope. rewrite Q by exact (nth_lt_some _ _ _ N). reflexivity. Qed.
(** A reference never given up. *)
Lemma ok_pin g a L w : ok g (a :: L) w -> ok (pin a g) L w.
Proof.
  intro I. pose proof (v_tok _ _ _ _ _ _ I a (or_introl eq_refl)) as Va. destruct (ok_drop _ _ _ _ I) as []. destruct I as [w1 _ _ _ _ w6 _ _ _ _ _ _ _ _ _ _ _].
  assert (Mono : forall b, P g b = true -> P (pin a g) b = true) by (intros b Q; cbn; rewrite Q; apply orb_true_r).
  split; auto.
  - intros i vs al v b N J V. destruct (v_var0 i vs al v b N J V). split; [assumption|]. cbn. intro. rewrite H0; [apply orb_true_r|assumption].
  - intros x n p b N J. apply Mono. eauto.
  - intros b Q. cbn in Q. apply orb_prop in Q as [Q|Q]; [|auto]. apply Nat.eqb_eq in Q. now subst b.
  - intros b n p N R. specialize (w6 b n p N R). unfold owed in *. rewrite (stored_K g (pin a g)) by reflexivity. rewrite count_cons in w6. cbn [P pin]. destruct (Nat.eqb b a), (P g b); cbn [bit orb] in *; lia.
  - intros b b' n n' p p' N N' D S. apply Mono. eauto.
  - intros i j b n k d Q. discriminate.
  - intros b Q. destruct (v_body0 b Q) as (x & n & f & Px & N & F). exists x, n, f. auto.
Qed.
Lemma pins_cons x l g b : P (pins (x :: l) g) b = P (pins l (pin x g)) b.
Proof. cbn. destruct (Nat.eqb b x), (existsb (Nat.eqb b) l), (P g b); reflexivity. Qed.
Lemma inv_gh g g' E X Z L w : (forall a, P g' a = P g a) -> (forall i, K g' i = K g i) -> inv g E X Z L w -> inv g' E X Z L w.
Proof.
  intros QP QK []. assert (S : forall a, stored g' E w a = stored g E w a) by (intro; apply stored_K; auto). split; auto; intros.
  - rewrite QK, QP. eauto.
  - rewrite QP. eauto.
  - rewrite QP in H. eauto.
  - unfold owed. rewrite S, QP. eauto.
  - rewrite QP. eauto.
  - rewrite QP. eauto.
  - rewrite QP. eauto.
  - rewrite QK. eauto.
  - rewrite QK. eauto.
  - destruct (v_body0 b H) as (a & n & f & Pa & R). exists a, n, f. rewrite QP. auto.
Qed.
Lemma ok_pins l : forall g L w, ok g (l ++ L) w -> ok (pins l g) L w.
Proof.
  induction l as [|x l IH]; intros g L w I; [eapply inv_gh; [| |exact I]; reflexivity|].
  apply inv_gh with (g := pins l (pin x g)); [intro; apply pins_cons|reflexivity|]. apply IH. now apply ok_pin.
Qed.
Lemma inv_tok g E X Z L w a n p : inv g E X Z L w -> nth_error (w_cells w) a = Some (n, p) -> res p = true -> (In a L \/ P g a = true) -> (0 < n)%Z /\ alive w p.
Proof.
  intros I N R H. pose proof (v_cnt _ _ _ _ _ _ I a n p N R) as C. assert (G : (0 < n)%Z).
  { unfold owed in C. destruct H as [H|H]; [apply count_in in H; lia|]. rewrite H in C. cbn [bit] in C. lia. }
  split; [exact G|]. exact (v_alive _ _ _ _ _ _ I a n p N R G).
Qed.

(** ** New things *)
Lemma ok_bufs g L w x : ok g L w -> ok g L (w_set_bufs (w_bufs w ++ [x]) w).
Proof.
  intros []. split; auto; cbn.
  - intros a n p N R G. specialize (v_alive0 a n p N R G). destruct p; cbn in *; auto. destruct v_alive0 as (t & Q). exists t. now apply nth_app_l.
  - intros a n p N. specialize (v_bound0 a n p N). destruct p; cbn in *; auto. rewrite app_length. lia.
Qed.
Lemma ok_bodies g L w x : still_body x = true -> ok g L w -> ok g L (w_set_bodies (w_bodies w ++ [Some x]) w).
Proof.
  intros St []. split; auto; cbn.
  - intros a n p N R G. specialize (v_alive0 a n p N R G). destruct p; cbn in *; auto. intros b Q. destruct (v_alive0 b Q) as (t & J). exists t. now apply nth_app_l.
  - intros a n p N. specialize (v_bound0 a n p N). destruct p; cbn in *; auto. destruct v_bound0 as (A & B). split; [|exact B]. intros b Q. rewrite app_length. specialize (A b Q). lia.
  - intros i b N. apply nth_snoc in N as [(_ & N)|(_ & N)]; [eauto|]. now injection N as ->.
Qed.
Lemma ok_states g L w x : ok g L w -> ok g L (w_set_states (w_states w ++ [x]) w).
Proof.
  intros []. split; auto; cbn.
  - intros a n p N R G. specialize (v_alive0 a n p N R G). destruct p; cbn in *; auto. destruct v_alive0 as (A & B). split; [exact A|]. intros y Q. destruct (B y Q) as (t & J). exists t. now apply nth_app_l.
  - intros a n p N. specialize (v_bound0 a n p N). destruct p; cbn in *; auto. destruct v_bound0 as (A & B). split; [exact A|]. intros b Q. rewrite app_length. specialize (B b Q). lia.
  - contradiction.
Qed.
Lemma stored_app g E w x a : stored g E (w_set_scopes (w_scopes w ++ [x]) w) a = stored g E w a + in_scope g E a (length (w_scopes w)) x.
Proof. unfold stored. cbn. rewrite sumi_app. cbn. lia. Qed.
Lemma ok_scope g L w b : ok g L w -> ok (set_K (length (w_scopes w)) b g) L (w_set_scopes (w_scopes w ++ [([], true)]) w).
Proof.
  intros []. set (g' := set_K (length (w_scopes w)) b g).
  assert (QK : forall i, i < length (w_scopes w) -> K g' i = K g i) by (intros i L0; cbn; destruct (Nat.eqb_spec i (length (w_scopes w))); [lia|reflexivity]).
  assert (Bi : forall i, inst w i -> i < length (w_scopes w)) by (intros i (a & n & k & d & N); exact (proj1 (v_bound0 a n _ N))).
  assert (Bs : forall i, stat w i -> i < length (w_scopes w)) by (intros i (a & n & f & N & F); exact (proj2 (v_bound0 a n _ N) i F)).
  split; auto; cbn [w_set_scopes w_cells w_scopes w_bufs w_bodies w_states w_body w_mem].
  - intros i vs al v a N J V. apply nth_snoc in N as [(Li & N)|(_ & N)]; [rewrite QK by exact Li; eauto|]. injection N as -> ->. contradiction.
  - intros a n p N R. specialize (v_cnt0 a n p N R). unfold owed in *. rewrite stored_app. rewrite (stored_K g g') by exact QK. unfold in_scope. cbn [fst snd]. unfold in_vars. cbn [sumi]. destruct (K g' (length (w_scopes w)) && true); unfold g'; cbn [P set_K]; lia.
  - intros a n p N R G. specialize (v_alive0 a n p N R G). destruct p; cbn in *; auto. destruct v_alive0 as ((vs & A) & B). split; [|exact B]. exists vs. now apply nth_app_l.
  - intros a n p N. specialize (v_bound0 a n p N). destruct p; cbn in *; auto; destruct v_bound0 as (A & B); split; auto; rewrite app_length; [intros i Q; specialize (B i Q); lia|lia].
  - intros i j Q. discriminate.
  - intros i J. rewrite QK by auto. auto.
  - intros i J. rewrite QK by auto. exact (v_stat0 i J).
  - intros i vs N. apply nth_snoc in N as [(_ & N)|(_ & N)]; [exact (v_dead0 _ _ N)|discriminate].
Qed.

(** A new value with one reference. *)
Lemma inst_app w c i : inst (w_set_cells (w_cells w ++ [c]) w) i -> inst w i \/ exists k d, snd c = PInst k i d.
Proof. intros (a & n & k & d & N). cbn in N. apply nth_snoc in N as [(_ & N)|(_ & <-)]; [left; now exists a, n, k, d|right; cbn; eauto]. Qed.
Lemma inst_more w c i : inst w i -> inst (w_set_cells (w_cells w ++ [c]) w) i.
Proof. intros (a & n & k & d & N). exists a, n, k, d. cbn. now apply nth_app_l. Qed.
Lemma stat_app w c i : stat (w_set_cells (w_cells w ++ [c]) w) i -> stat w i \/ exists f, snd c = PFn f /\ f_scope f = Some i.
Proof. intros (a & n & f & N & Q). cbn in N. apply nth_snoc in N as [(_ & N)|(_ & <-)]; [left; now exists a, n, f|right; cbn; eauto]. Qed.
Lemma stored_cells g E w c a : stored g E (w_set_cells c w) a = stored g E w a.
Proof. reflexivity. Qed.
Lemma stored_new g E L w : inv g E [] [] L w -> stored g E w (length (w_cells w)) = 0.
Proof.
  intros I. unfold stored. apply sumi_zero. intros i (vs, al) N. unfold in_scope, in_vars. cbn [fst snd]. destruct (K g (0 + i) && al); [|reflexivity]. apply sumi_zero. intros j v Nv. destruct (E (0 + i) (0 + j)); [reflexivity|].
  unfold has. destruct (v_val v) as [b|] eqn:V; [|reflexivity]. destruct (Nat.eqb_spec b (length (w_cells w))); [|reflexivity]. subst b.
  destruct (v_var _ _ _ _ _ _ I i vs al v _ N (nth_error_In _ _ Nv) V). lia.
Qed.
Definition fresh_for (w : vw) (p : payload) : Prop :=
  bound w p /\ (res p = true -> alive w p) /\ (forall a n q, nth_error (w_cells w) a = Some (n, q) -> ~ share p q).
Lemma ok_alloc g L w p :
  ok g L w -> fresh_for w p -> (forall a, In a (parts p) -> P g a = true) ->
  (forall k i d, p = PInst k i d -> K g i = true /\ ~ stat w i) -> (forall f i, p = PFn f -> f_scope f = Some i -> K g i = true /\ ~ inst w i) ->
  ok g (length (w_cells w) :: L) (w_set_cells (w_cells w ++ [(1%Z, p)]) w).
Proof.
  intros I (Bd & Al & Sh) Pa Pi Ps. pose proof (stored_new _ _ _ _ I) as S0. destruct I. set (a0 := length (w_cells w)) in *.
  assert (Len : length (w_cells w ++ [(1%Z, p)]) = S a0) by (rewrite app_length; cbn; unfold a0; lia).
  assert (P0 : P g a0 = false) by (destruct (P g a0) eqn:Q; [apply v_pin0 in Q; unfold a0 in Q; lia|reflexivity]).
  assert (C0 : count L a0 = 0) by (apply count_none; intro J; apply v_tok0 in J; unfold a0 in J; lia).
  assert (Alv : forall q, alive w q -> alive (w_set_cells (w_cells w ++ [(1%Z, p)]) w) q) by (intros q; destruct q; cbn; auto).
  split; cbn [w_set_cells w_cells w_scopes w_bufs w_bodies w_states w_body w_mem]; auto.
  - intros a [<-|J]; rewrite Len; [lia|]. apply v_tok0 in J. fold a0 in J. lia.
  - intros a [].
  - intros i vs al v a N J V. destruct (v_var0 i vs al v a N J V). rewrite Len. fold a0 in H. split; [lia|assumption].
  - intros x n q a N J. apply nth_snoc in N as [(_ & N)|(_ & N)]; [eauto|]. injection N as -> ->. auto.
  - intros a Q. rewrite Len. apply v_pin0 in Q. fold a0 in Q. lia.
  - intros a n q N R. unfold owed. rewrite stored_cells, count_cons. apply nth_snoc in N as [(La & N)|(-> & N)].
    + fold a0 in La. destruct (Nat.eqb_spec a a0); [lia|]. exact (v_cnt0 a n q N R).
    + fold a0. injection N as -> ->. rewrite Nat.eqb_refl, C0, S0, P0. cbn. lia.
  - intros a a' n n' q q' N N' D S. apply nth_snoc in N as [(La & N)|(-> & N)]; apply nth_snoc in N' as [(La' & N')|(-> & N')]; try lia.
    + eauto.
    + injection N' as -> ->. destruct (Sh _ _ _ N (share_sym _ _ S)).
    + injection N as -> ->. destruct (Sh _ _ _ N' S).
  - intros a n q N R G. apply nth_snoc in N as [(_ & N)|(_ & N)]; [eauto|]. injection N as -> ->. auto.
  - intros a n q N. assert (B : bound w q) by (apply nth_snoc in N as [(_ & N)|(_ & N)]; [eauto|injection N as -> ->; exact Bd]). destruct q; exact B.
  - intros i j a n k d Q. discriminate.
  - intros i J. apply inst_app in J as [J|(k & d & Q)]; [auto|]. cbn in Q. now apply (Pi k i d).
  - intros i J. split.
    + apply stat_app in J as [J|(f & Q & F)]; [now apply v_stat0|]. now apply (Ps f i).
    + intros J'. apply stat_app in J as [J|(f & Q & F)]; apply inst_app in J' as [J'|(k & d & Q')].
      * now apply (v_stat0 i).
      * cbn in Q'. now apply (Pi k i d).
      * cbn in Q. now apply (Ps f i).
      * cbn in *. congruence.
  - intros i vs N. apply inst_more. eauto.
  - intros b Q. destruct (v_body0 b Q) as (x & n & f & Px & N & F). exists x, n, f. split; [exact Px|]. split; [now apply nth_app_l|exact F].
  - intros a J. destruct (v_mem0 a J) as (n & f & N). exists n, f. now apply nth_app_l.
Qed.
Lemma nth_mid {A} (l : list A) i x y : nth_error l i = Some x -> nth_error (upd i y l) i = Some y.
Proof. intro Q. apply upd_same. exact (nth_lt_some _ _ _ Q). Qed.

(** A second value that shares what the first one holds. *)
Lemma ok_dup g L w x n p :
  ok g L w -> nth_error (w_cells w) x = Some (n, p) -> P g x = true -> ok (pin (length (w_cells w)) g) L (w_set_cells (w_cells w ++ [(1%Z, p)]) w).
Proof.
  intros I Nx Px. pose proof (stored_new _ _ _ _ I) as S0. destruct I. set (a0 := length (w_cells w)) in *.
  assert (Len : length (w_cells w ++ [(1%Z, p)]) = S a0) by (rewrite app_length; cbn; unfold a0; lia).
  assert (C0 : count L a0 = 0) by (apply count_none; intro J; apply v_tok0 in J; unfold a0 in J; lia).
  assert (P0 : P g a0 = false) by (destruct (P g a0) eqn:Q; [apply v_pin0 in Q; unfold a0 in Q; lia|reflexivity]).
  assert (Mono : forall b, P g b = true -> P (pin a0 g) b = true) by (intros b Q; cbn; rewrite Q; apply orb_true_r).
  assert (Pn : P (pin a0 g) a0 = true) by (cbn; now rewrite Nat.eqb_refl).
  assert (Inst : forall i, inst (w_set_cells (w_cells w ++ [(1%Z, p)]) w) i -> inst w i).
  { intros i J. apply inst_app in J as [J|(k & d & Q)]; [exact J|]. cbn in Q. subst p. now exists x, n, k, d. }
  assert (Stat : forall i, stat (w_set_cells (w_cells w ++ [(1%Z, p)]) w) i -> stat w i).
  { intros i J. apply stat_app in J as [J|(f & Q & F)]; [exact J|]. cbn in Q. subst p. now exists x, n, f. }
  split; cbn [w_set_cells w_cells w_scopes w_bufs w_bodies w_states w_body w_mem]; auto.
  - intros a J. rewrite Len. apply v_tok0 in J. fold a0 in J. lia.
  - intros i vs al v a N J V. destruct (v_var0 i vs al v a N J V). rewrite Len. fold a0 in H. split; [lia|]. auto.
  - intros y m q a N J. apply Mono. apply nth_snoc in N as [(_ & N)|(_ & N)]; [eauto|]. injection N as -> ->. eauto.
  - intros a Q. rewrite Len. cbn in Q. apply orb_prop in Q as [Q|Q]; [apply Nat.eqb_eq in Q; lia|]. apply v_pin0 in Q. fold a0 in Q. lia.
  - intros a m q N R. unfold owed. rewrite stored_cells, (stored_K g (pin a0 g)) by reflexivity. apply nth_snoc in N as [(La & N)|(-> & N)].
    + fold a0 in La. cbn [P pin]. destruct (Nat.eqb_spec a a0); [lia|]. exact (v_cnt0 a m q N R).
    + fold a0. injection N as -> ->. rewrite C0, S0. cbn [P pin]. rewrite Nat.eqb_refl. cbn. lia.
  - intros a a' m m' q q' N N' D S. apply nth_snoc in N as [(La & N)|(-> & N)]; apply nth_snoc in N' as [(La' & N')|(-> & N')]; try lia; try exact Pn.
    + apply Mono. eauto.
    + injection N' as -> ->. apply Mono. destruct (Nat.eq_dec a x) as [->|Dx]; [exact Px|]. exact (v_share0 a x _ _ _ _ N Nx Dx S).
  - intros a m q N R G. assert (A : alive w q).
    { apply nth_snoc in N as [(_ & N)|(_ & N)]; [eauto|]. injection N as -> ->. apply (v_alive0 x n p Nx R). specialize (v_cnt0 x n p Nx R). unfold owed in v_cnt0. rewrite Px in v_cnt0. cbn [bit] in v_cnt0. lia. }
    destruct q; exact A.
  - intros a m q N. assert (B : bound w q) by (apply nth_snoc in N as [(_ & N)|(_ & N)]; [eauto|injection N as -> ->; eauto]). destruct q; exact B.
  - intros i j a m k d Q. discriminate.
  - intros i J. change (K g i = true). apply v_inst0. now apply Inst.
  - intros i J. apply Stat in J. destruct (v_stat0 i J). split; [assumption|]. intro J'. auto.
  - intros i vs N. apply inst_more. eauto.
  - intros b Q. destruct (v_body0 b Q) as (y & m & f & Py & N & F). exists y, m, f. split; [auto|]. split; [now apply nth_app_l|exact F].
  - intros a J. destruct (v_mem0 a J) as (m & f & N). exists m, f. now apply nth_app_l.
Qed.

(** ** Counts *)
Lemma inv_recount g E X Z L L' w a n p n' :
  inv g E X Z L w -> nth_error (w_cells w) a = Some (n, p) -> (forall b, b <> a -> count L' b = count L b) ->
  (forall b, In b X -> In b L') ->
  (res p = true -> (Z.of_nat (owed g E L' w a) <= n')%Z) -> (res p = true -> (0 < n')%Z -> alive w p) ->
  (res p = true -> (n' <= n)%Z \/ (forall i j, E i j = false) /\ Z = []) ->
  inv g E X Z L' (w_set_cells (upd a (n', p) (w_cells w)) w).
Proof.
  intros I Na Cb HX Cn Al Le. destruct I.
  assert (Cell : forall b m q, nth_error (upd a (n', p) (w_cells w)) b = Some (m, q) -> (b = a /\ m = n' /\ q = p) \/ (b <> a /\ nth_error (w_cells w) b = Some (m, q))).
  { intros b m q N. apply nth_upd in N as [(<- & Q & _)|(D & N)]; [injection Q as -> ->; auto|auto]. }
  assert (Same : forall b m q, nth_error (upd a (n', p) (w_cells w)) b = Some (m, q) -> exists m', nth_error (w_cells w) b = Some (m', q)).
  { intros b m q N. apply Cell in N as [(-> & _ & ->)|(_ & N)]; eauto. }
  assert (Back : forall b m q, nth_error (w_cells w) b = Some (m, q) -> exists m', nth_error (upd a (n', p) (w_cells w)) b = Some (m', q)).
  { intros b m q N. destruct (Nat.eq_dec a b) as [<-|D]; [rewrite Na in N; injection N as <- <-; exists n'; exact (nth_mid _ _ _ _ Na)|exists m; now rewrite upd_other]. }
  assert (Inst : forall i, inst (w_set_cells (upd a (n', p) (w_cells w)) w) i <-> inst w i).
  { intro i. split; intros (b & m & k & d & N); [destruct (Same _ _ _ N) as (m' & N')|destruct (Back _ _ _ N) as (m' & N')]; now exists b, m', k, d. }
  assert (Stat : forall i, stat (w_set_cells (upd a (n', p) (w_cells w)) w) i <-> stat w i).
  { intro i. split; intros (b & m & f & N & F); [destruct (Same _ _ _ N) as (m' & N')|destruct (Back _ _ _ N) as (m' & N')]; now exists b, m', f. }
  split; cbn [w_set_cells w_cells w_scopes w_bufs w_bodies w_states w_body w_mem]; try rewrite upd_length; auto.
  - intros b J. destruct (Nat.eq_dec b a) as [->|D]; [exact (nth_lt_some _ _ _ Na)|]. apply v_tok0. apply (count_occ_In Nat.eq_dec). apply (count_occ_In Nat.eq_dec) in J. specialize (Cb b D). unfold count in Cb. lia.
  - intros y m q b N J. destruct (Same _ _ _ N) as (m' & N'). eauto.
  - intros b m q N R. apply Cell in N as [(-> & -> & ->)|(D & N)]; [exact (Cn R)|]. specialize (v_cnt0 b m q N R). unfold owed in *. rewrite stored_cells, Cb by exact D. exact v_cnt0.
  - intros b b' m m' q q' N N' D S. destruct (Same _ _ _ N) as (k & K1). destruct (Same _ _ _ N') as (k' & K2). eauto.
  - intros b m q N R G. assert (A : alive w q) by (apply Cell in N as [(-> & -> & ->)|(D & N)]; eauto). destruct q; exact A.
  - intros b m q N. destruct (Same _ _ _ N) as (m' & N'). specialize (v_bound0 b m' q N'). destruct q; exact v_bound0.
  - intros i j b m k d Q N. apply Cell in N as [(-> & -> & EP)|(D & N)]; [|eauto]. subst p. destruct (Le eq_refl) as [Le'|(No & _)]; [|rewrite No in Q; discriminate]. destruct (v_free0 i j a n k d Q Na) as [B|B]; [left; lia|now right].
  - intros d b m k i J N. apply Cell in N as [(-> & -> & EP)|(D & N)]; [|eauto]. subst p. destruct (Le eq_refl) as [Le'|(_ & ->)]; [|contradiction]. destruct (v_pend0 d a n k i J Na) as [B|B]; [left; lia|now right].
  - intros i J. apply v_inst0. now apply Inst.
  - intros i J. apply Stat in J. destruct (v_stat0 i J). split; [assumption|]. intro J'. now apply H0, Inst.
  - intros i vs N. apply Inst. eauto.
  - intros b Q. destruct (v_body0 b Q) as (y & m & f & Py & N & F). destruct (Back _ _ _ N) as (m' & N'). exists y, m', f. auto.
  - intros b J. destruct (v_mem0 b J) as (m & f & N). destruct (Back _ _ _ N) as (m' & N'). eauto.
Qed.
Lemma ok_incref g L w a n p : ok g L w -> nth_error (w_cells w) a = Some (n, p) -> (0 < n)%Z -> ok g (a :: L) (w_set_cells (upd a ((n + 1)%Z, p) (w_cells w)) w).
Proof.
  intros I N G. eapply inv_recount; [exact I|exact N| |contradiction| | |].
  - intros b D. rewrite count_cons. destruct (Nat.eqb_spec b a); [contradiction|reflexivity].
  - intro R. pose proof (v_cnt _ _ _ _ _ _ I a n p N R) as C. unfold owed in *. rewrite count_cons, Nat.eqb_refl. cbn [bit]. lia.
  - intros R _. exact (v_alive _ _ _ _ _ _ I a n p N R G).
  - intros _. right. split; reflexivity.
Qed.

(** ** Variables *)
Lemma stored_upd g E w i sc sc' a : nth_error (w_scopes w) i = Some sc -> stored g E (w_set_scopes (upd i sc' (w_scopes w)) w) a + in_scope g E a i sc = stored g E w a + in_scope g E a i sc'.
Proof. intro N. unfold stored. cbn [w_set_scopes w_scopes]. exact (sumi_upd (in_scope g E a) sc' _ 0 i sc N). Qed.
Lemma stored_E g E E' w a i sc : nth_error (w_scopes w) i = Some sc -> (forall i' j, i' <> i -> E' i' j = E i' j) -> stored g E' w a + in_scope g E a i sc = stored g E w a + in_scope g E' a i sc.
Proof.
  intros N Q. unfold stored. assert (G : forall l k i, nth_error l i = Some sc -> (forall i' x, i' <> i -> nth_error l i' = Some x -> in_scope g E' a (k + i') x = in_scope g E a (k + i') x) -> sumi (in_scope g E' a) k l + in_scope g E a (k + i) sc = sumi (in_scope g E a) k l + in_scope g E' a (k + i) sc).
  { induction l as [|x l IH]; intros k [|m] Nm D; try discriminate; cbn [sumi].
    - injection Nm as ->. rewrite Nat.add_0_r. rewrite (sumi_ext (in_scope g E' a) (in_scope g E a) l (S k)); [lia|]. intros i' y Ny. replace (S k + i') with (k + S i') by lia. now apply D.
    - pose proof (D 0 x ltac:(lia) eq_refl) as D0. rewrite Nat.add_0_r in D0. rewrite D0. replace (k + S m) with (S k + m) by lia.
      assert (H := IH (S k) m Nm). enough (sumi (in_scope g E' a) (S k) l + in_scope g E a (S k + m) sc = sumi (in_scope g E a) (S k) l + in_scope g E' a (S k + m) sc) by lia. apply H.
      intros i' y Di Ny. replace (S k + i') with (k + S i') by lia. apply D; [lia|exact Ny]. }
  apply (G _ 0 i N). intros i' (vs, al) D _. unfold in_scope. cbn [fst snd]. destruct (K g (0 + i') && al); [|reflexivity]. unfold in_vars. apply sumi_ext. intros j v _. cbn [Nat.add]. now rewrite Q.
Qed.
Lemma in_vars_upd E a vs j v v' : nth_error vs j = Some v -> in_vars E a (upd j v' vs) + (if E j then 0 else has a v) = in_vars E a vs + (if E j then 0 else has a v').
Proof. intro N. unfold in_vars. exact (sumi_upd (fun j v => if E j then 0 else has a v) v' vs 0 j v N). Qed.
Lemma inst_scopes w x i : inst (w_set_scopes x w) i <-> inst w i. Proof. reflexivity. Qed.

Lemma inv_vars g E E' X Z L L' w i vs vs' :
  inv g E X Z L w -> nth_error (w_scopes w) i = Some (vs, true) ->
  (forall v a, In v vs' -> v_val v = Some a -> a < length (w_cells w) /\ (K g i = false -> P g a = true)) ->
  (forall a, count L' a + in_scope g E' a i (vs', true) <= count L a + in_scope g E a i (vs, true)) ->
  (forall i' j, i' <> i -> E' i' j = E i' j) -> (forall i' j, E' i' j = true -> E i' j = true) ->
  (forall a, In a X -> In a L') -> (forall a, In a L' -> a < length (w_cells w)) ->
  inv g E' X Z L' (w_set_scopes (upd i (vs', true) (w_scopes w)) w).
Proof.
  intros I Ni Vals Cn Eo Es HX HL. destruct I.
  assert (Sc : forall i' vs0 al, nth_error (upd i (vs', true) (w_scopes w)) i' = Some (vs0, al) -> (i' = i /\ vs0 = vs' /\ al = true) \/ (i' <> i /\ nth_error (w_scopes w) i' = Some (vs0, al))).
  { intros i' vs0 al N. apply nth_upd in N as [(<- & Q & _)|(D & N)]; [injection Q as -> ->; auto|auto]. }
  assert (Al : forall i' vs0, nth_error (w_scopes w) i' = Some (vs0, true) -> exists vs1, nth_error (upd i (vs', true) (w_scopes w)) i' = Some (vs1, true)).
  { intros i' vs0 N. destruct (Nat.eq_dec i i') as [<-|D]; [exists vs'; exact (nth_mid _ _ _ _ Ni)|exists vs0; now rewrite upd_other]. }
  split; cbn [w_set_scopes w_cells w_scopes w_bufs w_bodies w_states w_body w_mem]; auto.
  - intros i' vs0 al v a N J V. apply Sc in N as [(-> & -> & ->)|(D & N)]; eauto.
  - intros a n p N R. specialize (v_cnt0 a n p N R). unfold owed in *. pose proof (stored_upd g E' w i (vs, true) (vs', true) a Ni) as Q1. pose proof (stored_E g E E' w a i (vs, true) Ni Eo) as Q2. specialize (Cn a). lia.
  - intros a n p N R G. specialize (v_alive0 a n p N R G). destruct p; cbn in *; auto. destruct v_alive0 as ((vs0 & A) & B). split; [|exact B]. eauto.
  - intros a n p N. specialize (v_bound0 a n p N). destruct p; cbn in *; rewrite ?upd_length; auto.
  - intros i' j a n k d Q N. eauto.
  - intros i' j Q. apply Es in Q. destruct (v_open0 i' j Q) as (vs0 & N). eauto.
  - intros i' vs0 N. apply Sc in N as [(_ & _ & Q)|(D & N)]; [discriminate|]. apply inst_scopes. eauto.
Qed.
Definition set_val (a : addr) (v : var) : var := Var (v_key v) (v_static v) (Some a).
Lemma in_upd {A} (x : A) l j y : In y (upd j x l) -> y = x \/ In y l.
Proof. intro J. apply In_nth_error in J as (m & N). apply nth_upd in N as [(_ & -> & _)|(_ & N)]; [now left|right; exact (nth_error_In _ _ N)]. Qed.

Lemma ok_add_var g L w i vs x st : ok g L w -> nth_error (w_scopes w) i = Some (vs, true) -> ok g L (w_set_scopes (upd i (vs ++ [Var x st None], true) (w_scopes w)) w).
Proof.
  intros I N. eapply inv_vars with (E := none) (L := L); [exact I|exact N| | |reflexivity|auto|contradiction|exact (v_tok _ _ _ _ _ _ I)].
  - intros v a J V. apply in_app_or in J as [J|[<-|[]]]; [|discriminate]. exact (v_var _ _ _ _ _ _ I i vs true v a N J V).
  - intro a. unfold in_scope. cbn [fst snd]. destruct (K g i && true); [|lia]. unfold in_vars. rewrite sumi_app. cbn. lia.
Qed.
(** A variable takes over a reference. [E]: perhaps the variable whose own was given up. *)
Lemma ok_write g E L w i j vs v a :
  inv g E [] [] (a :: L) w -> nth_error (w_scopes w) i = Some (vs, true) -> nth_error vs j = Some v -> K g i = true -> (forall i' j', E i' j' = true -> i' = i /\ j' = j) ->
  ok g L (w_set_scopes (upd i (upd j (set_val a v) vs, true) (w_scopes w)) w).
Proof.
  intros I N Nv Ki Eo. eapply inv_vars with (E := E) (L := a :: L); [exact I|exact N| | | |discriminate|contradiction|].
  - intros v' b J V. split; [|congruence]. apply in_upd in J as [->|J]; [injection V as <-; exact (v_tok _ _ _ _ _ _ I a (or_introl eq_refl))|]. exact (proj1 (v_var _ _ _ _ _ _ I i vs true v' b N J V)).
  - intro b. unfold in_scope. cbn [fst snd]. rewrite Ki. cbn [andb]. pose proof (in_vars_upd (none i) b vs j v (set_val a v) Nv) as Q. cbn [none] in Q. rewrite count_cons.
    assert (Hn : has b (set_val a v) = bit (Nat.eqb b a)) by (unfold has, set_val; cbn; rewrite Nat.eqb_sym; now destruct (Nat.eqb b a)). rewrite Hn in Q.
    assert (in_vars (none i) b vs <= in_vars (E i) b vs + has b v).
    { clear Q Hn. unfold in_vars. assert (G : forall l k m, nth_error l m = Some v -> (forall j', E i (k + j') = true -> j' = m) -> sumi (fun j v => if none i j then 0 else has b v) k l <= sumi (fun j v => if E i j then 0 else has b v) k l + has b v).
      { induction l as [|y l IH]; intros k [|m] Nm D; try discriminate; cbn [sumi none].
        - injection Nm as ->. assert (Q0 : sumi (fun j v => if none i j then 0 else has b v) (S k) l = sumi (fun j v => if E i j then 0 else has b v) (S k) l); [|unfold none in *; destruct (E i k); lia]. apply sumi_ext. intros i' y' Ny. cbn [none]. destruct (E i (S k + i')) eqn:Q; [|reflexivity]. replace (S k + i') with (k + S i') in Q by lia. apply D in Q. discriminate.
        - specialize (IH (S k) m Nm). assert (E i k = false) as ->. { destruct (E i k) eqn:Q; [|reflexivity]. assert (E i (k + 0) = true) as Q' by (now rewrite Nat.add_0_r). apply D in Q'. discriminate. }
          assert (forall j', E i (S k + j') = true -> j' = m) as D'. { intros j' Q. replace (S k + j') with (k + S j') in Q by lia. apply D in Q. lia. } specialize (IH D'). unfold none in *. lia. }
      apply (G vs 0 j Nv). intros j' Q. now apply Eo in Q. }
    lia.
  - intros i' j' D. destruct (E i' j') eqn:Q; [|reflexivity]. apply Eo in Q. now destruct Q.
  - intros b J. apply (v_tok _ _ _ _ _ _ I). now right.
Qed.
Lemma ok_write_pinned g L w i j vs v a :
  ok g L w -> nth_error (w_scopes w) i = Some (vs, true) -> nth_error vs j = Some v -> K g i = false -> P g a = true ->
  ok g L (w_set_scopes (upd i (upd j (set_val a v) vs, true) (w_scopes w)) w).
Proof.
  intros I N Nv Ki Pa. eapply inv_vars with (E := none) (L := L); [exact I|exact N| | |reflexivity|auto|contradiction|exact (v_tok _ _ _ _ _ _ I)].
  - intros v' b J V. apply in_upd in J as [->|J]; [injection V as <-; split; [exact (v_pin _ _ _ _ _ _ I a Pa)|auto]|]. exact (v_var _ _ _ _ _ _ I i vs true v' b N J V).
  - intro b. unfold in_scope. rewrite Ki. cbn [andb]. lia.
Qed.

(** The reference of one variable. *)
Definition only (i j i' j' : nat) : bool := Nat.eqb i' i && Nat.eqb j' j.
Lemma only_true i j i' j' : only i j i' j' = true -> i' = i /\ j' = j.
Proof. unfold only. intro Q. apply andb_prop in Q as (A & B). apply Nat.eqb_eq in A, B. auto. Qed.
Lemma inv_more_E g E E' X Z L L' w :
  inv g E X Z L w -> (forall a, count L' a + stored g E' w a <= count L a + stored g E w a) -> (forall a, In a X -> In a L') -> (forall a, In a L' -> a < length (w_cells w)) ->
  (forall i j a n k d, E' i j = true -> nth_error (w_cells w) a = Some (n, PInst k i d) -> (n <= 0)%Z \/ In a X \/ P g a = true) ->
  (forall i j, E' i j = true -> exists vs, nth_error (w_scopes w) i = Some (vs, true)) ->
  inv g E' X Z L' w.
Proof. intros [] Cn HX HL Fr Op. split; auto. intros a n p N R. specialize (v_cnt0 a n p N R). unfold owed in *. specialize (Cn a). lia. Qed.
Lemma ok_take g L w i j vs v a :
  ok g L w -> nth_error (w_scopes w) i = Some (vs, true) -> nth_error vs j = Some v -> v_val v = Some a -> K g i = true ->
  (forall b n k d, nth_error (w_cells w) b = Some (n, PInst k i d) -> P g b = true) -> inv g (only i j) [] [] (a :: L) w.
Proof.
  intros I N Nv V Ki Pi. eapply inv_more_E; [exact I| |contradiction| | |].
  - intro b. assert (stored g (only i j) w b + has b v <= stored g none w b).
    { pose proof (stored_E g none (only i j) w b i (vs, true) N) as Q. assert (in_vars (only i j i) b vs + has b v <= in_vars (none i) b vs).
      { unfold in_vars. assert (G : forall l k m, nth_error l m = Some v -> sumi (fun j' v => if only i (k + m) i j' then 0 else has b v) k l + has b v <= sumi (fun j v => if none i j then 0 else has b v) k l).
        { induction l as [|y l IH]; intros k [|m] Nm; try discriminate; cbn [sumi none].
          - injection Nm as ->. unfold only at 1. rewrite Nat.eqb_refl, Nat.add_0_r, Nat.eqb_refl. cbn [andb]. assert (forall l k' f, sumi (fun j' v0 => if only i f i j' then 0 else has b v0) k' l <= sumi (fun j v0 => has b v0) k' l) by (intros; apply sumi_le; intros; cbn beta; destruct (only _ _ _ _); lia). specialize (H l (S k) k). unfold none. lia.
          - specialize (IH (S k) m Nm). replace (S k + m) with (k + S m) in IH by lia. destruct (only i (k + S m) i k); unfold none in *; lia. }
        exact (G vs 0 j Nv). }
      unfold in_scope in Q. cbn [fst snd] in Q. rewrite Ki in Q. cbn [andb] in Q. assert (Q' : forall i' j', i' <> i -> only i j i' j' = none i' j') by (intros i' j' D; unfold only, none; now destruct (Nat.eqb_spec i' i)). specialize (Q Q'). lia. }
    rewrite count_cons. assert (has b v = bit (Nat.eqb b a)) by (unfold has; rewrite V; rewrite Nat.eqb_sym; now destruct (Nat.eqb b a)). lia.
  - intros b [<-|J]; [exact (proj1 (v_var _ _ _ _ _ _ I i vs true v a N (nth_error_In _ _ Nv) V))|exact (v_tok _ _ _ _ _ _ I b J)].
  - intros i' j' b n k d Q Nb. apply only_true in Q as (-> & _). right. right. eauto.
  - intros i' j' Q. apply only_true in Q as (-> & _). eauto.
Qed.

(** ** Releasing *)
Definition vals (vs : list var) : list addr := flat_map (fun v => match v_val v with Some a => [a] | None => [] end) vs.
Lemma in_vars_vals E a : forall vs, (forall j, E j = false) -> in_vars E a vs = count (vals vs) a.
Proof.
  intros vs Q. unfold in_vars. enough (G : forall l k, sumi (fun j v => if E j then 0 else has a v) k l = count (vals l) a) by apply G.
  induction l as [|v l IH]; intro k; [reflexivity|]. cbn [sumi]. rewrite IH, Q. unfold vals. cbn [flat_map]. rewrite count_app. fold (vals l). f_equal.
  unfold has. destruct (v_val v) as [b|]; [|reflexivity]. rewrite count_cons. unfold bit. rewrite (Nat.eqb_sym a b). now destruct (Nat.eqb b a).
Qed.
Definition open (i : nat) (E : nat -> nat -> bool) (i' j' : nat) : bool := Nat.eqb i' i || E i' j'.
Lemma in_vals vs a : In a (vals vs) -> exists v, In v vs /\ v_val v = Some a.
Proof. unfold vals. intro J. apply in_flat_map in J as (v & Jv & Q). exists v. split; [exact Jv|]. destruct (v_val v); [destruct Q as [->|[]]; reflexivity|destruct Q]. Qed.
Lemma open_scope g E a i vs al : in_scope g (open i E) a i (vs, al) = 0.
Proof.
  unfold in_scope. cbn [fst snd]. destruct (K g i && al); [|reflexivity]. unfold in_vars. apply sumi_zero. intros j v _. unfold open. now rewrite Nat.eqb_refl.
Qed.
Lemma open_other i E i' j : i' <> i -> open i E i' j = E i' j.
Proof. intro D. unfold open. now destruct (Nat.eqb_spec i' i). Qed.
Lemma inv_open g E X Z L w i vs :
  inv g E X Z L w -> nth_error (w_scopes w) i = Some (vs, true) -> K g i = true -> (forall j, E i j = false) ->
  (forall a n k d, nth_error (w_cells w) a = Some (n, PInst k i d) -> (n <= 0)%Z \/ In a X \/ P g a = true) -> inv g (open i E) X Z (vals vs ++ L) w.
Proof.
  intros I N Ki Ei Fr. eapply inv_more_E; [exact I| | | | |].
  - intro a. rewrite count_app. pose proof (stored_E g E (open i E) w a i (vs, true) N (fun i' j D => open_other i E i' j D)) as Q. rewrite open_scope in Q.
    unfold in_scope in Q. cbn [fst snd] in Q. rewrite Ki in Q. cbn [andb] in Q. rewrite (in_vars_vals _ _ _ Ei) in Q. lia.
  - intros a J. apply in_or_app. right. exact (v_held _ _ _ _ _ _ I a J).
  - intros a J. apply in_app_or in J as [J|J]; [|exact (v_tok _ _ _ _ _ _ I a J)]. apply in_vals in J as (v & Jv & V). exact (proj1 (v_var _ _ _ _ _ _ I i vs true v a N Jv V)).
  - intros i' j a n k d Q Na. destruct (Nat.eq_dec i' i) as [->|D]; [eauto|]. rewrite open_other in Q by exact D. exact (v_free _ _ _ _ _ _ I i' j a n k d Q Na).
  - intros i' j Q. destruct (Nat.eq_dec i' i) as [->|D]; [eauto|]. rewrite open_other in Q by exact D. exact (v_open _ _ _ _ _ _ I i' j Q).
Qed.
(** The scope of an instance with no references. *)
Lemma inv_dead g E X Z L w i vs :
  inv g (open i E) X Z L w -> nth_error (w_scopes w) i = Some (vs, true) -> (forall j, E i j = false) -> inst w i ->
  (forall a n k d, nth_error (w_cells w) a = Some (n, PInst k i d) -> (n <= 0)%Z) -> inv g E X Z L (w_set_scopes (upd i (vs, false) (w_scopes w)) w).
Proof.
  intros I N Ei In_ Cn. destruct I.
  assert (Sc : forall i' vs0 al, nth_error (upd i (vs, false) (w_scopes w)) i' = Some (vs0, al) -> (i' = i /\ vs0 = vs /\ al = false) \/ (i' <> i /\ nth_error (w_scopes w) i' = Some (vs0, al))).
  { intros i' vs0 al Q. apply nth_upd in Q as [(<- & Q & _)|(D & Q)]; [injection Q as -> ->; auto|auto]. }
  assert (Op : forall i' j, E i' j = true -> i' <> i /\ open i E i' j = true).
  { intros i' j Q. assert (i' <> i) by (intros ->; rewrite Ei in Q; discriminate). split; [assumption|]. now rewrite open_other. }
  split; cbn [w_set_scopes w_cells w_scopes w_bufs w_bodies w_states w_body w_mem]; auto.
  - intros i' vs0 al v a Q J V. apply Sc in Q as [(-> & -> & ->)|(D & Q)]; eauto.
  - intros a n p Na R. specialize (v_cnt0 a n p Na R). unfold owed in *. pose proof (stored_upd g E w i (vs, true) (vs, false) a N) as Q1.
    pose proof (stored_E g E (open i E) w a i (vs, true) N (fun i' j D => open_other i E i' j D)) as Q2. rewrite open_scope in Q2.
    assert (in_scope g E a i (vs, false) = 0) as Q3 by (unfold in_scope; cbn [snd]; now rewrite andb_false_r). lia.
  - intros a n p Na R G. pose proof (v_alive0 a n p Na R G) as A. destruct p; cbn in *; auto. destruct A as ((vs0 & A) & B). split; [|exact B].
    destruct (Nat.eq_dec i scope) as [->|D]; [specialize (Cn _ _ _ _ Na); lia|]. exists vs0. now rewrite upd_other.
  - intros a n p Na. specialize (v_bound0 a n p Na). destruct p; cbn in *; rewrite ?upd_length; auto.
  - intros i' j a n k d Q Na. destruct (Op _ _ Q) as (_ & Q'). eauto.
  - intros i' j Q. destruct (Op _ _ Q) as (D & Q'). destruct (v_open0 i' j Q') as (vs0 & A). exists vs0. rewrite upd_other; auto.
  - intros i' vs0 Q. apply inst_scopes. apply Sc in Q as [(-> & _)|(D & Q)]; eauto.
Qed.
Lemma inv_free_buf g E X Z L w a n0 k b : (* the buffer of [a], which has no references *)
  inv g E X Z L w -> nth_error (w_cells w) a = Some (n0, PStr b k) -> (n0 <= 0)%Z -> P g a = false -> inv g E X Z L (w_set_bufs (upd b None (w_bufs w)) w).
Proof.
  intros [] Na N0 Pa. split; cbn [w_set_bufs w_cells w_scopes w_bufs w_bodies w_states w_body w_mem]; auto.
  - intros a' n p N R G. specialize (v_alive0 a' n p N R G). destruct p; cbn in *; auto. destruct (Nat.eq_dec b buf) as [->|D]; [|now rewrite upd_other].
    destruct (Nat.eq_dec a a') as [->|D]; [rewrite Na in N; injection N as <- _; lia|]. rewrite (v_share0 a a' _ _ _ _ Na N D eq_refl) in Pa. discriminate.
  - intros a' n p N. specialize (v_bound0 a' n p N). destruct p; cbn in *; rewrite ?upd_length; auto.
Qed.
Lemma inv_free_body g E X Z L w a n0 f b :
  inv g E X Z L w -> nth_error (w_cells w) a = Some (n0, PFn f) -> (n0 <= 0)%Z -> f_body f = Some b -> P g a = false -> inv g E X Z L (w_set_bodies (upd b None (w_bodies w)) w).
Proof.
  intros [] Na N0 Fb Pa. split; cbn [w_set_bodies w_cells w_scopes w_bufs w_bodies w_states w_body w_mem]; auto.
  - intros a' n p N R G. specialize (v_alive0 a' n p N R G). destruct p; cbn in *; auto. intros b' Fb'. destruct (Nat.eq_dec b b') as [->|D]; [|rewrite upd_other by exact D; auto].
    destruct (Nat.eq_dec a a') as [->|D]; [rewrite Na in N; injection N as <- _; lia|]. rewrite (v_share0 a a' _ _ _ _ Na N D) in Pa; [discriminate|]. cbn. eauto.
  - intros a' n p N. specialize (v_bound0 a' n p N). destruct p; cbn in *; auto. rewrite upd_length. auto.
  - intros i x Q. apply nth_upd in Q as [(_ & Q & _)|(_ & Q)]; [discriminate|eauto].
Qed.
Lemma inv_free_state g E X Z L w a n0 k i d :
  inv g E X (d :: Z) L w -> nth_error (w_cells w) a = Some (n0, PInst k i (Some d)) -> (n0 <= 0)%Z -> P g a = false -> ~ In d Z -> inv g E X Z L (w_set_states (upd d None (w_states w)) w).
Proof.
  intros [] Na N0 Pa Dz. split; cbn [w_set_states w_cells w_scopes w_bufs w_bodies w_states w_body w_mem]; auto.
  - intros a' n p N R G. specialize (v_alive0 a' n p N R G). destruct p; cbn in *; auto. destruct v_alive0 as (A & B). split; [exact A|]. intros x ->. destruct (Nat.eq_dec d x) as [->|D]; [|rewrite upd_other by exact D; auto].
    destruct (Nat.eq_dec a a') as [->|D]; [rewrite Na in N; injection N as <- _; lia|]. rewrite (v_share0 a a' _ _ _ _ Na N D) in Pa; [discriminate|]. cbn. eauto.
  - intros a' n p N. specialize (v_bound0 a' n p N). destruct p; cbn in *; auto. rewrite upd_length. auto.
  - intros d' a' n k' i' J N. apply (v_pend0 d' a' n k' i'); [now right|exact N].
  - intros d' J. assert (d <> d') by (intros ->; contradiction). rewrite upd_other by assumption. apply v_pends0. now right.
Qed.
Lemma inv_pend g E X Z L w d :
  inv g E X Z L w -> (forall a n k i, nth_error (w_cells w) a = Some (n, PInst k i (Some d)) -> (n <= 0)%Z \/ In a X \/ P g a = true) -> (exists y, nth_error (w_states w) d = Some (Some y)) ->
  inv g E X (d :: Z) L w.
Proof. intros [] A B. split; auto. - intros d' a n k i [<-|J] N; eauto. - intros d' [<-|J]; auto. Qed.

(** ** What lasts *)
(** [q]: variables that are there keep their values. *)
Record ext (q : bool) (g : gh) (w : vw) (g' : gh) (w' : vw) : Prop := Ext {
  e_P : forall a, P g a = true -> P g' a = true;
  e_K : forall i, i < length (w_scopes w) -> K g' i = K g i;
  e_cells : forall a n p, nth_error (w_cells w) a = Some (n, p) -> exists n', nth_error (w_cells w') a = Some (n', p);
  e_inst : forall i, i < length (w_scopes w) -> inst w' i -> inst w i;
  e_stat : forall i, i < length (w_scopes w) -> stat w' i -> stat w i;
  e_scopes : forall i vs al, nth_error (w_scopes w) i = Some (vs, al) ->
    exists vs' al', nth_error (w_scopes w') i = Some (vs', al') /\ (al = true -> al' = true \/ inst w' i) /\
      (q = true -> forall j v, nth_error vs j = Some v -> nth_error vs' j = Some v);
}.
Lemma ext_len q g w g' w' : ext q g w g' w' -> length (w_scopes w) <= length (w_scopes w').
Proof.
  intros [_ _ _ _ _ X]. destruct (w_scopes w) as [|x l] eqn:Q; [cbn; lia|]. destruct (nth_error (w_scopes w) (length l)) as [(vs, al)|] eqn:N.
  - rewrite Q in N. destruct (X _ _ _ N) as (vs' & al' & N' & _). apply nth_lt_some in N'. cbn. lia.
  - apply nth_error_None in N. rewrite Q in N. cbn in N. lia.
Qed.
Lemma ext_inst q g w g' w' i : ext q g w g' w' -> inst w i -> inst w' i.
Proof. intros X (a & n & k & d & N). destruct (e_cells _ _ _ _ _ X _ _ _ N) as (n' & N'). now exists a, n', k, d. Qed.
Lemma ext_refl q g w : ext q g w g w.
Proof. split; auto. - intros a n p N. eauto. - intros i vs al N. exists vs, al. auto. Qed.
Lemma ext_weak q g w g' w' : ext true g w g' w' -> ext q g w g' w'.
Proof. intros []. split; auto. intros i vs al N. destruct (e_scopes0 i vs al N) as (vs' & al' & A & B & C). exists vs', al'. auto. Qed.
Lemma ext_trans q g w g1 w1 g2 w2 : ext q g w g1 w1 -> ext q g1 w1 g2 w2 -> ext q g w g2 w2.
Proof.
  intros A B. pose proof (ext_len _ _ _ _ _ A) as L. pose proof (fun i => ext_inst _ _ _ _ _ i B) as In_. destruct A, B. split; auto.
  - intros i Li. rewrite e_K1 by lia. auto.
  - intros a n p N. destruct (e_cells0 _ _ _ N) as (n' & N'). eauto.
  - intros i Li J. apply e_inst0; [exact Li|]. apply e_inst1; [lia|exact J].
  - intros i Li J. apply e_stat0; [exact Li|]. apply e_stat1; [lia|exact J].
  - intros i vs al N. destruct (e_scopes0 _ _ _ N) as (vs1 & al1 & N1 & A1 & V1). destruct (e_scopes1 _ _ _ N1) as (vs2 & al2 & N2 & A2 & V2).
    exists vs2, al2. split; [exact N2|]. split; [|auto]. intro Q. destruct (A1 Q) as [->|J]; auto.
Qed.
(** Changes that keep the values and the scopes. *)
Lemma ext_cells q g g' w w' :
  (forall a, P g a = true -> P g' a = true) -> (forall i, i < length (w_scopes w) -> K g' i = K g i) -> w_scopes w' = w_scopes w ->
  (forall a n p, nth_error (w_cells w) a = Some (n, p) -> exists n', nth_error (w_cells w') a = Some (n', p)) ->
  (forall i, i < length (w_scopes w) -> inst w' i -> inst w i) -> (forall i, i < length (w_scopes w) -> stat w' i -> stat w i) -> ext q g w g' w'.
Proof. intros QP QK Qs Qc Qi Qt. split; auto. intros i vs al N. rewrite Qs. exists vs, al. auto. Qed.
Lemma ext_same q g g' w w' : (forall a, P g a = true -> P g' a = true) -> (forall i, K g' i = K g i) -> w_scopes w' = w_scopes w -> w_cells w' = w_cells w -> ext q g w g' w'.
Proof.
  intros QP QK Qs Qc. apply ext_cells; auto.
  - intros a n p N. rewrite Qc. eauto.
  - intros i _ (a & n & k & d & N). rewrite Qc in N. now exists a, n, k, d.
  - intros i _ (a & n & f & N & F). rewrite Qc in N. now exists a, n, f.
Qed.
Lemma ext_recount q g w a n p n' : nth_error (w_cells w) a = Some (n, p) -> ext q g w g (w_set_cells (upd a (n', p) (w_cells w)) w).
Proof.
  intro Na. assert (Same : forall b m r, nth_error (upd a (n', p) (w_cells w)) b = Some (m, r) -> exists m', nth_error (w_cells w) b = Some (m', r)).
  { intros b m r N. apply nth_upd in N as [(<- & Q & _)|(_ & N)]; [injection Q as -> ->|]; eauto. }
  apply ext_cells; auto; cbn [w_set_cells w_cells].
  - intros b m r N. destruct (Nat.eq_dec a b) as [<-|D]; [rewrite Na in N; injection N as <- <-; exists n'; exact (nth_mid _ _ _ _ Na)|exists m; now rewrite upd_other].
  - intros i _ (b & m & k & d & N). destruct (Same _ _ _ N) as (m' & N'). now exists b, m', k, d.
  - intros i _ (b & m & f & N & F). destruct (Same _ _ _ N) as (m' & N'). now exists b, m', f.
Qed.
Lemma ext_alloc q g g' w p : (forall a, P g a = true -> P g' a = true) -> (forall i, K g' i = K g i) ->
  (forall k i d, p = PInst k i d -> i < length (w_scopes w) -> inst w i) -> (forall f i, p = PFn f -> f_scope f = Some i -> i < length (w_scopes w) -> stat w i) ->
  ext q g w g' (w_set_cells (w_cells w ++ [(1%Z, p)]) w).
Proof.
  intros QP QK Qi Qt. apply ext_cells; auto.
  - intros a n r N. exists n. cbn. now apply nth_app_l.
  - intros i Li J. apply inst_app in J as [J|(k & d & Q)]; [exact J|]. eauto.
  - intros i Li J. apply stat_app in J as [J|(f & Q & F)]; [exact J|]. eauto.
Qed.
(** Changes to the scopes. *)
Lemma ext_scopes q g g' w x : (forall a, P g a = true -> P g' a = true) -> (forall i, i < length (w_scopes w) -> K g' i = K g i) ->
  (forall i vs al, nth_error (w_scopes w) i = Some (vs, al) -> exists vs' al', nth_error x i = Some (vs', al') /\ (al = true -> al' = true \/ inst w i) /\ (q = true -> forall j v, nth_error vs j = Some v -> nth_error vs' j = Some v)) ->
  ext q g w g' (w_set_scopes x w).
Proof. intros QP QK Qs. split; auto. intros a n p N. eauto. Qed.

(** ** The engine, instances and late changes *)
Lemma ok_engine g L w b m : ok g L w -> (forall x, b = Some x -> exists a n f, P g a = true /\ nth_error (w_cells w) a = Some (n, PFn f) /\ f_body f = Some x) ->
  (forall a, In a m -> exists n f, nth_error (w_cells w) a = Some (n, PFn f)) -> ok g L (w_set_engine b m w).
Proof. intros [] Qb Qm. split; auto. Qed.
Lemma ext_engine q g w b m : ext q g w g (w_set_engine b m w).
Proof. apply ext_same; auto. Qed.
Lemma body_kept q g w g' w' b : ext q g w g' w' -> (exists a n f, P g a = true /\ nth_error (w_cells w) a = Some (n, PFn f) /\ f_body f = Some b) ->
  exists a n f, P g' a = true /\ nth_error (w_cells w') a = Some (n, PFn f) /\ f_body f = Some b.
Proof. intros X (a & n & f & Pa & N & Fb). destruct (e_cells _ _ _ _ _ X _ _ _ N) as (n' & N'). exists a, n', f. split; [exact (e_P _ _ _ _ _ X _ Pa)|auto]. Qed.
Lemma mem_kept q g w g' w' a : ext q g w g' w' -> (exists n f, nth_error (w_cells w) a = Some (n, PFn f)) -> exists n f, nth_error (w_cells w') a = Some (n, PFn f).
Proof. intros X (n & f & N). destruct (e_cells _ _ _ _ _ X _ _ _ N) as (n' & N'). eauto. Qed.

Lemma inst_bound g E X Z L w i : inv g E X Z L w -> inst w i -> i < length (w_scopes w).
Proof. intros I (a & n & k & d & N). exact (proj1 (v_bound _ _ _ _ _ _ I _ _ _ N)). Qed.
Lemma stat_bound g E X Z L w i : inv g E X Z L w -> stat w i -> i < length (w_scopes w).
Proof. intros I (a & n & f & N & F). exact (proj2 (v_bound _ _ _ _ _ _ I _ _ _ N) i F). Qed.
Lemma not_inst_alive g E X Z L w i : inv g E X Z L w -> i < length (w_scopes w) -> ~ inst w i -> exists vs, nth_error (w_scopes w) i = Some (vs, true).
Proof.
  intros I Li Ni. destruct (nth_error (w_scopes w) i) as [(vs, al)|] eqn:N; [|apply nth_error_None in N; lia]. destruct al; [eauto|]. destruct (Ni (v_dead _ _ _ _ _ _ I _ _ N)).
Qed.
Lemma ext_new_inst q g0 w0 g w k i d : ext q g0 w0 g w -> length (w_scopes w0) <= i -> ext q g0 w0 g (w_set_cells (w_cells w ++ [(1%Z, PInst k i d)]) w).
Proof.
  intros X Li. pose proof (fun i => inst_more w (1%Z, PInst k i d) i) as More. destruct X. split; auto.
  - intros a n p N. destruct (e_cells0 _ _ _ N) as (n' & N'). exists n'. cbn. now apply nth_app_l.
  - intros j Lj J. apply inst_app in J as [J|(k' & d' & Q)]; [auto|]. cbn in Q. injection Q as _ <- _. lia.
  - intros j Lj J. apply stat_app in J as [J|(f & Q & _)]; [auto|]. discriminate.
  - intros j vs al N. destruct (e_scopes0 _ _ _ N) as (vs' & al' & A & B & C). exists vs', al'. split; [exact A|]. split; [|exact C]. intro Q. destruct (B Q) as [B'|B']; [auto|right]. apply inst_more. exact B'.
Qed.
(** The data of an instance set. *)
Lemma ok_setdata g L w a n k i x : ok g L w -> nth_error (w_cells w) a = Some (n, PInst k i None) ->
  ok g L (w_set_cells (upd a (n, PInst k i (Some (length (w_states w)))) (w_cells w)) (w_set_states (w_states w ++ [Some x]) w)).
Proof.
  intros I Na. set (p' := PInst k i (Some (length (w_states w)))). set (w' := w_set_cells _ _).
  assert (Old : forall b m q, nth_error (w_cells w') b = Some (m, q) -> (b = a /\ m = n /\ q = p') \/ (b <> a /\ nth_error (w_cells w) b = Some (m, q))).
  { intros b m q N. cbn in N. apply nth_upd in N as [(<- & Q & _)|(D & N)]; [injection Q as -> ->; auto|right; auto]. }
  assert (Ins : forall j, inst w' j <-> inst w j).
  { intro j. split.
    - intros (b & m & k' & d & N). apply Old in N as [(-> & -> & Q)|(D & N)]; [injection Q as -> -> ->; now exists a, n, k, None|now exists b, m, k', d].
    - intros (b & m & k' & d & N). destruct (Nat.eq_dec a b) as [<-|D].
      + rewrite Na in N. injection N as <- <- <- <-. exists a, n, k, (Some (length (w_states w))). exact (nth_mid _ _ _ _ Na).
      + exists b, m, k', d. cbn. now rewrite upd_other. }
  assert (Sta : forall j, stat w' j <-> stat w j).
  { intro j. split; intros (b & m & f & N & F).
    - apply Old in N as [(_ & _ & Q)|(D & N)]; [discriminate|now exists b, m, f].
    - exists b, m, f. split; [|exact F]. cbn. rewrite upd_other; [exact N|]. intros ->. rewrite Na in N. discriminate. }
  assert (Len : length (w_cells w') = length (w_cells w)) by (cbn; apply upd_length).
  assert (Keep : forall j y, nth_error (w_states w) j = Some y -> nth_error (w_states w') j = Some y) by (intros; cbn; now apply nth_app_l).
  destruct I. split; try (rewrite Len); auto.
  - intros b m q c N J. apply Old in N as [(_ & _ & ->)|(_ & N)]; [destruct J|eauto].
  - intros b m q N Rq. apply Old in N as [(-> & -> & ->)|(_ & N)]; [exact (v_cnt0 a n _ Na eq_refl)|exact (v_cnt0 b m q N Rq)].
  - intros b b' m m' q q' N N' D Sh. apply Old in N as [(-> & -> & ->)|(D1 & N)]; apply Old in N' as [(-> & -> & ->)|(D2 & N')]; [congruence| | |eauto].
    + destruct q' as [| | | | | | |k' i' d']; cbn in Sh; try contradiction. destruct Sh as [<-|(y & Q & ->)].
      * apply (v_share0 a b' n m' (PInst k i None) (PInst k' i d') Na N' D). now left.
      * injection Q as <-. apply v_bound0 in N' as (_ & B). specialize (B _ eq_refl). lia.
    + destruct q as [| | | | | | |k' i' d']; cbn in Sh; try contradiction. destruct Sh as [->|(y & -> & Q)].
      * apply (v_share0 b a m n (PInst k' i d') (PInst k i None) N Na D). now left.
      * injection Q as <-. apply v_bound0 in N as (_ & B). specialize (B _ eq_refl). lia.
  - intros b m q N Rq Pm. apply Old in N as [(-> & -> & ->)|(_ & N)].
    + destruct (v_alive0 a n _ Na eq_refl Pm) as (A & _). split; [exact A|]. intros y Q. injection Q as <-. exists x. cbn. rewrite nth_error_app2, Nat.sub_diag by lia. reflexivity.
    + specialize (v_alive0 b m q N Rq Pm). destruct q; cbn in *; auto. destruct v_alive0 as (A & B). split; [exact A|]. intros y Q. destruct (B y Q) as (z & Z). exists z. now apply nth_app_l.
  - intros b m q N. apply Old in N as [(-> & -> & ->)|(_ & N)].
    + destruct (v_bound0 a n _ Na) as (A & _). split; [exact A|]. intros y Q. injection Q as <-. cbn. rewrite app_length. cbn. lia.
    + specialize (v_bound0 b m q N). destruct q; cbn in *; auto. destruct v_bound0 as (A & B). split; [exact A|]. intros y Q. specialize (B y Q). rewrite app_length. lia.
  - intros; discriminate.
  - intros j [].
  - intros j J. apply v_inst0. now apply Ins.
  - intros j J. rewrite Ins. apply v_stat0. now apply Sta.
  - intros j vs N. apply Ins. eauto.
  - intros y Q. destruct (v_body0 y Q) as (b & m & f & Pb & N & F). exists b, m, f. split; [exact Pb|]. split; [|exact F]. cbn. rewrite upd_other; [exact N|]. intros ->. rewrite Na in N. discriminate.
  - intros b J. destruct (v_mem0 b J) as (m & f & N). exists m, f. cbn. rewrite upd_other; [exact N|]. intros ->. rewrite Na in N. discriminate.
Qed.
Lemma ext_setdata q g0 w0 g w a n k i x : ext q g0 w0 g w -> nth_error (w_cells w) a = Some (n, PInst k i None) -> length (w_cells w0) <= a ->
  ext q g0 w0 g (w_set_cells (upd a (n, PInst k i (Some (length (w_states w)))) (w_cells w)) (w_set_states (w_states w ++ [x]) w)).
Proof.
  intros X Na La. set (w' := w_set_cells _ _).
  assert (Ins : forall j, inst w' j <-> inst w j).
  { intro j. split.
    - intros (b & m & k' & d & N). cbn in N. apply nth_upd in N as [(<- & Q & _)|(D & N)]; [injection Q as -> -> -> ->; now exists a, n, k, None|now exists b, m, k', d].
    - intros (b & m & k' & d & N). destruct (Nat.eq_dec a b) as [<-|D].
      + rewrite Na in N. injection N as <- <- <- <-. exists a, n, k, (Some (length (w_states w))). exact (nth_mid _ _ _ _ Na).
      + exists b, m, k', d. cbn. now rewrite upd_other. }
  destruct X. split; auto.
  - intros b m p N. destruct (e_cells0 _ _ _ N) as (n' & N'). exists n'. cbn. rewrite upd_other; [exact N'|]. apply nth_lt_some in N. lia.
  - intros j Lj J. apply e_inst0; [exact Lj|]. now apply Ins.
  - intros j Lj (b & m & f & N & F). cbn in N. apply nth_upd in N as [(_ & Q & _)|(D & N)]; [discriminate|]. apply e_stat0; [exact Lj|]. now exists b, m, f.
  - intros j vs al N. destruct (e_scopes0 _ _ _ N) as (vs' & al' & A & B & C). exists vs', al'. split; [exact A|]. split; [|exact C]. intro Q. destruct (B Q) as [B'|B']; [auto|right]. now apply Ins.
Qed.
(** A variable changed. *)
Lemma ext_write q g0 w0 g w i j x vs : ext q g0 w0 g w -> nth_error (w_scopes w) i = Some (vs, true) ->
  (q = true -> forall vs0 al, nth_error (w_scopes w0) i = Some (vs0, al) -> length vs0 <= j) ->
  ext q g0 w0 g (w_set_scopes (upd i (upd j x vs, true) (w_scopes w)) w).
Proof.
  intros X N New. destruct X. split; auto. intros i' vs0 al N0. destruct (e_scopes0 _ _ _ N0) as (vs1 & al1 & N1 & A1 & V1). destruct (Nat.eq_dec i i') as [<-|D].
  - rewrite N in N1. injection N1 as <- <-. exists (upd j x vs), true. split; [exact (nth_mid _ _ _ _ N)|]. split; [auto|]. intros Q j' v Nv. specialize (V1 Q _ _ Nv). rewrite upd_other; [exact V1|].
    specialize (New Q _ _ N0). apply nth_lt_some in Nv. lia.
  - exists vs1, al1. cbn. rewrite upd_other by exact D. auto.
Qed.
Lemma ext_add_var q g w i x vs : nth_error (w_scopes w) i = Some (vs, true) -> ext q g w g (w_set_scopes (upd i (vs ++ [x], true) (w_scopes w)) w).
Proof.
  intro N. apply ext_scopes; auto. intros i' vs' al N'. destruct (Nat.eq_dec i i') as [<-|D].
  - rewrite N in N'. injection N' as <- <-. exists (vs ++ [x]), true. split; [exact (nth_mid _ _ _ _ N)|]. split; [auto|]. intros _ j v Nv. now apply nth_app_l.
  - exists vs', al. rewrite upd_other by exact D. auto.
Qed.
Lemma ext_scope q g w b : ext q g w (set_K (length (w_scopes w)) b g) (w_set_scopes (w_scopes w ++ [([], true)]) w).
Proof.
  apply ext_scopes; auto.
  - intros i Li. cbn. destruct (Nat.eqb_spec i (length (w_scopes w))); [lia|reflexivity].
  - intros i vs al N. exists vs, al. split; [now apply nth_app_l|auto].
Qed.
(** A function or class declared: its value, taken by a variable. *)
Lemma ext_new_fn q g0 w0 g w f : ext q g0 w0 g w -> (forall i, f_scope f = Some i -> length (w_scopes w0) <= i) -> ext q g0 w0 g (w_set_cells (w_cells w ++ [(1%Z, PFn f)]) w).
Proof.
  intros X Li. destruct X. split; auto.
  - intros a n p N. destruct (e_cells0 _ _ _ N) as (n' & N'). exists n'. cbn. now apply nth_app_l.
  - intros j Lj J. apply inst_app in J as [J|(k' & d' & Q)]; [auto|]. discriminate.
  - intros j Lj J. apply stat_app in J as [J|(f' & Q & F)]; [auto|]. cbn in Q. injection Q as <-. specialize (Li j F). lia.
  - intros j vs al N. destruct (e_scopes0 _ _ _ N) as (vs' & al' & A & B & C). exists vs', al'. split; [exact A|]. split; [|exact C]. intro Q. destruct (B Q) as [B'|B']; [auto|right]. apply inst_more. exact B'.
Qed.
Lemma ok_decl g0 w0 g L w f i j vs v :
  ok g L w -> ext true g0 w0 g w -> fresh_for w (PFn f) -> (forall i', f_scope f = Some i' -> K g i' = true /\ ~ inst w i' /\ length (w_scopes w0) <= i') ->
  nth_error (w_scopes w) i = Some (vs, true) -> nth_error vs j = Some v -> K g i = true -> (forall vs0 al, nth_error (w_scopes w0) i = Some (vs0, al) -> length vs0 <= j) ->
  let w' := w_set_scopes (upd i (upd j (set_val (length (w_cells w)) v) vs, true) (w_scopes w)) (w_set_cells (w_cells w ++ [(1%Z, PFn f)]) w) in ok g L w' /\ ext true g0 w0 g w'.
Proof.
  intros I X Fr Sc N Nv Ki New w'. set (a := length (w_cells w)) in *. set (wc := w_set_cells (w_cells w ++ [(1%Z, PFn f)]) w) in *.
  assert (I1 : ok g (a :: L) wc).
  { apply ok_alloc; [exact I|exact Fr|contradiction|discriminate|]. intros f' i' Q F. injection Q as <-. destruct (Sc i' F) as (A & B & _). auto. }
  assert (X1 : ext true g0 w0 g wc) by (apply ext_new_fn; [exact X|]; intros i' F; exact (proj2 (proj2 (Sc i' F)))).
  split; [exact (ok_write g none L wc i j vs v a I1 N Nv Ki ltac:(discriminate))|]. apply (ext_write true g0 w0 g wc i j (set_val a v) vs); auto.
Qed.
Lemma fresh_fn w f : (forall b, f_body f = Some b -> (exists x, nth_error (w_bodies w) b = Some (Some x)) /\ forall a n f', nth_error (w_cells w) a = Some (n, PFn f') -> f_body f' <> Some b) ->
  (forall i, f_scope f = Some i -> i < length (w_scopes w)) -> fresh_for w (PFn f).
Proof.
  intros Qb Qs. split; [|split].
  - split; [|exact Qs]. intros b Q. destruct (Qb b Q) as ((x & N) & _). exact (nth_lt_some _ _ _ N).
  - intros _ b Q. exact (proj1 (Qb b Q)).
  - intros a n q N Sh. destruct q as [| | | | | |f'|]; cbn in Sh; try contradiction. destruct Sh as (b & Q & Q'). exact (proj2 (Qb b Q) a n f' N Q').
Qed.
