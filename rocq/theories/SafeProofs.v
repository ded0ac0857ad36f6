(** * Running scripts doesn't use what was released. *)

From Coq Require Import ZArith Arith Ascii String Lia Bool List.
From Verif Require Import Base Hash Cookie FlAst FlState FlInterp FlMonad SpecFrame FlFrame FlBalance SpecSettled SpecSafe Bob BobProofs BobInstanceProofs SafeInv.
Import ListNotations.
Local Open Scope nat_scope.

(** ** Partial correctness *)
Definition okub (u : ub) : Prop := u <> UFreedStr /\ u <> UFreedBody /\ u <> UDoubleFree.
Definition wp {A} (m : M bob A) (s : st bob) (F : A -> st bob -> Prop) : Prop := match m s with Ret a s' => F a s' | Undef u => okub u | _ => True end.
Lemma wp_bind {A B} (m : M bob A) (k : A -> M bob B) s F : wp m s (fun a s' => wp (k a) s' F) -> wp (mbind m k) s F.
Proof. unfold wp, mbind. destruct (m s); auto. Qed.
Lemma wp_ret {A} (a : A) s (F : A -> st bob -> Prop) : F a s -> wp (ret a) s F. Proof. exact (fun x => x). Qed.
Lemma wp_impl {A} (m : M bob A) s (F G : A -> st bob -> Prop) : wp m s F -> (forall a s', m s = Ret a s' -> F a s' -> G a s') -> wp m s G.
Proof. unfold wp. intros W I. destruct (m s) eqn:Q; auto. Qed.
Lemma wp_get_cell a s (F : cell -> st bob -> Prop) : (forall c, nth_error (cells s) a = Some c -> F c s) -> wp (get_cell a) s F.
Proof. unfold wp, get_cell. intro I. destruct (nth_error (cells s) a); auto. repeat split; discriminate. Qed.
Lemma wp_get_scope a s (F : scope -> st bob -> Prop) : (forall c, nth_error (scopes s) a = Some c -> sc_alive c = true -> F c s) -> wp (get_scope a) s F.
Proof. unfold wp, get_scope. intro I. destruct (nth_error (scopes s) a) as [c|]; [destruct (sc_alive c) eqn:Q; auto|]; repeat split; discriminate. Qed.
Lemma wp_gets {A} (f : st bob -> A) s (F : A -> st bob -> Prop) : F (f s) s -> wp (gets f) s F. Proof. exact (fun x => x). Qed.
Lemma wp_modify f s (F : unit -> st bob -> Prop) : F tt (f s) -> wp (modify f) s F. Proof. exact (fun x => x). Qed.
Lemma wp_assert b s (F : unit -> st bob -> Prop) : (b = true -> F tt s) -> wp (assert b) s F. Proof. unfold wp, assert. destruct b; cbn; auto. Qed.
Lemma wp_raise {A} x y s (F : A -> st bob -> Prop) : wp (raise x y) s F.
Proof. unfold wp, raise. destruct (Nat.leb _ _); [exact I|]. destruct (err s); destruct (Nat.leb _ _); exact I. Qed.
Lemma wp_undef {A} u s (F : A -> st bob -> Prop) : okub u -> wp (undef u) s F. Proof. exact (fun x => x). Qed.
Lemma wp_died {A} s (F : A -> st bob -> Prop) : wp died s F. Proof. exact I. Qed.
Lemma wp_nofuel {A} s (F : A -> st bob -> Prop) : wp nofuel s F. Proof. exact I. Qed.
Lemma okub_null : okub UNull. Proof. repeat split; discriminate. Qed.
Lemma okub_wild : okub UWild. Proof. repeat split; discriminate. Qed.
Lemma okub_pun : okub UPun. Proof. repeat split; discriminate. Qed.
Lemma okub_over : okub UOverflow. Proof. repeat split; discriminate. Qed.
Lemma okub_range : okub URange. Proof. repeat split; discriminate. Qed.
Lemma okub_mark : okub UMark. Proof. repeat split; discriminate. Qed.
Lemma okub_scope : okub UFreedScope. Proof. repeat split; discriminate. Qed.
Create HintDb ub.
#[local] Hint Resolve okub_null okub_wild okub_pun okub_over okub_range okub_mark okub_scope : ub.

(** ** Views *)
Lemma view_cell s a c : nth_error (cells s) a = Some c -> nth_error (w_cells (view s)) a = Some (c_cnt c, c_val c).
Proof. intro N. cbn. erewrite map_nth_error by exact N. reflexivity. Qed.
Lemma view_cell_inv s a n p : nth_error (w_cells (view s)) a = Some (n, p) -> exists c, nth_error (cells s) a = Some c /\ c_cnt c = n /\ c_val c = p.
Proof. cbn. rewrite nth_error_map. destruct (nth_error (cells s) a) as [c|]; [|discriminate]. cbn. intro Q. injection Q as <- <-. eauto. Qed.
Lemma view_scope s i c : nth_error (scopes s) i = Some c -> nth_error (w_scopes (view s)) i = Some (sc_vars c, sc_alive c).
Proof. intro N. cbn. erewrite map_nth_error by exact N. reflexivity. Qed.
Lemma view_len s : length (w_cells (view s)) = length (cells s). Proof. apply map_length. Qed.
Lemma view_slen s : length (w_scopes (view s)) = length (scopes s). Proof. apply map_length. Qed.
Lemma view_cells s x : view (set_cells x s) = w_set_cells (map cell_view x) (view s). Proof. reflexivity. Qed.
Lemma view_put s a c : view (set_cells (upd a c (cells s)) s) = w_set_cells (upd a (c_cnt c, c_val c) (w_cells (view s))) (view s).
Proof. rewrite view_cells, map_upd. reflexivity. Qed.
Lemma w_cells_id w : w_set_cells (w_cells w) w = w. Proof. now destruct w. Qed.
Lemma w_scopes_id w : w_set_scopes (w_scopes w) w = w. Proof. now destruct w. Qed.
Lemma view_put_same s a c c' : nth_error (cells s) a = Some c -> c_cnt c' = c_cnt c -> c_val c' = c_val c -> view (set_cells (upd a c' (cells s)) s) = view s.
Proof. intros N Q1 Q2. rewrite view_put, Q1, Q2, upd_id by (now apply view_cell). apply w_cells_id. Qed.
Lemma view_alloc s c : view (set_cells (cells s ++ [c]) s) = w_set_cells (w_cells (view s) ++ [(c_cnt c, c_val c)]) (view s).
Proof. rewrite view_cells, map_app. reflexivity. Qed.
Lemma view_put_scope s i c : view (set_scopes (upd i c (scopes s)) s) = w_set_scopes (upd i (sc_vars c, sc_alive c) (w_scopes (view s))) (view s).
Proof. unfold view at 1. cbn [set_scopes cells bufs bodies scopes cur_body members host]. rewrite map_upd. reflexivity. Qed.
Lemma view_put_scope_same s i c c' : nth_error (scopes s) i = Some c -> sc_vars c' = sc_vars c -> sc_alive c' = sc_alive c -> view (set_scopes (upd i c' (scopes s)) s) = view s.
Proof. intros N Q1 Q2. rewrite view_put_scope, Q1, Q2, upd_id by (now apply view_scope). apply w_scopes_id. Qed.
Lemma view_add_scope s c : view (set_scopes (scopes s ++ [c]) s) = w_set_scopes (w_scopes (view s) ++ [(sc_vars c, sc_alive c)]) (view s).
Proof. unfold view at 1. cbn [set_scopes cells bufs bodies scopes cur_body members host]. rewrite map_app. reflexivity. Qed.

Section Bobs.
Variables (sg : bool) (out : bytes) (listing : bytes -> option (list bytes)).
Variables (pow : Z -> Z -> option Z) (exists_ : bytes -> bool) (files : bytes -> file).
Notation cf := (bob_conf sg out listing pow exists_ files).

(** ** Giving references up *)
Definition keeps (s s' : st bob) : Prop := cur_rv s' = cur_rv s.
Definition gave (g : gh) E X Z L (s s' : st bob) : Prop := inv g E X Z L (view s') /\ ext true g (view s) g (view s') /\ keeps s s'.
Lemma gave_trans g E X Z L E' X' Z' L' s s1 s2 : gave g E X Z L s s1 -> gave g E' X' Z' L' s1 s2 -> gave g E' X' Z' L' s s2.
Proof. intros (_ & A & B) (C & D & F). split; [exact C|]. split; [eapply ext_trans; eassumption|]. unfold keeps in *. congruence. Qed.
Lemma owed_tok g E X Z a L w n p : inv g E X Z (a :: L) w -> nth_error (w_cells w) a = Some (n, p) -> res p = true -> (Z.of_nat (owed g E L w a) + 1 <= n)%Z.
Proof. intros I N R. pose proof (v_cnt _ _ _ _ _ _ I a n p N R) as C. unfold owed in *. rewrite count_cons, Nat.eqb_refl in C. cbn [bit] in C. lia. Qed.

Lemma loop_ok (dec : addr -> M bob unit) :
  (forall a g E X Z L s, inv g E X Z (a :: L) (view s) -> (forall x, In x X -> In x L) -> wp (dec a) s (fun _ s' => gave g E X Z L s s')) ->
  forall vs g E X Z L s, inv g E X Z (vals vs ++ L) (view s) -> (forall x, In x X -> In x L) ->
  wp (iterM (fun v => match v_val v with Some a => dec a | None => ret tt end) vs) s (fun _ s' => gave g E X Z L s s').
Proof.
  intro D. induction vs as [|v vs IH]; intros g E X Z L s I HX.
  - apply wp_ret. split; [exact I|]. split; [apply ext_refl|reflexivity].
  - cbn [iterM]. apply wp_bind. unfold vals in I. cbn [flat_map] in I. fold (vals vs) in I. destruct (v_val v) as [a|].
    + eapply wp_impl; [apply (D a g E X Z (vals vs ++ L)); [exact I|]|]. { intros x J. apply in_or_app. right. auto. }
      intros u s1 _ G. eapply wp_impl; [apply (IH g E X Z L s1); [exact (proj1 G)|exact HX]|]. intros u2 s2 _ G2. exact (gave_trans _ _ _ _ _ _ _ _ _ _ _ _ G G2).
    + apply wp_ret. apply IH; assumption.
Qed.

Lemma free_state_ok d s (F : unit -> st bob -> Prop) : (exists y, nth_error (b_states (host s)) d = Some (Some y)) -> F tt (set_host (set_states (upd d None (b_states (host s))) (host s)) s) -> wp (free_state d) s F.
Proof. intros (y & N) Q. unfold wp, free_state. rewrite N. exact Q. Qed.
Lemma free_buf_ok d s (F : unit -> st bob -> Prop) : (exists y, nth_error (bufs s) d = Some (Some y)) -> F tt (set_bufs (upd d None (bufs s)) s) -> wp (free_buf d) s F.
Proof. intros (y & N) Q. unfold wp, free_buf. rewrite N. exact Q. Qed.
Lemma free_body_ok d s (F : unit -> st bob -> Prop) : (exists y, nth_error (bodies s) d = Some (Some y)) -> F tt (set_bodies (upd d None (bodies s)) s) -> wp (free_body d) s F.
Proof. intros (y & N) Q. unfold wp, free_body. rewrite N. exact Q. Qed.
Lemma ext_dead q g w i vs : nth_error (w_scopes w) i = Some (vs, true) -> inst w i -> ext q g w g (w_set_scopes (upd i (vs, false) (w_scopes w)) w).
Proof.
  intros N J. apply ext_scopes; auto. intros i' vs' al N'. destruct (Nat.eq_dec i i') as [<-|D].
  - rewrite N in N'. injection N' as <- <-. exists vs, false. split; [exact (nth_mid _ _ _ _ N)|auto].
  - exists vs', al. rewrite upd_other by exact D. auto.
Qed.

Lemma decref_ok : forall n a g E X Z L s, inv g E X Z (a :: L) (view s) -> (forall x, In x X -> In x L) -> wp (decref cf n a) s (fun _ s' => gave g E X Z L s s').
Proof.
  induction n as [|n IH]; intros a g E X Z L s I HX; [apply wp_nofuel|]. cbn [decref]. apply wp_bind, wp_get_cell. intros c Nc. apply wp_bind. unfold put_cell. apply wp_modify.
  set (c' := Cell (c_name c) (down (c_cnt c)) (c_owner c) (c_val c)). set (s1 := set_cells (upd a c' (cells s)) s).
  pose proof (view_cell _ _ _ Nc) as Na. assert (Dn : res (c_val c) = true -> down (c_cnt c) = (c_cnt c - 1)%Z /\ (Z.of_nat (owed g E L (view s) a) + 1 <= c_cnt c)%Z).
  { intro R. pose proof (owed_tok _ _ _ _ _ _ _ _ _ I Na R) as C. split; [|exact C]. unfold down. destruct (Z.eqb_spec (c_cnt c) 0); [lia|reflexivity]. }
  assert (I1 : inv g E X Z L (view s1)).
  { unfold s1. rewrite view_put. unfold c'; cbn [c_cnt c_val]. eapply inv_recount; [exact I|exact Na| |exact HX| | |].
    - intros b D. rewrite count_cons. destruct (Nat.eqb_spec b a); [contradiction|reflexivity].
    - intro R. destruct (Dn R) as (-> & C). lia.
    - intros R _. destruct (inv_tok _ _ _ _ _ _ _ _ _ I Na R (or_introl (or_introl eq_refl))) as (_ & A). exact A.
    - intro R. left. destruct (Dn R) as (-> & C). lia. }
  assert (E1 : ext true g (view s) g (view s1)) by (unfold s1; rewrite view_put; exact (ext_recount _ _ _ _ _ _ _ Na)).
  assert (K1 : keeps s s1) by reflexivity.
  assert (Na1 : nth_error (cells s1) a = Some c') by exact (nth_mid _ _ _ _ Nc).
  destruct (0 <? down (c_cnt c))%Z eqn:Q; [apply wp_ret; split; [exact I1|split; assumption]|]. apply Z.ltb_ge in Q.
  unfold val_free. apply wp_bind, wp_get_cell. intros cx Ncx. rewrite Na1 in Ncx. injection Ncx as <-. unfold c'; cbn [c_val].
  assert (Z0 : res (c_val c) = true -> owed g E L (view s) a = 0 /\ (0 < c_cnt c)%Z) by (intro R; destruct (Dn R) as (D & C); split; lia).
  assert (Pa : res (c_val c) = true -> P g a = false) by (intro R; destruct (Z0 R) as (O & _); unfold owed in O; destruct (P g a); [cbn [bit] in O; lia|reflexivity]).
  assert (La : res (c_val c) = true -> ~ In a L) by (intros R J; destruct (Z0 R) as (O & _); apply count_in in J; unfold owed in O; lia).
  pose proof (view_cell _ _ _ Na1) as Va1. unfold c' in Va1; cbn [c_cnt c_val] in Va1.
  assert (Al : res (c_val c) = true -> alive (view s) (c_val c)) by (intro R; exact (v_alive _ _ _ _ _ _ I a _ _ Na R (proj2 (Z0 R)))).
  destruct (c_val c) as [| | |b k| | |f|k i d] eqn:Vc; try (apply wp_ret; split; [exact I1|split; assumption]).
  - apply free_buf_ok; [exact (Al eq_refl)|]. split; [|split].
    + exact (inv_free_buf _ _ _ _ _ _ _ _ _ _ I1 Va1 Q (Pa eq_refl)).
    + eapply ext_trans; [exact E1|]. apply ext_same; auto.
    + exact K1.
  - destruct (f_body f) as [b|] eqn:Fb; [|apply wp_ret; split; [exact I1|split; assumption]]. assert (R : res (PFn f) = true) by (cbn; now rewrite Fb).
    apply free_body_ok; [exact (Al R b Fb)|]. split; [|split].
    + exact (inv_free_body _ _ _ _ _ _ _ _ _ _ I1 Va1 Q Fb (Pa R)).
    + eapply ext_trans; [exact E1|]. apply ext_same; auto.
    + exact K1.
  - specialize (Al eq_refl) as ((vs & As) & Ad). specialize (Pa eq_refl). specialize (La eq_refl). assert (Xa : ~ In a X) by auto.
    destruct (Z0 eq_refl) as (_ & Gn).
    assert (Ei : forall j, E i j = false).
    { intro j. destruct (E i j) eqn:Qe; [|reflexivity]. destruct (v_free _ _ _ _ _ _ I i j a _ k d Qe Na) as [B|[B|B]]; [lia|contradiction|congruence]. }
    assert (Ins : inst (view s1) i) by (now exists a, (down (c_cnt c)), k, d).
    set (Z' := match d with Some x => x :: Z | None => Z end).
    assert (Sh : forall b n' k' i' d', nth_error (w_cells (view s1)) b = Some (n', PInst k' i' d') -> share (PInst k i d) (PInst k' i' d') -> b = a).
    { intros b n' k' i' d' Nb Sh. destruct (Nat.eq_dec b a) as [|D]; [assumption|]. rewrite (v_share _ _ _ _ _ _ I1 a b _ _ _ _ Va1 Nb (fun x => D (eq_sym x)) Sh) in Pa. discriminate. }
    assert (I2 : inv g E X Z' L (view s1)).
    { unfold Z'. destruct d as [x|]; [|exact I1]. apply inv_pend; [exact I1| |exact (Ad x eq_refl)]. intros b n' k' i' Nb.
      rewrite (Sh b n' k' i' _ Nb) in Nb by (right; eauto). rewrite Va1 in Nb. injection Nb as <- _ _. left. lia. }
    assert (Sc1 : nth_error (w_scopes (view s1)) i = Some (vs, true)) by exact As.
    assert (I3 : inv g (open i E) X Z' (vals vs ++ L) (view s1)).
    { apply inv_open; [exact I2|exact Sc1|exact (v_inst _ _ _ _ _ _ I1 i Ins)|exact Ei|]. intros b n' k' d' Nb. rewrite (Sh b n' k' i d' Nb) in Nb by (left; reflexivity). rewrite Va1 in Nb. injection Nb as <- _ _. left. lia. }
    apply wp_bind. unfold scope_free. apply wp_bind, wp_get_scope. intros sc Nsc Asc. pose proof (view_scope _ _ _ Nsc) as Vsc. rewrite Sc1 in Vsc. injection Vsc as Vv _. apply wp_bind.
    rewrite <- Vv. eapply wp_impl; [apply (loop_ok (decref cf n) IH vs g (open i E) X Z' L s1 I3 HX)|]. intros u s2 _ (I4 & E4 & K4).
    apply wp_bind, wp_get_scope. intros sc2 Nsc2 Asc2. unfold put_scope. apply wp_modify.
    pose proof (view_scope _ _ _ Nsc2) as Vsc2. rewrite Asc2 in Vsc2.
    destruct (e_cells _ _ _ _ _ E4 _ _ _ Va1) as (n2 & Va2).
    assert (Sh2 : forall b n' k' i' d', nth_error (w_cells (view s2)) b = Some (n', PInst k' i' d') -> share (PInst k i d) (PInst k' i' d') -> b = a).
    { intros b n' k' i' d' Nb Sq. destruct (Nat.eq_dec b a) as [|D]; [assumption|]. rewrite (v_share _ _ _ _ _ _ I4 a b _ _ _ _ Va2 Nb (fun x => D (eq_sym x)) Sq) in Pa. discriminate. }
    assert (N2 : (n2 <= 0)%Z).
    { destruct (v_free _ _ _ _ _ _ I4 i 0 a _ k d (ltac:(unfold open; now rewrite Nat.eqb_refl)) Va2) as [B|[B|B]]; [exact B|contradiction|congruence]. }
    set (s3 := set_scopes (upd i (Scope (sc_vars sc2) (sc_owner sc2) (sc_class sc2) false) (scopes s2)) s2).
    assert (Ins2 : inst (view s2) i) by (now exists a, n2, k, d).
    assert (W3 : view s3 = w_set_scopes (upd i (sc_vars sc2, false) (w_scopes (view s2))) (view s2)) by (unfold s3; now rewrite view_put_scope).
    assert (I5 : inv g E X Z' L (view s3)).
    { rewrite W3. apply inv_dead; [exact I4|exact Vsc2|exact Ei|exact Ins2|]. intros b n' k' d' Nb. pose proof (Sh2 b n' k' i d' Nb (or_introl eq_refl)). subst b. rewrite Va2 in Nb. injection Nb as <- _ _. exact N2. }
    assert (E5 : ext true g (view s) g (view s3)).
    { eapply ext_trans; [exact E1|]. eapply ext_trans; [exact E4|]. rewrite W3. apply ext_dead; assumption. }
    assert (K5 : keeps s s3) by (unfold keeps, s3 in *; cbn; congruence).
    destruct d as [x|]; [|apply wp_ret; split; [exact I5|split; assumption]]. apply free_state_ok.
    + exact (v_pends _ _ _ _ _ _ I5 x (or_introl eq_refl)).
    + split; [|split].
      * change (inv g E X Z L (w_set_states (upd x None (w_states (view s3))) (view s3))). apply (inv_free_state _ _ _ _ _ _ a n2 k i x); [exact I5|rewrite W3; exact Va2|exact N2|exact Pa|].
        intro J. destruct (v_pend _ _ _ _ _ _ I x a _ k i J Na) as [B|[B|B]]; [lia|contradiction|congruence].
      * eapply ext_trans; [exact E5|]. apply ext_same; auto.
      * exact K5.
Qed.

(** ** The invariant between steps *)
Definition rvs (s : st bob) : list addr := match cur_rv s with Some (RVal a) => [a] | _ => [] end.
Definition Inv (g : gh) (T : list addr) (s : st bob) : Prop := ok g (rvs s ++ T) (view s).
Definition otok (o : option addr) : list addr := match o with Some a => [a] | None => [] end.
Definition ntok {A} (_ : A) : list addr := [].
Definition post {A} (g0 : gh) (s0 : st bob) (T : list addr) (tk : A -> list addr) (a : A) (s : st bob) : Prop :=
  exists g, Inv g (tk a ++ T) s /\ ext true g0 (view s0) g (view s).
Definition live (g : gh) (L : list addr) (a : addr) : Prop := In a L \/ P g a = true.

Lemma count_nil a : count [] a = 0. Proof. reflexivity. Qed.
Ltac cnt := intro; cbn [app]; repeat rewrite ?count_app, ?count_cons, ?count_nil; lia.
Lemma Inv_weak g T T' s : Inv g T s -> (forall a, count T' a <= count T a) -> Inv g T' s.
Proof. intros I C. eapply ok_weak; [exact I|]. intro a. rewrite !count_app. specialize (C a). lia. Qed.
Lemma Inv_drop g a T s : Inv g (a :: T) s -> Inv g T s.
Proof. intro I. eapply Inv_weak; [exact I|]. cnt. Qed.
Lemma Inv_drops g M T s : Inv g (M ++ T) s -> Inv g T s.
Proof. intro I. eapply Inv_weak; [exact I|]. cnt. Qed.
Lemma Inv_pin g a T s : Inv g (a :: T) s -> Inv (pin a g) T s.
Proof. intro I. apply ok_pin. eapply ok_weak; [exact I|]. cnt. Qed.
Lemma Inv_pins g M T s : Inv g (M ++ T) s -> Inv (pins M g) T s.
Proof. intro I. apply ok_pins. eapply ok_weak; [exact I|]. cnt. Qed.
Lemma Inv_view g T s s' : view s' = view s -> cur_rv s' = cur_rv s -> Inv g T s -> Inv g T s'.
Proof. unfold Inv, rvs. intros -> ->. auto. Qed.
Lemma pin_P a g : P (pin a g) a = true. Proof. cbn. now rewrite Nat.eqb_refl. Qed.
Lemma pin_mono a g b : P g b = true -> P (pin a g) b = true. Proof. cbn. intros ->. apply orb_true_r. Qed.
Lemma pins_P l g b : In b l -> P (pins l g) b = true.
Proof. intro J. cbn. apply orb_true_iff. left. apply existsb_exists. exists b. split; [exact J|apply Nat.eqb_refl]. Qed.
Lemma pins_mono l g b : P g b = true -> P (pins l g) b = true. Proof. cbn. intros ->. apply orb_true_r. Qed.
Lemma ext_pin q g w a : ext q g w (pin a g) w. Proof. apply ext_same; auto. apply pin_mono. Qed.
Lemma ext_pins q g w l : ext q g w (pins l g) w. Proof. apply ext_same; auto. apply pins_mono. Qed.
Lemma Inv_live g T s a n p : Inv g T s -> live g T a -> nth_error (w_cells (view s)) a = Some (n, p) -> res p = true -> alive (view s) p.
Proof. intros I L N R. eapply inv_tok; [exact I|exact N|exact R|]. destruct L as [L|L]; [left; apply in_or_app; now right|now right]. Qed.
Lemma Inv_part g T s a c b : Inv g T s -> nth_error (cells s) a = Some c -> In b (parts (c_val c)) -> P g b = true.
Proof. intros I N J. exact (v_part _ _ _ _ _ _ I _ _ _ _ (view_cell _ _ _ N) J). Qed.

(** Go on after a step. *)
Lemma wp_step {A B} (m : M bob A) (k : A -> M bob B) g s T tk (F : B -> st bob -> Prop) :
  wp m s (post g s T tk) ->
  (forall a s' g', m s = Ret a s' -> Inv g' (tk a ++ T) s' -> ext true g (view s) g' (view s') -> wp (k a) s' F) -> wp (mbind m k) s F.
Proof. intros W K0. apply wp_bind. eapply wp_impl; [exact W|]. intros a s' Q (g' & I & X). eauto. Qed.
Lemma post_from {A} g0 s0 g s T (tk : A -> list addr) (a : A) s' : ext true g0 (view s0) g (view s) -> post g s T tk a s' -> post g0 s0 T tk a s'.
Proof. intros X (g' & I & Y). exists g'. split; [exact I|]. eapply ext_trans; eassumption. Qed.
Lemma wp_from {A} (m : M bob A) g0 s0 g s T tk : ext true g0 (view s0) g (view s) -> wp m s (post g s T tk) -> wp m s (post g0 s0 T tk).
Proof. intros X W. eapply wp_impl; [exact W|]. intros a s' _. now apply post_from. Qed.
Lemma wp_ret_post {A} g0 s0 g s T tk (a : A) : Inv g (tk a ++ T) s -> ext true g0 (view s0) g (view s) -> wp (ret a) s (post g0 s0 T tk).
Proof. intros I X. apply wp_ret. exists g. auto. Qed.

(** ** Reading *)
Definition reads {A} (m : M bob A) (s : st bob) : Prop := wp m s (fun _ s' => s' = s).
Lemma wp_reads {A B} (m : M bob A) (k : A -> M bob B) s F : reads m s -> (forall a, m s = Ret a s -> wp (k a) s F) -> wp (mbind m k) s F.
Proof. intros W K0. apply wp_bind. eapply wp_impl; [exact W|]. intros a s' Q ->. auto. Qed.
Lemma reads_bind {A B} (m : M bob A) (k : A -> M bob B) s : reads m s -> (forall a, m s = Ret a s -> reads (k a) s) -> reads (mbind m k) s.
Proof. intros W K0. eapply wp_reads; [exact W|exact K0]. Qed.
Lemma reads_ret {A} (a : A) s : reads (ret a) s. Proof. reflexivity. Qed.
Lemma reads_cell a s : reads (get_cell a) s. Proof. apply wp_get_cell. reflexivity. Qed.
Lemma reads_scope a s : reads (get_scope a) s. Proof. apply wp_get_scope. reflexivity. Qed.
Lemma reads_raise {A} x y s : reads (raise x y : M bob A) s. Proof. apply wp_raise. Qed.
Lemma reads_died {A} s : reads (died : M bob A) s. Proof. apply wp_died. Qed.
Lemma reads_undef {A} u s : okub u -> reads (undef u : M bob A) s. Proof. apply wp_undef. Qed.
Lemma reads_name x s : reads (read_name x) s.
Proof. unfold reads, wp, read_name. destruct x as [|i x|x]; auto. destruct (nth_error (scopes s) i) as [c|]; [destruct (sc_alive c)|]; auto with ub. Qed.
Lemma reads_buf b n s : (exists t, nth_error (bufs s) b = Some (Some t)) -> reads (read_buf b n) s.
Proof. intros (t & N). unfold reads, wp, read_buf. rewrite N. destruct (Nat.leb _ _); auto with ub. Qed.
Lemma reads_upto b n s : (exists t, nth_error (bufs s) b = Some (Some t)) -> reads (read_upto b n) s.
Proof. intros (t & N). unfold reads, wp, read_upto. rewrite N. destruct (_ || _); auto with ub. Qed.
Lemma reads_stack s : reads cur_stack s. Proof. unfold reads, wp, cur_stack. destruct (nth_error _ _); auto with ub. Qed.
Lemma reads_cur s : reads cur_scope s.
Proof. apply reads_bind; [apply reads_stack|]. intros [|i l] _; [apply reads_died|apply reads_ret]. Qed.
Lemma reads_find i x s : reads (find_var i x) s.
Proof. apply reads_bind; [apply reads_scope|]. intros c _. apply reads_ret. Qed.
Lemma reads_mapM {A B} (f : A -> M bob B) s : forall l, (forall x, In x l -> reads (f x) s) -> reads (mapM f l) s.
Proof.
  induction l as [|x l IH]; intro Q; cbn [mapM]; [apply reads_ret|]. apply reads_bind; [apply Q; now left|]. intros y _. apply reads_bind; [apply IH; intros z J; apply Q; now right|].
  intros ys _. apply reads_ret.
Qed.
Lemma str_live g T s a c b n : Inv g T s -> live g T a -> nth_error (cells s) a = Some c -> c_val c = PStr b n -> exists t, nth_error (bufs s) b = Some (Some t).
Proof. intros I L N V. pose proof (view_cell _ _ _ N) as W. rewrite V in W. exact (Inv_live _ _ _ _ _ _ I L W eq_refl). Qed.
Lemma part_live g T s a c b : Inv g T s -> nth_error (cells s) a = Some c -> In b (parts (c_val c)) -> live g T b.
Proof. intros I N J. right. exact (Inv_part _ _ _ _ _ _ I N J). Qed.

Lemma reads_all2 {A} (eq : A -> A -> M bob bool) s : forall xs ys, (forall x y, In x xs -> In y ys -> reads (eq x y) s) -> reads (all2 eq xs ys) s.
Proof.
  induction xs as [|x xs IH]; intros [|y ys] Q; cbn [all2]; try apply reads_ret. apply reads_bind; [apply Q; now left|]. intros b _. destruct b; [|apply reads_ret].
  apply IH. intros; apply Q; now right.
Qed.
Lemma reads_find_map {A} (eq : A -> A -> M bob bool) s k v : forall ys, (forall k' v', In (k', v') ys -> reads (eq k k') s /\ reads (eq v v') s) -> reads (map_find eq k v ys) s.
Proof.
  induction ys as [|(k', v') ys IH]; intro Q; cbn [map_find]; [apply reads_ret|]. destruct (Q k' v' (or_introl eq_refl)). apply reads_bind; [assumption|]. intros b _. destruct b; [assumption|].
  apply IH. intros; apply Q; now right.
Qed.
Lemma reads_map_all {A} (eq : A -> A -> M bob bool) s ys : forall xs, (forall k v k' v', In (k, v) xs -> In (k', v') ys -> reads (eq k k') s /\ reads (eq v v') s) -> reads (map_all eq xs ys) s.
Proof.
  induction xs as [|(k, v) xs IH]; intro Q; cbn [map_all]; [apply reads_ret|]. apply reads_bind; [apply reads_find_map; intros; apply Q; [now left|assumption]|]. intros b _. destruct b; [|apply reads_ret].
  apply IH. intros; apply Q; [now right|assumption].
Qed.
Lemma in_keys kvs k v : In (k, v) kvs -> In k (parts (PMap kvs)) /\ In v (parts (PMap kvs)).
Proof. intro J. cbn. split; apply in_or_app; [left|right]; apply in_map_iff; now exists (k, v). Qed.
Lemma reads_eq g T s : Inv g T s -> forall n x y, live g T x -> live g T y -> reads (val_eq n x y) s.
Proof.
  intro I. induction n as [|n IH]; intros x y Lx Ly; [exact Logic.I|]. cbn [val_eq]. apply wp_bind, wp_get_cell. intros cx Nx. apply wp_bind, wp_get_cell. intros cy Ny.
  destruct (c_val cx) eqn:Vx, (c_val cy) eqn:Vy; try (destruct (Nat.eqb _ _); [|apply reads_ret]); try apply reads_ret.
  - apply reads_bind; [apply reads_buf; exact (str_live _ _ _ _ _ _ _ I Lx Nx Vx)|]. intros t _. apply reads_bind; [apply reads_buf; exact (str_live _ _ _ _ _ _ _ I Ly Ny Vy)|]. intros u _. apply reads_ret.
  - apply reads_all2. intros a b Ja Jb. rewrite <- Vx in Ja || (change (In a (parts (PVec es))) in Ja; rewrite <- Vx in Ja); change (In b (parts (PVec es0))) in Jb; rewrite <- Vy in Jb; apply IH; [exact (part_live _ _ _ _ _ _ I Nx Ja)|exact (part_live _ _ _ _ _ _ I Ny Jb)].
  - apply reads_map_all. intros k v k' v' Ja Jb. apply in_keys in Ja as (A1 & A2), Jb as (B1 & B2). rewrite <- Vx in A1, A2. rewrite <- Vy in B1, B2. split; apply IH; (exact (part_live _ _ _ _ _ _ I Nx A1) || exact (part_live _ _ _ _ _ _ I Nx A2) || exact (part_live _ _ _ _ _ _ I Ny B1) || exact (part_live _ _ _ _ _ _ I Ny B2)).
Qed.
Lemma reads_repr g T s : Inv g T s -> forall n b x, live g T x -> reads (repr n b x) s.
Proof.
  intro I. induction n as [|n IH]; intros b x Lx; [exact Logic.I|]. cbn [repr]. apply wp_bind, wp_get_cell. intros c N.
  destruct (c_val c) eqn:V; try apply reads_ret.
  - apply reads_bind; [apply reads_upto; exact (str_live _ _ _ _ _ _ _ I Lx N V)|]. intros t _. apply reads_ret.
  - apply reads_bind; [apply reads_mapM; intros y J; apply IH; apply (part_live _ _ _ _ _ _ I N); rewrite V; exact J|]. intros t _. apply reads_ret.
  - apply reads_bind; [|intros t _; apply reads_ret]. apply reads_mapM. intros (k, v) J. apply in_keys in J as (J1 & J2). rewrite <- V in J1, J2. cbn [fst snd].
    apply reads_bind; [apply IH; exact (part_live _ _ _ _ _ _ I N J1)|]. intros t _. apply reads_bind; [apply IH; exact (part_live _ _ _ _ _ _ I N J2)|]. intros u _. apply reads_ret.
  - destruct (c_name c) as [|i [|z l]|[|z l]]; try apply reads_ret; (apply reads_bind; [apply reads_name|]; intros t _; apply reads_ret).
  - apply wp_bind, wp_get_cell. intros ck _. apply reads_bind; [apply reads_name|]. intros t _. apply reads_ret.
Qed.

(** ** New values *)
(** What can be made into a value. *)
Definition sound (g : gh) (s : st bob) (p : payload) : Prop :=
  fresh_for (view s) p /\ (forall a, In a (parts p) -> P g a = true) /\ (forall k i d, p <> PInst k i d) /\ (forall f, p = PFn f -> f_scope f = None).
Lemma alloc_ok g T s p : Inv g T s -> sound g s p -> wp (alloc p) s (post g s T (fun a => [a])).
Proof.
  intros I (Fr & Pa & Ni & Nf). unfold wp, alloc. exists g. split.
  - unfold Inv. rewrite view_alloc. cbn [c_cnt c_val]. eapply ok_weak; [apply (ok_alloc g (rvs s ++ T)); [exact I|exact Fr|exact Pa| |]|].
    + intros k i d Q. destruct (Ni k i d Q).
    + intros f i Q F. rewrite (Nf f Q) in F. discriminate.
    + rewrite view_len. change (rvs (set_cells _ s)) with (rvs s). cnt.
  - rewrite view_alloc. apply ext_alloc; auto.
    + intros k i d Q. destruct (Ni k i d Q).
    + intros f i Q F. rewrite (Nf f Q) in F. discriminate.
Qed.
Lemma sound_plain g s p : res p = false -> (forall a, In a (parts p) -> P g a = true) -> (forall f, p <> PFn f) -> sound g s p.
Proof.
  intros R Pa Nf. split; [|split; [exact Pa|split]].
  - split; [|split].
    + destruct p; try discriminate; cbn; auto. destruct (Nf f eq_refl).
    + rewrite R. discriminate.
    + intros a n q _ Sh. apply share_res in Sh as (Sh & _). congruence.
  - intros k i d ->. discriminate.
  - intros f Q. destruct (Nf f Q).
Qed.
Lemma sound_none g s : sound g s PNone. Proof. apply sound_plain; [reflexivity|contradiction|discriminate]. Qed.
Lemma sound_bool g s b : sound g s (PBool b). Proof. apply sound_plain; [reflexivity|contradiction|discriminate]. Qed.
Lemma sound_int g s b : sound g s (PInt b). Proof. apply sound_plain; [reflexivity|contradiction|discriminate]. Qed.
Lemma sound_vec g s es : (forall a, In a es -> P g a = true) -> sound g s (PVec es). Proof. intro Q. apply sound_plain; [reflexivity|exact Q|discriminate]. Qed.
Lemma sound_map g s kvs : (forall k v, In (k, v) kvs -> P g k = true /\ P g v = true) -> sound g s (PMap kvs).
Proof.
  intro Q. apply sound_plain; [reflexivity| |discriminate]. cbn. intros a J. apply in_app_or in J as [J|J]; apply in_map_iff in J as ((k, v) & <- & J); apply Q in J; now destruct J.
Qed.
(** A new buffer. *)
Lemma new_buf_ok g T s t : Inv g T s -> wp (new_buf t) s (fun b s' => Inv g T s' /\ ext true g (view s) g (view s') /\ forall n, sound g s' (PStr b n)).
Proof.
  intro I. unfold wp, new_buf. set (s' := set_bufs (bufs s ++ [Some t]) s). assert (I' : Inv g T s') by exact (ok_bufs _ _ _ (Some t) I). split; [exact I'|]. split; [apply ext_same; auto|].
  intro n. split; [|split; [intros a []|split; [discriminate|discriminate]]]. split; [|split].
  - cbn. rewrite app_length. cbn. lia.
  - intros _. cbn. exists t. rewrite nth_error_app2, Nat.sub_diag by lia. reflexivity.
  - intros a m q N Sh. destruct q; cbn in Sh; try contradiction. subst buf. pose proof (v_bound _ _ _ _ _ _ I a m _ N) as B. cbn in B. lia.
Qed.
Lemma make_str_ok g T s t : Inv g T s -> wp (make_str t) s (post g s T (fun a => [a])).
Proof.
  intro I. unfold make_str. apply wp_bind. eapply wp_impl; [exact (new_buf_ok g T s t I)|]. intros b s' _ (I' & X & So). eapply wp_from; [exact X|]. apply alloc_ok; auto.
Qed.
Lemma incref_ok g T s a : Inv g T s -> wp (incref a) s (post g s T (fun _ => [a])).
Proof.
  intro I. unfold incref. apply wp_bind, wp_get_cell. intros c N. apply wp_bind, wp_assert. intro Q. apply Z.ltb_lt in Q. unfold put_cell. apply wp_modify. exists g. rewrite view_put. cbn [c_cnt c_val]. split.
  - unfold Inv. rewrite view_put. cbn [c_cnt c_val]. eapply ok_weak; [exact (ok_incref _ _ _ _ _ _ I (view_cell _ _ _ N) Q)|]. change (rvs (set_cells _ s)) with (rvs s). cnt.
  - exact (ext_recount _ _ _ _ _ _ _ (view_cell _ _ _ N)).
Qed.
Lemma drop_ok n g T s a : Inv g (a :: T) s -> wp (decref cf n a) s (post g s T ntok).
Proof.
  intro I. eapply wp_impl; [apply (decref_ok n a g none [] [] (rvs s ++ T) s); [|contradiction]|].
  - eapply ok_weak; [exact I|]. cnt.
  - intros u s' _ (I' & X & Kp). exists g. split; [|exact X]. unfold Inv, rvs. rewrite Kp. exact I'.
Qed.
(** A copy, that is never released. *)
Lemma copy_ok g T s a : Inv g T s -> P g a = true -> wp (val_copy a) s (fun b s' => exists g', Inv g' T s' /\ ext true g (view s) g' (view s') /\ P g' b = true).
Proof.
  intros I Pa. unfold val_copy. apply wp_bind, wp_get_cell. intros c N. apply wp_reads.
  { destruct (c_name c); [apply reads_ret| |]; (apply reads_bind; [apply reads_name|]; intros t _; apply reads_ret). }
  intros x _. apply wp_bind. destruct (c_val c) as [| | |b0 n| | | |] eqn:V.
  4: { apply wp_bind. eapply wp_impl; [apply reads_upto; eapply str_live; [exact I|right; exact Pa|exact N|exact V]|]. intros t s0 _ ->. apply wp_bind.
       eapply wp_impl; [exact (new_buf_ok g T s (t ++ [NUL]) I)|]. intros b s' _ (I' & X & So). apply wp_ret. unfold wp.
       exists (pin (length (cells s')) g). split; [|split; [|apply pin_P]].
       - apply Inv_pin. pose proof (So n) as (Fr & Pp & Ni & Nf). unfold Inv. rewrite view_alloc. cbn [c_cnt c_val].
         eapply ok_weak; [apply (ok_alloc g (rvs s' ++ T)); [exact I'|exact Fr|exact Pp| |]|].
         + intros k i d Q. destruct (Ni k i d Q).
         + intros f i Q F. rewrite (Nf f Q) in F. discriminate.
         + rewrite view_len. change (rvs (set_cells _ s')) with (rvs s'). cnt.
       - eapply ext_trans; [exact X|]. rewrite view_alloc. apply ext_alloc; auto; try discriminate. apply pin_mono. }
  all: apply wp_ret; unfold wp; rewrite <- V; exists (pin (length (cells s)) g); (split; [|split; [|apply pin_P]]);
    [ unfold Inv; rewrite view_alloc; cbn [c_cnt c_val]; rewrite <- view_len; exact (ok_dup _ _ _ _ _ _ I (view_cell _ _ _ N) Pa)
    | rewrite view_alloc; cbn [c_cnt c_val]; apply ext_alloc; auto;
      [apply pin_mono|intros k' i' d' Q _; exists a, (c_cnt c), k', d'; rewrite <- Q; exact (view_cell _ _ _ N)|intros f' i' Q F _; exists a, (c_cnt c), f'; rewrite <- Q; split; [exact (view_cell _ _ _ N)|exact F]] ].
Qed.
Lemma copies_ok : forall l g T s, Inv g T s -> (forall a, In a l -> P g a = true) ->
  wp (mapM val_copy l) s (fun l' s' => exists g', Inv g' T s' /\ ext true g (view s) g' (view s') /\ forall b, In b l' -> P g' b = true).
Proof.
  induction l as [|a l IH]; intros g T s I Q; cbn [mapM].
  - apply wp_ret. exists g. split; [exact I|]. split; [apply ext_refl|contradiction].
  - apply wp_bind. eapply wp_impl; [apply copy_ok; [exact I|apply Q; now left]|]. intros b s1 _ (g1 & I1 & X1 & P1). apply wp_bind.
    eapply wp_impl; [apply (IH g1 T s1 I1); intros x J; apply (e_P _ _ _ _ _ X1), Q; now right|]. intros l' s2 _ (g2 & I2 & X2 & P2). apply wp_ret. exists g2. split; [exact I2|].
    split; [eapply ext_trans; eassumption|]. intros x [<-|J]; [exact (e_P _ _ _ _ _ X2 _ P1)|auto].
Qed.
Lemma pair_copies_ok : forall (l : list (addr * addr)) g T s, Inv g T s -> (forall k v, In (k, v) l -> P g k = true /\ P g v = true) ->
  wp (mapM (fun kv => k <- val_copy (fst kv) ;; v <- val_copy (snd kv) ;; ret (k, v))%fl l) s
    (fun l' s' => exists g', Inv g' T s' /\ ext true g (view s) g' (view s') /\ forall k v, In (k, v) l' -> P g' k = true /\ P g' v = true).
Proof.
  induction l as [|(a, b) l IH]; intros g T s I Q; cbn [mapM].
  - apply wp_ret. exists g. split; [exact I|]. split; [apply ext_refl|contradiction].
  - destruct (Q a b (or_introl eq_refl)) as (Qa & Qb). apply wp_bind, wp_bind. cbn [fst snd]. eapply wp_impl; [apply copy_ok; [exact I|exact Qa]|]. intros a' s1 _ (g1 & I1 & X1 & P1). apply wp_bind.
    eapply wp_impl; [apply copy_ok; [exact I1|exact (e_P _ _ _ _ _ X1 _ Qb)]|]. intros b' s2 _ (g2 & I2 & X2 & P2). apply wp_ret. apply wp_bind.
    assert (X : ext true g (view s) g2 (view s2)) by (eapply ext_trans; eassumption).
    eapply wp_impl; [apply (IH g2 T s2 I2); intros k v J; destruct (Q k v (or_intror J)); split; apply (e_P _ _ _ _ _ X); assumption|]. intros l' s3 _ (g3 & I3 & X3 & P3). apply wp_ret. exists g3. split; [exact I3|].
    split; [eapply ext_trans; eassumption|]. intros k v [J|J]; [|auto]. injection J as <- <-. split; apply (e_P _ _ _ _ _ X3); [apply (e_P _ _ _ _ _ X2)|]; assumption.
Qed.

(** ** Where values go *)
Lemma deliver_ok g T s d a : Inv g (a :: T) s -> wp (deliver d a) s (post g s T otok).
Proof.
  intro I. destruct d; cbn [deliver].
  - apply wp_ret_post with (g := g); [cbn [otok app]; exact (Inv_drop _ _ _ _ I)|apply ext_refl].
  - apply wp_ret_post with (g := g); [exact I|apply ext_refl].
  - unfold wp. destruct (cur_rv s) eqn:Q; [exact Logic.I|]. exists g. split; [|apply ext_refl]. unfold Inv, rvs in *. rewrite Q in I. exact I.
Qed.
Lemma deliver_opt_ok g T s d o : Inv g (otok o ++ T) s -> wp (deliver_opt d o) s (post g s T otok).
Proof. intro I. destruct o as [a|]; cbn [deliver_opt]; [exact (deliver_ok g T s d a I)|]. apply wp_ret_post with (g := g); [exact I|apply ext_refl]. Qed.

(** ** Operators *)
Definition makes (g0 : gh) (s0 : st bob) (T : list addr) (r : option payload) (s : st bob) : Prop :=
  exists g, Inv g T s /\ ext true g0 (view s0) g (view s) /\ forall p, r = Some p -> sound g s p.
Lemma makes_here g T s r : Inv g T s -> (forall p, r = Some p -> sound g s p) -> makes g s T r s.
Proof. intros I S. exists g. split; [exact I|]. split; [apply ext_refl|exact S]. Qed.
Lemma makes_none g T s : Inv g T s -> makes g s T None s. Proof. intro I. apply makes_here; [exact I|discriminate]. Qed.
Lemma makes_int g T s z : Inv g T s -> makes g s T (Some (PInt z)) s. Proof. intro I. apply makes_here; [exact I|]. intros p Q. injection Q as <-. apply sound_int. Qed.
Lemma makes_bool g T s z : Inv g T s -> makes g s T (Some (PBool z)) s. Proof. intro I. apply makes_here; [exact I|]. intros p Q. injection Q as <-. apply sound_bool. Qed.
Lemma int_res_ok g T s z : Inv g T s -> wp (some_res (int_res z)) s (makes g s T).
Proof. intro I. unfold some_res, int_res. apply wp_bind. destruct (int64 z); [|apply wp_undef; auto with ub]. apply wp_ret, wp_ret. now apply makes_int. Qed.
Lemma equality_ok g T s n op l r : Inv g T s -> live g T l -> live g T r -> wp (equality n op l r) s (makes g s T).
Proof.
  intros I Ll Lr. unfold equality. destruct (is_op op _); [|destruct (is_op op _); [|apply wp_ret; now apply makes_none]].
  - apply wp_bind. eapply wp_impl; [exact (reads_eq g T s I n l r Ll Lr)|]. intros b s' _ ->. apply wp_ret. now apply makes_bool.
  - apply wp_bind. eapply wp_impl; [exact (reads_eq g T s I n l r Ll Lr)|]. intros b s' _ ->. apply wp_ret. now apply makes_bool.
Qed.
Lemma bin_op_ok g T s n op l r cl cr : Inv g T s -> live g T l -> live g T r -> nth_error (cells s) l = Some cl -> nth_error (cells s) r = Some cr -> wp (bin_op cf n op l r (c_val cl) (c_val cr)) s (makes g s T).
Proof.
  intros I Ll Lr Nl Nr. unfold bin_op. destruct (c_val cl) as [|x|x|b1 n1|xs|xs| |] eqn:Vl; try (apply wp_ret; now apply makes_none);
    destruct (c_val cr) as [|y|y|b2 n2|ys|ys| |] eqn:Vr; try (apply wp_ret; now apply makes_none).
  - destruct (is_op op _); [apply wp_ret; now apply makes_bool|]. destruct (is_op op _); [apply wp_ret; now apply makes_bool|]. destruct (is_op op _); [apply wp_ret; now apply makes_bool|]. now apply equality_ok.
  - destruct (is_op op _); [now apply int_res_ok|]. destruct (is_op op _); [now apply int_res_ok|]. destruct (is_op op _); [now apply int_res_ok|].
    destruct (is_op op _); [destruct (y =? 0)%Z; [apply wp_raise|now apply int_res_ok]|].
    destruct (is_op op _); [destruct (y =? 0)%Z; [apply wp_raise|]; destruct (int64 _); [apply wp_ret; now apply makes_int|apply wp_undef; auto with ub]|].
    destruct (is_op op _); [destruct (cf_pow _ _ _); [apply wp_ret; now apply makes_int|apply wp_undef; auto with ub]|].
    apply wp_bind. eapply wp_impl; [exact (equality_ok g T s n op l r I Ll Lr)|]. intros e s' _ M. destruct e as [p|]; [apply wp_ret; exact M|]. destruct M as (g' & I' & X & _).
    destruct (is_op op _); [apply wp_ret; exists g'; split; [exact I'|split; [exact X|intros p Q; injection Q as <-; apply sound_bool]]|].
    destruct (is_op op _); [apply wp_ret; exists g'; split; [exact I'|split; [exact X|intros p Q; injection Q as <-; apply sound_bool]]|].
    destruct (is_op op _); [apply wp_ret; exists g'; split; [exact I'|split; [exact X|intros p Q; injection Q as <-; apply sound_bool]]|].
    destruct (is_op op _); [apply wp_ret; exists g'; split; [exact I'|split; [exact X|intros p Q; injection Q as <-; apply sound_bool]]|].
    apply wp_ret. exists g'. split; [exact I'|split; [exact X|discriminate]].
  - destruct (is_op op _); [|now apply equality_ok]. apply wp_bind. eapply wp_impl; [apply reads_buf; exact (str_live _ _ _ _ _ _ _ I Ll Nl Vl)|]. intros t s' _ ->. apply wp_bind.
    eapply wp_impl; [apply reads_buf; exact (str_live _ _ _ _ _ _ _ I Lr Nr Vr)|]. intros u s' _ ->. apply wp_bind. eapply wp_impl; [exact (new_buf_ok g T s (t ++ u) I)|]. intros b s' _ (I' & X & So). apply wp_ret.
    exists g. split; [exact I'|]. split; [exact X|]. intros p Q. injection Q as <-. apply So.
  - destruct (is_op op _); [|now apply equality_ok]. apply wp_bind. eapply wp_impl; [apply (copies_ok (xs ++ ys) g T s I)|].
    { intros a J. apply in_app_or in J as [J|J]; [apply (Inv_part _ _ _ _ _ a I Nl); now rewrite Vl|apply (Inv_part _ _ _ _ _ a I Nr); now rewrite Vr]. }
    intros zs s' _ (g' & I' & X & Pz). apply wp_ret. exists g'. split; [exact I'|]. split; [exact X|]. intros p Q. injection Q as <-. now apply sound_vec.
  - destruct (is_op op _); [|now apply equality_ok]. apply wp_bind. eapply wp_impl; [apply (pair_copies_ok (xs ++ ys) g T s I)|].
    { intros k v J. apply in_app_or in J as [J|J]; apply in_keys in J as (J1 & J2); [rewrite <- Vl in J1, J2|rewrite <- Vr in J1, J2]; split; (exact (Inv_part _ _ _ _ _ _ I Nl J1) || exact (Inv_part _ _ _ _ _ _ I Nl J2) || exact (Inv_part _ _ _ _ _ _ I Nr J1) || exact (Inv_part _ _ _ _ _ _ I Nr J2)). }
    intros zs s' _ (g' & I' & X & Pz). apply wp_ret. exists g'. split; [exact I'|]. split; [exact X|]. intros p Q. injection Q as <-. now apply sound_map.
Qed.
Lemma binary_ok g T s n d l op r : Inv g (r :: l :: T) s -> wp (binary cf n d l op r) s (post g s T otok).
Proof.
  intro I. assert (I0 : Inv g T s) by (eapply Inv_weak; [exact I|]; cnt). assert (Ll : live g (r :: l :: T) l) by (left; cbn; auto). assert (Lr : live g (r :: l :: T) r) by (left; cbn; auto).
  unfold binary. apply wp_bind, wp_get_cell. intros cl Nl. apply wp_bind, wp_get_cell. intros cr Nr. cbn zeta. destruct (negb _ && negb _); [apply wp_raise|].
  assert (G : wp (p <- (if kind_eqb (kind_of (c_val cl)) TNone || kind_eqb (kind_of (c_val cr)) TNone
      then if is_op op "==" then ret (PBool (kind_eqb (kind_of (c_val cl)) (kind_of (c_val cr)))) else if is_op op "!=" then ret (PBool (negb (kind_eqb (kind_of (c_val cl)) (kind_of (c_val cr))))) else error cf (lit "can only check for equality to none value")
      else p <- bin_op cf n op l r (c_val cl) (c_val cr) ;; match p with Some p => ret p | None => error cf (lit "unknown operator " ++ quoted op ++ lit " for type " ++ type_str (c_val cl)) end) ;;
    a <- alloc p ;; decref cf n l ;; decref cf n r ;; ret (Some a))%fl s (post g s T otok)).
  2: { destruct d; [apply wp_ret_post with (g := g); [exact I0|apply ext_refl]|exact G|exact G]. }
  apply wp_bind. assert (W : wp (if kind_eqb (kind_of (c_val cl)) TNone || kind_eqb (kind_of (c_val cr)) TNone
      then if is_op op "==" then ret (PBool (kind_eqb (kind_of (c_val cl)) (kind_of (c_val cr)))) else if is_op op "!=" then ret (PBool (negb (kind_eqb (kind_of (c_val cl)) (kind_of (c_val cr))))) else error cf (lit "can only check for equality to none value")
      else p <- bin_op cf n op l r (c_val cl) (c_val cr) ;; match p with Some p => ret p | None => error cf (lit "unknown operator " ++ quoted op ++ lit " for type " ++ type_str (c_val cl)) end)%fl s (fun p s' => makes g s (r :: l :: T) (Some p) s')).
  { destruct (_ || _).
    - destruct (is_op op _); [apply wp_ret; now apply makes_bool|]. destruct (is_op op _); [apply wp_ret; now apply makes_bool|apply wp_raise].
    - apply wp_bind. eapply wp_impl; [exact (bin_op_ok g (r :: l :: T) s n op l r cl cr I Ll Lr Nl Nr)|]. intros p s' _ M. destruct p as [p|]; [apply wp_ret; exact M|apply wp_raise]. }
  eapply wp_impl; [exact W|]. intros p s1 _ (g1 & I1 & X1 & So). eapply wp_step; [exact (alloc_ok _ _ _ _ I1 (So p eq_refl))|]. intros a s2 g2 _ I2 X2.
  eapply wp_step; [apply (drop_ok n g2 (a :: r :: T)); eapply Inv_weak; [exact I2|]; cnt|]. intros u s3 g3 _ I3 X3.
  eapply wp_step; [apply (drop_ok n g3 (a :: T)); eapply Inv_weak; [exact I3|]; cbn [ntok]; cnt|]. intros u' s4 g4 _ I4 X4.
  apply wp_ret_post with (g := g4); [eapply Inv_weak; [exact I4|]; cbn [ntok otok]; cnt|]. eapply ext_trans; [exact X1|]. eapply ext_trans; [exact X2|]. eapply ext_trans; eassumption.
Qed.
Lemma unary_ok g T s n d op x : Inv g (x :: T) s -> wp (unary cf n d op x) s (post g s T otok).
Proof.
  intro I. assert (I0 : Inv g T s) by exact (Inv_drop _ _ _ _ I).
  assert (G : wp (c <- get_cell x ;;
    p <- match c_val c with
         | PInt z => if is_op op "-" then some_res (int_res (- z)) else ret None
         | PBool b => if is_op op "!" then ret (Some (PBool (negb b))) else ret None
         | _ => ret None
         end ;;
    match p with
    | None => error cf (lit "unknown operator " ++ quoted op ++ lit " for type " ++ type_str (c_val c))
    | Some p => a <- alloc p ;; decref cf n x ;; ret (Some a)
    end)%fl s (post g s T otok)).
  2: { destruct d; [apply wp_ret_post with (g := g); [exact I0|apply ext_refl]|exact G|exact G]. }
  apply wp_bind, wp_get_cell. intros c N. apply wp_bind.
  eapply wp_impl with (F := makes g s (x :: T)).
  { destruct (c_val c); try (apply wp_ret; now apply makes_none); destruct (is_op op _); try (apply wp_ret; now apply makes_none); [apply wp_ret; now apply makes_bool|now apply int_res_ok]. }
  intros p s1 _ (g1 & I1 & X1 & So). destruct p as [p|]; [|apply wp_raise]. eapply wp_step; [exact (alloc_ok _ _ _ _ I1 (So p eq_refl))|]. intros a s2 g2 _ I2 X2.
  eapply wp_step; [apply (drop_ok n g2 (a :: T)); eapply Inv_weak; [exact I2|]; cnt|]. intros u s3 g3 _ I3 X3.
  apply wp_ret_post with (g := g3); [eapply Inv_weak; [exact I3|]; cbn [ntok otok]; cnt|]. eapply ext_trans; [exact X1|]. eapply ext_trans; eassumption.
Qed.
Lemma reads_digits : forall l acc s, reads (parse_digits cf l acc) s.
Proof. induction l as [|c l IH]; intros acc s; cbn [parse_digits]; [apply reads_ret|]. destruct (byte_eqb _ _); [apply IH|]. cbn zeta. destruct (_ || _); [apply reads_raise|]. destruct (negb _); [apply reads_undef; auto with ub|]. destruct (negb _); [apply reads_undef; auto with ub|]. apply IH. Qed.
Lemma reads_number l s : reads (parse_number cf l) s.
Proof. unfold parse_number. destruct l as [|c l]; [apply reads_died|]. apply wp_bind, wp_assert. intros _. apply reads_digits. Qed.

(** Releasing a value that has a reference, before giving up (vec.h 108-113). *)
Lemma val_free_ok n g T s a (F : unit -> st bob -> Prop) : Inv g (a :: T) s -> (forall s', F tt s') -> wp (val_free cf (decref cf n) a) s F.
Proof.
  intros I0 HF. set (L := rvs s ++ T). assert (I : ok g (a :: L) (view s)) by (eapply ok_weak; [exact I0|]; unfold L; cnt). unfold val_free. apply wp_bind, wp_get_cell. intros c N. pose proof (view_cell _ _ _ N) as Va.
  assert (Al : res (c_val c) = true -> alive (view s) (c_val c)) by (intro R; exact (proj2 (inv_tok _ _ _ _ _ _ _ _ _ I Va R (or_introl (or_introl eq_refl))))).
  destruct (c_val c) as [| | |b k| | |f|k i d] eqn:V; try (apply wp_ret; apply HF).
  - apply free_buf_ok; [exact (Al eq_refl)|apply HF].
  - destruct (f_body f) as [b|] eqn:Fb; [|apply wp_ret; apply HF]. apply free_body_ok; [|apply HF]. apply Al; [cbn; now rewrite Fb|exact Fb].
  - destruct (Al eq_refl) as ((vs & As) & Ad).
    assert (I1 : inv g none [a] [] (a :: L) (view s)).
    { destruct I. split; auto. - intros x [<-|[]]. now left. - intros; discriminate. }
    assert (Sh : forall b n' k' i' d', nth_error (w_cells (view s)) b = Some (n', PInst k' i' d') -> share (PInst k' i' d') (PInst k i d) -> (n' <= 0)%Z \/ In b [a] \/ P g b = true).
    { intros b n' k' i' d' Nb Sh. destruct (Nat.eq_dec b a) as [->|D]; [right; left; now left|]. right. right. exact (v_share _ _ _ _ _ _ I1 b a _ _ _ _ Nb Va D Sh). }
    set (Z' := match d with Some x => [x] | None => [] end).
    assert (I2 : inv g none [a] Z' (a :: L) (view s)).
    { unfold Z'. destruct d as [x|]; [|exact I1]. apply inv_pend; [exact I1| |exact (Ad x eq_refl)]. intros b n' k' i' Nb. apply (Sh b n' k' i' _ Nb). right. eauto. }
    assert (I3 : inv g (open i none) [a] Z' (vals vs ++ a :: L) (view s)).
    { apply inv_open; [exact I2|exact As|apply (v_inst _ _ _ _ _ _ I1); now exists a, (c_cnt c), k, d|reflexivity|]. intros b n' k' d' Nb. apply (Sh b n' k' i d' Nb). now left. }
    apply wp_bind. unfold scope_free. apply wp_bind, wp_get_scope. intros sc Nsc Asc. pose proof (view_scope _ _ _ Nsc) as Vsc. rewrite As in Vsc. injection Vsc as Vv _. apply wp_bind.
    rewrite <- Vv. eapply wp_impl; [apply (loop_ok (decref cf n) (decref_ok n) vs g (open i none) [a] Z' (a :: L) s I3)|].
    { intros x [<-|[]]. now left. }
    intros u s2 _ (I4 & _). apply wp_bind, wp_get_scope. intros sc2 _ _. unfold put_scope. apply wp_modify.
    destruct d as [x|]; [|apply wp_ret; apply HF]. apply free_state_ok; [|apply HF]. exact (v_pends _ _ _ _ _ _ I4 x (or_introl eq_refl)).
Qed.

(** ** The functions that call each other *)
Definition epost (g0 : gh) (s0 : st bob) (T : list addr) (r : option addr * option addr) (s : st bob) : Prop :=
  exists g, Inv g (otok (fst r) ++ T) s /\ ext true g0 (view s0) g (view s) /\ forall x, snd r = Some x -> P g x = true.
Definition spost {A} (q : bool) (g0 : gh) (s0 : st bob) (T : list addr) (_ : A) (s : st bob) : Prop := exists g, Inv g T s /\ ext q g0 (view s0) g (view s).
Definition bpost (q : bool) (g0 : gh) (s0 : st bob) (T : list addr) (i : nat) (s : st bob) : Prop :=
  exists g, Inv g T s /\ ext q g0 (view s0) g (view s) /\ length (scopes s0) <= i < length (scopes s) /\ K g i = true /\ ~ inst (view s) i /\ ~ stat (view s) i.
(** The scopes a script not in a function sees. *)
Definition condt (top : bool) (g : gh) (s : st bob) : Prop :=
  top = true -> forall l i, nth_error (envs s) (cur_env s) = Some l -> In i l -> K g i = true /\ ~ inst (view s) i /\ i < length (scopes s).
Definition conds (g : gh) (s : st bob) : Prop := exists i, FlBalance.top s = Some i /\ K g i = true /\ i < length (scopes s).
Record safe (R : @rec bob) : Prop := Safe {
  z_eval : forall d e g T s, still_expr e = true -> Inv g T s -> wp (r_eval R d e) s (epost g s T);
  z_call : forall fa acc d args g T s, Inv g T s -> P g fa = true -> (forall x, acc = Some x -> P g x = true) -> (forall a, In a args -> P g a = true) ->
    wp (r_call R fa acc d args) s (post g s T otok);
  z_block : forall top ss g T s, forallb (still_stmt top) ss = true -> Inv g T s -> condt top g s -> wp (r_block R ss) s (bpost (negb top) g s T);
  z_stmt : forall top x g T s, still_stmt top x = true -> Inv g T s -> condt top g s -> conds g s -> wp (r_stmt R x) s (spost (negb top) g s T);
  z_fun : forall k st x ps ss g T s, forallb (still_stmt false) ss = true -> Inv g T s -> conds g s -> wp (r_fun R k st x ps ss) s (spost true g s T);
}.

Section Step.
Variable R : @rec bob.
Hypothesis HR : safe R.

Lemma both_ok e g T s : still_expr e = true -> Inv g T s ->
  wp (both R e) s (fun r s' => exists g', Inv g' (fst r :: T) s' /\ ext true g (view s) g' (view s') /\ forall x, snd r = Some x -> P g' x = true).
Proof.
  intros St I. unfold both. apply wp_bind. eapply wp_impl; [exact (z_eval R HR Slot e g T s St I)|]. intros ([a|], x) s' _ (g' & I' & X & Pa); [|apply wp_died].
  apply wp_ret. exists g'. auto.
Qed.
Lemma value_ok e g T s : still_expr e = true -> Inv g T s -> wp (value R e) s (post g s T (fun a => [a])).
Proof.
  intros St I. unfold value. apply wp_bind. eapply wp_impl; [exact (both_ok e g T s St I)|]. intros (a, x) s' _ (g' & I' & X & _). apply wp_ret. exists g'. auto.
Qed.
Lemma values_ok : forall es g T s, forallb still_expr es = true -> Inv g T s -> wp (mapM (value R) es) s (post g s T (fun l => l)).
Proof.
  induction es as [|e es IH]; intros g T s St I; cbn [mapM].
  - apply wp_ret_post with (g := g); [exact I|apply ext_refl].
  - cbn [forallb] in St. apply andb_prop in St as (S1 & S2). eapply wp_step; [exact (value_ok e g T s S1 I)|]. intros a s1 g1 _ I1 X1.
    eapply wp_step; [exact (IH g1 (a :: T) s1 S2 I1)|]. intros l s2 g2 _ I2 X2. apply wp_ret_post with (g := g2); [eapply Inv_weak; [exact I2|]; cnt|]. eapply ext_trans; eassumption.
Qed.
Definition vref_ok (g : gh) (s : st bob) (r : vref) : Prop :=
  match r with
  | VVar i j v => exists sc, nth_error (scopes s) i = Some sc /\ sc_alive sc = true /\ nth_error (sc_vars sc) j = Some v /\ K g i = true /\
      forall b n k d, nth_error (w_cells (view s)) b = Some (n, PInst k i d) -> P g b = true
  | VMember _ _ m => In m (map snd (members s))
  end.
Lemma find_key_nth x : forall vs k j v, find_key x vs k = Some (j, v) -> k <= j /\ nth_error vs (j - k) = Some v.
Proof.
  induction vs as [|y vs IH]; intros k j v Q; [discriminate|]. cbn [find_key] in Q. destruct (bytes_eqb _ _).
  - injection Q as <- <-. now rewrite Nat.sub_diag.
  - apply IH in Q as (L & N). split; [lia|]. replace (j - k) with (S (j - S k)) by lia. exact N.
Qed.
Lemma find_member_in x k : forall l i j a, find_member k x l i = Some (j, a) -> In a (map snd l).
Proof. induction l as [|((k', y), b) l IH]; intros i j a Q; [discriminate|]. cbn [find_member] in Q. destruct (_ && _); [injection Q as _ <-; now left|right; eauto]. Qed.
Lemma access_ok e x g T s : still_expr e = true -> Inv g T s ->
  wp (access_find cf R e x) s (fun r s' => exists g', Inv g' T s' /\ ext true g (view s) g' (view s') /\ P g' (snd r) = true /\ vref_ok g' s' (fst r)).
Proof.
  intros St I. unfold access_find. eapply wp_step; [exact (value_ok e g T s St I)|]. intros a s1 g1 _ I1 X1. pose proof (Inv_pin _ _ _ _ I1) as I2. set (g2 := pin a g1) in *.
  assert (X2 : ext true g (view s) g2 (view s1)) by (eapply ext_trans; [exact X1|apply ext_pin]). assert (Pa : P g2 a = true) by apply pin_P.
  apply wp_bind, wp_get_cell. intros c N. cbn zeta. pose proof (view_cell _ _ _ N) as Va.
  match goal with |- wp (match _ with _ => _ end) _ ?F => set (Fin := F) end.
  assert (Mem : wp (ms <- gets members ;; match find_member (kind_of (c_val c)) x ms 0 with Some (i, m) => ret (VMember i x m, a)
      | None => error cf (lit "primitive type member " ++ quoted x ++ lit " doesn't exist on expression of type " ++ type_str (c_val c)) end)%fl s1 Fin).
  { apply wp_bind, wp_gets. destruct (find_member _ _ _ _) as [(i, m)|] eqn:Q; [|apply wp_raise]. apply wp_ret. exists g2. split; [exact I2|]. split; [exact X2|]. split; [exact Pa|]. exact (find_member_in _ _ _ _ _ _ Q). }
  assert (Sco : forall st i, K g2 i = true -> (forall b n k d, nth_error (w_cells (view s1)) b = Some (n, PInst k i d) -> P g2 b = true) ->
    wp (r <- find_var i x ;; match r with None => error cf ((if st : bool then lit "static " else []) ++ lit "member " ++ quoted x ++ lit " was never declared")
      | Some (j, v) => if negb st && v_static v then error cf (lit "member " ++ quoted x ++ lit " is static and can't be accessed through an instance") else ret (VVar i j v, a) end)%fl s1 Fin).
  { intros st i Ki Pi. unfold find_var. apply wp_bind, wp_bind, wp_get_scope. intros sc Ns As. apply wp_ret. destruct (find_key x (sc_vars sc) 0) as [(j, v)|] eqn:Q; [|apply wp_raise].
    destruct (_ && _); [apply wp_raise|]. apply wp_ret. exists g2. split; [exact I2|]. split; [exact X2|]. split; [exact Pa|]. exists sc. apply find_key_nth in Q as (_ & Q). rewrite Nat.sub_0_r in Q. auto. }
  destruct (c_val c) as [| | |b k| | |f|k i d] eqn:V; try exact Mem.
  - destruct (f_kind f); try exact Mem. destruct (f_scope f) as [i|] eqn:Fs; [|apply wp_undef; auto with ub].
    assert (St' : stat (view s1) i) by (exists a, (c_cnt c), f; auto). destruct (v_stat _ _ _ _ _ _ I2 i St') as (Ki & Ni).
    apply (Sco true i Ki). intros b n k d Nb. exfalso. apply Ni. now exists b, n, k, d.
  - apply (Sco false i).
    + apply (v_inst _ _ _ _ _ _ I2). now exists a, (c_cnt c), k, d.
    + intros b n k' d' Nb. destruct (Nat.eq_dec b a) as [->|D]; [exact Pa|]. apply (v_share _ _ _ _ _ _ I2 b a _ _ _ _ Nb Va D). now left.
Qed.
Lemma reads_vref r s : reads (vref_val r) s.
Proof. destruct r as [i j v|i x a]; cbn [vref_val]; [destruct (v_val v); [apply reads_ret|apply reads_undef; auto with ub]|apply reads_ret]. Qed.
Lemma do_access_ok d e x g T s : still_expr e = true -> Inv g T s -> wp (do_access cf R d e x) s (epost g s T).
Proof.
  intros St I. unfold do_access. apply wp_bind. eapply wp_impl; [exact (access_ok e x g T s St I)|]. intros (r, a) s1 _ (g1 & I1 & X1 & Pa & _). cbn [fst snd] in *.
  assert (G : wp (v <- vref_val r ;; incref v ;; o <- deliver d v ;; ret (o, Some a))%fl s1 (epost g s T)).
  { apply wp_reads; [apply reads_vref|]. intros v _. eapply wp_step; [exact (incref_ok g1 T s1 v I1)|]. intros u s2 g2 _ I2 X2. eapply wp_step; [exact (deliver_ok g2 T s2 d v I2)|]. intros o s3 g3 _ I3 X3.
    apply wp_ret. exists g3. split; [exact I3|]. split; [eapply ext_trans; [exact X1|]; eapply ext_trans; eassumption|]. intros y Q. injection Q as <-. apply (e_P _ _ _ _ _ X3), (e_P _ _ _ _ _ X2), Pa. }
  destruct d; [|exact G|exact G]. apply wp_ret. exists g1. split; [exact I1|]. split; [exact X1|]. intros y Q. injection Q as <-. exact Pa.
Qed.
Lemma reads_find_in x s : forall l, reads (find_in l x) s.
Proof. induction l as [|i l IH]; cbn [find_in]; [apply reads_ret|]. apply reads_bind; [apply reads_find|]. intros [(j, v)|] _; [apply reads_ret|exact IH]. Qed.
Lemma reads_env_find x s : reads (env_find x) s.
Proof. apply reads_bind; [apply reads_stack|]. intros l _. apply reads_find_in. Qed.
Lemma do_ident_ok d x g T s : Inv g T s -> wp (do_ident cf d x) s (post g s T otok).
Proof.
  intro I. unfold do_ident. apply wp_reads; [apply reads_env_find|]. intros [((i, j), v)|] _; [|apply wp_raise]. destruct (v_val v) as [a|]; [|apply wp_undef; auto with ub].
  eapply wp_step; [exact (incref_ok g T s a I)|]. intros u s1 g1 _ I1 X1. eapply wp_from; [exact X1|]. exact (deliver_ok g1 T s1 d a I1).
Qed.
Lemma close_ok s (F : nat -> st bob -> Prop) : (forall l, F (length (envs s)) (set_envs (envs s ++ [l]) s)) -> wp close_over s F.
Proof. intro Q. unfold close_over. apply wp_reads; [apply reads_stack|]. intros l _. apply Q. Qed.
Lemma sound_fn g T s b k ps e : Inv g T s -> b = length (bodies s) -> forall x s', s' = set_bodies (bodies s ++ [Some x]) s -> sound g s' (PFn (Fn k ps (Some b) e None)).
Proof.
  intros I -> x s' ->. split; [|split; [contradiction|split; [discriminate|]]]; [split; [|split]|].
  - cbn. split; [|discriminate]. intros b Q. injection Q as <-. rewrite app_length. cbn. lia.
  - intros _. cbn. intros b Q. injection Q as <-. exists x. rewrite nth_error_app2, Nat.sub_diag by lia. reflexivity.
  - intros a n q N Sh. destruct q as [| | | | | |f|]; cbn in Sh; try contradiction. destruct Sh as (b & Qb & Fb). injection Qb as <-. pose proof (v_bound _ _ _ _ _ _ I a n _ N) as (B & _). specialize (B _ Fb). cbn in B. lia.
  - intros f Q. injection Q as <-. reflexivity.
Qed.
Lemma do_lambda_ok d ps b g T s : still_body b = true -> Inv g T s -> wp (do_lambda d ps b) s (post g s T otok).
Proof.
  intros St I. unfold do_lambda. apply wp_bind, close_ok. intro l. set (s1 := set_envs (envs s ++ [l]) s). assert (I1 : Inv g T s1) by exact I. apply wp_bind. unfold wp at 1, new_body.
  set (s2 := set_bodies (bodies s1 ++ [Some b]) s1). assert (I2 : Inv g T s2) by exact (ok_bodies _ _ _ _ St I1). assert (X2 : ext true g (view s) g (view s2)) by (apply ext_same; auto).
  eapply wp_step; [exact (alloc_ok g T s2 _ I2 (sound_fn g T s1 _ KFun ps _ I1 eq_refl b s2 eq_refl))|]. intros a s3 g3 _ I3 X3. eapply wp_from; [eapply ext_trans; [exact X2|exact X3]|]. exact (deliver_ok g3 T s3 d a I3).
Qed.
Lemma reads_has_key g T s k : Inv g T s -> live g T k -> forall keys, (forall x, In x keys -> live g T x) -> reads (has_key R k keys) s.
Proof.
  intros I Lk. induction keys as [|x keys IH]; intro Q; cbn [has_key]; [apply reads_ret|]. apply reads_bind; [apply (reads_eq g T s I); [apply Q; now left|exact Lk]|]. intros b _. destruct b; [apply reads_ret|].
  apply IH. intros y J. apply Q. now right.
Qed.
Lemma map_items_ok : forall kvs acc g T s, forallb (fun kv => still_expr (fst kv) && still_expr (snd kv)) kvs = true -> Inv g T s -> (forall k v, In (k, v) acc -> P g k = true /\ P g v = true) ->
  wp (map_items cf R kvs acc) s (fun r s' => exists g', Inv g' T s' /\ ext true g (view s) g' (view s') /\ forall k v, In (k, v) r -> P g' k = true /\ P g' v = true).
Proof.
  induction kvs as [|(ke, ve) kvs IH]; intros acc g T s St I Q; cbn [map_items].
  - apply wp_ret. exists g. split; [exact I|]. split; [apply ext_refl|exact Q].
  - cbn [forallb fst snd] in St. apply andb_prop in St as (S1 & S2). apply andb_prop in S1 as (Sk & Sv). eapply wp_step; [exact (value_ok ke g T s Sk I)|]. intros k s1 g1 _ I1 X1.
    apply Inv_pin in I1. pose proof (ext_trans _ _ _ _ _ _ _ X1 (ext_pin true g1 (view s1) k)) as Y1. set (g1' := pin k g1) in *.
    apply wp_reads; [apply (reads_has_key g1' T s1); [exact I1|right; apply pin_P|]|].
    { intros y J. apply in_map_iff in J as ((k', v') & <- & J). right. cbn [fst]. apply (e_P _ _ _ _ _ Y1). exact (proj1 (Q _ _ J)). }
    intros b _. destruct b; [apply wp_raise|]. eapply wp_step; [exact (value_ok ve g1' T s1 Sv I1)|]. intros v s2 g2 _ I2 X2. apply Inv_pin in I2. pose proof (ext_trans _ _ _ _ _ _ _ X2 (ext_pin true g2 (view s2) v)) as Y2. set (g2' := pin v g2) in *.
    pose proof (ext_trans _ _ _ _ _ _ _ Y1 Y2) as Y. eapply wp_impl; [apply (IH (acc ++ [(k, v)]) g2' T s2 S2 I2)|].
    + intros k' v' J. apply in_app_or in J as [J|[J|[]]]; [destruct (Q _ _ J); split; now apply (e_P _ _ _ _ _ Y)|]. injection J as <- <-. split; [apply (e_P _ _ _ _ _ Y2); apply pin_P|apply pin_P].
    + intros r s3 _ (g3 & I3 & X3 & P3). exists g3. split; [exact I3|]. split; [eapply ext_trans; eassumption|exact P3].
Qed.
Lemma vec_index_ok es z g T s : Inv g T s -> wp (vec_index cf es z) s (post g s T (fun a => [a])).
Proof.
  intro I. unfold vec_index. cbn zeta. assert (G : forall j, wp (match nth_error es j with Some a => incref a ;; ret a | None => undef URange end)%fl s (post g s T (fun a => [a]))).
  { intro j. destruct (nth_error es j) as [a|]; [|apply wp_undef; auto with ub]. eapply wp_step; [exact (incref_ok g T s a I)|]. intros u s1 g1 _ I1 X1. apply wp_ret_post with (g := g1); assumption. }
  destruct (0 <=? z)%Z; [destruct (_ <=? z)%Z; [apply wp_raise|apply G]|]. destruct (z =? _)%Z; [apply wp_undef; auto with ub|]. destruct (_ <? _)%Z; [apply wp_raise|apply G].
Qed.
Lemma map_index_ok i g T s : Inv g T s -> live g T i -> forall kvs, (forall k v, In (k, v) kvs -> P g k = true /\ P g v = true) -> wp (map_index R kvs i) s (post g s T (fun a => [a])).
Proof.
  intros I Li. induction kvs as [|(k, v) kvs IH]; intro Q; cbn [map_index]; [apply alloc_ok; [exact I|apply sound_none]|].
  apply wp_reads; [apply (reads_eq g T s I); [right; exact (proj1 (Q k v (or_introl eq_refl)))|exact Li]|]. intros b _. destruct b; [|apply IH; intros; apply Q; now right].
  eapply wp_step; [exact (incref_ok g T s v I)|]. intros u s1 g1 _ I1 X1. apply wp_ret_post with (g := g1); assumption.
Qed.
Lemma do_index_ok d e i g T s : still_expr e = true -> still_expr i = true -> Inv g T s -> wp (do_index cf R d e i) s (post g s T otok).
Proof.
  intros Se Si I. unfold do_index. eapply wp_step; [exact (value_ok e g T s Se I)|]. intros x s1 g1 _ I1 X1. apply Inv_drop in I1. apply wp_bind, wp_get_cell. intros c N.
  destruct (c_val c); try apply wp_raise.
  - eapply wp_step; [exact (value_ok i g1 T s1 Si I1)|]. intros k s2 g2 _ I2 X2. apply Inv_drop in I2. pose proof (ext_trans _ _ _ _ _ _ _ X1 X2) as X. apply wp_bind, wp_get_cell. intros ci _. destruct (c_val ci); try apply wp_raise.
    assert (G : wp (c <- get_cell x ;; match c_val c with PVec es => a <- vec_index cf es z ;; deliver d a | _ => undef UPun end)%fl s2 (post g s T otok)).
    { apply wp_bind, wp_get_cell. intros c2 _. destruct (c_val c2); try (apply wp_undef; auto with ub). eapply wp_step; [exact (vec_index_ok es0 z g2 T s2 I2)|]. intros a s3 g3 _ I3 X3. eapply wp_from; [eapply ext_trans; eassumption|]. exact (deliver_ok g3 T s3 d a I3). }
    destruct d; [apply wp_ret_post with (g := g2); assumption|exact G|exact G].
  - eapply wp_step; [exact (value_ok i g1 T s1 Si I1)|]. intros k s2 g2 _ I2 X2. pose proof (ext_trans _ _ _ _ _ _ _ X1 X2) as X.
    assert (G : wp (c <- get_cell x ;; match c_val c with PMap kvs => a <- map_index R kvs k ;; deliver d a | _ => undef UPun end)%fl s2 (post g s T otok)).
    { apply wp_bind, wp_get_cell. intros c2 N2. destruct (c_val c2) eqn:V2; try (apply wp_undef; auto with ub). eapply wp_step; [apply (map_index_ok k g2 (k :: T) s2 I2)|].
      - left. now left.
      - intros k' v' J. apply in_keys in J as (J1 & J2). rewrite <- V2 in J1, J2. split; [exact (Inv_part _ _ _ _ _ _ I2 N2 J1)|exact (Inv_part _ _ _ _ _ _ I2 N2 J2)].
      - intros a s3 g3 _ I3 X3. eapply wp_from; [eapply ext_trans; eassumption|]. apply (deliver_ok g3 T s3 d a). eapply Inv_weak; [exact I3|]; cnt. }
    destruct d; [apply wp_ret_post with (g := g2); [eapply Inv_weak; [exact I2|]; cnt|exact X]|exact G|exact G].
Qed.
Lemma do_call_ok d f args g T s : still_expr f = true -> forallb still_expr args = true -> Inv g T s -> wp (do_call cf R d f args) s (post g s T otok).
Proof.
  intros Sf Sa I. unfold do_call. apply wp_bind. eapply wp_impl; [exact (both_ok f g T s Sf I)|]. intros (a, x) s1 _ (g1 & I1 & X1 & Px). cbn [fst snd] in *. apply Inv_pin in I1.
  pose proof (ext_trans _ _ _ _ _ _ _ X1 (ext_pin true g1 (view s1) a)) as Y1. set (g1' := pin a g1) in *. apply wp_bind, wp_get_cell. intros c _. destruct (c_val c); try apply wp_raise.
  eapply wp_step; [exact (values_ok args g1' T s1 Sa I1)|]. intros l s2 g2 _ I2 X2. apply Inv_pins in I2. pose proof (ext_trans _ _ _ _ _ _ _ X2 (ext_pins true g2 (view s2) l)) as Y2. set (g2' := pins l g2) in *.
  eapply wp_from; [eapply ext_trans; [exact Y1|exact Y2]|]. apply (z_call R HR); [exact I2| | |].
  - apply (e_P _ _ _ _ _ Y2). apply pin_P.
  - intros y Q. apply (e_P _ _ _ _ _ Y2). apply pin_mono. auto.
  - intros y J. now apply pins_P.
Qed.
Lemma plain_ok (m : M bob (option addr)) g T s : wp m s (post g s T otok) -> wp (plain m) s (epost g s T).
Proof. intro W. unfold plain. apply wp_bind. eapply wp_impl; [exact W|]. intros o s' _ (g' & I & X). apply wp_ret. exists g'. split; [exact I|]. split; [exact X|discriminate]. Qed.
Lemma eval_ok d e g T s : still_expr e = true -> Inv g T s -> wp (eval_ cf R d e) s (epost g s T).
Proof.
  intros St I. assert (Un : forall what m, wp m s (post g s T otok) -> wp (match d with Discard => error cf (lit "unknown expression type: " ++ lit what) | _ => plain m end) s (epost g s T)).
  { intros what m W. destruct d; [apply wp_raise|now apply plain_ok|now apply plain_ok]. }
  assert (Lit : forall p, sound g s p -> wp (a <- alloc p ;; deliver d a)%fl s (post g s T otok)).
  { intros p So. eapply wp_step; [exact (alloc_ok g T s p I So)|]. intros a s1 g1 _ I1 X1. eapply wp_from; [exact X1|]. exact (deliver_ok g1 T s1 d a I1). }
  destruct e; cbn [eval_]; cbn [still_expr] in St.
  - apply Un, Lit, sound_none.
  - apply Un, Lit, sound_bool.
  - apply Un. apply wp_reads; [apply reads_number|]. intros z _. apply Lit, sound_int.
  - apply Un. eapply wp_step; [exact (make_str_ok g T s s0 I)|]. intros a s1 g1 _ I1 X1. eapply wp_from; [exact X1|]. exact (deliver_ok g1 T s1 d a I1).
  - apply Un. now apply do_ident_ok.
  - apply Un. now apply do_lambda_ok.
  - apply plain_ok. eapply wp_step; [exact (values_ok es g T s St I)|]. intros l s1 g1 _ I1 X1.
    assert (G : wp (a <- alloc (PVec l) ;; deliver d a)%fl s1 (post g s T otok)).
    { apply Inv_pins in I1. pose proof (ext_trans _ _ _ _ _ _ _ X1 (ext_pins true g1 (view s1) l)) as Y1. eapply wp_step; [apply (alloc_ok _ T s1 (PVec l) I1); apply sound_vec; intros y J; now apply pins_P|].
      intros a s2 g2 _ I2 X2. eapply wp_from; [eapply ext_trans; eassumption|]. exact (deliver_ok g2 T s2 d a I2). }
    destruct d; [apply wp_ret_post with (g := g1); [exact (Inv_drops _ _ _ _ I1)|exact X1]|exact G|exact G].
  - apply plain_ok. apply wp_bind. eapply wp_impl; [apply (map_items_ok kvs [] g T s St I); contradiction|]. intros l s1 _ (g1 & I1 & X1 & P1).
    assert (G : wp (a <- alloc (PMap l) ;; deliver d a)%fl s1 (post g s T otok)).
    { eapply wp_step; [apply (alloc_ok _ T s1 (PMap l) I1); now apply sound_map|]. intros a s2 g2 _ I2 X2. eapply wp_from; [eapply ext_trans; eassumption|]. exact (deliver_ok g2 T s2 d a I2). }
    destruct d; [apply wp_ret_post with (g := g1); assumption|exact G|exact G].
  - apply andb_prop in St as (S1 & S2). apply plain_ok. now apply do_call_ok.
  - exact (z_eval R HR d e g T s St I).
  - apply plain_ok. eapply wp_step; [exact (value_ok e g T s St I)|]. intros x s1 g1 _ I1 X1. eapply wp_step; [exact (unary_ok g1 T s1 (r_fuel R) d op x I1)|]. intros o s2 g2 _ I2 X2. eapply wp_from; [eapply ext_trans; eassumption|]. exact (deliver_opt_ok g2 T s2 d o I2).
  - apply andb_prop in St as (S1 & S2). apply plain_ok. eapply wp_step; [exact (value_ok e1 g T s S1 I)|]. intros x s1 g1 _ I1 X1. eapply wp_step; [exact (value_ok e2 g1 (x :: T) s1 S2 I1)|]. intros y s2 g2 _ I2 X2.
    eapply wp_step; [exact (binary_ok g2 T s2 (r_fuel R) d x op y I2)|]. intros o s3 g3 _ I3 X3. eapply wp_from; [eapply ext_trans; [exact X1|]; eapply ext_trans; eassumption|]. exact (deliver_opt_ok g3 T s3 d o I3).
  - now apply do_access_ok.
  - apply andb_prop in St as (S1 & S2). apply plain_ok. now apply do_index_ok.
  - apply wp_raise.
Qed.

(** ** Members of strings and vectors *)
Lemma callback_ok f x g T s : Inv g T s -> P g f = true -> P g x = true -> wp (callback R f x) s (post g s T (fun a => [a])).
Proof.
  intros I Pf Px. unfold callback. eapply wp_step; [apply (z_call R HR f None Slot [x] g T s I Pf)|].
  - discriminate.
  - intros a [<-|[]]. exact Px.
  - intros [a|] s1 g1 _ I1 X1; [|apply wp_died]. apply wp_ret_post with (g := g1); assumption.
Qed.
Lemma vec_again_ok self g T s (F : list addr -> st bob -> Prop) : Inv g T s -> (forall es, (forall x, In x es -> P g x = true) -> F es s) -> wp (vec_again self) s F.
Proof.
  intros I Q. unfold vec_again. apply wp_bind, wp_get_cell. intros c N. destruct (c_val c) as [| | | |es| | |] eqn:V; try (apply wp_undef; auto with ub). apply wp_ret, Q. intros x J.
  apply (Inv_part _ _ _ _ _ _ I N). rewrite V. exact J.
Qed.
Lemma self_vec_ok self g T s (F : list addr -> st bob -> Prop) : Inv g T s -> (forall es, (forall x, In x es -> P g x = true) -> F es s) -> wp (self_vec self) s F.
Proof.
  intros I Q. unfold self_vec. apply wp_bind, wp_get_cell. intros c N. destruct (c_val c) as [| | | |es| | |] eqn:V; try apply wp_died. apply wp_ret, Q. intros x J.
  apply (Inv_part _ _ _ _ _ _ I N). rewrite V. exact J.
Qed.
Lemma map_loop_ok self f : forall k i g T s, Inv g T s -> P g f = true -> wp (map_loop R self f i k) s (post g s T (fun l => l)).
Proof.
  induction k as [|k IH]; intros i g T s I Pf; cbn [map_loop]; [apply wp_ret_post with (g := g); [exact I|apply ext_refl]|].
  apply wp_bind. apply (vec_again_ok self g T s); [exact I|]. intros es Pe. destruct (nth_error es i) as [x|] eqn:N; [|apply wp_undef; auto with ub].
  eapply wp_step; [exact (callback_ok f x g T s I Pf (Pe x (nth_error_In _ _ N)))|]. intros y s1 g1 _ I1 X1. eapply wp_step; [apply (IH (S i) g1 (y :: T) s1 I1); exact (e_P _ _ _ _ _ X1 _ Pf)|].
  intros ys s2 g2 _ I2 X2. apply wp_ret_post with (g := g2); [eapply Inv_weak; [exact I2|]; cnt|]. eapply ext_trans; eassumption.
Qed.
Lemma where_loop_ok self f : forall k i g T s, Inv g T s -> P g f = true ->
  wp (where_loop cf R self f i k) s (fun l s' => exists g', Inv g' T s' /\ ext true g (view s) g' (view s') /\ forall x, In x l -> P g' x = true).
Proof.
  induction k as [|k IH]; intros i g T s I Pf; cbn [where_loop]; [apply wp_nofuel|].
  apply wp_bind. apply (vec_again_ok self g T s); [exact I|]. intros es Pe. destruct (nth_error es i) as [x|] eqn:N.
  2: { apply wp_ret. exists g. split; [exact I|]. split; [apply ext_refl|contradiction]. }
  pose proof (Pe x (nth_error_In _ _ N)) as Px. eapply wp_step; [exact (callback_ok f x g T s I Pf Px)|]. intros y s1 g1 _ I1 X1. apply wp_bind, wp_get_cell. intros c _.
  destruct (c_val c) as [|[|]| | | | | |]; try (apply wp_bind, (val_free_ok _ g1 T); [exact I1|]; intro; apply wp_raise).
  - apply Inv_drop in I1. apply wp_bind. eapply wp_impl; [apply (copy_ok g1 T s1 x I1); exact (e_P _ _ _ _ _ X1 _ Px)|]. intros z s2 _ (g2 & I2 & X2 & Pz). pose proof (ext_trans _ _ _ _ _ _ _ X1 X2) as X12.
    apply wp_bind. eapply wp_impl; [apply (IH (S i) g2 T s2 I2); exact (e_P _ _ _ _ _ X12 _ Pf)|]. intros zs s3 _ (g3 & I3 & X3 & Ps). apply wp_ret. exists g3. split; [exact I3|]. split; [eapply ext_trans; eassumption|].
    intros w [<-|J]; [exact (e_P _ _ _ _ _ X3 _ Pz)|exact (Ps w J)].
  - apply Inv_drop in I1. eapply wp_impl; [apply (IH (S i) g1 T s1 I1); exact (e_P _ _ _ _ _ X1 _ Pf)|]. intros zs s3 _ (g3 & I3 & X3 & Ps). exists g3. split; [exact I3|]. split; [eapply ext_trans; eassumption|exact Ps].
Qed.
Lemma call_member_ok p self args g T s : Inv g T s -> P g self = true -> (forall a, In a args -> P g a = true) -> wp (call_member cf R p self args) s (post g s T (fun a => [a])).
Proof.
  intros I Ps Pa.
  assert (Bool : forall b, wp (alloc (PBool b)) s (post g s T (fun a => [a]))) by (intro b; apply alloc_ok; [exact I|apply sound_bool]).
  assert (Int : forall b, wp (alloc (PInt b)) s (post g s T (fun a => [a]))) by (intro b; apply alloc_ok; [exact I|apply sound_int]).
  assert (Buf : forall a c b n m, P g a = true -> nth_error (cells s) a = Some c -> c_val c = PStr b n -> reads (read_buf b m) s).
  { intros a c b n m Q N V. apply reads_buf. exact (str_live g T s a c b n I (or_intror Q) N V). }
  assert (SS : forall F : nat * nat -> st bob -> Prop, (forall b n, (forall m, reads (read_buf b m) s) -> F (b, n) s) -> wp (self_str self) s F).
  { intros F Q. unfold self_str. apply wp_bind, wp_get_cell. intros c N. destruct (c_val c) as [| | |b n| | | |] eqn:V; try apply wp_died. apply wp_ret, Q. intro m. exact (Buf self c b n m Ps N V). }
  destruct p; cbn [call_member].
  - unfold str_len. apply wp_bind, SS. intros b n _. destruct args; [apply Int|apply wp_raise].
  - unfold str_ends. apply wp_bind, SS. intros b n Rb. destruct args as [|a [|]]; try apply wp_raise. apply wp_bind, wp_get_cell. intros c N. destruct (c_val c) as [| | |b' n'| | | |] eqn:V; try apply wp_raise.
    destruct (Nat.leb _ _); [|apply Bool]. cbn [fst snd]. apply wp_reads; [apply Rb|]. intros t _. apply wp_reads; [exact (Buf a c b' n' n' (Pa a (or_introl eq_refl)) N V)|]. intros u _. apply Bool.
  - unfold str_starts. apply wp_bind, SS. intros b n Rb. destruct args as [|a [|]]; try apply wp_raise. apply wp_bind, wp_get_cell. intros c N. destruct (c_val c) as [| | |b' n'| | | |] eqn:V; try apply wp_raise.
    destruct (Nat.leb _ _); [|apply Bool]. cbn [fst snd]. apply wp_reads; [apply Rb|]. intros t _. apply wp_reads; [exact (Buf a c b' n' n' (Pa a (or_introl eq_refl)) N V)|]. intros u _. apply Bool.
  - unfold vec_len. apply wp_bind, (self_vec_ok self g T s); [exact I|]. intros es _. destruct args; [apply Int|apply wp_raise].
  - unfold vec_map. apply wp_bind, (self_vec_ok self g T s); [exact I|]. intros es _. destruct args as [|f [|]]; try apply wp_raise. apply wp_bind, wp_get_cell. intros c _. destruct (c_val c); try apply wp_raise.
    eapply wp_step; [exact (map_loop_ok self f (length es) 0 g T s I (Pa f (or_introl eq_refl)))|]. intros ys s1 g1 _ I1 X1. apply Inv_pins in I1.
    pose proof (ext_trans _ _ _ _ _ _ _ X1 (ext_pins true g1 (view s1) ys)) as Y1. eapply wp_from; [exact Y1|]. apply alloc_ok; [exact I1|]. apply sound_vec. intros; now apply pins_P.
  - unfold vec_where. apply wp_bind, (self_vec_ok self g T s); [exact I|]. intros es _. destruct args as [|f [|]]; try apply wp_raise. apply wp_bind, wp_get_cell. intros c _. destruct (c_val c); try apply wp_raise.
    apply wp_bind. eapply wp_impl; [exact (where_loop_ok self f (r_fuel R) 0 g T s I (Pa f (or_introl eq_refl)))|]. intros ys s1 _ (g1 & I1 & X1 & Py). eapply wp_from; [exact X1|]. apply alloc_ok; [exact I1|]. now apply sound_vec.
Qed.

(** ** Bob's own functions and classes *)
Lemma wp_fatal {A} m s (F : A -> st bob -> Prop) : wp (fatal m) s F. Proof. exact Logic.I. Qed.
Lemma host_ok f s (F : unit -> st bob -> Prop) : F tt (set_host (f (host s)) s) -> wp (on_host f) s F. Proof. exact (fun x => x). Qed.
Lemma view_host h s : b_states h = b_states (host s) -> view (set_host h s) = view s.
Proof. intro Q. unfold view. cbn. now rewrite Q. Qed.
Lemma Inv_host g T h s : b_states h = b_states (host s) -> Inv g T s -> Inv g T (set_host h s).
Proof. intros Q I. eapply Inv_view; [exact (view_host h s Q)|reflexivity|exact I]. Qed.
Lemma make_strs_ok {A} (f : A -> bytes) : forall l g T s, Inv g T s -> wp (mapM (fun p => make_str (f p)) l) s (post g s T (fun l => l)).
Proof.
  induction l as [|x l IH]; intros g T s I; cbn [mapM]; [apply wp_ret_post with (g := g); [exact I|apply ext_refl]|].
  eapply wp_step; [exact (make_str_ok g T s (f x) I)|]. intros a s1 g1 _ I1 X1. eapply wp_step; [exact (IH g1 (a :: T) s1 I1)|]. intros m s2 g2 _ I2 X2.
  apply wp_ret_post with (g := g2); [eapply Inv_weak; [exact I2|]; cnt|]. eapply ext_trans; eassumption.
Qed.
Lemma one_vec_ok who args g T s (F : addr * list addr -> st bob -> Prop) : Inv g T s -> (forall a es, (forall x, In x es -> P g x = true) -> F (a, es) s) -> wp (one_vec who args) s F.
Proof.
  intros I Q. unfold one_vec. destruct args as [|a [|]]; try apply wp_fatal. apply wp_bind, wp_get_cell. intros c N. destruct (c_val c) as [| | | |es| | |] eqn:V; try apply wp_fatal. apply wp_ret, Q.
  intros x J. apply (Inv_part _ _ _ _ _ _ I N). rewrite V. exact J.
Qed.
Lemma reads_str g T s a : Inv g T s -> P g a = true -> reads (str_at a) s.
Proof.
  intros I Pa. unfold str_at. apply wp_bind, wp_get_cell. intros c N. destruct (c_val c) as [| | |b n| | | |] eqn:V; try apply reads_ret.
  apply reads_bind; [apply reads_buf; exact (str_live g T s a c b n I (or_intror Pa) N V)|]. intros t _. apply reads_ret.
Qed.
Lemma fs_list_ok args g T s : Inv g T s -> (forall a, In a args -> P g a = true) -> wp (fs_list listing args) s (post g s T (fun a => [a])).
Proof.
  intros I Pa. unfold fs_list. destruct args as [|a [|]]; try apply wp_died. apply wp_bind, wp_get_cell. intros c N. destruct (c_val c) as [| | |b n| | | |] eqn:V; try apply wp_died.
  apply wp_reads; [apply reads_upto; exact (str_live g T s a c b n I (or_intror (Pa a (or_introl eq_refl))) N V)|]. intros path _. destruct (listing path) as [l|]; [|apply wp_fatal].
  eapply wp_step; [exact (make_strs_ok cstr l g T s I)|]. intros ys s1 g1 _ I1 X1. apply Inv_pins in I1.
  eapply wp_from; [eapply ext_trans; [exact X1|apply (ext_pins true g1 (view s1) ys)]|]. apply alloc_ok; [exact I1|]. apply sound_vec. intros; now apply pins_P.
Qed.
Lemma objects_ok who : forall es i g T s, Inv g T s -> (forall a, In a es -> P g a = true) -> wp (objects sg out who i es) s (post g s T (fun l => l)).
Proof.
  induction es as [|a es IH]; intros i g T s I Pa; cbn [objects]; [apply wp_ret_post with (g := g); [exact I|apply ext_refl]|].
  apply wp_reads; [apply (reads_str g T s a I), Pa; now left|]. intros [t|] _; [|apply wp_fatal]. destruct (gen_cookie sg out t (lit "o")); try apply wp_died; [|apply wp_undef; auto with ub].
  eapply wp_step; [exact (make_str_ok g T s a0 I)|]. intros o s1 g1 _ I1 X1. eapply wp_step; [apply (IH (S i) g1 (o :: T) s1 I1); intros x J; apply (e_P _ _ _ _ _ X1), Pa; now right|]. intros m s2 g2 _ I2 X2.
  apply wp_ret_post with (g := g2); [eapply Inv_weak; [exact I2|]; cnt|]. eapply ext_trans; eassumption.
Qed.
Lemma need_ok d s : reads (need d) s.
Proof. destruct d; cbn [need]; [apply reads_ret|apply reads_undef; auto with ub]. Qed.
Lemma prep_compile_ok d args g T s : Inv g T s -> wp (prep_compile sg out d args) s (post g s T (fun a => [a])).
Proof.
  intro I. unfold prep_compile. apply wp_bind, (one_vec_ok _ args g T s _ I). intros a es Pe. cbn [fst snd]. eapply wp_step; [exact (objects_ok _ es 0 g T s I Pe)|]. intros os s1 g1 _ I1 X1. apply Inv_pins in I1.
  pose proof (ext_trans _ _ _ _ _ _ _ X1 (ext_pins true g1 (view s1) os)) as Y1. eapply wp_step; [apply (alloc_ok _ T s1 (PVec os) I1); apply sound_vec; intros; now apply pins_P|].
  intros rv s2 g2 _ I2 X2. apply wp_reads; [apply need_ok|]. intros dd _. apply wp_bind, host_ok. apply wp_ret_post with (g := g2).
  - apply Inv_host; [reflexivity|exact I2].
  - rewrite view_host by reflexivity. eapply ext_trans; eassumption.
Qed.
Lemma reads_strs who g T s : Inv g T s -> forall es i, (forall a, In a es -> P g a = true) -> reads (strs who i es) s.
Proof.
  intros I. induction es as [|a es IH]; intros i Pa; cbn [strs]; [apply reads_ret|]. apply reads_bind; [apply (reads_str g T s a I), Pa; now left|]. intros [t|] _; [|exact Logic.I].
  apply reads_bind; [apply IH; intros; apply Pa; now right|]. intros ts _. apply reads_ret.
Qed.
Lemma prep_link_ok k d args g T s : Inv g T s -> wp (prep_link sg out k d args) s (post g s T (fun a => [a])).
Proof.
  intro I. unfold prep_link. apply wp_bind, (one_vec_ok _ args g T s _ I). intros a es Pe. cbn [fst snd]. apply wp_reads; [exact (reads_strs _ g T s I es 0 Pe)|]. intros ts _.
  eapply wp_step; [exact (make_str_ok g T s _ I)|]. intros rv s2 g2 _ I2 X2. apply wp_reads; [apply need_ok|]. intros dd _. apply wp_bind, host_ok. apply wp_ret_post with (g := g2).
  - apply Inv_host; [reflexivity|exact I2].
  - rewrite view_host by reflexivity. exact X2.
Qed.
Lemma reads_owner a s : reads (owner_of a) s.
Proof.
  apply wp_bind, wp_get_cell. intros c _. destruct (c_owner c) as [i|]; [|apply reads_undef; auto with ub]. apply wp_bind, wp_get_scope. intros sc _ _. destruct (sc_owner sc) as [b|]; [|apply reads_ret].
  apply wp_bind, wp_get_cell. intros cb _. apply reads_ret.
Qed.
Lemma reads_data o s : reads (data_of o) s.
Proof. destruct o; cbn [data_of]; try apply reads_ret. apply reads_undef; auto with ub. Qed.
Lemma some_ok (m : M bob addr) g T s : wp m s (post g s T (fun a => [a])) -> wp (a <- m ;; ret (Some a))%fl s (post g s T otok).
Proof. intro W. eapply wp_step; [exact W|]. intros a s1 g1 _ I1 X1. apply wp_ret_post with (g := g1); assumption. Qed.
Lemma none_ok g T s : Inv g T s -> wp (ret None) s (post g s T otok).
Proof. intro I. apply wp_ret_post with (g := g); [exact I|apply ext_refl]. Qed.
Lemma class_call_ok k fa o args g T s : Inv g T s -> (forall a, In a args -> P g a = true) -> wp (class_call sg out listing k fa o args) s (post g s T otok).
Proof.
  intros I Pa. destruct k; cbn [class_call].
  - apply wp_bind, wp_gets. destruct (onat_eqb _ _); [|now apply none_ok]. apply some_ok. now apply fs_list_ok.
  - apply wp_reads; [apply reads_data|]. intros d _. apply wp_bind, wp_get_cell. intros c _. apply wp_reads; [apply reads_name|]. intros x _. destruct (bytes_eqb _ _); [|now apply none_ok]. apply some_ok. now apply prep_compile_ok.
  - apply wp_reads; [apply reads_data|]. intros d _. apply wp_bind, wp_get_cell. intros c _. apply wp_reads; [apply reads_name|]. intros x _.
    destruct (bytes_eqb _ _); [apply some_ok; now apply prep_link_ok|]. destruct (bytes_eqb _ _); [apply some_ok; now apply prep_link_ok|]. now apply none_ok.
Qed.
Lemma try_ok fa o args : forall ks g T s, Inv g T s -> (forall a, In a args -> P g a = true) -> wp (try_classes sg out listing ks fa o args) s (post g s T otok).
Proof.
  induction ks as [|k ks IH]; intros g T s I Pa; cbn [try_classes]; [now apply none_ok|]. apply wp_bind, wp_gets. destruct (passed_over _ _ _); [now apply IH|].
  eapply wp_step; [exact (class_call_ok k fa o args g T s I Pa)|]. intros [a|] s1 g1 _ I1 X1; [apply wp_ret_post with (g := g1); assumption|]. eapply wp_from; [exact X1|]. apply IH; [exact I1|].
  intros x J. apply (e_P _ _ _ _ _ X1). auto.
Qed.
Lemma extern_ok fa args g T s : Inv g T s -> (forall a, In a args -> P g a = true) -> wp (external_fn_cb sg out listing fa args) s (post g s T otok).
Proof.
  intros I Pa. unfold external_fn_cb. apply wp_reads; [apply reads_owner|]. intros o _. eapply wp_step; [exact (try_ok fa o args [CFs; CCc; CLinker] g T s I Pa)|]. intros [a|] s1 g1 _ I1 X1.
  - apply wp_ret_post with (g := g1); assumption.
  - apply wp_bind, wp_get_cell. intros c _. apply wp_reads; [apply reads_name|]. intros x _. apply wp_raise.
Qed.
Lemma reads_check who s : forall es i, reads (check_strs who i es) s.
Proof. induction es as [|a es IH]; intro i; cbn [check_strs]; [apply reads_ret|]. apply wp_bind, wp_get_cell. intros c _. destruct (c_val c); try exact Logic.I. apply IH. Qed.
Lemma states_b h l : b_states (set_states l h) = l. Proof. reflexivity. Qed.
Lemma instantiate_ok g0 s0 k a args g T s n ka i :
  ok g T (view s) -> nth_error (w_cells (view s)) a = Some (n, PInst ka i None) -> ext true g0 (view s0) g (view s) -> length (w_cells (view s0)) <= a ->
  wp (instantiate k a args) s (fun _ s' => ok g T (view s') /\ ext true g0 (view s0) g (view s') /\ cur_rv s' = cur_rv s).
Proof.
  intros I Na X La. unfold instantiate, one_vec. destruct args as [|b [|]]; try (apply wp_bind; apply wp_fatal). apply wp_bind, wp_bind, wp_get_cell. intros c _.
  destruct (c_val c) as [| | | |es| | |]; try apply wp_fatal. apply wp_ret. cbn [fst snd]. apply wp_reads; [apply reads_check|]. intros u _. apply wp_bind, wp_gets. apply wp_bind, host_ok.
  set (s1 := set_host _ s). apply wp_bind, wp_get_cell. intros ca Nca. apply view_cell_inv in Na as (c' & Nc' & Q1 & Q2). change (cells s1) with (cells s) in Nca. rewrite Nc' in Nca. injection Nca as <-. rewrite Q2.
  unfold put_cell. apply wp_modify. pose proof (view_cell _ _ _ Nc') as Va. rewrite Q1, Q2 in Va.
  assert (Vw' : forall nm ow, view (set_cells (upd a (Cell nm (c_cnt c') ow (PInst ka i (Some (length (b_states (host s)))))) (cells s1)) s1) =
    w_set_cells (upd a (n, PInst ka i (Some (length (w_states (view s))))) (w_cells (view s))) (w_set_states (w_states (view s) ++ [Some b]) (view s))).
  { intros nm ow. rewrite view_put. cbn [c_cnt c_val]. rewrite Q1. reflexivity. }
  rewrite Vw'. split; [exact (ok_setdata _ _ _ _ _ _ _ _ I Va)|]. split; [exact (ext_setdata _ _ _ _ _ _ _ _ _ _ X Va La)|reflexivity].
Qed.
Lemma inst_cb_ok g0 s0 a args g T s n ka i :
  ok g T (view s) -> nth_error (w_cells (view s)) a = Some (n, PInst ka i None) -> ext true g0 (view s0) g (view s) -> length (w_cells (view s0)) <= a ->
  wp (class_inst_cb a args) s (fun _ s' => ok g T (view s') /\ ext true g0 (view s0) g (view s') /\ cur_rv s' = cur_rv s).
Proof.
  intros I Na X La. unfold class_inst_cb. apply wp_bind, wp_get_cell. intros c Nc. destruct (c_val c) as [| | | | | | |k' i' d'] eqn:V; try (apply wp_undef; auto with ub).
  apply wp_bind, wp_get_cell. intros ck _. apply wp_reads; [apply reads_name|]. intros x _.
  destruct (bytes_eqb _ _); [eapply instantiate_ok; eauto|]. destruct (bytes_eqb _ _); [eapply instantiate_ok; eauto|]. apply wp_ret. auto.
Qed.
Lemma populate_b : forall vs h, b_states (populate vs h) = b_states h.
Proof. induction vs as [|v vs IH]; intro h; cbn [populate]; [reflexivity|]. rewrite IH. destruct (bytes_eqb _ _); reflexivity. Qed.
Lemma decl_cb_ok a s : wp (class_decl_cb a) s (fun _ s' => view s' = view s /\ cur_rv s' = cur_rv s).
Proof.
  unfold class_decl_cb. apply wp_bind, wp_get_cell. intros c _. destruct (c_val c); try (apply wp_undef; auto with ub). apply wp_reads; [apply reads_name|]. intros x _.
  destruct (bytes_eqb _ _); [|destruct (bytes_eqb _ _); [|destruct (bytes_eqb _ _)]].
  - apply wp_bind, host_ok. destruct (f_scope f); [|apply wp_undef; auto with ub]. apply wp_bind, wp_get_scope. intros sc _ _. apply host_ok. split; [|reflexivity].
    rewrite view_host by apply populate_b. now rewrite view_host.
  - apply host_ok. split; [now apply view_host|reflexivity].
  - apply host_ok. split; [now apply view_host|reflexivity].
  - apply wp_ret. auto.
Qed.

(** ** Variables and stacks *)
Definition same_stack (s s' : st bob) : Prop := cur_rv s' = cur_rv s /\ envs s' = envs s /\ cur_env s' = cur_env s.
Lemma add_var_ok i x st s : wp (add_var i x st) s (fun j s' => exists vs, nth_error (w_scopes (view s)) i = Some (vs, true) /\ j = length vs /\
  view s' = w_set_scopes (upd i (vs ++ [Var x st None], true) (w_scopes (view s))) (view s) /\ same_stack s s').
Proof.
  unfold add_var. apply wp_bind, wp_get_scope. intros c N A. apply wp_bind. unfold put_scope. apply wp_modify. apply wp_ret. exists (sc_vars c). pose proof (view_scope _ _ _ N) as V. rewrite A in V.
  split; [exact V|]. split; [reflexivity|]. rewrite view_put_scope. cbn [sc_vars sc_alive]. repeat split.
Qed.
Lemma write_var_ok i j a s : wp (write_var i j a) s (fun _ s' => exists vs v, nth_error (w_scopes (view s)) i = Some (vs, true) /\ nth_error vs j = Some v /\
  view s' = w_set_scopes (upd i (upd j (set_val a v) vs, true) (w_scopes (view s))) (view s) /\ same_stack s s').
Proof.
  unfold write_var. apply wp_bind, wp_get_scope. intros c N A. destruct (nth_error (sc_vars c) j) as [v|] eqn:Nv; [|apply wp_undef; auto with ub]. unfold put_scope. apply wp_modify. exists (sc_vars c), v.
  pose proof (view_scope _ _ _ N) as V. rewrite A in V. split; [exact V|]. split; [exact Nv|]. rewrite view_put_scope. cbn [sc_vars sc_alive]. repeat split.
Qed.
Lemma set_val_ok i j a s : wp (var_set_val i j a) s (fun _ s' => exists vs v, nth_error (w_scopes (view s)) i = Some (vs, true) /\ nth_error vs j = Some v /\
  view s' = w_set_scopes (upd i (upd j (set_val a v) vs, true) (w_scopes (view s))) (view s) /\ same_stack s s').
Proof.
  unfold var_set_val. apply wp_bind, wp_get_scope. intros c N A. destruct (nth_error (sc_vars c) j) as [v|] eqn:Nv; [|apply wp_undef; auto with ub]. apply wp_bind. eapply wp_impl; [apply write_var_ok|].
  intros u s1 _ (vs & v' & N1 & N2 & Vs & S1). apply wp_bind, wp_get_cell. intros x Nx. unfold put_cell. apply wp_modify. exists vs, v'. split; [exact N1|]. split; [exact N2|].
  rewrite (view_put_same s1 a x) by (exact Nx || reflexivity). split; [exact Vs|exact S1].
Qed.
Lemma push_ok s : wp push_scope s (fun i s' => i = length (scopes s) /\ view s' = w_set_scopes (w_scopes (view s) ++ [([], true)]) (view s) /\ cur_rv s' = cur_rv s /\ cur_env s' = cur_env s /\
  exists l, nth_error (envs s) (cur_env s) = Some l /\ nth_error (envs s') (cur_env s') = Some (i :: l)).
Proof.
  eapply wp_impl with (F := fun _ _ => True).
  - unfold push_scope, scope_alloc. apply wp_bind. unfold wp at 1. unfold attach. apply wp_bind. apply wp_reads; [apply reads_stack|]. intros l _. unfold set_stack. apply wp_modify. apply wp_reads; [apply reads_stack|].
    intros l' _. destruct l' as [|p [|q l']]; try exact Logic.I. apply wp_bind, wp_get_scope. intros c _ _. exact Logic.I.
  - intros i s' Q _. apply push_inv in Q as (l & c & L & -> & V & O & A & ->). split; [reflexivity|]. split; [|split; [reflexivity|]].
    + etransitivity; [exact (view_add_scope (set_envs (upd (cur_env s) (length (scopes s) :: l) (envs s)) s) c)|]. rewrite V, A. reflexivity.
    + split; [reflexivity|]. exists l. split; [exact L|]. cbn. apply upd_same. exact (nth_lt_some _ _ _ L).
Qed.
Lemma attach_ok i s : wp (attach i) s (fun _ s' => view s' = view s /\ cur_rv s' = cur_rv s).
Proof. unfold attach. apply wp_reads; [apply reads_stack|]. intros l _. unfold set_stack. apply wp_modify. split; reflexivity. Qed.
Lemma detach_ok s : wp detach s (fun _ s' => view s' = view s /\ cur_rv s' = cur_rv s).
Proof. unfold detach. apply wp_reads; [apply reads_stack|]. intros [|i l] _; [apply wp_died|]. unfold set_stack. apply wp_bind, wp_modify, wp_ret. split; reflexivity. Qed.
Lemma cur_ok s i l (F : nat -> st bob -> Prop) : nth_error (envs s) (cur_env s) = Some (i :: l) -> F i s -> wp cur_scope s F.
Proof. intros N Q. unfold wp, cur_scope, cur_stack, mbind. rewrite N. exact Q. Qed.

(** ** Calls *)
Lemma add_arg_ok i x a g T s : Inv g T s -> K g i = false -> P g a = true -> wp (add_arg i x a) s (fun _ s' => Inv g T s' /\ ext true g (view s) g (view s') /\ same_stack s s').
Proof.
  intros I Ki Pa. unfold add_arg. apply wp_bind. eapply wp_impl; [apply add_var_ok|]. intros j s1 _ (vs & N & -> & V1 & S1). eapply wp_impl; [apply set_val_ok|]. intros u s2 _ (vs' & v & N1 & N2 & V2 & S2).
  pose proof (ok_add_var _ _ _ _ _ x false I N) as I1. rewrite <- V1 in I1. pose proof (ok_write_pinned _ _ _ _ _ _ _ a I1 N1 N2 Ki Pa) as I2. rewrite <- V2 in I2.
  destruct S1 as (R1 & E1 & C1), S2 as (R2 & E2 & C2). split; [unfold Inv, rvs in *; rewrite R2, R1; exact I2|]. split; [|repeat split; congruence].
  rewrite V2. apply ext_write; [|exact N1|].
  - rewrite V1. now apply ext_add_var.
  - intros _ vs0 al N0. rewrite N in N0. injection N0 as -> _. lia.
Qed.
Lemma add_args_ok i : forall ps args g T s, Inv g T s -> K g i = false -> (forall a, In a args -> P g a = true) ->
  wp (add_args i ps args) s (fun _ s' => Inv g T s' /\ ext true g (view s) g (view s') /\ same_stack s s').
Proof.
  assert (Z : forall g T s, Inv g T s -> wp (ret tt) s (fun _ s' => Inv g T s' /\ ext true g (view s) g (view s') /\ same_stack s s')).
  { intros g T s I. apply wp_ret. split; [exact I|]. split; [apply ext_refl|repeat split]. }
  induction ps as [|p ps IH]; intros [|a args] g T s I Ki Pa; cbn [add_args]; try (now apply Z).
  apply wp_bind. eapply wp_impl; [apply (add_arg_ok i p a g T s I Ki); apply Pa; now left|]. intros u s1 _ (I1 & X1 & R1 & E1 & C1). eapply wp_impl; [apply (IH args g T s1 I1 Ki); intros; apply Pa; now right|].
  intros u' s2 _ (I2 & X2 & R2 & E2 & C2). split; [exact I2|]. split; [eapply ext_trans; eassumption|repeat split; congruence].
Qed.
Lemma setup_ok f i l args g T s : Inv g T s -> nth_error (envs s) (cur_env s) = Some (i :: l) -> K g i = false -> (forall a, In a args -> P g a = true) ->
  wp (setup_args cf f args) s (fun _ s' => Inv g T s' /\ ext true g (view s) g (view s') /\ same_stack s s').
Proof.
  intros I Tp Ki Pa. unfold setup_args. apply wp_bind, (cur_ok s i l _ Tp). destruct (f_kind f); try (now apply add_args_ok); (destruct (Nat.eqb _ _); [now apply add_args_ok|apply wp_raise]).
Qed.
Lemma arg_vals_ok i l g T s (F : list addr -> st bob -> Prop) : Inv g T s -> nth_error (envs s) (cur_env s) = Some (i :: l) -> K g i = false ->
  (forall vs, (forall a, In a vs -> P g a = true) -> F vs s) -> wp arg_vals s F.
Proof.
  intros I Tp Ki Q. unfold arg_vals. apply wp_bind, (cur_ok s i l _ Tp). apply wp_bind, wp_get_scope. intros c N A. pose proof (view_scope _ _ _ N) as V.
  assert (G : forall vs, (forall v, In v vs -> In v (sc_vars c)) -> wp (mapM (fun v => match v_val v with Some a => ret a | None => undef UNull end) vs) s (fun l s' => s' = s /\ forall a, In a l -> P g a = true)).
  { induction vs as [|v vs IH]; intro J; cbn [mapM]; [apply wp_ret; split; [reflexivity|contradiction]|]. destruct (v_val v) as [a|] eqn:E; [|apply wp_bind, wp_undef; auto with ub]. apply wp_bind, wp_ret, wp_bind.
    eapply wp_impl; [apply IH; intros; apply J; now right|]. intros l' s' _ (-> & Pl). apply wp_ret. split; [reflexivity|]. intros b [<-|Jb]; [|auto].
    exact (proj2 (v_var _ _ _ _ _ _ I i _ _ v a V (J v (or_introl eq_refl)) E) Ki). }
  eapply wp_impl; [apply (G (sc_vars c)); auto|]. intros l' s' _ (-> & Pl). now apply Q.
Qed.
Lemma no_rv_ok s (F : unit -> st bob -> Prop) : (cur_rv s = None -> F tt s) -> wp no_rv s F.
Proof. intro Q. unfold wp, no_rv. destruct (cur_rv s); [exact Logic.I|auto]. Qed.
Lemma reads_body g T s fa n f b : Inv g T s -> P g fa = true -> nth_error (w_cells (view s)) fa = Some (n, PFn f) -> f_body f = Some b ->
  wp (read_body b) s (fun x s' => s' = s /\ still_body x = true).
Proof.
  intros I Pa N Fb. assert (A : alive (view s) (PFn f)) by (apply (Inv_live g T s fa n); [exact I|now right|exact N|cbn; now rewrite Fb]). destruct (A b Fb) as (x & Nx). unfold wp, read_body. cbn in Nx. rewrite Nx. split; [reflexivity|].
  exact (v_code _ _ _ _ _ _ I b x Nx).
Qed.
Definition btok (b : body_end) : list addr := match b with BExprVal o => otok o | _ => [] end.
Definition rpost (g0 : gh) (s0 : st bob) (T : list addr) (b : body_end) (s : st bob) : Prop :=
  exists g, Inv g (btok b ++ T) s /\ ext true g0 (view s0) g (view s) /\
    forall i, b = BScope i -> length (scopes s0) <= i < length (scopes s) /\ K g i = true /\ ~ inst (view s) i /\ ~ stat (view s) i.
Lemma Inv_rv g T s a : Inv g (a :: T) s -> Inv g T (set_rv (Some (RVal a)) s).
Proof. intro I. eapply ok_weak; [exact I|]. change (rvs (set_rv (Some (RVal a)) s)) with [a]. cnt. Qed.
Lemma run_body_ok fa f n i l self d g T s : Inv g T s -> P g fa = true -> nth_error (w_cells (view s)) fa = Some (n, PFn f) -> (forall x, self = Some x -> P g x = true) ->
  nth_error (envs s) (cur_env s) = Some (i :: l) -> K g i = false -> wp (run_body cf R fa f self d) s (rpost g s T).
Proof.
  intros I Pa N Ps Tp Ki. unfold run_body.
  assert (Code : forall k, k = KFun \/ k = KClass -> wp (match f_body f with None => undef UNull | Some b => b <- read_body b ;; match b with
      | BExpr e => assert (match k with KFun => true | _ => false end) ;; r <- r_eval R d e ;; ret (BExprVal (fst r))
      | BBlock ss => i <- r_block R ss ;; ret (match k with KClass => BScope i | _ => BDone end) end end)%fl s (rpost g s T)).
  { intros k Hk. destruct (f_body f) as [b|] eqn:Fb; [|apply wp_undef; auto with ub]. apply wp_bind. eapply wp_impl; [exact (reads_body g T s fa n f b I Pa N Fb)|]. intros x s' _ (-> & St). destruct x as [ss|e]; cbn [still_body] in St.
    - apply wp_bind. eapply wp_impl; [apply (z_block R HR false ss g T s St I); discriminate|]. intros j s1 _ (g1 & I1 & X1 & B1 & B2 & B3 & B4). apply wp_ret. exists g1. destruct Hk as [-> | ->]; cbn [btok app]; (split; [exact I1|split; [exact X1|]]); [discriminate|].
      intros j' Q. injection Q as <-. auto.
    - apply wp_bind, wp_assert. intros _. apply wp_bind. eapply wp_impl; [exact (z_eval R HR d e g T s St I)|]. intros r s1 _ (g1 & I1 & X1 & _). apply wp_ret. exists g1. split; [exact I1|]. split; [exact X1|discriminate]. }
  destruct (f_kind f) as [| | |p].
  - exact (Code KFun (or_introl eq_refl)).
  - exact (Code KClass (or_intror eq_refl)).
  - apply wp_bind, (arg_vals_ok i l g T s _ I Tp Ki). intros vs Pv. apply wp_bind, no_rv_ok. intros _. eapply wp_step; [exact (extern_ok fa vs g T s I Pv)|]. intros [a|] s1 g1 _ I1 X1.
    + apply wp_bind, wp_modify, wp_ret. exists g1. split; [exact (Inv_rv g1 T s1 a I1)|]. split; [exact X1|discriminate].
    + apply wp_bind, wp_ret, wp_ret. exists g1. split; [exact I1|]. split; [exact X1|discriminate].
  - apply wp_bind, (arg_vals_ok i l g T s _ I Tp Ki). intros vs Pv. apply wp_bind, no_rv_ok. intros _. destruct self as [x|]; [|apply wp_undef; auto with ub].
    eapply wp_step; [exact (call_member_ok p x vs g T s I (Ps x eq_refl) Pv)|]. intros a s1 g1 _ I1 X1. apply wp_bind, wp_modify, wp_ret. exists g1. split; [exact (Inv_rv g1 T s1 a I1)|]. split; [exact X1|discriminate].
Qed.
(** What a call leaves, before the value being returned is forgotten. *)
Definition fpost (g0 : gh) (s0 : st bob) (T : list addr) (o : option addr) (s : st bob) : Prop := exists g, ok g (otok o ++ T) (view s) /\ ext true g0 (view s0) g (view s).
Lemma new_inst_ok g0 s0 fa i d args g T s : Inv g T s -> ext true g0 (view s0) g (view s) ->
  length (scopes s0) <= i < length (scopes s) -> K g i = true -> ~ inst (view s) i -> ~ stat (view s) i ->
  wp (a <- alloc (PInst fa i None) ;; o <- deliver d a ;; sc <- get_scope i ;; put_scope i (Scope (sc_vars sc) (Some a) (sc_class sc) true) ;; cf_inst cf a args ;; ret o)%fl s (fpost g0 s0 T).
Proof.
  intros I X (Li & Ls) Ki Ni Nt. apply wp_bind. unfold wp at 1, alloc. set (a := length (cells s)). match goal with |- wp _ ?x _ => set (s1 := x) end.
  assert (V1 : view s1 = w_set_cells (w_cells (view s) ++ [(1%Z, PInst fa i None)]) (view s)) by (unfold s1; apply view_alloc).
  assert (La : length (w_cells (view s)) = a) by apply view_len.
  assert (I1 : Inv g (a :: T) s1).
  { unfold Inv. rewrite V1. change (rvs s1) with (rvs s). eapply ok_weak; [apply (ok_alloc g (rvs s ++ T)); [exact I| |contradiction| |discriminate]|].
    - destruct (not_inst_alive _ _ _ _ _ _ i I) as (vs & Nv); [rewrite view_slen; exact Ls|exact Ni|]. split; [|split].
      + split; [rewrite view_slen; exact Ls|discriminate].
      + intros _. split; [eauto|discriminate].
      + intros b n q N Sh. destruct q as [| | | | | | |k' i' d']; cbn in Sh; try contradiction. destruct Sh as [<-|(x & Q & _)]; [|discriminate]. apply Ni. now exists b, n, k', d'.
    - intros k' i' d' Q. injection Q as _ <- _. auto.
    - rewrite La. cnt. }
  assert (X1 : ext true g0 (view s0) g (view s1)) by (rewrite V1; apply ext_new_inst; [exact X|rewrite view_slen; exact Li]).
  assert (N1 : nth_error (w_cells (view s1)) a = Some (1%Z, PInst fa i None)) by (rewrite V1; cbn; rewrite <- La; rewrite nth_error_app2, Nat.sub_diag by reflexivity; reflexivity).
  assert (L0 : length (w_cells (view s0)) <= a).
  { rewrite <- La. destruct (Nat.le_gt_cases (length (w_cells (view s0))) (length (w_cells (view s)))) as [L|L]; [exact L|exfalso]. destruct (nth_error (w_cells (view s0)) (length (w_cells (view s)))) as [(n, p)|] eqn:N.
    - destruct (e_cells _ _ _ _ _ X _ _ _ N) as (n' & N'). apply nth_lt_some in N'. lia.
    - apply nth_error_None in N. lia. }
  eapply wp_step; [exact (deliver_ok g T s1 d a I1)|]. intros o s2 g2 _ I2 X2. pose proof (ext_trans _ _ _ _ _ _ _ X1 X2) as X02. destruct (e_cells _ _ _ _ _ X2 _ _ _ N1) as (n2 & N2).
  apply wp_bind, wp_get_scope. intros sc Nsc Asc. apply wp_bind. unfold put_scope. apply wp_modify. match goal with |- wp _ ?x _ => set (s3 := x) end.
  assert (V3 : view s3 = view s2) by (apply (view_put_scope_same s2 i sc); [exact Nsc|reflexivity|now rewrite Asc]).
  rewrite <- V3 in X02, N2. assert (I3 : ok g2 (otok o ++ T) (view s3)) by (rewrite V3; eapply ok_weak; [exact I2|]; cnt).
  apply wp_bind. eapply wp_impl; [exact (inst_cb_ok g0 s0 a args g2 _ s3 n2 fa i I3 N2 X02 L0)|]. intros u s4 _ (I4 & X4 & _). apply wp_ret. exists g2. auto.
Qed.
Lemma finish_ok g0 s0 fa b d args g T s : Inv g (btok b ++ T) s -> ext true g0 (view s0) g (view s) ->
  (forall i, b = BScope i -> length (scopes s0) <= i < length (scopes s) /\ K g i = true /\ ~ inst (view s) i /\ ~ stat (view s) i) -> wp (finish cf R fa b d args) s (fpost g0 s0 T).
Proof.
  intros I X Sc. unfold finish.
  assert (Main : (forall o, b <> BExprVal o) -> wp (c <- get_cell fa ;; match c_val c with
    | PFn f =>
      match f_kind f, d with
      | KClass, Discard => ret None
      | KClass, _ =>
        match b with
        | BScope i =>
          match d with RetSlot => no_rv | _ => ret tt end ;;
          a <- alloc (PInst fa i None) ;;
          o <- deliver d a ;;
          sc <- get_scope i ;;
          put_scope i (Scope (sc_vars sc) (Some a) (sc_class sc) true) ;;
          cf_inst cf a args ;;
          ret o
        | _ => undef UWild
        end
      | _, Discard =>
        rv <- gets cur_rv ;;
        match rv with None => ret tt | Some (RVal a) => decref cf (r_fuel R) a | Some RMark => undef UMark end ;;
        ret None
      | _, Slot =>
        rv <- gets cur_rv ;;
        match rv with None => a <- alloc PNone ;; ret (Some a) | Some (RVal a) => ret (Some a) | Some RMark => undef UMark end
      | _, RetSlot => died
      end
    | _ => undef UPun
    end)%fl s (fpost g0 s0 T)).
  { intro Nb. assert (I0 : Inv g T s) by (destruct b; cbn [btok app] in I; auto; destruct (Nb _ eq_refl)). apply wp_bind, wp_get_cell. intros c _. destruct (c_val c); try (apply wp_undef; auto with ub).
    assert (Quit : forall o, otok o = [] -> wp (ret o) s (fpost g0 s0 T)).
    { intros o Q. apply wp_ret. exists g. rewrite Q. split; [|exact X]. eapply ok_weak; [exact I0|]. cnt. }
    assert (Oth : wp (match d with
      | Discard => rv <- gets cur_rv ;; match rv with None => ret tt | Some (RVal a) => decref cf (r_fuel R) a | Some RMark => undef UMark end ;; ret None
      | Slot => rv <- gets cur_rv ;; match rv with None => a <- alloc PNone ;; ret (Some a) | Some (RVal a) => ret (Some a) | Some RMark => undef UMark end
      | RetSlot => died end)%fl s (fpost g0 s0 T)).
    { destruct d; [| |apply wp_died]; apply wp_bind, wp_gets; destruct (cur_rv s) as [[a|]|] eqn:Rv; try (apply wp_undef; auto with ub); try (apply wp_bind, wp_undef; auto with ub).
      - apply wp_bind. eapply wp_impl; [apply (decref_ok (r_fuel R) a g none [] [] T s); [|contradiction]|].
        + eapply ok_weak; [exact I0|]. unfold rvs. rewrite Rv. cnt.
        + intros u s1 _ (I1 & X1 & _). apply wp_ret. exists g. split; [exact I1|]. eapply ext_trans; eassumption.
      - apply wp_bind, wp_ret. now apply Quit.
      - apply wp_ret. exists g. split; [|exact X]. eapply ok_weak; [exact I0|]. unfold rvs. rewrite Rv. cbn [otok]. cnt.
      - eapply wp_step; [apply (alloc_ok g T s PNone I0); apply sound_none|]. intros a s1 g1 _ I1 X1. apply wp_ret. exists g1. split; [|eapply ext_trans; eassumption]. eapply ok_weak; [exact I1|]. cbn [otok]. cnt. }
    destruct (f_kind f); try exact Oth. destruct d; [now apply Quit| |]; (destruct b as [|i|o]; [apply wp_undef; auto with ub| |destruct (Nb o eq_refl)]); apply wp_bind; destruct (Sc i eq_refl) as (Li & Ki & Ni & Nt).
    - apply wp_ret. eapply new_inst_ok; eauto.
    - apply no_rv_ok. intros _. eapply new_inst_ok; eauto. }
  destruct b as [|i|o]; [apply Main; discriminate|apply Main; discriminate|]. apply wp_ret. exists g. split; [|exact X]. eapply ok_weak; [exact I|]. cbn [btok]. cnt.
Qed.
Lemma call_ok fa acc d args g T s : Inv g T s -> P g fa = true -> (forall x, acc = Some x -> P g x = true) -> (forall a, In a args -> P g a = true) ->
  wp (call_ cf R fa acc d args) s (post g s T otok).
Proof.
  intros I Pf Pacc Pa. unfold call_. apply wp_bind, wp_get_cell. intros c Nc. destruct (c_val c) as [| | | | | |f|] eqn:V; try (apply wp_undef; auto with ub).
  pose proof (view_cell _ _ _ Nc) as Vf. rewrite V in Vf.
  apply wp_reads; [destruct acc as [x|]; [apply wp_bind, wp_get_cell; intros cx _; apply reads_ret|apply reads_ret]|]. intros on _.
  apply wp_bind, wp_gets. apply wp_bind, wp_gets. apply wp_bind, wp_modify. set (sA := set_body (f_body f) s).
  assert (VA : view sA = w_set_engine (f_body f) (w_mem (view s)) (view s)) by reflexivity.
  assert (IA : Inv g T sA).
  { unfold Inv. rewrite VA. apply ok_engine; [exact I| |exact (v_mem _ _ _ _ _ _ I)]. intros b Q. exists fa, (c_cnt c), f. auto. }
  assert (XA : ext true g (view s) g (view sA)) by (rewrite VA; apply ext_engine).
  assert (EnvF : wp (unless (f_env f) (fun e => modify (set_env e))) sA (fun _ s' => view s' = view sA /\ cur_rv s' = cur_rv sA)) by (destruct (f_env f); cbn [unless]; [apply wp_modify|apply wp_ret]; split; reflexivity).
  apply wp_bind. eapply wp_impl; [exact EnvF|]. intros u1 sB _ (VB & RB). assert (AttF : wp (unless on attach) sB (fun _ s' => view s' = view sB /\ cur_rv s' = cur_rv sB)) by (destruct on; cbn [unless]; [apply attach_ok|apply wp_ret; split; reflexivity]).
  apply wp_bind. eapply wp_impl; [exact AttF|]. intros u2 sC _ (VC & RC). rewrite <- VB, <- VC in XA. assert (IC : Inv g T sC) by exact (Inv_view g T sA sC (eq_trans VC VB) (eq_trans RC RB) IA).
  apply wp_bind. eapply wp_impl; [apply push_ok|]. intros i sD _ (-> & VD & RD & _ & l & _ & TD). set (i := length (scopes sC)) in *. set (gD := set_K i false g).
  assert (Li : length (w_scopes (view sC)) = i) by apply view_slen. assert (ID : Inv gD T sD) by (unfold Inv, rvs; rewrite VD, RD; unfold gD; rewrite <- Li; now apply ok_scope).
  assert (XD : ext true g (view s) gD (view sD)) by (eapply ext_trans; [exact XA|]; rewrite VD; unfold gD; rewrite <- Li; apply ext_scope).
  assert (KD : K gD i = false) by (cbn; now rewrite Nat.eqb_refl).
  apply wp_bind, wp_get_scope. intros sc Nsc Asc. apply wp_bind. unfold put_scope. apply wp_modify. match goal with |- wp _ ?x _ => set (sE := x) end.
  assert (VE : view sE = view sD) by (apply (view_put_scope_same sD i sc); [exact Nsc|reflexivity|now rewrite Asc]).
  assert (IE : Inv gD T sE) by (eapply Inv_view; [exact VE|reflexivity|exact ID]). rewrite <- VE in XD.
  apply wp_bind. eapply wp_impl; [apply (setup_ok f i l args gD T sE IE TD KD); intros a J; exact (Pa a J)|]. intros u3 sF _ (IF_ & XF & RF & EF & CF). pose proof (ext_trans _ _ _ _ _ _ _ XD XF) as X0F.
  destruct (e_cells _ _ _ _ _ X0F _ _ _ Vf) as (nF & NF).
  apply wp_bind. eapply wp_impl; [apply (run_body_ok fa f nF i l acc d gD T sF IF_ Pf NF Pacc)|]; [rewrite EF, CF; exact TD|exact KD|]. intros b sG _ (gG & IG & XG & BG). pose proof (ext_trans _ _ _ _ _ _ _ X0F XG) as X0G.
  apply wp_bind. eapply wp_impl; [apply detach_ok|]. intros u4 sH _ (VH & RH). assert (DetF : wp (unless on (fun _ => detach ;; ret tt)%fl) sH (fun _ s' => view s' = view sH /\ cur_rv s' = cur_rv sH)).
  { destruct on; cbn [unless]; [|apply wp_ret; split; reflexivity]. apply wp_bind. eapply wp_impl; [apply detach_ok|]. intros u' s' _ Q. apply wp_ret. exact Q. }
  apply wp_bind. eapply wp_impl; [exact DetF|]. intros u5 sI _ (VI & RI). apply wp_bind, wp_modify. apply wp_bind, wp_modify. match goal with |- wp _ ?x _ => set (sJ := x) end.
  assert (VJ : view sJ = w_set_engine (cur_body s) (w_mem (view sG)) (view sG)) by (rewrite <- VH, <- VI; reflexivity).
  assert (IJ : Inv gG (btok b ++ T) sJ).
  { assert (RJ : rvs sJ = rvs sG) by (unfold rvs; change (cur_rv sJ) with (cur_rv sI); now rewrite RI, RH). unfold Inv. rewrite VJ, RJ. apply ok_engine; [exact IG| |exact (v_mem _ _ _ _ _ _ IG)].
    intros x Q. eapply body_kept; [exact X0G|]. exact (v_body _ _ _ _ _ _ I x Q). }
  assert (XJ : ext true g (view s) gG (view sJ)) by (rewrite VJ; eapply ext_trans; [exact X0G|apply ext_engine]).
  apply wp_bind. eapply wp_impl; [apply (finish_ok g s fa b d args gG T sJ IJ XJ)|].
  - intros j Q. destruct (BG j Q) as ((B1 & B1') & B2 & B3 & B4).
    assert (LF : length (scopes s) <= length (scopes sF)) by (rewrite <- !view_slen; exact (ext_len _ _ _ _ _ X0F)). assert (LJ : length (scopes sJ) = length (scopes sG)) by (rewrite <- (view_slen sJ), VJ; exact (view_slen sG)).
    rewrite VJ, LJ. split; [lia|]. split; [exact B2|]. split; [exact B3|exact B4].
  - intros o sK _ (gK & IK & XK). apply wp_bind, wp_modify. apply wp_ret_post with (g := gK); [|exact XK]. unfold Inv. change (rvs (set_rv None sK)) with (@nil addr). exact IK.
Qed.

(** ** Statements *)
Hypothesis HG : good R.
Lemma conds_kept t r q g s g' s' : fr t r s s' -> ext q g (view s) g' (view s') -> conds g s -> conds g' s'.
Proof.
  intros Fr X (i & Tp & Ki & Li). exists i. split; [exact (top_kept _ _ _ _ _ Fr Tp)|]. split; [rewrite (e_K _ _ _ _ _ X) by (rewrite view_slen; exact Li); exact Ki|].
  pose proof (ext_len _ _ _ _ _ X) as L. rewrite !view_slen in L. lia.
Qed.
Lemma condt_kept t r q top g s g' s' l0 : fr t r s s' -> nth_error (envs s) (cur_env s) = Some l0 -> ext q g (view s) g' (view s') -> condt top g s -> condt top g' s'.
Proof.
  intros Fr N0 X C Q l i Nl J. rewrite (fr_env _ _ _ _ Fr), (fr_envs _ _ _ _ Fr _ _ N0) in Nl. injection Nl as <-. destruct (C Q _ _ N0 J) as (Ki & Ni & Li).
  split; [rewrite (e_K _ _ _ _ _ X) by (rewrite view_slen; exact Li); exact Ki|]. split.
  - intro Q'. apply Ni. apply (e_inst _ _ _ _ _ X); [rewrite view_slen; exact Li|exact Q'].
  - pose proof (ext_len _ _ _ _ _ X) as L. rewrite !view_slen in L. lia.
Qed.
Lemma top_stack (s : st bob) i : FlBalance.top s = Some i -> exists l, nth_error (envs s) (cur_env s) = Some (i :: l).
Proof. unfold FlBalance.top. destruct (nth_error (envs s) (cur_env s)) as [[|j l]|]; try discriminate. intro Q. injection Q as ->. eauto. Qed.
Lemma stmts_ok top : forall ss g T s, forallb (still_stmt top) ss = true -> Inv g T s -> condt top g s -> conds g s ->
  wp (iterM (r_stmt R) ss) s (fun _ s' => exists g', Inv g' T s' /\ ext (negb top) g (view s) g' (view s') /\ exists i, FlBalance.top s = Some i /\ fr (Some i) false s s').
Proof.
  induction ss as [|x ss IH]; intros g T s St I Ct Cs; cbn [iterM].
  - apply wp_ret. exists g. split; [exact I|]. split; [apply ext_refl|]. destruct Cs as (i & Tp & _). exists i. split; [exact Tp|apply fr_refl].
  - cbn [forallb] in St. apply andb_prop in St as (S1 & S2). apply wp_bind. eapply wp_impl; [exact (z_stmt R HR top x g T s S1 I Ct Cs)|]. intros u s1 Run (g1 & I1 & X1).
    destruct Cs as (i & Tp & Ki & Li). assert (Cs : conds g s) by (exists i; auto). pose proof (g_stmt _ HG x s u s1 i Tp Run) as Fr. apply top_stack in Tp as Tl. destruct Tl as (l & Nl).
    assert (Fr' : fr (Some i) false s s1) by (destruct (quiet x); [now apply fr_loud|exact Fr]).
    eapply wp_impl; [apply (IH g1 T s1 S2 I1)|].
    + exact (condt_kept _ _ _ _ _ _ _ _ _ Fr' Nl X1 Ct).
    + exact (conds_kept _ _ _ _ _ _ _ Fr' X1 Cs).
    + intros u2 s2 _ (g2 & I2 & X2 & i2 & Tp2 & Fr2). exists g2. split; [exact I2|]. split; [eapply ext_trans; eassumption|]. exists i. split; [exact Tp|].
      rewrite (top_kept _ _ _ _ _ Fr' Tp) in Tp2. injection Tp2 as <-. eapply fr_trans; eassumption.
Qed.
Lemma block_ok top ss g T s : forallb (still_stmt top) ss = true -> Inv g T s -> condt top g s -> wp (block_ R ss) s (bpost (negb top) g s T).
Proof.
  intros St I Ct. unfold block_. apply wp_bind. eapply wp_impl; [apply push_ok|]. intros i s1 _ (-> & V1 & R1 & C1 & l & Nl & N1). set (i := length (scopes s)) in *. set (g1 := set_K i true g).
  assert (Li : length (w_scopes (view s)) = i) by apply view_slen. assert (I1 : Inv g1 T s1) by (unfold Inv, rvs; rewrite V1, R1; unfold g1; rewrite <- Li; now apply ok_scope).
  assert (X1 : forall q, ext q g (view s) g1 (view s1)) by (intro q; rewrite V1; unfold g1; rewrite <- Li; apply ext_scope).
  assert (K1 : K g1 i = true) by (cbn; now rewrite Nat.eqb_refl). assert (L1 : i < length (scopes s1)) by (rewrite <- view_slen, V1; cbn; rewrite app_length, map_length; cbn; unfold i; lia).
  assert (Ni : ~ inst (view s1) i) by (rewrite V1; intro J; apply (inst_bound _ _ _ _ _ _ i I) in J; lia). assert (Nt : ~ stat (view s1) i) by (rewrite V1; intro J; apply (stat_bound _ _ _ _ _ _ i I) in J; lia).
  assert (Tp : FlBalance.top s1 = Some i) by (unfold FlBalance.top; now rewrite N1).
  apply wp_bind. eapply wp_impl; [apply (stmts_ok top ss g1 T s1 St I1)|].
  - intros Q l' j Nl' J. rewrite N1 in Nl'. injection Nl' as <-. destruct J as [<-|J]; [auto|]. destruct (Ct Q l j Nl J) as (Kj & Nj & Lj). fold i in Lj. split; [|split].
    + cbn. destruct (Nat.eqb_spec j i); [reflexivity|exact Kj].
    + rewrite V1. exact Nj.
    + lia.
  - exists i. auto.
  - intros u s2 _ (g2 & I2 & X2 & i2 & Tp2 & Fr). rewrite Tp in Tp2. injection Tp2 as <-. eapply wp_impl; [apply detach_ok|]. intros j s3 Run (V3 & R3).
    assert (j = i) as -> by (apply detach_inv in Run as (l' & Nd & _); pose proof (top_kept _ _ _ _ _ Fr Tp) as Tp'; unfold FlBalance.top in Tp'; rewrite Nd in Tp'; now injection Tp').
    pose proof (ext_len _ _ _ _ _ X2) as L. rewrite !view_slen in L. assert (L3 : length (scopes s3) = length (scopes s2)) by (rewrite <- (view_slen s3), V3; exact (view_slen s2)).
    exists g2. split; [eapply Inv_view; [exact V3|exact R3|exact I2]|]. rewrite V3. split; [eapply ext_trans; [apply X1|exact X2]|]. split; [unfold i in *; lia|]. assert (Lv : i < length (w_scopes (view s1))) by (rewrite view_slen; exact L1). split.
    + rewrite (e_K _ _ _ _ _ X2) by exact Lv. exact K1.
    + split; intro J; [apply Ni; exact (e_inst _ _ _ _ _ X2 _ Lv J)|apply Nt; exact (e_stat _ _ _ _ _ X2 _ Lv J)].
Qed.
Lemma let_ok st x e g T s : match e with Some e => still_expr e | None => true end = true -> Inv g T s -> conds g s -> wp (let_ cf R st x e) s (spost true g s T).
Proof.
  intros St I (i & Tp & Ki & Li). destruct (top_stack _ _ Tp) as (l & Nl). unfold let_. apply wp_bind, (cur_ok s i l _ Nl). apply wp_reads; [apply reads_find|]. intros [(j, v)|] _.
  - destruct (v_val v); [|apply wp_undef; auto with ub]. apply wp_bind, wp_get_cell. intros c _. apply wp_raise.
  - apply wp_bind. eapply wp_impl; [apply add_var_ok|]. intros j s1 _ (vs & N & -> & V1 & R1 & _). pose proof (ok_add_var _ _ _ _ _ x st I N) as I1. rewrite <- V1 in I1.
    assert (J1 : Inv g T s1) by (unfold Inv, rvs; rewrite R1; exact I1). assert (X1 : ext true g (view s) g (view s1)) by (rewrite V1; now apply ext_add_var).
    assert (Ev : wp (match e with Some e => value R e | None => alloc PNone end) s1 (post g s1 T (fun a => [a]))) by (destruct e as [e|]; [exact (value_ok e g T s1 St J1)|apply alloc_ok; [exact J1|apply sound_none]]).
    eapply wp_step; [exact Ev|]. intros a s2 g2 _ I2 X2. pose proof (ext_trans _ _ _ _ _ _ _ X1 X2) as X02. apply wp_bind. eapply wp_impl; [apply write_var_ok|]. intros u s3 _ (vs' & v & N1 & N2 & V3 & R3 & _).
    assert (I3 : ok g2 (rvs s2 ++ T) (view s3)).
    { rewrite V3. assert (I2' : ok g2 (a :: rvs s2 ++ T) (view s2)) by (eapply ok_weak; [exact I2|]; cnt). refine (ok_write g2 none _ _ _ _ _ _ a I2' N1 N2 _ _); [|discriminate]. rewrite (e_K _ _ _ _ _ X02) by (rewrite view_slen; exact Li). exact Ki. }
    unfold set_owner_of. apply wp_bind, wp_get_cell. intros c Nc. unfold put_cell. apply wp_modify. exists g2. unfold Inv. rewrite (view_put_same s3 a c) by (exact Nc || reflexivity). split.
    + unfold rvs in *. cbn [cur_rv set_cells]. rewrite R3. exact I3.
    + rewrite V3. apply ext_write; [exact X02|exact N1|]. intros _ vs0 al N0. rewrite N in N0. injection N0 as -> _. lia.
Qed.
Lemma static_ok x g T s : still_stmt false x = true -> Inv g T s -> conds g s -> wp (static_member cf R x) s (spost true g s T).
Proof.
  intros St I C. assert (Z : wp (ret tt) s (spost true g s T)) by (apply wp_ret; exists g; split; [exact I|apply ext_refl]). unfold static_member.
  destruct x; try exact Z; destruct static; try exact Z; cbn [still_stmt] in St; first [now apply let_ok|now apply (z_fun R HR)].
Qed.
Lemma statics_ok : forall ss g T s, forallb (still_stmt false) ss = true -> Inv g T s -> conds g s -> wp (iterM (static_member cf R) ss) s (spost true g s T).
Proof.
  induction ss as [|x ss IH]; intros g T s St I C; cbn [iterM]; [apply wp_ret; exists g; split; [exact I|apply ext_refl]|]. cbn [forallb] in St. apply andb_prop in St as (S1 & S2).
  apply wp_bind. eapply wp_impl; [exact (static_ok x g T s S1 I C)|]. intros u s1 Run (g1 & I1 & X1). destruct C as (i & Tp & Ki & Li). assert (C : conds g s) by (exists i; auto).
  pose proof (static_member_fr cf R HG x s u s1 i Tp Run) as Fr. eapply wp_impl; [apply (IH g1 T s1 S2 I1); exact (conds_kept _ _ _ _ _ _ _ Fr X1 C)|].
  intros u2 s2 _ (g2 & I2 & X2). exists g2. split; [exact I2|]. eapply ext_trans; eassumption.
Qed.
Lemma fun_ok k st x ps ss g T s : forallb (still_stmt false) ss = true -> Inv g T s -> conds g s -> wp (fun_ cf R k st x ps ss) s (spost true g s T).
Proof.
  intros St I (i & Tp & Ki & Li). destruct (top_stack _ _ Tp) as (l & Nl). unfold fun_. apply wp_bind, (cur_ok s i l _ Nl). apply wp_reads; [apply reads_find|]. intros [(j, v)|] _.
  { destruct (v_val v); [|apply wp_undef; auto with ub]. apply wp_bind, wp_get_cell. intros c _. apply wp_raise. }
  apply wp_bind. eapply wp_impl; [apply add_var_ok|]. intros j s1 _ (vs & N & -> & V1 & R1 & E1 & C1). set (j := length vs). set (w1 := view s1) in *.
  assert (I1 : ok g (rvs s ++ T) w1) by (rewrite V1; now apply ok_add_var). assert (X1 : ext true g (view s) g w1) by (rewrite V1; now apply ext_add_var).
  apply wp_bind. unfold wp at 1, alloc. set (a := length (cells s1)). match goal with |- wp _ ?y _ => set (s2 := y) end. assert (V2 : view s2 = w_set_cells (w_cells w1 ++ [(1%Z, PNone)]) w1) by apply view_alloc.
  assert (La : length (w_cells w1) = a) by apply view_len. assert (R2 : cur_rv s2 = cur_rv s1) by reflexivity.
  apply wp_bind. eapply wp_impl; [apply set_val_ok|]. intros u1 s3 _ (vs' & v & N1 & N2 & V3 & R3 & E3 & C3). rewrite V2 in N1. cbn [w_set_cells w_scopes] in N1.
  apply wp_bind, close_ok. intro l4. set (s4 := set_envs (envs s3 ++ [l4]) s3). assert (V4 : view s4 = view s3) by reflexivity. assert (R4 : cur_rv s4 = cur_rv s3) by reflexivity. set (env := length (envs s3)) in *.
  assert (New : forall vs0 al, nth_error (w_scopes (view s)) i = Some (vs0, al) -> length vs0 <= j) by (intros vs0 al N0; rewrite N in N0; injection N0 as -> _; unfold j; lia).
  assert (Li1 : i < length (w_scopes w1)) by exact (nth_lt_some _ _ _ N1).
  set (S3 := upd i (upd j (set_val a v) vs', true) (w_scopes w1)).
  assert (W3 : view s3 = w_set_scopes S3 (w_set_cells (w_cells w1 ++ [(1%Z, PNone)]) w1)) by (rewrite V3, V2; reflexivity).
  apply wp_bind. eapply wp_impl with (F := fun b s5 => exists B5, view s5 = w_set_scopes S3 (w_set_cells (w_cells w1 ++ [(1%Z, PNone)]) (w_set_bodies B5 w1)) /\ cur_rv s5 = cur_rv s4 /\
     ok g (rvs s ++ T) (w_set_bodies B5 w1) /\ (forall b', b = Some b' -> (exists y, nth_error B5 b' = Some (Some y)) /\ forall a n f', nth_error (w_cells w1) a = Some (n, PFn f') -> f_body f' <> Some b')).
  { assert (Zero : wp (ret None) s4 (fun b s5 => exists B5, view s5 = w_set_scopes S3 (w_set_cells (w_cells w1 ++ [(1%Z, PNone)]) (w_set_bodies B5 w1)) /\ cur_rv s5 = cur_rv s4 /\
     ok g (rvs s ++ T) (w_set_bodies B5 w1) /\ (forall b', b = Some b' -> (exists y, nth_error B5 b' = Some (Some y)) /\ forall a n f', nth_error (w_cells w1) a = Some (n, PFn f') -> f_body f' <> Some b'))).
    { apply wp_ret. exists (w_bodies w1). split; [rewrite V4, W3; now destruct w1|]. split; [reflexivity|]. split; [now destruct w1|discriminate]. }
    assert (One : wp (b <- new_body (BBlock ss) ;; ret (Some b))%fl s4 (fun b s5 => exists B5, view s5 = w_set_scopes S3 (w_set_cells (w_cells w1 ++ [(1%Z, PNone)]) (w_set_bodies B5 w1)) /\ cur_rv s5 = cur_rv s4 /\
     ok g (rvs s ++ T) (w_set_bodies B5 w1) /\ (forall b', b = Some b' -> (exists y, nth_error B5 b' = Some (Some y)) /\ forall a n f', nth_error (w_cells w1) a = Some (n, PFn f') -> f_body f' <> Some b'))).
    { apply wp_bind. unfold wp at 1, new_body. apply wp_ret. assert (B4 : bodies s4 = w_bodies w1) by (change (bodies s4) with (w_bodies (view s4)); rewrite V4, W3; reflexivity).
      exists (w_bodies w1 ++ [Some (BBlock ss)]). split; [|split; [reflexivity|split]].
      - transitivity (w_set_bodies (bodies s4 ++ [Some (BBlock ss)]) (view s4)); [reflexivity|]. rewrite B4, V4, W3. reflexivity.
      - apply ok_bodies; [exact St|exact I1].
      - intros b' Q. assert (b' = length (w_bodies w1)) as -> by (rewrite <- B4; now injection Q). clear Q. split; [exists (BBlock ss); rewrite nth_error_app2, Nat.sub_diag by lia; reflexivity|].
        intros b n f' Nb Q. pose proof (proj1 (v_bound _ _ _ _ _ _ I1 _ _ _ Nb) _ Q). lia. }
    destruct k; try exact One. exact Zero. }
  intros b s5 _ (B5 & V5 & R5 & I5 & Fb). set (wb := w_set_bodies B5 w1) in *. assert (Xb : ext true g (view s) g wb) by (eapply ext_trans; [exact X1|]; apply ext_same; auto).
  assert (Rs : rvs s5 = rvs s) by (unfold rvs; rewrite R5, R4, R3, R2, R1; reflexivity).
  assert (Ki1 : K g i = true) by exact Ki.
  assert (Plain : forall nm ow, wp (put_cell a (Cell nm 1%Z ow (PFn (Fn k ps b (Some env) None)))) s5 (spost true g s T)).
  { intros nm ow. unfold put_cell. apply wp_modify. destruct (ok_decl g (view s) g (rvs s ++ T) wb (Fn k ps b (Some env) None) i j vs' v I5 Xb) as (I6 & X6); auto; [|discriminate|].
    { apply fresh_fn; [exact Fb|discriminate]. }
    assert (V6 : view (set_cells (upd a (Cell nm 1%Z ow (PFn (Fn k ps b (Some env) None))) (cells s5)) s5) =
      w_set_scopes (upd i (upd j (set_val (length (w_cells wb)) v) vs', true) (w_scopes wb)) (w_set_cells (w_cells wb ++ [(1%Z, PFn (Fn k ps b (Some env) None))]) wb)).
    { rewrite view_put, V5. cbn [c_cnt c_val w_set_scopes w_set_cells w_set_bodies w_cells w_scopes]. change (w_cells wb) with (w_cells w1). rewrite La. unfold S3. rewrite <- La at 1. rewrite upd_end. reflexivity. }
    exists g. unfold Inv. rewrite V6. split; [|exact X6]. change (rvs (set_cells (upd a (Cell nm 1%Z ow (PFn (Fn k ps b (Some env) None))) (cells s5)) s5)) with (rvs s5). rewrite Rs. exact I6. }
  destruct k; try apply Plain. clear Plain.
  apply wp_bind. unfold wp at 1, scope_alloc. set (sc := length (scopes s5)). match goal with |- wp _ ?y _ => set (s6 := y) end.
  assert (Lsc : length (w_scopes wb) = sc) by (unfold sc; rewrite <- view_slen, V5; cbn; unfold S3; rewrite upd_length; reflexivity).
  assert (V6 : view s6 = w_set_scopes (w_scopes (view s5) ++ [([], true)]) (view s5)) by (unfold s6; rewrite view_add_scope; reflexivity).
  apply wp_bind. unfold put_scope. apply wp_modify. match goal with |- wp _ ?y _ => set (s7 := y) end.
  assert (V7 : view s7 = view s6).
  { unfold s7. rewrite view_put_scope. cbn [sc_vars sc_alive]. rewrite upd_id; [apply w_scopes_id|]. rewrite V6. cbn [w_scopes w_set_scopes]. unfold sc. rewrite <- view_slen, nth_error_app2, Nat.sub_diag by reflexivity. reflexivity. }
  apply wp_bind. unfold put_cell. apply wp_modify. match goal with |- wp _ ?y _ => set (s8 := y) end. set (f := Fn KClass ps b (Some env) (Some sc)) in *.
  set (gc := set_K sc true g). set (wc := w_set_scopes (w_scopes wb ++ [([], true)]) wb).
  assert (Ic : ok gc (rvs s ++ T) wc) by (unfold gc, wc; rewrite <- Lsc; now apply ok_scope). assert (Xc : ext true g (view s) gc wc) by (eapply ext_trans; [exact Xb|]; unfold gc, wc; rewrite <- Lsc; apply ext_scope).
  assert (Li5 : i < length (w_scopes wb)) by exact Li1.
  destruct (ok_decl g (view s) gc (rvs s ++ T) wc f i j vs' v Ic Xc) as (I8 & X8).
  { apply fresh_fn; [exact Fb|]. intros i' Q. injection Q as <-. cbn. rewrite app_length. cbn. rewrite <- Lsc. cbn. lia. }
  { intros i' Q. injection Q as <-. split; [cbn; now rewrite Nat.eqb_refl|]. split; [intro J; apply (inst_bound _ _ _ _ _ _ sc I5) in J; lia|]. rewrite <- Lsc. exact (ext_len _ _ _ _ _ Xb). }
  { unfold wc. cbn [w_scopes w_set_scopes]. apply nth_app_l. exact N1. }
  { exact N2. }
  { cbn. destruct (Nat.eqb_spec i sc); [reflexivity|exact Ki]. }
  { exact New. }
  assert (V8 : view s8 = w_set_scopes (upd i (upd j (set_val (length (w_cells wc)) v) vs', true) (w_scopes wc)) (w_set_cells (w_cells wc ++ [(1%Z, PFn f)]) wc)).
  { unfold s8. rewrite view_put, V7, V6, V5. unfold wc. cbn [c_cnt c_val w_set_scopes w_set_cells w_set_bodies w_cells w_scopes]. rewrite <- La. change (w_cells wb) with (w_cells w1). rewrite upd_end. change (w_scopes wb) with (w_scopes w1).
    rewrite upd_app_l by exact Li1. unfold S3. rewrite La. reflexivity. }
  assert (J8 : Inv gc T s8) by (unfold Inv; rewrite V8; change (rvs s8) with (rvs s5); rewrite Rs; exact I8). rewrite <- V8 in X8.
  assert (L8 : sc < length (scopes s8)) by (rewrite <- view_slen, V8; cbn; rewrite upd_length, app_length; cbn; rewrite <- Lsc; cbn; lia).
  apply wp_bind. eapply wp_impl; [apply attach_ok|]. intros u8 s9 Run9 (V9 & R9). apply attach_inv in Run9 as (l9 & N9 & S9).
  assert (C9 : conds gc s9).
  { exists sc. split; [unfold FlBalance.top; subst s9; cbn; rewrite upd_same by exact (nth_lt_some _ _ _ N9); reflexivity|]. split; [cbn; now rewrite Nat.eqb_refl|]. subst s9. exact L8. }
  apply wp_bind. eapply wp_impl; [apply (statics_ok ss gc T s9 St); [eapply Inv_view; [exact V9|exact R9|exact J8]|exact C9]|]. intros u9 s10 _ (g10 & I10 & X10). rewrite V9 in X10.
  apply wp_bind. eapply wp_impl; [apply detach_ok|]. intros u10 s11 _ (V11 & R11). eapply wp_impl; [apply decl_cb_ok|]. intros u11 s12 _ (V12 & R12).
  exists g10. split; [exact (Inv_view g10 T s10 s12 (eq_trans V12 V11) (eq_trans R12 R11) I10)|]. rewrite V12, V11. eapply ext_trans; eassumption.
Qed.
Lemma find_in_ok x s : forall l, wp (find_in l x) s (fun r s' => s' = s /\ forall i j v, r = Some (i, j, v) ->
  In i l /\ exists sc, nth_error (scopes s) i = Some sc /\ sc_alive sc = true /\ nth_error (sc_vars sc) j = Some v).
Proof.
  induction l as [|i l IH]; cbn [find_in]; [apply wp_ret; split; [reflexivity|discriminate]|]. unfold find_var. apply wp_bind, wp_bind, wp_get_scope. intros sc N A. apply wp_ret.
  destruct (find_key x (sc_vars sc) 0) as [(j, v)|] eqn:Q.
  - apply wp_ret. split; [reflexivity|]. intros i' j' v' E. injection E as <- <- <-. split; [now left|]. exists sc. apply find_key_nth in Q as (_ & Q). rewrite Nat.sub_0_r in Q. auto.
  - eapply wp_impl; [exact IH|]. intros r s' _ (-> & G). split; [reflexivity|]. intros i' j' v' E. destruct (G _ _ _ E) as (J & B). split; [now right|exact B].
Qed.
Definition held (r : vref) (a : addr) : Prop := match r with VVar _ _ v => v_val v = Some a | VMember _ _ m => m = a end.
Lemma target_ok l g T s : still_lhs l = true -> Inv g T s -> condt true g s ->
  wp (target cf R l) s (fun t s' => exists g' r, fst t = Some r /\ Inv g' T s' /\ ext true g (view s) g' (view s') /\ vref_ok g' s' r /\ held r (snd t)).
Proof.
  intros St I Ct. destruct l as [x|e x|e i]; cbn [target]; cbn [still_lhs] in St; [| |discriminate].
  - unfold env_find. apply wp_bind, wp_bind. eapply wp_impl with (F := fun l s' => s' = s /\ nth_error (envs s) (cur_env s) = Some l).
    { unfold wp, cur_stack. destruct (nth_error (envs s) (cur_env s)) eqn:N; auto with ub. }
    intros l s' _ (-> & Nl). eapply wp_impl; [apply find_in_ok|]. intros r s' _ (-> & G). destruct r as [((i, j), v)|]; [|apply wp_raise]. destruct (G i j v eq_refl) as (J & sc & N & A & Nv). destruct (Ct eq_refl _ _ Nl J) as (Ki & Ni & _).
    apply wp_bind. cbn [vref_val]. destruct (v_val v) as [a|] eqn:V; [|apply wp_undef; auto with ub]. apply wp_ret, wp_ret. exists g, (VVar i j v). split; [reflexivity|]. split; [exact I|]. split; [apply ext_refl|]. split; [|exact V].
    exists sc. split; [exact N|]. split; [exact A|]. split; [exact Nv|]. split; [exact Ki|]. intros b n k d Nb. destruct Ni. now exists b, n, k, d.
  - apply wp_bind. eapply wp_impl; [exact (access_ok e x g T s St I)|]. intros (r, a) s1 _ (g1 & I1 & X1 & _ & Vr). cbn [fst snd] in *. apply wp_bind.
    assert (W : wp (vref_val r) s1 (fun b s' => s' = s1 /\ held r b)).
    { destruct r as [i j v|i y m]; cbn [vref_val]; [|apply wp_ret; split; reflexivity]. destruct (v_val v) eqn:V; [|apply wp_undef; auto with ub]. apply wp_ret. split; [reflexivity|exact V]. }
    eapply wp_impl; [exact W|]. intros b s' _ (-> & Hb). apply wp_ret. exists g1, r. auto 10.
Qed.
Lemma assign_ok l text e g T s : still_lhs l = true -> still_expr e = true -> Inv g T s -> condt true g s -> wp (do_assign cf R l text e) s (spost false g s T).
Proof.
  intros Sl Se I Ct. unfold do_assign. apply wp_bind. eapply wp_impl; [exact (target_ok l g T s Sl I Ct)|]. intros (t, a) s1 _ (g1 & r & Qt & I1 & X1 & Vr & Hr). cbn [fst snd] in *. subst t.
  apply wp_bind, wp_get_cell. intros c Nc. destruct r as [i j v|i y m].
  2: { cbn in Vr, Hr. subst m. assert (Jm : In a (w_mem (view s1))) by exact Vr. destruct (v_mem _ _ _ _ _ _ I1 a Jm) as (n & f & Nf). pose proof (view_cell _ _ _ Nc) as Vc. rewrite Vc in Nf. injection Nf as _ Q. rewrite Q. apply wp_raise. }
  destruct Vr as (sc & Nsc & Asc & Nv & Ki & Pi). cbn [held] in Hr. pose proof (view_scope _ _ _ Nsc) as Vsc. rewrite Asc in Vsc. pose proof (nth_lt_some _ _ _ Vsc) as Li.
  assert (Main : wp (rhs <- value R e ;; (decref cf (r_fuel R) a ;; set_vref (VVar i j v) rhs) ;; c' <- get_cell a ;;
    if negb (kind_eqb (kind_of (c_val c')) (kind_of (c_val c))) && negb (kind_eqb (kind_of (c_val c)) TNone) && negb (kind_eqb (kind_of (c_val c')) TNone)
    then error cf (lit "cannot assign " ++ type_str (c_val c') ++ lit " to " ++ quoted text ++ lit " (" ++ type_str (c_val c) ++ lit ")") else ret tt)%fl s1 (spost false g s T)).
  { eapply wp_step; [exact (value_ok e g1 T s1 Se I1)|]. intros rhs s2 g2 _ I2 X2.
    assert (Pi2 : forall b n k d, nth_error (w_cells (view s2)) b = Some (n, PInst k i d) -> P g2 b = true).
    { intros b n k d Nb. assert (J : inst (view s1) i) by (apply (e_inst _ _ _ _ _ X2 i Li); now exists b, n, k, d). destruct J as (b0 & n0 & k0 & d0 & N0). pose proof (e_P _ _ _ _ _ X2 _ (Pi _ _ _ _ N0)) as P0.
      destruct (e_cells _ _ _ _ _ X2 _ _ _ N0) as (n0' & N0'). destruct (Nat.eq_dec b b0) as [->|D]; [exact P0|]. apply (v_share _ _ _ _ _ _ I2 b b0 _ _ _ _ Nb N0' D). now left. }
    destruct (e_scopes _ _ _ _ _ X2 _ _ _ Vsc) as (vs2 & al2 & N2 & A2 & V2). specialize (V2 eq_refl j v Nv).
    assert (Al2 : al2 = true).
    { destruct (A2 eq_refl) as [Q|(b & n & k & d & Nb)]; [exact Q|]. destruct (Inv_live g2 (rhs :: T) s2 b n (PInst k i d) I2 (or_intror (Pi2 _ _ _ _ Nb)) Nb eq_refl) as ((vs' & N') & _). rewrite N2 in N'. now injection N'. }
    subst al2. assert (Ki2 : K g2 i = true) by (rewrite (e_K _ _ _ _ _ X2 i Li); exact Ki).
    pose proof (ok_take g2 (rvs s2 ++ rhs :: T) (view s2) i j vs2 v a I2 N2 V2 Hr Ki2 Pi2) as I2'.
    apply wp_bind, wp_bind. eapply wp_impl; [apply (decref_ok (r_fuel R) a g2 (only i j) [] [] (rvs s2 ++ rhs :: T) s2 I2'); contradiction|]. intros u s3 _ (I3 & X3 & R3). cbn [set_vref].
    eapply wp_impl; [apply set_val_ok|]. intros u' s4 _ (vs4 & v4 & N4 & Nv4 & V4 & R4 & _).
    assert (I4 : ok g2 (rvs s2 ++ T) (view s4)).
    { rewrite V4. assert (I3' : inv g2 (only i j) [] [] (rhs :: rvs s2 ++ T) (view s3)) by (eapply inv_weak; [exact I3| |contradiction]; cnt).
      refine (ok_write g2 (only i j) _ _ _ _ _ _ rhs I3' N4 Nv4 Ki2 _). intros i' j' Q. exact (only_true _ _ _ _ Q). }
    apply wp_bind, wp_get_cell. intros c' _. destruct (_ && _ && _); [apply wp_raise|]. apply wp_ret. exists g2. split.
    - unfold Inv. replace (rvs s4) with (rvs s2); [exact I4|]. unfold rvs. unfold keeps in R3. now rewrite R4, R3.
    - rewrite V4. apply ext_write; [|exact N4|discriminate]. apply ext_weak. eapply ext_trans; [exact X1|]. eapply ext_trans; eassumption. }
  destruct (c_val c); try exact Main. apply wp_raise.
Qed.
Lemma return_ok e g T s : match e with Some e => still_expr e | None => true end = true -> Inv g T s -> wp (do_return cf R e) s (spost true g s T).
Proof.
  intros St I. unfold do_return. apply wp_reads; [apply reads_stack|]. intros [|i [|j l]] _; try apply wp_raise. apply wp_bind, wp_get_scope. intros sc _ _. destruct (sc_class sc).
  - destruct e; [apply wp_raise|]. apply wp_bind, no_rv_ok. intro Rv. apply wp_modify. exists g. split; [|apply ext_same; auto]. unfold Inv, rvs in *. cbn [cur_rv set_rv]. rewrite Rv in I. exact I.
  - apply wp_bind, no_rv_ok. intro Rv. destruct e as [e|].
    + apply wp_bind. eapply wp_impl; [exact (z_eval R HR RetSlot e g T s St I)|]. intros r s1 _ (g1 & I1 & X1 & _). apply wp_ret. exists g1. split; [exact (Inv_drops _ _ _ _ I1)|exact X1].
    + eapply wp_step; [apply (alloc_ok g T s PNone I); apply sound_none|]. intros a s1 g1 _ I1 X1. apply wp_modify. exists g1. split; [exact (Inv_rv g1 T s1 a I1)|exact X1].
Qed.
Lemma print_ok e g T s : still_expr e = true -> Inv g T s -> wp (do_print cf R e) s (spost true g s T).
Proof.
  intros St I. unfold do_print. eapply wp_step; [exact (value_ok e g T s St I)|]. intros a s1 g1 _ I1 X1. apply wp_reads; [apply (reads_repr g1 (a :: T) s1 I1); left; now left|]. intros t _. apply wp_bind, wp_modify.
  match goal with |- wp _ ?y _ => set (s2 := y) end. assert (I2 : Inv g1 (a :: T) s2) by exact I1. eapply wp_impl; [exact (drop_ok (r_fuel R) g1 T s2 a I2)|]. intros u s3 _ (g3 & I3 & X3). exists g3. split; [exact I3|].
  eapply ext_trans; [exact X1|exact X3].
Qed.
Lemma assert_ok e text g T s : still_expr e = true -> Inv g T s -> wp (do_assert cf R e text) s (spost true g s T).
Proof.
  intros St I. unfold do_assert. eapply wp_step; [exact (value_ok e g T s St I)|]. intros a s1 g1 _ I1 X1. apply wp_bind, wp_get_cell. intros c _. destruct (c_val c) as [|[|]| | | | | |]; try apply wp_raise.
  eapply wp_impl; [exact (drop_ok (r_fuel R) g1 T s1 a I1)|]. intros u s3 _ (g3 & I3 & X3). exists g3. split; [exact I3|]. eapply ext_trans; eassumption.
Qed.
Hypothesis Hfiles : forall p ss, files p = File ss -> forallb (still_stmt true) ss = true.
Lemma member_ok m g T s : Inv g T s -> wp (add_member m) s (fun r s' => Inv g T s' /\ ext true g (view s) g (view s') /\ same_stack s s' /\ exists n f, nth_error (w_cells (view s')) (snd r) = Some (n, PFn f)).
Proof.
  intro I. destruct m as ((k, x), p). cbn [add_member]. set (f := Fn (KPtm p) [] None None None). apply wp_bind. eapply wp_impl with (F := fun a s1 => Inv g T s1 /\ ext true g (view s) g (view s1) /\ same_stack s s1 /\ nth_error (cells s1) a = Some (Cell NNone 1%Z None (PFn f))).
  - unfold wp, alloc. match goal with |- _ ?y /\ _ => set (s1 := y) end. assert (V1 : view s1 = w_set_cells (w_cells (view s) ++ [(1%Z, PFn f)]) (view s)) by apply view_alloc.
    split; [|split; [|split]].
    + unfold Inv. rewrite V1. change (rvs s1) with (rvs s). eapply ok_drop. apply (ok_alloc g (rvs s ++ T)); [exact I| |contradiction|discriminate|discriminate || (intros f' i Q; injection Q as <-; discriminate)]. apply fresh_fn; discriminate.
    + rewrite V1. apply ext_new_fn; [apply ext_refl|discriminate].
    + repeat split.
    + cbn. rewrite nth_error_app2, Nat.sub_diag by reflexivity. reflexivity.
  - intros a s1 _ (I1 & X1 & S1 & N1). apply wp_bind. unfold put_cell. apply wp_modify. apply wp_ret. match goal with |- Inv _ _ ?y /\ _ => set (s2 := y) end.
    assert (V2 : view s2 = view s1) by (apply (view_put_same s1 a _ _ N1); reflexivity). unfold Inv. rewrite V2. split; [exact I1|]. split; [exact X1|]. split; [exact S1|]. exists 1%Z, f. exact (view_cell _ _ _ N1).
Qed.
Lemma members_ok : forall l g T s, Inv g T s ->
  wp (mapM add_member l) s (fun r s' => Inv g T s' /\ ext true g (view s) g (view s') /\ same_stack s s' /\ forall a, In a (map snd r) -> exists n f, nth_error (w_cells (view s')) a = Some (n, PFn f)).
Proof.
  induction l as [|m l IH]; intros g T s I; cbn [mapM].
  - apply wp_ret. split; [exact I|]. split; [apply ext_refl|]. split; [repeat split|contradiction].
  - apply wp_bind. eapply wp_impl; [exact (member_ok m g T s I)|]. intros r s1 _ (I1 & X1 & (R1 & E1 & C1) & M1). apply wp_bind. eapply wp_impl; [exact (IH g T s1 I1)|]. intros rs s2 _ (I2 & X2 & (R2 & E2 & C2) & M2). apply wp_ret.
    split; [exact I2|]. split; [eapply ext_trans; eassumption|]. split; [repeat split; congruence|]. intros a [<-|J]; [exact (mem_kept _ _ _ _ _ _ X2 M1)|exact (M2 a J)].
Qed.
Lemma import_ok path g T s : Inv g T s -> condt true g s -> conds g s -> wp (import_file cf R path) s (spost false g s T).
Proof.
  intros I Ct Cs. unfold import_file. change (cf_file cf path) with (files path). destruct (files path) as [why|ss] eqn:Qf; [apply wp_raise|]. specialize (Hfiles path ss Qf).
  assert (W : wp (ms <- new_members ;; modify (set_engine None None ms [] None) ;; iterM (r_stmt R) ss)%fl s (fun _ s' => exists g', ok g' (rvs s ++ T) (view s') /\ ext false g (view s) g' (view s'))).
  { apply wp_bind. eapply wp_impl; [exact (members_ok _ g T s I)|]. intros ms s1 _ (I1 & X1 & (R1 & E1 & C1) & M1). apply wp_bind, wp_modify. set (s2 := set_engine None None ms [] None s1).
    assert (V2 : view s2 = w_set_engine None (map snd ms) (view s1)) by reflexivity.
    assert (I2 : Inv g (rvs s ++ T) s2). { unfold Inv. rewrite V2. change (rvs s2) with (@nil addr). cbn [app]. apply ok_engine; [|discriminate|exact M1]. unfold Inv, rvs in I1 |- *. rewrite R1 in I1. exact I1. }
    assert (X2 : ext false g (view s) g (view s2)) by (rewrite V2; eapply ext_trans; [exact (ext_weak _ _ _ _ _ X1)|apply ext_engine]).
    eapply wp_impl; [apply (stmts_ok true ss g (rvs s ++ T) s2 Hfiles I2)|].
    - intros Q l i Nl J. change (envs s2) with (envs s1) in Nl. change (cur_env s2) with (cur_env s1) in Nl. rewrite E1, C1 in Nl. destruct (Ct Q l i Nl J) as (Ki & Ni & Li). split; [exact Ki|]. pose proof (ext_len _ _ _ _ _ X2) as L2. rewrite !view_slen in L2. split; [|lia].
      intro Q'. apply Ni. apply (e_inst _ _ _ _ _ X2); [rewrite view_slen; exact Li|exact Q'].
    - destruct Cs as (i & Tp & Ki & Li). exists i. split; [|split; [exact Ki|]].
      + unfold FlBalance.top in *. change (envs s2) with (envs s1). change (cur_env s2) with (cur_env s1). rewrite E1, C1. exact Tp.
      + pose proof (ext_len _ _ _ _ _ X2) as L2. rewrite !view_slen in L2. lia.
    - intros u s3 _ (g3 & I3 & X3 & _). exists g3. split; [exact (ok_drops _ _ _ _ I3)|]. eapply ext_trans; [exact X2|exact X3]. }
  unfold wp in W |- *. destruct ((ms <- new_members ;; modify (set_engine None None ms [] None) ;; iterM (r_stmt R) ss)%fl s) as [u s'|s'| |w|]; auto.
  2: { exact (wp_raise (A := unit) _ _ _ (spost false g s T)). }
  destruct W as (g' & I' & X'). exists g'. match goal with |- Inv _ _ ?y /\ _ => set (s2 := y) end. assert (V2 : view s2 = w_set_engine (cur_body s) (w_mem (view s)) (view s')) by reflexivity. unfold Inv. rewrite V2. change (rvs s2) with (rvs s). split.
  - apply ok_engine; [exact I'| |].
    + intros b Q. exact (body_kept _ _ _ _ _ _ X' (v_body _ _ _ _ _ _ I b Q)).
    + intros a J. exact (mem_kept _ _ _ _ _ _ X' (v_mem _ _ _ _ _ _ I a J)).
  - eapply ext_trans; [exact X'|apply ext_engine].
Qed.
Lemma reads_returning g T s : Inv g T s -> reads returning s.
Proof.
  intro I. unfold reads, returning. unfold wp at 1. destruct (cur_body s) as [b|] eqn:Qb; [|reflexivity]. destruct (cur_rv s); [|reflexivity]. destruct (v_body _ _ _ _ _ _ I b Qb) as (a & n & f & Pa & N & Fb).
  pose proof (reads_body g T s a n f b I Pa N Fb) as W. unfold wp in W. unfold mbind. destruct (read_body b s); auto. now destruct W.
Qed.
Lemma weak_spost {A} q g s T (m : M bob A) : wp m s (spost true g s T) -> wp m s (spost q g s T).
Proof. intro W. eapply wp_impl; [exact W|]. intros a s' _ (g' & I & X). exists g'. split; [exact I|now apply ext_weak]. Qed.
Lemma stmt_ok top x g T s : still_stmt top x = true -> Inv g T s -> condt top g s -> conds g s -> wp (stmt_ cf R x) s (spost (negb top) g s T).
Proof.
  intros St I Ct Cs.
  assert (Run : forall m, wp m s (spost (negb top) g s T) -> wp (b <- returning ;; if b : bool then ret tt else m)%fl s (spost (negb top) g s T)).
  { intros m W. apply wp_reads; [exact (reads_returning g T s I)|]. intros b _. destruct b; [|exact W]. apply wp_ret. exists g. split; [exact I|apply ext_refl]. }
  destruct x; cbn [stmt_]; cbn [still_stmt] in St.
  - apply wp_bind. eapply wp_impl; [exact (z_block R HR top ss g T s St I Ct)|]. intros i s1 _ (g1 & I1 & X1 & _). apply wp_ret. exists g1. auto.
  - apply weak_spost. now apply (z_fun R HR).
  - apply weak_spost. now apply (z_fun R HR).
  - apply Run, weak_spost. now apply (z_fun R HR).
  - apply Run, weak_spost. now apply print_ok.
  - apply Run, weak_spost. now apply return_ok.
  - apply Run, weak_spost. now apply assert_ok.
  - apply Run, weak_spost. now apply let_ok.
  - apply andb_prop in St as (St & S3). apply andb_prop in St as (S1 & S2). subst top. apply Run. now apply assign_ok.
  - apply Run, weak_spost. apply wp_bind. eapply wp_impl; [exact (z_eval R HR Discard e g T s St I)|]. intros r s1 _ (g1 & I1 & X1 & _). apply wp_ret. exists g1. split; [exact (Inv_drops _ _ _ _ I1)|exact X1].
  - subst top. apply Run. unfold do_import. destruct (has_byte _ _); [apply wp_raise|]. apply wp_bind, wp_gets. now apply import_ok.
Qed.
End Step.

(** ** Whole runs *)
Hypothesis Hfiles : forall p ss, files p = File ss -> forallb (still_stmt true) ss = true.
Lemma interp_safe : forall n, safe (interp cf n).
Proof.
  induction n as [|n IH]; [split; intros; apply wp_nofuel|]. pose proof (interp_good cf (bob_tame sg out listing pow exists_ files) n) as G. split; intros; cbn [interp r_eval r_call r_block r_stmt r_fun].
  - now apply eval_ok.
  - now apply call_ok.
  - now apply block_ok.
  - now apply stmt_ok.
  - now apply fun_ok.
Qed.
Lemma exec_safe n paths h ss : b_states h = [] -> forallb (still_stmt true) ss = true ->
  match run cf n paths h ss with
  | Ret _ s => exists g, Inv g [] s /\ K g 0 = true /\ (exists vs, nth_error (w_scopes (view s)) 0 = Some (vs, true)) /\ nth_error (envs s) (cur_env s) = Some [0]
  | Undef u => okub u
  | _ => True
  end.
Proof.
  intros Hh St. unfold run, create. set (g0 := Gh (fun _ => false) (fun _ => true)). set (s0 := blank paths h).
  assert (I0 : Inv g0 [] s0).
  { unfold Inv, ok. cbn. split; cbn; try contradiction; try discriminate.
    - intros [|[|i]] vs al v a N; try discriminate. injection N as <- _. contradiction.
    - intros [|a]; discriminate.
    - intros [|a]; discriminate.
    - intros [|a]; discriminate.
    - intros [|a]; discriminate.
    - intros [|a]; discriminate.
    - intros i (a & n' & k & d & N). destruct a; discriminate.
    - intros i (a & n' & f & N & _). destruct a; discriminate.
    - intros [|[|i]] vs N; discriminate.
    - intros [|i] b N; discriminate. }
  pose proof (members_ok std_members g0 [] s0 I0) as W. unfold wp in W. unfold mbind at 1, new_members. destruct (mapM add_member std_members s0) as [ms s1|s1| |u|]; auto. destruct W as (I1 & X1 & (R1 & E1 & C1) & M1).
  cbn [modify]. set (s2 := set_engine None None ms paths None s1). assert (V2 : view s2 = w_set_engine None (map snd ms) (view s1)) by reflexivity.
  assert (I2 : Inv g0 [] s2) by (unfold Inv; rewrite V2; apply ok_engine; [|discriminate|exact M1]; unfold Inv, rvs in I1; rewrite R1 in I1; exact I1).
  assert (Tl : nth_error (envs s2) (cur_env s2) = Some [0]) by (change (envs s2) with (envs s1); change (cur_env s2) with (cur_env s1); rewrite E1, C1; reflexivity).
  assert (L2 : 0 < length (scopes s2)) by (pose proof (ext_len _ _ _ _ _ X1) as L; cbn in L; rewrite map_length in L; exact L).
  assert (Ni : ~ inst (view s2) 0). { rewrite V2. intro J. apply (e_inst _ _ _ _ _ X1 0) in J; [|cbn; lia]. destruct J as (a & n' & k & d & N). destruct a; discriminate. }
  pose proof (stmts_ok _ (interp_safe n) (interp_good cf (bob_tame sg out listing pow exists_ files) n) true ss g0 [] s2 St I2) as W. unfold wp in W. unfold exec.
  assert (W' := W ltac:(intros _ l i Nl J; rewrite Tl in Nl; injection Nl as <-; destruct J as [<-|[]]; auto) ltac:(exists 0; unfold FlBalance.top; rewrite Tl; auto)). destruct (iterM _ ss s2) as [u s'|s'| |u|]; auto.
  destruct W' as (g' & I' & X' & i & Tp & Fr). exists g'. split; [exact I'|]. assert (L2' : 0 < length (w_scopes (view s2))) by (cbn; rewrite map_length; exact L2). split; [rewrite (e_K _ _ _ _ _ X' 0 L2'); reflexivity|]. split.
  - destruct (nth_error (w_scopes (view s')) 0) as [(vs, al)|] eqn:N.
    + exists vs. destruct al; [reflexivity|]. exfalso. apply Ni. apply (e_inst _ _ _ _ _ X' 0 L2'). exact (v_dead _ _ _ _ _ _ I' 0 vs N).
    + apply nth_error_None in N. pose proof (ext_len _ _ _ _ _ X'). lia.
  - rewrite (fr_env _ _ _ _ Fr). exact (fr_envs _ _ _ _ Fr _ _ Tl).
Qed.
End Bobs.
Lemma careful_scripts_are_safe sg out listing pow exists_ files n dirs ss u :
  (forall p ss', files p = File ss' -> assigns_carefully ss') -> assigns_carefully ss ->
  run (bob_conf sg out listing pow exists_ files) n dirs fresh_bob ss = Undef u -> ~ (u = UFreedStr \/ u = UFreedBody \/ u = UDoubleFree).
Proof.
  intros Hf Hs Q. pose proof (exec_safe sg out listing pow exists_ files Hf n dirs fresh_bob ss eq_refl Hs) as W. rewrite Q in W. destruct W as (A & B & C). now intros [?|[?|?]].
Qed.
