(** * Equality of script values. *)

From Coq Require Import ZArith Arith Ascii String Lia Bool List Permutation.
From Verif Require Import Base FlAst FlState SpecFlamingo.
Import ListNotations.
Local Open Scope nat_scope.

(** ** Induction over data *)

Definition both_of (P : data -> Prop) (kv : data * data) : Prop := P (fst kv) /\ P (snd kv).

Lemma data_rect' (P : data -> Prop) :
  P DNone -> (forall b, P (DBool b)) -> (forall z, P (DInt z)) -> (forall t, P (DStr t)) ->
  (forall l, Forall P l -> P (DVec l)) -> (forall l, Forall (both_of P) l -> P (DMap l)) ->
  (forall f, P (DFn f)) -> (forall c i d, P (DInst c i d)) -> forall v, P v.
Proof.
  intros H1 H2 H3 H4 H5 H6 H7 H8. fix IH 1. intros [|b|z|t|l|l|f|c i d]; [exact H1|apply H2|apply H3|apply H4| | |apply H7|apply H8].
  - apply H5. induction l; constructor; [apply IH|assumption].
  - apply H6. induction l as [|[k v] l IHl]; constructor; [split; apply IH|assumption].
Qed.

Lemma holds_vec {H} (s : st H) vs a : holds s (DVec vs) a <->
  exists c es, nth_error (cells s) a = Some c /\ c_val c = PVec es /\ Forall2 (holds s) vs es.
Proof.
  assert (X : forall vs es,
    (fix go (vs : list data) (es : list addr) {struct vs} : Prop :=
         match vs, es with
         | [], [] => True
         | v :: vs, e :: es => holds s v e /\ go vs es
         | _, _ => False
         end) vs es <-> Forall2 (holds s) vs es).
  { clear. induction vs as [|v vs IH]; intros [|e es]; split; intro G; try (now inversion G); try constructor; auto.
    - apply G. - apply IH, G. - now inversion G. - inversion G; subst. now apply IH. }
  cbn [holds]. split.
  - intros (c & C & es & V & G). exists c, es. repeat split; auto. now apply X.
  - intros (c & es & C & V & G). exists c. split; auto. exists es. split; auto. now apply X.
Qed.

Definition holds2 {H} (s : st H) (kv : data * data) (e : addr * addr) : Prop := holds s (fst kv) (fst e) /\ holds s (snd kv) (snd e).

Lemma holds_map {H} (s : st H) vs a : holds s (DMap vs) a <->
  exists c es, nth_error (cells s) a = Some c /\ c_val c = PMap es /\ Forall2 (holds2 s) vs es.
Proof.
  assert (X : forall vs es,
    (fix go (kvs : list (data * data)) (es : list (addr * addr)) {struct kvs} : Prop :=
         match kvs, es with
         | [], [] => True
         | (k, v) :: kvs, (e, e') :: es => holds s k e /\ holds s v e' /\ go kvs es
         | _, _ => False
         end) vs es <-> Forall2 (holds2 s) vs es).
  { clear. induction vs as [|[k v] vs IH]; intros [|[e e'] es]; split; intro G; try (now inversion G); auto.
    - destruct G as (G1 & G2 & G). constructor; [split; auto|now apply IH].
    - inversion G as [|? ? ? ? [G1 G2] G3]; subst. repeat split; auto. now apply IH. }
  cbn [holds]. split.
  - intros (c & C & es & V & G). exists c, es. repeat split; auto. now apply X.
  - intros (c & es & C & V & G). exists c. split; auto. exists es. split; auto. now apply X.
Qed.

Lemma distinct_vec l : distinct (DVec l) <-> Forall distinct l.
Proof.
  cbn [distinct]. induction l as [|v l IH]; split; intro G; auto.
  - constructor; [apply G|apply IH, G].
  - inversion G; subst. split; auto. now apply IH.
Qed.

Lemma distinct_map l : distinct (DMap l) <->
  ForallOrdPairs (fun a b => ~ same (fst a) (fst b)) l /\ Forall (both_of distinct) l.
Proof.
  cbn [distinct]. apply and_iff_compat_l. induction l as [|[k v] l IH]; split; intro G; auto.
  - destruct G as (G1 & G2 & G). constructor; [split; auto|now apply IH].
  - inversion G; subst. destruct H1. repeat split; auto. now apply IH.
Qed.

(** ** Sameness is an equivalence *)

Lemma ptm_eqb_eq a b : ptm_eqb a b = true <-> a = b.
Proof. destruct a, b; split; intro H; try reflexivity; try discriminate H. Qed.
Lemma fkind_eqb_eq a b : fkind_eqb a b = true <-> a = b.
Proof.
  destruct a, b; cbn; split; intro H; try reflexivity; try discriminate H.
  - now apply ptm_eqb_eq in H as ->.
  - injection H as ->. now apply ptm_eqb_eq.
Qed.
Lemma onat_eqb_eq a b : onat_eqb a b = true <-> a = b.
Proof.
  destruct a as [a|], b as [b|]; cbn; split; intro H; try reflexivity; try discriminate H.
  - now apply Nat.eqb_eq in H as ->.
  - injection H as ->. apply Nat.eqb_refl.
Qed.
Lemma fn_eqb_spec f g : fn_eqb f g = true <->
  f_kind f = f_kind g /\ f_body f = f_body g /\ f_env f = f_env g /\ f_scope f = f_scope g.
Proof. unfold fn_eqb. rewrite !andb_true_iff, fkind_eqb_eq, !onat_eqb_eq. tauto. Qed.
Lemma fn_eqb_refl f : fn_eqb f f = true.
Proof. now apply fn_eqb_spec. Qed.
Lemma fn_eqb_sym f g : fn_eqb f g = true -> fn_eqb g f = true.
Proof. rewrite !fn_eqb_spec. intuition. Qed.
Lemma fn_eqb_trans f g h : fn_eqb f g = true -> fn_eqb g h = true -> fn_eqb f h = true.
Proof. rewrite !fn_eqb_spec. intuition congruence. Qed.

Definition same2 (a b : data * data) : Prop := same (fst a) (fst b) /\ same (snd a) (snd b).

Lemma Forall2_refl_in {A} (R : A -> A -> Prop) l : Forall (fun a => R a a) l -> Forall2 R l l.
Proof. induction 1; constructor; auto. Qed.

Lemma same_refl : forall v, same v v.
Proof.
  induction v using data_rect'; try constructor.
  - now apply Forall2_refl_in.
  - apply same_map with l; auto. apply Forall2_refl_in, H.
  - apply fn_eqb_refl.
Qed.

Lemma perm_forall2 {A B} (R : A -> B -> Prop) : forall l l', Permutation l l' -> forall m, Forall2 R l m ->
  exists m', Permutation m m' /\ Forall2 R l' m'.
Proof.
  induction 1; intros m F.
  - inversion F; subst. exists []. auto.
  - inversion F; subst. destruct (IHPermutation _ H4) as (m' & P & F'). exists (y :: m'). split; auto.
  - inversion F as [|? b0 ? m0 Ra F0]; subst. inversion F0 as [|? b1 ? m1 Rb F1]; subst.
    exists (b1 :: b0 :: m1). split; [apply perm_swap|auto].
  - destruct (IHPermutation1 _ F) as (m' & P & F'). destruct (IHPermutation2 _ F') as (m'' & P' & F''). exists m''.
    split; auto. eapply perm_trans; eauto.
Qed.

Lemma forall2_flip {A B} (R : A -> B -> Prop) l m : Forall2 R l m -> Forall2 (fun b a => R a b) m l.
Proof. induction 1; auto. Qed.

Lemma same_sym : forall v w, same v w -> same w v.
Proof.
  induction v as [| | | |l IHl|l IHl| |] using data_rect'; intros w S; inversion S as [| | | |l' m F E1 E2|l' m p P F E1 E2|? ? E E1 E2|]; subst; try constructor.
  - clear S. revert m F. induction IHl; intros m F; inversion F; subst; constructor; auto.
  - assert (G : Forall2 (fun b a => same (fst b) (fst a) /\ same (snd b) (snd a)) p l).
    { clear S P. revert p F. induction IHl as [|kv l [K V] _ IH]; intros p F; inversion F as [|? b ? p' [R1 R2] F']; subst; constructor; auto. }
    destruct (perm_forall2 _ _ _ (Permutation_sym P) _ G) as (l' & P' & F'). now apply same_map with l'.
  - now apply fn_eqb_sym.
Qed.

Lemma same_trans : forall v w x, same v w -> same w x -> same v x.
Proof.
  induction v as [| | | |l IHl|l IHl| |] using data_rect'; intros w x S T;
    inversion S as [| | | |l' m F E1 E2|l' m p P F E1 E2|? ? E E1 E2|]; subst;
    inversion T as [| | | |l'' m' F' E1' E2'|l'' m' p' P' F' E1' E2'|? ? E' E1' E2'|]; subst; try constructor.
  - clear S T. revert m m' F F'. induction IHl; intros m m' F G; inversion F; subst; inversion G; subst; constructor; eauto.
  - clear S T. destruct (perm_forall2 _ _ _ P _ F') as (x' & P2 & F2).
    apply same_map with x'. { eapply perm_trans; eauto. }
    clear - IHl F F2. revert p x' F F2. induction IHl as [|kv l [K V] _ IH]; intros p x' F G;
      inversion F as [|? b ? p' [R1 R2] F']; subst; inversion G as [|? b' ? p'' [R1' R2'] G']; subst; constructor; eauto.
  - eapply fn_eqb_trans; eauto.
Qed.

(** ** What [val_eq] decides *)

Section Decide.
Context {H : Type}.
Variable s : st H.

Definition decides (m : M H bool) (P : Prop) : Prop := exists b, m s = Ret b s /\ (b = true <-> P).

Lemma all2_decides eq : forall vs ws es fs, length vs = length ws ->
  Forall2 (holds s) vs es -> Forall2 (holds s) ws fs ->
  (forall v w e f, In v vs -> In w ws -> holds s v e -> holds s w f -> decides (eq e f) (same v w)) ->
  decides (all2 eq es fs) (Forall2 same vs ws).
Proof.
  induction vs as [|v vs IH]; intros [|w ws] es fs L V W D; try discriminate L; inversion V as [|? e ? es' Ve V']; subst;
    inversion W as [|? f ? fs' Wf W']; subst.
  - exists true. split; auto. intuition.
  - destruct (D v w e f) as (b & E & B); auto with datatypes. cbn [all2]. unfold decides, mbind. rewrite E. destruct b.
    + destruct (IH ws es' fs') as (b' & E' & B'); auto with datatypes. exists b'. split; auto. rewrite B'.
      split; intro X; [constructor; [now apply B|auto]|now inversion X].
    + exists false. split; auto. split; [discriminate|]. intro X. inversion X; subst. apply B; auto.
Qed.

(** The first entry with the key has the value. *)
Definition first_match (k v : data) (ws : list (data * data)) : Prop :=
  exists pre kv post, ws = pre ++ kv :: post /\ Forall (fun x => ~ same k (fst x)) pre /\ same k (fst kv) /\ same v (snd kv).

Lemma map_find_decides eq k v e e' : holds s k e -> holds s v e' -> forall ws fs,
  Forall2 (holds2 s) ws fs ->
  (forall w f, In w ws -> holds s (fst w) f -> decides (eq e f) (same k (fst w))) ->
  (forall w f, In w ws -> holds s (snd w) f -> decides (eq e' f) (same v (snd w))) ->
  decides (map_find eq e e' fs) (first_match k v ws).
Proof.
  intros K V. induction ws as [|w ws IH]; intros fs W D1 D2; inversion W as [|? [f f'] ? fs' [Wf Wf'] W']; subst.
  - exists false. split; auto. split; [discriminate|]. intros (pre & kv & post & E & _). now destruct pre.
  - destruct (D1 w f) as (b & E & B); auto with datatypes. cbn [map_find]. unfold decides, mbind. rewrite E. destruct b.
    + destruct (D2 w f') as (b' & E' & B'); auto with datatypes. exists b'. split; auto. rewrite B'. split.
      * intro S. exists [], w, ws. repeat split; auto. now apply B.
      * intros (pre & kv & post & X & Q & S1 & S2). destruct pre as [|p pre].
        -- injection X as <- _. auto.
        -- injection X as <- _. inversion Q as [|? ? Q1 _]; subst. destruct Q1. now apply B.
    + destruct (IH fs') as (b' & E' & B'); auto with datatypes. exists b'. split; auto. rewrite B'. split.
      * intros (pre & kv & post & X & Q & S1 & S2). exists (w :: pre), kv, post. subst. repeat split; auto.
        constructor; auto. intro Y. apply B in Y. discriminate.
      * intros (pre & kv & post & X & Q & S1 & S2). destruct pre as [|p pre].
        -- injection X as <- <-. apply B in S1. discriminate.
        -- injection X as <- ->. exists pre, kv, post. inversion Q; subst. repeat split; auto.
Qed.

Lemma map_all_decides eq ws fs : Forall2 (holds2 s) ws fs -> forall vs es, Forall2 (holds2 s) vs es ->
  (forall v w e f, In v vs -> In w ws -> holds s (fst v) e -> holds s (fst w) f -> decides (eq e f) (same (fst v) (fst w))) ->
  (forall v w e f, In v vs -> In w ws -> holds s (snd v) e -> holds s (snd w) f -> decides (eq e f) (same (snd v) (snd w))) ->
  decides (map_all eq es fs) (Forall (fun kv => first_match (fst kv) (snd kv) ws) vs).
Proof.
  intros W. induction vs as [|v vs IH]; intros es V D1 D2; inversion V as [|? [e e'] ? es' [Ve Ve'] V']; subst.
  - exists true. split; auto. intuition.
  - destruct (map_find_decides eq (fst v) (snd v) e e' Ve Ve' ws fs W) as (b & E & B); auto with datatypes.
    cbn [map_all]. unfold decides, mbind. rewrite E. destruct b.
    + destruct (IH es') as (b' & E' & B'); auto with datatypes. exists b'. split; auto. rewrite B'.
      split; intro X; [constructor; [now apply B|auto]|now inversion X].
    + exists false. split; auto. split; [discriminate|]. intro X. inversion X; subst. now apply B.
Qed.

End Decide.

(** Matching entries one by one is the same as having the same entries, when keys are distinct. *)
Lemma matched_perm : forall (l m : list (data * data)), length l = length m ->
  ForallOrdPairs (fun a b => ~ same (fst a) (fst b)) l ->
  Forall (fun a => exists b, In b m /\ same2 a b) l ->
  exists p, Permutation m p /\ Forall2 same2 l p.
Proof.
  induction l as [|a l IH]; intros m L D F.
  - destruct m; [|discriminate]. exists []. auto.
  - inversion F as [|? ? (b & I & R) F']; subst. inversion D as [|? ? Da D']; subst.
    destruct (in_split _ _ I) as (m1 & m2 & ->).
    destruct (IH (m1 ++ m2)) as (p & P & G); auto.
    + rewrite app_length in *. cbn in L. lia.
    + rewrite Forall_forall in *. intros a' Ia'. destruct (F' a' Ia') as (b' & I' & R').
      exists b'. split; auto. apply in_app_or in I' as [I'|[I'|I']]; auto using in_or_app.
      subst b'. exfalso. apply (Da a' Ia'). apply same_trans with (fst b); [apply R|apply same_sym, R'].
    + exists (b :: p). split; auto. eapply perm_trans; [apply Permutation_sym, Permutation_middle|auto].
Qed.

Lemma ordered_pairs_app {A} (R : A -> A -> Prop) a b pre mid post l : l = pre ++ a :: mid ++ b :: post ->
  ForallOrdPairs R l -> R a b.
Proof.
  intros -> F. induction pre as [|x pre IH]; cbn in F; inversion F as [|? ? X Y]; subst.
  - rewrite Forall_forall in X. apply X. apply in_or_app. right. now left.
  - now apply IH.
Qed.

Lemma perm_matched (l m p : list (data * data)) : Permutation m p -> Forall2 same2 l p ->
  ForallOrdPairs (fun a b => ~ same (fst a) (fst b)) m ->
  Forall (fun kv => first_match (fst kv) (snd kv) m) l.
Proof.
  intros P F D. rewrite Forall_forall. intros a I.
  assert (exists b, In b m /\ same2 a b) as (b & Ib & R).
  { clear D. assert (exists b, In b p /\ same2 a b) as (b & Ib & R); [|exists b; split; auto; now apply (Permutation_in _ (Permutation_sym P))].
    clear P. induction F; [now destruct I|]. destruct I as [<-|I]; [exists y; split; auto; now left|].
    destruct (IHF I) as (b & ? & ?). exists b. split; auto. now right. }
  destruct (in_split _ _ Ib) as (m1 & m2 & ->). exists m1, b, m2. repeat split; try apply R.
  rewrite Forall_forall. intros x Ix S. destruct (in_split _ _ Ix) as (n1 & n2 & ->).
  refine (ordered_pairs_app _ x b n1 n2 m2 _ _ D _).
  - now rewrite <- app_assoc.
  - apply same_trans with (fst a); [now apply same_sym|apply R].
Qed.

Lemma depth_vec v l : In v l -> depth v < depth (DVec l).
Proof.
  intro I. cbn [depth]. induction l as [|w l IH]; [destruct I|]. cbn. destruct I as [->|I]; [lia|]. specialize (IH I). lia.
Qed.
Lemma depth_map kv l : In kv l -> depth (fst kv) < depth (DMap l) /\ depth (snd kv) < depth (DMap l).
Proof.
  intro I. cbn [depth]. induction l as [|w l IH]; [destruct I|]. cbn. destruct I as [->|I]; [lia|]. specialize (IH I). lia.
Qed.

Lemma holds_cell {H} (s : st H) v a : holds s v a -> exists c, nth_error (cells s) a = Some c.
Proof. destruct v; intros (c0 & C & _); eauto. Qed.

Lemma forall2_len {A B} (R : A -> B -> Prop) l m : Forall2 R l m -> length l = length m.
Proof. induction 1; cbn; auto. Qed.

(** Equality decides sameness, for values without maps with keys that are the same. *)
Theorem val_eq_decides {H} (s : st H) : forall n v w a b, depth v < n -> holds s v a -> holds s w b ->
  distinct v -> distinct w -> decides s (val_eq n a b) (same v w).
Proof.
  induction n as [|n IH]; intros v w a b N V W DV DW; [lia|].
  assert (No : forall (P : Prop), ~ P -> exists b', @ret H bool false s = Ret b' s /\ (b' = true <-> P)).
  { intros P X. exists false. split; auto. split; [discriminate|]. now intro. }
  unfold decides. cbn [val_eq]. unfold mbind at 1, get_cell at 1.
  destruct (holds_cell _ _ _ V) as (c & C). rewrite C.
  unfold mbind at 1, get_cell at 1. destruct (holds_cell _ _ _ W) as (c' & C'). rewrite C'.
  destruct v as [|x|x|x|l|l|f|k i d].
  1,2,3,4,7,8: destruct w as [|y|y|y|m|m|g|k' i' d'].
  all: try (apply holds_vec in V as (c1 & es & C1 & V1 & VS); rewrite C in C1; injection C1 as <-; rewrite V1).
  all: try (apply holds_map in V as (c1 & es & C1 & V1 & VS); rewrite C in C1; injection C1 as <-; rewrite V1).
  all: try (apply holds_vec in W as (c1 & fs & C1 & W1 & WS); rewrite C' in C1; injection C1 as <-; rewrite W1).
  all: try (apply holds_map in W as (c1 & fs & C1 & W1 & WS); rewrite C' in C1; injection C1 as <-; rewrite W1).
  all: try (destruct V as (c1 & C1 & V1); rewrite C in C1; injection C1 as <-).
  all: try (destruct W as (c1 & C1 & W1); rewrite C' in C1; injection C1 as <-).
  all: try (destruct V1 as (b1 & n1 & u1 & V1 & B1 & L1 & T1)).
  all: try (destruct W1 as (b2 & n2 & u2 & W1 & B2 & L2 & T2)).
  all: try rewrite V1; try rewrite W1.
  all: try (apply No; intro X; inversion X; fail).
  - exists true. split; auto. split; auto. constructor.
  - exists (Bool.eqb x y). split; auto. rewrite eqb_true_iff. split; [intros ->; constructor|]. intro X. now inversion X.
  - exists (x =? y)%Z. split; auto. rewrite Z.eqb_eq. split; [intros ->; constructor|]. intro X. now inversion X.
  - destruct (Nat.eqb n1 n2) eqn:E.
    + apply Nat.eqb_eq in E as <-. unfold mbind, read_buf. rewrite B1, (proj2 (Nat.leb_le _ _) L1). cbv beta iota.
      rewrite B2, (proj2 (Nat.leb_le _ _) L2). subst x y.
      exists (bytes_eqb (firstn n1 u1) (firstn n1 u2)). split; auto. rewrite bytes_eqb_eq.
      split; [intros ->; constructor|]. intro X. now inversion X.
    + apply No. intro X. inversion X as [| | |t E1 E2| | | |]. apply Nat.eqb_neq in E. apply E.
      pose proof (f_equal (@length ascii) (eq_trans (eq_sym T1) (eq_trans E2 T2))) as Y. rewrite !firstn_length_le in Y; auto.
  - exists (fn_eqb f g). split; auto. split; [intro; now constructor|]. intro X. now inversion X.
  - exists (Nat.eqb k k' && Nat.eqb i i' && onat_eqb d d'). split; auto.
    rewrite !andb_true_iff, !Nat.eqb_eq, onat_eqb_eq. split; [intros [[-> ->] ->]; constructor|]. intro X. now inversion X.
  - destruct w as [|y|y|y|m|m|g|k' i' d'].
    5: { apply holds_vec in W as (c1 & fs & C1 & W1 & WS); rewrite C' in C1; injection C1 as <-; rewrite W1.
         rewrite <- (forall2_len _ _ _ VS), <- (forall2_len _ _ _ WS). destruct (Nat.eqb (length l) (length m)) eqn:E.
         - apply Nat.eqb_eq in E. apply distinct_vec in DV. apply distinct_vec in DW. rewrite Forall_forall in DV, DW.
           destruct (all2_decides s (val_eq n) l m es fs E VS WS) as (b' & R & B).
           + intros v w e f Iv Iw Hv Hw. apply IH; auto. pose proof (depth_vec v l Iv). lia.
           + exists b'. split; auto. rewrite B. split; [now constructor|]. intro X. now inversion X.
         - apply No. intro X. inversion X; subst. apply Nat.eqb_neq in E. apply E. eapply forall2_len; eauto. }
    5: apply holds_map in W as (c1 & fs & C1 & W1 & WS); rewrite C' in C1; injection C1 as <-; rewrite W1.
    all: try (destruct W as (c1 & C1 & W1); rewrite C' in C1; injection C1 as <-).
    all: try (destruct W1 as (b2 & n2 & u2 & W1 & B2 & L2 & T2)).
    all: try rewrite W1; apply No; intro X; inversion X.
  - destruct w as [|y|y|y|m|m|g|k' i' d'].
    6: { apply holds_map in W as (c1 & fs & C1 & W1 & WS); rewrite C' in C1; injection C1 as <-; rewrite W1.
         rewrite <- (forall2_len _ _ _ VS), <- (forall2_len _ _ _ WS). destruct (Nat.eqb (length l) (length m)) eqn:E.
         - apply Nat.eqb_eq in E. apply distinct_map in DV as [OV DV]. apply distinct_map in DW as [OW DW]. rewrite Forall_forall in DV, DW.
           destruct (map_all_decides s (val_eq n) m fs WS l es VS) as (b' & R & B).
           + intros v w e f Iv Iw Hv Hw. apply IH; auto; [|apply (DV v Iv)|apply (DW w Iw)]. pose proof (depth_map v l Iv). lia.
           + intros v w e f Iv Iw Hv Hw. apply IH; auto; [|apply (DV v Iv)|apply (DW w Iw)]. pose proof (depth_map v l Iv). lia.
           + exists b'. split; auto. rewrite B. split.
             * intro X. destruct (matched_perm l m E OV) as (p & P & F).
               -- rewrite Forall_forall in *. intros a0 I. destruct (X a0 I) as (pre & kv & post & -> & _ & S1 & S2).
                  exists kv. split; [apply in_or_app; right; now left|split; auto].
               -- now apply same_map with p.
             * intro X. inversion X as [| | | | |l' m' p P F| |]; subst. eapply perm_matched; eauto.
         - apply No. intro X. inversion X as [| | | | |l' m' p P F| |]; subst. apply Nat.eqb_neq in E. apply E.
           rewrite (Permutation_length P). eapply forall2_len; eauto. }
    5: apply holds_vec in W as (c1 & fs & C1 & W1 & WS); rewrite C' in C1; injection C1 as <-; rewrite W1.
    all: try (destruct W as (c1 & C1 & W1); rewrite C' in C1; injection C1 as <-).
    all: try (destruct W1 as (b2 & n2 & u2 & W1 & B2 & L2 & T2)).
    all: try rewrite W1; apply No; intro X; inversion X.
Qed.
