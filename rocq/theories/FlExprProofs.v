(** * Expressions: operators, literals, indexing. *)

From Coq Require Import ZArith Arith Ascii String Lia Bool List Permutation.
From Verif Require Import Base FlAst FlState FlInterp FlMonad SpecFlamingo FlEqProofs SpecScript FlOpProofs.
Import ListNotations.
Local Open Scope nat_scope.

Section Expr.
Context {H : Type}.
Variable cf : conf H.

Lemma evals_fuel n e s a s' : evals cf n e s a s' -> exists m, n = S m.
Proof. intros (x & E). destruct n; [discriminate E|eauto]. Qed.

Lemma interp_fuel n : r_fuel (interp cf n) = n.
Proof. destruct n; reflexivity. Qed.

Lemma eval_S n d e : r_eval (interp cf (S n)) d e = eval_ cf (interp cf n) d e.
Proof. reflexivity. Qed.
Lemma call_S n : r_call (interp cf (S n)) = call_ cf (interp cf n).
Proof. reflexivity. Qed.

Lemma value_evals n e s a s' : evals cf n e s a s' -> value (interp cf n) e s = Ret a s'.
Proof. intros (x & E). unfold value, both, mbind. rewrite E. reflexivity. Qed.
Lemma value_inv n e s a s' : value (interp cf n) e s = Ret a s' -> evals cf n e s a s'.
Proof.
  unfold value, both. intro E. apply bind_ret_inv in E as ([a1 x] & s1 & E & Q). apply ret_inv in Q as (-> & ->).
  apply bind_ret_inv in E as ([[a2|] y] & s2 & E & Q); [|discriminate]. apply ret_inv in Q as (Q & ->). injection Q as -> ->. exists y. exact E.
Qed.

(** ** Binary operators *)

Lemma bin_outcome n e1 op e2 s a s1 b s2 : evals cf n e1 s a s1 -> evals cf n e2 s1 b s2 ->
  outcome cf (S n) (EBin e1 op e2) s = mbind (binary cf n Slot a op b) (fun o => ret (o, None)) s2.
Proof.
  intros E1 E2. unfold outcome. cbn [interp r_eval eval_ plain]. unfold plain.
  rewrite interp_fuel. unfold mbind. rewrite (value_evals _ _ _ _ _ E1), (value_evals _ _ _ _ _ E2).
  destruct (binary cf n Slot a op b s2) as [[o|] s3|s3| |u|]; reflexivity.
Qed.

Lemma agrees1_agrees s (m : M H (option addr)) means s0 : agrees1 cf s (m s0) means -> agrees cf s (mbind m (fun o => ret (o, None)) s0) means.
Proof. unfold mbind. destruct (m s0) as [[o|] s1|s1| |u|]; auto. Qed.

Lemma bin_agrees (F : releases_own cf) n o e1 e2 s a s1 b s2 v w :
  evals cf n e1 s a s1 -> evals cf n e2 s1 b s2 -> holds s2 v a -> holds s2 w b ->
  (o = OEq \/ o = ONe -> depth v < n /\ distinct v /\ distinct w) -> (o = OAdd -> text v /\ text w) -> (forall z, v = DInt z \/ w = DInt z -> is_int64 z) ->
  agrees cf s2 (outcome cf (S n) (EBin e1 (spelling o) e2) s) (op_means (cf_pow cf) o v w).
Proof.
  intros E1 E2 V W D T12 R. rewrite (bin_outcome _ _ _ _ _ _ _ _ _ E1 E2). apply agrees1_agrees. apply binary_means; auto. discriminate.
Qed.


(** Integers and booleans: nothing is left open. *)
Lemma agrees_comes_to s o ans : (forall u, o = Undef u -> u = UOverflow) -> o <> NoFuel ->
  agrees cf s o (fun a => a = ans) -> comes_to cf s o ans.
Proof.
  intros U N A. destruct o as [[[a|] x] s'|s'| |u|]; cbn in A; try contradiction.
  - destruct A as (v & E & Hd). rewrite <- E. cbn. eauto.
  - destruct A as (m & E & R). rewrite <- E. cbn. destruct (reports_cases cf (A := option addr * option addr) m s) as [(s2 & R1 & R2)|(R1 & R2)]; unfold reports in *; congruence.
  - destruct A as (m & E & R). rewrite <- E. cbn. destruct (reports_cases cf (A := option addr * option addr) m s) as [(s2 & R1 & R2)|(R1 & R2)]; unfold reports in *; congruence.
  - rewrite (U u eq_refl) in *. rewrite <- A. reflexivity.
Qed.

Definition plain_payload (p : payload) : Prop := match p with PInt _ | PBool _ => True | _ => False end.

Lemma conclude_plain_ret n p l r s cl cr : nth_error (cells s) l = Some cl -> nth_error (cells s) r = Some cr ->
  plain_payload (c_val cl) -> plain_payload (c_val cr) -> exists a s', conclude cf (S n) p l r s = Ret (Some a) s'.
Proof.
  intros El Er Pl Pr. unfold conclude, mbind at 1, alloc. set (s2 := set_cells _ s).
  destruct (decref_plain_keeps cf n l s2 cl) as (s3 & E3 & K3); [now apply nth_app_l|destruct (c_val cl); auto; contradiction|].
  rewrite (bind_step _ _ _ _ _ E3). destruct (proj1 K3 r cr (nth_app_l _ _ _ _ Er)) as (cr' & Er' & Vr).
  destruct (decref_plain_keeps cf n r s3 cr' Er') as (s4 & E4 & K4); [rewrite Vr; destruct (c_val cr); auto; contradiction|].
  rewrite (bind_step _ _ _ _ _ E4). eauto.
Qed.

Lemma binary_scalar_total n op l r s cl cr : nth_error (cells s) l = Some cl -> nth_error (cells s) r = Some cr ->
  match c_val cl, c_val cr with PInt _, PInt _ | PBool _, PBool _ => True | _, _ => False end ->
  (forall u, binary cf (S n) Slot l op r s = Undef u -> u = UOverflow) /\ binary cf (S n) Slot l op r s <> NoFuel.
Proof.
  intros El Er P. unfold binary. rewrite (bind_step _ _ _ _ _ (get_cell_ok _ _ _ El)), (bind_step _ _ _ _ _ (get_cell_ok _ _ _ Er)).
  assert (Fin : forall (X : M H payload), (forall p s1, X s = Ret p s1 -> s1 = s) -> (forall u, X s = Undef u -> u = UOverflow) -> X s <> NoFuel ->
    (forall u, mbind X (fun p => conclude cf (S n) p l r) s = Undef u -> u = UOverflow) /\ mbind X (fun p => conclude cf (S n) p l r) s <> NoFuel).
  { intros X R U N. unfold mbind. destruct (X s) as [p s1|s1| |u|] eqn:E; try (split; [|discriminate]; intros u' Q; try discriminate; injection Q as <-; auto); [|congruence].
    rewrite (R _ _ eq_refl). destruct (conclude_plain_ret n p l r s cl cr El Er) as (a & s' & ->); [| |split; discriminate];
      destruct (c_val cl), (c_val cr); try contradiction; exact I. }
  assert (Ve : forall b, (exists q, equality (S n) b l r s = Ret q s)).
  { intro b. unfold equality. assert (exists q, val_eq (S n) l r s = Ret q s) as (q & E).
    { cbn [val_eq]. unfold mbind. rewrite (get_cell_ok _ _ _ El), (get_cell_ok _ _ _ Er).
      destruct (c_val cl), (c_val cr); try contradiction; eexists; reflexivity. }
    unfold mbind. destruct (is_op b "=="), (is_op b "!="); rewrite ?E; eexists; reflexivity. }
  assert (Ee : forall (A : Type) msg, (exists s', @error H cf A msg s = Fail s') \/ @error H cf A msg s = Died).
  { intros A msg. unfold error. destruct (reports_cases cf (A := A) msg s) as [(s' & -> & _)|(-> & _)]; eauto. }
  destruct (c_val cl) as [| | | | | | |] eqn:Vl, (c_val cr) as [| | | | | | |] eqn:Vr; try contradiction; cbn [kind_of kind_eqb negb andb orb];
    match goal with |- context [mbind ?X _ s] => apply (Fin X); unfold bin_op end.
  all: repeat match goal with
       | |- context [if is_op ?a ?b then _ else _] => destruct (is_op a b)
       | |- context [if (?a =? ?b)%Z then _ else _] => destruct (a =? b)%Z
       | |- context [if int64 ?a then _ else _] => destruct (int64 a) eqn:?
       | |- context [match cf_pow cf ?a ?b with _ => _ end] => destruct (cf_pow cf a b)
       end.
  all: unfold some_res, int_res.
  all: repeat match goal with
       | |- context [if int64 ?a then _ else _] => destruct (int64 a) eqn:?
       end.
  all: unfold mbind, ret, undef; try (match goal with |- context [equality ?n0 ?o ?l0 ?r0 ?s0] => destruct (Ve o) as ([q|] & ->) end);
       repeat match goal with |- context [@error H cf ?A ?m ?s0] => destruct (Ee A m) as [(? & ->)| ->] end.
  all: intros; try discriminate; try congruence.
Qed.

Lemma bin_scalar_comes_to (F : releases_own cf) n o e1 e2 s a s1 b s2 v w ans :
  evals cf n e1 s a s1 -> evals cf n e2 s1 b s2 -> holds s2 v a -> holds s2 w b ->
  match v, w with
  | DInt x, DInt y => is_int64 x /\ is_int64 y /\ ans = int_answer (cf_pow cf) o x y
  | DBool x, DBool y => ans = bool_answer o x y
  | _, _ => False
  end ->
  comes_to cf s2 (outcome cf (S n) (EBin e1 (spelling o) e2) s) ans.
Proof.
  intros E1 E2 V W A. destruct (evals_fuel _ _ _ _ _ E1) as (m & ->).
  assert (T : forall cl cr, nth_error (cells s2) a = Some cl -> nth_error (cells s2) b = Some cr ->
    match c_val cl, c_val cr with PInt _, PInt _ | PBool _, PBool _ => True | _, _ => False end ->
    (forall u, outcome cf (S (S m)) (EBin e1 (spelling o) e2) s = Undef u -> u = UOverflow) /\ outcome cf (S (S m)) (EBin e1 (spelling o) e2) s <> NoFuel).
  { intros cl cr Cl Cr P. rewrite (bin_outcome _ _ _ _ _ _ _ _ _ E1 E2). destruct (binary_scalar_total m (spelling o) a b s2 cl cr Cl Cr P) as (T1 & T2).
    unfold mbind. destruct (binary cf (S m) Slot a (spelling o) b s2) as [x s3|s3| |u|]; split; try discriminate; try congruence.
    intros u' Q. injection Q as <-. now apply T1. }
  assert (Ag : agrees cf s2 (outcome cf (S (S m)) (EBin e1 (spelling o) e2) s) (fun a => a = ans)).
  { assert (Mn : forall x, op_means (cf_pow cf) o v w x -> x = ans).
    { intros x. destruct v, w; try contradiction; cbn [op_means]; [congruence|]. intros ->. symmetry. apply A. }
    assert (A0 : agrees cf s2 (outcome cf (S (S m)) (EBin e1 (spelling o) e2) s) (op_means (cf_pow cf) o v w)).
    { apply (bin_agrees F (S m) o e1 e2 s a s1 b s2 v w); auto.
      1-2: destruct v, w; try contradiction; cbn; repeat split; auto; lia.
      intros z Q. destruct v, w; try contradiction; destruct Q as [Q|Q]; try discriminate Q; injection Q as <-; apply A. }
    destruct (outcome cf (S (S m)) (EBin e1 (spelling o) e2) s) as [[[q|] x] s3|s3| |u|]; cbn [agrees] in *; auto.
    - destruct A0 as (v0 & Q & Hv). exists v0. auto.
    - destruct A0 as (m0 & Q & Hm). exists m0. auto.
    - destruct A0 as (m0 & Q & Hm). exists m0. auto.
    - destruct u; auto. }
  destruct v, w; try contradiction; cbn in V, W; destruct V as (cl & Cl & Vl); destruct W as (cr & Cr & Vr);
    (destruct (T cl cr Cl Cr) as (T1 & T2); [rewrite Vl, Vr; exact I|]); now apply agrees_comes_to.
Qed.

(** ** Unary operators *)

Lemma un_comes_to n o e s a s1 v : releases_own cf -> evals cf n e s a s1 -> holds s1 v a ->
  comes_to cf s1 (outcome cf (S n) (EUn (uspelling o) e) s) (un_answer o v).
Proof.
  intros F E V. destruct (evals_fuel _ _ _ _ _ E) as (m & ->).
  unfold outcome. rewrite eval_S. cbn [eval_]. unfold plain. rewrite interp_fuel. unfold mbind at 1. unfold mbind at 1.
  rewrite (value_evals _ _ _ _ _ E). unfold unary. unfold mbind at 1.
  destruct (holds_cell _ _ _ V) as (c & C). unfold mbind at 1. rewrite (get_cell_ok _ _ _ C).
  assert (Err : forall msg, un_answer o v = AError msg -> forall (k : option addr -> M H (option addr)) (k' : option addr -> M H (option addr * option addr)),
    comes_to cf s1 (match match @error H cf (option addr) msg s1 with Ret a s' => k a s' | Fail s' => Fail s' | Died => Died | Undef u => Undef u | NoFuel => NoFuel end with
      Ret a s' => k' a s' | Fail s' => Fail s' | Died => Died | Undef u => Undef u | NoFuel => NoFuel end) (un_answer o v)).
  { intros msg -> k k'. cbn [comes_to]. unfold reports, error. destruct (reports_cases cf (A := option addr) msg s1) as [(s' & -> & R)|(-> & R)]; unfold reports in R;
    destruct (reports_cases cf (A := option addr * option addr) msg s1) as [(s2 & -> & R2)|(-> & R2)]; unfold reports in R2; congruence. }
  assert (Rt : forall p x, scalar x p -> un_answer o v = AVal x -> plain_payload (c_val c) ->
    comes_to cf s1 (match match mbind (alloc p) (fun a0 => mbind (decref cf (S m) a) (fun _ => ret (Some a0))) s1 with
      Ret a s' => deliver_opt Slot a s' | Fail s' => Fail s' | Died => Died | Undef u => Undef u | NoFuel => NoFuel end with
      Ret o s' => ret (o, None) s' | Fail s' => Fail s' | Died => Died | Undef u => Undef u | NoFuel => NoFuel end) (un_answer o v)).
  { intros p x Sx -> Pc. unfold mbind at 1, alloc. set (s2 := set_cells _ s1).
    destruct (decref_plain_keeps cf m a s2 c) as (s3 & E3 & K3); [now apply nth_app_l|destruct (c_val c); auto; contradiction|].
    rewrite (bind_step _ _ _ _ _ E3). cbn. exists (length (cells s1)), None, s3. split; auto.
    destruct (proj1 K3 (length (cells s1)) _ (nth_app_new _ _)) as (c' & C' & V'). cbn in V'.
    destruct x, p; cbn in Sx; try contradiction; subst; cbn; eauto. }
  destruct v as [|bv|zv|tv|lv|lv|fv|kv iv dv].
  all: match type of V with
       | holds _ (DVec _) _ => apply holds_vec in V as (c' & es & C' & Vc & _)
       | holds _ (DMap _) _ => apply holds_map in V as (c' & es & C' & Vc & _)
       | holds _ (DStr _) _ => cbn in V; destruct V as (c' & C' & ? & ? & ? & Vc & _)
       | _ => cbn in V; destruct V as (c' & C' & Vc)
       end; assert (c' = c) by congruence; subst c'; rewrite Vc in *.
  all: try (destruct o; unfold mbind, ret; apply Err; reflexivity).
  - destruct o; [unfold mbind, ret; apply Err; reflexivity|]. exact (Rt (PBool (negb bv)) (DBool (negb bv)) eq_refl eq_refl I).
  - destruct o; [|unfold mbind, ret; apply Err; reflexivity]. cbn [is_op is_prefix uspelling lit list_ascii_of_string byte_eqb Ascii.eqb Bool.eqb andb].
    unfold some_res, int_res. destruct (int64 (- zv)) eqn:Ei.
    + apply (Rt (PInt (- zv)) (DInt (- zv)) eq_refl); [cbn [un_answer]; now rewrite int64_fits, Ei|exact I].
    + cbn [un_answer]. rewrite int64_fits, Ei. reflexivity.
  - assert (T : type_str (PFn fv) = type_name (DFn fv)) by (unfold type_str, type_name; destruct (f_kind fv); reflexivity).
    destruct o; unfold mbind, ret; apply Err; rewrite T; reflexivity.
Qed.

(** ** Integer literals *)

Lemma digit_char c d : digit c d -> Z.of_N (N_of_ascii c) = (d + 48)%Z.
Proof. intros (R & ->). rewrite Z2N.id; lia. Qed.

Lemma denotes_nonneg l z : denotes l z -> (0 <= z)%Z.
Proof. induction 1 as [|l z D IH|l z c d D IH (R & _)]; lia. Qed.

Lemma parse_denotes l z : denotes l z -> forall rest s,
  parse_digits cf (l ++ rest) 0 s = if (z <? 2 ^ 63)%Z then parse_digits cf rest z s else Undef UOverflow.
Proof.
  induction 1 as [|l z D IH|l z c d D IH Dg]; intros rest s.
  - reflexivity.
  - rewrite <- app_assoc, IH. reflexivity.
  - rewrite <- app_assoc, IH. cbn [app parse_digits]. pose proof (denotes_nonneg _ _ D) as Nz. rewrite (digit_char c d Dg). destruct Dg as (R & Cc).
    replace (byte_eqb c "_"%char) with false.
    2: { symmetry. unfold byte_eqb. destruct (Ascii.eqb_spec c "_"%char) as [->|]; auto. cbn in Cc. exfalso. assert (Z.of_N 95 = (d + 48)%Z) by (rewrite Cc, Z2N.id; lia). lia. }
    replace ((d + 48 <? 48)%Z || (57 <? d + 48)%Z) with false by (symmetry; apply orb_false_iff; lia). cbv zeta.
    replace (z * 10 + (d + 48 - 48))%Z with (10 * z + d)%Z by lia.
    destruct (Z.ltb_spec z (2 ^ 63)), (Z.ltb_spec (10 * z + d) (2 ^ 63)); try lia.
    + replace (int64 (z * 10)) with true by (symmetry; apply andb_true_iff; lia).
      replace (int64 (10 * z + d)) with true by (symmetry; apply andb_true_iff; lia). reflexivity.
    + replace (int64 (10 * z + d)) with false by (symmetry; apply andb_false_iff; lia). destruct (int64 (z * 10)); reflexivity.
    + reflexivity.
Qed.

Lemma denotes_no_minus l z : denotes l z -> In "-"%char l -> False.
Proof.
  intro D. induction D as [|l z D IH|l z c d D IH (R & Cc)]; intro I; [destruct I| |].
  - apply in_app_or in I as [I|[I|[]]]; [auto|discriminate I].
  - apply in_app_or in I as [I|[I|[]]]; [auto|]. subst c. cbn in Cc. assert (Z.of_N 45 = (d + 48)%Z) by (rewrite Cc, Z2N.id; lia). lia.
Qed.

Lemma num_comes_to n l z s : l <> [] -> denotes l z -> comes_to cf s (outcome cf (S n) (ENum l) s) (fits z).
Proof.
  intros N D. unfold outcome. rewrite eval_S. cbn [eval_]. unfold plain.
  assert (P : parse_number cf l s = if (z <? 2 ^ 63)%Z then Ret z s else Undef UOverflow).
  { destruct l as [|c t]; [congruence|]. unfold parse_number.
    assert (A : byte_eqb c "-"%char = false).
    { unfold byte_eqb. destruct (Ascii.eqb_spec c "-"%char) as [->|]; auto. exfalso. clear - D. remember ("-"%char :: t) as l eqn:E.
      apply (denotes_no_minus _ _ D). subst l. now left. }
    rewrite A. cbn [andb negb assert]. unfold mbind at 1, ret. pose proof (parse_denotes _ _ D [] s) as Q. rewrite app_nil_r in Q. rewrite Q. reflexivity. }
  unfold mbind at 1. unfold mbind at 1. rewrite P. pose proof (denotes_nonneg _ _ D) as Nz. rewrite int64_fits. unfold int64.
  replace (- 2 ^ 63 <=? z)%Z with true by lia. cbn [andb]. destruct (z <? 2 ^ 63)%Z; [|reflexivity].
  cbn. eexists _, _, _. split; [reflexivity|]. eexists. split; [apply nth_app_new|reflexivity].
Qed.

(** ** Indexing *)

Lemma incref_live (s : st H) a : live s a -> exists s', incref a s = Ret tt s' /\ keeps s s'.
Proof.
  intros (c & C & P). unfold incref. rewrite (bind_step _ _ _ _ _ (get_cell_ok _ _ _ C)). unfold mbind, assert.
  replace (0 <? c_cnt c)%Z with true by lia. eexists. split; [reflexivity|]. eapply put_cell_keeps; [exact C|reflexivity].
Qed.

Lemma forall2_nth {A B} (P : A -> B -> Prop) d : forall l m i b, Forall2 P l m -> nth_error m i = Some b -> P (nth i l d) b.
Proof. intros l m i b G. revert i. induction G; intros [|i] E; try discriminate; cbn in *; [injection E as <-; auto|auto]. Qed.

Lemma index_comes_to n e i s x s1 j s2 vs z es c :
  evals cf n e s x s1 -> (exists vs', holds s1 (DVec vs') x) -> evals cf n i s1 j s2 ->
  nth_error (cells s2) x = Some c -> c_val c = PVec es -> Forall2 (holds s2) vs es -> Forall (live s2) es ->
  holds s2 (DInt z) j -> is_int64 z ->
  comes_to cf s2 (outcome cf (S n) (EIndex e i) s) (element_answer vs z).
Proof.
  intros E (vs' & V') I C V G L J R. unfold outcome. rewrite eval_S. cbn [eval_]. unfold plain, do_index.
  unfold mbind at 1. unfold mbind at 1. rewrite (value_evals _ _ _ _ _ E).
  apply holds_vec in V' as (c1 & es1 & C1 & V1 & _). unfold mbind at 1. rewrite (get_cell_ok _ _ _ C1), V1.
  unfold mbind at 1. rewrite (value_evals _ _ _ _ _ I). cbn in J. destruct J as (cj & Cj & Vj). unfold mbind at 1. rewrite (get_cell_ok _ _ _ Cj), Vj.
  unfold mbind at 1. rewrite (get_cell_ok _ _ _ C), V. unfold mbind at 1.
  assert (Len : length vs = length es) by (eapply forall2_len; eauto).
  assert (El : forall k a, nth_error es k = Some a -> exists s', mbind (incref a) (fun _ => ret a) s2 = Ret a s' /\ holds s' (nth k vs DNone) a).
  { intros k a Q. rewrite Forall_forall in L. destruct (incref_live s2 a (L _ (nth_error_In _ _ Q))) as (s' & E' & K).
    exists s'. unfold mbind. rewrite E'. split; auto. eapply holds_keeps; [exact K|]. eapply forall2_nth; eauto. }
  assert (Err : forall msg, element_answer vs z = AError msg -> forall (k : addr -> M H (option addr)) (k' : option addr -> M H (option addr * option addr)),
    comes_to cf s2 (match match @error H cf addr msg s2 with Ret a s' => k a s' | Fail s' => Fail s' | Died => Died | Undef u => Undef u | NoFuel => NoFuel end with
      Ret a s' => k' a s' | Fail s' => Fail s' | Died => Died | Undef u => Undef u | NoFuel => NoFuel end) (element_answer vs z)).
  { intros msg -> k k'. cbn [comes_to]. unfold reports, error. destruct (reports_cases cf (A := addr) msg s2) as [(s' & -> & Q)|(-> & Q)]; unfold reports in Q;
    destruct (reports_cases cf (A := option addr * option addr) msg s2) as [(s3 & -> & Q2)|(-> & Q2)]; unfold reports in Q2; congruence. }
  assert (Ret1 : forall k, k < length es -> element_answer vs z = AVal (nth k vs DNone) ->
    comes_to cf s2 (match match (match nth_error es k with Some a => mbind (incref a) (fun _ => ret a) | None => undef URange end) s2 with
      Ret a s' => deliver Slot a s' | Fail s' => Fail s' | Died => Died | Undef u => Undef u | NoFuel => NoFuel end with
      Ret o s' => ret (o, None) s' | Fail s' => Fail s' | Died => Died | Undef u => Undef u | NoFuel => NoFuel end) (element_answer vs z)).
  { intros k Lk ->. destruct (nth_error es k) as [a|] eqn:Q; [|apply nth_error_None in Q; lia].
    destruct (El _ _ Q) as (s' & -> & Hd). cbn. eauto 8. }
  unfold is_int64 in R. unfold vec_index. destruct (0 <=? z)%Z eqn:Z0.
  - destruct (Z.of_nat (length es) <=? z)%Z eqn:Z1.
    + apply Err. unfold element_answer. rewrite Len. replace (z =? - 2 ^ 63)%Z with false by lia. rewrite Z0. replace (z <? Z.of_nat (length es))%Z with false by lia.
      cbn [andb]. replace (z <? 0)%Z with false by lia. rewrite andb_false_r. reflexivity.
    + apply Ret1; [lia|]. unfold element_answer. rewrite Len. replace (z =? - 2 ^ 63)%Z with false by lia. rewrite Z0. replace (z <? Z.of_nat (length es))%Z with true by lia. reflexivity.
  - destruct (z =? - 2 ^ 63)%Z eqn:Z1.
    + unfold element_answer. rewrite Z1. reflexivity.
    + destruct (Z.of_nat (length es) <? - z)%Z eqn:Z2.
      * apply Err. unfold element_answer. rewrite Len, Z1, Z0. cbn [andb]. replace (- Z.of_nat (length es) <=? z)%Z with false by lia. reflexivity.
      * apply Ret1; [lia|]. unfold element_answer. rewrite Len, Z1, Z0. cbn [andb]. replace (- Z.of_nat (length es) <=? z)%Z with true by lia. replace (z <? 0)%Z with true by lia. reflexivity.
Qed.

(** ** Maps *)

Lemma has_key_fresh n s k d : holds s d k -> distinct d -> forall keys,
  Forall (fun kd => holds s (snd kd) (fst kd) /\ distinct (snd kd) /\ depth (snd kd) < n /\ ~ same (snd kd) d) keys ->
  has_key (interp cf n) k (map fst keys) s = Ret false s.
Proof.
  intros Hd D. induction keys as [|[k' d'] keys IH]; intro G; [reflexivity|]. inversion G as [|? ? (Q1 & Q2 & Q3 & Q4) G']; subst. cbn [map has_key fst snd] in *.
  rewrite interp_fuel. destruct (val_eq_decides s n d' d k' k Q3 Q1 Hd Q2 D) as (b & E & B). unfold mbind. rewrite E.
  destruct b; [destruct Q4; now apply B|]. auto.
Qed.

Lemma has_key_dup n s k d : holds s d k -> distinct d -> forall keys,
  Forall (fun kd => holds s (snd kd) (fst kd) /\ distinct (snd kd) /\ depth (snd kd) < n) keys ->
  Exists (fun kd => same (snd kd) d) keys ->
  has_key (interp cf n) k (map fst keys) s = Ret true s.
Proof.
  intros Hd D. induction keys as [|[k' d'] keys IH]; intros G X; [inversion X|]. inversion G as [|? ? (Q1 & Q2 & Q3) G']; subst. cbn [map has_key fst snd] in *.
  rewrite interp_fuel. destruct (val_eq_decides s n d' d k' k Q3 Q1 Hd Q2 D) as (b & E & B). unfold mbind. rewrite E.
  destruct b; [reflexivity|]. apply IH; auto. inversion X as [? ? X'|? ? X']; subst; auto. cbn in X'. apply B in X'. discriminate.
Qed.

Lemma items_map n : forall keys l s kvs s', items cf n keys l s kvs s' -> forall acc, map fst acc = map fst keys ->
  map_items cf (interp cf n) l acc s = Ret (acc ++ kvs) s'.
Proof.
  induction 1 as [keys s|keys ke ve l s k d s1 v s2 kvs s3 E Hd G D Ev I IH]; intros acc A; cbn [map_items].
  - now rewrite app_nil_r.
  - unfold mbind at 1. rewrite (value_evals _ _ _ _ _ E). unfold mbind at 1. rewrite A, (has_key_fresh n s1 k d Hd D keys G).
    unfold mbind at 1. rewrite (value_evals _ _ _ _ _ Ev). rewrite IH; [now rewrite <- app_assoc|]. rewrite !map_app, A. reflexivity.
Qed.

Lemma map_literal n l s kvs s' : items cf n [] l s kvs s' -> exists a x s2, outcome cf (S n) (EMap l) s = Ret (Some a, x) s2 /\ keeps s' s2 /\
  exists c, nth_error (cells s2) a = Some c /\ c_val c = PMap kvs.
Proof.
  intro I. unfold outcome. rewrite eval_S. cbn [eval_]. unfold plain. unfold mbind at 1. unfold mbind at 1. rewrite (items_map _ _ _ _ _ _ I [] eq_refl). cbn.
  eexists _, _, _. split; [reflexivity|]. split; [apply keeps_append|]. eexists. split; [apply nth_app_new|reflexivity].
Qed.

(** [l] are the items before one whose key is already there. *)
Lemma items_then n : forall keys l s kvs s', items cf n keys l s kvs s' -> forall rest acc, map fst acc = map fst keys ->
  map_items cf (interp cf n) (l ++ rest) acc s = map_items cf (interp cf n) rest (acc ++ kvs) s'.
Proof.
  induction 1 as [keys s|keys ke ve l s k d s1 v s2 kvs s3 E Hd G D Ev I IH]; intros rest acc A; cbn [map_items app].
  - now rewrite app_nil_r.
  - unfold mbind at 1. rewrite (value_evals _ _ _ _ _ E). unfold mbind at 1. rewrite A, (has_key_fresh n s1 k d Hd D keys G).
    unfold mbind at 1. rewrite (value_evals _ _ _ _ _ Ev). rewrite IH; [now rewrite <- app_assoc|]. rewrite !map_app, A. reflexivity.
Qed.

Lemma map_duplicate n l s kvs s' ke ve rest k d s1 ds : items cf n [] l s kvs s' ->
  evals cf n ke s' k s1 -> holds s1 d k -> distinct d ->
  Forall2 (fun kv d' => holds s1 d' (fst kv) /\ distinct d' /\ depth d' < n) kvs ds -> Exists (fun d' => same d' d) ds ->
  outcome cf (S n) (EMap (l ++ (ke, ve) :: rest)) s = reports cf (lit "duplicate key in map") s1.
Proof.
  intros I E Hd D G X. unfold outcome. rewrite eval_S. cbn [eval_]. unfold plain. unfold mbind at 1. unfold mbind at 1.
  rewrite (items_then _ _ _ _ _ _ I _ [] eq_refl). cbn [app map_items]. unfold mbind at 1. rewrite (value_evals _ _ _ _ _ E).
  set (keys := combine (map fst kvs) ds).
  assert (K1 : map fst kvs = map fst keys).
  { unfold keys. clear - G. induction G; cbn; [reflexivity|f_equal; auto]. }
  assert (K2 : Forall (fun kd => holds s1 (snd kd) (fst kd) /\ distinct (snd kd) /\ depth (snd kd) < n) keys).
  { unfold keys. clear - G. induction G; cbn; constructor; auto. }
  assert (K3 : Exists (fun kd => same (snd kd) d) keys).
  { unfold keys. clear - G X. induction G; inversion X; subst; cbn; [now left|right; auto]. }
  unfold mbind at 1. rewrite K1, (has_key_dup n s1 k d Hd D keys K2 K3).
  unfold reports, error. destruct (reports_cases cf (A := list (addr * addr)) (lit "duplicate key in map") s1) as [(s2 & -> & Q)|(-> & Q)]; unfold reports in Q;
    destruct (reports_cases cf (A := option addr * option addr) (lit "duplicate key in map") s1) as [(s3 & -> & Q2)|(-> & Q2)]; unfold reports in Q2; congruence.
Qed.

Lemma map_value_unique (l : list (data * data)) : ForallOrdPairs (fun a b => ~ same (fst a) (fst b)) l -> forall k v d, In (k, v) l -> same k d -> map_value l d v.
Proof.
  induction 1 as [|[k0 v0] l G P IH]; intros k v d I S; [destruct I|]. destruct I as [E|I].
  - injection E as -> ->. now constructor.
  - constructor; [|eauto]. intro S0. rewrite Forall_forall in G. apply (G _ I). cbn. eapply same_trans; [exact S0|]. now apply same_sym.
Qed.

Lemma map_index_value n s x d : holds s d x -> distinct d -> forall kvs ds,
  Forall2 (holds2 s) ds kvs -> Forall (fun kd => distinct (fst kd) /\ depth (fst kd) < n) ds -> Forall (fun kv => live s (snd kv)) kvs ->
  exists a s', map_index (interp cf n) kvs x s = Ret a s' /\ exists v, map_value ds d v /\ holds s' v a.
Proof.
  intros Hd D. induction kvs as [|[k v] kvs IH]; intros ds G P L; inversion G as [|[kd vd] ? ds' ? (G1 & G2) G3]; subst; cbn [map_index].
  - exists (length (cells s)). eexists. split; [reflexivity|]. exists DNone. split; [constructor|]. eexists. split; [apply nth_app_new|reflexivity].
  - inversion P as [|? ? (P1 & P2) P3]; subst. inversion L as [|? ? L1 L2]; subst. cbn [fst snd] in *. rewrite interp_fuel.
    destruct (val_eq_decides s n kd d k x P2 G1 Hd P1 D) as (b & E & B). unfold mbind at 1. rewrite E. destruct b.
    + destruct (incref_live s v L1) as (s' & E' & K). exists v, s'. unfold mbind. rewrite E'. split; auto. exists vd. split; [constructor; now apply B|]. eapply holds_keeps; eauto.
    + destruct (IH _ G3 P3 L2) as (a & s' & E' & v' & M' & Hv). exists a, s'. split; auto. exists v'. split; auto. constructor; auto. intro S. apply B in S. discriminate.
Qed.

Lemma map_index_comes_to n e i s x s1 j s2 ds d kvs c :
  evals cf n e s x s1 -> (exists l, holds s1 (DMap l) x) -> evals cf n i s1 j s2 ->
  nth_error (cells s2) x = Some c -> c_val c = PMap kvs -> Forall2 (holds2 s2) ds kvs -> Forall (fun kv => live s2 (snd kv)) kvs ->
  Forall (fun kd => distinct (fst kd) /\ depth (fst kd) < n) ds -> holds s2 d j -> distinct d ->
  exists v, map_value ds d v /\ comes_to cf s2 (outcome cf (S n) (EIndex e i) s) (AVal v).
Proof.
  intros E (l & V') I C V G L P J D. unfold outcome. rewrite eval_S. cbn [eval_]. unfold plain, do_index.
  unfold mbind at 1. unfold mbind at 1. rewrite (value_evals _ _ _ _ _ E).
  apply holds_map in V' as (c1 & es1 & C1 & V1 & _). unfold mbind at 1. rewrite (get_cell_ok _ _ _ C1), V1.
  unfold mbind at 1. rewrite (value_evals _ _ _ _ _ I). 
  unfold mbind at 1. rewrite (get_cell_ok _ _ _ C), V. unfold mbind at 1.
  destruct (map_index_value n s2 j d J D kvs ds G P L) as (a & s' & -> & v & Mv & Hv). exists v. split; auto. cbn. eauto 8.
Qed.
End Expr.
