(** * C37-C44, C51: values, operators and members of scripts. *)

From Coq Require Import ZArith Arith Ascii String Lia Bool List Permutation.
From Verif Require Import Base FlAst FlState FlInterp FlMonad SpecFlamingo FlEqProofs SpecScript SpecFrame FlOpProofs FlExprProofs FlFrame FlBalance FlMemberProofs FlHigherProofs FlSeqProofs FlClaims.
Import ListNotations.
Local Open Scope nat_scope.

(** ** A program without callbacks, for the examples *)

(** pow(3) rounded to 53 significant bits would do as well; the examples do not depend on it. *)
Definition demo : conf unit :=
  Conf unit (lit "demo") (fun x y => if ((-1000 <? x) && (x <? 1000) && (0 <=? y) && (y <? 5))%Z then Some (x ^ y)%Z else None) (fun _ => false)
    (fun _ => NoFile (lit "no such file")) (fun _ _ => ret None) (fun _ => ret tt) (fun _ _ => ret tt) (fun _ => ret tt).
Definition start : st unit := match create [] tt with Ret _ s => s | _ => blank [] tt end.
Definition id (x : string) : expr := EId (lit x).
Definition num (x : string) : expr := ENum (lit x).
Definition str (x : string) : expr := EStr (lit x).
Definition bin (l : expr) (o : string) (r : expr) : expr := EBin l (lit o) r.
Definition let_to (x : string) (e : expr) : stmt := SLet false (lit x) (Some e).
Definition method (e : expr) (x : string) (args : list expr) : expr := ECall (EAccess e (lit x)) args.
Definition fn1 (x : string) (e : expr) : expr := ELambda [lit x] (BExpr e).
(** What a script prints. *)
Definition printed (ss : list stmt) : option (list bytes) := match run demo 30 [] tt ss with Ret _ s => Some (prints s) | _ => None end.

(** The value and the state after evaluating an expression. *)
Definition value_of (n : nat) (e : expr) (s : st unit) : addr := match r_eval (interp demo n) Slot e s with Ret (Some a, _) _ => a | _ => 0 end.
Definition after (n : nat) (e : expr) (s : st unit) : st unit := match r_eval (interp demo n) Slot e s with Ret _ s' => s' | _ => s end.
(** The state after some statements. *)
Definition done (ss : list stmt) : st unit := match exec demo 30 ss start with Ret _ s => s | _ => start end.

Lemma demo_releases : releases_own demo.
Proof. intros d s. left. exists tt. destruct s as [? ? ? ? ? ? ? ? ? ? ? ? []]. reflexivity. Qed.
Lemma demo_tame : tame demo.
Proof. split; [intros f args s r s' E|split; [intros a s s' E|split; [intros a args s s' E|intros d s s' E]]]; cbn in E; injection E; intros; subst; apply fr_refl. Qed.
Ltac ran := eexists; vm_compute; reflexivity.
Ltac is_held := vm_compute; repeat (eexists; repeat split; try reflexivity).

(** ** C37: equality

    Full statement: [==] is reflexive, symmetric and transitive on every value and [!=] is its negation. It is false: adding maps keeps both entries of
    a key they share, and such a map is not even equal to itself. Proved: on all other values, [==] says whether the values are the same (maps in any order of their entries) and
    [!=] whether they are not, and being the same is an equivalence. (Functions and instances are refused by [==] unless compared to none.) *)
Theorem C37_equality_decides_sameness_partial : forall H (cf : conf H), releases_own cf -> forall n e1 e2 s a s1 b s2 v w,
  evals cf n e1 s a s1 -> evals cf n e2 s1 b s2 -> holds s2 v a -> holds s2 w b ->
  depth v < n -> distinct v -> distinct w -> comparable v w -> (forall z, v = DInt z \/ w = DInt z -> is_int64 z) ->
  agrees cf s2 (outcome cf (S n) (EBin e1 (lit "==") e2) s) (says_same v w) /\
  agrees cf s2 (outcome cf (S n) (EBin e1 (lit "!=") e2) s) (says_different v w).
Proof. exact (@equal_agrees). Qed.
Print Assumptions C37_equality_decides_sameness_partial.

Theorem C37_sameness_is_an_equivalence :
  (forall v, same v v) /\ (forall v w, same v w -> same w v) /\ (forall v w x, same v w -> same w x -> same v x).
Proof. exact (conj same_refl (conj same_sym same_trans)). Qed.
Print Assumptions C37_sameness_is_an_equivalence.

(** Two maps with the same entries in another order, nested in vectors. *)
Example C37_case :
  let e1 := EVec [EMap [(str "a", num "1"); (str "b", EVec [num "2"])]] in
  let e2 := EVec [EMap [(str "b", EVec [num "2"]); (str "a", num "1")]] in
  let v := DVec [DMap [(DStr (lit "a"), DInt 1); (DStr (lit "b"), DVec [DInt 2])]] in
  let w := DVec [DMap [(DStr (lit "b"), DVec [DInt 2]); (DStr (lit "a"), DInt 1)]] in
  evals demo 9 e1 start (value_of 9 e1 start) (after 9 e1 start) /\
  evals demo 9 e2 (after 9 e1 start) (value_of 9 e2 (after 9 e1 start)) (after 9 e2 (after 9 e1 start)) /\
  holds (after 9 e2 (after 9 e1 start)) v (value_of 9 e1 start) /\ holds (after 9 e2 (after 9 e1 start)) w (value_of 9 e2 (after 9 e1 start)) /\
  depth v < 9 /\ comparable v w /\ same v w /\
  printed [SPrint (EBin e1 (lit "==") e2); SPrint (EBin e1 (lit "!=") e2)] = Some [lit "true"; lit "false"].
Proof.
  cbv zeta. split; [ran|]. split; [ran|]. split; [is_held|]. split; [is_held|]. split; [cbn; lia|]. split; [exact I|]. split; [|vm_compute; reflexivity].
  constructor. constructor; [|constructor]. eapply same_map; [apply perm_swap|]. repeat constructor.
Qed.

(** [c == c] can be false, and [m == n] can be true with [n == m] false. *)
Theorem C37_equality_is_no_equivalence_refuted :
  printed [let_to "c" (bin (EMap [(str "a", num "1")]) "+" (EMap [(str "a", num "2")])); SPrint (bin (id "c") "==" (id "c"))] = Some [lit "false"] /\
  printed [let_to "m" (bin (EMap [(str "a", num "1")]) "+" (EMap [(str "a", num "1")])); let_to "n" (EMap [(str "a", num "1"); (str "b", num "2")]);
           SPrint (bin (id "m") "==" (id "n")); SPrint (bin (id "n") "==" (id "m"))] = Some [lit "true"; lit "false"].
Proof. split; vm_compute; reflexivity. Qed.
Print Assumptions C37_equality_is_no_equivalence_refuted.

(** ** C38: maps *)

Theorem C38_literal_makes_its_entries : forall H (cf : conf H) n l s kvs s', items cf n [] l s kvs s' ->
  exists a x s2, outcome cf (S n) (EMap l) s = Ret (Some a, x) s2 /\
  (exists c, nth_error (cells s2) a = Some c /\ c_val c = PMap kvs) /\ (forall v d, holds s' v d -> holds s2 v d).
Proof. exact (@literal_makes). Qed.
Print Assumptions C38_literal_makes_its_entries.

Theorem C38_equal_keys_are_refused : forall H (cf : conf H) n l s kvs s' ke ve rest k d s1 ds, items cf n [] l s kvs s' ->
  evals cf n ke s' k s1 -> holds s1 d k -> distinct d ->
  Forall2 (fun kv d' => holds s1 d' (fst kv) /\ distinct d' /\ depth d' < n) kvs ds -> Exists (fun d' => same d' d) ds ->
  outcome cf (S n) (EMap (l ++ (ke, ve) :: rest)) s = reports cf (lit "duplicate key in map") s1.
Proof. exact (@map_duplicate). Qed.
Print Assumptions C38_equal_keys_are_refused.

(** Indexing a map with distinct keys gives the value of the key, and none for a key it does not have. The values must not have been released (C50). *)
Theorem C38_lookup : forall H (cf : conf H) n e i s x s1 j s2 ds d,
  evals cf n e s x s1 -> (exists l, holds s1 (DMap l) x) -> evals cf n i s1 j s2 -> holds s2 (DMap ds) x -> distinct (DMap ds) ->
  (forall c kvs, nth_error (cells s2) x = Some c -> c_val c = PMap kvs -> Forall (fun kv => live s2 (snd kv)) kvs) ->
  Forall (fun kd => depth (fst kd) < n) ds -> holds s2 d j -> distinct d ->
  (forall k v, In (k, v) ds -> same k d -> comes_to cf s2 (outcome cf (S n) (EIndex e i) s) (AVal v)) /\
  ((forall k v, In (k, v) ds -> ~ same k d) -> comes_to cf s2 (outcome cf (S n) (EIndex e i) s) (AVal DNone)).
Proof. exact (@lookup_comes_to). Qed.
Print Assumptions C38_lookup.

Definition m38 : st unit := done [let_to "m" (EMap [(str "a", num "1"); (EVec [num "7"], str "z")])].
Example C38_case :
  let s1 := after 9 (id "m") m38 in let s2 := after 9 (EVec [num "7"]) s1 in
  let ds := [(DStr (lit "a"), DInt 1); (DVec [DInt 7], DStr (lit "z"))] in
  evals demo 9 (id "m") m38 (value_of 9 (id "m") m38) s1 /\ evals demo 9 (EVec [num "7"]) s1 (value_of 9 (EVec [num "7"]) s1) s2 /\
  holds s2 (DMap ds) (value_of 9 (id "m") m38) /\ distinct (DMap ds) /\ holds s2 (DVec [DInt 7]) (value_of 9 (EVec [num "7"]) s1) /\
  (forall c kvs, nth_error (cells s2) (value_of 9 (id "m") m38) = Some c -> c_val c = PMap kvs -> Forall (fun kv => live s2 (snd kv)) kvs) /\
  printed [let_to "m" (EMap [(str "a", num "1"); (EVec [num "7"], str "z")]); SPrint (EIndex (id "m") (EVec [num "7"])); SPrint (EIndex (id "m") (num "7"))] = Some [lit "z"; lit "<none>"].
Proof.
  cbv zeta. split; [ran|]. split; [ran|]. split; [is_held|]. split; [cbn; repeat split; repeat constructor; inversion 1|]. split; [is_held|]. split; [|vm_compute; reflexivity].
  intros c kvs E V. vm_compute in E. injection E as <-. vm_compute in V. injection V as <-. repeat constructor; eexists; split; [vm_compute; reflexivity|reflexivity|vm_compute; reflexivity|reflexivity].
Qed.
Example C38_duplicate_case :
  let l := [(str "a", num "1")] in
  let s1 := after 9 (str "a") start in let s2 := after 9 (num "1") s1 in let s3 := after 9 (str "a") s2 in
  items demo 9 [] l start [(value_of 9 (str "a") start, value_of 9 (num "1") s1)] s2 /\
  evals demo 9 (str "a") s2 (value_of 9 (str "a") s2) s3 /\ holds s3 (DStr (lit "a")) (value_of 9 (str "a") s2) /\
  Forall2 (fun kv d' => holds s3 d' (fst kv) /\ distinct d' /\ depth d' < 9) [(value_of 9 (str "a") start, value_of 9 (num "1") s1)] [DStr (lit "a")] /\
  Exists (fun d' => same d' (DStr (lit "a"))) [DStr (lit "a")].
Proof.
  cbv zeta. split; [|split; [ran|split; [is_held|split]]].
  - eapply items_cons with (d := DStr (lit "a")); [ran|is_held|constructor|exact I|ran|constructor].
  - constructor; [|constructor]. split; [is_held|]. split; [exact I|cbn; lia].
  - constructor. constructor.
Qed.

(** ** C39: indexing vectors

    Full statement: an index from [-n] to [n - 1] gives that element (from the end if negative) and any other is an error. False twice: the least
    integer has undefined behaviour, and the index of a discarded expression is not checked. *)
Theorem C39_index_partial : forall H (cf : conf H) n e i s x s1 j s2 vs z es c,
  evals cf n e s x s1 -> (exists vs', holds s1 (DVec vs') x) -> evals cf n i s1 j s2 ->
  nth_error (cells s2) x = Some c -> c_val c = PVec es -> Forall2 (holds s2) vs es -> Forall (live s2) es ->
  holds s2 (DInt z) j -> is_int64 z ->
  comes_to cf s2 (outcome cf (S n) (EIndex e i) s) (element_answer vs z).
Proof. exact (@index_comes_to). Qed.
Print Assumptions C39_index_partial.

Definition v39 : st unit := done [let_to "v" (EVec [num "10"; str "b"])].
Example C39_case :
  let i := EUn (lit "-") (num "1") in
  let s1 := after 9 (id "v") v39 in let s2 := after 9 i s1 in let x := value_of 9 (id "v") v39 in
  evals demo 9 (id "v") v39 x s1 /\ holds s1 (DVec [DInt 10; DStr (lit "b")]) x /\ evals demo 9 i s1 (value_of 9 i s1) s2 /\
  (exists c es, nth_error (cells s2) x = Some c /\ c_val c = PVec es /\ Forall2 (holds s2) [DInt 10; DStr (lit "b")] es /\ Forall (live s2) es) /\
  holds s2 (DInt (-1)) (value_of 9 i s1) /\ element_answer [DInt 10; DStr (lit "b")] (-1) = AVal (DStr (lit "b")) /\
  element_answer [DInt 10; DStr (lit "b")] 2 = AError (lit "index 2 is out of bounds for vector of size 2").
Proof.
  cbv zeta. split; [ran|]. split; [is_held|]. split; [ran|]. split; [|split; [is_held|split; vm_compute; reflexivity]].
  eexists _, _. split; [vm_compute; reflexivity|]. split; [vm_compute; reflexivity|]. split; repeat constructor; try is_held; eexists; (split; [vm_compute; reflexivity|reflexivity]).
Qed.

Theorem C39_discarded_index_is_not_checked_refuted :
  printed [let_to "v" (EVec [num "1"]); SExpr (EIndex (id "v") (num "10")); SPrint (str "went on")] = Some [lit "went on"] /\
  run demo 30 [] tt [let_to "v" (EVec [num "1"]); SPrint (EIndex (id "v") (bin (EUn (lit "-") (num "9223372036854775807")) "-" (num "1")))] = Undef UOverflow.
Proof. split; vm_compute; reflexivity. Qed.
Print Assumptions C39_discarded_index_is_not_checked_refuted.

(** ** C40: arithmetic

    Full statement: every operator gives the mathematical result if it fits 64 bits. False of the power operator, which works in floating point. Proved for all the
    others ([int_answer] says what they compute), with nothing left open; powers are what the C library gives. *)
Theorem C40_arithmetic_partial : forall H (cf : conf H), releases_own cf -> forall n o e1 e2 s a s1 b s2 v w ans,
  evals cf n e1 s a s1 -> evals cf n e2 s1 b s2 -> holds s2 v a -> holds s2 w b ->
  match v, w with
  | DInt x, DInt y => is_int64 x /\ is_int64 y /\ ans = int_answer (cf_pow cf) o x y
  | DBool x, DBool y => ans = bool_answer o x y
  | _, _ => False
  end ->
  comes_to cf s2 (outcome cf (S n) (EBin e1 (spelling o) e2) s) ans.
Proof. exact (@bin_scalar_comes_to). Qed.
Print Assumptions C40_arithmetic_partial.

Theorem C40_unary : forall H (cf : conf H) n o e s a s1 v, releases_own cf -> evals cf n e s a s1 -> holds s1 v a ->
  comes_to cf s1 (outcome cf (S n) (EUn (uspelling o) e) s) (un_answer o v).
Proof. exact (@un_comes_to). Qed.
Print Assumptions C40_unary.

Example C40_case :
  let s1 := after 9 (num "7") start in let e2 := EUn (lit "-") (num "2") in let s2 := after 9 e2 s1 in
  evals demo 9 (num "7") start (value_of 9 (num "7") start) s1 /\ evals demo 9 e2 s1 (value_of 9 e2 s1) s2 /\
  holds s2 (DInt 7) (value_of 9 (num "7") start) /\ holds s2 (DInt (-2)) (value_of 9 e2 s1) /\ is_int64 7 /\ is_int64 (-2) /\
  int_answer (cf_pow demo) ODiv 7 (-2) = AVal (DInt (-3)) /\ int_answer (cf_pow demo) OMod 7 (-2) = AVal (DInt 1) /\
  int_answer (cf_pow demo) OMul (2 ^ 62) 2 = AOverflow /\ int_answer (cf_pow demo) ODiv 7 0 = AError (lit "division by zero").
Proof.
  cbv zeta. split; [ran|]. split; [ran|]. split; [is_held|]. split; [is_held|]. split; [unfold is_int64; lia|]. split; [unfold is_int64; lia|]. repeat split; vm_compute; reflexivity.
Qed.

(** 3 ** 39 fits 64 bits but no double holds it. *)
Lemma pow3_no_double : ~ double_integer (3 ^ 39).
Proof.
  intros (m & e & M' & E & Q). assert (e = 0 \/ 0 < e)%Z as [-> | P] by lia.
  - rewrite Z.pow_0_r, Z.mul_1_r in Q. subst m. vm_compute in M'. discriminate.
  - assert (O : Z.odd (3 ^ 39) = true) by (vm_compute; reflexivity). rewrite Q, Z.odd_mul, Z.odd_pow in O by lia. rewrite andb_false_r in O. discriminate.
Qed.
Lemma power_off H (cf : conf H) : releases_own cf -> (forall x y z, cf_pow cf x y = Some z -> double_integer z) -> is_int64 (3 ^ 39) /\
  forall n s a s1 b s2, evals cf n (num "3") s a s1 -> evals cf n (num "39") s1 b s2 -> holds s2 (DInt 3) a -> holds s2 (DInt 39) b ->
  ~ comes_to cf s2 (outcome cf (S n) (bin (num "3") "**" (num "39")) s) (AVal (DInt (3 ^ 39))).
Proof.
  intros F P. split; [unfold is_int64; split; [discriminate|reflexivity]|]. intros n s a s1 b s2 E1 E2 V W C.
  assert (I3 : is_int64 3) by (unfold is_int64; lia). assert (I39 : is_int64 39) by (unfold is_int64; lia).
  pose proof (bin_scalar_comes_to cf F n OPow _ _ s a s1 b s2 (DInt 3) (DInt 39) _ E1 E2 V W (conj I3 (conj I39 eq_refl))) as Q.
  cbn [int_answer] in Q. unfold bin in C. change (lit "**") with (spelling OPow) in C. destruct (cf_pow cf 3 39) as [z|] eqn:Ez.
  - destruct Q as (r & x & t & Q & (c & Cc & Vc)), C as (r' & x' & t' & C & (c' & Cc' & Vc')). rewrite Q in C. injection C as <- _ <-. rewrite Cc in Cc'. injection Cc' as <-. rewrite Vc in Vc'.
    assert (z = 3 ^ 39)%Z by congruence. subst z. exact (pow3_no_double (P _ _ _ Ez)).
  - destruct C as (r' & x' & t' & C & _). cbn [comes_to] in Q. rewrite Q in C. discriminate.
Qed.
Theorem C40_power_refuted : forall H (cf : conf H), releases_own cf -> (forall x y z, cf_pow cf x y = Some z -> double_integer z) -> is_int64 (3 ^ 39) /\
  forall n s a s1 b s2, evals cf n (num "3") s a s1 -> evals cf n (num "39") s1 b s2 -> holds s2 (DInt 3) a -> holds s2 (DInt 39) b ->
  ~ comes_to cf s2 (outcome cf (S n) (bin (num "3") "**" (num "39")) s) (AVal (DInt (3 ^ 39))).
Proof. exact power_off. Qed.
Print Assumptions C40_power_refuted.
Example C40_power_case : exists a s1 b s2, evals demo 9 (num "3") start a s1 /\ evals demo 9 (num "39") s1 b s2 /\ holds s2 (DInt 3) a /\ holds s2 (DInt 39) b.
Proof. exists (value_of 9 (num "3") start), (after 9 (num "3") start), (value_of 9 (num "39") (after 9 (num "3") start)), (after 9 (num "39") (after 9 (num "3") start)).
  split; [ran|]. split; [ran|]. split; is_held. Qed.

(** ** C41: integer literals *)

Theorem C41_literal : forall H (cf : conf H) n l z s, l <> [] -> denotes l z -> comes_to cf s (outcome cf (S n) (ENum l) s) (fits z).
Proof. exact (@num_comes_to). Qed.
Print Assumptions C41_literal.
Example C41_case : denotes (lit "1_024") 1024 /\ fits 1024 = AVal (DInt 1024) /\ fits (2 ^ 63 - 1) = AVal (DInt (2 ^ 63 - 1)) /\ fits (2 ^ 63) = AOverflow.
Proof.
  split; [|repeat split; vm_compute; reflexivity].
  assert (D : forall c d, (0 <= d <= 9)%Z -> N_of_ascii c = Z.to_N (d + 48) -> digit c d) by (intros; split; auto).
  change 1024%Z with (10 * (10 * (10 * (10 * 0 + 1) + 0) + 2) + 4)%Z.
  change (lit "1_024") with (((((([] ++ ["1"%char]) ++ ["_"%char]) ++ ["0"%char]) ++ ["2"%char]) ++ ["4"%char])).
  repeat first [apply denotes_nil | apply denotes_underscore | apply denotes_digit; [|apply D; [lia|reflexivity]]].
Qed.

(** ** C42: operators

    Every operator of the grammar, on every two values: if there is a result or an error, it is the one [op_means] gives for that operator. Open: releasing the operands may be
    undefined behaviour (C50). For comparisons the maps in the values must have distinct keys (C37); for additions the strings must not contain NUL. *)
Theorem C42_operators_partial : forall H (cf : conf H), releases_own cf -> forall n o e1 e2 s a s1 b s2 v w,
  evals cf n e1 s a s1 -> evals cf n e2 s1 b s2 -> holds s2 v a -> holds s2 w b ->
  (o = OEq \/ o = ONe -> depth v < n /\ distinct v /\ distinct w) -> (o = OAdd -> text v /\ text w) -> (forall z, v = DInt z \/ w = DInt z -> is_int64 z) ->
  agrees cf s2 (outcome cf (S n) (EBin e1 (spelling o) e2) s) (op_means (cf_pow cf) o v w).
Proof. exact (@bin_agrees). Qed.
Print Assumptions C42_operators_partial.

(** On integers and booleans nothing is open: see also [C40_arithmetic_partial], [C40_unary]. *)
Theorem C42_scalar_operators : forall H (cf : conf H), releases_own cf -> forall n o e1 e2 s a s1 b s2 v w ans,
  evals cf n e1 s a s1 -> evals cf n e2 s1 b s2 -> holds s2 v a -> holds s2 w b ->
  match v, w with
  | DInt x, DInt y => is_int64 x /\ is_int64 y /\ ans = int_answer (cf_pow cf) o x y
  | DBool x, DBool y => ans = bool_answer o x y
  | _, _ => False
  end ->
  comes_to cf s2 (outcome cf (S n) (EBin e1 (spelling o) e2) s) ans.
Proof. exact (@bin_scalar_comes_to). Qed.
Print Assumptions C42_scalar_operators.
Example C42_case :
  let s1 := after 9 (str "ab") start in let s2 := after 9 (str "c") s1 in
  evals demo 9 (str "ab") start (value_of 9 (str "ab") start) s1 /\ evals demo 9 (str "c") s1 (value_of 9 (str "c") s1) s2 /\
  holds s2 (DStr (lit "ab")) (value_of 9 (str "ab") start) /\ holds s2 (DStr (lit "c")) (value_of 9 (str "c") s1) /\
  op_means (cf_pow demo) OAdd (DStr (lit "ab")) (DStr (lit "c")) (AVal (DStr (lit "abc"))) /\
  printed [SPrint (bin (str "ab") "+" (str "c")); SPrint (bin (num "3") "<=" (num "3")); SPrint (bin (num "3") "<" (num "3")); SPrint (bin (num "3") "**" (num "3")); SPrint (bin (num "3") "*" (num "3"))]
  = Some [lit "abc"; lit "true"; lit "false"; lit "27"; lit "9"].
Proof. cbv zeta. split; [ran|]. split; [ran|]. split; [is_held|]. split; [is_held|]. split; [reflexivity|vm_compute; reflexivity]. Qed.

(** ** C43: strings and vectors *)

Theorem C43_concatenation_partial : forall H (cf : conf H), releases_own cf -> forall n e1 e2 s a s1 b s2,
  evals cf n e1 s a s1 -> evals cf n e2 s1 b s2 ->
  (forall t u, holds s2 (DStr t) a -> holds s2 (DStr u) b -> nul_free t -> nul_free u ->
     agrees cf s2 (outcome cf (S n) (EBin e1 (lit "+") e2) s) (fun ans => ans = AVal (DStr (t ++ u)))) /\
  (forall l m, holds s2 (DVec l) a -> holds s2 (DVec m) b -> text (DVec l) -> text (DVec m) ->
     agrees cf s2 (outcome cf (S n) (EBin e1 (lit "+") e2) s) (fun ans => ans = AVal (DVec (l ++ m)))).
Proof.
  exact (fun H cf F n e1 e2 s a s1 b s2 E1 E2 => conj
    (fun t u V W T U => bin_agrees cf F n OAdd e1 e2 s a s1 b s2 (DStr t) (DStr u) E1 E2 V W ltac:(intros [Q|Q]; discriminate Q) (fun _ => conj T U) ltac:(intros z [Q|Q]; discriminate Q))
    (fun l m V W T U => bin_agrees cf F n OAdd e1 e2 s a s1 b s2 (DVec l) (DVec m) E1 E2 V W ltac:(intros [Q|Q]; discriminate Q) (fun _ => conj T U) ltac:(intros z [Q|Q]; discriminate Q))).
Qed.
Print Assumptions C43_concatenation_partial.

(** [len], [startswith], [endswith], called as members of any expression. *)
Theorem C43_members : forall H (cf : conf H) n e x args s a s1 v p m bs s2 ws ans,
  evals cf n e s a s1 -> holds s1 v a -> provides s1 (kind_of_data v) x p m -> evals_each cf (S n) args (held m s1) bs s2 ->
  holds s2 v a -> Forall2 (holds s2) ws bs -> ready s2 ->
  (exists c, nth_error (cells s2) m = Some c /\ c_val c = PFn (Fn (KPtm p) [] None None None)) ->
  member_answer p v ws = Some ans ->
  comes_to cf s2 (outcome cf (S (S n)) (ECall (EAccess e x) args) s) ans.
Proof. exact (@member_comes_to). Qed.
Print Assumptions C43_members.

(** Where the members are: a new engine has these. *)
Theorem C43_engine_provides : forall H paths (h : H), exists s, create paths h = Ret tt s /\ ready s /\
  (exists m, provides s TStr (lit "len") PtStrLen m) /\ (exists m, provides s TStr (lit "startswith") PtStartswith m) /\ (exists m, provides s TStr (lit "endswith") PtEndswith m) /\
  (exists m, provides s TVec (lit "len") PtVecLen m) /\ (exists m, provides s TVec (lit "map") PtMap m) /\ (exists m, provides s TVec (lit "where") PtWhere m).
Proof. exact (@engine_provides). Qed.
Print Assumptions C43_engine_provides.

Example C43_case :
  let s1 := after 9 (str "main.c") start in let s2 := after 10 (str ".c") (held 1 s1) in
  let a := value_of 9 (str "main.c") start in let b := value_of 10 (str ".c") (held 1 s1) in
  evals demo 9 (str "main.c") start a s1 /\ holds s1 (DStr (lit "main.c")) a /\ provides s1 TStr (lit "endswith") PtEndswith 1 /\
  evals_each demo 10 [str ".c"] (held 1 s1) [b] s2 /\ holds s2 (DStr (lit "main.c")) a /\ Forall2 (holds s2) [DStr (lit ".c")] [b] /\ ready s2 /\
  (exists c, nth_error (cells s2) 1 = Some c /\ c_val c = PFn (Fn (KPtm PtEndswith) [] None None None)) /\
  member_answer PtEndswith (DStr (lit "main.c")) [DStr (lit ".c")] = Some (AVal (DBool true)).
Proof.
  cbv zeta. split; [ran|]. split; [is_held|]. split.
  { split; [|eexists; split; [vm_compute; reflexivity|split; reflexivity]]. exists [(TStr, lit "len", 0)], [(TStr, lit "startswith", 2); (TVec, lit "len", 3); (TVec, lit "map", 4); (TVec, lit "where", 5)].
    split; [vm_compute; reflexivity|repeat constructor; discriminate]. }
  split; [econstructor; [ran|constructor]|]. split; [is_held|]. split; [constructor; [is_held|constructor]|].
  split; [split; [vm_compute; reflexivity|]; eexists _, _, _; repeat split; vm_compute; reflexivity|]. split; [eexists; split; vm_compute; reflexivity|vm_compute; reflexivity].
Qed.

(** ** C44: map and where

    If the call succeeds, [map] has called the function with each element once, in order, and its value is the vector of the results; [where] has called it with each
    element once, in order, up to the end of the vector, got booleans, and its value is the vector of copies of those it was true for. Conversely, if the calls succeed so does [map];
    and the first result that is no boolean makes [where] report an error, having let go of that result. Partial: results that are instances, and results that
    have been freed already (C50). *)
Theorem C44_map : forall H (cf : conf H) n e args s a s1 es0 m b s2 r y s',
  evals cf n e s a s1 -> (exists c, nth_error (cells s1) a = Some c /\ c_val c = PVec es0) -> provides s1 TVec (lit "map") PtMap m ->
  evals_each cf (S n) args (held m s1) [b] s2 -> b < length (cells s2) -> ready s2 ->
  (exists c, nth_error (cells s2) m = Some c /\ c_val c = PFn (Fn (KPtm PtMap) [] None None None)) ->
  forall es, (exists ca, nth_error (cells s2) a = Some ca /\ c_val ca = PVec es) ->
  outcome cf (S (S n)) (ECall (EAccess e (lit "map")) args) s = Ret (Some r, y) s' ->
  exists t0 ys t1, entered s2 t0 /\ applied cf n b a 0 (length es) t0 ys t1 /\ prints s' = prints t1 /\ host s' = host t1 /\
    (exists c, nth_error (cells s') r = Some c /\ c_val c = PVec ys) /\ (forall v d, holds t1 d v -> holds s' d v).
Proof. exact (@map_inv). Qed.
Print Assumptions C44_map.

Theorem C44_map_succeeds : forall H (cf : conf H), tame cf -> forall n e args s a s1 es0 m b s2 es fn,
  evals cf n e s a s1 -> (exists c, nth_error (cells s1) a = Some c /\ c_val c = PVec es0) -> provides s1 TVec (lit "map") PtMap m ->
  evals_each cf (S n) args (held m s1) [b] s2 -> ready s2 ->
  (exists c, nth_error (cells s2) m = Some c /\ c_val c = PFn (Fn (KPtm PtMap) [] None None None)) ->
  (exists ca, nth_error (cells s2) a = Some ca /\ c_val ca = PVec es) -> (exists cb, nth_error (cells s2) b = Some cb /\ c_val cb = PFn fn) ->
  exists t0, entered s2 t0 /\ forall ys t1, applied cf n b a 0 (length es) t0 ys t1 ->
    (exists c, nth_error (cells t1) m = Some c /\ c_val c = PFn (Fn (KPtm PtMap) [] None None None)) ->
    exists r x s', outcome cf (S (S n)) (ECall (EAccess e (lit "map")) args) s = Ret (Some r, x) s' /\
      (exists c, nth_error (cells s') r = Some c /\ c_val c = PVec ys) /\ (forall v d, holds t1 d v -> holds s' d v) /\ prints s' = prints t1.
Proof. exact (@map_total). Qed.
Print Assumptions C44_map_succeeds.

Theorem C44_where : forall H (cf : conf H) n e args s a s1 es0 m b s2 r y s',
  evals cf n e s a s1 -> (exists c, nth_error (cells s1) a = Some c /\ c_val c = PVec es0) -> provides s1 TVec (lit "where") PtWhere m ->
  evals_each cf (S n) args (held m s1) [b] s2 -> b < length (cells s2) -> ready s2 ->
  (exists c, nth_error (cells s2) m = Some c /\ c_val c = PFn (Fn (KPtm PtWhere) [] None None None)) ->
  forall es, (exists ca, nth_error (cells s2) a = Some ca /\ c_val ca = PVec es) ->
  outcome cf (S (S n)) (ECall (EAccess e (lit "where")) args) s = Ret (Some r, y) s' ->
  exists t0 zs t1, entered s2 t0 /\ selected cf n b a 0 t0 zs t1 /\ prints s' = prints t1 /\ host s' = host t1 /\
    (exists c, nth_error (cells s') r = Some c /\ c_val c = PVec zs) /\ (forall v d, holds t1 d v -> holds s' d v).
Proof. exact (@where_inv). Qed.
Print Assumptions C44_where.

Theorem C44_where_needs_booleans_partial : forall H (cf : conf H) n e args s a s1 es0 m b s2 es fn,
  evals cf n e s a s1 -> (exists c, nth_error (cells s1) a = Some c /\ c_val c = PVec es0) -> provides s1 TVec (lit "where") PtWhere m ->
  evals_each cf (S n) args (held m s1) [b] s2 -> ready s2 ->
  (exists c, nth_error (cells s2) m = Some c /\ c_val c = PFn (Fn (KPtm PtWhere) [] None None None)) ->
  (exists ca, nth_error (cells s2) a = Some ca /\ c_val ca = PVec es) -> (exists cb, nth_error (cells s2) b = Some cb /\ c_val cb = PFn fn) ->
  exists t0, entered s2 t0 /\
    (forall j t x y t' c, selecting cf n b a 0 t0 j t -> element t a j x -> calls cf n b x t y t' -> nth_error (cells t') y = Some c ->
      (forall d, c_val c <> PBool d) -> j < n -> forall t'', let_go (c_val c) t' t'' ->
      outcome cf (S (S n)) (ECall (EAccess e (lit "where")) args) s = reports cf (lit "'vec.where' expected 'fn' to return a boolean, got a " ++ type_str (c_val c)) t'').
Proof. exact (@where_call). Qed.
Print Assumptions C44_where_needs_booleans_partial.

Definition v44 : st unit := done [let_to "v" (EVec [num "3"; num "1"; num "2"])].
Definition double : expr := fn1 "x" (bin (id "x") "*" (num "2")).
Definition big : expr := fn1 "x" (bin (id "x") ">" (num "1")).
Example C44_case :
  let s1 := after 19 (id "v") v44 in let s2 := after 20 double (held 4 s1) in
  let a := value_of 19 (id "v") v44 in let b := value_of 20 double (held 4 s1) in
  evals demo 19 (id "v") v44 a s1 /\ (exists c es, nth_error (cells s1) a = Some c /\ c_val c = PVec es) /\ provides s1 TVec (lit "map") PtMap 4 /\
  evals_each demo 20 [double] (held 4 s1) [b] s2 /\ ready s2 /\ (exists c, nth_error (cells s2) 4 = Some c /\ c_val c = PFn (Fn (KPtm PtMap) [] None None None)) /\
  (exists c es, nth_error (cells s2) a = Some c /\ c_val c = PVec es) /\ (exists c f, nth_error (cells s2) b = Some c /\ c_val c = PFn f) /\
  (exists r x s', outcome demo 21 (method (id "v") "map" [double]) v44 = Ret (Some r, x) s') /\
  printed [let_to "v" (EVec [num "3"; num "1"; num "2"]); SPrint (method (id "v") "map" [double]); SPrint (method (id "v") "where" [big])] = Some [lit "[6, 2, 4]"; lit "[3, 2]"].
Proof.
  cbv zeta. split; [ran|]. split; [eexists _, _; split; vm_compute; reflexivity|]. split.
  { split; [|eexists; split; [vm_compute; reflexivity|split; reflexivity]]. exists [(TStr, lit "len", 0); (TStr, lit "endswith", 1); (TStr, lit "startswith", 2); (TVec, lit "len", 3)], [(TVec, lit "where", 5)].
    split; [vm_compute; reflexivity|repeat constructor; discriminate]. }
  split; [econstructor; [ran|constructor]|]. split; [split; [vm_compute; reflexivity|]; eexists _, _, _; repeat split; vm_compute; reflexivity|].
  split; [eexists; split; vm_compute; reflexivity|]. split; [eexists _, _; split; vm_compute; reflexivity|]. split; [eexists _, _; split; vm_compute; reflexivity|].
  split; [eexists _, _, _; vm_compute; reflexivity|vm_compute; reflexivity].
Qed.
Example C44_nonboolean_case :
  match run demo 30 [] tt [let_to "v" (EVec [num "3"]); SPrint (method (id "v") "where" [double])] with
  | Fail s => err s = Some (lit "demo:0:0: 'vec.where' expected 'fn' to return a boolean, got a integer")
  | _ => False
  end.
Proof. vm_compute. reflexivity. Qed.
Example C44_string_case :
  match run demo 30 [] tt [let_to "v" (EVec [num "3"]); SPrint (method (id "v") "where" [fn1 "x" (str "yes")])] with
  | Fail s => err s = Some (lit "demo:0:0: 'vec.where' expected 'fn' to return a boolean, got a string")
  | _ => False
  end.
Proof. vm_compute. reflexivity. Qed.

(** ** C51: the order of evaluation

    For every operator [op], whatever becomes of the value: if the expression succeeds, its left operand has been evaluated, then its right one, and after that nothing has been printed, no
    scope opened or closed and no variable changed. If it fails, the left operand failed; or it succeeded and the right one failed; or both succeeded and the operator reported
    an error. *)
Theorem C51_operands_in_order : forall H (cf : conf H), releases_own cf -> forall n d e1 op e2 s r s',
  r_eval (interp cf (S n)) d (EBin e1 op e2) s = Ret r s' ->
  exists a s1 b s2, evals cf n e1 s a s1 /\ evals cf n e2 s1 b s2 /\ still s2 s'.
Proof. exact (@bin_sequence). Qed.
Print Assumptions C51_operands_in_order.

Theorem C51_failures_in_order : forall H (cf : conf H), releases_own cf -> forall n d e1 op e2 s s',
  r_eval (interp cf (S n)) d (EBin e1 op e2) s = Fail s' ->
  outcome cf n e1 s = Fail s' \/
  exists a s1, evals cf n e1 s a s1 /\
    (outcome cf n e2 s1 = Fail s' \/
     exists b s2 t msg, evals cf n e2 s1 b s2 /\ still s2 t /\ reports (A := unit) cf msg t = Fail s').
Proof. exact (@bin_failure). Qed.
Print Assumptions C51_failures_in_order.

(** [say(x)] prints [x] and gives a boolean: both operands of [&&] and [||] show. *)
Definition say : stmt := SFun false (lit "say") [lit "x"] [SPrint (id "x"); SReturn (Some (id "x"))].
Definition said (b : bool) : expr := ECall (id "say") [EBool b].
Example C51_case :
  printed [say; SPrint (bin (said false) "&&" (said true)); SPrint (bin (said true) "||" (said false))]
  = Some [lit "false"; lit "true"; lit "false"; lit "true"; lit "false"; lit "true"].
Proof. vm_compute. reflexivity. Qed.
