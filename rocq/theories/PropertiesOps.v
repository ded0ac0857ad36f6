(** * C42, C43: operators on ordinary values always come to something. *)

From Coq Require Import ZArith Arith Ascii String Lia Bool List.
From Verif Require Import Base FlAst FlState FlInterp FlMonad SpecFlamingo SpecScript SpecFrame SpecOps FlTotalProofs PropertiesScript.
Import ListNotations.
Local Open Scope nat_scope.

(** Every operator on every two values that are neither functions nor instances has the outcome the language gives it, if the engine can
    let go of the operands: a value, an error message or an overflow, and nothing else. *)
Theorem C42_ordinary_operators : forall H (cf : conf H), releases_own cf -> forall n o e1 e2 s a s1 b s2 v w,
  evals cf n e1 s a s1 -> evals cf n e2 s1 b s2 -> holds s2 v a -> holds s2 w b -> ordinary v -> ordinary w -> separate s2 a b ->
  (o = OEq \/ o = ONe -> depth v < n /\ distinct v /\ distinct w) ->
  (o = OAdd -> (text v /\ text w) /\ element_names_kept s2 a /\ element_names_kept s2 b) ->
  (forall z, v = DInt z \/ w = DInt z -> is_int64 z) ->
  exists ans, op_means (cf_pow cf) o v w ans /\ comes_to cf s2 (outcome cf (S n) (EBin e1 (spelling o) e2) s) ans.
Proof. exact (@bin_ordinary_comes_to). Qed.
Print Assumptions C42_ordinary_operators.

(** Concatenation. *)
Theorem C43_concatenation : forall H (cf : conf H), releases_own cf -> forall n e1 e2 s a s1 b s2,
  evals cf n e1 s a s1 -> evals cf n e2 s1 b s2 -> separate s2 a b -> element_names_kept s2 a -> element_names_kept s2 b ->
  (forall t u, holds s2 (DStr t) a -> holds s2 (DStr u) b -> nul_free t -> nul_free u ->
     comes_to cf s2 (outcome cf (S n) (EBin e1 (lit "+") e2) s) (AVal (DStr (t ++ u)))) /\
  (forall l m, holds s2 (DVec l) a -> holds s2 (DVec m) b -> text (DVec l) -> text (DVec m) ->
     comes_to cf s2 (outcome cf (S n) (EBin e1 (lit "+") e2) s) (AVal (DVec (l ++ m)))).
Proof. exact (@concat_comes_to). Qed.
Print Assumptions C43_concatenation.

Example C42_ordinary_case :
  let s1 := after 9 (str "ab") start in let s2 := after 9 (str "c") s1 in
  let a := value_of 9 (str "ab") start in let b := value_of 9 (str "c") s1 in
  releases_own demo /\ evals demo 9 (str "ab") start a s1 /\ evals demo 9 (str "c") s1 b s2 /\
  holds s2 (DStr (lit "ab")) a /\ holds s2 (DStr (lit "c")) b /\ separate s2 a b /\ element_names_kept s2 a /\ element_names_kept s2 b.
Proof.
  cbv zeta. split; [exact demo_releases|]. split; [ran|]. split; [ran|]. split; [is_held|]. split; [is_held|]. split; [|split].
  - intros ca cb b1 n1 b2 n2 Ea Eb Va Vb. vm_compute in Ea, Eb. injection Ea as <-. injection Eb as <-. cbn in Va, Vb. injection Va as <- _. injection Vb as <- _.
    split; intro Q; [vm_compute in Q; discriminate Q|discriminate].
  - intros c E. vm_compute in E. injection E as <-. split; intros; discriminate.
  - intros c E. vm_compute in E. injection E as <-. split; intros; discriminate.
Qed.

(** A variable added to itself: one value, with two holders besides the variable. *)
Example C42_twice_case :
  let s0 := done [let_to "x" (str "ab")] in
  let s1 := after 9 (id "x") s0 in let s2 := after 9 (id "x") s1 in
  let a := value_of 9 (id "x") s0 in let b := value_of 9 (id "x") s1 in
  evals demo 9 (id "x") s0 a s1 /\ evals demo 9 (id "x") s1 b s2 /\ a = b /\ holds s2 (DStr (lit "ab")) a /\ separate s2 a b.
Proof.
  cbv zeta. split; [ran|]. split; [ran|]. split; [vm_compute; reflexivity|]. split; [is_held|].
  intros ca cb b1 n1 b2 n2 Ea Eb Va Vb. vm_compute in Ea, Eb. injection Ea as <-. injection Eb as <-. split; intro Q; [cbn; lia|]. destruct Q. vm_compute. reflexivity.
Qed.

(** Vectors whose elements have names. *)
Example C43_vector_case :
  let s0 := done [let_to "x" (str "ab")] in
  let s1 := after 9 (EVec [id "x"]) s0 in let s2 := after 9 (EVec [str "c"; id "x"]) s1 in
  let a := value_of 9 (EVec [id "x"]) s0 in let b := value_of 9 (EVec [str "c"; id "x"]) s1 in
  evals demo 9 (EVec [id "x"]) s0 a s1 /\ evals demo 9 (EVec [str "c"; id "x"]) s1 b s2 /\
  holds s2 (DVec [DStr (lit "ab")]) a /\ holds s2 (DVec [DStr (lit "c"); DStr (lit "ab")]) b /\ separate s2 a b /\ element_names_kept s2 a /\ element_names_kept s2 b.
Proof.
  cbv zeta. split; [ran|]. split; [ran|]. split; [is_held|]. split; [is_held|]. split; [|split].
  - intros ca cb b1 n1 b2 n2 Ea Eb Va Vb. vm_compute in Ea. injection Ea as <-. discriminate Va.
  - intros c E. vm_compute in E. injection E as <-. split; [intros es e Q|discriminate]. cbn in Q. injection Q as <-.
    intros In0 c i x Ec Nc. cbn in In0. repeat (destruct In0 as [<-|In0]; [vm_compute in Ec; injection Ec as <-; cbn in Nc; try discriminate Nc; injection Nc as <- _; eexists; split; vm_compute; reflexivity|]). destruct In0.
  - intros c E. vm_compute in E. injection E as <-. split; [intros es e Q|discriminate]. cbn in Q. injection Q as <-.
    intros In0 c i x Ec Nc. cbn in In0. repeat (destruct In0 as [<-|In0]; [vm_compute in Ec; injection Ec as <-; cbn in Nc; try discriminate Nc; injection Nc as <- _; eexists; split; vm_compute; reflexivity|]). destruct In0.
Qed.
