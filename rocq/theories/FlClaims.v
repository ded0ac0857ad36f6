(** * The results about operators, indexing and members in the form the properties state them. *)

From Coq Require Import ZArith Arith Ascii String Lia Bool List Permutation.
From Verif Require Import Base FlAst FlState FlInterp FlMonad SpecFlamingo FlEqProofs SpecScript SpecFrame FlOpProofs FlExprProofs FlFrame FlBalance FlMemberProofs FlHigherProofs FlSeqProofs.
Import ListNotations.
Local Open Scope nat_scope.

Section Claims.
Context {H : Type}.
Variable cf : conf H.

Lemma agrees_impl (s : st H) o (P Q : answer -> Prop) : (forall a, P a -> Q a) -> agrees cf s o P -> agrees cf s o Q.
Proof.
  intro I. destruct o as [[[a|] x] s'|s'| |u|]; cbn; auto.
  - intros (v & A & B). eauto.
  - intros (m & A & B). eauto.
  - intros (m & A & B). eauto.
  - destruct u; auto.
Qed.

Lemma equal_agrees (F : releases_own cf) n e1 e2 s a s1 b s2 v w :
  evals cf n e1 s a s1 -> evals cf n e2 s1 b s2 -> holds s2 v a -> holds s2 w b ->
  depth v < n -> distinct v -> distinct w -> comparable v w -> (forall z, v = DInt z \/ w = DInt z -> is_int64 z) ->
  agrees cf s2 (outcome cf (S n) (EBin e1 (lit "==") e2) s) (says_same v w) /\
  agrees cf s2 (outcome cf (S n) (EBin e1 (lit "!=") e2) s) (says_different v w).
Proof.
  intros E1 E2 V W D D1 D2 C R. split.
  - eapply agrees_impl; [|apply (bin_agrees cf F n OEq e1 e2 s a s1 b s2 v w); auto; discriminate].
    intros ans. destruct v, w; cbn [comparable op_means] in *; try contradiction; auto; intros ->; cbn.
    + eexists; split; [reflexivity|]. rewrite Bool.eqb_true_iff. split; [intros ->; constructor|now inversion 1].
    + eexists; split; [reflexivity|]. rewrite Z.eqb_eq. split; [intros ->; constructor|now inversion 1].
  - eapply agrees_impl; [|apply (bin_agrees cf F n ONe e1 e2 s a s1 b s2 v w); auto; discriminate].
    intros ans. destruct v, w; cbn [comparable op_means] in *; try contradiction; auto; intros ->; cbn.
    + eexists; split; [reflexivity|]. rewrite negb_true_iff, Bool.eqb_false_iff. split; [intros N S'; apply N; now inversion S'|intros N ->; apply N; constructor].
    + eexists; split; [reflexivity|]. rewrite negb_true_iff, Z.eqb_neq. split; [intros N S'; apply N; now inversion S'|intros N ->; apply N; constructor].
Qed.

Lemma map_value_absent (l : list (data * data)) d : (forall k v, In (k, v) l -> ~ same k d) -> map_value l d DNone.
Proof. induction l as [|[k v] l IH]; intro N; [constructor|]. apply map_value_next; [eapply N; left; reflexivity|apply IH; intros k' v' I; eapply N; right; exact I]. Qed.
Lemma map_value_fun (l : list (data * data)) d v w : map_value l d v -> map_value l d w -> v = w.
Proof. intro A. revert w. induction A; intros w B; inversion B; subst; auto; contradiction. Qed.

(** What a map has been given as its value for a key is found under that key. *)
Lemma lookup_comes_to n e i s x s1 j s2 ds d :
  evals cf n e s x s1 -> (exists l, holds s1 (DMap l) x) -> evals cf n i s1 j s2 -> holds s2 (DMap ds) x -> distinct (DMap ds) ->
  (forall c kvs, nth_error (cells s2) x = Some c -> c_val c = PMap kvs -> Forall (fun kv => live s2 (snd kv)) kvs) ->
  Forall (fun kd => depth (fst kd) < n) ds -> holds s2 d j -> distinct d ->
  (forall k v, In (k, v) ds -> same k d -> comes_to cf s2 (outcome cf (S n) (EIndex e i) s) (AVal v)) /\
  ((forall k v, In (k, v) ds -> ~ same k d) -> comes_to cf s2 (outcome cf (S n) (EIndex e i) s) (AVal DNone)).
Proof.
  intros E L I Hx Dx Lv Dp J D. apply holds_map in Hx as (c & kvs & C & V & G). cbn [distinct] in Dx. destruct Dx as (O & Ds).
  assert (Ds' : Forall (fun kd => distinct (fst kd) /\ depth (fst kd) < n) ds).
  { clear - Ds Dp. induction ds as [|[k v] ds IH]; [constructor|]. inversion Dp; subst. destruct Ds as (D1 & D2 & D3). constructor; cbn; auto. }
  destruct (map_index_comes_to cf n e i s x s1 j s2 ds d kvs c E L I C V G (Lv _ _ C V) Ds' J D) as (v0 & M0 & Q). split.
  - intros k v In_ S'. rewrite (map_value_fun _ _ _ _ (map_value_unique ds O k v d In_ S') M0). exact Q.
  - intros N. rewrite (map_value_fun _ _ _ _ (map_value_absent ds d N) M0). exact Q.
Qed.

Lemma literal_makes n l s kvs s' : items cf n [] l s kvs s' -> exists a x s2, outcome cf (S n) (EMap l) s = Ret (Some a, x) s2 /\
  (exists c, nth_error (cells s2) a = Some c /\ c_val c = PMap kvs) /\ (forall v d, holds s' v d -> holds s2 v d).
Proof.
  intro I. destruct (map_literal cf n l s kvs s' I) as (a & x & s2 & O & K & C). exists a, x, s2. repeat split; auto. intros v d Hd. eapply holds_keeps; eauto.
Qed.
End Claims.

Lemma engine_provides H paths (h : H) : exists s, create paths h = Ret tt s /\ ready s /\
  (exists m, provides s TStr (lit "len") PtStrLen m) /\ (exists m, provides s TStr (lit "startswith") PtStartswith m) /\ (exists m, provides s TStr (lit "endswith") PtEndswith m) /\
  (exists m, provides s TVec (lit "len") PtVecLen m) /\ (exists m, provides s TVec (lit "map") PtMap m) /\ (exists m, provides s TVec (lit "where") PtWhere m).
Proof.
  eexists. split; [vm_compute; reflexivity|]. split; [split; [reflexivity|]; eexists _, _, _; split; [reflexivity|split; reflexivity]|].
  assert (G : forall s k x p m before after, members s = before ++ (k, x, m) :: after -> Forall (fun e => fst e <> (k, x)) before ->
    (exists c, nth_error (cells s) m = Some c /\ (0 < c_cnt c)%Z /\ c_val c = PFn (Fn (KPtm p) [] None None None)) -> exists m, @provides H s k x p m).
  { intros s k x p m before after E F C. exists m. split; eauto. }
  Ltac prov G m before := refine (G _ _ _ _ m before _ _ _ _);
    [reflexivity | repeat (constructor; [discriminate|]); constructor | eexists; split; [reflexivity|]; split; reflexivity].
  split; [prov G 0 (@nil (kind * bytes * addr))|].
  split; [prov G 2 [(TStr, lit "len", 0); (TStr, lit "endswith", 1)]|].
  split; [prov G 1 [(TStr, lit "len", 0)]|].
  split; [prov G 3 [(TStr, lit "len", 0); (TStr, lit "endswith", 1); (TStr, lit "startswith", 2)]|].
  split; [prov G 4 [(TStr, lit "len", 0); (TStr, lit "endswith", 1); (TStr, lit "startswith", 2); (TVec, lit "len", 3)]|].
  prov G 5 [(TStr, lit "len", 0); (TStr, lit "endswith", 1); (TStr, lit "startswith", 2); (TVec, lit "len", 3); (TVec, lit "map", 4)].
Qed.
