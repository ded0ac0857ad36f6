(** * The installer of a build: install_cookie on what the build has. *)

From Coq Require Import ZArith Arith Ascii String Lia Bool List.
From Verif Require Import Base Deps FileSys Frugal FrugalProofs Vfs Install SpecInstall VfsProofs PathProofs InstallProofs InstallAll Build SpecBuild SpecHistory SpecFiles Plan SpecPlan SpecDeliver DeliverProofs Ground.
From Verif Require PropertiesInstall.
Import ListNotations.
Local Open Scope nat_scope.

Lemma fine_name_spec c : fine_name c = true <-> plain_name c /\ ~ In SLASH c /\ nul_free c.
Proof.
  unfold fine_name, plain_name, nul_free. rewrite !andb_true_iff, !negb_true_iff.
  assert (X : forall x, existsb (byte_eqb x) c = false <-> ~ In x c).
  { intro x. split.
    - intros E J. assert (Y : existsb (byte_eqb x) c = true) by (apply existsb_exists; exists x; split; [exact J|apply byte_eqb_refl]). congruence.
    - intros N. destruct (existsb (byte_eqb x) c) eqn:E; [|reflexivity]. apply existsb_exists in E as (y & J & Q). apply byte_eqb_eq in Q. subst. contradiction. }
  rewrite !X. assert (Y : forall d, bytes_eqb c d = false <-> c <> d).
  { intro d. split; intros H; [intros ->; rewrite bytes_eqb_refl in H; discriminate|]. destruct (bytes_eqb c d) eqn:Q; [|reflexivity]. apply bytes_eqb_eq in Q. contradiction. }
  rewrite !Y. assert (Z : is_nil c = false <-> c <> []) by (destruct c; cbn; intuition congruence). rewrite Z. tauto.
Qed.

Lemma spell_sep v : spell (strsep SLASH v) = v.
Proof.
  induction v as [|x v IH]; [reflexivity|]. cbn [strsep]. destruct (strsep_cons SLASH v) as (h & t & Q). destruct (byte_eqb x SLASH) eqn:X.
  - apply byte_eqb_eq in X. subst x. rewrite Q in *. cbn [spell app]. now rewrite <- IH.
  - rewrite Q in *. destruct t; cbn [spell app] in *; now rewrite <- IH.
Qed.
Lemma sep_spell cs : cs <> [] -> Forall (fun c => fine_name c = true) cs -> strsep SLASH (spell cs) = cs.
Proof.
  intros NE F. induction F as [|c cs Fc F IH]; [congruence|]. pose proof (proj1 (fine_name_spec c) Fc) as (_ & Ns & _).
  destruct cs as [|c' cs]; [now apply strsep_none|]. change (spell (c :: c' :: cs)) with (c ++ SLASH :: spell (c' :: cs)). rewrite strsep_here by exact Ns. rewrite IH by discriminate. reflexivity.
Qed.
Lemma neat_names v : neat v = true -> names v = strsep SLASH v /\ Forall (fun c => fine_name c = true) (names v) /\ names v <> [].
Proof.
  unfold neat, names. intro N. rewrite forallb_forall in N.
  assert (Q : filter (fun c => negb (is_nil c)) (strsep SLASH v) = strsep SLASH v).
  { clear -N. induction (strsep SLASH v) as [|c cs IH]; [reflexivity|]. cbn [filter]. destruct (fine_name_spec c) as [F _]. destruct (F (N c (or_introl eq_refl))) as ((NE & _) & _).
    destruct c; [congruence|]. cbn [is_nil negb]. f_equal. apply IH. intros x J. apply N. now right. }
  rewrite Q. split; [reflexivity|]. split; [apply Forall_forall; exact N|]. destruct (strsep_cons SLASH v) as (h & t & ->). discriminate.
Qed.
Lemma neat_nul v : neat v = true -> nul_free v.
Proof.
  intros N J. rewrite <- (spell_sep v) in J. unfold neat in N. rewrite forallb_forall in N. revert J N. generalize (strsep SLASH v). clear v.
  induction l as [|c cs IH]; intros J N; [destruct J|]. assert (F : nul_free c) by (apply (fine_name_spec c), N; now left).
  destruct cs as [|c' cs]; [exact (F J)|]. change (spell (c :: c' :: cs)) with (c ++ SLASH :: spell (c' :: cs)) in J.
  apply in_app_or in J as [J|[J|J]]; [exact (F J)|discriminate|]. apply IH; [exact J|]. intros x K. apply N. now right.
Qed.
Lemma neat_ordinary v : neat v = true -> ordinary v.
Proof.
  intro N. destruct (neat_names v N) as (Q & F & NE). unfold ordinary. split; [exact NE|]. split.
  { eapply Forall_impl; [|exact F]. intros c Fc. apply fine_name_spec in Fc as ((_ & A & B) & _). auto. }
  split; [|exact (neat_nul v N)].
  destruct (slash_end v) eqn:SE; [|reflexivity]. exfalso.
  assert (X : exists u, v = u ++ [SLASH]).
  { unfold slash_end in SE. destruct (rev v) as [|x r] eqn:R; [discriminate|]. apply byte_eqb_eq in SE. subst x. exists (rev r). rewrite <- (rev_involutive v), R. reflexivity. }
  destruct X as (u & ->). rewrite strsep_app in Q. rewrite Q in F. apply Forall_app in F as (_ & F). cbn in F. inversion F; discriminate.
Qed.

Lemma same_node_eq a b : same_node a b = true -> a = b.
Proof.
  destruct a as [[c t|t|c]|], b as [[c' t'|t'|c']|]; cbn; try discriminate; intro H; try reflexivity.
  - apply andb_prop in H as (A & B). apply bytes_eqb_eq in A. apply Z.eqb_eq in B. now subst.
  - apply Z.eqb_eq in H. now subst.
  - apply bytes_eqb_eq in H. now subst.
Qed.
Lemma same_node_refl a : same_node a a = true.
Proof. destruct a as [[c t|t|c]|]; cbn; rewrite ?bytes_eqb_refl, ?Z.eqb_refl; reflexivity. Qed.
Lemma as_node_no_link e : ~ is_link (as_node e).
Proof. intros [t Q]. destruct e; discriminate. Qed.

Section G.
Variables (S : sys) (out prefix : bytes) (O B P : loc) (base : vfs) (m : list (bytes * bytes)).
Hypothesis G : grounded S out prefix O B P base m.
Notation grown := (grown out prefix B P base).
Notation flattened := (flattened out prefix B P base m).
Notation inst := (ground_installer S out prefix O B P base m).
Notation goes := (map_goes out prefix m).
Notation under_prefix := (under_prefix prefix).
Notation product_path := (product_path out).
Notation cwd := (s_cwd S).

Lemma grown_under f l : below P l -> l <> P -> ~ is_link (grown f l) /\ grown nothing l = None.
Proof.
  intros [x ->] N. unfold Ground.grown. destruct (rel P (x ++ P)) as [r|] eqn:R.
  - apply rel_some in R. apply app_inv_tail in R. subst r. destruct x as [|c x]; [now destruct N|]. destruct (forallb fine_name (c :: x)); [|split; [intros [t Q]; discriminate|reflexivity]].
    split; [apply as_node_no_link|reflexivity].
  - apply rel_none in R. destruct R. apply below_app.
Qed.
Lemma grown_dest f v : neat v = true -> grown f (dest P v) = as_node (f (under_prefix v)).
Proof.
  intro N. destruct (neat_names v N) as (Q & F & NE). unfold Ground.grown, dest.
  assert (R : rel P (rev (names v) ++ P) = Some (rev (names v))) by now apply rel_some. rewrite R.
  destruct (rev (names v)) as [|c x] eqn:E; [exfalso; apply NE; rewrite <- (rev_involutive (names v)), E; reflexivity|]. rewrite <- E.
  assert (FB : forallb fine_name (rev (names v)) = true) by (apply forallb_forall; intros y J; apply in_rev in J; rewrite Forall_forall in F; auto).
  rewrite FB, rev_involutive, Q, spell_sep. reflexivity.
Qed.
Lemma grown_P f : grown f P = base P.
Proof.
  unfold Ground.grown. rewrite (proj2 (rel_some P P []) eq_refl). destruct (rel B P) as [r|] eqn:R; [|reflexivity].
  apply rel_some in R. destruct (gr_apart _ _ _ _ _ _ _ _ G) as (A & _). destruct A. now exists r.
Qed.
Lemma grown_B f : grown f B = base B.
Proof.
  unfold Ground.grown. rewrite (proj2 (rel_some B B []) eq_refl). destruct (rel P B) as [r|] eqn:R; [|reflexivity].
  apply rel_some in R. destruct (gr_apart _ _ _ _ _ _ _ _ G) as (_ & A). destruct A. now exists r.
Qed.
Lemma grown_product f c : fine_name c = true -> grown f (c :: B) = as_node (f (product_path c)).
Proof.
  intro F. unfold Ground.grown. rewrite (proj2 (rel_some B (c :: B) [c]) eq_refl), F. destruct (rel P (c :: B)) as [r|] eqn:R; [|reflexivity].
  apply rel_some in R. destruct r as [|x r]; [reflexivity|]. exfalso. cbn in R. injection R as _ R. apply (proj2 (gr_apart _ _ _ _ _ _ _ _ G)). now exists r.
Qed.
Lemma grown_more f q n : grown nothing q = Some n -> grown f q = Some n.
Proof.
  unfold Ground.grown. destruct (rel P q) as [[|x xs]|]; [| destruct (forallb fine_name (x :: xs)); discriminate|].
  all: destruct (rel B q) as [[|c [|? ?]]|]; auto; destruct (fine_name c); discriminate.
Qed.
Lemma hidden_more f ds q n : (forall d, In d ds -> below P d /\ d <> P) -> grown nothing q = Some n -> hide ds (grown f) q = Some n.
Proof.
  intros D Q. rewrite hide_out; [now apply grown_more|]. intros d J Bq. destruct (D d J) as (A & N).
  destruct (grown_under f q (below_trans _ _ _ A Bq)) as (_ & Z); [|congruence].
  intros ->. apply N. now apply below_antisym.
Qed.

Lemma under_dest k v : In (k, v) m -> below P (dest P v) /\ dest P v <> P.
Proof. intro J. destruct (neat_names v (gr_vals _ _ _ _ _ _ _ _ G k v J)) as (_ & _ & N). split; [apply dest_below|now apply dest_not]. Qed.

Lemma grown_tame f : tame cwd prefix P (grown f) m.
Proof.
  constructor.
  - eapply lookup_mono; [|exact (proj1 (gr_prefix _ _ _ _ _ _ _ _ G))]. intros q n Q. exists n. split; [|now left]. apply hidden_more; [|exact Q].
    intros d J. apply in_map_iff in J as ((k, v) & <- & J). exact (under_dest k v J).
  - rewrite grown_P. exact (proj2 (gr_prefix _ _ _ _ _ _ _ _ G)).
  - intros k v J. apply neat_ordinary. exact (gr_vals _ _ _ _ _ _ _ _ G k v J).
  - intros k v q J A _. destruct (list_eq_dec (list_eq_dec Ascii.ascii_dec) q P) as [->|N]; [|now apply grown_under].
    rewrite grown_P. destruct (gr_prefix _ _ _ _ _ _ _ _ G) as (_ & t & ->). intros [t' X]; discriminate.
  - intros k v q J A. destruct (under_dest k v J) as (D & N). apply grown_under; [eapply below_trans; eassumption|]. intros ->. apply N. now apply below_antisym.
  - exact (gr_dests _ _ _ _ _ _ _ _ G).
Qed.

Lemma starts_fine cs : Forall (fun c => fine_name c = true) cs -> Forall (fun ds => ds <> [] /\ Forall (fun c => fine_name c = true) ds) (starts cs).
Proof.
  induction 1 as [|c cs F _ IH]; cbn [starts]; constructor; [split; [discriminate|auto]|]. apply Forall_map. eapply Forall_impl; [|exact IH]. intros ds (_ & A). split; [discriminate|auto].
Qed.
Lemma starts_all cs : cs <> [] -> In cs (starts cs).
Proof. induction cs as [|c cs IH]; [congruence|]. intros _. cbn [starts]. destruct cs as [|c' cs]; [now left|]. right. apply in_map. apply IH. discriminate. Qed.
Lemma ways_fine : Forall (fun ds => ds <> [] /\ Forall (fun c => fine_name c = true) ds) (ways m).
Proof.
  apply Forall_forall. intros ds J. apply in_flat_map in J as ((k, v) & Jm & J). cbn [snd] in J.
  destruct (neat_names v (gr_vals _ _ _ _ _ _ _ _ G k v Jm)) as (_ & F & _). pose proof (starts_fine _ F) as A. rewrite Forall_forall in A. exact (A ds J).
Qed.
Definition cs_dec : forall a b : list bytes, {a = b} + {a <> b} := list_eq_dec (list_eq_dec Ascii.ascii_dec).
Lemma fold_there (f : fs) (v : vfs) cs0 : cs0 <> [] -> Forall (fun c => fine_name c = true) cs0 ->
  forall L g, Forall (fun ds => ds <> [] /\ Forall (fun c => fine_name c = true) ds) L ->
  fold_left (fun g cs => if same_node (v (rev cs ++ P)) (grown f (rev cs ++ P)) then g else fs_set g (under_prefix (spell cs)) (as_entry (v (rev cs ++ P)))) L g (under_prefix (spell cs0)) =
  if in_dec cs_dec cs0 L then (if same_node (v (rev cs0 ++ P)) (grown f (rev cs0 ++ P)) then g (under_prefix (spell cs0)) else as_entry (v (rev cs0 ++ P))) else g (under_prefix (spell cs0)).
Proof.
  intros NE F0. induction L as [|cs L IH]; intros g FL; cbn [fold_left]; [reflexivity|]. inversion FL as [|x xs (Nx & Fx) FL']; subst. rewrite IH by exact FL'. clear IH.
  destruct (list_eq_dec (list_eq_dec Ascii.ascii_dec) cs cs0) as [->|N].
  - destruct (in_dec cs_dec cs0 (cs0 :: L)) as [_|X]; [|destruct X; now left].
    destruct (same_node (v (rev cs0 ++ P)) (grown f (rev cs0 ++ P))) eqn:Q; [destruct (in_dec cs_dec cs0 L); reflexivity|].
    rewrite fs_set_same. destruct (in_dec cs_dec cs0 L); reflexivity.
  - assert (NP : under_prefix (spell cs) <> under_prefix (spell cs0)).
    { intro Q. unfold Ground.under_prefix in Q. apply app_inv_head in Q. injection Q as Q. apply N. rewrite <- (sep_spell cs), <- (sep_spell cs0), Q; auto. }
    assert (Q : (if same_node (v (rev cs ++ P)) (grown f (rev cs ++ P)) then g else fs_set g (under_prefix (spell cs)) (as_entry (v (rev cs ++ P)))) (under_prefix (spell cs0)) = g (under_prefix (spell cs0))).
    { destruct (same_node _ _); [reflexivity|]. apply fs_set_diff. auto. }
    rewrite !Q. destruct (in_dec cs_dec cs0 L) as [J|J], (in_dec cs_dec cs0 (cs :: L)) as [J'|J']; try reflexivity; [destruct J'; now right|destruct J' as [J'|J']; contradiction].
Qed.
Lemma flattened_dest f (v : vfs) k v0 : In (k, v0) m ->
  flattened f v (under_prefix v0) = if same_node (v (dest P v0)) (grown f (dest P v0)) then f (under_prefix v0) else as_entry (v (dest P v0)).
Proof.
  intros J. destruct (neat_names v0 (gr_vals _ _ _ _ _ _ _ _ G k v0 J)) as (Q & F & NE). unfold Ground.flattened, dest.
  assert (E : under_prefix v0 = under_prefix (spell (names v0))) by (rewrite Q, spell_sep; reflexivity). rewrite E.
  rewrite (fold_there f v (names v0) NE F (ways m) f ways_fine). destruct (in_dec cs_dec (names v0) (ways m)) as [_|X]; [reflexivity|].
  destruct X. apply in_flat_map. exists (k, v0). split; [exact J|]. now apply starts_all.
Qed.

(** Nothing but what is under the prefix. *)
Lemma inst_elsewhere o t f p : ~ prefix_area prefix p -> snd (inst o t f) p = f p.
Proof.
  intro N. unfold ground_installer. destruct (install_cookie _ _ _ _ _ _) as [(b, w)| | | |]; try reflexivity. cbn [snd]. unfold Ground.flattened.
  assert (X : forall L g, fold_left (fun g cs => if same_node (nodes w (rev cs ++ P)) (grown f (rev cs ++ P)) then g else fs_set g (under_prefix (spell cs)) (as_entry (nodes w (rev cs ++ P)))) L g p = g p).
  { induction L as [|cs L IH]; intro g; cbn [fold_left]; [reflexivity|]. rewrite IH. destruct (same_node _ _); [reflexivity|]. apply fs_set_diff. intro Q. apply N. now exists (spell cs). }
  apply X.
Qed.

Lemma goes_spec o d : goes o = Some d ->
  exists c v, o = product_path c /\ fine_name c = true /\ In (o, v) m /\ d = under_prefix v /\ find (fun e => same_name (fst e) o) m = Some (o, v).
Proof.
  unfold map_goes. destruct (is_prefix (product_path []) o) eqn:Q; [|discriminate]. cbn [andb]. apply is_prefix_app in Q as (c & Q).
  destruct (fine_name (skipn (length (product_path [])) o)) eqn:F; [|discriminate]. destruct (find _ m) as [(k, v)|] eqn:Fi; [|discriminate]. cbn. intro H. injection H as <-.
  destruct (find_some _ _ Fi) as (J & K). unfold same_name in K. cbn in K. apply bytes_eqb_eq in K.
  subst k. exists c, v. rewrite Q, skipn_app, skipn_all, Nat.sub_diag in F. cbn [app skipn] in F.
  split; [rewrite Q; unfold Ground.product_path; rewrite <- !app_assoc; reflexivity|]. auto.
Qed.

Lemma inst_spec o t f b f' : inst o t f = (b, f') ->
  (b = false /\ f' = f) \/ exists w, f' = flattened f (nodes w) /\
    install_cookie S (unparse O) {| i_map := Some m; i_prefix := Some prefix |} t {| nodes := grown f; chowned := []; copies := [] |} o = Ok (b, w).
Proof.
  unfold ground_installer. destruct (install_cookie _ _ _ _ _ _) as [(b', w)| | | |] eqn:Q; intro H; injection H as <- <-; auto. right. exists w. auto.
Qed.

(** Only the product's own destination. *)
Lemma inst_only o o' d t f : o <> o' -> goes o' = Some d -> snd (inst o t f) d = f d.
Proof.
  intros N Go. destruct (goes_spec o' d Go) as (c' & v' & _ & _ & J' & -> & _). pose proof (gr_vals _ _ _ _ _ _ _ _ G o' v' J') as Nv.
  destruct (inst o t f) as (b, f') eqn:I. cbn [snd]. destruct (inst_spec o t f b f' I) as [(_ & ->)|(w & -> & K)]; [reflexivity|].
  rewrite (flattened_dest f (nodes w) o' v' J'). enough (E : nodes w (dest P v') = grown f (dest P v')) by (rewrite E, same_node_refl; reflexivity).
  unfold install_cookie, cookie_to_output in K. cbn [i_map i_prefix] in K. destruct (find _ m) as [(k, v)|] eqn:Fi; [|injection K as _ <-; reflexivity].
  destruct (find_some _ _ Fi) as (J & Q). unfold same_name in Q. cbn in Q. apply bytes_eqb_eq in Q. subst k.
  assert (SV : cstr v = v) by (apply cstr_nul_free, neat_nul; exact (gr_vals _ _ _ _ _ _ _ _ G o v J)).
  pose proof (grown_tame f) as T.
  assert (CM : calm cwd prefix P (grown f) (cstr v)).
  { rewrite SV. eapply (tame_calm _ _ _ _ _ o v [] (grown f) T J); [intros ? []|intros ? []|apply changes_refl]. }
  pose proof (single_effect S (Some (unparse O)) (gr_tidy _ _ _ _ _ _ _ _ G) (unparse O) prefix t {| nodes := grown f; chowned := []; copies := [] |} P o v true b w CM K) as C. rewrite SV in C.
  apply (apart_same P [dest P v] (grown f) (nodes w) (dest P v') C); [|apply below_refl]. intros d' [<-|[]].
  clear - N J J' G. pose proof (gr_dests _ _ _ _ _ _ _ _ G) as A. unfold dests in A. clear G.
  induction m as [|e es IH]; [destruct J|]. cbn [map] in A. inversion A as [|x xs A1 A2]; subst. rewrite Forall_forall in A1.
  destruct J as [-> |J], J' as [J'|J'].
  - injection J' as -> _. now destruct N.
  - apply A1. apply in_map_iff. exists (o', v'). auto.
  - subst e. apply apart_sym. apply A1. apply in_map_iff. exists (o, v). auto.
  - auto.
Qed.

Lemma product_found f ds c keep : (forall d, In d ds -> below P d /\ d <> P) -> fine_name c = true -> (exists x t, f (product_path c) = File x t) ->
  lookup cwd (hide ds (grown f)) keep (product_path c) = WFound (c :: B).
Proof.
  intros D F (x & t & Q). pose proof (proj1 (fine_name_spec c) F) as (Pn & Ns & _).
  assert (LB : lookup cwd (hide ds (grown f)) false (out ++ lit "/bob") = WFound B).
  { eapply lookup_mono; [|exact (proj1 (gr_bob _ _ _ _ _ _ _ _ G))]. intros q n E. exists n. split; [|now left]. now apply hidden_more. }
  assert (NB : forall l, below B l -> forall d, In d ds -> ~ below d l).
  { intros l Bl d J Dl. destruct (D d J) as (A & _). pose proof (below_trans _ _ _ A Dl) as A'. destruct (gr_apart _ _ _ _ _ _ _ _ G) as (X & Y). destruct (below_two _ _ _ A' Bl); auto. }
  replace (product_path c) with ((out ++ lit "/bob") ++ SLASH :: c) by (unfold Ground.product_path; rewrite <- app_assoc; reflexivity).
  destruct (lookup_app (hide ds (grown f)) keep cwd _ c B LB) as (k & ->). rewrite (strsep_none SLASH c Ns). destruct (plain_name_tests c Pn) as (T1 & T2).
  destruct (gr_bob _ _ _ _ _ _ _ _ G) as (_ & tb & DB). rewrite walk_cons, hide_out by (apply NB, below_refl). rewrite grown_B, DB, T1, T2.
  rewrite hide_out by (apply NB; apply below_cons, below_refl). rewrite (grown_product f c F), Q. cbn [as_node]. rewrite walk_nil, hide_out by (apply NB; apply below_cons, below_refl).
  rewrite (grown_product f c F), Q. reflexivity.
Qed.

Lemma inst_copies o d t f f' c tau : goes o = Some d -> unaltered f o d -> f o = File c tau -> inst o t f = (true, f') -> exists tau', f' d = File c tau'.
Proof.
  intros Go (ND & U) Fo I. destruct (goes_spec o d Go) as (cn & v & -> & F & J & -> & Fi). pose proof (gr_vals _ _ _ _ _ _ _ _ G _ v J) as Nv.
  destruct (inst_spec _ t f true f' I) as [(X & _)|(w & -> & K)]; [discriminate|].
  pose proof (under_dest _ v J) as UD.
  assert (D1 : forall d, In d [dest P v] -> below P d /\ d <> P) by (intros d [<-|[]]; exact UD).
  pose proof (grown_product f cn F) as GP. rewrite Fo in GP. cbn [as_node] in GP. pose proof (grown_dest f v Nv) as GD.
  destruct (gr_keys _ _ _ _ _ _ _ _ G) as (NDk & NUL).
  assert (GO : Forall (fun c => c <> []) O /\ slash_free O).
  { pose proof (gr_O _ _ _ _ _ _ _ _ G) as H. split; (eapply Forall_impl; [|exact H]); cbn; tauto. }
  destruct GO as (O1 & O2).
  assert (FA : fair (grown f) (cn :: B) (dest P v)).
  { split.
    - unfold older, holds. rewrite GP, GD. destruct (f (under_prefix v)) as [|c' t'|t'|] eqn:Fd; cbn; try discriminate.
      + intro L. apply Z.ltb_ge in L. rewrite (U c tau c' t' Fo eq_refl L). reflexivity.
      + destruct (ND t'). reflexivity.
    - rewrite GP, GD. destruct (f (under_prefix v)) as [|c' t'|t'|] eqn:Fd; cbn; intros [x X]; try discriminate. destruct (ND t'). reflexivity. }
  assert (PR : product O (cn :: B)) by (apply below_cons; exact (gr_out _ _ _ _ _ _ _ _ G)).
  assert (NB : ~ below (cn :: B) (dest P v)).
  { intro X. destruct (gr_apart _ _ _ _ _ _ _ _ G) as (A1 & A2). destruct UD as (UD & _). destruct (below_two _ _ _ UD (below_trans _ _ _ (below_cons B cn B (below_refl B)) X)); auto. }
  assert (Ex : exists x t, f (product_path cn) = File x t) by eauto.
  destruct (PropertiesInstall.C32_product_copied_partial S O prefix P m t {| nodes := grown f; chowned := []; copies := [] |} w (product_path cn) v (cn :: B)
    (gr_tidy _ _ _ _ _ _ _ _ G) (gr_cwd _ _ _ _ _ _ _ _ G) O1 O2 (grown_tame f) NDk J (NUL _ _ J) (product_found f _ cn true D1 F Ex) (product_found f _ cn false D1 F Ex) PR NB FA K) as (H & _).
  unfold holds in H. cbn [nodes] in H. rewrite GP in H. rewrite (flattened_dest f (nodes w) _ v J).
  destruct (nodes w (dest P v)) as [[c' t'|t'|x]|] eqn:Q; try discriminate. cbn in H. injection H as ->.
  destruct (same_node (Some (VFile c t')) (grown f (dest P v))) eqn:E; [|exists t'; reflexivity].
  apply same_node_eq in E. rewrite GD in E. destruct (f (under_prefix v)) as [|c2 t2|t2|] eqn:Fd; try discriminate. injection E as -> ->. now exists t2.
Qed.
End G.

Theorem ground_delivers S out prefix O B P base m E : grounded S out prefix O B P base m -> installer E = ground_installer S out prefix O B P base m ->
  delivers E (map_goes out prefix m).
Proof.
  intros G Q. constructor; rewrite Q.
  - intros o d t f f' c tau. exact (inst_copies S out prefix O B P base m G o d t f f' c tau).
  - intros o o' d t f. exact (inst_only S out prefix O B P base m G o o' d t f).
Qed.


Lemma goes_in S out prefix O B P base m c v : grounded S out prefix O B P base m -> fine_name c = true -> In (product_path out c, v) m ->
  map_goes out prefix m (product_path out c) = Some (under_prefix prefix v).
Proof.
  intros G F J. unfold map_goes. replace (product_path out c) with (product_path out [] ++ c) at 1 2 by (unfold product_path; rewrite <- !app_assoc; reflexivity).
  rewrite (proj2 (is_prefix_app _ _)) by eauto. rewrite skipn_app, skipn_all, Nat.sub_diag. cbn [app skipn andb]. rewrite F.
  destruct (gr_keys _ _ _ _ _ _ _ _ G) as (ND & _). clear - ND J. induction m as [|(k, v') es IH]; [destruct J|]. cbn [find fst]. unfold same_name. cbn [map fst] in ND. inversion ND; subst.
  destruct J as [J|J].
  - injection J as -> ->. rewrite bytes_eqb_refl. reflexivity.
  - destruct (bytes_eqb k (product_path out c)) eqn:Q; [|now apply IH]. apply bytes_eqb_eq in Q. subst k. destruct H1. apply in_map_iff. now exists (product_path out c, v).
Qed.

Theorem ground_build sg out E srcs links rs w w' S prefix O B P base m :
  grounded S out prefix O B P base m -> installer E = ground_installer S out prefix O B P base m ->
  1 <= ncpus E -> monotone (clock E) -> (forall p, product_dir out p -> ~ prefix_area prefix p) ->
  (forall fl s f f', (forall p, source (product_dir out) (prefix_area prefix) p -> f p = f' p) -> cc_deps E fl s f = cc_deps E fl s f') ->
  (forall fl s f f', (forall p, source (product_dir out) (prefix_area prefix) p -> f p = f' p) -> cc_obj E fl s f = cc_obj E fl s f') ->
  well_named sg out E (prefix_area prefix) srcs links -> good_requests sg out (prefix_area prefix) srcs links rs ->
  (forall o, wanted_product sg out rs o -> awaiting (map_goes out prefix m) (clock E (tick w)) (files w) o) ->
  build sg out E rs w 0 w' ->
  forall c v, fine_name c = true -> wanted_product sg out rs (out ++ lit "/bob/" ++ c) -> In (out ++ lit "/bob/" ++ c, v) m ->
  exists x t t', files w' (out ++ lit "/bob/" ++ c) = File x t /\ files w' (prefix ++ lit "/" ++ v) = File x t'.
Proof.
  intros G Q N MO Ap Dp Ob WN GR Aw Bu c v F W J.
  assert (GE : good_env E (product_dir out) (prefix_area prefix)).
  { constructor; auto. intros o t f p Np. rewrite Q. now apply inst_elsewhere. }
  exact (build_delivers sg out E (prefix_area prefix) srcs links (map_goes out prefix m) rs w w' GE MO WN (ground_delivers _ _ _ _ _ _ _ _ _ G Q)
    (fun o d Go => ltac:(destruct (goes_spec out prefix m o d Go) as (c' & v' & _ & _ & _ & -> & _); now exists v')) GR Aw Bu _ W _ (goes_in _ _ _ _ _ _ _ _ _ _ G F J)).
Qed.
