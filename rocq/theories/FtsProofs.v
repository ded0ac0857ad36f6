(** * What listing a directory gives. *)

From Coq Require Import ZArith Arith Ascii String Lia Bool List.
From Verif Require Import Base Deps FileSys Vfs SpecInstall VfsProofs Fts SpecList.
Import ListNotations.
Local Open Scope nat_scope.

(** The path of a directory, ready for a name. *)
Definition base (p : bytes) : bytes := match rev p with x :: _ => if byte_eqb x SLASH then p else p ++ [SLASH] | [] => p ++ [SLASH] end.
Lemma child_base p c : child p c = base p ++ c.
Proof.
  unfold child, base. destruct (rev p) as [|x r] eqn:R.
  - apply (f_equal (@rev _)) in R. rewrite rev_involutive in R. subst p. reflexivity.
  - destruct (byte_eqb x SLASH); [reflexivity|]. now rewrite <- app_assoc.
Qed.
Lemma base_length p : length p <= length (base p).
Proof. unfold base. destruct (rev p) as [|x r]; [|destruct (byte_eqb x SLASH)]; rewrite ?app_length; lia. Qed.
Definition plain_end (p : bytes) : Prop := base p = p ++ [SLASH].
Lemma child_plain p c : c <> [] -> ~ In SLASH c -> plain_end (child p c).
Proof.
  intros NE NS. rewrite child_base. unfold plain_end, base at 1. rewrite rev_app_distr. destruct (rev c) as [|x r] eqn:R.
  - apply (f_equal (@rev _)) in R. rewrite rev_involutive in R. now destruct NE.
  - cbn [app]. destruct (byte_eqb x SLASH) eqn:X; [|reflexivity]. apply byte_eqb_eq in X. subst x. destruct NS. apply in_rev. rewrite R. now left.
Qed.

Lemma paths_app k a b : paths_of k (a ++ b) = paths_of k a ++ paths_of k b.
Proof. unfold paths_of. now rewrite filter_app, map_app. Qed.
Lemma paths_one k i p : paths_of k [(i, p)] = if k i then [p] else [].
Proof. unfold paths_of. cbn. destruct (k i); reflexivity. Qed.
Lemma paths_cons k i p a : paths_of k ((i, p) :: a) = (if k i then [p] else []) ++ paths_of k a.
Proof. unfold paths_of. cbn. destruct (k i); reflexivity. Qed.

Lemma each_in g : forall cs es i q, each g cs = Some es -> In (i, q) es -> exists c ec, In c cs /\ g c = Some ec /\ In (i, q) ec.
Proof.
  induction cs as [|c cs IH]; intros es i q E J; cbn [each] in E; [injection E as <-; destruct J|].
  destruct (g c) as [a|] eqn:G; [|discriminate]. destruct (each g cs) as [b|]; [|discriminate]. injection E as <-. apply in_app_or in J as [J|J].
  - exists c, a. split; [now left|auto].
  - destruct (IH b i q eq_refl J) as (c' & ec & A & B & C). exists c', ec. split; [now right|auto].
Qed.
Lemma each_split g : forall cs es c, each g cs = Some es -> In c cs -> exists pre ec post, g c = Some ec /\ es = pre ++ ec ++ post.
Proof.
  induction cs as [|c0 cs IH]; intros es c E J; cbn [each] in E; [destruct J|].
  destruct (g c0) as [a|] eqn:G; [|discriminate]. destruct (each g cs) as [b|]; [|discriminate]. injection E as <-. destruct J as [<-|J].
  - exists [], a, b. auto.
  - destruct (IH b c eq_refl J) as (pre & ec & post & A & ->). exists (a ++ pre), ec, post. split; [exact A|]. now rewrite !app_assoc.
Qed.
Lemma each_total g cs : (forall c, In c cs -> exists ec, g c = Some ec) -> exists es, each g cs = Some es.
Proof.
  induction cs as [|c cs IH]; intro H; [eexists; reflexivity|]. destruct (H c (or_introl eq_refl)) as (ec & G). destruct IH as (es & E); [intros; apply H; now right|].
  exists (ec ++ es). cbn [each]. now rewrite G, E.
Qed.

Section P.
Variables (cwd : loc) (v : vfs) (entries : loc -> list bytes) (readable : loc -> bool) (dirs : list loc).
Hypothesis C : catalogued v entries dirs.
Notation fts := (fts cwd v entries readable).
Notation reached := (reached cwd v readable).
Notation lk := (lookup cwd v false).

Lemma existsb_loc l anc : existsb (loc_eqb l) anc = true <-> In l anc.
Proof.
  rewrite existsb_exists. split; [intros (x & J & Q); apply loc_eqb_eq in Q; now subst|]. intro J. exists l. split; [exact J|apply loc_eqb_refl].
Qed.

(** The ways a path is visited. *)
Inductive visit (n : nat) (anc : list loc) (p : bytes) : list (fts_info * bytes) -> Prop :=
| v_cycle l : lk p = WFound l -> is_directory (v l) -> In l anc -> visit n anc p [(FtsDC, p)]
| v_dir l es : lk p = WFound l -> is_directory (v l) -> ~ In l anc -> readable l = true -> each (fun c => fts n (l :: anc) (child p c)) (entries l) = Some es ->
    visit n anc p ((FtsD, p) :: es ++ [(FtsDP, p)])
| v_closed l : lk p = WFound l -> is_directory (v l) -> ~ In l anc -> readable l = false -> visit n anc p [(FtsD, p); (FtsDNR, p)]
| v_file l : lk p = WFound l -> ~ is_directory (v l) -> visit n anc p [(FtsF, p)]
| v_none i : (forall l, lk p <> WFound l) -> list_keeps i = false -> list_warns i = true -> visit n anc p [(i, p)].
Lemma fts_visit n anc p es : fts n anc p = Some es -> exists m, n = S m /\ visit m anc p es.
Proof.
  destruct n as [|n]; [discriminate|]. intro E. exists n. split; [reflexivity|]. cbn [Fts.fts] in E. destruct (lk p) as [l|l| |] eqn:L.
  - destruct (v l) as [[c t|t|tg]|] eqn:V; try (injection E as <-; eapply v_file; [exact L|intros [t' Q]; rewrite V in Q; discriminate]).
    assert (D : is_directory (v l)) by (exists t; exact V).
    destruct (existsb (loc_eqb l) anc) eqn:X; [injection E as <-; apply (v_cycle _ _ _ l); auto; now apply existsb_loc|].
    assert (N : ~ In l anc) by (intro J; apply existsb_loc in J; congruence).
    destruct (readable l) eqn:R; [|injection E as <-; now apply (v_closed _ _ _ l)].
    destruct (each _ (entries l)) as [es'|] eqn:Q; [|discriminate]. injection E as <-. now apply (v_dir _ _ _ l).
  - destruct (lookup cwd v true p); injection E as <-; (apply v_none; [intros l'; rewrite L; discriminate|reflexivity|reflexivity]).
  - destruct (lookup cwd v true p); injection E as <-; (apply v_none; [intros l'; rewrite L; discriminate|reflexivity|reflexivity]).
  - injection E as <-. apply v_none; [intros l'; rewrite L; discriminate|reflexivity|reflexivity].
Qed.

Lemma dir_entry l c : is_directory (v l) -> In c (entries l) -> v (c :: l) <> None.
Proof. intros D J. now apply (ca_names _ _ _ C l c D). Qed.

(** Everything said is so. *)
Lemma fts_sound p0 : forall n anc p es, fts n anc p = Some es -> (forall l, lk p = WFound l -> reached p0 anc l p) ->
  ((forall l, lk p <> WFound l) -> skipped cwd v readable p0 p) ->
  forall i q, In (i, q) es -> (list_keeps i = true -> contents cwd v readable p0 q) /\ (list_warns i = true -> skipped cwd v readable p0 q).
Proof.
  induction n as [|n IH]; intros anc p es E Re Sk i q J; [discriminate|]. destruct (fts_visit _ _ _ _ E) as (m & Q & V). injection Q as <-.
  destruct V as [l L D Ia|l es L D Na R Ee|l L D Na R|l L D|i' L K W].
  - destruct J as [J|[]]. injection J as <- <-. split; [|discriminate]. intros _. exists anc, l. auto.
  - destruct J as [J|J]; [injection J as <- <-; split; [|discriminate]; intros _; exists anc, l; auto|]. apply in_app_or in J as [J|[J|[]]]; [|injection J as <- <-; split; discriminate].
    destruct (each_in _ _ _ _ _ Ee J) as (c & ec & Jc & Ec & Ji). apply (IH (l :: anc) (child p c) ec Ec).
    + intros l' L'. apply reached_in; auto. now apply dir_entry.
    + intro N. eapply skipped_in; eauto. now apply dir_entry.
    + exact Ji.
  - destruct J as [J|[J|[]]]; injection J as <- <-; (split; [intro; try discriminate|intro; try discriminate]); [exists anc, l; auto|]. eapply skipped_directory; eauto.
  - destruct J as [J|[]]. injection J as <- <-. split; [|discriminate]. intros _. exists anc, l. auto.
  - destruct J as [J|[]]. injection J as <- <-. split; [congruence|]. intros _. apply Sk, L.
Qed.

(** Everything that is so is said. *)
Lemma fts_within p0 n0 es0 : fts n0 [] p0 = Some es0 -> forall anc l q, reached p0 anc l q ->
  lk q = WFound l /\ exists n es pre post, fts n anc q = Some es /\ es0 = pre ++ es ++ post.
Proof.
  intros E anc l q R. induction R as [l L|anc d q c l R (L & n & es & pre & post & Eq & Q) D Na Rd Nc Lc].
  - split; [exact L|]. exists n0, es0, [], []. rewrite app_nil_r. auto.
  - split; [exact Lc|]. destruct (fts_visit _ _ _ _ Eq) as (m & -> & V).
    inversion V as [l0 L0 D0 Ia|l0 es' L0 D0 Na0 R0 Ee|l0 L0 D0 Na0 R0|l0 L0 D0|i L0]; subst;
      try (rewrite L in L0; injection L0 as <-; first [contradiction|congruence]); [|destruct (L0 d L)].
    rewrite L in L0. injection L0 as <-.
    destruct (each_split _ _ _ c Ee) as (pre' & ec & post' & Ec & ->); [now apply (ca_names _ _ _ C d c D)|].
    exists m, ec, (pre ++ (FtsD, q) :: pre'), (post' ++ [(FtsDP, q)] ++ post). split; [exact Ec|]. repeat (cbn [app]; rewrite <- ?app_assoc). reflexivity.
Qed.
Lemma head_kept n anc q es l : fts n anc q = Some es -> lk q = WFound l -> exists i rest, es = (i, q) :: rest /\ list_keeps i = true.
Proof.
  intros E L. destruct (fts_visit _ _ _ _ E) as (m & _ & V). destruct V as [| | | |i N]; try (eexists; eexists; split; reflexivity). destruct (N l L).
Qed.
Lemma in_paths k es q : In q (paths_of k es) <-> exists i, In (i, q) es /\ k i = true.
Proof.
  unfold paths_of. rewrite in_map_iff. split.
  - intros ((i, q') & Q & J). cbn in Q. subst q'. apply filter_In in J as (J & K). eauto.
  - intros (i & J & K). exists (i, q). split; [reflexivity|]. apply filter_In. auto.
Qed.

Theorem listing_exact n p es : fts n [] p = Some es ->
  (forall q, In q (paths_of list_keeps es) <-> contents cwd v readable p q) /\ (forall q, In q (paths_of list_warns es) <-> skipped cwd v readable p q).
Proof.
  intro E.
  assert (S0 : forall i q, In (i, q) es -> (list_keeps i = true -> contents cwd v readable p q) /\ (list_warns i = true -> skipped cwd v readable p q)).
  { apply (fts_sound p n [] p es E); [apply reached_self|apply skipped_self]. }
  split; intro q; rewrite in_paths; split.
  - intros (i & J & K). now apply (S0 i q J).
  - intros (anc & l & R). destruct (fts_within p n es E anc l q R) as (L & m & eq & pre & post & Eq & ->). destruct (head_kept _ _ _ _ _ Eq L) as (i & rest & -> & K).
    exists i. split; [|exact K]. apply in_or_app. right. now left.
  - intros (i & J & K). now apply (S0 i q J).
  - intros [N|anc d q' c R D Na Rd Nc N|anc d q' R D Na Rd].
    + destruct (fts_visit _ _ _ _ E) as (m & _ & V). destruct V as [l L|l es' L|l L|l L|i L K W]; try (destruct (N l L)). exists i. split; [now left|exact W].
    + destruct (fts_within p n es E anc d q' R) as (L & m & eq & pre & post & Eq & ->). destruct (fts_visit _ _ _ _ Eq) as (m' & -> & V).
      inversion V as [l0 L0 D0 Ia|l0 es' L0 D0 Na0 R0 Ee|l0 L0 D0 Na0 R0|l0 L0 D0|i L0]; subst;
        try (rewrite L in L0; injection L0 as <-; first [contradiction|congruence]); [|destruct (L0 d L)].
      rewrite L in L0. injection L0 as <-. destruct (each_split _ _ _ c Ee) as (pre' & ec & post' & Ec & ->); [now apply (ca_names _ _ _ C d c D)|].
      destruct (fts_visit _ _ _ _ Ec) as (m2 & _ & V2). destruct V2 as [l L2|l es2 L2|l L2|l L2|i L2 K W]; try (destruct (N l L2)).
      exists i. split; [|exact W]. apply in_or_app. right. apply in_or_app. left. right. apply in_or_app. left. apply in_or_app. right. now left.
    + destruct (fts_within p n es E anc d q' R) as (L & m & eq & pre & post & Eq & ->). destruct (fts_visit _ _ _ _ Eq) as (m' & -> & V).
      inversion V as [l0 L0 D0 Ia|l0 es' L0 D0 Na0 R0 Ee|l0 L0 D0 Na0 R0|l0 L0 D0|i L0]; subst;
        try (rewrite L in L0; injection L0 as <-; first [contradiction|congruence]); [|destruct (L0 d L)].
      exists FtsDNR. split; [|reflexivity]. apply in_or_app. right. right. now left.
Qed.

(** A directory comes before what is in it. *)
Theorem listing_order n p es : fts n [] p = Some es -> forall anc d q c l, reached p anc d q -> is_directory (v d) -> ~ In d anc -> readable d = true -> v (c :: d) <> None ->
  lk (child q c) = WFound l -> comes_before (paths_of list_keeps es) q (child q c).
Proof.
  intros E anc d q c l R D Na Rd Nc Lc. destruct (fts_within p n es E anc d q R) as (L & m & eq & pre & post & Eq & ->). destruct (fts_visit _ _ _ _ Eq) as (m' & -> & V).
  inversion V as [l0 L0 D0 Ia|l0 es' L0 D0 Na0 R0 Ee|l0 L0 D0 Na0 R0|l0 L0 D0|i L0]; subst;
    try (rewrite L in L0; injection L0 as <-; first [contradiction|congruence]); [|destruct (L0 d L)].
  rewrite L in L0. injection L0 as <-. destruct (each_split _ _ _ c Ee) as (pre' & ec & post' & Ec & ->); [now apply (ca_names _ _ _ C d c D)|].
  destruct (head_kept _ _ _ _ _ Ec Lc) as (i & rest & -> & K). unfold comes_before.
  exists (paths_of list_keeps pre), (paths_of list_keeps pre'), (paths_of list_keeps (rest ++ post' ++ [(FtsDP, q)] ++ post)).
  rewrite <- !app_assoc. cbn [app]. rewrite paths_app, paths_cons. cbn [list_keeps app]. do 2 f_equal. rewrite <- !app_assoc, paths_app. f_equal. cbn [app]. rewrite paths_cons, K. cbn [app]. rewrite <- ?app_assoc. reflexivity.
Qed.

(** Nothing is listed twice. *)
Definition continues (r : bytes) : Prop := r = [] \/ exists r', r = SLASH :: r'.
Lemma same_name_start c c' r r' : ~ In SLASH c -> ~ In SLASH c' -> continues r -> continues r' -> c ++ r = c' ++ r' -> c = c'.
Proof.
  revert c'. induction c as [|x c IH]; intros [|y c'] N N' R R' Q; cbn in Q; auto.
  - destruct R as [->|(r2 & ->)]; [discriminate|]. injection Q as <- _. destruct N'. now left.
  - destruct R' as [->|(r2 & ->)]; [discriminate|]. injection Q as -> _. destruct N. now left.
  - injection Q as -> Q. f_equal. apply (IH c'); auto; intro J; [apply N|apply N']; now right.
Qed.
Definition inside_of (p q : bytes) : Prop := exists c r, c <> [] /\ ~ In SLASH c /\ continues r /\ q = base p ++ c ++ r.
Lemma fts_named : forall n anc p es, fts n anc p = Some es -> forall i q, In (i, q) es -> q = p \/ inside_of p q.
Proof.
  induction n as [|n IH]; intros anc p es E i q J; [discriminate|]. destruct (fts_visit _ _ _ _ E) as (m & Q & V). injection Q as <-.
  destruct V as [l L D Ia|l es L D Na R Ee|l L D Na R|l L D|i' L K W].
  1,3,4,5: cbn in J; left; destruct J as [J|J]; [now injection J as _ <-|]; first [destruct J as [J|[]]; now injection J as _ <-|destruct J].
  destruct J as [J|J]; [injection J as <- <-; now left|]. apply in_app_or in J as [J|[J|[]]]; [|injection J as <- <-; now left].
  right. destruct (each_in _ _ _ _ _ Ee J) as (c & ec & Jc & Ec & Ji). destruct (ca_plain _ _ _ C l c (dir_entry l c D Jc)) as (NE & NS & _).
  destruct (IH (l :: anc) (child p c) ec Ec i q Ji) as [->|(c' & r & NE' & NS' & Cr & ->)].
  - exists c, []. split; [exact NE|]. split; [exact NS|]. split; [now left|]. rewrite child_base, app_nil_r. reflexivity.
  - exists c, (SLASH :: c' ++ r). split; [exact NE|]. split; [exact NS|]. split; [right; eauto|].
    rewrite (child_plain p c NE NS), child_base, <- !app_assoc. reflexivity.
Qed.
Lemma block_start n anc p c es i q : c <> [] -> ~ In SLASH c -> fts n anc (child p c) = Some es -> In (i, q) es -> exists r, continues r /\ q = base p ++ c ++ r.
Proof.
  intros NE NS E J. destruct (fts_named n anc (child p c) es E i q J) as [->|(c' & r & _ & _ & _ & ->)].
  - exists []. split; [now left|]. rewrite child_base, app_nil_r. reflexivity.
  - exists (SLASH :: c' ++ r). split; [right; eauto|]. rewrite (child_plain p c NE NS), child_base, <- !app_assoc. reflexivity.
Qed.
Lemma nodup_app {A} (a b : list A) : NoDup a -> NoDup b -> (forall x, In x a -> ~ In x b) -> NoDup (a ++ b).
Proof.
  induction 1 as [|x a Nx Na IH]; intros Nb D; [exact Nb|]. cbn. constructor.
  - intro J. apply in_app_or in J as [J|J]; [contradiction|]. exact (D x (or_introl eq_refl) J).
  - apply IH; [exact Nb|]. intros y J. apply D. now right.
Qed.
Theorem listing_once : forall n anc p es, fts n anc p = Some es -> NoDup (paths_of list_keeps es).
Proof.
  induction n as [|n IH]; intros anc p es E; [discriminate|]. destruct (fts_visit _ _ _ _ E) as (m & Q & V). injection Q as <-.
  destruct V as [l L D Ia|l es L D Na R Ee|l L D Na R|l L D|i' L K W].
  1,3,4: (rewrite ?paths_cons; cbn; repeat constructor; auto).
  2: rewrite paths_one, K; constructor.
  rewrite paths_cons, paths_app, paths_one. cbn [list_keeps app]. rewrite app_nil_r. constructor.
  - intro J. apply in_paths in J as (i & J & _). destruct (each_in _ _ _ _ _ Ee J) as (c & ec & Jc & Ec & Ji). destruct (ca_plain _ _ _ C l c (dir_entry l c D Jc)) as (NE & NS & _).
    destruct (block_start _ _ _ _ _ _ _ NE NS Ec Ji) as (r & _ & Q). apply (f_equal (@length _)) in Q. rewrite !app_length in Q. pose proof (base_length p). destruct c; [congruence|]. cbn in Q. lia.
  - assert (Pl : forall c, In c (entries l) -> c <> [] /\ ~ In SLASH c) by (intros c Jc; destruct (ca_plain _ _ _ C l c (dir_entry l c D Jc)) as (X & Y & _); auto).
    pose proof (ca_once _ _ _ C l D) as ND. clear - Ee ND Pl IH C. revert es Ee. induction (entries l) as [|c cs IHc]; intros es Ee; cbn [each] in Ee; [injection Ee as <-; constructor|].
    destruct (fts n (l :: anc) (child p c)) as [a|] eqn:Ga; [|discriminate]. destruct (each (fun c => fts n (l :: anc) (child p c)) cs) as [b|] eqn:Gb; [|discriminate]. injection Ee as <-.
    rewrite paths_app. inversion ND as [|x xs Nx ND']; subst. apply nodup_app; [exact (IH _ _ _ Ga)|apply IHc; auto; intros; apply Pl; now right|].
    intros q Ja Jb. apply in_paths in Ja as (i & Ja & _). apply in_paths in Jb as (i' & Jb & _). destruct (each_in _ _ _ _ _ Gb Jb) as (c' & ec & Jc' & Ec & Ji).
    destruct (Pl c (or_introl eq_refl)) as (NE & NS). destruct (Pl c' (or_intror Jc')) as (NE' & NS').
    destruct (block_start _ _ _ _ _ _ _ NE NS Ga Ja) as (r & Cr & Q). destruct (block_start _ _ _ _ _ _ _ NE' NS' Ec Ji) as (r' & Cr' & Q').
    rewrite Q in Q'. apply app_inv_head in Q'. rewrite (same_name_start c c' r r' NS NS' Cr Cr' Q') in Nx. contradiction.
Qed.

(** It comes to an end. *)
Theorem listing_total : forall n anc p, NoDup anc -> (forall d, In d anc -> is_directory (v d)) -> length dirs < n + length anc -> exists es, fts n anc p = Some es.
Proof.
  induction n as [|n IH]; intros anc p ND Di Le.
  - exfalso. assert (X : length anc <= length dirs) by (apply NoDup_incl_length; [exact ND|]; intros d J; apply (ca_dirs _ _ _ C), Di, J). cbn in Le. lia.
  - cbn [Fts.fts]. destruct (lk p) as [l|l| |]; [|destruct (lookup cwd v true p); eexists; reflexivity|destruct (lookup cwd v true p); eexists; reflexivity|eexists; reflexivity].
    destruct (v l) as [[c t|t|tg]|] eqn:V; try (eexists; reflexivity). destruct (existsb (loc_eqb l) anc) eqn:X; [eexists; reflexivity|]. destruct (readable l); [|eexists; reflexivity].
    destruct (each_total (fun c => fts n (l :: anc) (child p c)) (entries l)) as (es & ->); [|eexists; reflexivity]. intros c _. apply IH.
    + constructor; [|exact ND]. intro J. apply existsb_loc in J. congruence.
    + intros d [<-|J]; [exists t; exact V|auto].
    + cbn [length]. lia.
Qed.

Lemma contents_nul p q : nul_free p -> contents cwd v readable p q -> nul_free q.
Proof.
  intros N (anc & l & R). induction R as [l L|anc d q c l R IH D Na Rd Nc Lc]; [exact N|]. destruct (ca_plain _ _ _ C d c Nc) as (_ & _ & Nn).
  rewrite child_base. intro J. apply in_app_or in J as [J|J]; [|exact (Nn J)]. unfold base in J. destruct (rev q) as [|x r]; [|destruct (byte_eqb x SLASH); [exact (IH J)|]];
    (apply in_app_or in J as [J|[J|[]]]; [exact (IH J)|discriminate]).
Qed.
Lemma listing_nul n p es : nul_free p -> fts n [] p = Some es -> map cstr (paths_of list_keeps es) = paths_of list_keeps es.
Proof.
  intros N E. rewrite <- (map_id (paths_of list_keeps es)) at 2. apply map_ext_in. intros q J. apply cstr_nul_free. apply (contents_nul p q N). now apply (proj1 (listing_exact n p es E)).
Qed.
End P.

(** ** In a script *)
From Verif Require Import FlAst FlState FlInterp SpecFlamingo SpecScript SpecFrame SpecScope Bob SpecBob BobProofs BobCallProofs BobInstanceProofs BobFailProofs.

Theorem fs_list_lists cwd v entries readable dirs sg out pow exists_ files : catalogued v entries dirs ->
  let cf := bob_conf sg out (fs_listing cwd v entries readable (S (length dirs))) pow exists_ files in
  forall n e s k s1 x ps f p arg a s2 path, cur_rv s = None -> evals cf n e s k s1 -> static_method s1 k x ps f -> live s1 f ->
  evals cf (S n) arg (held f s1) a s2 -> static_method s2 k x [p] f -> known_as s2 CFs k -> b_list (host s2) = Some f ->
  holds s2 (DStr path) a -> cstr path <> [] ->
  exists r s' l w, outcome cf (S (S n)) (method_call e x [arg]) s = Ret (Some r, None) s' /\ strings s' r l /\ live s' r /\ asked_for [] s2 s' /\
    NoDup l /\ (forall q, In q l <-> contents cwd v readable (cstr path) q) /\
    (forall anc d q c m, reached cwd v readable (cstr path) anc d q -> is_directory (v d) -> ~ In d anc -> readable d = true -> v (c :: d) <> None ->
      lookup cwd v false (child q c) = WFound m -> comes_before l q (child q c)) /\
    fs_warnings cwd v entries readable (S (length dirs)) (cstr path) = Some w /\ (forall q, In q w <-> skipped cwd v readable (cstr path) q).
Proof.
  intros C cf n e s k s1 x ps f p arg a s2 path RV E1 M1 L1 E2 M2 KA BL Ho NE.
  destruct (listing_total cwd v entries readable dirs C (S (length dirs)) [] (cstr path) (NoDup_nil _)) as (es & E); [intros ? []|cbn; lia|].
  assert (LE : fs_listing cwd v entries readable (S (length dirs)) (cstr path) = Some (paths_of list_keeps es)).
  { unfold fs_listing. destruct (cstr path); [congruence|]. now rewrite E. }
  assert (WE : fs_warnings cwd v entries readable (S (length dirs)) (cstr path) = Some (paths_of list_warns es)).
  { unfold fs_warnings. destruct (cstr path); [congruence|]. now rewrite E. }
  destruct (lists sg out (fs_listing cwd v entries readable (S (length dirs))) pow exists_ files n e s k s1 x ps f p arg a s2 path _ RV E1 M1 L1 E2 M2 KA BL Ho LE) as (r & s' & O & St & Li & As).
  destruct (listing_exact cwd v entries readable dirs C _ _ _ E) as (X & Y).
  exists r, s', (paths_of list_keeps es), (paths_of list_warns es). split; [exact O|]. split; [rewrite (listing_nul cwd v entries readable dirs C _ _ _ (cstr_is_nul_free path) E) in St; exact St|].
  split; [exact Li|]. split; [exact As|]. split; [exact (listing_once cwd v entries readable dirs C _ _ _ _ E)|]. split; [exact X|].
  split; [exact (listing_order cwd v entries readable dirs C _ _ _ E)|]. split; [exact WE|exact Y].
Qed.
