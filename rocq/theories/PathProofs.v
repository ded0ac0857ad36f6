(** * Paths as text: names, dirname, and textual prefixes of absolute paths. *)

From Coq Require Import ZArith Ascii String Lia Bool List.
From Verif Require Import Base Deps FileSys FrugalProofs Vfs Install SpecInstall VfsProofs.
Import ListNotations.

(** ** Names *)

Lemma names_app a b : names (a ++ SLASH :: b) = names a ++ names b.
Proof. unfold names. rewrite strsep_app. apply filter_app. Qed.
Lemma names_one c : ~ In SLASH c -> names c = if is_nil c then [] else [c].
Proof. intros H. unfold names. rewrite strsep_none by auto. cbn. destruct c; reflexivity. Qed.

Lemma names_slashes a b : forallb is_slash a = true -> names (a ++ b) = names b.
Proof.
  induction a as [|x a IH]; cbn; auto. intros H. apply andb_true_iff in H as [X H]. unfold is_slash in X. apply byte_eqb_eq in X. subst x.
  rewrite <- IH by auto. exact (names_app [] (a ++ b)).
Qed.
Lemma names_slashes_end a b : forallb is_slash b = true -> names (a ++ b) = names a.
Proof.
  revert a. induction b as [|x b IH]; intros a; cbn; [now rewrite app_nil_r|]. intros H. apply andb_true_iff in H as [X H].
  unfold is_slash in X. apply byte_eqb_eq in X. subst x. rewrite names_app.
  specialize (IH [] H). change (names b = []) in IH. rewrite IH. apply app_nil_r.
Qed.

Lemma drop_while_spec g s : exists pre, s = pre ++ drop_while g s /\ forallb g pre = true /\
  match drop_while g s with [] => True | x :: _ => g x = false end.
Proof.
  induction s as [|x s (pre & E & F & G)]; cbn; [now exists []|].
  destruct (g x) eqn:X; [|exists []; auto]. exists (x :: pre). cbn. rewrite X, <- E. auto.
Qed.

Lemma forallb_rev {A} (g : A -> bool) l : forallb g (rev l) = forallb g l.
Proof.
  induction l as [|x l IH]; cbn; auto. rewrite forallb_app, IH. cbn. rewrite andb_true_r. apply andb_comm.
Qed.

Lemma not_slash_rev l : forallb (fun x => negb (is_slash x)) l = true -> ~ In SLASH (rev l).
Proof.
  intros H I. apply in_rev in I. rewrite forallb_forall in H. apply H in I. unfold is_slash in I. now rewrite byte_eqb_refl in I.
Qed.

(** The names before the last one; a lone "." when there is no directory part at all. *)
Lemma names_dirname v : names v <> [] ->
  names (dirname v) = removelast (names v) \/ (names (dirname v) = [dot] /\ removelast (names v) = []).
Proof.
  intros N. unfold dirname.
  destruct (drop_while_spec is_slash (rev v)) as (sl & E1 & F1 & G1). set (r := drop_while is_slash (rev v)) in *.
  destruct (drop_while_spec (fun x => negb (is_slash x)) r) as (nm & E2 & F2 & G2). set (r2 := drop_while (fun x => negb (is_slash x)) r) in *.
  destruct (drop_while_spec is_slash r2) as (sl2 & E3 & F3 & G3). set (r3 := drop_while is_slash r2) in *.
  assert (V : v = rev r ++ rev sl) by (rewrite <- rev_app_distr, <- E1, rev_involutive; reflexivity).
  assert (NV : names v = names (rev r)) by (rewrite V; apply names_slashes_end; now rewrite forallb_rev).
  assert (NM : ~ In SLASH (rev nm)) by now apply not_slash_rev.
  destruct v as [|x v']; [contradiction|]. rewrite NV in N |- *.
  destruct r as [|y r'] eqn:R; [contradiction|].
  assert (NMne : nm <> []). { intros ->. clearbody r2. change (y :: r' = r2) in E2. rewrite <- E2 in G2. cbn in G2. rewrite G1 in G2. discriminate. }
  destruct r2 as [|z r2'] eqn:R2.
  - right. split; [reflexivity|]. rewrite app_nil_r in E2. rewrite E2, names_one by auto.
    destruct (is_nil (rev nm)); reflexivity.
  - left. assert (Z : z = SLASH). { unfold is_slash in G2. apply negb_false_iff, byte_eqb_eq in G2. auto. }
    assert (NR : names (rev (y :: r')) = names (rev r2') ++ [rev nm]).
    { rewrite E2, Z, rev_app_distr. cbn [rev]. rewrite <- app_assoc. cbn [app]. rewrite names_app, (names_one (rev nm)) by auto.
      destruct (rev nm) eqn:Q; [|reflexivity]. apply (f_equal (@rev _)) in Q. rewrite rev_involutive in Q. contradiction. }
    rewrite NR, removelast_last.
    assert (NR3 : names (rev r3) = names (rev r2')).
    { apply (f_equal (@rev _)) in E3. rewrite rev_app_distr in E3. cbn [rev] in E3. rewrite Z in E3.
      assert (A : names (rev r2' ++ [SLASH]) = names (rev r2')) by now apply names_slashes_end.
      rewrite <- A, E3. symmetry. apply names_slashes_end. now rewrite forallb_rev. }
    destruct r3 as [|a r3'] eqn:R3; rewrite <- NR3; reflexivity.
Qed.

Lemma slash_end_cons x s : slash_end (x :: s) = match s with [] => byte_eqb x SLASH | _ => slash_end s end.
Proof.
  unfold slash_end. cbn. destruct s as [|y s]; [reflexivity|]. cbn. destruct (rev s) as [|z r] eqn:E; reflexivity.
Qed.

Lemma strsep_last v : exists pre c, strsep SLASH v = pre ++ [c] /\ (c = [] -> v = [] \/ slash_end v = true).
Proof.
  induction v as [|x v (pre & c & E & L)]; [exists [], []; auto|].
  cbn [strsep]. rewrite E, slash_end_cons. destruct (byte_eqb x SLASH) eqn:X.
  - exists ([] :: pre), c. split; auto. intros C. right. destruct v; auto. destruct (L C); auto; discriminate.
  - destruct pre as [|h pre]; cbn [app].
    + exists [], (x :: c). split; auto. discriminate.
    + exists ((x :: h) :: pre), c. split; auto. intros C. right. destruct (L C) as [-> |]; [|destruct v; auto; discriminate].
      cbn in E. destruct pre; discriminate.
Qed.

Lemma strsep_no_slash v : Forall (fun c => ~ In SLASH c) (strsep SLASH v).
Proof.
  induction v as [|x v IH]; cbn; [repeat constructor; auto|].
  destruct (byte_eqb x SLASH) eqn:X; [constructor; auto|].
  destruct (strsep_cons SLASH v) as (h & t & E). rewrite E in *. inversion IH; subst. constructor; auto.
  apply byte_eqb_neq in X. intros [H|H]; auto.
Qed.

(** Places that paths lead to have names without slashes. *)
Definition slash_free (l : loc) : Prop := Forall (fun c => ~ In SLASH c) l.

Lemma slash_free_tl l : slash_free l -> slash_free (tl l).
Proof. intros H. destruct l; auto. now inversion H. Qed.

Lemma walk_slash_free f keep n : forall cur cs l, slash_free cur -> slash_free cs -> walk f keep n cur cs = WFound l -> slash_free l.
Proof.
  induction n as [|n IHn]; intros cur cs; revert cur; induction cs as [|c cs IH]; intros cur l C CS; rewrite ?walk_nil, ?walk_cons.
  1,3: destruct (f cur) as [m|]; [|discriminate]; intros H; now injection H as <-.
  all: inversion CS; subst; destruct (f cur) as [[| |]|] eqn:E; try discriminate;
    (destruct (is_nil c || bytes_eqb c dot); [apply IH; auto|]);
    (destruct (bytes_eqb c dotdot); [apply IH; auto; now apply slash_free_tl|]);
    (destruct (f (c :: cur)) as [m|] eqn:E2; [|destruct (forallb is_nil cs); discriminate]);
    destruct m as [| |tgt]; try (apply IH; auto; now constructor);
    (destruct (keep && is_nil cs); [intros H; injection H as <-; now constructor|]); try discriminate.
  apply IHn.
  - unfold after_link. destruct tgt; auto. destruct (byte_eqb a SLASH); auto. constructor.
  - apply Forall_app. split; auto. apply strsep_no_slash.
Qed.
Lemma lookup_slash_free f keep cwd p l : slash_free cwd -> lookup cwd f keep p = WFound l -> slash_free l.
Proof.
  intros C. unfold lookup. destruct p as [|x p]; [discriminate|]. apply walk_slash_free.
  - destruct (absolute (x :: p)); auto. constructor.
  - apply strsep_no_slash.
Qed.

(** ** Textual prefixes of absolute paths *)

Definition down (a : list bytes) : bytes := concat (map (fun c => SLASH :: c) a).

Lemma first_slash c y b z : ~ In SLASH c -> ~ In SLASH b -> c ++ SLASH :: y = b ++ z -> (z = [] \/ exists z', z = SLASH :: z') ->
  c = b /\ z = SLASH :: y.
Proof.
  revert b. induction c as [|x c IH]; intros b C B E Z.
  - destruct b as [|w b]; [auto|]. cbn in E. injection E as <- E. destruct B. now left.
  - destruct b as [|w b].
    + cbn in E. destruct Z as [->|[z' ->]]; [discriminate|]. injection E as -> E. destruct C. now left.
    + cbn in E. injection E as -> E. destruct (IH b) as [-> ->]; auto; intros I; [apply C|apply B]; now right.
Qed.

Lemma down_head a : down a = [] \/ exists z, down a = SLASH :: z.
Proof. destruct a; cbn; eauto. Qed.

Lemma is_prefix_short c : forall b z, ~ In SLASH c -> (z = [] \/ exists z', z = SLASH :: z') -> is_prefix c (b ++ z) = true -> is_prefix c b = true.
Proof.
  induction c as [|x c IH]; intros b z C Z H; auto. destruct b as [|y b]; cbn in *.
  - destruct Z as [->|[z' ->]]; [discriminate|]. cbn in H. apply andb_true_iff in H as [H _]. apply byte_eqb_eq in H. destruct C. left. auto.
  - apply andb_true_iff in H as [-> H]. cbn. eapply IH; eauto.
Qed.

Lemma down_prefix a : forall c b, slash_free (a ++ [c]) -> slash_free b ->
  (is_prefix (down (a ++ [c])) (down b) = true <-> exists r x, b = a ++ (c ++ r) :: x).
Proof.
  induction a as [|h a IH]; intros c b A B.
  - cbn [app] in *. inversion A; subst. split.
    + destruct b as [|b1 x]; [discriminate|]. cbn. rewrite app_nil_r. intros H.
      apply is_prefix_short in H; [|auto|apply down_head]. apply is_prefix_app in H as [r ->]. now exists r, x.
    + intros (r & x & ->). apply is_prefix_app. exists (r ++ down x). cbn. rewrite app_nil_r, app_assoc. reflexivity.
  - cbn [app] in *. apply Forall_cons_iff in A as [A1 A2]. split.
    + destruct b as [|b1 x]; [discriminate|]. apply Forall_cons_iff in B as [B1 B2]. intros H. apply is_prefix_app in H as [t H]. cbn in H. injection H as H.
      assert (exists y, down (a ++ [c]) = SLASH :: y) as [y Y] by (destruct a; cbn; eauto).
      change (concat (map (fun c0 : list ascii => SLASH :: c0) (a ++ [c]))) with (down (a ++ [c])) in H.
      change (concat (map (fun c0 : list ascii => SLASH :: c0) x)) with (down x) in H.
      assert (HH : h ++ SLASH :: (y ++ t) = b1 ++ down x) by (rewrite H, Y, <- app_assoc; reflexivity).
      apply first_slash in HH as [-> D]; auto; [|apply down_head].
      destruct (proj1 (IH c x A2 B2)) as (r & x' & ->); [|eauto].
      apply is_prefix_app. exists t. rewrite D, Y. reflexivity.
    + intros (r & x & ->). apply Forall_cons_iff in B as [B1 B2]. cbn. apply is_prefix_app.
      pose proof (proj2 (IH c _ A2 B2) (ex_intro _ r (ex_intro _ x eq_refl))) as Q. apply is_prefix_app in Q as [t Q].
      exists t. unfold down in Q. rewrite Q, app_assoc. reflexivity.
Qed.

(** Textually under [n :: p]: in the tree of a sibling whose name starts with [n]. *)
Lemma unparse_prefix n p s : n <> [] -> slash_free (n :: p) -> slash_free s ->
  (is_prefix (unparse (n :: p)) (unparse s) = true <-> exists r, below ((n ++ r) :: p) s).
Proof.
  intros NE O F. unfold unparse at 1. cbn [rev]. change (concat (map (fun c => SLASH :: c) (rev p ++ [n]))) with (down (rev p ++ [n])).
  destruct s as [|c s].
  - cbn [unparse]. split; [|intros [r B]; apply below_length in B; cbn in B; lia].
    intros H. exfalso. assert (L : length (down (rev p ++ [n])) >= 2).
    { unfold down. rewrite map_app, concat_app, app_length. cbn. destruct n; [congruence|]. cbn. lia. }
    apply is_prefix_app in H as [t H]. apply (f_equal (@length _)) in H. rewrite app_length in H. cbn in H. lia.
  - replace (unparse (c :: s)) with (down (rev (c :: s))) by reflexivity.
    rewrite down_prefix.
    + split.
      * intros (r & x & E). exists r. exists (rev x). apply (f_equal (@rev _)) in E. rewrite rev_involutive in E. rewrite E.
        rewrite rev_app_distr. cbn. rewrite rev_involutive, <- app_assoc. reflexivity.
      * intros (r & x & E). exists r, (rev x). rewrite E, rev_app_distr. cbn. rewrite <- app_assoc. reflexivity.
    + apply Forall_app. inversion O; subst. split; [now apply Forall_rev|auto].
    + now apply Forall_rev.
Qed.
Lemma unparse_root s : is_prefix (unparse []) (unparse s) = true.
Proof.
  destruct s as [|c s]; [reflexivity|]. change (unparse (c :: s)) with (down (rev (c :: s))).
  destruct (rev (c :: s)) eqn:E; [|reflexivity]. apply (f_equal (@length _)) in E. rewrite rev_length in E. discriminate.
Qed.
