(** * Whose owner is changed. *)

From Coq Require Import ZArith Ascii String Lia Bool List.
From Verif Require Import Base Deps FileSys Frugal FrugalProofs Vfs Install SpecInstall VfsProofs PathProofs InstallProofs InstallAll.
Import ListNotations.

Section Owner.
Variable S : sys.
Notation cwd := (s_cwd S).

Lemma set_owner_unprivileged abs_out w p : s_root S = false -> set_owner S abs_out w p = (true, w).
Proof. intros H. unfold set_owner. now rewrite H. Qed.

(** Exactly when and what. *)
Lemma set_owner_exact O w p : Forall (fun c => c <> []) O -> slash_free O -> slash_free cwd -> s_root S = true ->
  match lookup cwd (nodes w) false p with
  | WFound l =>
    (below O l \/ namesake O l) /\ s_chown S l = true /\ set_owner S (Some (unparse O)) w p = (true, {| nodes := nodes w; chowned := l :: chowned w; copies := copies w |}) \/
    (below O l \/ namesake O l) /\ s_chown S l = false /\ set_owner S (Some (unparse O)) w p = (false, w) \/
    ~ (below O l \/ namesake O l) /\ set_owner S (Some (unparse O)) w p = (true, w)
  | _ => set_owner S (Some (unparse O)) w p = (false, w)
  end.
Proof.
  intros NE SO SC R. unfold set_owner, realpath. rewrite R. cbn [negb].
  destruct (lookup cwd (nodes w) false p) as [l| | |] eqn:L; auto.
  assert (SL : slash_free l) by exact (lookup_slash_free _ _ _ _ _ SC L).
  assert (X : is_prefix (unparse O) (unparse l) = true <-> below O l \/ namesake O l).
  { destruct O as [|n q].
    - rewrite unparse_root. split; auto. intros _. left. exists l. now rewrite app_nil_r.
    - rewrite unparse_prefix; auto; [|now inversion NE]. split.
      + intros [[|x r] B]; [left; now rewrite app_nil_r in B|right; exists n, q, (x :: r); split; auto; split; [discriminate|auto]].
      + intros [B|(n' & q' & r & E & N & B)]; [exists []; now rewrite app_nil_r|]. injection E as <- <-. eauto. }
  destruct (is_prefix (unparse O) (unparse l)).
  - assert (Y : below O l \/ namesake O l) by now apply X. destruct (s_chown S l); auto.
  - right. right. split; auto. intros Y. apply X in Y. discriminate.
Qed.

Definition only_in (O : loc) (w w' : vw) : Prop :=
  exists ls, owners_changed w w' ls /\ Forall (fun l => below O l \/ namesake O l) ls.
Lemma only_refl O w : only_in O w w.
Proof. exists []. split; [reflexivity|constructor]. Qed.
Lemma only_trans O a b c : only_in O a b -> only_in O b c -> only_in O a c.
Proof.
  intros (l1 & E1 & F1) (l2 & E2 & F2). exists (l2 ++ l1). split.
  - unfold owners_changed in *. rewrite E2, E1. apply app_assoc.
  - apply Forall_app. auto.
Qed.
Lemma only_eq O a b : chowned a = chowned b -> only_in O a b.
Proof. intros E. exists []. split; [unfold owners_changed; rewrite E; reflexivity|constructor]. Qed.

Section Install.
Variables (O : loc) (prefix : bytes).
Hypothesis NE : Forall (fun c => c <> []) O.
Hypothesis SO : slash_free O.
Hypothesis SC : slash_free cwd.
Let out := unparse O.

Lemma set_owner_only w p : only_in O w (snd (set_owner S (Some out) w p)).
Proof.
  destruct (s_root S) eqn:R; [|rewrite set_owner_unprivileged by auto; apply only_refl].
  pose proof (set_owner_exact O w p NE SO SC R) as H. fold out in H. destruct (lookup cwd (nodes w) false p) as [l| | |].
  - destruct H as [(B & _ & ->)|[(_ & _ & ->)|(_ & ->)]]; try apply only_refl. exists [l]. split; [reflexivity|auto].
  - rewrite H. apply only_refl.
  - rewrite H. apply only_refl.
  - rewrite H. apply only_refl.
Qed.

Lemma mkdir_only now w p : only_in O w (snd (mkdir_wrapped S (Some out) now w p)).
Proof.
  unfold mkdir_wrapped. destruct (mkdir S now (nodes w) p); try apply only_refl. cbn [snd].
  eapply only_trans; [|apply set_owner_only]. now apply only_eq.
Qed.

Lemma mkdirs_only now : forall bits w accum, only_in O w (snd (mkdirs S (Some out) now w accum bits)).
Proof.
  induction bits as [|b bits IH]; intros w accum; [apply only_refl|]. cbn [mkdirs]. destruct (is_nil b); [apply IH|].
  pose proof (mkdir_only now w (accum ++ SLASH :: b)) as M.
  destruct (mkdir_wrapped S (Some out) now w (accum ++ SLASH :: b)) as [[|] w1]; cbn [snd] in *; [|exact M].
  eapply only_trans; [exact M|apply IH].
Qed.

Lemma copy_only now w src dst : only_in O w (snd (copy S now w src dst)).
Proof.
  unfold copy. cbn [nodes]. destruct (view cwd (nodes w) src); try (apply only_eq; reflexivity).
  - destruct (cp S now (nodes w) src dst). apply only_eq. reflexivity.
  - destruct (rm_rf S now (nodes w) dst) as [[|] f]; [|apply only_eq; reflexivity].
    destruct (cp S now f (src ++ [SLASH]) dst). apply only_eq. reflexivity.
Qed.

Lemma single_only now w k v cookie b w' : install_single S (Some out) out prefix now w k v cookie = Ok (b, w') -> only_in O w w'.
Proof.
  unfold install_single. destruct (realpath cwd (nodes w) (cstr k)); [|intros H; injection H as _ <-; apply only_refl].
  destruct (is_prefix out b0 && negb cookie); [intros H; injection H as _ <-; apply only_refl|].
  destruct (negb (is_prefix out b0) && cookie); [discriminate|].
  pose proof (mkdirs_only now (strsep SLASH (dirname (cstr v))) w prefix) as M.
  destruct (mkdirs S (Some out) now w prefix (strsep SLASH (dirname (cstr v)))) as [[|] w1]; cbn [snd] in M; [|intros H; injection H as _ <-; exact M].
  destruct (frugal_mtime (view cwd (nodes w1)) [cstr k] (prefix ++ SLASH :: cstr v)) as [[|]|]; try (intros H; injection H as _ <-; exact M; fail).
  intros H. injection H as H. pose proof (copy_only now w1 (cstr k) (prefix ++ SLASH :: cstr v)) as CP. rewrite H in CP. cbn [snd] in CP.
  eapply only_trans; eauto.
Qed.

Lemma entries_only clock : forall es i w b w', install_entries S (Some out) out prefix clock i w es = Ok (b, w') -> only_in O w w'.
Proof.
  induction es as [|[k v] es IH]; intros i w b w' H; cbn [install_entries] in H.
  - injection H as _ <-. apply only_refl.
  - destruct (install_single S (Some out) out prefix (clock i) w k v false) as [[[|] w1]| | | |] eqn:E; try discriminate.
    + apply single_only in E. eapply only_trans; eauto.
    + apply single_only in E. injection H as _ <-. exact E.
Qed.
End Install.

(** The output directory itself, created before its absolute path is known. *)
Theorem prepare_owner now w p out w' : prepare_out S now w p = Some (out, w') ->
  exists O, lookup cwd (nodes w') false p = WFound O /\ out = unparse O /\
  (owners_changed w w' [] \/ owners_changed w w' [O]).
Proof.
  unfold prepare_out. destruct (mkdir_wrapped S None now w p) as [[|] w1] eqn:M; [|discriminate].
  unfold realpath. destruct (lookup cwd (nodes w1) false p) as [O| | |] eqn:L; try discriminate.
  intros H. injection H as <- <-. exists O. split; auto. split; auto.
  unfold mkdir_wrapped, mkdir in M. destruct (lookup cwd (nodes w) true p) as [l|l| |] eqn:LT; try discriminate.
  - injection M as <-. left. reflexivity.
  - destruct (s_may S (nodes w) l); [|discriminate]. set (f' := add now (nodes w) l (VDir now)) in *.
    destruct (s_root S) eqn:R; [|rewrite set_owner_unprivileged in M by auto; injection M as <-; left; reflexivity].
    unfold set_owner in M. rewrite R in M. cbn [negb nodes set_nodes] in M.
    assert (L' : lookup cwd f' false p = WFound O).
    { destruct (lookup cwd f' false p) as [l2|l2| |] eqn:L2; [destruct (s_chown S l2)| | |]; cbn [snd] in M; injection M as <-; cbn [nodes set_nodes] in L; rewrite <- L2; exact L. }
    rewrite L' in M. destruct (s_chown S O); injection M as <-; [right|left]; reflexivity.
Qed.
End Owner.
