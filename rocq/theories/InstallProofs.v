(** * What installing changes. *)

From Coq Require Import ZArith Ascii String Lia Bool List.
From Verif Require Import Base Deps FileSys Frugal FrugalProofs Vfs Install SpecInstall VfsProofs PathProofs.
Import ListNotations.

(** ** Where destinations are found *)

Definition nonempty (c : bytes) : bool := negb (is_nil c).
Definition ends_plainly (cs : list bytes) : Prop := exists pre c, cs = pre ++ [c] /\ c <> [].

Lemma walk_names f keep n : forall cs cur d, ends_plainly cs -> Forall plain_name (filter nonempty cs) ->
  d = rev (filter nonempty cs) ++ cur ->
  (forall q, below cur q -> below q d -> ~ is_link (f q)) ->
  (walk f keep n cur cs = WFound d /\ f d <> None) \/ (walk f keep n cur cs = WMissing d /\ f d = None) \/
  walk f keep n cur cs = WNoEnt \/ walk f keep n cur cs = WErr.
Proof.
  induction cs as [|c cs IH]; intros cur d (pre & e & E & NE) P D W; [destruct pre; discriminate|].
  rewrite walk_cons. destruct (f cur) as [m|] eqn:FC; [|auto]. destruct m as [| |]; auto.
  cbn [filter] in P, D. change (nonempty c) with (negb (is_nil c)) in P, D.
  destruct (is_nil c) eqn:NC; cbn [negb orb] in *.
  - apply IH; auto. destruct pre as [|p pre]; [injection E as E _; subst; destruct e; [congruence|discriminate]|]. injection E as _ E. now exists pre, e.
  - inversion P as [|? ? P1 P2]; subst d.
    destruct (plain_name_tests c P1) as [T1 T2]. rewrite NC in T1. cbn [orb] in T1. rewrite T1, T2.
    cbn [rev] in W |- *. rewrite <- app_assoc in W |- *. cbn [app] in W |- *.
    assert (L : ~ is_link (f (c :: cur))). { apply W; [apply below_cons, below_refl|apply below_app]. }
    destruct pre as [|p pre].
    + injection E as E1 E2. subst cs. cbn [filter rev app forallb]. destruct (f (c :: cur)) as [m|] eqn:F; [|auto].
      assert (NF : Some m <> None) by congruence.
      destruct m as [| |tgt]; try (left; rewrite walk_nil, F; auto; fail). destruct L. now exists tgt.
    + injection E as _ E. assert (EP : ends_plainly cs) by (exists pre, e; auto).
      assert (NN : forallb is_nil cs = false).
      { rewrite E, forallb_app. cbn. destruct e; [congruence|]. cbn. apply andb_false_r. }
      destruct (f (c :: cur)) as [m|] eqn:F; [|rewrite NN; auto].
      destruct m as [| |tgt]; [| |destruct L; now exists tgt].
      all: apply IH; auto; intros q B1 B2; apply W; auto; (eapply below_trans; [|exact B1]); apply below_cons, below_refl.
Qed.

(** On such a way it makes no difference whether links are followed. *)
Fixpoint way (f : vfs) (cur : loc) (cs : list bytes) : walked :=
  match f cur with
  | Some (VDir _) =>
    match cs with
    | [] => WFound cur
    | c :: rest =>
      if is_nil c then way f cur rest
      else match f (c :: cur) with
           | None => if forallb is_nil rest then WMissing (c :: cur) else WNoEnt
           | Some _ => way f (c :: cur) rest
           end
    end
  | Some _ => match cs with [] => WFound cur | _ => WErr end
  | None => WNoEnt
  end.

Lemma walk_way f keep n : forall cs cur d, Forall plain_name (filter nonempty cs) ->
  d = rev (filter nonempty cs) ++ cur -> (forall q, below cur q -> below q d -> ~ is_link (f q)) ->
  walk f keep n cur cs = way f cur cs.
Proof.
  induction cs as [|c cs IH]; intros cur d P D W.
  - rewrite walk_nil. cbn. destruct (f cur) as [[| |]|]; reflexivity.
  - rewrite walk_cons. cbn [way]. destruct (f cur) as [[| |]|]; auto.
    cbn [filter] in P, D. change (nonempty c) with (negb (is_nil c)) in P, D.
    destruct (is_nil c) eqn:NC; cbn [negb orb] in *; [eapply IH; eauto|].
    inversion P as [|? ? P1 P2]; subst d. destruct (plain_name_tests c P1) as [T1 T2]. rewrite NC in T1. cbn [orb] in T1. rewrite T1, T2.
    cbn [rev] in W. rewrite <- app_assoc in W. cbn [app] in W.
    assert (L : ~ is_link (f (c :: cur))). { apply W; [apply below_cons, below_refl|apply below_app]. }
    destruct (f (c :: cur)) as [m|]; auto. destruct m as [| |tgt]; [| |destruct L; now exists tgt].
    all: eapply IH; eauto; intros q B1 B2; apply W; auto; (eapply below_trans; [|exact B1]); apply below_cons, below_refl.
Qed.

Lemma ordinary_ends v : ordinary v -> ends_plainly (strsep SLASH v).
Proof.
  intros (N & _ & E & _). destruct (strsep_last v) as (pre & c & S & L). exists pre, c. split; auto.
  intros C. destruct (L C) as [-> |X]; [now apply N|congruence].
Qed.
Lemma names_plain v : ordinary v -> Forall plain_name (names v).
Proof.
  intros (_ & F & _ & _). unfold names in *. apply Forall_forall. intros c I. rewrite Forall_forall in F.
  destruct (F c I). apply filter_In in I as [_ I]. repeat split; auto. destruct c; [discriminate|discriminate].
Qed.

(** The conditions for one entry, at the time it is handled. *)
Record calm (cwd : loc) (prefix : bytes) (P : loc) (f : vfs) (v : bytes) : Prop := {
  cm_prefix : lookup cwd (hide [dest P v] f) false prefix = WFound P;
  cm_dir : is_directory (f P);
  cm_val : ordinary v;
  cm_way : forall q, below P q -> below q (dest P v) -> ~ is_link (f q);
  cm_dest : forall q, below (dest P v) q -> ~ is_link (f q)
}.

(** ** Changes *)

Lemma changes_refl P ds f : changes_only P ds f f.
Proof. intros q. auto. Qed.

Lemma changes_trans P ds f g h : changes_only P ds f g -> changes_only P ds g h -> changes_only P ds f h.
Proof.
  intros A B q. destruct (A q) as [X|[X|(X & Y & Z)]]; auto; destruct (B q) as [X'|[X'|(X' & Y' & Z')]]; auto.
  - right. left. congruence.
  - right. right. split; auto. rewrite <- X. auto.
  - right. right. split; auto. split; auto. now rewrite X'.
Qed.

Lemma changes_more P ds ds' f g : incl ds ds' -> changes_only P ds f g -> changes_only P ds' f g.
Proof.
  intros I A q. destruct (A q) as [(d & D & B)|[X|((d & D & B) & Y)]]; eauto. right. right. split; eauto.
Qed.

Lemma hidden_prefix cwd f d prefix P : lookup cwd (hide [d] f) false prefix = WFound P -> lookup cwd f false prefix = WFound P.
Proof.
  apply lookup_mono. intros q n H. apply hide_some in H as [H _]. exists n. split; auto. now left.
Qed.

Lemma dest_cases cwd prefix P f v keep : calm cwd prefix P f v ->
  let p := prefix ++ SLASH :: v in let d := dest P v in
  (lookup cwd f keep p = WFound d /\ f d <> None) \/ (lookup cwd f keep p = WMissing d /\ f d = None) \/
  lookup cwd f keep p = WNoEnt \/ lookup cwd f keep p = WErr.
Proof.
  intros [A0 B C D E]. pose proof (hidden_prefix _ _ _ _ _ A0) as A. cbv zeta. destruct (lookup_app f keep cwd prefix v P A) as [k ->].
  apply walk_names; auto.
  - now apply ordinary_ends.
  - now apply names_plain.
Qed.

Lemma dest_keep cwd prefix P f v keep : calm cwd prefix P f v ->
  lookup cwd f keep (prefix ++ SLASH :: v) = way f P (strsep SLASH v).
Proof.
  intros [A0 B C D E]. pose proof (hidden_prefix _ _ _ _ _ A0) as A. destruct (lookup_app f keep cwd prefix v P A) as [k ->].
  eapply walk_way; [now apply names_plain|reflexivity|auto].
Qed.

(** Only what is in the tree at [d] changes, and the time of the directory [d] is in. *)
Definition within (d : loc) (f f' : vfs) : Prop :=
  forall q, below d q \/ f' q = f q \/ (q = tl d /\ is_directory (f q) /\ is_directory (f' q)).

Lemma within_changes P d f f' : below P d -> d <> P -> within d f f' -> changes_only P [d] f f'.
Proof.
  intros B N W q. destruct (W q) as [X|[X|(-> & X & Y)]]; auto.
  - left. exists d. split; [now left|auto].
  - right. right. split; auto. exists d. split; [now left|]. split; [apply tl_below|now apply below_tl].
Qed.

Lemma within_refl d f : within d f f.
Proof. intros q. auto. Qed.
Lemma within_trans d f g h : within d f g -> within d g h -> within d f h.
Proof.
  intros A B q. destruct (A q) as [X|[X|(X & Y & Z)]]; auto; destruct (B q) as [X'|[X'|(X' & Y' & Z')]]; auto.
  - right. left. congruence.
  - right. right. rewrite <- X. auto.
  - right. right. rewrite X'. auto.
Qed.
Lemma within_deeper c d f g : within (c :: d) f g -> (forall q, q = d -> below d q) -> within d f g.
Proof.
  intros A _ q. destruct (A q) as [X|[X|(-> & Y & Z)]]; auto.
  - left. eapply below_trans; [apply (below_cons d c d), below_refl|exact X].
  - left. apply below_refl.
Qed.

Lemma put_within d f n : within d f (put f d n).
Proof.
  intros q. unfold put. destruct (loc_eqb q d) eqn:E; auto. apply loc_eqb_eq in E. subst. left. apply below_refl.
Qed.
Lemma touch_other now f l q : q <> l -> touch now f l q = f q.
Proof. intros N. unfold touch. destruct (f l) as [[| |]|]; auto. unfold put. now apply loc_eqb_neq in N as ->. Qed.
Lemma touch_within now d f : within d f (touch now f (tl d)).
Proof.
  intros q. unfold touch. destruct (f (tl d)) as [[| |]|] eqn:F; auto. unfold put.
  destruct (loc_eqb q (tl d)) eqn:E; auto. apply loc_eqb_eq in E. subst. right. right. split; auto. split; [now exists t|now exists now].
Qed.
Lemma add_within now d f n : within d f (add now f d n).
Proof. eapply within_trans; [apply put_within|apply touch_within]. Qed.
Lemma torn_within S d f : tidy S -> within d f (s_torn S f d).
Proof.
  intros T q. destruct (below_dec d q) as [B|B]; auto. right. left. apply T. now apply belowb_false.
Qed.
Lemma remove_within d f : within d f (fun q => if belowb d q then None else f q).
Proof.
  intros q. destruct (belowb d q) eqn:B; auto. left. now apply belowb_iff.
Qed.
Lemma copy_tree_within now f s d : within d f (copy_tree now f s d).
Proof.
  intros q. unfold copy_tree. destruct (rel d q) eqn:R; auto. left. apply rel_some in R. subst. apply below_app.
Qed.

(** ** mkdir *)

(** Directories grew on the way from [P] to [d]; nothing else changed. *)
Definition grew (P d : loc) (f f' : vfs) : Prop :=
  forall q, f' q = f q \/ (below P q /\ below q d /\ (f q = None \/ is_directory (f q)) /\ is_directory (f' q)).

Lemma grew_refl P d f : grew P d f f.
Proof. intros q. auto. Qed.
Lemma grew_trans P d f g h : grew P d f g -> grew P d g h -> grew P d f h.
Proof.
  intros A B q. destruct (A q) as [X|(X & Y & Z & U)]; destruct (B q) as [X'|(X' & Y' & Z' & U')].
  - left. congruence.
  - right. rewrite <- X. auto.
  - right. rewrite X'. auto.
  - right. auto.
Qed.
Lemma grew_wider P P' d d' f g : below P P' -> below d d' -> grew P' d f g -> grew P d' f g.
Proof.
  intros B D A q. destruct (A q) as [X|(X & Y & Z)]; auto. right. split; [|split; auto]; eapply below_trans; eauto.
Qed.
Lemma grew_same_kind P d f g : grew P d f g -> forall q n, f q = Some n -> exists n', g q = Some n' /\ same_kind n n'.
Proof.
  intros G q n E. destruct (G q) as [X|(_ & _ & [X|[t X]] & [t' Y])].
  - exists n. split; [congruence|now left].
  - congruence.
  - exists (VDir t'). split; auto. right. rewrite E in X. injection X as ->. eauto.
Qed.
Lemma grew_changes P d f f' : below P d -> grew P (tl d) f f' -> changes_only P [d] f f'.
Proof.
  intros B G q. destruct (G q) as [X|(X & Y & Z)]; auto. right. right. split; auto.
  exists d. split; [now left|]. split; auto. eapply below_trans; [exact Y|apply tl_below].
Qed.

Lemma add_dir_grew now P d f l : below P (tl l) -> l <> P -> below l d -> f l = None -> grew P d f (add now f l (VDir now)).
Proof.
  intros B N D F q. destruct l as [|c l].
  { cbn in B. exfalso. apply N. apply below_antisym; auto. exists P. now rewrite app_nil_r. }
  cbn [tl] in B. unfold add, touch. cbn [tl].
  assert (NE : loc_eqb l (c :: l) = false). { apply loc_eqb_neq. intros E. apply (f_equal (@length _)) in E. cbn in E. lia. }
  assert (PL : put f (c :: l) (Some (VDir now)) l = f l) by (unfold put; now rewrite NE). rewrite PL.
  assert (PC : put f (c :: l) (Some (VDir now)) q = f q \/
    below P q /\ below q d /\ (f q = None \/ is_directory (f q)) /\ is_directory (put f (c :: l) (Some (VDir now)) q)).
  { unfold put. destruct (loc_eqb q (c :: l)) eqn:E; auto. apply loc_eqb_eq in E. subst q. right.
    split; [now apply below_cons|]. split; auto. split; auto. now exists now. }
  destruct (f l) as [[| |]|] eqn:FL; auto.
  unfold put at 1 3. destruct (loc_eqb q l) eqn:E; auto.
  apply loc_eqb_eq in E. subst q. right. split; auto. split; [eapply below_trans; [|exact D]; apply below_cons, below_refl|].
  split; [right; now exists t|now exists now].
Qed.

Section Run.
Variables (S : sys) (abs_out : option bytes).
Notation cwd := (s_cwd S).

Lemma set_owner_nodes w p : nodes (snd (set_owner S abs_out w p)) = nodes w /\ copies (snd (set_owner S abs_out w p)) = copies w.
Proof.
  unfold set_owner. destruct (s_root S); [|auto]. cbn [negb].
  assert (C : forall r, r = (match lookup (s_cwd S) (nodes w) false p with
    | WFound l => if s_chown S l then (true, {| nodes := nodes w; chowned := l :: chowned w; copies := copies w |}) else (false, w)
    | _ => (false, w) end) -> nodes (snd r) = nodes w /\ copies (snd r) = copies w).
  { intros r ->. destruct (lookup cwd (nodes w) false p); auto. destruct (s_chown S l); auto. }
  destruct abs_out as [out|]; [|now apply C]. destruct (realpath cwd (nodes w) p); [|auto].
  destruct (is_prefix out b); [now apply C|auto].
Qed.

Lemma add_here now l f n : l <> [] -> add now f l n l = Some n.
Proof.
  intros N. unfold add. rewrite touch_other; [unfold put; now rewrite loc_eqb_refl|].
  destruct l; [congruence|]. cbn. intros E. apply (f_equal (@length _)) in E. cbn in E. lia.
Qed.

Lemma mkdir_one now w accum c cur b w1 : lookup cwd (nodes w) false accum = WFound cur -> plain_name c -> ~ In SLASH c ->
  ~ is_link (nodes w (c :: cur)) -> mkdir_wrapped S abs_out now w (accum ++ SLASH :: c) = (b, w1) ->
  copies w1 = copies w /\
  ((b = false /\ nodes w1 = nodes w) \/
   (b = true /\ is_directory (nodes w cur) /\ nodes w1 (c :: cur) <> None /\ grew cur (c :: cur) (nodes w) (nodes w1))).
Proof.
  intros LK P SF NL. unfold mkdir_wrapped, mkdir.
  destruct (lookup_app (nodes w) true cwd accum c cur LK) as [k E]. rewrite one_name in E by auto.
  assert (X : (exists t, nodes w cur = Some (VDir t)) \/ walk (nodes w) true k cur [c] = WErr).
  { destruct (lookup_found _ _ _ _ _ LK) as [m F]. destruct m as [| t|]; [right|left; eauto|right]; rewrite walk_cons, F; reflexivity. }
  destruct X as [[t F]|X]; [|rewrite E, X; intros H; injection H as <- <-; auto].
  rewrite E. rewrite (walk_one _ _ _ _ _ _ t F P).
  destruct (nodes w (c :: cur)) as [m|] eqn:FN.
  - assert (Y : match m with VLink tgt => True | _ => walk (nodes w) true k (c :: cur) [] = WFound (c :: cur) end).
    { destruct m; auto; rewrite walk_nil, FN; reflexivity. }
    destruct m as [| |tgt]; [rewrite Y|rewrite Y|destruct NL; now exists tgt]; intros H; injection H as <- <-; split; auto; right;
      (split; [auto|split; [now exists t|split; [congruence|apply grew_refl]]]).
  - cbn. destruct (s_may S (nodes w) (c :: cur)); [|intros H; injection H as <- <-; auto].
    destruct (set_owner_nodes (set_nodes w (add now (nodes w) (c :: cur) (VDir now))) (accum ++ SLASH :: c)) as [A B].
    intros H. injection H as <- <-. rewrite A, B. split; auto. right. split; auto. split; [now exists t|]. cbn [nodes set_nodes]. split.
    + rewrite add_here; discriminate.
    + apply add_dir_grew; auto; [apply below_refl| |apply below_refl].
      intros X. apply (f_equal (@length _)) in X. cbn in X. lia.
Qed.

Lemma mkdirs_names now : forall bits w accum, mkdirs S abs_out now w accum bits = mkdirs S abs_out now w accum (filter nonempty bits).
Proof.
  induction bits as [|b bits IH]; intros w accum; auto. cbn [mkdirs filter]. unfold nonempty at 1.
  destruct b as [|x b]; cbn [is_nil negb]; [apply IH|]. cbn [mkdirs is_nil].
  destruct (mkdir_wrapped S abs_out now w (accum ++ SLASH :: x :: b)) as [[|] w']; auto.
Qed.

Lemma mkdirs_effect now : forall ns w accum cur b w',
  lookup cwd (nodes w) false accum = WFound cur -> Forall plain_name ns -> Forall (fun c => ~ In SLASH c) ns ->
  (forall q, below cur q -> below q (rev ns ++ cur) -> ~ is_link (nodes w q)) ->
  mkdirs S abs_out now w accum ns = (b, w') ->
  copies w' = copies w /\ grew cur (rev ns ++ cur) (nodes w) (nodes w').
Proof.
  induction ns as [|c ns IH]; intros w accum cur b w' LK P SF W H; cbn [mkdirs] in H.
  - injection H as _ <-. split; auto. apply grew_refl.
  - inversion P as [|? ? P1 P2]; subst. inversion SF as [|? ? S1 S2]; subst.
    cbn [rev] in *. rewrite <- app_assoc in *. cbn [app] in *.
    destruct (is_nil c) eqn:NC. { destruct P1 as (X & _). destruct c; [congruence|discriminate]. }
    destruct (mkdir_wrapped S abs_out now w (accum ++ SLASH :: c)) as [b1 w1] eqn:M.
    assert (NL : ~ is_link (nodes w (c :: cur))). { apply W; [apply below_cons, below_refl|apply below_app]. }
    apply (mkdir_one now w accum c cur b1 w1 LK P1 S1 NL) in M as [C1 [[-> E]|(-> & D & N & G)]].
    + injection H as _ <-. rewrite E. split; auto. apply grew_refl.
    + assert (LK1 : lookup cwd (nodes w1) false accum = WFound cur).
      { eapply lookup_mono; [|exact LK]. apply (grew_same_kind _ _ _ _ G). }
      assert (W1 : forall q, below cur q -> below q (rev ns ++ c :: cur) -> ~ is_link (nodes w1 q)).
      { intros q B1 B2 [t X]. destruct (G q) as [E|(_ & _ & _ & [t' E])]; [|congruence]. apply (W q B1 B2). exists t. congruence. }
      assert (D1 : is_directory (nodes w1 cur)).
      { destruct (G cur) as [E|(_ & _ & _ & E)]; [now rewrite E|auto]. }
      destruct D1 as [t D1].
      assert (LK2 : lookup cwd (nodes w1) false (accum ++ SLASH :: c) = WFound (c :: cur)).
      { destruct (lookup_app (nodes w1) false cwd accum c cur LK1) as [k ->]. rewrite one_name by auto.
        rewrite (walk_one _ _ _ _ _ _ t D1 P1). destruct (nodes w1 (c :: cur)) as [m|] eqn:FN; [|congruence].
        destruct m as [| |tgt]; try (rewrite walk_nil, FN; reflexivity).
        exfalso. apply (W1 (c :: cur)); [apply below_cons, below_refl|apply below_app|]. now exists tgt. }
      destruct (IH w1 (accum ++ SLASH :: c) (c :: cur) b w' LK2 P2 S2) as [C2 G2]; auto.
      { intros q B1 B2. apply W1; auto. eapply below_trans; [|exact B1]. apply below_cons, below_refl. }
      split; [congruence|]. eapply grew_trans.
      * eapply grew_wider; [apply below_refl|apply below_app|exact G].
      * eapply grew_wider; [apply below_cons, below_refl|apply below_refl|exact G2].
Qed.

Lemma removelast_In {A} (x : A) l : In x (removelast l) -> In x l.
Proof.
  induction l as [|a l IH]; [auto|]. destruct l as [|b l]; [intros []|].
  change (removelast (a :: b :: l)) with (a :: removelast (b :: l)). intros [->|H]; [now left|right; auto].
Qed.

Lemma names_no_slash v : Forall (fun c => ~ In SLASH c) (names v).
Proof.
  pose proof (strsep_no_slash v) as H. rewrite Forall_forall in *. intros c I. apply H. unfold names in I. apply filter_In in I. tauto.
Qed.

Lemma tl_dest P v : names v <> [] -> tl (dest P v) = rev (removelast (names v)) ++ P.
Proof.
  intros N. unfold dest. destruct (exists_last N) as (pre & c & E). rewrite E, removelast_last, rev_app_distr. reflexivity.
Qed.
Lemma dest_below P v : below P (dest P v).
Proof. apply below_app. Qed.
Lemma dest_not P v : names v <> [] -> dest P v <> P.
Proof. intros N E. unfold dest in E. symmetry in E. apply app_own in E. apply (f_equal (@rev _)) in E. rewrite rev_involutive in E. contradiction. Qed.

(** install.c 108-131: the directories of one destination. *)
Lemma parents_effect now w prefix P v b w' : calm cwd prefix P (nodes w) v ->
  mkdirs S abs_out now w prefix (strsep SLASH (dirname v)) = (b, w') ->
  copies w' = copies w /\ grew P (tl (dest P v)) (nodes w) (nodes w').
Proof.
  intros [LK0 D (N & O & E & Z) W _] H. pose proof (hidden_prefix _ _ _ _ _ LK0) as LK. rewrite mkdirs_names in H. change (filter nonempty (strsep SLASH (dirname v))) with (names (dirname v)) in H.
  rewrite tl_dest by auto.
  assert (PN : Forall plain_name (names v)) by (apply names_plain; repeat split; auto).
  destruct (names_dirname v N) as [X|[X Y]]; rewrite X in H.
  - eapply mkdirs_effect in H; eauto.
    + rewrite Forall_forall in *. intros c I. apply PN. now apply removelast_In.
    + pose proof (names_no_slash v) as NS. rewrite Forall_forall in *. intros c I. apply NS. now apply removelast_In.
    + intros q B1 B2. apply W; auto. eapply below_trans; [exact B2|]. rewrite <- tl_dest by auto. apply tl_below.
  - rewrite Y. cbn [rev app]. cbn [mkdirs is_nil dot] in H. unfold mkdir_wrapped, mkdir in H.
    destruct (lookup_app (nodes w) true cwd prefix dot P LK) as [k LL].
    change (strsep SLASH dot) with [dot] in LL. rewrite walk_cons in LL. destruct D as [t D]. rewrite D in LL.
    change (is_nil dot || bytes_eqb dot dot) with true in LL. cbv iota in LL. rewrite walk_nil, D in LL.
    change [DOT] with dot in H. rewrite LL in H. injection H as _ <-. split; auto. apply grew_refl.
Qed.

(** ** rm and cp *)

Hypothesis TIDY : tidy S.

Lemma drop_while_app g a b : drop_while g a <> [] -> drop_while g (a ++ b) = drop_while g a ++ b.
Proof. induction a as [|x a IH]; cbn; [congruence|]. destruct (g x); auto. Qed.

Lemma slash_end_app p v : v <> [] -> slash_end (p ++ v) = slash_end v.
Proof.
  intros N. unfold slash_end. rewrite rev_app_distr. destruct (rev v) as [|x r] eqn:E; [|reflexivity].
  apply (f_equal (@rev _)) in E. rewrite rev_involutive in E. contradiction.
Qed.
Lemma slash_end_dest prefix v : ordinary v -> slash_end (prefix ++ SLASH :: v) = false.
Proof.
  intros (N & _ & E & _). change (prefix ++ SLASH :: v) with (prefix ++ [SLASH] ++ v). rewrite app_assoc, slash_end_app; auto.
  intros ->. now apply N.
Qed.
Lemma unslash_dest p : slash_end p = false -> unslash p = p.
Proof.
  unfold slash_end, unslash. intros E. destruct (rev p) as [|x r] eqn:R.
  - apply (f_equal (@rev _)) in R. rewrite rev_involutive in R. now subst.
  - cbn. unfold is_slash. rewrite E. rewrite <- R, rev_involutive. reflexivity.
Qed.

Lemma rm_effect now f prefix P v b f' : calm cwd prefix P f v -> rm_rf S now f (prefix ++ SLASH :: v) = (b, f') ->
  within (dest P v) f f'.
Proof.
  intros C. unfold rm_rf. destruct (is_nil _ || _ || _); [intros H; injection H as _ <-; apply within_refl|].
  rewrite unslash_dest by (apply slash_end_dest, C). rewrite slash_end_dest by apply C. cbn [andb].
  destruct (dest_cases cwd prefix P f v true C) as [[-> _]|[[-> _]|[-> | ->]]]; try (intros H; injection H as _ <-; apply within_refl).
  destruct (s_may S f (dest P v)); intros H; injection H as _ <-.
  - eapply within_trans; [apply remove_within|]. apply touch_within.
  - now apply torn_within.
Qed.

Lemma rm_leaves now f prefix P v f' : calm cwd prefix P f v -> rm_rf S now f (prefix ++ SLASH :: v) = (true, f') ->
  forall q, below (dest P v) q -> f' q = None \/ f' q = f q.
Proof.
  intros C R q B. unfold rm_rf in R. destruct (is_nil _ || _ || _); [discriminate|].
  rewrite unslash_dest in R by (apply slash_end_dest, C). rewrite slash_end_dest in R by apply C. cbn [andb] in R.
  destruct (dest_cases cwd prefix P f v true C) as [[X N]|[[X N]|[X|X]]]; rewrite X in R;
    try discriminate; try (injection R as <-; now right).
  destruct (s_may S f (dest P v)); [|discriminate]. injection R as <-. left.
  rewrite touch_other; [apply belowb_iff in B; now rewrite B|].
  intros ->. apply below_length in B. destruct (dest P v) eqn:DD; [|cbn in B; lia].
  unfold dest in DD. apply app_eq_nil in DD as [DD _]. apply (f_equal (@rev _)) in DD. rewrite rev_involutive in DD. now apply (proj1 (cm_val _ _ _ _ _ C)).
Qed.

Lemma within_hidden d f f' : within d f f' -> forall q n, hide [d] f q = Some n -> exists n', hide [d] f' q = Some n' /\ same_kind n n'.
Proof.
  intros W q n H. apply hide_some in H as [H O].
  assert (NB : ~ below d q) by (apply O; now left).
  destruct (W q) as [X|[X|(_ & [t X] & [t' Y])]]; [contradiction| |].
  - exists n. rewrite hide_out by (intros ? [<-|[]]; auto). split; [congruence|now left].
  - exists (VDir t'). rewrite hide_out by (intros ? [<-|[]]; auto). split; auto. right. rewrite H in X. injection X as ->. eauto.
Qed.

(** What [rm] leaves still satisfies the conditions. *)
Lemma within_calm prefix P f v f' : calm cwd prefix P f v -> within (dest P v) f f' ->
  (forall q, below (dest P v) q -> ~ is_link (f' q)) -> calm cwd prefix P f' v.
Proof.
  intros [A B C D E] W R. constructor; [| |exact C| |exact R].
  - eapply lookup_mono; [|exact A]. now apply within_hidden.
  - destruct (W P) as [X|[X|(_ & _ & X)]]; auto; [|now rewrite X]. exfalso. destruct C as (N & _). apply (dest_not P v N). apply below_antisym; auto. apply dest_below.
  - intros q B1 B2. destruct (W q) as [Y|[Y|(_ & _ & [t' Y])]]; [now apply R|rewrite Y; now apply D|]. intros [t X]. congruence.
Qed.

Lemma grew_calm prefix P f v f' : calm cwd prefix P f v -> grew P (tl (dest P v)) f f' -> calm cwd prefix P f' v.
Proof.
  intros [A B C D E] G.
  assert (NL : forall q, ~ is_link (f q) -> ~ is_link (f' q)).
  { intros q N [t X]. destruct (G q) as [Y|(_ & _ & _ & [t' Y])]; [|congruence]. apply N. exists t. congruence. }
  constructor; [| |exact C|intros q B1 B2; apply NL, D; assumption|intros q B1; apply NL, E, B1].
  - eapply lookup_mono; [|exact A]. intros q n H. apply hide_some in H as [H O].
    rewrite hide_out by auto. apply (grew_same_kind _ _ _ _ G q n H).
  - destruct (G P) as [X|(_ & _ & _ & X)]; auto. now rewrite X.
Qed.

(** Writing a node to [d] or into the directory [d]. *)
Lemma cp_node_effect now f s p d b f' :
  (forall keep, (lookup cwd f keep p = WFound d /\ f d <> None) \/ (lookup cwd f keep p = WMissing d /\ f d = None) \/
                lookup cwd f keep p = WNoEnt \/ lookup cwd f keep p = WErr) ->
  cp_node S now f s p = (b, f') ->
  within d f f' /\
  (b = true -> f' d = match f s with Some (VFile c _) => Some (VFile c now) | n => n end \/ d = []).
Proof.
  intros DC. unfold cp_node. destruct (f s) as [[c t|t|tgt]|] eqn:FS;
    try (intros H; injection H as <- <-; split; [apply within_refl|discriminate]).
  - destruct (DC false) as [[-> N]|[[-> N]|[-> | ->]]]; try (intros H; injection H as <- <-; split; [apply within_refl|discriminate]).
    + destruct (f d) as [[| |]|] eqn:FD; try (intros H; injection H as <- <-; split; [apply within_refl|discriminate]).
      destruct (loc_eqb s d); [intros H; injection H as <- <-; split; [apply within_refl|discriminate]|].
      destruct (s_may S f d); intros H; injection H as <- <-; (split; [|try discriminate]).
      * apply put_within.
      * intros _. left. unfold put. now rewrite loc_eqb_refl.
      * now apply torn_within.
    + destruct (slash_end p); [intros H; injection H as <- <-; split; [apply within_refl|discriminate]|].
      assert (R : forall b1 f1, (if s_may S f d then (true, add now f d (VFile c now)) else (false, s_torn S f d)) = (b1, f1) ->
        within d f f1 /\ (b1 = true -> f1 d = Some (VFile c now) \/ d = [])).
      { intros b1 f1. destruct (s_may S f d); intros H; injection H as <- <-; (split; [|try discriminate]).
        - apply add_within.
        - intros _. destruct d; [auto|]. left. apply add_here. discriminate.
        - now apply torn_within. }
      destruct (lookup cwd f true p); try (apply R). intros H; injection H as <- <-; split; [apply within_refl|discriminate].
  - assert (R : forall b1 f1, (if s_may S f d then (true, add now f d (VLink tgt)) else (false, s_torn S f d)) = (b1, f1) ->
      within d f f1 /\ (b1 = true -> f1 d = Some (VLink tgt) \/ d = [])).
    { intros b1 f1. destruct (s_may S f d); intros H; injection H as <- <-; (split; [|try discriminate]).
      - apply add_within.
      - intros _. destruct d; [auto|]. left. apply add_here. discriminate.
      - now apply torn_within. }
    destruct (DC true) as [[-> N]|[[-> N]|[-> | ->]]]; try (intros H; injection H as <- <-; split; [apply within_refl|discriminate]).
    + destruct (f d) as [[| |]|] eqn:FD; try (intros H; injection H as <- <-; split; [apply within_refl|discriminate]).
      all: destruct (loc_eqb s d); [intros H; injection H as <- <-; split; [apply within_refl|discriminate]|]; apply R.
    + destruct (slash_end p); [intros H; injection H as <- <-; split; [apply within_refl|discriminate]|]. apply R.
Qed.

Lemma cp_effect now f prefix P v src b f' : calm cwd prefix P f v ->
  cp S now f src (prefix ++ SLASH :: v) = (b, f') -> within (dest P v) f f'.
Proof.
  intros C. unfold cp. set (d := dest P v).
  pose proof (fun keep => dest_cases cwd prefix P f v keep C) as DC. cbv zeta in DC.
  destruct (lookup cwd f true src) as [s|l| |] eqn:LS; try (intros H; injection H as _ <-; apply within_refl).
  destruct (f s) as [n|] eqn:FS; [|intros H; injection H as _ <-; apply within_refl].
  assert (FILE : forall b1 f1, match view cwd f (prefix ++ SLASH :: v) with
      | Dir _ => let c := last_name src in
                 if is_nil c || bytes_eqb c dot || bytes_eqb c dotdot then (false, f)
                 else cp_node S now f s ((prefix ++ SLASH :: v) ++ SLASH :: c)
      | _ => cp_node S now f s (prefix ++ SLASH :: v)
      end = (b1, f1) -> within d f f1).
  { intros b1 f1. assert (ONE : forall b2 f2, cp_node S now f s (prefix ++ SLASH :: v) = (b2, f2) -> within d f f2).
    { intros b2 f2 H. eapply cp_node_effect in H as [H _]; eauto. }
    destruct (view cwd f (prefix ++ SLASH :: v)) eqn:V; try apply ONE. cbv zeta.
    destruct (is_nil (last_name src) || _ || _) eqn:PL; [intros H; injection H as _ <-; apply within_refl|].
    apply orb_false_iff in PL as [PL P3]. apply orb_false_iff in PL as [P1 P2]. apply bytes_eqb_neq in P2, P3.
    assert (PN : plain_name (last_name src)) by (repeat split; auto; intros X; rewrite X in P1; discriminate).
    assert (LD : lookup cwd f false (prefix ++ SLASH :: v) = WFound d /\ exists t, f d = Some (VDir t)).
    { unfold view in V. destruct (DC false) as [[E N]|[[E N]|[E|E]]]; rewrite E in V; try discriminate. split; auto.
      fold d in V |- *. destruct (f d) as [[| |]|]; try discriminate. eauto. }
    destruct LD as [LD [td FD]].
    assert (SFL : ~ In SLASH (last_name src)).
    { unfold last_name. pose proof (names_no_slash src) as Q. rewrite Forall_forall in Q. destruct (names src) as [|a l] eqn:NS; [auto|].
      apply Q. rewrite <- NS. destruct (exists_last (l := names src)) as (pre & x & E); [congruence|]. rewrite E, last_last. apply in_or_app. right. now left. }
    intros H. eapply (cp_node_effect now f s _ (last_name src :: d)) in H.
    - destruct H as [H _]. apply within_deeper in H; auto. intros q ->. apply below_refl.
    - intros keep. destruct (lookup_app f keep cwd _ (last_name src) d LD) as [k ->]. rewrite one_name by auto.
      rewrite (walk_one _ _ _ _ _ _ td FD PN).
      destruct (f (last_name src :: d)) as [m|] eqn:FN; [|right; left; auto].
      assert (SN : Some m <> None) by congruence.
      destruct m as [| |tgt]; try (left; rewrite walk_nil, FN; auto; fail).
      exfalso. apply (cm_dest _ _ _ _ _ C (last_name src :: d)); [apply below_cons, below_refl|]. now exists tgt. }
  destruct n as [| |]; [apply FILE| |apply FILE].
  destruct (DC true) as [[-> N]|[[-> N]|[-> | ->]]]; try (intros H; injection H as _ <-; apply within_refl).
  destruct (belowb s (dest P v)); [intros H; injection H as _ <-; now apply torn_within|].
  destruct (s_may S f (dest P v)); intros H; injection H as _ <-; [|now apply torn_within].
  eapply within_trans; [apply copy_tree_within|apply touch_within].
Qed.

Lemma copy_effect now w prefix P v src b w' : calm cwd prefix P (nodes w) v ->
  copy S now w src (prefix ++ SLASH :: v) = (b, w') -> within (dest P v) (nodes w) (nodes w').
Proof.
  intros C. unfold copy. cbn [nodes]. destruct (view cwd (nodes w) src); try (intros H; injection H as _ <-; apply within_refl).
  - destruct (cp S now (nodes w) src (prefix ++ SLASH :: v)) as [ok f1] eqn:E. intros H. injection H as _ <-. cbn. eapply cp_effect; eauto.
  - destruct (rm_rf S now (nodes w) (prefix ++ SLASH :: v)) as [[|] f1] eqn:R.
    + pose proof (rm_effect _ _ _ _ _ _ _ C R) as W1.
      assert (C1 : calm cwd prefix P f1 v).
      { apply (within_calm _ _ _ _ _ C W1). intros q B.
        destruct (rm_leaves _ _ _ _ _ _ C R q B) as [X|X]; rewrite X; [intros [? ?]; discriminate|]. now apply (cm_dest _ _ _ _ _ C). }
      destruct (cp S now f1 (src ++ [SLASH]) (prefix ++ SLASH :: v)) as [ok f2] eqn:E. intros H. injection H as _ <-. cbn.
      eapply within_trans; [exact W1|]. eapply cp_effect; eauto.
    + intros H. injection H as _ <-. cbn. eapply rm_effect; eauto.
Qed.

(** One entry. *)
Theorem single_effect out prefix now w P k v cookie b w' : calm cwd prefix P (nodes w) (cstr v) ->
  install_single S abs_out out prefix now w k v cookie = Ok (b, w') ->
  changes_only P [dest P (cstr v)] (nodes w) (nodes w').
Proof.
  intros C. unfold install_single. destruct (realpath cwd (nodes w) (cstr k)) as [path|]; [|intros H; injection H as _ <-; apply changes_refl].
  destruct (is_prefix out path && negb cookie); [intros H; injection H as _ <-; apply changes_refl|].
  destruct (negb (is_prefix out path) && cookie); [discriminate|].
  destruct (mkdirs S abs_out now w prefix (strsep SLASH (dirname (cstr v)))) as [ok w1] eqn:M.
  pose proof (parents_effect now w prefix P (cstr v) ok w1 C M) as [_ G].
  pose proof (grew_calm _ _ _ _ _ C G) as C1.
  assert (CH : changes_only P [dest P (cstr v)] (nodes w) (nodes w1)) by (apply grew_changes; auto; apply dest_below).
  destruct ok; [|intros H; injection H as _ <-; auto].
  destruct (frugal_mtime _ _ _) as [[|]|]; [| |]; try (intros H; injection H as _ <-; auto; fail).
  destruct (copy S now w1 (cstr k) (prefix ++ SLASH :: cstr v)) as [ok2 w2] eqn:CP. intros H. injection H as _ <-.
  eapply changes_trans; [exact CH|]. apply within_changes; [apply dest_below|apply dest_not, C1|]. eapply copy_effect; eauto.
Qed.
End Run.
