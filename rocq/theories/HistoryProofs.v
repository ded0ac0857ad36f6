(** * Histories of edits and builds. *)

From Coq Require Import ZArith Ascii String Lia Bool List.
From Verif Require Import Base FileSys Frugal Deps Log Cookie CookieProofs Pool PoolInv SpecPool PoolProofs PoolOwn Build SpecFiles SpecBuild FrugalProofs BuildProofs CompileProofs StepProofs MomentProofs SpecHistory LinkProofs.
Import ListNotations.
Local Open Scope nat_scope.

Lemma same_content_refl a : same_content a a.
Proof. destruct a; cbn; auto. Qed.
Lemma same_content_sym a b : same_content a b -> same_content b a.
Proof. destruct a, b; cbn; auto. Qed.
Lemma same_content_trans a b c : same_content a b -> same_content b c -> same_content a c.
Proof. destruct a, b; cbn; try tauto; intros ->; auto. Qed.

(** Absent, or modified after [t]. *)
Definition newer (f : fs) (p : bytes) (t : Z) : Prop := forall t', modified_at f p t' -> (t < t')%Z.

Lemma newer_same f f' p t : f' p = f p -> newer f p t -> newer f' p t.
Proof. unfold newer, modified_at, stat. intros ->. auto. Qed.

(** Plain flags are determined by their record. *)
Lemma flag_str_lines fl : Forall plain fl -> flag_str fl = lines fl.
Proof.
  induction 1 as [|x fl [H1 H2] _ IH]; cbn; auto. replace (has_byte NUL x) with false; [now rewrite IH|].
  symmetry. now apply has_byte_not_In.
Qed.

Lemma flag_str_inj a b : Forall plain a -> Forall plain b -> flag_str a = flag_str b -> a = b.
Proof.
  intros A B. rewrite !flag_str_lines by auto. revert b B. induction A as [|x a [N1 _] A IH]; intros b B H.
  - destruct b as [|y b]; auto. cbn in H. destruct y; discriminate.
  - destruct B as [|y b [N2 _] B]; [cbn in H; destruct x; discriminate|]. cbn in H.
    assert (Y : x = y /\ lines a = lines b).
    { revert y N1 N2 H. induction x as [|c x IHx]; intros [|d y] N1 N2 H; cbn in H.
      - injection H as H. auto.
      - injection H as <- _. exfalso. apply N2. cbn. auto.
      - injection H as -> _. exfalso. apply N1. cbn. auto.
      - injection H as -> H. destruct (IHx y) as [-> ->]; auto.
        + intros X. apply N1. cbn. auto.
        + intros X. apply N2. cbn. auto. }
    destruct Y as [-> Y]. f_equal. auto.
Qed.

Section Setting.
Variable E : env.
Variables area inst_area : bytes -> Prop.
Hypothesis GE : good_env E area inst_area.
Hypothesis HT : honest_tools E area inst_area.
Hypothesis MONO : monotone (clock E).
Variable objs : item -> Prop.
Variable reqs : link_req -> Prop.
Hypothesis PR : project E area inst_area objs reqs.
Notation source := (source area inst_area).
Notation in_area := (in_area area).
Notation good_script := (good_script area inst_area objs reqs).

Lemma GL : ld_reads E area inst_area.
Proof. intros r f f' H. apply (ht_ld _ _ _ HT). intros p Hp. rewrite (H p) by auto. apply same_content_refl. Qed.

Lemma belongs_area o p : in_area o -> belongs o p -> area p.
Proof. intros (_ & A & B) [->|[k ->]]; auto. Qed.

Lemma source_not_area o p : in_area o -> source p -> ~ belongs o p.
Proof. intros A [S _] B. apply S. eapply belongs_area; eauto. Qed.

(** Two products of different names share no file. *)
Lemma belongs_distinct a b p : in_area a -> in_area b -> a <> b -> belongs a p -> ~ belongs b p.
Proof.
  intros (Pa & _) (Pb & _) N [->|[k ->]] [O|[k' O]].
  - auto.
  - symmetry in O. revert O. apply Pa.
  - revert O. apply Pb.
  - revert O. apply side_neq. auto.
Qed.

Lemma req_good r : reqs r -> good_link area inst_area r.
Proof.
  intros R. constructor; [now apply (pr_larea _ _ _ _ _ PR)|]. intros s Hs.
  destruct (pr_inputs _ _ _ _ _ PR r s R Hs) as [N [S|[(it & O & ->)|(r' & R' & ->)]]].
  - split; [apply S|]. apply source_not_area; auto. now apply (pr_larea _ _ _ _ _ PR).
  - pose proof (pr_area _ _ _ _ _ PR it O) as (P & A & _). split; [now apply (ge_apart _ _ _ GE)|].
    intros [X|[k X]]; [auto|]. symmetry in X. revert X. apply P.
  - pose proof (pr_larea _ _ _ _ _ PR r' R') as (P & A & _). split; [now apply (ge_apart _ _ _ GE)|].
    intros [X|[k X]]; [auto|]. symmetry in X. revert X. apply P.
Qed.

(** *** The invariant *)

Definition plain_file (f : fs) (p : bytes) : Prop := f p = Absent \/ exists c t, f p = File c t.

Definition obj_inv (f : fs) (it : item) : Prop :=
  forall obj t, recorded f it -> f (it_out it) = File obj t ->
  (exists f0 text, cc_on E it f0 = ToolOk text obj /\ forall p, source p -> same_content (f p) (f0 p) \/ newer f p t) /\
  forall c, read_file f (deps_path (it_out it)) = Some c ->
  exists f1 o, deps_on E it f1 = Some o /\ c = deps_content (parse_deps o) /\
  forall p, source p -> same_content (f p) (f1 p) \/ newer f p t.

Definition link_inv (f : fs) (r : link_req) : Prop :=
  forall c t, lrecorded f r -> f (lk_out r) = File c t ->
  exists f0 text, ld_on E r f0 = ToolOk text c /\
  forall p, In p (lk_srcs r) -> same_content (f p) (f0 p) \/ newer f p t.

Record Inv (w : world) : Prop := {
  i_time : forall it c t, objs it -> files w (it_out it) = File c t -> (t <= clock E (tick w))%Z;
  i_ltime : forall r c t, reqs r -> files w (lk_out r) = File c t -> (t <= clock E (tick w))%Z;
  i_plain : forall it, objs it -> plain_file (files w) (it_out it) /\ plain_file (files w) (deps_path (it_out it)) /\
                                 plain_file (files w) (flags_path (it_out it));
  i_lplain : forall r, reqs r -> plain_file (files w) (lk_out r) /\ plain_file (files w) (flags_path (lk_out r));
  i_obj : forall it, objs it -> obj_inv (files w) it;
  i_dep : forall it, objs it -> deps_are_sources area inst_area (files w) (it_out it);
  i_link : forall r, reqs r -> link_inv (files w) r;
}.

(** While a script runs: products linked in this run have inputs that are no longer to be made. *)
Definition Run (T0 : Z) (todo : list bstep) (w : world) : Prop :=
  (T0 <= clock E (tick w))%Z /\
  forall r c t, reqs r -> files w (lk_out r) = File c t -> (t < T0)%Z \/ forall s, In s (lk_srcs r) -> ~ In s (outs todo).

Lemma inv_start w : (forall p, area p -> files w p = Absent) -> Inv w.
Proof.
  intros H.
  assert (HA : forall it, objs it -> files w (it_out it) = Absent /\ forall k, files w (side_file k (it_out it)) = Absent).
  { intros it O. destruct (pr_area _ _ _ _ _ PR it O) as (_ & A & B). auto. }
  assert (HL : forall r, reqs r -> files w (lk_out r) = Absent /\ forall k, files w (side_file k (lk_out r)) = Absent).
  { intros r O. destruct (pr_larea _ _ _ _ _ PR r O) as (_ & A & B). auto. }
  constructor.
  - intros it c t O F. destruct (HA it O) as [X _]. congruence.
  - intros r c t O F. destruct (HL r O) as [X _]. congruence.
  - intros it O. destruct (HA it O) as [X Y]. repeat split; left; auto. apply (Y SDeps). apply (Y SFlags).
  - intros r O. destruct (HL r O) as [X Y]. repeat split; left; auto. apply (Y SFlags).
  - intros it O obj t _ F. destruct (HA it O) as [X _]. congruence.
  - intros it O c d F. unfold read_file in F. destruct (HA it O) as [_ X]. change (deps_path (it_out it)) with (side_file SDeps (it_out it)) in F. rewrite X in F. discriminate.
  - intros r O c t _ F. destruct (HL r O) as [X _]. congruence.
Qed.

(** Reading a product's files is unaffected by changes elsewhere. *)
Lemma inv_edit w w' : Inv w -> tick w <= tick w' ->
  (forall p, area p -> files w' p = files w p) ->
  (forall p, source p -> files w' p = files w p \/ newer (files w') p (clock E (tick w))) ->
  Inv w'.
Proof.
  intros [IT IL IP ILP IO ID IK] Tk Ar Ed.
  assert (HA : forall it, objs it -> files w' (it_out it) = files w (it_out it) /\ forall k, files w' (side_file k (it_out it)) = files w (side_file k (it_out it))).
  { intros it O. destruct (pr_area _ _ _ _ _ PR it O) as (_ & A & B). auto. }
  assert (HL : forall r, reqs r -> files w' (lk_out r) = files w (lk_out r) /\ forall k, files w' (side_file k (lk_out r)) = files w (side_file k (lk_out r))).
  { intros r O. destruct (pr_larea _ _ _ _ _ PR r O) as (_ & A & B). auto. }
  pose proof (MONO _ _ Tk) as Mk.
  assert (Nw : forall p t, (t <= clock E (tick w))%Z -> newer (files w') p (clock E (tick w)) -> newer (files w') p t).
  { intros p t Ht N t' Ht'. specialize (N t' Ht'). lia. }
  constructor.
  - intros it c t O F. destruct (HA it O) as [X _]. rewrite X in F. specialize (IT it c t O F). lia.
  - intros r c t O F. destruct (HL r O) as [X _]. rewrite X in F. specialize (IL r c t O F). lia.
  - intros it O. destruct (HA it O) as [X Y]. pose proof (Y SDeps) as Y1. pose proof (Y SFlags) as Y2. unfold plain_file.
    change (deps_path (it_out it)) with (side_file SDeps (it_out it)). change (flags_path (it_out it)) with (side_file SFlags (it_out it)).
    rewrite X, Y1, Y2. apply (IP it O).
  - intros r O. destruct (HL r O) as [X Y]. pose proof (Y SFlags) as Y2. unfold plain_file.
    change (flags_path (lk_out r)) with (side_file SFlags (lk_out r)). rewrite X, Y2. apply (ILP r O).
  - intros it O obj t R F. destruct (HA it O) as [X Y].
    assert (R0 : recorded (files w) it) by (eapply recorded_same; [apply (Y SFlags)|exact R]).
    rewrite X in F.
    assert (Move : forall f, (forall p, source p -> same_content (files w p) (f p) \/ newer (files w) p t) ->
      forall p, source p -> same_content (files w' p) (f p) \/ newer (files w') p t).
    { intros f A4 p Sp. destruct (Ed p Sp) as [Eq|N].
      - rewrite Eq. destruct (A4 p Sp) as [|N]; auto. right. eapply newer_same; eauto.
      - right. apply Nw; auto. eapply IT; eauto. }
    destruct (IO it O obj t R0 F) as ((f0 & text & A1 & A2) & A3). split.
    + exists f0, text. auto.
    + intros c D. destruct (A3 c) as (f1 & o & B1 & B2 & B3).
      { unfold read_file in *. rewrite <- (Y SDeps : files w' (deps_path (it_out it)) = files w (deps_path (it_out it))). auto. }
      exists f1, o. auto.
  - intros it O c d D. apply (ID it O). unfold read_file in *. destruct (HA it O) as [_ Y]. rewrite <- (Y SDeps : files w' (deps_path (it_out it)) = files w (deps_path (it_out it))). auto.
  - intros r O c t R F. destruct (HL r O) as [X Y].
    assert (R0 : lrecorded (files w) r) by (eapply recorded_same; [apply (Y SFlags)|exact R]).
    rewrite X in F. destruct (IK r O c t R0 F) as (f0 & text & A1 & A2). exists f0, text. split; auto.
    intros p Hp. destruct (pr_inputs _ _ _ _ _ PR r p O Hp) as [_ [S|[(it & O' & ->)|(r' & O' & ->)]]].
    + destruct (Ed p S) as [Eq|N].
      * rewrite Eq. destruct (A2 p Hp) as [|N]; auto. right. eapply newer_same; eauto.
      * right. apply Nw; auto. eapply IL; eauto.
    + destruct (HA it O') as [X' _]. rewrite X'. destruct (A2 _ Hp) as [|N]; auto. right. eapply newer_same; eauto.
    + destruct (HL r' O') as [X' _]. rewrite X'. destruct (A2 _ Hp) as [|N]; auto. right. eapply newer_same; eauto.
Qed.

(** *** A step *)

(** One product [out] may have changed: its object (not necessarily), its record of flags. *)
Definition obj_guard (w w' : world) (it : item) : Prop :=
  recorded (files w) it \/ (forall c t, files w (it_out it) <> File c t) \/ made E w w' it.

Lemma obj_step w w' it it' : Inv w -> objs it -> objs it' -> it_out it = it_out it' ->
  moment E w w' it -> obj_guard w w' it ->
  (forall p, source p -> files w' p = files w p) ->
  obj_inv (files w') it'.
Proof.
  intros I O O' Eo M G Src obj t R F. destruct M as [Mf _ Mo Md]. rewrite <- Eo in *.
  assert (Es : it_src it' = it_src it) by (symmetry; apply (pr_same _ _ _ _ _ PR); auto).
  assert (Same : forall f, recorded f it -> recorded f it' -> cc_on E it' = cc_on E it /\ deps_on E it' = deps_on E it).
  { intros f (c1 & t1 & A1 & B1) (c2 & t2 & A2 & B2). rewrite Eo in A1. assert (c1 = c2) by congruence. subst c2.
    assert (Ef : it_flags it' = it_flags it).
    { apply flag_str_inj; [apply (pr_plain _ _ _ _ _ PR); auto|apply (pr_plain _ _ _ _ _ PR); auto|congruence]. }
    unfold cc_on, deps_on. rewrite Ef, Es. auto. }
  assert (Now : forall p, source p -> same_content (files w' p) (files w p) \/ newer (files w') p t).
  { intros p Sp. left. rewrite Src by auto. apply same_content_refl. }
  assert (Made : made E w w' it -> (exists f0 text, cc_on E it' f0 = ToolOk text obj /\ forall p, source p -> same_content (files w' p) (f0 p) \/ newer (files w') p t) /\
      forall c, read_file (files w') (deps_path (it_out it)) = Some c ->
      exists f1 o, deps_on E it' f1 = Some o /\ c = deps_content (parse_deps o) /\
      forall p, source p -> same_content (files w' p) (f1 p) \/ newer (files w') p t).
  { intros (text & obj' & tau & B1 & B2 & B3 & B4 & B5).
    destruct (i_plain w I it O) as (P1 & P2 & P3).
    assert (FF : flags_fine E (files w) it).
    { split; auto. apply (pr_write _ _ _ _ _ PR). destruct (pr_area _ _ _ _ _ PR it O) as (_ & _ & A). apply (A SFlags). }
    destruct (Same (files w') (B5 FF) R) as [S1 S2]. rewrite S1, S2.
    destruct (ht_deps _ _ _ HT it (files w) text obj') as [o Ho]; [exact B1|].
    destruct (B4 o Ho) as [td Td].
    { split; auto. apply (pr_write _ _ _ _ _ PR). destruct (pr_area _ _ _ _ _ PR it O) as (_ & _ & A). apply (A SDeps). }
    assert (obj' = obj) by congruence. subst obj'. split.
    - exists (files w), text. split; auto.
    - intros c D. exists (files w), o. split; auto. split; auto. unfold read_file in D. rewrite Td in D. congruence. }
  destruct G as [G|[G|G]]; [| |auto].
  - (* flags already recorded *)
    destruct Mf as [Mf|[Mf _]]; [|contradiction].
    assert (R0 : recorded (files w) it').
    { eapply recorded_same; [|exact R]. rewrite <- Eo. exact Mf. }
    destruct (Same (files w) G R0) as [S1 S2].
    destruct Mo as [Mo|[Mo|[(tx & cx & t' & Mo & _)|Mo]]]; [|congruence|exfalso; eapply (ht_clean _ _ _ HT); eauto|auto].
    rewrite Mo in F. rewrite Eo in F.
    assert (Move : forall f, (forall p, source p -> same_content (files w p) (f p) \/ newer (files w) p t) ->
      forall p, source p -> same_content (files w' p) (f p) \/ newer (files w') p t).
    { intros f A p Sp. rewrite Src by auto. destruct (A p Sp) as [|N]; auto. right. eapply newer_same; [|exact N]. auto. }
    destruct (i_obj w I it' O' obj t R0 F) as ((f0 & text & A1 & A2) & A3). split; [exists f0, text; auto|].
    intros c D. destruct Md as [Md|(o & td & Md1 & Md2)].
    + destruct (A3 c) as (f1 & o & B1 & B2 & B3); [unfold read_file in *; rewrite <- Eo, <- Md; auto|]. exists f1, o. auto.
    + (* dependencies were just extracted, though the object is old *)
      exists (files w), o. split; [rewrite S2; exact Md1|]. split; auto. unfold read_file in D. rewrite Md2 in D. congruence.
  - (* no product before *)
    destruct Mo as [Mo|[Mo|[(tx & cx & t' & Mo & _)|Mo]]]; [|congruence|exfalso; eapply (ht_clean _ _ _ HT); eauto|auto].
    rewrite Mo in F. exfalso. eapply G; eauto.
Qed.

Lemma items_good its w : Inv w -> (forall it, In it its -> objs it) -> NoDup (map it_out its) ->
  good_items area inst_area its (files w).
Proof.
  intros I O ND. constructor; auto.
  - intros it Hin. apply (pr_area _ _ _ _ _ PR); auto.
  - intros it Hin. apply (pr_src _ _ _ _ _ PR); auto.
  - intros it Hin. apply (i_dep w I); auto.
Qed.

Section Compile.
Variables (its : list item) (w w' : world).
Hypothesis I : Inv w.
Hypothesis O : forall it, In it its -> objs it.
Hypothesis M : moments E inst_area its w w'.

Lemma c_source p : source p -> files w' p = files w p.
Proof.
  intros S. apply (ms_frame _ _ _ _ _ M); [apply S|]. intros it Hin. apply source_not_area; auto. apply (pr_area _ _ _ _ _ PR); auto.
Qed.

Lemma c_other o p : in_area o -> ~ In o (map it_out its) -> belongs o p -> files w' p = files w p.
Proof.
  intros A N B. apply (ms_frame _ _ _ _ _ M).
  - apply (ge_apart _ _ _ GE). eapply belongs_area; eauto.
  - intros it Hin. apply (belongs_distinct o); auto.
    + apply (pr_area _ _ _ _ _ PR); auto.
    + intros ->. apply N. now apply in_map.
Qed.

Lemma c_link r p : reqs r -> belongs (lk_out r) p -> files w' p = files w p.
Proof.
  intros R B. apply (c_other (lk_out r)); auto.
  - now apply (pr_larea _ _ _ _ _ PR).
  - intros Hin. apply in_map_iff in Hin. destruct Hin as (it & Eq & Hin). revert Eq. apply (pr_apart _ _ _ _ _ PR); auto.
Qed.

Lemma c_out it : In it its -> (forall c t, files w' (it_out it) = File c t ->
    (files w (it_out it) = File c t) \/ exists tau, t = clock E tau /\ tick w <= tau < tick w').
Proof.
  intros Hin c t F. destruct (m_out _ _ _ _ (ms_items _ _ _ _ _ M it Hin)) as [Mo|[Mo|[(tx & cx & t' & Mo & _)|(text & obj & tau & B1 & B2 & B3 & _)]]].
  - left. congruence.
  - congruence.
  - exfalso. eapply (ht_clean _ _ _ HT); eauto.
  - right. exists tau. split; auto. congruence.
Qed.

(** An object that changed is newer than everything before the step. *)
Lemma c_out_newer it T : In it its -> (T < clock E (tick w))%Z ->
  files w' (it_out it) = files w (it_out it) \/ newer (files w') (it_out it) T.
Proof.
  intros Hin HTl. destruct (m_out _ _ _ _ (ms_items _ _ _ _ _ M it Hin)) as [Mo|[Mo|[(tx & cx & t' & Mo & _)|(text & obj & tau & B1 & B2 & B3 & _)]]].
  - auto.
  - right. intros t' Ht. unfold modified_at, stat in Ht. rewrite Mo in Ht. discriminate.
  - exfalso. eapply (ht_clean _ _ _ HT); eauto.
  - right. intros t' Ht. unfold modified_at, stat in Ht. rewrite B2 in Ht. injection Ht as <-.
    assert (clock E (tick w) <= clock E tau)%Z by (apply MONO; lia). lia.
Qed.

Theorem compile_inv T0 todo : (forall it, In it its -> obj_guard w w' it) -> Run T0 (SCompile its :: todo) w ->
  Inv w' /\ Run T0 todo w'.
Proof.
  intros G [RT RR]. pose proof (ms_tick _ _ _ _ _ M) as Tk. pose proof (MONO _ _ Tk) as Mk.
  assert (Dec : forall it, objs it -> (exists it', In it' its /\ it_out it' = it_out it) \/ ~ In (it_out it) (map it_out its)).
  { intros it _. destruct (in_dec bytes_dec (it_out it) (map it_out its)) as [H|H]; auto.
    left. apply in_map_iff in H. destruct H as (x & Hx & Hin). eauto. }
  assert (Un : forall it, objs it -> ~ In (it_out it) (map it_out its) -> forall p, belongs (it_out it) p -> files w' p = files w p).
  { intros it Ho N p B. apply (c_other (it_out it)); auto. apply (pr_area _ _ _ _ _ PR); auto. }
  split; [constructor|].
  - intros it c t Ho F. destruct (Dec it Ho) as [(it' & Hin & Eq)|N].
    + rewrite <- Eq in F. destruct (c_out it' Hin c t F) as [F0|(tau & -> & Ht)].
      * pose proof (i_time w I it' c t (O it' Hin) F0). lia.
      * apply MONO. lia.
    + rewrite (Un it Ho N) in F by (left; auto). pose proof (i_time w I it c t Ho F). lia.
  - intros r c t Hr F. rewrite (c_link r) in F by (auto; left; auto). pose proof (i_ltime w I r c t Hr F). lia.
  - intros it Ho. destruct (Dec it Ho) as [(it' & Hin & Eq)|N].
    + rewrite <- Eq. destruct (i_plain w I it' (O it' Hin)) as (P1 & P2 & P3).
      destruct (ms_items _ _ _ _ _ M it' Hin) as [Mf _ Mo Md]. split; [|split].
      * destruct Mo as [Mo|[Mo|[(tx & cx & t' & _ & Mo)|(text & obj & tau & _ & Mo & _)]]]; unfold plain_file; rewrite Mo; eauto.
      * destruct Md as [Md|(o & t & _ & Md)]; unfold plain_file; rewrite Md; eauto.
      * destruct Mf as [Mf|[_ (c & t & Mf & _)]]; unfold plain_file; rewrite Mf; eauto.
    + unfold plain_file. rewrite !(Un it Ho N).
      * apply (i_plain w I it Ho).
      * right. exists SFlags. reflexivity.
      * right. exists SDeps. reflexivity.
      * left. auto.
  - intros r Hr. unfold plain_file. rewrite !(c_link r); auto.
    + apply (i_lplain w I r Hr).
    + right. exists SFlags. reflexivity.
    + left. auto.
  - intros it Ho. destruct (Dec it Ho) as [(it' & Hin & Eq)|N].
    + eapply (obj_step w w' it' it); eauto.
      * apply (ms_items _ _ _ _ _ M it' Hin).
      * apply c_source.
    + intros obj t R F. assert (Same := Un it Ho N).
      assert (R0 : recorded (files w) it) by (eapply recorded_same; [apply Same; right; exists SFlags; reflexivity|exact R]).
      rewrite Same in F by (left; auto).
      assert (Move : forall f, (forall p, source p -> same_content (files w p) (f p) \/ newer (files w) p t) ->
        forall p, source p -> same_content (files w' p) (f p) \/ newer (files w') p t).
      { intros f A p Sp. rewrite c_source by auto. destruct (A p Sp) as [|Nw]; auto. right. eapply newer_same; [|exact Nw]. now apply c_source. }
      destruct (i_obj w I it Ho obj t R0 F) as ((f0 & text & A1 & A2) & A3). split; [exists f0, text; auto|].
      intros c D. destruct (A3 c) as (f1 & o & B1 & B2 & B3); [|exists f1, o; auto].
      unfold read_file in *. rewrite <- (Same (deps_path (it_out it))); auto. right. exists SDeps. reflexivity.
  - intros it Ho c d D Hd. destruct (Dec it Ho) as [(it' & Hin & Eq)|N].
    + rewrite <- Eq in *. destruct (m_deps _ _ _ _ (ms_items _ _ _ _ _ M it' Hin)) as [Md|(o & t & Md1 & Md2)].
      * apply (i_dep w I it' (O it' Hin) c); auto. unfold read_file in *. rewrite <- Md. auto.
      * unfold read_file in D. rewrite Md2 in D. injection D as <-. eapply (ht_sources _ _ _ HT it'); eauto.
    + apply (i_dep w I it Ho c); auto. unfold read_file in *. rewrite <- (Un it Ho N (deps_path (it_out it))); auto. right. exists SDeps. reflexivity.
  - intros r Hr c t R F.
    assert (R0 : lrecorded (files w) r) by (eapply recorded_same; [apply (c_link r); auto; right; exists SFlags; reflexivity|exact R]).
    rewrite (c_link r) in F by (auto; left; auto).
    destruct (i_link w I r Hr c t R0 F) as (f0 & text & A1 & A2). exists f0, text. split; auto.
    intros p Hp. assert (Keep : files w' p = files w p -> same_content (files w' p) (f0 p) \/ newer (files w') p t).
    { intros Eq. rewrite Eq. destruct (A2 p Hp) as [|N]; auto. right. eapply newer_same; eauto. }
    destruct (pr_inputs _ _ _ _ _ PR r p Hr Hp) as [_ [S|[(it & Ho & ->)|(r' & Hr' & ->)]]].
    + apply Keep. now apply c_source.
    + destruct (Dec it Ho) as [(it' & Hin & Eq)|N].
      * rewrite <- Eq in *. destruct (RR r c t Hr F) as [Lt|N].
        -- destruct (c_out_newer it' t Hin) as [Same|Nw]; [lia|auto|auto].
        -- exfalso. apply (N (it_out it') Hp). unfold outs. cbn. apply in_or_app. left. now apply in_map.
      * apply Keep. apply (Un it); auto. left; auto.
    + apply Keep. apply (c_link r'); auto. left; auto.
  - split; [lia|]. intros r c t Hr F. rewrite (c_link r) in F by (auto; left; auto).
    destruct (RR r c t Hr F) as [Lt|N]; auto. right. intros s Hs Hin. apply (N s Hs). unfold outs in *. cbn. apply in_or_app. auto.
Qed.
End Compile.

Notation lmade := (lmade E).
Definition link_guard (w w' : world) (r : link_req) : Prop :=
  lrecorded (files w) r \/ (forall c t, files w (lk_out r) <> File c t) \/ lmade w w' r.

Section Link.
Variables (r : link_req) (w w' : world).
Hypothesis I : Inv w.
Hypothesis HR : reqs r.
Hypothesis M : lmoment E inst_area w w' r.

Lemma l_source p : source p -> files w' p = files w p.
Proof.
  intros S. apply (lm_frame _ _ _ _ _ M); [apply S|]. apply source_not_area; auto. now apply (pr_larea _ _ _ _ _ PR).
Qed.
Lemma l_other o p : in_area o -> o <> lk_out r -> belongs o p -> files w' p = files w p.
Proof.
  intros A N B. apply (lm_frame _ _ _ _ _ M).
  - apply (ge_apart _ _ _ GE). eapply belongs_area; eauto.
  - apply (belongs_distinct o); auto. now apply (pr_larea _ _ _ _ _ PR).
Qed.
Lemma l_obj it p : objs it -> belongs (it_out it) p -> files w' p = files w p.
Proof.
  intros Ho. apply l_other; [now apply (pr_area _ _ _ _ _ PR)|now apply (pr_apart _ _ _ _ _ PR)].
Qed.

Lemma l_out_newer T : (T < clock E (tick w))%Z -> files w' (lk_out r) = files w (lk_out r) \/ newer (files w') (lk_out r) T.
Proof.
  intros HTl. destruct (lm_out _ _ _ _ _ M) as [Mo|[Mo|[(tx & cx & t' & Mo & _)|(text & obj & tau & B1 & B2 & B3 & _)]]].
  - auto.
  - right. intros t' Ht. unfold modified_at, stat in Ht. rewrite Mo in Ht. discriminate.
  - exfalso. eapply (ht_clean_ld _ _ _ HT); eauto.
  - right. intros t' Ht. unfold modified_at, stat in Ht. rewrite B2 in Ht. injection Ht as <-.
    assert (clock E (tick w) <= clock E tau)%Z by (apply MONO; lia). lia.
Qed.

Theorem link_inv_step T0 todo : link_guard w w' r -> Run T0 (SLink r :: todo) w ->
  (forall s, In s (lk_srcs r) -> ~ In s (outs todo)) ->
  Inv w' /\ Run T0 todo w'.
Proof.
  intros G [RT RR] Ord. pose proof (lm_tick _ _ _ _ _ M) as Tk. pose proof (MONO _ _ Tk) as Mk.
  assert (Dec : forall r', reqs r' -> lk_out r' = lk_out r \/ lk_out r' <> lk_out r).
  { intros r' _. destruct (bytes_dec (lk_out r') (lk_out r)); auto. }
  assert (Un : forall r', reqs r' -> lk_out r' <> lk_out r -> forall p, belongs (lk_out r') p -> files w' p = files w p).
  { intros r' Hr N p B. apply (l_other (lk_out r')); auto. now apply (pr_larea _ _ _ _ _ PR). }
  destruct (i_lplain w I r HR) as [P1 P2].
  split; [constructor|].
  - intros it c t Ho F. rewrite (l_obj it) in F by (auto; left; auto). pose proof (i_time w I it c t Ho F). lia.
  - intros r' c t Hr F. destruct (Dec r' Hr) as [Eq|N].
    + rewrite Eq in F. destruct (lm_out _ _ _ _ _ M) as [Mo|[Mo|[(tx & cx & t' & Mo & _)|(text & obj & tau & B1 & B2 & B3 & _)]]].
      * rewrite Mo in F. pose proof (i_ltime w I r c t HR F). lia.
      * congruence.
      * exfalso. eapply (ht_clean_ld _ _ _ HT); eauto.
      * assert (t = clock E tau) by congruence. subst. apply MONO. lia.
    + rewrite (Un r' Hr N) in F by (left; auto). pose proof (i_ltime w I r' c t Hr F). lia.
  - intros it Ho. unfold plain_file. rewrite !(l_obj it); auto.
    + apply (i_plain w I it Ho).
    + right. exists SFlags. reflexivity.
    + right. exists SDeps. reflexivity.
    + left. auto.
  - intros r' Hr. destruct (Dec r' Hr) as [Eq|N].
    + rewrite Eq. split.
      * destruct (lm_out _ _ _ _ _ M) as [Mo|[Mo|[(tx & cx & t' & _ & Mo)|(text & obj & tau & B1 & Mo & B3 & _)]]]; unfold plain_file; rewrite Mo; eauto.
      * destruct (lm_flags _ _ _ _ _ M) as [Mf|[_ (c & t & Mf & _)]]; unfold plain_file; change (it_out (as_item r)) with (lk_out r) in Mf; rewrite Mf; eauto.
    + unfold plain_file. rewrite !(Un r' Hr N).
      * apply (i_lplain w I r' Hr).
      * right. exists SFlags. reflexivity.
      * left. auto.
  - intros it Ho obj t R F. assert (Same := fun p => l_obj it p Ho).
    assert (R0 : recorded (files w) it) by (eapply recorded_same; [apply Same; right; exists SFlags; reflexivity|exact R]).
    rewrite Same in F by (left; auto).
    assert (Move : forall f, (forall p, source p -> same_content (files w p) (f p) \/ newer (files w) p t) ->
      forall p, source p -> same_content (files w' p) (f p) \/ newer (files w') p t).
    { intros f A p Sp. rewrite l_source by auto. destruct (A p Sp) as [|Nw]; auto. right. eapply newer_same; [|exact Nw]. now apply l_source. }
    destruct (i_obj w I it Ho obj t R0 F) as ((f0 & text & A1 & A2) & A3). split; [exists f0, text; auto|].
    intros c D. destruct (A3 c) as (f1 & o & B1 & B2 & B3); [|exists f1, o; auto].
    unfold read_file in *. rewrite <- (Same (deps_path (it_out it))); auto. right. exists SDeps. reflexivity.
  - intros it Ho c d D Hd. apply (i_dep w I it Ho c); auto. unfold read_file in *. rewrite <- (l_obj it (deps_path (it_out it))); auto. right. exists SDeps. reflexivity.
  - intros r' Hr c t R F. destruct (Dec r' Hr) as [Eq|N].
    + destruct (pr_lsame _ _ _ _ _ PR r' r Hr HR Eq) as [Ek Es].
      assert (Same : forall f, lrecorded f r -> lrecorded f r' -> ld_on E r' = ld_on E r).
      { intros f (c1 & t1 & A1 & B1) (c2 & t2 & A2 & B2). cbn in *. rewrite Eq in A2. assert (c1 = c2) by congruence. subst c2.
        assert (Ef : lk_flags r' = lk_flags r).
        { apply flag_str_inj; [apply (pr_lplain _ _ _ _ _ PR); auto|apply (pr_lplain _ _ _ _ _ PR); auto|congruence]. }
        unfold ld_on. rewrite Ef, Es, Ek, Eq. auto. }
      (* the inputs are not touched by this step *)
      assert (Inp : forall p, In p (lk_srcs r) -> files w' p = files w p).
      { intros p Hp. destruct (pr_inputs _ _ _ _ _ PR r p HR Hp) as [Np [S|[(it & Ho & ->)|(r2 & Hr2 & ->)]]].
        - now apply l_source.
        - apply (l_obj it); auto. left; auto.
        - apply (Un r2); auto. left; auto. }
      assert (Made : lmade w w' r -> exists f0 text, ld_on E r' f0 = ToolOk text c /\
                forall p, In p (lk_srcs r') -> same_content (files w' p) (f0 p) \/ newer (files w') p t).
      { intros (text & c' & tau & B1 & B2 & B3 & B4).
        assert (FF : flags_fine E (files w) (as_item r)).
        { split; auto. apply (pr_write _ _ _ _ _ PR). destruct (pr_larea _ _ _ _ _ PR r HR) as (_ & _ & A). apply (A SFlags). }
        rewrite (Same (files w') (B4 FF) R). rewrite Eq in F. assert (c' = c) by congruence. subst.
        exists (files w), text. split; auto. intros p Hp. left. rewrite Es in Hp. rewrite Inp by auto. apply same_content_refl. }
      rewrite Eq in F.
      destruct G as [G|[G|G]]; [| |auto].
      * destruct (lm_flags _ _ _ _ _ M) as [Mf|[Mf _]]; [|contradiction].
        assert (Rr : lrecorded (files w') r) by (eapply recorded_same; [symmetry; exact Mf|exact G]).
        assert (R0 : lrecorded (files w) r').
        { eapply recorded_same; [|exact R]. cbn in *. rewrite Eq. exact Mf. }
        destruct (lm_out _ _ _ _ _ M) as [Mo|[Mo|[(tx & cx & t' & Mo & _)|Mo]]]; [|congruence|exfalso; eapply (ht_clean_ld _ _ _ HT); eauto|auto].
        rewrite Mo in F. rewrite <- Eq in F. destruct (i_link w I r' Hr c t R0 F) as (f0 & text & A1 & A2).
        exists f0, text. split; auto. intros p Hp. pose proof Hp as Hp'. rewrite Es in Hp'. rewrite Inp by auto.
        destruct (A2 p Hp) as [|Nw]; auto. right. eapply newer_same; [|exact Nw]. auto.
      * destruct (lm_out _ _ _ _ _ M) as [Mo|[Mo|[(tx & cx & t' & Mo & _)|Mo]]]; [|congruence|exfalso; eapply (ht_clean_ld _ _ _ HT); eauto|auto].
        rewrite Mo in F. exfalso. eapply G; eauto.
    + assert (R0 : lrecorded (files w) r') by (eapply recorded_same; [apply (Un r' Hr N); right; exists SFlags; reflexivity|exact R]).
      rewrite (Un r' Hr N) in F by (left; auto).
      destruct (i_link w I r' Hr c t R0 F) as (f0 & text & A1 & A2). exists f0, text. split; auto.
      intros p Hp. assert (Keep : files w' p = files w p -> same_content (files w' p) (f0 p) \/ newer (files w') p t).
      { intros Eq. rewrite Eq. destruct (A2 p Hp) as [|Nw]; auto. right. eapply newer_same; eauto. }
      destruct (pr_inputs _ _ _ _ _ PR r' p Hr Hp) as [_ [S|[(it & Ho & ->)|(r2 & Hr2 & ->)]]].
      * apply Keep. now apply l_source.
      * apply Keep. apply (l_obj it); auto. left; auto.
      * destruct (Dec r2 Hr2) as [Eq2|N2].
        -- rewrite Eq2 in *. destruct (RR r' c t Hr F) as [Lt|Nin].
           ++ destruct (l_out_newer t) as [Same|Nw]; [lia|auto|auto].
           ++ exfalso. apply (Nin (lk_out r) Hp). unfold outs. cbn. auto.
        -- apply Keep. apply (Un r2); auto. left; auto.
  - split; [lia|]. intros r' c t Hr F. destruct (Dec r' Hr) as [Eq|N].
    + right. destruct (pr_lsame _ _ _ _ _ PR r' r Hr HR Eq) as [_ ->]. auto.
    + rewrite (Un r' Hr N) in F by (left; auto). destruct (RR r' c t Hr F) as [Lt|Nin]; auto.
      right. intros s Hs Hin. apply (Nin s Hs). unfold outs in *. cbn. auto.
Qed.
End Link.

(** *** Products that need no work are current *)

Lemma not_newer f p t : (exists td, modified_at f p td /\ (td <= t)%Z) -> ~ newer f p t.
Proof. intros (td & A & B) N. specialize (N td A). lia. Qed.

Lemma fresh_current w it : Inv w -> objs it -> fresh (files w) it -> obj_current E (files w) it.
Proof.
  intros I Ho (R & c & D & (t & Ht & U)).
  destruct (i_plain w I it Ho) as (P & _).
  destruct P as [P|(obj & t' & P)]; [unfold modified_at, stat in Ht; rewrite P in Ht; discriminate|].
  assert (t' = t) by (unfold modified_at, stat in Ht; rewrite P in Ht; congruence). subst t'.
  destruct (i_obj w I it Ho obj t R P) as ((f0 & text & A1 & A2) & A3).
  destruct (A3 c D) as (f1 & o & B1 & B2 & B3).
  pose proof (pr_src _ _ _ _ _ PR it Ho) as Ss.
  assert (Dep : forall p, p = it_src it \/ In p (listed o) -> source p /\ ~ newer (files w) p t).
  { intros p Hp. split.
    - destruct Hp as [->|Hp]; auto. apply (i_dep w I it Ho c p D). rewrite B2. exact Hp.
    - apply not_newer. apply U. destruct Hp as [->|Hp]; [cbn; auto|]. right. rewrite B2. exact Hp. }
  assert (C0 : forall p, p = it_src it \/ In p (listed o) -> same_content (files w p) (f0 p)).
  { intros p Hp. destruct (Dep p Hp) as [Sp N]. destruct (A2 p Sp) as [X|X]; [auto|contradiction]. }
  assert (C1 : forall p, p = it_src it \/ In p (listed o) -> same_content (files w p) (f1 p)).
  { intros p Hp. destruct (Dep p Hp) as [Sp N]. destruct (B3 p Sp) as [X|X]; [auto|contradiction]. }
  destruct (ht_listed _ _ _ HT it f1 (files w) o B1) as [D1 D2].
  { intros p Hp. apply same_content_sym; auto. }
  destruct (ht_listed _ _ _ HT it f1 f0 o B1) as [D3 D4].
  { intros p Hp. eapply same_content_trans; [apply same_content_sym, C1; auto|auto]. }
  exists text, obj, t. split; auto. congruence.
Qed.

Lemma lfresh_current w r : Inv w -> reqs r -> lfresh (files w) r -> link_current E (files w) r.
Proof.
  intros I Hr (R & (t & Ht & U)).
  destruct (i_lplain w I r Hr) as (P & _).
  destruct P as [P|(c & t' & P)]; [unfold modified_at, stat in Ht; rewrite P in Ht; discriminate|].
  assert (t' = t) by (unfold modified_at, stat in Ht; rewrite P in Ht; congruence). subst t'.
  destruct (i_link w I r Hr c t R P) as (f0 & text & A1 & A2).
  exists text, c, t. split; auto. rewrite <- A1. apply (ht_ld _ _ _ HT).
  intros p Hp. destruct (A2 p Hp) as [X|X]; auto. exfalso. revert X. apply not_newer. apply U. auto.
Qed.

(** *** Whole scripts *)

Definition script_in (bs : list bstep) : Prop :=
  (forall its it, In (SCompile its) bs -> In it its -> objs it) /\ (forall r, In (SLink r) bs -> reqs r).

Lemma script_in_tail b bs : script_in (b :: bs) -> script_in bs.
Proof. intros [A B]. split; [intros its it H; apply (A its it); cbn; auto|intros r H; apply B; cbn; auto]. Qed.

Lemma outs_cons b bs : outs (b :: bs) = step_outs b ++ outs bs.
Proof. reflexivity. Qed.

Lemma step_out_area b bs o : script_in (b :: bs) -> In o (step_outs b) -> in_area o.
Proof.
  intros [A B] H. destruct b as [its|r]; cbn in H.
  - apply in_map_iff in H. destruct H as (it & <- & Hin). apply (pr_area _ _ _ _ _ PR). apply (A its it); cbn; auto.
  - destruct H as [<-|[]]. apply (pr_larea _ _ _ _ _ PR). apply B. cbn; auto.
Qed.

Lemma outs_area bs : script_in bs -> forall o, In o (outs bs) -> in_area o.
Proof.
  induction bs as [|b bs IH]; intros S o H; [destruct H|]. rewrite outs_cons in H. apply in_app_or in H.
  destruct H as [H|H]; [eapply step_out_area; eauto|]. apply IH; auto. eapply script_in_tail; eauto.
Qed.

Lemma nodup_app_l (A : Type) (a b : list A) : NoDup (a ++ b) -> NoDup a /\ NoDup b /\ forall x, In x a -> ~ In x b.
Proof.
  induction a as [|x a IH]; cbn; intros H.
  - repeat split; auto. constructor.
  - inversion H as [|? ? N H']; subst. destruct (IH H') as (A1 & A2 & A3). repeat split; auto.
    + constructor; auto. intros X. apply N. apply in_or_app; auto.
    + intros y [<-|Hy]; auto. intros X. apply N. apply in_or_app; auto.
Qed.

Record started (T0 : Z) (sofar : list bytes) (bs : list bstep) (w : world) : Prop := {
  st_in : script_in bs;
  st_nodup : NoDup (outs bs);
  st_past : forall s, In s sofar -> ~ In s (outs bs);
  st_ord : ordered area inst_area sofar bs;
  st_inv : Inv w;
  st_run : Run T0 bs w;
}.

(** What a step leaves alone. *)
Definition step_frame (b : bstep) (w w' : world) : Prop :=
  tick w <= tick w' /\ forall p, ~ inst_area p -> (forall o, In o (step_outs b) -> ~ belongs o p) -> files w' p = files w p.

Definition sofar_after (sofar : list bytes) (b : bstep) : list bytes :=
  match b with SCompile its => map it_out its ++ sofar | SLink r => lk_out r :: sofar end.

Lemma sofar_after_in sofar b s : In s (sofar_after sofar b) <-> In s (step_outs b) \/ In s sofar.
Proof. destruct b as [its|r]; cbn; [rewrite in_app_iff; tauto|intuition]. Qed.

Lemma started_inputs T0 sofar r bs w : started T0 sofar (SLink r :: bs) w -> forall s, In s (lk_srcs r) -> ~ In s (outs bs).
Proof.
  intros [S N P Or I R] s Hs Hin. destruct Or as [Or _]. destruct (Or s Hs) as [X|X].
  - destruct (outs_area bs (script_in_tail _ _ S) s Hin) as (_ & A & _). apply (proj1 X). auto.
  - apply (P s X). rewrite outs_cons. apply in_or_app. auto.
Qed.

Lemma started_next T0 sofar b bs w w' : started T0 sofar (b :: bs) w -> Inv w' -> Run T0 bs w' ->
  started T0 (sofar_after sofar b) bs w'.
Proof.
  intros [S N P Or I R] I' R'. rewrite outs_cons in N. destruct (nodup_app_l _ _ _ N) as (N1 & N2 & N3).
  constructor; auto.
  - eapply script_in_tail; eauto.
  - intros s Hs. apply sofar_after_in in Hs. destruct Hs as [Hs|Hs]; auto. intros X. apply (P s Hs). rewrite outs_cons. apply in_or_app; auto.
  - destruct b as [its|r]; cbn in *; tauto.
Qed.

(** One successful step. *)
Lemma step_success T0 sofar b bs w rv w' : started T0 sofar (b :: bs) w -> one_step E b w rv w' -> (0 <= rv)%Z ->
  rv = 0%Z /\ started T0 (sofar_after sofar b) bs w' /\ step_frame b w w' /\ step_current E (files w') b.
Proof.
  intros St H Hrv. pose proof St as [S N P Or I R]. rewrite outs_cons in N. destruct (nodup_app_l _ _ _ N) as (N1 & N2 & N3).
  destruct b as [its|r]; cbn [one_step] in H.
  - assert (O : forall it, In it its -> objs it) by (intros it Hin; apply (proj1 S its); cbn; auto).
    assert (GI : good_items area inst_area its (files w)) by now apply items_good.
    destruct (compile_step_rv E area inst_area GE its w rv w' GI H) as [-> | ->]; [|lia].
    pose proof (compile_success E area inst_area GE its w w' GI H) as SS.
    assert (M : moments E inst_area its w w').
    { apply (compile_moments E area inst_area GE); auto. destruct H as (ok & jobs & w1 & s & V & PS & F & W & _). right. exists ok, jobs, w1, s. auto. }
    assert (G : forall it, In it its -> obj_guard w w' it).
    { intros it Hin. destruct (s_cases _ _ _ _ _ SS it Hin) as [F|F]; [left; apply F|]. right. right.
      destruct (s_stale _ _ _ _ _ SS it Hin F) as [(text & obj & tau & A1 & A2 & A3) _ A4 _ _ _].
      exists text, obj, tau. repeat split; auto; try lia. apply (s_flags _ _ _ _ _ SS it Hin). }
    destruct (compile_inv its w w' I O M T0 bs G R) as [I' R'].
    split; auto. split; [eapply started_next; eauto|]. split.
    + split; [apply (ms_tick _ _ _ _ _ M)|]. intros p Hk Hn. apply (ms_frame _ _ _ _ _ M); auto.
      intros it Hin. apply Hn. cbn. now apply in_map.
    + intros it Hin. assert (Src : forall p, source p -> files w' p = files w p) by (eapply c_source; eauto).
      assert (Cc : cc_on E it (files w') = cc_on E it (files w)) by (apply (ge_obj _ _ _ GE); auto).
      unfold obj_current. rewrite Cc.
      destruct (s_cases _ _ _ _ _ SS it Hin) as [F|F].
      * destruct (fresh_current w it I (O it Hin) F) as (text & obj & t & A1 & A2). exists text, obj, t. split; auto.
        rewrite <- A1. apply (k_same _ _ _ (s_fresh _ _ _ _ _ SS it Hin F)). left; auto.
      * destruct (c_result _ _ _ _ (s_stale _ _ _ _ _ SS it Hin F)) as (text & obj & tau & A1 & A2 & A3).
        exists text, obj, (clock E tau). auto.
  - assert (Hr : reqs r) by (apply (proj2 S); cbn; auto).
    pose proof (link_stepped E area inst_area GE GL r (req_good r Hr) w rv w' H) as LS.
    destruct (ls_rv _ _ _ _ _ _ LS) as [-> | ->]; [|lia].
    assert (M : lmoment E inst_area w w' r).
    { apply (link_moment E area inst_area GE GL); [now apply req_good|]. unfold link_during. destruct (frugal_flags _ _ _ _ _) as [ch f1]. right. left. now rewrite H. }
    assert (G : link_guard w w' r).
    { destruct (lfresh_dec (files w) r) as [F|F]; [left; apply F|]. right. right.
      destruct (l_result _ _ _ _ (ls_stale _ _ _ _ _ _ LS F eq_refl)) as (text & c & tau & A1 & A2 & A3).
      exists text, c, tau. repeat split; auto; try lia. apply (ls_flags _ _ _ _ _ _ LS). }
    destruct (link_inv_step r w w' I Hr M T0 bs G R) as [I' R'].
    { eapply started_inputs; eauto. }
    split; auto. split; [eapply started_next; eauto|]. split.
    + split; [apply (lm_tick _ _ _ _ _ M)|]. intros p Hk Hn. apply (lm_frame _ _ _ _ _ M); auto. apply Hn. cbn. auto.
    + cbn. unfold link_current.
      assert (Inp : forall p, In p (lk_srcs r) -> files w' p = files w p).
      { intros p Hp. apply (lm_frame _ _ _ _ _ M); apply (gl_srcs _ _ _ (req_good r Hr) p Hp). }
      assert (Ld : ld_on E r (files w') = ld_on E r (files w)).
      { apply (ht_ld _ _ _ HT). intros p Hp. rewrite Inp by auto. apply same_content_refl. }
      rewrite Ld. destruct (lfresh_dec (files w) r) as [F|F].
      * destruct (lfresh_current w r I Hr F) as (text & c & t & A1 & A2). exists text, c, t. split; auto.
        rewrite <- A1. apply (la_same _ _ _ (ls_fresh _ _ _ _ _ _ LS F)). left; auto.
      * destruct (l_result _ _ _ _ (ls_stale _ _ _ _ _ _ LS F eq_refl)) as (text & c & tau & A1 & A2 & A3).
        exists text, c, (clock E tau). auto.
Qed.

(** Products stay current while other products are made. *)
Lemma step_current_kept b w w' : (forall its it, b = SCompile its -> In it its -> objs it) -> (forall r, b = SLink r -> reqs r) ->
  step_current E (files w) b ->
  (forall p, source p -> files w' p = files w p) ->
  (forall o, In o (step_outs b) -> files w' o = files w o) ->
  (forall r s, b = SLink r -> In s (lk_srcs r) -> files w' s = files w s) ->
  step_current E (files w') b.
Proof.
  intros Ho Hr C Src Out Inp. destruct b as [its|r]; cbn in *.
  - intros it Hin. destruct (C it Hin) as (text & obj & t & A1 & A2). exists text, obj, t. rewrite Out by (now apply in_map).
    split; auto. rewrite <- A2. apply (ge_obj _ _ _ GE). auto.
  - destruct C as (text & c & t & A1 & A2). exists text, c, t. rewrite Out by auto. split; auto. rewrite <- A2.
    apply (ht_ld _ _ _ HT). intros p Hp. rewrite (Inp r p eq_refl Hp). apply same_content_refl.
Qed.

Theorem run_success bs : forall T0 sofar w w', started T0 sofar bs w -> run_steps E bs w 0 w' ->
  Inv w' /\ tick w <= tick w' /\
  (forall p, ~ inst_area p -> (forall o, In o (outs bs) -> ~ belongs o p) -> files w' p = files w p) /\
  (forall b, In b bs -> step_current E (files w') b).
Proof.
  induction bs as [|b bs IH]; intros T0 sofar w w' St H.
  - inversion H; subst. split; [apply St|]. split; auto. split; auto. intros b [].
  - assert (X : exists rv w1, one_step E b w rv w1 /\ (0 <= rv)%Z /\ run_steps E bs w1 0 w') by (inversion H; subst; eauto).
    destruct X as (rv & w1 & X1 & X2 & X3).
    destruct (step_success _ _ _ _ _ _ _ St X1 X2) as (-> & St' & [Tk Fr] & C).
    destruct (IH _ _ _ _ St' X3) as (I' & Tk' & Fr' & C'). pose proof (st_in _ _ _ _ St) as S.
    pose proof (st_nodup _ _ _ _ St) as N. rewrite outs_cons in N. destruct (nodup_app_l _ _ _ N) as (N1 & N2 & N3).
    split; auto. split; [lia|]. split.
    + intros p Hk Hn. rewrite Fr'; auto.
      * apply Fr; auto. intros o Hin. apply Hn. rewrite outs_cons. apply in_or_app; auto.
      * intros o Hin. apply Hn. rewrite outs_cons. apply in_or_app; auto.
    + intros b' [<-|Hin]; auto.
      assert (Keep : forall o, in_area o -> ~ In o (outs bs) -> files w' o = files w1 o).
      { intros o A Nin. apply Fr'.
        - apply (ge_apart _ _ _ GE), A.
        - intros o' Ho'. apply (belongs_distinct o); auto; [apply (outs_area bs); auto; eapply script_in_tail; eauto|intros ->; auto|left; auto]. }
      apply (step_current_kept b w1); auto.
      * intros its it -> Hin. apply (proj1 S its); cbn; auto.
      * intros r ->. apply (proj2 S). cbn; auto.
      * intros p Sp. apply Fr'; [apply Sp|]. intros o Ho. apply source_not_area; auto. apply (outs_area bs); auto. eapply script_in_tail; eauto.
      * intros o Ho. apply Keep; auto. eapply step_out_area; eauto.
      * intros r s -> Hs. assert (Hr : reqs r) by (apply (proj2 S); cbn; auto).
        destruct (pr_inputs _ _ _ _ _ PR r s Hr Hs) as [_ [X|[(it & Hi & ->)|(r' & Hr' & ->)]]].
        -- apply Fr'; [apply X|]. intros o Ho. apply source_not_area; auto. apply (outs_area bs); auto. eapply script_in_tail; eauto.
        -- apply Keep; [now apply (pr_area _ _ _ _ _ PR)|]. eapply started_inputs; eauto.
        -- apply Keep; [now apply (pr_larea _ _ _ _ _ PR)|]. eapply started_inputs; eauto.
Qed.

Lemma same_flags_tail b bs f : same_flags (b :: bs) f -> same_flags bs f.
Proof. intros [A B]. split; [intros its it c t H; apply (A its it c t); cbn; auto|intros r c t H; apply (B r c t); cbn; auto]. Qed.

Lemma in_outs_compile its it bs : In (SCompile its) bs -> In it its -> In (it_out it) (outs bs).
Proof. intros H Hin. unfold outs. apply in_concat. exists (step_outs (SCompile its)). split; [now apply in_map|]. cbn. now apply in_map. Qed.
Lemma in_outs_link r bs : In (SLink r) bs -> In (lk_out r) (outs bs).
Proof. intros H. unfold outs. apply in_concat. exists (step_outs (SLink r)). split; [now apply in_map|]. cbn. auto. Qed.

Theorem run_cut bs : forall T0 sofar w w', started T0 sofar bs w -> same_flags bs (files w) -> during E bs w w' ->
  Inv w' /\ tick w <= tick w'.
Proof.
  induction bs as [|b bs IH]; intros T0 sofar w w' St SF H.
  - inversion H; subst. split; auto. apply St.
  - pose proof (st_in _ _ _ _ St) as S. pose proof (st_nodup _ _ _ _ St) as N. rewrite outs_cons in N.
    destruct (nodup_app_l _ _ _ N) as (N1 & N2 & N3). pose proof (st_inv _ _ _ _ St) as I. pose proof (st_run _ _ _ _ St) as R.
    inversion H; subst.
    + assert (O : forall it, In it its -> objs it) by (intros it Hin; apply (proj1 S its); cbn; auto).
      assert (GI : good_items area inst_area its (files w)) by now apply items_good.
      assert (M : moments E inst_area its w w') by now apply (compile_moments E area inst_area GE).
      split; [|apply (ms_tick _ _ _ _ _ M)].
      refine (proj1 (compile_inv its w w' I O M T0 bs _ R)).
      intros it Hin. destruct (i_plain w I it (O it Hin)) as (P & _). destruct P as [P|(c & t & P)].
      * right. left. intros c t Q. congruence.
      * left. apply (proj1 SF its it c t); cbn; auto.
    + assert (Hr : reqs r) by (apply (proj2 S); cbn; auto).
      assert (M : lmoment E inst_area w w' r) by (apply (link_moment E area inst_area GE GL); auto; now apply req_good).
      split; [|apply (lm_tick _ _ _ _ _ M)].
      refine (proj1 (link_inv_step r w w' I Hr M T0 bs _ R _)).
      * destruct (i_lplain w I r Hr) as (P & _). destruct P as [P|(c & t & P)].
        -- right. left. intros c t Q. congruence.
        -- left. apply (proj2 SF r c t); cbn; auto.
      * eapply started_inputs; eauto.
    + match goal with X : one_step _ _ _ _ _ |- _ => destruct (step_success _ _ _ _ _ _ _ St X) as (-> & St' & [Tk Fr] & C); auto end.
      assert (Keep : forall o p, in_area o -> In o (outs bs) -> belongs o p -> files w1 p = files w p).
      { intros o p A Ho B. apply Fr.
        - apply (ge_apart _ _ _ GE). eapply belongs_area; eauto.
        - intros o' Ho'. apply (belongs_distinct o); auto; [eapply step_out_area; eauto|]. intros ->. apply (N3 o'); auto. }
      destruct (IH T0 _ w1 w' St') as [I' Tk']; auto; [|split; [auto|lia]].
      apply same_flags_tail in SF. destruct SF as [SF1 SF2]. split.
      * intros its it c t Hin Hit F.
        assert (A : in_area (it_out it)) by (apply (pr_area _ _ _ _ _ PR), (proj1 S its); cbn; auto).
        pose proof (in_outs_compile its it bs Hin Hit) as Ho.
        rewrite (Keep (it_out it)) in F by (auto; left; auto).
        eapply recorded_same; [symmetry; apply (Keep (it_out it)); auto; right; exists SFlags; reflexivity|]. eapply SF1; eauto.
      * intros r c t Hin F. assert (A : in_area (lk_out r)) by (apply (pr_larea _ _ _ _ _ PR), (proj2 S); cbn; auto).
        pose proof (in_outs_link r bs Hin) as Ho.
        rewrite (Keep (lk_out r)) in F by (auto; left; auto).
        eapply recorded_same; [symmetry; apply (Keep (lk_out r)); auto; right; exists SFlags; reflexivity|]. eapply SF2; eauto.
Qed.

(** *** Histories *)

Lemma script_started bs w : good_script bs -> later E reqs w -> Inv w -> started (clock E (tick w)) [] bs w.
Proof.
  intros [A B C D] L I. constructor; auto.
  - split; auto.
  - split; [lia|]. intros r c t Hr F. left. eapply L; eauto.
Qed.

Theorem history_inv w0 w : history E area inst_area objs reqs w0 w -> Inv w.
Proof.
  induction 1 as [w H|w0 w w' H IH Ev].
  - now apply inv_start.
  - destruct Ev as [w w' Tk Ar Ed|bs w w' G L R|bs w w' G L SF D].
    + apply (inv_edit w); auto.
    + eapply run_success; eauto. apply script_started; auto.
    + eapply run_cut; eauto. apply script_started; auto.
Qed.

Theorem history_build w0 w bs w' : history E area inst_area objs reqs w0 w -> good_script bs -> later E reqs w ->
  run_steps E bs w 0 w' -> forall b, In b bs -> step_current E (files w') b.
Proof.
  intros H G L R. eapply run_success; eauto. apply script_started; auto. eapply history_inv; eauto.
Qed.

(** Two worlds in which all products of a script are current have the same products if they have the same sources. *)
Theorem current_unique bs : forall sofar fa fb, script_in bs -> ordered area inst_area sofar bs ->
  (forall p, source p -> same_content (fa p) (fb p)) ->
  (forall p, In p sofar -> same_content (fa p) (fb p)) ->
  (forall b, In b bs -> step_current E fa b) -> (forall b, In b bs -> step_current E fb b) ->
  forall o, In o (outs bs) -> same_content (fa o) (fb o).
Proof.
  induction bs as [|b bs IH]; intros sofar fa fb S Or Src Past Ca Cb o Ho; [destruct Ho|].
  assert (Here : forall o', In o' (step_outs b) -> same_content (fa o') (fb o')).
  { pose proof (Ca b (or_introl eq_refl)) as A. pose proof (Cb b (or_introl eq_refl)) as B. destruct b as [its|r]; cbn in *.
    - intros o' H. apply in_map_iff in H. destruct H as (it & <- & Hin).
      assert (Hi : objs it) by (apply (proj1 S its); cbn; auto).
      destruct (A it Hin) as (ta & oa & tma & A1 & A2). destruct (B it Hin) as (tb & ob & tmb & B1 & B2). rewrite A1, B1. cbn.
      destruct (ht_deps _ _ _ HT it fa ta oa A2) as [d Hd].
      destruct (ht_listed _ _ _ HT it fa fb d Hd) as [_ X]; [|congruence].
      intros p [->|Hp]; apply Src; [now apply (pr_src _ _ _ _ _ PR)|]. eapply (ht_sources _ _ _ HT); eauto.
    - intros o' [<-|[]]. destruct A as (ta & ca & tma & A1 & A2). destruct B as (tb & cb & tmb & B1 & B2). rewrite A1, B1. cbn.
      destruct Or as [Or _]. assert (X : ld_on E r fa = ld_on E r fb); [|congruence].
      apply (ht_ld _ _ _ HT). intros p Hp. destruct (Or p Hp); auto. }
  rewrite outs_cons in Ho. apply in_app_or in Ho. destruct Ho as [Ho|Ho]; auto.
  apply (IH (sofar_after sofar b) fa fb); auto.
  - eapply script_in_tail; eauto.
  - destruct b; cbn in *; tauto.
  - intros p Hp. apply sofar_after_in in Hp. destruct Hp; auto.
  - intros b' Hin. apply Ca. cbn; auto.
  - intros b' Hin. apply Cb. cbn; auto.
Qed.

End Setting.
