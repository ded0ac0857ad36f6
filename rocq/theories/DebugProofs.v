(** * Histories with builds in debugging mode. *)

From Coq Require Import ZArith Ascii String Lia Bool List.
From Verif Require Import Base FileSys Frugal Deps Log Cookie CookieProofs Pool PoolInv SpecPool PoolProofs PoolOwn Build SpecFiles SpecBuild FrugalProofs BuildProofs CompileProofs StepProofs MomentProofs SpecHistory LinkProofs HistoryProofs RebuildProofs Debug SpecDebug.
Import ListNotations.
Local Open Scope nat_scope.

Section Setting.
Variable E : env.
Variables area inst_area : bytes -> Prop.
Hypothesis GE : good_env E area inst_area.
Hypothesis HT : honest_tools E area inst_area.
Hypothesis MONO : monotone (clock E).
Variable objs : item -> Prop.
Variable reqs : link_req -> Prop.
Hypothesis PR : project E area inst_area objs reqs.
Notation source := (source area inst_area).
Notation in_area := (in_area area).
Notation good_script := (good_script area inst_area objs reqs).
Notation GL := (GL E area inst_area HT).
Notation script_in := (script_in objs reqs).
Notation keep := (fun p => ~ inst_area p).
Notation req_good := (req_good E area inst_area GE objs reqs PR).

(** ** The tools in either mode *)

Variable T : env.
Hypothesis LK : either_mode E T.

Lemma t_clock : clock T = clock E.
Proof. destruct LK as [-> | ->]; auto. Qed.
Lemma t_write : can_write T = can_write E.
Proof. destruct LK as [-> | ->]; auto. Qed.
Lemma t_env : good_env T area inst_area.
Proof.
  destruct LK as [-> | ->]; auto. destruct GE as [G1 G2 G3 G4 G5]. constructor; cbn; auto.
  - intros fl s f f' H. now rewrite (G4 fl s f f').
  - intros fl s f f' H. now rewrite (G5 fl s f f').
Qed.
Lemma t_ld r f : exists text, ld_on T r f = match ld_on E r f with ToolOk _ c => ToolOk text c | ToolFail _ x => ToolFail text x end.
Proof.
  destruct LK as [-> | ->].
  - destruct (ld_on E r f); eauto.
  - exists []. unfold ld_on. cbn. destruct (ld E _ _ _ _ _ f); auto.
Qed.
Lemma t_cc it f : exists text, cc_on T it f = match cc_on E it f with ToolOk _ c => ToolOk text c | ToolFail _ x => ToolFail text x end.
Proof.
  destruct LK as [-> | ->].
  - destruct (cc_on E it f); eauto.
  - exists []. unfold cc_on. cbn. destruct (cc_obj E _ _ f); auto.
Qed.
Lemma t_deps it f : (deps_on E it f = None /\ deps_on T it f = None) \/
  exists o o', deps_on E it f = Some o /\ deps_on T it f = Some o' /\ (o' = o \/ o' = []).
Proof.
  destruct LK as [-> | ->].
  - destruct (deps_on E it f) eqn:D; eauto 10.
  - unfold deps_on. cbn. destruct (cc_deps E _ _ f); cbn; eauto 10.
Qed.
Lemma t_reads : ld_reads T area inst_area.
Proof.
  intros r f f' H. pose proof (GL r f f' H) as X. destruct LK as [-> | ->]; auto. unfold ld_on in *. cbn. now rewrite X.
Qed.
Lemma t_cc_ok it f text obj : cc_on T it f = ToolOk text obj -> exists text', cc_on E it f = ToolOk text' obj.
Proof. intros H. destruct (t_cc it f) as [x X]. destruct (cc_on E it f); rewrite X in H; [|discriminate]. injection H as _ ->. eauto. Qed.
Lemma t_ld_ok it f text obj : ld_on T it f = ToolOk text obj -> exists text', ld_on E it f = ToolOk text' obj.
Proof. intros H. destruct (t_ld it f) as [x X]. destruct (ld_on E it f); rewrite X in H; [|discriminate]. injection H as _ ->. eauto. Qed.
Lemma t_clean it f text c : cc_on T it f <> ToolFail text (Some (Some c)).
Proof. intros H. destruct (t_cc it f) as [x X]. destruct (cc_on E it f) eqn:Y; rewrite X in H; [discriminate|]. injection H as _ ->. eapply (ht_clean _ _ _ HT); eauto. Qed.
Lemma t_clean_ld it f text c : ld_on T it f <> ToolFail text (Some (Some c)).
Proof. intros H. destruct (t_ld it f) as [x X]. destruct (ld_on E it f) eqn:Y; rewrite X in H; [discriminate|]. injection H as _ ->. eapply (ht_clean_ld _ _ _ HT); eauto. Qed.

(** The record of the headers: what the preprocessor listed, or nothing. *)
Definition record_of (o c : bytes) : Prop := c = deps_content (parse_deps o) \/ c = [].

Definition made (w w' : world) (it : item) : Prop :=
  exists text obj tau, cc_on E it (files w) = ToolOk text obj /\
    files w' (it_out it) = File obj (clock E tau) /\ tick w <= tau < tick w' /\
    (forall o, deps_on E it (files w) = Some o ->
       usable E (files w) (deps_path (it_out it)) ->
       exists c t, files w' (deps_path (it_out it)) = File c t /\ record_of o c) /\
    (flags_fine E (files w) it -> recorded (files w') it).

Record moment (w w' : world) (it : item) : Prop := {
  m_flags : flags_case w w' it;
  m_out : files w' (it_out it) = files w (it_out it) \/
          files w' (it_out it) = Absent \/
          made w w' it;
  m_deps : files w' (deps_path (it_out it)) = files w (deps_path (it_out it)) \/
           exists o c t, deps_on E it (files w) = Some o /\
             files w' (deps_path (it_out it)) = File c t /\ record_of o c;
}.

Record moments (its : list item) (w w' : world) : Prop := {
  ms_tick : tick w <= tick w';
  ms_frame : forall p, ~ inst_area p -> (forall it, In it its -> ~ belongs (it_out it) p) -> files w' p = files w p;
  ms_items : forall it, In it its -> moment w w' it;
}.

Lemma t_moments its w w' : MomentProofs.moments T inst_area its w w' -> moments its w w'.
Proof.
  intros [A B C]. constructor; auto. intros it Hin. destruct (C it Hin) as [M1 _ M3 M4]. constructor; auto.
  - destruct M3 as [X|[X|[(tx & c & t & X & _)|X]]]; auto; [exfalso; eapply t_clean; exact X|].
    right. right. destruct X as (text & obj & tau & B1 & B2 & B3 & B4 & B5). destruct (t_cc_ok it _ _ _ B1) as [text' B1'].
    exists text', obj, tau. rewrite t_clock in B2. split; [exact B1'|]. split; auto. split; auto. split.
    + intros o Ho U. destruct (t_deps it (files w)) as [[X _]|(o1 & o2 & X1 & X2 & X3)]; [congruence|].
      assert (o1 = o) by congruence. subst o1. destruct (B4 o2 X2) as [t Ht].
      { unfold usable in *. now rewrite t_write. }
      exists (deps_content (parse_deps o2)), t. split; auto. destruct X3 as [-> | ->]; [left|right]; reflexivity.
    + intros F. apply B5. unfold flags_fine in *. now rewrite t_write.
  - destruct M4 as [X|(o & t & X & Y)]; auto. right.
    destruct (t_deps it (files w)) as [[_ X']|(o1 & o2 & X1 & X2 & X3)]; [unfold deps_on in X'; congruence|].
    assert (o2 = o) by (unfold deps_on in X2; congruence). subst o2.
    exists o1, (deps_content (parse_deps o)), t. split; auto. split; auto. destruct X3 as [-> | ->]; [left|right]; reflexivity.
Qed.

Lemma t_lmoment w w' r : lmoment T inst_area w w' r -> lmoment E inst_area w w' r.
Proof.
  intros [A B C D F]. constructor; auto. destruct F as [X|[X|[(tx & c & t & X & _)|X]]]; auto; [exfalso; eapply t_clean_ld; exact X|].
  right. right. right. destruct X as (text & c & tau & B1 & B2 & B3 & B4). destruct (t_ld_ok r _ _ _ B1) as [text' B1'].
  exists text', c, tau. rewrite t_clock in B2. split; auto. split; auto. split; auto.
  intros F. apply B4. unfold flags_fine in *. now rewrite t_write.
Qed.

Notation source_not_area := (source_not_area area inst_area).
Notation belongs_distinct := (belongs_distinct area).
Notation belongs_area := (belongs_area area).
Notation step_out_area := (step_out_area E area inst_area objs reqs PR).
Notation outs_area := (outs_area E area inst_area objs reqs PR).
Notation script_in_tail := (script_in_tail objs reqs).
Notation step_frame := (step_frame inst_area).

(** *** The invariant *)

Definition obj_inv (f : fs) (it : item) : Prop :=
  forall obj t, recorded f it -> f (it_out it) = File obj t ->
  (exists f0 text, cc_on E it f0 = ToolOk text obj /\ forall p, source p -> same_content (f p) (f0 p) \/ newer f p t) /\
  forall c, read_file f (deps_path (it_out it)) = Some c ->
  exists f1 o, deps_on E it f1 = Some o /\ record_of o c /\
  forall p, source p -> same_content (f p) (f1 p) \/ newer f p t.

Definition link_inv (f : fs) (r : link_req) : Prop :=
  forall c t, lrecorded f r -> f (lk_out r) = File c t ->
  exists f0 text, ld_on E r f0 = ToolOk text c /\
  forall p, In p (lk_srcs r) -> same_content (f p) (f0 p) \/ newer f p t.

Record Inv (w : world) : Prop := {
  i_time : forall it c t, objs it -> files w (it_out it) = File c t -> (t <= clock E (tick w))%Z;
  i_ltime : forall r c t, reqs r -> files w (lk_out r) = File c t -> (t <= clock E (tick w))%Z;
  i_plain : forall it, objs it -> plain_file (files w) (it_out it) /\ plain_file (files w) (deps_path (it_out it)) /\
                                 plain_file (files w) (flags_path (it_out it));
  i_lplain : forall r, reqs r -> plain_file (files w) (lk_out r) /\ plain_file (files w) (flags_path (lk_out r));
  i_obj : forall it, objs it -> obj_inv (files w) it;
  i_dep : forall it, objs it -> deps_are_sources area inst_area (files w) (it_out it);
  i_link : forall r, reqs r -> link_inv (files w) r;
}.

(** While a script runs: products linked in this run have inputs that are no longer to be made. *)
Definition Run (T0 : Z) (todo : list bstep) (w : world) : Prop :=
  (T0 <= clock E (tick w))%Z /\
  forall r c t, reqs r -> files w (lk_out r) = File c t -> (t < T0)%Z \/ forall s, In s (lk_srcs r) -> ~ In s (outs todo).

Lemma inv_start w : (forall p, area p -> files w p = Absent) -> Inv w.
Proof.
  intros H.
  assert (HA : forall it, objs it -> files w (it_out it) = Absent /\ forall k, files w (side_file k (it_out it)) = Absent).
  { intros it O. destruct (pr_area _ _ _ _ _ PR it O) as (_ & A & B). auto. }
  assert (HL : forall r, reqs r -> files w (lk_out r) = Absent /\ forall k, files w (side_file k (lk_out r)) = Absent).
  { intros r O. destruct (pr_larea _ _ _ _ _ PR r O) as (_ & A & B). auto. }
  constructor.
  - intros it c t O F. destruct (HA it O) as [X _]. congruence.
  - intros r c t O F. destruct (HL r O) as [X _]. congruence.
  - intros it O. destruct (HA it O) as [X Y]. repeat split; left; auto. apply (Y SDeps). apply (Y SFlags).
  - intros r O. destruct (HL r O) as [X Y]. repeat split; left; auto. apply (Y SFlags).
  - intros it O obj t _ F. destruct (HA it O) as [X _]. congruence.
  - intros it O c d F. unfold read_file in F. destruct (HA it O) as [_ X]. change (deps_path (it_out it)) with (side_file SDeps (it_out it)) in F. rewrite X in F. discriminate.
  - intros r O c t _ F. destruct (HL r O) as [X _]. congruence.
Qed.

(** Reading a product's files is unaffected by changes elsewhere. *)
Lemma inv_edit w w' : Inv w -> tick w <= tick w' ->
  (forall p, area p -> files w' p = files w p) ->
  (forall p, source p -> files w' p = files w p \/ newer (files w') p (clock E (tick w))) ->
  Inv w'.
Proof.
  intros [IT IL IP ILP IO ID IK] Tk Ar Ed.
  assert (HA : forall it, objs it -> files w' (it_out it) = files w (it_out it) /\ forall k, files w' (side_file k (it_out it)) = files w (side_file k (it_out it))).
  { intros it O. destruct (pr_area _ _ _ _ _ PR it O) as (_ & A & B). auto. }
  assert (HL : forall r, reqs r -> files w' (lk_out r) = files w (lk_out r) /\ forall k, files w' (side_file k (lk_out r)) = files w (side_file k (lk_out r))).
  { intros r O. destruct (pr_larea _ _ _ _ _ PR r O) as (_ & A & B). auto. }
  pose proof (MONO _ _ Tk) as Mk.
  assert (Nw : forall p t, (t <= clock E (tick w))%Z -> newer (files w') p (clock E (tick w)) -> newer (files w') p t).
  { intros p t Ht N t' Ht'. specialize (N t' Ht'). lia. }
  constructor.
  - intros it c t O F. destruct (HA it O) as [X _]. rewrite X in F. specialize (IT it c t O F). lia.
  - intros r c t O F. destruct (HL r O) as [X _]. rewrite X in F. specialize (IL r c t O F). lia.
  - intros it O. destruct (HA it O) as [X Y]. pose proof (Y SDeps) as Y1. pose proof (Y SFlags) as Y2. unfold plain_file.
    change (deps_path (it_out it)) with (side_file SDeps (it_out it)). change (flags_path (it_out it)) with (side_file SFlags (it_out it)).
    rewrite X, Y1, Y2. apply (IP it O).
  - intros r O. destruct (HL r O) as [X Y]. pose proof (Y SFlags) as Y2. unfold plain_file.
    change (flags_path (lk_out r)) with (side_file SFlags (lk_out r)). rewrite X, Y2. apply (ILP r O).
  - intros it O obj t R F. destruct (HA it O) as [X Y].
    assert (R0 : recorded (files w) it) by (eapply recorded_same; [apply (Y SFlags)|exact R]).
    rewrite X in F.
    assert (Move : forall f, (forall p, source p -> same_content (files w p) (f p) \/ newer (files w) p t) ->
      forall p, source p -> same_content (files w' p) (f p) \/ newer (files w') p t).
    { intros f A4 p Sp. destruct (Ed p Sp) as [Eq|N].
      - rewrite Eq. destruct (A4 p Sp) as [|N]; auto. right. eapply newer_same; eauto.
      - right. apply Nw; auto. eapply IT; eauto. }
    destruct (IO it O obj t R0 F) as ((f0 & text & A1 & A2) & A3). split.
    + exists f0, text. auto.
    + intros c D. destruct (A3 c) as (f1 & o & B1 & B2 & B3).
      { unfold read_file in *. rewrite <- (Y SDeps : files w' (deps_path (it_out it)) = files w (deps_path (it_out it))). auto. }
      exists f1, o. auto.
  - intros it O c d D. apply (ID it O). unfold read_file in *. destruct (HA it O) as [_ Y]. rewrite <- (Y SDeps : files w' (deps_path (it_out it)) = files w (deps_path (it_out it))). auto.
  - intros r O c t R F. destruct (HL r O) as [X Y].
    assert (R0 : lrecorded (files w) r) by (eapply recorded_same; [apply (Y SFlags)|exact R]).
    rewrite X in F. destruct (IK r O c t R0 F) as (f0 & text & A1 & A2). exists f0, text. split; auto.
    intros p Hp. destruct (pr_inputs _ _ _ _ _ PR r p O Hp) as [_ [S|[(it & O' & ->)|(r' & O' & ->)]]].
    + destruct (Ed p S) as [Eq|N].
      * rewrite Eq. destruct (A2 p Hp) as [|N]; auto. right. eapply newer_same; eauto.
      * right. apply Nw; auto. eapply IL; eauto.
    + destruct (HA it O') as [X' _]. rewrite X'. destruct (A2 _ Hp) as [|N]; auto. right. eapply newer_same; eauto.
    + destruct (HL r' O') as [X' _]. rewrite X'. destruct (A2 _ Hp) as [|N]; auto. right. eapply newer_same; eauto.
Qed.

(** *** A step *)

(** One product [out] may have changed: its object (not necessarily), its record of flags. *)
Definition obj_guard (w w' : world) (it : item) : Prop :=
  recorded (files w) it \/ (forall c t, files w (it_out it) <> File c t) \/ made w w' it.

Lemma obj_step w w' it it' : Inv w -> objs it -> objs it' -> it_out it = it_out it' ->
  moment w w' it -> obj_guard w w' it ->
  (forall p, source p -> files w' p = files w p) ->
  obj_inv (files w') it'.
Proof.
  intros I O O' Eo M G Src obj t R F. destruct M as [Mf Mo Md]. rewrite <- Eo in *.
  assert (Es : it_src it' = it_src it) by (symmetry; apply (pr_same _ _ _ _ _ PR); auto).
  assert (Same : forall f, recorded f it -> recorded f it' -> cc_on E it' = cc_on E it /\ deps_on E it' = deps_on E it).
  { intros f (c1 & t1 & A1 & B1) (c2 & t2 & A2 & B2). rewrite Eo in A1. assert (c1 = c2) by congruence. subst c2.
    assert (Ef : it_flags it' = it_flags it).
    { apply flag_str_inj; [apply (pr_plain _ _ _ _ _ PR); auto|apply (pr_plain _ _ _ _ _ PR); auto|congruence]. }
    unfold cc_on, deps_on. rewrite Ef, Es. auto. }
  assert (Now : forall p, source p -> same_content (files w' p) (files w p) \/ newer (files w') p t).
  { intros p Sp. left. rewrite Src by auto. apply same_content_refl. }
  assert (Made : made w w' it -> (exists f0 text, cc_on E it' f0 = ToolOk text obj /\ forall p, source p -> same_content (files w' p) (f0 p) \/ newer (files w') p t) /\
      forall c, read_file (files w') (deps_path (it_out it)) = Some c ->
      exists f1 o, deps_on E it' f1 = Some o /\ record_of o c /\
      forall p, source p -> same_content (files w' p) (f1 p) \/ newer (files w') p t).
  { intros (text & obj' & tau & B1 & B2 & B3 & B4 & B5).
    destruct (i_plain w I it O) as (P1 & P2 & P3).
    assert (FF : flags_fine E (files w) it).
    { split; auto. apply (pr_write _ _ _ _ _ PR). destruct (pr_area _ _ _ _ _ PR it O) as (_ & _ & A). apply (A SFlags). }
    destruct (Same (files w') (B5 FF) R) as [S1 S2]. rewrite S1, S2.
    destruct (ht_deps _ _ _ HT it (files w) text obj') as [o Ho]; [exact B1|].
    destruct (B4 o Ho) as (cd & td & Td & Rd).
    { split; auto. apply (pr_write _ _ _ _ _ PR). destruct (pr_area _ _ _ _ _ PR it O) as (_ & _ & A). apply (A SDeps). }
    assert (obj' = obj) by congruence. subst obj'. split.
    - exists (files w), text. split; auto.
    - intros c D. exists (files w), o. split; auto. split; auto. unfold read_file in D. rewrite Td in D. injection D as <-. auto. }
  destruct G as [G|[G|G]]; [| |auto].
  - (* flags already recorded *)
    destruct Mf as [Mf|[Mf _]]; [|contradiction].
    assert (R0 : recorded (files w) it').
    { eapply recorded_same; [|exact R]. rewrite <- Eo. exact Mf. }
    destruct (Same (files w) G R0) as [S1 S2].
    destruct Mo as [Mo|[Mo|Mo]]; [|congruence|auto].
    rewrite Mo in F. rewrite Eo in F.
    assert (Move : forall f, (forall p, source p -> same_content (files w p) (f p) \/ newer (files w) p t) ->
      forall p, source p -> same_content (files w' p) (f p) \/ newer (files w') p t).
    { intros f A p Sp. rewrite Src by auto. destruct (A p Sp) as [|N]; auto. right. eapply newer_same; [|exact N]. auto. }
    destruct (i_obj w I it' O' obj t R0 F) as ((f0 & text & A1 & A2) & A3). split; [exists f0, text; auto|].
    intros c D. destruct Md as [Md|(o & cd & td & Md1 & Md2 & Md3)].
    + destruct (A3 c) as (f1 & o & B1 & B2 & B3); [unfold read_file in *; rewrite <- Eo, <- Md; auto|]. exists f1, o. auto.
    + (* dependencies were just extracted, though the object is old *)
      exists (files w), o. split; [rewrite S2; exact Md1|]. split; auto. unfold read_file in D. rewrite Md2 in D. injection D as <-. auto.
  - (* no product before *)
    destruct Mo as [Mo|[Mo|Mo]]; [|congruence|auto].
    rewrite Mo in F. exfalso. eapply G; eauto.
Qed.

Lemma items_good its w : Inv w -> (forall it, In it its -> objs it) -> NoDup (map it_out its) ->
  good_items area inst_area its (files w).
Proof.
  intros I O ND. constructor; auto.
  - intros it Hin. apply (pr_area _ _ _ _ _ PR); auto.
  - intros it Hin. apply (pr_src _ _ _ _ _ PR); auto.
  - intros it Hin. apply (i_dep w I); auto.
Qed.

Section Compile.
Variables (its : list item) (w w' : world).
Hypothesis I : Inv w.
Hypothesis O : forall it, In it its -> objs it.
Hypothesis M : moments its w w'.

Lemma c_source p : source p -> files w' p = files w p.
Proof.
  intros S. apply (ms_frame _ _ _ M); [apply S|]. intros it Hin. apply source_not_area; auto. apply (pr_area _ _ _ _ _ PR); auto.
Qed.

Lemma c_other o p : in_area o -> ~ In o (map it_out its) -> belongs o p -> files w' p = files w p.
Proof.
  intros A N B. apply (ms_frame _ _ _ M).
  - apply (ge_apart _ _ _ GE). eapply belongs_area; eauto.
  - intros it Hin. apply (belongs_distinct o); auto.
    + apply (pr_area _ _ _ _ _ PR); auto.
    + intros ->. apply N. now apply in_map.
Qed.

Lemma c_link r p : reqs r -> belongs (lk_out r) p -> files w' p = files w p.
Proof.
  intros R B. apply (c_other (lk_out r)); auto.
  - now apply (pr_larea _ _ _ _ _ PR).
  - intros Hin. apply in_map_iff in Hin. destruct Hin as (it & Eq & Hin). revert Eq. apply (pr_apart _ _ _ _ _ PR); auto.
Qed.

Lemma c_out it : In it its -> (forall c t, files w' (it_out it) = File c t ->
    (files w (it_out it) = File c t) \/ exists tau, t = clock E tau /\ tick w <= tau < tick w').
Proof.
  intros Hin c t F. destruct (m_out _ _ _ (ms_items _ _ _ M it Hin)) as [Mo|[Mo|(text & obj & tau & B1 & B2 & B3 & _)]].
  - left. congruence.
  - congruence.
  - right. exists tau. split; auto. congruence.
Qed.

(** An object that changed is newer than everything before the step. *)
Lemma c_out_newer it T1 : In it its -> (T1 < clock E (tick w))%Z ->
  files w' (it_out it) = files w (it_out it) \/ newer (files w') (it_out it) T1.
Proof.
  intros Hin HTl. destruct (m_out _ _ _ (ms_items _ _ _ M it Hin)) as [Mo|[Mo|(text & obj & tau & B1 & B2 & B3 & _)]].
  - auto.
  - right. intros t' Ht. unfold modified_at, stat in Ht. rewrite Mo in Ht. discriminate.
  - right. intros t' Ht. unfold modified_at, stat in Ht. rewrite B2 in Ht. injection Ht as <-.
    assert (clock E (tick w) <= clock E tau)%Z by (apply MONO; lia). lia.
Qed.

Theorem compile_inv T0 todo : (forall it, In it its -> obj_guard w w' it) -> Run T0 (SCompile its :: todo) w ->
  Inv w' /\ Run T0 todo w'.
Proof.
  intros G [RT RR]. pose proof (ms_tick _ _ _ M) as Tk. pose proof (MONO _ _ Tk) as Mk.
  assert (Dec : forall it, objs it -> (exists it', In it' its /\ it_out it' = it_out it) \/ ~ In (it_out it) (map it_out its)).
  { intros it _. destruct (in_dec bytes_dec (it_out it) (map it_out its)) as [H|H]; auto.
    left. apply in_map_iff in H. destruct H as (x & Hx & Hin). eauto. }
  assert (Un : forall it, objs it -> ~ In (it_out it) (map it_out its) -> forall p, belongs (it_out it) p -> files w' p = files w p).
  { intros it Ho N p B. apply (c_other (it_out it)); auto. apply (pr_area _ _ _ _ _ PR); auto. }
  split; [constructor|].
  - intros it c t Ho F. destruct (Dec it Ho) as [(it' & Hin & Eq)|N].
    + rewrite <- Eq in F. destruct (c_out it' Hin c t F) as [F0|(tau & -> & Ht)].
      * pose proof (i_time w I it' c t (O it' Hin) F0). lia.
      * apply MONO. lia.
    + rewrite (Un it Ho N) in F by (left; auto). pose proof (i_time w I it c t Ho F). lia.
  - intros r c t Hr F. rewrite (c_link r) in F by (auto; left; auto). pose proof (i_ltime w I r c t Hr F). lia.
  - intros it Ho. destruct (Dec it Ho) as [(it' & Hin & Eq)|N].
    + rewrite <- Eq. destruct (i_plain w I it' (O it' Hin)) as (P1 & P2 & P3).
      destruct (ms_items _ _ _ M it' Hin) as [Mf Mo Md]. split; [|split].
      * destruct Mo as [Mo|[Mo|(text & obj & tau & _ & Mo & _)]]; unfold plain_file; rewrite Mo; eauto.
      * destruct Md as [Md|(o & c & t & _ & Md & _)]; unfold plain_file; rewrite Md; eauto.
      * destruct Mf as [Mf|[_ (c & t & Mf & _)]]; unfold plain_file; rewrite Mf; eauto.
    + unfold plain_file. rewrite !(Un it Ho N).
      * apply (i_plain w I it Ho).
      * right. exists SFlags. reflexivity.
      * right. exists SDeps. reflexivity.
      * left. auto.
  - intros r Hr. unfold plain_file. rewrite !(c_link r); auto.
    + apply (i_lplain w I r Hr).
    + right. exists SFlags. reflexivity.
    + left. auto.
  - intros it Ho. destruct (Dec it Ho) as [(it' & Hin & Eq)|N].
    + eapply (obj_step w w' it' it); eauto.
      * apply (ms_items _ _ _ M it' Hin).
      * apply c_source.
    + intros obj t R F. assert (Same := Un it Ho N).
      assert (R0 : recorded (files w) it) by (eapply recorded_same; [apply Same; right; exists SFlags; reflexivity|exact R]).
      rewrite Same in F by (left; auto).
      assert (Move : forall f, (forall p, source p -> same_content (files w p) (f p) \/ newer (files w) p t) ->
        forall p, source p -> same_content (files w' p) (f p) \/ newer (files w') p t).
      { intros f A p Sp. rewrite c_source by auto. destruct (A p Sp) as [|Nw]; auto. right. eapply newer_same; [|exact Nw]. now apply c_source. }
      destruct (i_obj w I it Ho obj t R0 F) as ((f0 & text & A1 & A2) & A3). split; [exists f0, text; auto|].
      intros c D. destruct (A3 c) as (f1 & o & B1 & B2 & B3); [|exists f1, o; auto].
      unfold read_file in *. rewrite <- (Same (deps_path (it_out it))); auto. right. exists SDeps. reflexivity.
  - intros it Ho c d D Hd. destruct (Dec it Ho) as [(it' & Hin & Eq)|N].
    + rewrite <- Eq in *. destruct (m_deps _ _ _ (ms_items _ _ _ M it' Hin)) as [Md|(o & c' & t & Md1 & Md2 & Md3)].
      * apply (i_dep w I it' (O it' Hin) c); auto. unfold read_file in *. rewrite <- Md. auto.
      * unfold read_file in D. rewrite Md2 in D. injection D as <-. destruct Md3 as [-> | ->]; [|destruct Hd]. eapply (ht_sources _ _ _ HT it'); eauto.
    + apply (i_dep w I it Ho c); auto. unfold read_file in *. rewrite <- (Un it Ho N (deps_path (it_out it))); auto. right. exists SDeps. reflexivity.
  - intros r Hr c t R F.
    assert (R0 : lrecorded (files w) r) by (eapply recorded_same; [apply (c_link r); auto; right; exists SFlags; reflexivity|exact R]).
    rewrite (c_link r) in F by (auto; left; auto).
    destruct (i_link w I r Hr c t R0 F) as (f0 & text & A1 & A2). exists f0, text. split; auto.
    intros p Hp. assert (Keep : files w' p = files w p -> same_content (files w' p) (f0 p) \/ newer (files w') p t).
    { intros Eq. rewrite Eq. destruct (A2 p Hp) as [|N]; auto. right. eapply newer_same; eauto. }
    destruct (pr_inputs _ _ _ _ _ PR r p Hr Hp) as [_ [S|[(it & Ho & ->)|(r' & Hr' & ->)]]].
    + apply Keep. now apply c_source.
    + destruct (Dec it Ho) as [(it' & Hin & Eq)|N].
      * rewrite <- Eq in *. destruct (RR r c t Hr F) as [Lt|N].
        -- destruct (c_out_newer it' t Hin) as [Same|Nw]; [lia|auto|auto].
        -- exfalso. apply (N (it_out it') Hp). unfold outs. cbn. apply in_or_app. left. now apply in_map.
      * apply Keep. apply (Un it); auto. left; auto.
    + apply Keep. apply (c_link r'); auto. left; auto.
  - split; [lia|]. intros r c t Hr F. rewrite (c_link r) in F by (auto; left; auto).
    destruct (RR r c t Hr F) as [Lt|N]; auto. right. intros s Hs Hin. apply (N s Hs). unfold outs in *. cbn. apply in_or_app. auto.
Qed.
End Compile.

Notation lmade := (lmade E).
Definition link_guard (w w' : world) (r : link_req) : Prop :=
  lrecorded (files w) r \/ (forall c t, files w (lk_out r) <> File c t) \/ lmade w w' r.

Section Link.
Variables (r : link_req) (w w' : world).
Hypothesis I : Inv w.
Hypothesis HR : reqs r.
Hypothesis M : lmoment E inst_area w w' r.

Lemma l_source p : source p -> files w' p = files w p.
Proof.
  intros S. apply (lm_frame _ _ _ _ _ M); [apply S|]. apply source_not_area; auto. now apply (pr_larea _ _ _ _ _ PR).
Qed.
Lemma l_other o p : in_area o -> o <> lk_out r -> belongs o p -> files w' p = files w p.
Proof.
  intros A N B. apply (lm_frame _ _ _ _ _ M).
  - apply (ge_apart _ _ _ GE). eapply belongs_area; eauto.
  - apply (belongs_distinct o); auto. now apply (pr_larea _ _ _ _ _ PR).
Qed.
Lemma l_obj it p : objs it -> belongs (it_out it) p -> files w' p = files w p.
Proof.
  intros Ho. apply l_other; [now apply (pr_area _ _ _ _ _ PR)|now apply (pr_apart _ _ _ _ _ PR)].
Qed.

Lemma l_out_newer T1 : (T1 < clock E (tick w))%Z -> files w' (lk_out r) = files w (lk_out r) \/ newer (files w') (lk_out r) T1.
Proof.
  intros HTl. destruct (lm_out _ _ _ _ _ M) as [Mo|[Mo|[(tx & cx & t' & Mo & _)|(text & obj & tau & B1 & B2 & B3 & _)]]].
  - auto.
  - right. intros t' Ht. unfold modified_at, stat in Ht. rewrite Mo in Ht. discriminate.
  - exfalso. eapply (ht_clean_ld _ _ _ HT); eauto.
  - right. intros t' Ht. unfold modified_at, stat in Ht. rewrite B2 in Ht. injection Ht as <-.
    assert (clock E (tick w) <= clock E tau)%Z by (apply MONO; lia). lia.
Qed.

Theorem link_inv_step T0 todo : link_guard w w' r -> Run T0 (SLink r :: todo) w ->
  (forall s, In s (lk_srcs r) -> ~ In s (outs todo)) ->
  Inv w' /\ Run T0 todo w'.
Proof.
  intros G [RT RR] Ord. pose proof (lm_tick _ _ _ _ _ M) as Tk. pose proof (MONO _ _ Tk) as Mk.
  assert (Dec : forall r', reqs r' -> lk_out r' = lk_out r \/ lk_out r' <> lk_out r).
  { intros r' _. destruct (bytes_dec (lk_out r') (lk_out r)); auto. }
  assert (Un : forall r', reqs r' -> lk_out r' <> lk_out r -> forall p, belongs (lk_out r') p -> files w' p = files w p).
  { intros r' Hr N p B. apply (l_other (lk_out r')); auto. now apply (pr_larea _ _ _ _ _ PR). }
  destruct (i_lplain w I r HR) as [P1 P2].
  split; [constructor|].
  - intros it c t Ho F. rewrite (l_obj it) in F by (auto; left; auto). pose proof (i_time w I it c t Ho F). lia.
  - intros r' c t Hr F. destruct (Dec r' Hr) as [Eq|N].
    + rewrite Eq in F. destruct (lm_out _ _ _ _ _ M) as [Mo|[Mo|[(tx & cx & t' & Mo & _)|(text & obj & tau & B1 & B2 & B3 & _)]]].
      * rewrite Mo in F. pose proof (i_ltime w I r c t HR F). lia.
      * congruence.
      * exfalso. eapply (ht_clean_ld _ _ _ HT); eauto.
      * assert (t = clock E tau) by congruence. subst. apply MONO. lia.
    + rewrite (Un r' Hr N) in F by (left; auto). pose proof (i_ltime w I r' c t Hr F). lia.
  - intros it Ho. unfold plain_file. rewrite !(l_obj it); auto.
    + apply (i_plain w I it Ho).
    + right. exists SFlags. reflexivity.
    + right. exists SDeps. reflexivity.
    + left. auto.
  - intros r' Hr. destruct (Dec r' Hr) as [Eq|N].
    + rewrite Eq. split.
      * destruct (lm_out _ _ _ _ _ M) as [Mo|[Mo|[(tx & cx & t' & _ & Mo)|(text & obj & tau & B1 & Mo & B3 & _)]]]; unfold plain_file; rewrite Mo; eauto.
      * destruct (lm_flags _ _ _ _ _ M) as [Mf|[_ (c & t & Mf & _)]]; unfold plain_file; change (it_out (as_item r)) with (lk_out r) in Mf; rewrite Mf; eauto.
    + unfold plain_file. rewrite !(Un r' Hr N).
      * apply (i_lplain w I r' Hr).
      * right. exists SFlags. reflexivity.
      * left. auto.
  - intros it Ho obj t R F. assert (Same := fun p => l_obj it p Ho).
    assert (R0 : recorded (files w) it) by (eapply recorded_same; [apply Same; right; exists SFlags; reflexivity|exact R]).
    rewrite Same in F by (left; auto).
    assert (Move : forall f, (forall p, source p -> same_content (files w p) (f p) \/ newer (files w) p t) ->
      forall p, source p -> same_content (files w' p) (f p) \/ newer (files w') p t).
    { intros f A p Sp. rewrite l_source by auto. destruct (A p Sp) as [|Nw]; auto. right. eapply newer_same; [|exact Nw]. now apply l_source. }
    destruct (i_obj w I it Ho obj t R0 F) as ((f0 & text & A1 & A2) & A3). split; [exists f0, text; auto|].
    intros c D. destruct (A3 c) as (f1 & o & B1 & B2 & B3); [|exists f1, o; auto].
    unfold read_file in *. rewrite <- (Same (deps_path (it_out it))); auto. right. exists SDeps. reflexivity.
  - intros it Ho c d D Hd. apply (i_dep w I it Ho c); auto. unfold read_file in *. rewrite <- (l_obj it (deps_path (it_out it))); auto. right. exists SDeps. reflexivity.
  - intros r' Hr c t R F. destruct (Dec r' Hr) as [Eq|N].
    + destruct (pr_lsame _ _ _ _ _ PR r' r Hr HR Eq) as [Ek Es].
      assert (Same : forall f, lrecorded f r -> lrecorded f r' -> ld_on E r' = ld_on E r).
      { intros f (c1 & t1 & A1 & B1) (c2 & t2 & A2 & B2). cbn in *. rewrite Eq in A2. assert (c1 = c2) by congruence. subst c2.
        assert (Ef : lk_flags r' = lk_flags r).
        { apply flag_str_inj; [apply (pr_lplain _ _ _ _ _ PR); auto|apply (pr_lplain _ _ _ _ _ PR); auto|congruence]. }
        unfold ld_on. rewrite Ef, Es, Ek, Eq. auto. }
      (* the inputs are not touched by this step *)
      assert (Inp : forall p, In p (lk_srcs r) -> files w' p = files w p).
      { intros p Hp. destruct (pr_inputs _ _ _ _ _ PR r p HR Hp) as [Np [S|[(it & Ho & ->)|(r2 & Hr2 & ->)]]].
        - now apply l_source.
        - apply (l_obj it); auto. left; auto.
        - apply (Un r2); auto. left; auto. }
      assert (Made : lmade w w' r -> exists f0 text, ld_on E r' f0 = ToolOk text c /\
                forall p, In p (lk_srcs r') -> same_content (files w' p) (f0 p) \/ newer (files w') p t).
      { intros (text & c' & tau & B1 & B2 & B3 & B4).
        assert (FF : flags_fine E (files w) (as_item r)).
        { split; auto. apply (pr_write _ _ _ _ _ PR). destruct (pr_larea _ _ _ _ _ PR r HR) as (_ & _ & A). apply (A SFlags). }
        rewrite (Same (files w') (B4 FF) R). rewrite Eq in F. assert (c' = c) by congruence. subst.
        exists (files w), text. split; auto. intros p Hp. left. rewrite Es in Hp. rewrite Inp by auto. apply same_content_refl. }
      rewrite Eq in F.
      destruct G as [G|[G|G]]; [| |auto].
      * destruct (lm_flags _ _ _ _ _ M) as [Mf|[Mf _]]; [|contradiction].
        assert (Rr : lrecorded (files w') r) by (eapply recorded_same; [symmetry; exact Mf|exact G]).
        assert (R0 : lrecorded (files w) r').
        { eapply recorded_same; [|exact R]. cbn in *. rewrite Eq. exact Mf. }
        destruct (lm_out _ _ _ _ _ M) as [Mo|[Mo|[(tx & cx & t' & Mo & _)|Mo]]]; [|congruence|exfalso; eapply (ht_clean_ld _ _ _ HT); eauto|auto].
        rewrite Mo in F. rewrite <- Eq in F. destruct (i_link w I r' Hr c t R0 F) as (f0 & text & A1 & A2).
        exists f0, text. split; auto. intros p Hp. pose proof Hp as Hp'. rewrite Es in Hp'. rewrite Inp by auto.
        destruct (A2 p Hp) as [|Nw]; auto. right. eapply newer_same; [|exact Nw]. auto.
      * destruct (lm_out _ _ _ _ _ M) as [Mo|[Mo|[(tx & cx & t' & Mo & _)|Mo]]]; [|congruence|exfalso; eapply (ht_clean_ld _ _ _ HT); eauto|auto].
        rewrite Mo in F. exfalso. eapply G; eauto.
    + assert (R0 : lrecorded (files w) r') by (eapply recorded_same; [apply (Un r' Hr N); right; exists SFlags; reflexivity|exact R]).
      rewrite (Un r' Hr N) in F by (left; auto).
      destruct (i_link w I r' Hr c t R0 F) as (f0 & text & A1 & A2). exists f0, text. split; auto.
      intros p Hp. assert (Keep : files w' p = files w p -> same_content (files w' p) (f0 p) \/ newer (files w') p t).
      { intros Eq. rewrite Eq. destruct (A2 p Hp) as [|Nw]; auto. right. eapply newer_same; eauto. }
      destruct (pr_inputs _ _ _ _ _ PR r' p Hr Hp) as [_ [S|[(it & Ho & ->)|(r2 & Hr2 & ->)]]].
      * apply Keep. now apply l_source.
      * apply Keep. apply (l_obj it); auto. left; auto.
      * destruct (Dec r2 Hr2) as [Eq2|N2].
        -- rewrite Eq2 in *. destruct (RR r' c t Hr F) as [Lt|Nin].
           ++ destruct (l_out_newer t) as [Same|Nw]; [lia|auto|auto].
           ++ exfalso. apply (Nin (lk_out r) Hp). unfold outs. cbn. auto.
        -- apply Keep. apply (Un r2); auto. left; auto.
  - split; [lia|]. intros r' c t Hr F. destruct (Dec r' Hr) as [Eq|N].
    + right. destruct (pr_lsame _ _ _ _ _ PR r' r Hr HR Eq) as [_ ->]. auto.
    + rewrite (Un r' Hr N) in F by (left; auto). destruct (RR r' c t Hr F) as [Lt|Nin]; auto.
      right. intros s Hs Hin. apply (Nin s Hs). unfold outs in *. cbn. auto.
Qed.
End Link.

(** *** Products that need no work are current *)


Lemma fresh_current w it : Inv w -> objs it -> headers_known E (files w) it -> fresh (files w) it -> obj_current E (files w) it.
Proof.
  intros I Ho HK (R & c & D & (t & Ht & U)).
  destruct (i_plain w I it Ho) as (P & _).
  destruct P as [P|(obj & t' & P)]; [unfold modified_at, stat in Ht; rewrite P in Ht; discriminate|].
  assert (t' = t) by (unfold modified_at, stat in Ht; rewrite P in Ht; congruence). subst t'.
  destruct (i_obj w I it Ho obj t R P) as ((f0 & text & A1 & A2) & A3).
  destruct (A3 c D) as (f1 & o & B1 & B2 & B3).
  pose proof (pr_src _ _ _ _ _ PR it Ho) as Ss.
  assert (Src : ~ newer (files w) (it_src it) t) by (apply not_newer, U; cbn; auto).
  assert (Empty : c = [] -> obj_current E (files w) it).
  { intros ->. destruct (HK D) as (o1 & K1 & K2). destruct (ht_listed _ _ _ HT it (files w) f0 o1 K1) as [_ K3].
    { intros p Hp. assert (p = it_src it) as -> by (destruct Hp; auto). destruct (A2 _ Ss) as [X|X]; [auto|contradiction]. }
    exists text, obj, t. split; auto. congruence. }
  destruct B2 as [B2|B2]; [|auto].
  assert (Dep : forall p, p = it_src it \/ In p (listed o) -> source p /\ ~ newer (files w) p t).
  { intros p Hp. split.
    - destruct Hp as [->|Hp]; auto. apply (i_dep w I it Ho c p D). rewrite B2. exact Hp.
    - destruct Hp as [->|Hp]; auto. apply not_newer. apply U. right. rewrite B2. exact Hp. }
  assert (C0 : forall p, p = it_src it \/ In p (listed o) -> same_content (files w p) (f0 p)).
  { intros p Hp. destruct (Dep p Hp) as [Sp N]. destruct (A2 p Sp) as [X|X]; [auto|contradiction]. }
  assert (C1 : forall p, p = it_src it \/ In p (listed o) -> same_content (files w p) (f1 p)).
  { intros p Hp. destruct (Dep p Hp) as [Sp N]. destruct (B3 p Sp) as [X|X]; [auto|contradiction]. }
  destruct (ht_listed _ _ _ HT it f1 (files w) o B1) as [D1 D2].
  { intros p Hp. apply same_content_sym; auto. }
  destruct (ht_listed _ _ _ HT it f1 f0 o B1) as [D3 D4].
  { intros p Hp. eapply same_content_trans; [apply same_content_sym, C1; auto|auto]. }
  exists text, obj, t. split; auto. congruence.
Qed.

Lemma lfresh_current w r : Inv w -> reqs r -> lfresh (files w) r -> link_current E (files w) r.
Proof.
  intros I Hr (R & (t & Ht & U)).
  destruct (i_lplain w I r Hr) as (P & _).
  destruct P as [P|(c & t' & P)]; [unfold modified_at, stat in Ht; rewrite P in Ht; discriminate|].
  assert (t' = t) by (unfold modified_at, stat in Ht; rewrite P in Ht; congruence). subst t'.
  destruct (i_link w I r Hr c t R P) as (f0 & text & A1 & A2).
  exists text, c, t. split; auto. rewrite <- A1. apply (ht_ld _ _ _ HT).
  intros p Hp. destruct (A2 p Hp) as [X|X]; auto. exfalso. revert X. apply not_newer. apply U. auto.
Qed.

(** *** Whole scripts *)






Record started (T0 : Z) (sofar : list bytes) (bs : list bstep) (w : world) : Prop := {
  st_in : script_in bs;
  st_nodup : NoDup (outs bs);
  st_past : forall s, In s sofar -> ~ In s (outs bs);
  st_ord : ordered area inst_area sofar bs;
  st_inv : Inv w;
  st_run : Run T0 bs w;
}.


Lemma started_inputs T0 sofar r bs w : started T0 sofar (SLink r :: bs) w -> forall s, In s (lk_srcs r) -> ~ In s (outs bs).
Proof.
  intros [S N P Or I R] s Hs Hin. destruct Or as [Or _]. destruct (Or s Hs) as [X|X].
  - destruct (outs_area bs (script_in_tail _ _ S) s Hin) as (_ & A & _). apply (proj1 X). auto.
  - apply (P s X). rewrite outs_cons. apply in_or_app. auto.
Qed.

Lemma started_next T0 sofar b bs w w' : started T0 sofar (b :: bs) w -> Inv w' -> Run T0 bs w' ->
  started T0 (sofar_after sofar b) bs w'.
Proof.
  intros [S N P Or I R] I' R'. rewrite outs_cons in N. destruct (nodup_app_l _ _ _ N) as (N1 & N2 & N3).
  constructor; auto.
  - eapply script_in_tail; eauto.
  - intros s Hs. apply sofar_after_in in Hs. destruct Hs as [Hs|Hs]; auto. intros X. apply (P s Hs). rewrite outs_cons. apply in_or_app; auto.
  - destruct b as [its|r]; cbn in *; tauto.
Qed.

(** What is current after a step or a script that began in [f]. *)
Definition step_right (f f' : fs) (b : bstep) : Prop :=
  match b with
  | SCompile its => forall it, In it its -> (fresh f it -> headers_known E f it) -> obj_current E f' it
  | SLink r => link_current E f' r
  end.

(** One successful step. *)
Lemma step_success T0 sofar b bs w rv w' : started T0 sofar (b :: bs) w -> one_step T b w rv w' -> (0 <= rv)%Z ->
  rv = 0%Z /\ started T0 (sofar_after sofar b) bs w' /\ step_frame b w w' /\ step_right (files w) (files w') b.
Proof.
  intros St H Hrv. pose proof St as [S N P Or I R]. rewrite outs_cons in N. destruct (nodup_app_l _ _ _ N) as (N1 & N2 & N3).
  destruct b as [its|r]; cbn [one_step] in H.
  - assert (O : forall it, In it its -> objs it) by (intros it Hin; apply (proj1 S its); cbn; auto).
    assert (GI : good_items area inst_area its (files w)) by now apply items_good.
    destruct (compile_step_rv T area inst_area t_env its w rv w' GI H) as [-> | ->]; [|lia].
    pose proof (compile_success T area inst_area t_env its w w' GI H) as SS.
    assert (M : moments its w w').
    { apply t_moments, (compile_moments T area inst_area t_env); auto. destruct H as (ok & jobs & w1 & s & V & PS & F & W & _). right. exists ok, jobs, w1, s. auto. }
    assert (G : forall it, In it its -> obj_guard w w' it).
    { intros it Hin. destruct (s_cases _ _ _ _ _ SS it Hin) as [F|F]; [left; apply F|]. right. right.
      destruct (s_stale _ _ _ _ _ SS it Hin F) as [(text & obj & tau & A1 & A2 & A3) _ A4 _ _ _].
      destruct (t_cc_ok it _ _ _ A1) as [text' A1']. rewrite t_clock in A2.
      exists text', obj, tau. split; [exact A1'|]. split; auto. split; [lia|]. split.
      - intros o Ho U. destruct (t_deps it (files w)) as [[X _]|(o1 & o2 & X1 & X2 & X3)]; [congruence|].
        assert (o1 = o) by congruence. subst o1. destruct (A4 o2 X2) as [t Ht]; [unfold usable in *; now rewrite t_write|].
        exists (deps_content (parse_deps o2)), t. split; auto. destruct X3 as [-> | ->]; [left|right]; reflexivity.
      - intros FF. apply (s_flags _ _ _ _ _ SS it Hin). unfold flags_fine in *. now rewrite t_write. }
    destruct (compile_inv its w w' I O M T0 bs G R) as [I' R'].
    split; auto. split; [eapply started_next; eauto|]. split.
    + split; [apply (ms_tick _ _ _ M)|]. intros p Hk Hn. apply (ms_frame _ _ _ M); auto.
      intros it Hin. apply Hn. cbn. now apply in_map.
    + intros it Hin HK. assert (Src : forall p, source p -> files w' p = files w p) by (eapply c_source; eauto).
      assert (Cc : cc_on E it (files w') = cc_on E it (files w)) by (apply (ge_obj _ _ _ GE); auto).
      unfold obj_current. rewrite Cc.
      destruct (s_cases _ _ _ _ _ SS it Hin) as [F|F].
      * destruct (fresh_current w it I (O it Hin) (HK F) F) as (text & obj & t & A1 & A2). exists text, obj, t. split; auto.
        rewrite <- A1. apply (k_same _ _ _ (s_fresh _ _ _ _ _ SS it Hin F)). left; auto.
      * destruct (c_result _ _ _ _ (s_stale _ _ _ _ _ SS it Hin F)) as (text & obj & tau & A1 & A2 & A3).
        destruct (t_cc_ok it _ _ _ A1) as [text' A1']. rewrite t_clock in A2. exists text', obj, (clock E tau). auto.
  - assert (Hr : reqs r) by (apply (proj2 S); cbn; auto).
    pose proof (link_stepped T area inst_area t_env t_reads r (req_good r Hr) w rv w' H) as LS.
    destruct (ls_rv _ _ _ _ _ _ LS) as [-> | ->]; [|lia].
    assert (M : lmoment E inst_area w w' r).
    { apply t_lmoment, (link_moment T area inst_area t_env t_reads); [now apply req_good|]. unfold link_during. destruct (frugal_flags _ _ _ _ _) as [ch f1]. right. left. now rewrite H. }
    assert (G : link_guard w w' r).
    { destruct (lfresh_dec (files w) r) as [F|F]; [left; apply F|]. right. right.
      destruct (l_result _ _ _ _ (ls_stale _ _ _ _ _ _ LS F eq_refl)) as (text & c & tau & A1 & A2 & A3).
      destruct (t_ld_ok r _ _ _ A1) as [text' A1']. rewrite t_clock in A2.
      exists text', c, tau. repeat split; auto; try lia. intros FF. apply (ls_flags _ _ _ _ _ _ LS). unfold flags_fine in *. now rewrite t_write. }
    destruct (link_inv_step r w w' I Hr M T0 bs G R) as [I' R'].
    { eapply started_inputs; eauto. }
    split; auto. split; [eapply started_next; eauto|]. split.
    + split; [apply (lm_tick _ _ _ _ _ M)|]. intros p Hk Hn. apply (lm_frame _ _ _ _ _ M); auto. apply Hn. cbn. auto.
    + cbn. unfold link_current.
      assert (Inp : forall p, In p (lk_srcs r) -> files w' p = files w p).
      { intros p Hp. apply (lm_frame _ _ _ _ _ M); apply (gl_srcs _ _ _ (req_good r Hr) p Hp). }
      assert (Ld : ld_on E r (files w') = ld_on E r (files w)).
      { apply (ht_ld _ _ _ HT). intros p Hp. rewrite Inp by auto. apply same_content_refl. }
      rewrite Ld. destruct (lfresh_dec (files w) r) as [F|F].
      * destruct (lfresh_current w r I Hr F) as (text & c & t & A1 & A2). exists text, c, t. split; auto.
        rewrite <- A1. apply (la_same _ _ _ (ls_fresh _ _ _ _ _ _ LS F)). left; auto.
      * destruct (l_result _ _ _ _ (ls_stale _ _ _ _ _ _ LS F eq_refl)) as (text & c & tau & A1 & A2 & A3).
        destruct (t_ld_ok r _ _ _ A1) as [text' A1']. rewrite t_clock in A2. exists text', c, (clock E tau). auto.
Qed.

(** Freshness only depends on files that installation does not touch. *)
Lemma fresh_moved w f' it : Inv w -> objs it ->
  (forall p, source p -> f' p = files w p) -> (forall p, belongs (it_out it) p -> f' p = files w p) ->
  fresh (files w) it -> fresh f' it.
Proof.
  intros I O Src Own F. eapply fresh_ext; [|exact F]. intros p R. symmetry.
  destruct R as [->|[->|[->|[->|(c & Hc & Hd)]]]].
  - apply Own. right. exists SFlags. reflexivity.
  - apply Own. right. exists SDeps. reflexivity.
  - apply Own. left. reflexivity.
  - apply Src. now apply (pr_src _ _ _ _ _ PR).
  - apply Src. apply (i_dep _ I it O c p Hc Hd).
Qed.

Lemma known_moved w f' it : (forall p, source p -> f' p = files w p) -> (forall p, belongs (it_out it) p -> f' p = files w p) ->
  headers_known E (files w) it -> headers_known E f' it.
Proof.
  intros Src Own HK D. destruct HK as (o & A & B).
  - unfold read_file in *. rewrite <- (Own (deps_path (it_out it))); auto. right. exists SDeps. reflexivity.
  - exists o. split; auto. rewrite <- A. apply (ge_deps _ _ _ GE). auto.
Qed.

Theorem run_success bs : forall T0 sofar w w', started T0 sofar bs w -> run_steps T bs w 0 w' ->
  Inv w' /\ tick w <= tick w' /\
  (forall p, ~ inst_area p -> (forall o, In o (outs bs) -> ~ belongs o p) -> files w' p = files w p) /\
  (forall b, In b bs -> step_right (files w) (files w') b).
Proof.
  induction bs as [|b bs IH]; intros T0 sofar w w' St H.
  - inversion H; subst. split; [apply St|]. split; auto. split; auto. intros b [].
  - assert (X : exists rv w1, one_step T b w rv w1 /\ (0 <= rv)%Z /\ run_steps T bs w1 0 w') by (inversion H; subst; eauto).
    destruct X as (rv & w1 & X1 & X2 & X3).
    destruct (step_success _ _ _ _ _ _ _ St X1 X2) as (-> & St' & [Tk Fr] & C).
    destruct (IH _ _ _ _ St' X3) as (I' & Tk' & Fr' & C'). pose proof (st_in _ _ _ _ St) as S.
    pose proof (st_nodup _ _ _ _ St) as N. rewrite outs_cons in N. destruct (nodup_app_l _ _ _ N) as (N1 & N2 & N3).
    assert (Src0 : forall p, source p -> files w1 p = files w p).
    { intros p Sp. apply Fr; [apply Sp|]. intros o Ho. apply source_not_area; auto. eapply step_out_area; eauto. }
    assert (Src1 : forall p, source p -> files w' p = files w1 p).
    { intros p Sp. apply Fr'; [apply Sp|]. intros o Ho. apply source_not_area; auto. apply (outs_area bs); auto. eapply script_in_tail; eauto. }
    assert (Keep : forall o, in_area o -> ~ In o (outs bs) -> files w' o = files w1 o).
    { intros o A Nin. apply Fr'.
      - apply (ge_apart _ _ _ GE), A.
      - intros o' Ho'. apply (belongs_distinct o); auto; [apply (outs_area bs); auto; eapply script_in_tail; eauto|intros ->; auto|left; auto]. }
    split; auto. split; [lia|]. split.
    + intros p Hk Hn. rewrite Fr'; auto.
      * apply Fr; auto. intros o Hin. apply Hn. rewrite outs_cons. apply in_or_app; auto.
      * intros o Hin. apply Hn. rewrite outs_cons. apply in_or_app; auto.
    + intros b' [<-|Hin].
      * destruct b as [its|r]; cbn in C |- *.
        -- intros it Hin HK. destruct (C it Hin HK) as (text & obj & t & A1 & A2). exists text, obj, t.
           rewrite Keep; [split; auto|apply (pr_area _ _ _ _ _ PR), (proj1 S its); cbn; auto|apply N3; cbn; now apply in_map].
           rewrite <- A2. apply (ge_obj _ _ _ GE). auto.
        -- destruct C as (text & c & t & A1 & A2). assert (Hr : reqs r) by (apply (proj2 S); cbn; auto). exists text, c, t.
           rewrite Keep; [split; auto|now apply (pr_larea _ _ _ _ _ PR)|apply N3; cbn; auto].
           rewrite <- A2. apply (ht_ld _ _ _ HT). intros s Hs.
           assert (Eq : files w' s = files w1 s).
           { destruct (pr_inputs _ _ _ _ _ PR r s Hr Hs) as [_ [X|[(it & Hi & ->)|(r' & Hr' & ->)]]].
             - auto.
             - apply Keep; [now apply (pr_area _ _ _ _ _ PR)|]. eapply started_inputs; eauto.
             - apply Keep; [now apply (pr_larea _ _ _ _ _ PR)|]. eapply started_inputs; eauto. }
           rewrite Eq. apply same_content_refl.
      * pose proof (C' b' Hin) as C1. destruct b' as [its|r]; cbn in C1 |- *; auto.
        intros it Hit HK. apply (C1 it Hit). intros F1.
        assert (O : objs it) by (apply (proj1 S its); cbn; auto).
        assert (Own : forall p, belongs (it_out it) p -> files w1 p = files w p).
        { intros p Bp. pose proof (pr_area _ _ _ _ _ PR it O) as A. apply Fr; [apply (ge_apart _ _ _ GE); eapply belongs_area; eauto|].
          intros o' Ho'. apply (belongs_distinct (it_out it)); auto; [eapply step_out_area; eauto|]. intros Eq. rewrite <- Eq in Ho'.
          apply (N3 _ Ho'). eapply in_outs_compile; eauto. }
        apply (known_moved w); auto. apply HK.
        eapply fresh_moved; [exact (st_inv _ _ _ _ St')|exact O| | |exact F1].
        -- intros p Sp. symmetry. auto.
        -- intros p Bp. symmetry. auto.
Qed.

Theorem run_cut bs : forall T0 sofar w w', started T0 sofar bs w -> same_flags bs (files w) -> during T bs w w' ->
  Inv w' /\ tick w <= tick w'.
Proof.
  induction bs as [|b bs IH]; intros T0 sofar w w' St SF H.
  - inversion H; subst. split; auto. apply St.
  - pose proof (st_in _ _ _ _ St) as S. pose proof (st_nodup _ _ _ _ St) as N. rewrite outs_cons in N.
    destruct (nodup_app_l _ _ _ N) as (N1 & N2 & N3). pose proof (st_inv _ _ _ _ St) as I. pose proof (st_run _ _ _ _ St) as R.
    inversion H; subst.
    + assert (O : forall it, In it its -> objs it) by (intros it Hin; apply (proj1 S its); cbn; auto).
      assert (GI : good_items area inst_area its (files w)) by now apply items_good.
      assert (M : moments its w w') by now apply t_moments, (compile_moments T area inst_area t_env).
      split; [|apply (ms_tick _ _ _ M)].
      refine (proj1 (compile_inv its w w' I O M T0 bs _ R)).
      intros it Hin. destruct (i_plain w I it (O it Hin)) as (P & _). destruct P as [P|(c & t & P)].
      * right. left. intros c t Q. congruence.
      * left. apply (proj1 SF its it c t); cbn; auto.
    + assert (Hr : reqs r) by (apply (proj2 S); cbn; auto).
      assert (M : lmoment E inst_area w w' r) by (apply t_lmoment, (link_moment T area inst_area t_env t_reads); auto; now apply req_good).
      split; [|apply (lm_tick _ _ _ _ _ M)].
      refine (proj1 (link_inv_step r w w' I Hr M T0 bs _ R _)).
      * destruct (i_lplain w I r Hr) as (P & _). destruct P as [P|(c & t & P)].
        -- right. left. intros c t Q. congruence.
        -- left. apply (proj2 SF r c t); cbn; auto.
      * eapply started_inputs; eauto.
    + match goal with X : one_step _ _ _ _ _ |- _ => destruct (step_success _ _ _ _ _ _ _ St X) as (-> & St' & [Tk Fr] & C); auto end.
      assert (Keep : forall o p, in_area o -> In o (outs bs) -> belongs o p -> files w1 p = files w p).
      { intros o p A Ho B. apply Fr.
        - apply (ge_apart _ _ _ GE). eapply belongs_area; eauto.
        - intros o' Ho'. apply (belongs_distinct o); auto; [eapply step_out_area; eauto|]. intros ->. apply (N3 o'); auto. }
      destruct (IH T0 _ w1 w' St') as [I' Tk']; auto; [|split; [auto|lia]].
      apply same_flags_tail in SF. destruct SF as [SF1 SF2]. split.
      * intros its it c t Hin Hit F.
        assert (A : in_area (it_out it)) by (apply (pr_area _ _ _ _ _ PR), (proj1 S its); cbn; auto).
        pose proof (in_outs_compile its it bs Hin Hit) as Ho.
        rewrite (Keep (it_out it)) in F by (auto; left; auto).
        eapply recorded_same; [symmetry; apply (Keep (it_out it)); auto; right; exists SFlags; reflexivity|]. eapply SF1; eauto.
      * intros r c t Hin F. assert (A : in_area (lk_out r)) by (apply (pr_larea _ _ _ _ _ PR), (proj2 S); cbn; auto).
        pose proof (in_outs_link r bs Hin) as Ho.
        rewrite (Keep (lk_out r)) in F by (auto; left; auto).
        eapply recorded_same; [symmetry; apply (Keep (lk_out r)); auto; right; exists SFlags; reflexivity|]. eapply SF2; eauto.
Qed.

(** *** Histories *)

Lemma script_started bs w : good_script bs -> later E reqs w -> Inv w -> started (clock E (tick w)) [] bs w.
Proof.
  intros [A B C D] L I. constructor; auto.
  - split; auto.
  - split; [lia|]. intros r c t Hr F. left. eapply L; eauto.
Qed.



Lemma input_keep r p : reqs r -> In p (lk_srcs r) -> ~ inst_area p.
Proof. intros R Hp. apply (gl_srcs _ _ _ (req_good r R) p Hp). Qed.

Lemma belongs_kept o p : in_area o -> belongs o p -> ~ inst_area p.
Proof. intros A B. apply (ge_apart _ _ _ GE). eapply belongs_area; eauto. Qed.

(** ** What one step does again *)

Notation remade := (remade E).

Lemma step_counts T0 sofar b bs w w' : started T0 sofar (b :: bs) w -> one_step T b w 0 w' ->
  (forall o, ~ In o (step_outs b) -> makes o (ran w') = makes o (ran w)) /\
  match b with
  | SCompile its => forall it, In it its ->
      fresh (files w) it /\ untouched (it_out it) w w' \/ ~ fresh (files w) it /\ remade (it_out it) w w'
  | SLink r => lfresh (files w) r /\ untouched (lk_out r) w w' \/ ~ lfresh (files w) r /\ remade (lk_out r) w w'
  end.
Proof.
  intros St H. pose proof St as [S N P Or I R]. rewrite outs_cons in N. destruct (nodup_app_l _ _ _ N) as (N1 & N2 & N3).
  destruct b as [its|r]; cbn [one_step step_outs] in *.
  - assert (O : forall it, In it its -> objs it) by (intros it Hin; apply (proj1 S its); cbn; auto).
    assert (GI : good_items area inst_area its (files w)) by (eapply items_good; eauto).
    pose proof (compile_success T area inst_area t_env its w w' GI H) as SS.
    pose proof (s_links _ _ _ _ _ SS) as Sl. split.
    + intros o Ho. unfold makes. rewrite Sl, (s_other _ _ _ _ _ SS o Ho). auto.
    + intros it Hin. destruct (s_cases _ _ _ _ _ SS it Hin) as [F|F]; [left|right]; (split; [auto|]); unfold untouched, remade, makes.
      * destruct (s_fresh _ _ _ _ _ SS it Hin F) as [K1 K2 _]. rewrite Sl, K2. split; auto. apply K1. left; auto.
      * destruct (s_stale _ _ _ _ _ SS it Hin F) as [(text & obj & tau & A1 & A2 & A3) K2 _ _ _ _]. rewrite Sl, K2. split; auto.
        exists obj, tau. rewrite t_clock in A2. split; auto. lia.
  - assert (Hr : reqs r) by (apply (proj2 S); cbn; auto).
    pose proof (link_stepped T area inst_area t_env t_reads r (req_good r Hr) w 0%Z w' H) as LS.
    pose proof (ls_ran _ _ _ _ _ _ LS) as Lr. split.
    + intros o Ho. unfold makes. destruct (Lr o) as [-> L2]. rewrite L2; [auto|]. intros ->. apply Ho. cbn; auto.
    + destruct (lfresh_dec (files w) r) as [F|F]; [left|right]; (split; [auto|]); unfold untouched, remade, makes.
      * destruct (ls_fresh _ _ _ _ _ _ LS F) as [K1 K2 _]. rewrite K2. split; auto. apply K1. left; auto.
      * destruct (ls_stale _ _ _ _ _ _ LS F eq_refl) as [(text & c & tau & A1 & A2 & A3) K2 _ _].
        destruct (Lr (lk_out r)) as [-> _]. rewrite K2. split; [lia|]. exists c, tau. rewrite t_clock in A2. split; auto. lia.
Qed.

(** What a step leaves alone, for the rest of the script. *)
Lemma step_quiet T0 sofar b bs w w' : started T0 sofar (b :: bs) w -> one_step T b w 0 w' ->
  (forall p, source p -> files w' p = files w p) /\
  (forall o p, in_area o -> ~ In o (step_outs b) -> belongs o p -> files w' p = files w p).
Proof.
  intros St H. destruct (step_success _ _ _ _ _ _ _ St H) as (_ & _ & [Tk Fr] & _); [lia|].
  pose proof (st_in _ _ _ _ St) as S. split.
  - intros p Sp. apply Fr; [apply Sp|]. intros o Ho. eapply source_not_area; eauto. eapply step_out_area; eauto.
  - intros o p A Ho B. apply Fr; [eapply belongs_kept; eauto|]. intros o' Ho' B'.
    assert (A' : in_area o') by (eapply step_out_area; eauto).
    revert B'. eapply belongs_distinct with (a := o); eauto. intros ->. auto.
Qed.


(** ** What a whole build does again *)

Record rebuilds (bs : list bstep) (w w' : world) : Prop := {
  rb_other : forall o, ~ In o (outs bs) -> makes o (ran w') = makes o (ran w);
  rb_obj : forall its it, In (SCompile its) bs -> In it its ->
    fresh (files w) it /\ untouched (it_out it) w w' \/ ~ fresh (files w) it /\ remade (it_out it) w w';
  rb_link : forall r, In (SLink r) bs ->
    (lfresh (files w) r /\ forall s, In s (lk_srcs r) -> makes s (ran w') = makes s (ran w)) /\ untouched (lk_out r) w w' \/
    (~ lfresh (files w) r \/ exists s, In s (lk_srcs r) /\ makes s (ran w') = S (makes s (ran w))) /\ remade (lk_out r) w w';
}.

Lemma run_cons_inv b bs w w' : run_steps T (b :: bs) w 0 w' ->
  exists rv w1, one_step T b w rv w1 /\ (0 <= rv)%Z /\ run_steps T bs w1 0 w'.
Proof. intros H. inversion H; subst; eauto. Qed.

Lemma started_run T0 sofar bs w w' : started T0 sofar bs w -> run_steps T bs w 0 w' ->
  forall o, in_area o -> ~ In o (outs bs) -> forall p, belongs o p -> files w' p = files w p.
Proof.
  intros St H o A Ho p B. destruct (run_success bs T0 sofar w w' St H) as (_ & _ & Fr & _).
  apply Fr; [eapply belongs_kept; eauto|]. intros o' Ho'.
  assert (A' : in_area o') by (eapply outs_area; eauto; apply St).
  eapply belongs_distinct with (a := o); eauto. intros ->. auto.
Qed.

Lemma started_run_src T0 sofar bs w w' : started T0 sofar bs w -> run_steps T bs w 0 w' ->
  forall p, source p -> files w' p = files w p.
Proof.
  intros St H p Sp. destruct (run_success bs T0 sofar w w' St H) as (_ & _ & Fr & _).
  apply Fr; [apply Sp|]. intros o' Ho'. eapply source_not_area; eauto. eapply outs_area; eauto; apply St.
Qed.


Theorem run_rebuilds bs : forall T0 sofar w w', started T0 sofar bs w -> run_steps T bs w 0 w' -> rebuilds bs w w'.
Proof.
  induction bs as [|b bs IH]; intros T0 sofar w w' St H.
  - inversion H; subst. constructor; auto; try (intros; contradiction).
  - destruct (run_cons_inv _ _ _ _ H) as (rv & w1 & X1 & X2 & X3).
    destruct (step_success _ _ _ _ _ _ _ St X1 X2) as (-> & St' & [Tk Fr] & C).
    destruct (step_counts _ _ _ _ _ _ St X1) as [SO SB].
    destruct (step_quiet _ _ _ _ _ _ St X1) as [QS QO].
    destruct (IH _ _ _ _ St' X3) as [RO RJ RL].
    pose proof (started_run _ _ _ _ _ St' X3) as RF.
    pose proof (st_in _ _ _ _ St) as Sc. pose proof (st_inv _ _ _ _ St) as I.
    pose proof (st_inv _ _ _ _ St') as I1.
    pose proof (st_nodup _ _ _ _ St) as N. rewrite outs_cons in N. destruct (nodup_app_l _ _ _ N) as (N1 & N2 & N3).
    (* products of the first step are not touched afterwards *)
    assert (Keep1 : forall o, In o (step_outs b) -> untouched o w1 w').
    { intros o Ho. split; [apply RO; auto|]. apply (RF o); auto; [eapply step_out_area; eauto|left; auto]. }
    assert (Lift1 : forall o, In o (step_outs b) -> untouched o w w1 -> untouched o w w').
    { intros o Ho [A1 A2]. destruct (Keep1 o Ho) as [B1 B2]. split; congruence. }
    assert (Lift2 : forall o, In o (step_outs b) -> remade o w w1 -> remade o w w').
    { intros o Ho [A1 (c & tau & A2 & A3)]. destruct (Keep1 o Ho) as [B1 B2]. split; [congruence|]. exists c, tau. split; [congruence|auto]. }
    (* products of later steps are not touched by the first *)
    assert (Keep2 : forall o p, in_area o -> In o (outs bs) -> belongs o p -> files w1 p = files w p).
    { intros o p A Ho B. apply (QO o); auto. intros X. apply (N3 o); auto. }
    assert (Cnt2 : forall o, In o (outs bs) -> makes o (ran w1) = makes o (ran w)).
    { intros o Ho. apply SO. intros X. apply (N3 o); auto. }
    assert (Lift3 : forall o, in_area o -> In o (outs bs) -> untouched o w1 w' -> untouched o w w').
    { intros o A Ho [A1 A2]. split; [rewrite A1; auto|]. rewrite A2. apply (Keep2 o); auto. left; auto. }
    assert (Lift4 : forall o, in_area o -> In o (outs bs) -> remade o w1 w' -> remade o w w').
    { intros o A Ho [A1 (c & tau & A2 & A3)]. split; [rewrite A1, Cnt2; auto|]. exists c, tau. split; auto. lia. }
    constructor.
    + intros o Ho. rewrite outs_cons in Ho. rewrite RO by (intros X; apply Ho, in_or_app; auto).
      apply SO. intros X; apply Ho, in_or_app; auto.
    + intros its it [->|Hin] Hit.
      * assert (Ho : In (it_out it) (step_outs (SCompile its))) by (cbn; now apply in_map).
        destruct (SB it Hit) as [[F U]|[F U]]; [left|right]; (split; [auto|]); auto.
      * assert (O : objs it) by (apply (proj1 Sc its); cbn; auto).
        assert (A : in_area (it_out it)) by now apply (pr_area _ _ _ _ _ PR).
        assert (Ho : In (it_out it) (outs bs)) by (eapply in_outs_compile; eauto).
        assert (Fr1 : fresh (files w) it <-> fresh (files w1) it).
        { split; intros F.
          - eapply fresh_moved; [exact I|exact O|auto| |exact F]. intros p B. apply (Keep2 (it_out it)); auto.
          - eapply fresh_moved; [exact I1|exact O| | |exact F]; [intros p Sp; symmetry; auto|]. intros p B. symmetry. apply (Keep2 (it_out it)); auto. }
        destruct (RJ its it Hin Hit) as [[F U]|[F U]]; [left|right]; (split; [tauto|]); auto.
    + intros r [->|Hin].
      * assert (Ho : In (lk_out r) (step_outs (SLink r))) by (cbn; auto).
        assert (Hs : forall s, In s (lk_srcs r) -> makes s (ran w') = makes s (ran w)).
        { intros s Hs. rewrite RO by (eapply started_inputs; eauto). apply SO. cbn. intros [X|[]].
          assert (Hr : reqs r) by (apply (proj2 Sc); cbn; auto).
          destruct (pr_inputs _ _ _ _ _ PR r s Hr Hs) as [Ne _]. auto. }
        destruct SB as [[F U]|[F U]]; [left|right]; auto.
      * assert (Hr : reqs r) by (apply (proj2 Sc); cbn; auto).
        assert (A : in_area (lk_out r)) by now apply (pr_larea _ _ _ _ _ PR).
        assert (Ho : In (lk_out r) (outs bs)) by (now apply in_outs_link).
        pose proof (fun p B => Keep2 (lk_out r) p A Ho B) as Own.
        (* an input made by the first step is newer than the product *)
        assert (New : forall s, In s (lk_srcs r) -> makes s (ran w1) = makes s (ran w) /\ files w1 s = files w s \/
                        makes s (ran w1) = S (makes s (ran w)) /\ ~ lfresh (files w1) r).
        { intros s Hs. destruct (in_dec bytes_dec s (step_outs b)) as [Hb|Hb].
          - assert (UR : untouched s w w1 \/ remade s w w1).
            { destruct b as [its|r0]; cbn in Hb.
              - apply in_map_iff in Hb. destruct Hb as (it & <- & Hit). destruct (SB it Hit) as [[_ U]|[_ U]]; auto.
              - destruct Hb as [<-|[]]. destruct SB as [[_ U]|[_ U]]; auto. }
            destruct UR as [[U1 U2]|[U1 (c & tau & U2 & U3)]]; auto. right. split; auto. intros [_ (t & Ht & Hd)].
            destruct (i_lplain _ I1 r Hr) as (Pl & _).
            destruct Pl as [Pl|(cr & tr & Pl)]; [unfold modified_at, stat in Ht; rewrite Pl in Ht; discriminate|].
            assert (tr = t) by (unfold modified_at, stat in Ht; rewrite Pl in Ht; congruence). subst tr.
            destruct (st_run _ _ _ _ St) as [RT RR].
            rewrite Own in Pl by (left; auto).
            destruct (RR r cr t Hr Pl) as [Lt|Nin].
            + destruct (Hd s Hs) as (td & Htd & Le). unfold modified_at, stat in Htd. rewrite U2 in Htd. injection Htd as <-.
              assert (clock E (tick w) <= clock E tau)%Z by (apply MONO; lia). lia.
            + apply (Nin s Hs). rewrite outs_cons. apply in_or_app; auto.
          - left. split; [now apply SO|].
            destruct (pr_inputs _ _ _ _ _ PR r s Hr Hs) as [_ [X|[(it & Hi & ->)|(r' & Hr' & ->)]]]; auto.
            + apply (QO (it_out it)); auto; [now apply (pr_area _ _ _ _ _ PR)|left; auto].
            + apply (QO (lk_out r')); auto; [now apply (pr_larea _ _ _ _ _ PR)|left; auto]. }
        (* monotone counts *)
        assert (Mono : forall s, In s (lk_srcs r) -> makes s (ran w') = makes s (ran w1) \/ makes s (ran w') = S (makes s (ran w1))).
        { intros s Hs. destruct (in_dec bytes_dec s (outs bs)) as [Hb|Hb]; [|left; auto].
          unfold outs in Hb. apply in_concat in Hb. destruct Hb as (l & Hl & Hb). apply in_map_iff in Hl. destruct Hl as (b' & <- & Hb').
          destruct b' as [its|r0]; cbn in Hb.
          - apply in_map_iff in Hb. destruct Hb as (it & <- & Hit). destruct (RJ its it Hb' Hit) as [[_ [U _]]|[_ [U _]]]; auto.
          - destruct Hb as [<-|[]]. destruct (RL r0 Hb') as [[_ [U _]]|[_ [U _]]]; auto. }
        (* an input made twice would be in two steps *)
        assert (Once : forall s, In s (lk_srcs r) -> makes s (ran w1) = S (makes s (ran w)) -> makes s (ran w') = makes s (ran w1)).
        { intros s Hs Hm. apply RO. intros X. rewrite Cnt2 in Hm; auto. lia. }
        destruct (RL r Hin) as [[(F & Fs) U]|[F U]].
        -- left. split; [|auto].
           assert (Same : forall s, In s (lk_srcs r) -> makes s (ran w1) = makes s (ran w) /\ files w1 s = files w s).
           { intros s Hs. destruct (New s Hs) as [X|[_ X]]; [auto|contradiction]. }
           split.
           ++ eapply lfresh_moved; [| |exact F]; [intros p Hp; symmetry; apply Same; auto|intros p B; symmetry; auto].
           ++ intros s Hs. rewrite Fs by auto. apply Same; auto.
        -- right. split; [|auto].
           destruct F as [F|(s & Hs & Hm)].
           ++ (* was it stale before, or made stale by the first step? *)
              destruct (lfresh_dec (files w) r) as [F0|F0]; [right|left; auto].
              assert (Ex : exists s, In s (lk_srcs r) /\ makes s (ran w1) = S (makes s (ran w))).
              { assert (D : (exists s, In s (lk_srcs r) /\ makes s (ran w1) = S (makes s (ran w))) \/
                            forall s, In s (lk_srcs r) -> makes s (ran w1) = makes s (ran w) /\ files w1 s = files w s).
                { clear - New. induction (lk_srcs r) as [|s l IHl]; [right; intros s []|].
                  destruct (New s (or_introl eq_refl)) as [X|[X _]].
                  - destruct IHl as [(s' & Y1 & Y2)|Y].
                    + intros s' Hs'. apply New. right; auto.
                    + left. exists s'. split; [right; auto|auto].
                    + right. intros s' [<-|Hs']; auto.
                  - left. exists s. split; [left; auto|auto]. }
                destruct D as [D|D]; auto. exfalso. apply F. eapply lfresh_moved; [| |exact F0]; auto. intros p Hp. apply D; auto. }
              destruct Ex as (s & Hs & Hm). exists s. split; auto. rewrite (Once s Hs Hm). auto.
           ++ right. exists s. split; auto. destruct (New s Hs) as [[X _]|[X _]]; [congruence|].
              rewrite (Once s Hs X) in Hm. lia.
Qed.

End Setting.

(** ** Histories in both modes *)

Section Mixed.
Variable E : env.
Variables area inst_area : bytes -> Prop.
Hypothesis GE : good_env E area inst_area.
Hypothesis HT : honest_tools E area inst_area.
Hypothesis MONO : monotone (clock E).
Variable objs : item -> Prop.
Variable reqs : link_req -> Prop.
Hypothesis PR : project E area inst_area objs reqs.
Notation good_script := (good_script area inst_area objs reqs).
Notation Inv := (Inv E area inst_area objs reqs).

Theorem mixed_inv w0 w : mixed_history E area inst_area objs reqs w0 w -> Inv w.
Proof.
  induction 1 as [w H|w0 w w' T H IH LK Ev].
  - eapply inv_start; eauto.
  - pose proof (t_clock E T LK) as Ck. destruct Ev as [w w' Tk Ar Ed|bs w w' G L R|bs w w' G L SF D].
    + eapply (inv_edit E area inst_area MONO objs reqs PR w); eauto. rewrite Ck in Ed. exact Ed.
    + eapply run_success; eauto. apply script_started; auto. unfold later in *. now rewrite Ck in L.
    + eapply run_cut; eauto. apply script_started; auto. unfold later in *. now rewrite Ck in L.
Qed.

Theorem mixed_run T w0 w bs w' : either_mode E T -> mixed_history E area inst_area objs reqs w0 w -> good_script bs -> later E reqs w ->
  run_steps T bs w 0 w' -> (forall b, In b bs -> step_right E (files w) (files w') b) /\ rebuilds E bs w w'.
Proof.
  intros LK H G L R.
  assert (St : started E area inst_area objs reqs (clock E (tick w)) [] bs w).
  { apply script_started; auto. eapply mixed_inv; eauto. }
  split; [eapply run_success; eauto|eapply run_rebuilds; eauto].
Qed.

(** Histories in one mode are histories. *)
Lemma history_mixed w0 w : history E area inst_area objs reqs w0 w -> mixed_history E area inst_area objs reqs w0 w.
Proof. induction 1 as [w H|w0 w w' H IH Ev]; [now constructor|]. eapply mh_step; eauto. now left. Qed.

(** After builds in the ordinary mode the records are right. *)
Lemma ordinary_known w0 w it : history E area inst_area objs reqs w0 w -> objs it -> fresh (files w) it -> headers_known E (files w) it.
Proof.
  intros H Ho (R & c & D & (t & Ht & U)) D0. assert (c = []) by congruence. subst c.
  pose proof (HistoryProofs.history_inv E area inst_area GE HT MONO objs reqs PR w0 w H) as I.
  destruct (HistoryProofs.i_plain _ _ _ _ _ _ I it Ho) as (P & _).
  destruct P as [P|(obj & t' & P)]; [unfold modified_at, stat in Ht; rewrite P in Ht; discriminate|].
  assert (t' = t) by (unfold modified_at, stat in Ht; rewrite P in Ht; congruence). subst t'.
  destruct (HistoryProofs.i_obj _ _ _ _ _ _ I it Ho obj t R P) as (_ & A3).
  destruct (A3 [] D) as (f1 & o & B1 & B2 & B3).
  assert (Le : listed o = []) by (unfold listed; now rewrite <- B2).
  destruct (ht_listed _ _ _ HT it f1 (files w) o B1) as [D1 _].
  { intros p [->|Hp]; [|rewrite Le in Hp; destruct Hp]. apply same_content_sym.
    destruct (B3 _ (pr_src _ _ _ _ _ PR it Ho)) as [X|X]; auto. exfalso. revert X. apply not_newer, U. cbn; auto. }
  exists o. split; auto. rewrite Le. intros d [].
Qed.
End Mixed.
