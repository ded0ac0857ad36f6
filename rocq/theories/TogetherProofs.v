(** * Builds at the same time: what every process does to the shared files keeps them right. *)

From Coq Require Import ZArith Ascii String Lia Bool List.
From Verif Require Import Base FileSys Frugal Deps Log Cookie CookieProofs Build SpecFiles SpecBuild FrugalProofs BuildProofs CompileProofs StepProofs MomentProofs SpecHistory LinkProofs HistoryProofs Together.
Import ListNotations.
Local Open Scope nat_scope.

Definition no_file (f : fs) (p : bytes) : Prop := forall c t, f p <> File c t.

Section Setting.
Variable E : env.
Variables area inst_area : bytes -> Prop.
Hypothesis GE : good_env E area inst_area.
Hypothesis HT : honest_tools E area inst_area.
Hypothesis MONO : monotone (clock E).
Variable objs : item -> Prop.
Variable reqs : link_req -> Prop.
Hypothesis PR : project E area inst_area objs reqs.
Notation source := (source area inst_area).
Notation in_area := (in_area area).
Notation good_script := (good_script area inst_area objs reqs).

(** The scripts of the processes. *)
Variable bss : nat -> list bstep.
Hypothesis GS : forall i, good_script (bss i).

Definition Wt (it : item) : Prop := exists i its, In (SCompile its) (bss i) /\ In it its.
Definition Lt (r : link_req) : Prop := exists i, In (SLink r) (bss i).
Hypothesis AG : forall a b, Wt a -> Wt b -> it_out a = it_out b -> a = b.
Hypothesis LAG : forall a b, Lt a -> Lt b -> lk_out a = lk_out b -> a = b.

Lemma W_objs it : Wt it -> objs it.
Proof. intros (i & its & A & B). eapply (gs_objs _ _ _ _ _ (GS i)); eauto. Qed.
Lemma L_reqs r : Lt r -> reqs r.
Proof. intros (i & A). eapply (gs_reqs _ _ _ _ _ (GS i)); eauto. Qed.
Lemma W_area it : Wt it -> in_area (it_out it).
Proof. intros W. apply (pr_area _ _ _ _ _ PR), W_objs, W. Qed.
Lemma L_area r : Lt r -> in_area (lk_out r).
Proof. intros W. apply (pr_larea _ _ _ _ _ PR), L_reqs, W. Qed.

(** The inputs of a link are sources or products of the scripts. *)
Lemma ordered_inputs bs : forall sofar r, ordered area inst_area sofar bs -> In (SLink r) bs -> forall s, In s (lk_srcs r) ->
  source s \/ In s sofar \/ In s (outs bs).
Proof.
  induction bs as [|[its|r'] bs IH]; intros sofar r O I s Hs; [contradiction| |]; unfold outs in *; cbn in *.
  - destruct I as [I|I]; [discriminate|]. destruct (IH _ _ O I s Hs) as [A|[A|A]]; auto.
    + apply in_app_or in A. destruct A; auto. right. right. apply in_or_app. auto.
    + right. right. apply in_or_app. auto.
  - destruct O as [O1 O2]. destruct I as [I|I].
    + injection I as ->. destruct (O1 s Hs); auto.
    + destruct (IH _ _ O2 I s Hs) as [A|[A|A]]; auto. destruct A as [A|A]; auto.
Qed.

Lemma outs_in bs o : In o (outs bs) -> (exists its it, In (SCompile its) bs /\ In it its /\ o = it_out it) \/ exists r, In (SLink r) bs /\ o = lk_out r.
Proof.
  unfold outs. induction bs as [|[its|r] bs IH]; cbn; [contradiction| |].
  - intros I. apply in_app_or in I. destruct I as [I|I].
    + apply in_map_iff in I. destruct I as (it & <- & I). left. exists its, it. auto.
    + destruct (IH I) as [(its' & it & A & B & C)|(r & A & B)]; [left|right]; eauto 6.
  - intros [<-|I]; [right; eauto|]. destruct (IH I) as [(its' & it & A & B & C)|(r' & A & B)]; [left|right]; eauto 6.
Qed.

Lemma L_inputs r s : Lt r -> In s (lk_srcs r) -> source s \/ (exists it, Wt it /\ s = it_out it) \/ exists r', Lt r' /\ s = lk_out r'.
Proof.
  intros (i & I) Hs. destruct (ordered_inputs _ _ _ (gs_ordered _ _ _ _ _ (GS i)) I s Hs) as [A|[[]|A]]; auto.
  destruct (outs_in _ _ A) as [(its & it & B & C & D)|(r' & B & C)]; right; [left; exists it|right; exists r']; split; auto.
  - exists i, its. auto.
  - exists i. auto.
Qed.

(** A path whose content is final. *)
Inductive Done (f : fs) : bytes -> Prop :=
| d_src p : source p -> Done f p
| d_obj it : Wt it -> obj_current E f it -> Done f (it_out it)
| d_link r : Lt r -> link_current E f r -> (forall s, In s (lk_srcs r) -> Done f s) -> Done f (lk_out r).

Variable w0 : world.
Notation T0 := (clock E (tick w0)).

(** The files of a product, but for its log, are as they were. *)
Definition untouched (f f' : fs) (o : bytes) : Prop :=
  f' o = f o /\ f' (deps_path o) = f (deps_path o) /\ f' (flags_path o) = f (flags_path o).

Record WI (w : world) : Prop := {
  wi_tick : tick w0 <= tick w;
  wi_src : forall p, source p -> files w p = files w0 p;
  wi_plain : forall it, Wt it -> plain_file (files w) (it_out it) /\ plain_file (files w) (deps_path (it_out it)) /\ plain_file (files w) (flags_path (it_out it));
  wi_lplain : forall r, Lt r -> plain_file (files w) (lk_out r) /\ plain_file (files w) (flags_path (lk_out r));
  wi_flags : forall it, Wt it -> no_file (files w) (it_out it) \/ recorded (files w) it;
  wi_lflags : forall r, Lt r -> no_file (files w) (lk_out r) \/ lrecorded (files w) r;
  wi_obj : forall it, Wt it -> obj_inv E area inst_area (files w) it;
  wi_dep : forall it, Wt it -> deps_are_sources area inst_area (files w) (it_out it);
  wi_link : forall r c t, Lt r -> files w (lk_out r) = File c t ->
    ((t < T0)%Z /\ exists f0 text, ld_on E r f0 = ToolOk text c /\ forall p, In p (lk_srcs r) -> same_content (files w p) (f0 p) \/ newer (files w) p t) \/
    (link_current E (files w) r /\ forall s, In s (lk_srcs r) -> Done (files w) s);
  wi_time : forall it c t, Wt it -> files w (it_out it) = File c t -> (t <= clock E (tick w))%Z;
  wi_ltime : forall r c t, Lt r -> files w (lk_out r) = File c t -> (t <= clock E (tick w))%Z;
  wi_young : forall it, Wt it -> files w (it_out it) = files w0 (it_out it) \/ forall t, modified_at (files w) (it_out it) t -> (T0 <= t)%Z;
  wi_lyoung : forall r, Lt r -> files w (lk_out r) = files w0 (lk_out r) \/ forall t, modified_at (files w) (lk_out r) t -> (T0 <= t)%Z;
  wi_other : forall it, objs it -> untouched (files w0) (files w) (it_out it) \/ exists it', Wt it' /\ it_out it' = it_out it;
  wi_lother : forall r, reqs r -> untouched (files w0) (files w) (lk_out r) \/ exists r', Lt r' /\ lk_out r' = lk_out r;
}.

(** What an action may do to the files of an object, and to those of a link. *)
Definition record_now (f f' : fs) (it : item) : Prop :=
  exists o t, deps_on E it f = Some o /\ f' (deps_path (it_out it)) = File (deps_content (parse_deps o)) t.

Record obj_change (f f' : fs) (it : item) : Prop := {
  oc_flags : f' (flags_path (it_out it)) = f (flags_path (it_out it)) \/ (recorded f' it /\ no_file f (it_out it));
  oc_deps : f' (deps_path (it_out it)) = f (deps_path (it_out it)) \/ record_now f f' it;
  oc_out : f' (it_out it) = f (it_out it) \/
           (f' (it_out it) = Absent /\ forall text obj, cc_on E it f <> ToolOk text obj) \/
           (recorded f it /\ f' (flags_path (it_out it)) = f (flags_path (it_out it)) /\ record_now f f' it /\
            exists text obj t, cc_on E it f = ToolOk text obj /\ f' (it_out it) = File obj t /\ (T0 <= t)%Z);
}.

Record link_change (f f' : fs) (r : link_req) : Prop := {
  lc_flags : f' (flags_path (lk_out r)) = f (flags_path (lk_out r)) \/ (lrecorded f' r /\ no_file f (lk_out r));
  lc_out : f' (lk_out r) = f (lk_out r) \/
           (f' (lk_out r) = Absent /\ forall text c, ld_on E r f <> ToolOk text c) \/
           (lrecorded f r /\ f' (flags_path (lk_out r)) = f (flags_path (lk_out r)) /\ (forall s, In s (lk_srcs r) -> Done f s) /\
            exists text c t, ld_on E r f = ToolOk text c /\ f' (lk_out r) = File c t /\ (T0 <= t)%Z);
}.

Record change (w w' : world) : Prop := {
  ch_tick : tick w <= tick w';
  ch_src : forall p, source p -> files w' p = files w p;
  ch_obj : forall it, Wt it -> obj_change (files w) (files w') it;
  ch_link : forall r, Lt r -> link_change (files w) (files w') r;
  ch_time : forall it c t, Wt it -> files w' (it_out it) = File c t -> files w (it_out it) = File c t \/ (t <= clock E (tick w'))%Z;
  ch_ltime : forall r c t, Lt r -> files w' (lk_out r) = File c t -> files w (lk_out r) = File c t \/ (t <= clock E (tick w'))%Z;
  ch_other : forall it, objs it -> untouched (files w) (files w') (it_out it) \/ exists it', Wt it' /\ it_out it' = it_out it;
  ch_lother : forall r, reqs r -> untouched (files w) (files w') (lk_out r) \/ exists r', Lt r' /\ lk_out r' = lk_out r;
}.

Lemma cc_same f f' it : (forall p, source p -> f' p = f p) -> cc_on E it f' = cc_on E it f.
Proof. intros H. apply (ge_obj _ _ _ GE). auto. Qed.
Lemma deps_same f f' it : (forall p, source p -> f' p = f p) -> deps_on E it f' = deps_on E it f.
Proof. intros H. apply (ge_deps _ _ _ GE). auto. Qed.

Lemma done_kept w w' : change w w' -> forall s, Done (files w) s -> Done (files w') s /\ same_content (files w s) (files w' s).
Proof.
  intros C s D. induction D as [p S|it W (text & obj & t & F & R)|r L (text & c & t & F & R) _ IH].
  - split; [now apply d_src|]. rewrite (ch_src _ _ C p S). apply same_content_refl.
  - pose proof (cc_same (files w) (files w') it (ch_src _ _ C)) as Cc. rewrite R in Cc.
    destruct (oc_out _ _ _ (ch_obj _ _ C it W)) as [O|[[_ O]|(_ & _ & _ & text' & obj' & t' & O1 & O2 & _)]].
    + split; [apply d_obj; auto; exists text, obj, t; split; congruence|]. rewrite O. apply same_content_refl.
    + exfalso. eapply O; eauto.
    + assert (obj' = obj) by congruence. subst obj'. split; [apply d_obj; auto; exists text, obj, t'; split; congruence|].
      rewrite F, O2. reflexivity.
  - assert (Ld : ld_on E r (files w') = ToolOk text c).
    { rewrite <- R. apply (ht_ld _ _ _ HT). intros p Hp. apply same_content_sym. apply IH; auto. }
    destruct (lc_out _ _ _ (ch_link _ _ C r L)) as [O|[[_ O]|(_ & _ & _ & text' & c' & t' & O1 & O2 & _)]].
    + split; [apply d_link; auto; [exists text, c, t; split; congruence|intros s Hs; apply IH; auto]|]. rewrite O. apply same_content_refl.
    + exfalso. eapply O; eauto.
    + assert (c' = c) by congruence. subst c'. split; [apply d_link; auto; [exists text, c, t'; split; congruence|intros s Hs; apply IH; auto]|].
      rewrite F, O2. reflexivity.
Qed.

Lemma recorded_kept f f' it : obj_change f f' it -> recorded f it -> recorded f' it.
Proof. intros C R. destruct (oc_flags _ _ _ C) as [O|[O _]]; auto. eapply recorded_same; [|exact R]. auto. Qed.
Lemma lrecorded_kept f f' r : link_change f f' r -> lrecorded f r -> lrecorded f' r.
Proof. intros C R. destruct (lc_flags _ _ _ C) as [O|[O _]]; auto. eapply recorded_same; [|exact R]. exact (eq_sym O). Qed.

Lemma untouched_trans a b c o : untouched a b o -> untouched b c o -> untouched a c o.
Proof. intros (A & B & C) (A' & B' & C'). repeat split; congruence. Qed.
Lemma untouched_same f f' o : (forall p, belongs o p -> f' p = f p) -> untouched f f' o.
Proof. intros H. split; [|split]; apply H; [left; reflexivity|right; exists SDeps; reflexivity|right; exists SFlags; reflexivity]. Qed.

Theorem change_right w w' : WI w -> change w w' -> WI w'.
Proof.
  intros I C. pose proof (wi_tick _ I) as Tk. pose proof (ch_tick _ _ C) as Tk'.
  assert (Src : forall p, source p -> files w' p = files w p) by (apply (ch_src _ _ C)).
  constructor.
  - lia.
  - intros p S. rewrite Src by auto. now apply (wi_src _ I).
  - intros it W. destruct (wi_plain _ I it W) as (P1 & P2 & P3). destruct (ch_obj _ _ C it W) as [Of Od Oo]. unfold plain_file. split; [|split].
    + destruct Oo as [O|[[O _]|(_ & _ & _ & text & obj & t & _ & O & _)]]; rewrite O; eauto.
    + destruct Od as [O|(o & t & _ & O)]; rewrite O; eauto.
    + destruct Of as [O|[(c & t & O & _) _]]; rewrite O; eauto.
  - intros r L. destruct (wi_lplain _ I r L) as (P1 & P2). destruct (ch_link _ _ C r L) as [Of Oo]. unfold plain_file. split.
    + destruct Oo as [O|[[O _]|(_ & _ & _ & text & c & t & _ & O & _)]]; rewrite O; eauto.
    + destruct Of as [O|[(c & t & O & _) _]]; [rewrite O; auto|]. right. exists c, t. exact O.
  - intros it W. pose proof (ch_obj _ _ C it W) as Ch. destruct (oc_flags _ _ _ Ch) as [O|[O _]]; [|auto].
    destruct (oc_out _ _ _ Ch) as [Oo|[[Oo _]|(R & _)]].
    + destruct (wi_flags _ I it W) as [N|R]; [left; intros c t; rewrite Oo; apply N|right; now apply (recorded_kept (files w))].
    + left. intros c t. congruence.
    + right. now apply (recorded_kept (files w)).
  - intros r L. pose proof (ch_link _ _ C r L) as Ch. destruct (lc_flags _ _ _ Ch) as [O|[O _]]; [|auto].
    destruct (lc_out _ _ _ Ch) as [Oo|[[Oo _]|(R & _)]].
    + destruct (wi_lflags _ I r L) as [N|R]; [left; intros c t; rewrite Oo; apply N|right; now apply (lrecorded_kept (files w))].
    + left. intros c t. congruence.
    + right. now apply (lrecorded_kept (files w)).
  - intros it W obj t R F. pose proof (ch_obj _ _ C it W) as [Of Od Oo].
    assert (Now : forall p, source p -> same_content (files w' p) (files w p) \/ newer (files w') p t).
    { intros p Sp. left. rewrite Src by auto. apply same_content_refl. }
    assert (Rec : forall c, read_file (files w') (deps_path (it_out it)) = Some c -> record_now (files w) (files w') it ->
      exists f1 o, deps_on E it f1 = Some o /\ c = deps_content (parse_deps o) /\ forall p, source p -> same_content (files w' p) (f1 p) \/ newer (files w') p t).
    { intros c D (o & td & D1 & D2). exists (files w), o. split; auto. split; auto. unfold read_file in D. rewrite D2 in D. congruence. }
    destruct Oo as [O|[[O _]|(_ & _ & RN & text & obj' & t' & O1 & O2 & _)]]; [|congruence|].
    + rewrite O in F. destruct (wi_flags _ I it W) as [N|R0]; [exfalso; eapply N; eauto|].
      assert (Move : forall f, (forall p, source p -> same_content (files w p) (f p) \/ newer (files w) p t) ->
        forall p, source p -> same_content (files w' p) (f p) \/ newer (files w') p t).
      { intros f A p Sp. rewrite Src by auto. destruct (A p Sp) as [|N]; auto. right. eapply newer_same; [|exact N]. auto. }
      destruct (wi_obj _ I it W obj t R0 F) as ((f0 & text & A1 & A2) & A3). split; [exists f0, text; auto|].
      intros c D. destruct Od as [Od|Od]; [|auto].
      destruct (A3 c) as (f1 & o & B1 & B2 & B3); [unfold read_file in *; now rewrite <- Od|]. exists f1, o. auto.
    + assert (obj' = obj) by congruence. subst obj'. split; [exists (files w), text; auto|]. intros c D. auto.
  - intros it W c d D Hd. destruct (oc_deps _ _ _ (ch_obj _ _ C it W)) as [O|(o & t & O1 & O2)].
    + apply (wi_dep _ I it W c); auto. unfold read_file in *. now rewrite <- O.
    + unfold read_file in D. rewrite O2 in D. injection D as <-. eapply (ht_sources _ _ _ HT it); eauto.
  - intros r c t L F. pose proof (ch_link _ _ C r L) as [Of Oo].
    destruct Oo as [O|[[O _]|(_ & _ & DD & text & c' & t' & O1 & O2 & _)]]; [|congruence|].
    + rewrite O in F. destruct (wi_link _ I r c t L F) as [(Lt0 & f0 & text & A1 & A2)|[(text & c1 & t1 & A1 & A2) A3]].
      * left. split; auto. exists f0, text. split; auto. intros p Hp.
        assert (Keep : files w' p = files w p -> same_content (files w' p) (f0 p) \/ newer (files w') p t).
        { intros Eq. rewrite Eq. destruct (A2 p Hp) as [|N]; auto. right. eapply newer_same; eauto. }
        destruct (L_inputs r p L Hp) as [S|[(it & W & ->)|(r' & L' & ->)]].
        -- apply Keep. auto.
        -- destruct (oc_out _ _ _ (ch_obj _ _ C it W)) as [Q|[[Q _]|(_ & _ & _ & tx & ob & tt & _ & Q & Ge)]]; [auto| |]; right; intros t' Ht; unfold modified_at, stat in Ht; rewrite Q in Ht; [discriminate|].
           injection Ht as <-. lia.
        -- destruct (lc_out _ _ _ (ch_link _ _ C r' L')) as [Q|[[Q _]|(_ & _ & _ & tx & ob & tt & _ & Q & Ge)]]; [auto| |]; right; intros t' Ht; unfold modified_at, stat in Ht; rewrite Q in Ht; [discriminate|].
           injection Ht as <-. lia.
      * right. split; [|intros s Hs; apply (done_kept w w' C s); auto].
        exists text, c1, t1. split; [congruence|]. rewrite <- A2. apply (ht_ld _ _ _ HT). intros p Hp. apply same_content_sym. apply (done_kept w w' C p). auto.
    + right. split; [|intros s Hs; apply (done_kept w w' C s); auto].
      exists text, c', t'. split; auto. rewrite <- O1. apply (ht_ld _ _ _ HT). intros p Hp. apply same_content_sym. apply (done_kept w w' C p). auto.
  - intros it c t W F. destruct (ch_time _ _ C it c t W F) as [O|]; auto. pose proof (wi_time _ I it c t W O). pose proof (MONO _ _ Tk'). lia.
  - intros r c t W F. destruct (ch_ltime _ _ C r c t W F) as [O|]; auto. pose proof (wi_ltime _ I r c t W O). pose proof (MONO _ _ Tk'). lia.
  - intros it W. destruct (oc_out _ _ _ (ch_obj _ _ C it W)) as [Q|[[Q _]|(_ & _ & _ & tx & ob & tt & _ & Q & Ge)]].
    + unfold modified_at, stat. rewrite Q. apply (wi_young _ I it W).
    + right. intros t Ht. unfold modified_at, stat in Ht. rewrite Q in Ht. discriminate.
    + right. intros t Ht. unfold modified_at, stat in Ht. rewrite Q in Ht. injection Ht as <-. exact Ge.
  - intros r W. destruct (lc_out _ _ _ (ch_link _ _ C r W)) as [Q|[[Q _]|(_ & _ & _ & tx & ob & tt & _ & Q & Ge)]].
    + unfold modified_at, stat. rewrite Q. apply (wi_lyoung _ I r W).
    + right. intros t Ht. unfold modified_at, stat in Ht. rewrite Q in Ht. discriminate.
    + right. intros t Ht. unfold modified_at, stat in Ht. rewrite Q in Ht. injection Ht as <-. exact Ge.
  - intros it O. destruct (wi_other _ I it O) as [U|U]; auto. destruct (ch_other _ _ C it O) as [U'|U']; auto. left. eapply untouched_trans; eauto.
  - intros r O. destruct (wi_lother _ I r O) as [U|U]; auto. destruct (ch_lother _ _ C r O) as [U'|U']; auto. left. eapply untouched_trans; eauto.
Qed.

(** *** Actions *)

Definition frame (o : bytes) (f f' : fs) : Prop := forall p, ~ inst_area p -> ~ belongs o p -> f' p = f p.

Lemma obj_change_same f f' it : Wt it -> (forall p, belongs (it_out it) p -> f' p = f p) -> obj_change f f' it.
Proof. intros W H. constructor; left; apply H; [right; exists SFlags; reflexivity|right; exists SDeps; reflexivity|left; reflexivity]. Qed.
Lemma link_change_same f f' r : Lt r -> (forall p, belongs (lk_out r) p -> f' p = f p) -> link_change f f' r.
Proof. intros W H. constructor; left; apply H; [right; exists SFlags; reflexivity|left; reflexivity]. Qed.

Lemma other_same o o' f f' p : in_area o -> in_area o' -> o <> o' -> frame o f f' -> belongs o' p -> f' p = f p.
Proof.
  intros A B N F Bp. apply F; [apply (ge_apart _ _ _ GE); eapply belongs_area; eauto|]. eapply belongs_distinct; eauto.
Qed.

Lemma src_frame o f f' p : in_area o -> frame o f f' -> source p -> f' p = f p.
Proof. intros A F S. apply F; [apply S|]. eapply source_not_area; eauto. Qed.

Lemma change_obj w w' it : Wt it -> tick w <= tick w' -> frame (it_out it) (files w) (files w') -> obj_change (files w) (files w') it ->
  (forall c t, files w' (it_out it) = File c t -> files w (it_out it) = File c t \/ (t <= clock E (tick w'))%Z) -> change w w'.
Proof.
  intros W Tk F O Tm. constructor; auto.
  - intros p S. eapply src_frame; eauto. now apply W_area.
  - intros it' W'. destruct (bytes_dec (it_out it) (it_out it')) as [Eq|N]; [rewrite <- (AG it it'); auto|].
    apply obj_change_same; auto. intros p B. apply (other_same (it_out it) (it_out it')); auto; now apply W_area.
  - intros r L. apply link_change_same; auto. intros p B. apply (other_same (it_out it) (lk_out r)); auto; [now apply W_area|now apply L_area|].
    apply (pr_apart _ _ _ _ _ PR); [now apply W_objs|now apply L_reqs].
  - intros it' c t W' Fo. destruct (bytes_dec (it_out it) (it_out it')) as [Eq|N]; [rewrite <- Eq in *; auto|].
    left. rewrite <- Fo. symmetry. apply (other_same (it_out it) (it_out it')); auto; [now apply W_area|now apply W_area|left; reflexivity].
  - intros r c t L Fo. left. rewrite <- Fo. symmetry. apply (other_same (it_out it) (lk_out r)); auto; [now apply W_area|now apply L_area| |left; reflexivity].
    apply (pr_apart _ _ _ _ _ PR); [now apply W_objs|now apply L_reqs].
  - intros it' O'. destruct (bytes_dec (it_out it) (it_out it')) as [Eq|N]; [right; eauto|]. left. apply untouched_same. intros p B.
    apply (other_same (it_out it) (it_out it')); auto; [now apply W_area|now apply (pr_area _ _ _ _ _ PR)].
  - intros r O'. left. apply untouched_same. intros p B.
    apply (other_same (it_out it) (lk_out r)); auto; [now apply W_area|now apply (pr_larea _ _ _ _ _ PR)|]. apply (pr_apart _ _ _ _ _ PR); [now apply W_objs|auto].
Qed.

Lemma change_link w w' r : Lt r -> tick w <= tick w' -> frame (lk_out r) (files w) (files w') -> link_change (files w) (files w') r ->
  (forall c t, files w' (lk_out r) = File c t -> files w (lk_out r) = File c t \/ (t <= clock E (tick w'))%Z) -> change w w'.
Proof.
  intros W Tk F O Tm. constructor; auto.
  - intros p S. eapply src_frame; eauto. now apply L_area.
  - intros it L. apply obj_change_same; auto. intros p B. apply (other_same (lk_out r) (it_out it)); auto; [now apply L_area|now apply W_area|].
    intros X. symmetry in X. revert X. apply (pr_apart _ _ _ _ _ PR); [now apply W_objs|now apply L_reqs].
  - intros r' W'. destruct (bytes_dec (lk_out r) (lk_out r')) as [Eq|N]; [rewrite <- (LAG r r'); auto|].
    apply link_change_same; auto. intros p B. apply (other_same (lk_out r) (lk_out r')); auto; now apply L_area.
  - intros it c t W' Fo. left. rewrite <- Fo. symmetry. apply (other_same (lk_out r) (it_out it)); auto; [now apply L_area|now apply W_area| |left; reflexivity].
    intros X. symmetry in X. revert X. apply (pr_apart _ _ _ _ _ PR); [now apply W_objs|now apply L_reqs].
  - intros r' c t W' Fo. destruct (bytes_dec (lk_out r) (lk_out r')) as [Eq|N]; [rewrite <- Eq in *; auto|].
    left. rewrite <- Fo. symmetry. apply (other_same (lk_out r) (lk_out r')); auto; [now apply L_area|now apply L_area|left; reflexivity].
  - intros it O'. left. apply untouched_same. intros p B.
    apply (other_same (lk_out r) (it_out it)); auto; [now apply L_area|now apply (pr_area _ _ _ _ _ PR)|]. intros X. symmetry in X. revert X. apply (pr_apart _ _ _ _ _ PR); [auto|now apply L_reqs].
  - intros r' O'. destruct (bytes_dec (lk_out r) (lk_out r')) as [Eq|N]; [right; eauto|]. left. apply untouched_same. intros p B.
    apply (other_same (lk_out r) (lk_out r')); auto; [now apply L_area|now apply (pr_larea _ _ _ _ _ PR)].
Qed.

(** Nothing but logs and installed files changes. *)
Lemma change_quiet w w' : tick w <= tick w' -> (forall p, ~ inst_area p -> (forall o, p <> log_path o) -> files w' p = files w p) ->
  (forall p, source p -> files w' p = files w p) -> change w w'.
Proof.
  intros Tk Q S.
  assert (U : forall o, in_area o -> untouched (files w) (files w') o).
  { intros o' (P & A & B). split; [|split]; apply Q.
    - now apply (ge_apart _ _ _ GE).
    - intros o X. apply (P SLog o). auto.
    - apply (ge_apart _ _ _ GE). apply (B SDeps).
    - intros o X. apply (side_file_inj SDeps SLog o' o) in X. destruct X. discriminate.
    - apply (ge_apart _ _ _ GE). apply (B SFlags).
    - intros o X. apply (side_file_inj SFlags SLog o' o) in X. destruct X. discriminate. }
  constructor; auto.
  - intros it W. destruct (U _ (W_area it W)) as (A & B & C). constructor; auto.
  - intros it W. destruct (U _ (L_area it W)) as (A & B & C). constructor; auto.
  - intros it c t W F. left. destruct (U _ (W_area it W)) as (A & _). congruence.
  - intros it c t W F. left. destruct (U _ (L_area it W)) as (A & _). congruence.
  - intros it O. left. apply U. now apply (pr_area _ _ _ _ _ PR).
  - intros r O. left. apply U. now apply (pr_larea _ _ _ _ _ PR).
Qed.

(** Replacing a record of flags. *)
Lemma flags_act f now it : Forall plain (it_flags it) -> can_write E (flags_path (it_out it)) = true -> plain_file f (flags_path (it_out it)) ->
  let '(changed, f1) := frugal_flags (can_write E) now f (it_flags it) (it_out it) in
  recorded f1 it /\ (forall p, p <> flags_path (it_out it) -> f1 p = f p) /\ (f1 = f \/ ~ recorded f it) /\ (changed = false -> f1 = f).
Proof.
  intros Pl Cw P. unfold frugal_flags, read_file, write_file. rewrite Cw.
  assert (Cs : cstr (flag_str (it_flags it)) = flag_str (it_flags it)).
  { apply cstr_nul_free. rewrite flag_str_lines by auto. now apply lines_nul_free. }
  assert (Wr : forall e, f (flags_path (it_out it)) = e -> ~ recorded f it ->
    recorded (fs_set f (flags_path (it_out it)) (File (flag_str (it_flags it)) now)) it /\
    (forall p, p <> flags_path (it_out it) -> fs_set f (flags_path (it_out it)) (File (flag_str (it_flags it)) now) p = f p) /\
    (fs_set f (flags_path (it_out it)) (File (flag_str (it_flags it)) now) = f \/ ~ recorded f it) /\
    (true = false -> fs_set f (flags_path (it_out it)) (File (flag_str (it_flags it)) now) = f)).
  { intros e _ N. split; [exists (flag_str (it_flags it)), now; split; [apply fs_set_same|exact Cs]|]. split; [intros p Np; now apply fs_set_diff|]. split; [auto|discriminate]. }
  destruct P as [P|(c & t & P)]; rewrite P.
  - apply (Wr _ P). intros (c & t & F & _). congruence.
  - destruct (bytes_eqb (cstr c) (flag_str (it_flags it))) eqn:B.
    + apply bytes_eqb_eq in B. split; [exists c, t; auto|]. auto.
    + apply (Wr _ P). intros (c' & t' & F & X). apply bytes_eqb_neq in B. apply B. congruence.
Qed.

Lemma side_out k o : side_file k o <> o.
Proof. intros X. assert (L : length (side_file k o) = length o) by (now rewrite X). unfold side_file in L. rewrite app_length in L. destruct k; cbn in L; lia. Qed.
Lemma side_other k k' o : k <> k' -> side_file k o <> side_file k' o.
Proof. intros N X. apply side_file_inj in X. tauto. Qed.

Lemma flags_obj w it : WI w -> Wt it ->
  let '(changed, f1) := frugal_flags (can_write E) (now E w) (files w) (it_flags it) (it_out it) in
  change w (set_files w f1) /\ recorded f1 it.
Proof.
  intros I W. pose proof (wi_plain _ I it W) as (P1 & P2 & P3).
  assert (Cw : can_write E (flags_path (it_out it)) = true).
  { apply (pr_write _ _ _ _ _ PR). destruct (W_area it W) as (_ & _ & B). apply (B SFlags). }
  pose proof (flags_act (files w) (now E w) it (pr_plain _ _ _ _ _ PR it (W_objs it W)) Cw P3) as FA.
  destruct (frugal_flags _ _ _ _ _) as [ch f1]. destruct FA as (R & Fr & Ch & _). split; auto.
  apply (change_obj _ _ it W).
  - cbn. lia.
  - intros p _ N. cbn. apply Fr. intros ->. apply N. right. exists SFlags. reflexivity.
  - cbn. constructor.
    + destruct Ch as [->|N]; auto. right. split; auto. destruct (wi_flags _ I it W); auto. contradiction.
    + left. apply Fr. apply (side_other SDeps SFlags). discriminate.
    + left. apply Fr. intros X. symmetry in X. revert X. apply (side_out SFlags).
  - intros c t F. left. rewrite <- F. symmetry. cbn. apply Fr. intros X. symmetry in X. revert X. apply (side_out SFlags).
Qed.

Lemma flags_link w r : WI w -> Lt r ->
  let '(changed, f1) := frugal_flags (can_write E) (now E w) (files w) (lk_flags r) (lk_out r) in
  change w (set_files w f1) /\ lrecorded f1 r.
Proof.
  intros I W. pose proof (wi_lplain _ I r W) as (P1 & P3).
  assert (Cw : can_write E (flags_path (lk_out r)) = true).
  { apply (pr_write _ _ _ _ _ PR). destruct (L_area r W) as (_ & _ & B). apply (B SFlags). }
  pose proof (flags_act (files w) (now E w) (as_item r) (pr_lplain _ _ _ _ _ PR r (L_reqs r W)) Cw P3) as FA.
  unfold as_item in FA. cbn [it_flags it_out] in FA.
  destruct (frugal_flags _ _ _ _ _) as [ch f1]. destruct FA as (R & Fr & Ch & _). split; auto.
  apply (change_link _ _ r W).
  - cbn. lia.
  - intros p _ N. cbn. apply Fr. intros ->. apply N. right. exists SFlags. reflexivity.
  - cbn. constructor.
    + destruct Ch as [->|N]; auto. right. split; auto. destruct (wi_lflags _ I r W); auto. contradiction.
    + left. apply Fr. intros X. symmetry in X. revert X. apply (side_out SFlags).
  - intros c t F. left. rewrite <- F. symmetry. cbn. apply Fr. intros X. symmetry in X. revert X. apply (side_out SFlags).
Qed.

Lemma change_install w o t : change w (set_files w (snd (installer E o t (files w)))).
Proof.
  apply change_quiet; cbn; [lia| |]; intros p; intros; apply (ge_inst _ _ _ GE); auto. apply H.
Qed.

Lemma change_nothing w w' : files w' = files w -> tick w <= tick w' -> change w w'.
Proof. intros Eq T. apply change_quiet; auto; intros; now rewrite Eq. Qed.

Lemma log_files cw t f o x p : p <> log_path o -> snd (cmd_log cw t f o x) p = f p.
Proof.
  intros N. unfold cmd_log. destruct (cstr x); cbn.
  - now apply remove_file_diff.
  - destruct (write_file _ _ _ _ _) eqn:Wf; cbn; auto. eapply write_file_diff; eauto.
Qed.

Lemma change_log w o x : in_area o -> change w (set_files w (snd (cmd_log (can_write E) (now E w) (files w) o x))).
Proof.
  intros A. apply change_quiet; cbn; [lia| |]; intros p.
  - intros _ N. now apply log_files.
  - intros S. apply log_files. intros ->. apply (proj1 S). destruct A as (_ & _ & B). apply (B SLog).
Qed.

Lemma change_deps w it o f : WI w -> Wt it -> deps_on E it (files w) = Some o ->
  write_file (can_write E) (now E w) (files w) (deps_path (it_out it)) (deps_content (parse_deps o)) = Some f -> change w (set_files w f).
Proof.
  intros I W D Wf. apply (change_obj _ _ it W).
  - cbn. lia.
  - intros p _ N. cbn. eapply write_file_diff; eauto. intros ->. apply N. right. exists SDeps. reflexivity.
  - cbn. constructor.
    + left. eapply write_file_diff; eauto. apply (side_other SFlags SDeps). discriminate.
    + right. exists o, (now E w). split; auto. eapply write_file_same; eauto.
    + left. eapply write_file_diff; eauto. intros X. symmetry in X. revert X. apply (side_out SDeps).
  - intros c t F. left. rewrite <- F. symmetry. cbn. eapply write_file_diff; eauto. intros X. symmetry in X. revert X. apply (side_out SDeps).
Qed.

Lemma tool_ok t f o text c : can_write E o = true -> plain_file f o ->
  apply_tool E (ToolOk text c) t f o = (true, text, fs_set f o (File c t)).
Proof. intros Cw P. unfold apply_tool, write_file. rewrite Cw. destruct P as [P|(c' & t' & P)]; rewrite P; reflexivity. Qed.

Lemma tool_fail r t f o : (forall text c, r <> ToolOk text c) -> (forall text c, r <> ToolFail text (Some (Some c))) -> plain_file f o ->
  exists text f', apply_tool E r t f o = (false, text, f') /\ (forall p, p <> o -> f' p = f p) /\ (f' o = f o \/ f' o = Absent).
Proof.
  intros N1 N2 P. destruct r as [text c|text rest]; [exfalso; eapply N1; eauto|]. destruct rest as [[c|]|]; [exfalso; eapply N2; eauto| |]; cbn.
  - eexists _, _. split; [reflexivity|]. split; [intros p Np; now apply remove_file_diff|]. unfold remove_file. destruct (can_write E o); auto.
    destruct P as [P|(c & t' & P)]; rewrite P; auto. right. apply fs_set_same.
  - eexists _, _. split; [reflexivity|]. auto.
Qed.

Lemma T0_now w : WI w -> (T0 <= now E w)%Z.
Proof. intros I. apply MONO. apply (wi_tick _ I). Qed.

(** Compiling: if it succeeds the object is final. *)
Lemma change_compile w it : WI w -> Wt it -> recorded (files w) it ->
  (forall o, deps_on E it (files w) = Some o -> exists t, files w (deps_path (it_out it)) = File (deps_content (parse_deps o)) t) ->
  exists ok text f, apply_tool E (cc_on E it (files w)) (now E w) (files w) (it_out it) = (ok, text, f) /\
  change w (set_files w f) /\ (ok = true -> Done f (it_out it)).
Proof.
  intros I W R D. pose proof (wi_plain _ I it W) as (P1 & _). destruct (W_area it W) as (_ & A & B).
  assert (Cw : can_write E (it_out it) = true) by (now apply (pr_write _ _ _ _ _ PR)).
  destruct (cc_on E it (files w)) as [text obj|text rest] eqn:C.
  - exists true, text, (fs_set (files w) (it_out it) (File obj (now E w))). split; [now apply tool_ok|].
    assert (Ch : change w (set_files w (fs_set (files w) (it_out it) (File obj (now E w))))).
    { apply (change_obj _ _ it W).
      - cbn. lia.
      - intros p _ N. cbn. apply fs_set_diff. intros ->. apply N. left. reflexivity.
      - cbn. assert (Fs : fs_set (files w) (it_out it) (File obj (now E w)) (flags_path (it_out it)) = files w (flags_path (it_out it))) by (apply fs_set_diff; apply (side_out SFlags)).
        assert (Ds : fs_set (files w) (it_out it) (File obj (now E w)) (deps_path (it_out it)) = files w (deps_path (it_out it))) by (apply fs_set_diff; apply (side_out SDeps)).
        constructor; auto. right. right. split; auto. split; auto. destruct (ht_deps _ _ _ HT it (files w) text obj C) as [o Do]. destruct (D o Do) as [t Dt].
        split; [exists o, t; split; auto; now rewrite Ds|]. exists text, obj, (now E w). split; auto. split; [apply fs_set_same|now apply T0_now].
      - cbn. intros c t F. right. rewrite fs_set_same in F. injection F as _ <-. apply MONO. lia. }
    split; auto. intros _. apply d_obj; auto. exists text, obj, (now E w). split; [apply fs_set_same|].
    rewrite <- C. apply cc_same. intros p S. apply fs_set_diff. intros ->. apply (proj1 S). exact A.
  - destruct (tool_fail (ToolFail text rest) (now E w) (files w) (it_out it)) as (tx & f' & Ap & Fr & Oo); auto; [discriminate| |].
    { rewrite <- C. intros tx c. apply (ht_clean _ _ _ HT). }
    exists false, tx, f'. split; auto. split; [|discriminate]. apply (change_obj _ _ it W).
    + cbn. lia.
    + intros p _ N. cbn. apply Fr. intros ->. apply N. left. reflexivity.
    + cbn. constructor.
      * left. apply Fr. apply (side_out SFlags).
      * left. apply Fr. apply (side_out SDeps).
      * destruct Oo as [Oo|Oo]; auto. right. left. split; auto. intros t' o'. rewrite C. discriminate.
    + cbn. intros c t F. left. destruct Oo as [Oo|Oo]; [congruence|]. rewrite Oo in F. discriminate.
Qed.

Lemma change_ld w r : WI w -> Lt r -> lrecorded (files w) r -> (forall s, In s (lk_srcs r) -> Done (files w) s) ->
  exists ok text f, apply_tool E (ld_on E r (files w)) (now E w) (files w) (lk_out r) = (ok, text, f) /\
  change w (set_files w f) /\ (ok = true -> Done f (lk_out r)).
Proof.
  intros I W R D. pose proof (wi_lplain _ I r W) as (P1 & _). destruct (L_area r W) as (_ & A & B).
  assert (Cw : can_write E (lk_out r) = true) by (now apply (pr_write _ _ _ _ _ PR)).
  destruct (ld_on E r (files w)) as [text obj|text rest] eqn:C.
  - exists true, text, (fs_set (files w) (lk_out r) (File obj (now E w))). split; [now apply tool_ok|].
    assert (Ch : change w (set_files w (fs_set (files w) (lk_out r) (File obj (now E w))))).
    { apply (change_link _ _ r W).
      - cbn. lia.
      - intros p _ N. cbn. apply fs_set_diff. intros ->. apply N. left. reflexivity.
      - cbn. assert (Fs : fs_set (files w) (lk_out r) (File obj (now E w)) (flags_path (lk_out r)) = files w (flags_path (lk_out r))) by (apply fs_set_diff; apply (side_out SFlags)).
        constructor; auto. right. right. split; auto. split; auto. split; auto.
        exists text, obj, (now E w). split; auto. split; [apply fs_set_same|now apply T0_now].
      - cbn. intros c t F. right. rewrite fs_set_same in F. injection F as _ <-. apply MONO. lia. }
    split; auto. intros _. apply d_link; auto.
    + exists text, obj, (now E w). split; [apply fs_set_same|]. rewrite <- C. apply (ht_ld _ _ _ HT). intros p Hp.
      apply same_content_sym. apply (done_kept _ _ Ch p). auto.
    + intros s Hs. apply (done_kept _ _ Ch s). auto.
  - destruct (tool_fail (ToolFail text rest) (now E w) (files w) (lk_out r)) as (tx & f' & Ap & Fr & Oo); auto; [discriminate| |].
    { rewrite <- C. intros tx c. apply (ht_clean_ld _ _ _ HT). }
    exists false, tx, f'. split; auto. split; [|discriminate]. apply (change_link _ _ r W).
    + cbn. lia.
    + intros p _ N. cbn. apply Fr. intros ->. apply N. left. reflexivity.
    + cbn. constructor.
      * left. apply Fr. apply (side_out SFlags).
      * destruct Oo as [Oo|Oo]; auto. right. left. split; auto. intros t' o'. rewrite C. discriminate.
    + cbn. intros c t F. left. destruct Oo as [Oo|Oo]; [congruence|]. rewrite Oo in F. discriminate.
Qed.

(** What is found fresh is final. *)
Lemma fresh_done w it c : WI w -> Wt it -> recorded (files w) it -> read_file (files w) (deps_path (it_out it)) = Some c ->
  up_to_date (files w) (it_out it) (it_src it :: read_deps c) -> Done (files w) (it_out it).
Proof.
  intros I W R D (t & Ht & U). apply d_obj; auto.
  destruct (wi_plain _ I it W) as (P & _).
  destruct P as [P|(obj & t' & P)]; [unfold modified_at, stat in Ht; rewrite P in Ht; discriminate|].
  assert (t' = t) by (unfold modified_at, stat in Ht; rewrite P in Ht; congruence). subst t'.
  destruct (wi_obj _ I it W obj t R P) as ((f0 & text & A1 & A2) & A3).
  destruct (A3 c D) as (f1 & o & B1 & B2 & B3).
  pose proof (pr_src _ _ _ _ _ PR it (W_objs it W)) as Ss.
  assert (Dep : forall p, p = it_src it \/ In p (listed o) -> source p /\ ~ newer (files w) p t).
  { intros p Hp. split.
    - destruct Hp as [->|Hp]; auto. apply (wi_dep _ I it W c p D). rewrite B2. exact Hp.
    - apply not_newer. apply U. destruct Hp as [->|Hp]; [cbn; auto|]. right. rewrite B2. exact Hp. }
  assert (C0 : forall p, p = it_src it \/ In p (listed o) -> same_content (files w p) (f0 p)).
  { intros p Hp. destruct (Dep p Hp) as [Sp N]. destruct (A2 p Sp) as [X|X]; [auto|contradiction]. }
  assert (C1 : forall p, p = it_src it \/ In p (listed o) -> same_content (files w p) (f1 p)).
  { intros p Hp. destruct (Dep p Hp) as [Sp N]. destruct (B3 p Sp) as [X|X]; [auto|contradiction]. }
  destruct (ht_listed _ _ _ HT it f1 (files w) o B1) as [D1 D2].
  { intros p Hp. apply same_content_sym; auto. }
  destruct (ht_listed _ _ _ HT it f1 f0 o B1) as [D3 D4].
  { intros p Hp. eapply same_content_trans; [apply same_content_sym, C1; auto|auto]. }
  exists text, obj, t. split; auto. congruence.
Qed.

Lemma lfresh_done w r : WI w -> Lt r -> (forall s, In s (lk_srcs r) -> Done (files w) s) ->
  up_to_date (files w) (lk_out r) (lk_srcs r) -> Done (files w) (lk_out r).
Proof.
  intros I W DD (t & Ht & U). apply d_link; auto.
  destruct (wi_lplain _ I r W) as (P & _).
  destruct P as [P|(c & t' & P)]; [unfold modified_at, stat in Ht; rewrite P in Ht; discriminate|].
  assert (t' = t) by (unfold modified_at, stat in Ht; rewrite P in Ht; congruence). subst t'.
  destruct (wi_link _ I r c t W P) as [(_ & f0 & text & A1 & A2)|[A _]]; auto.
  exists text, c, t. split; auto. rewrite <- A1. apply (ht_ld _ _ _ HT). intros p Hp.
  destruct (A2 p Hp) as [X|X]; auto. exfalso. revert X. apply not_newer. auto.
Qed.

(** *** Processes *)

Definition done_before (i : nat) (rest : list bstep) (f : fs) : Prop :=
  exists pre, bss i = pre ++ rest /\ forall o, In o (outs pre) -> Done f o.

Definition cover (all its jobs : list item) (f : fs) : Prop :=
  forall it, In it all -> In it its \/ In it jobs \/ Done f (it_out it).

Definition job_ok (f : fs) (it : item) (l : local) (n : nat) : Prop :=
  (1 <= n -> l_deps l = deps_on E it f) /\
  (2 <= n -> forall o, deps_on E it f = Some o -> exists t, f (deps_path (it_out it)) = File (deps_content (parse_deps o)) t) /\
  (4 <= n -> l_fail l = false -> Done f (it_out it)).

Definition PI (i : nat) (f : fs) (p : pc) : Prop :=
  match p with
  | PNext bs => done_before i bs f
  | PFlags its jobs bs => exists all, done_before i (SCompile all :: bs) f /\ incl its all /\ incl jobs all /\ cover all its jobs f /\
      forall it, In it jobs -> recorded f it
  | PTimes it its jobs bs => exists all, done_before i (SCompile all :: bs) f /\ incl (it :: its) all /\ incl jobs all /\ cover all (it :: its) jobs f /\
      (forall it, In it jobs -> recorded f it) /\ recorded f it
  | PShow it its jobs bs => exists all, done_before i (SCompile all :: bs) f /\ incl its all /\ incl jobs all /\ cover all its jobs f /\
      (forall it, In it jobs -> recorded f it)
  | PJobs ok jobs ls done bs => exists all, done_before i (SCompile all :: bs) f /\ incl jobs all /\ (ok = true -> cover all [] jobs f) /\
      (forall it, In it jobs -> recorded f it) /\ forall t it, nth_error jobs t = Some it -> job_ok f it (ls t) (done t)
  | PLink r bs => done_before i (SLink r :: bs) f
  | PLinkTimes r bs | PLinkOpen r bs | PLinkRun r bs => done_before i (SLink r :: bs) f /\ lrecorded f r
  | PLinkShow r bs | PLinkPut r bs => done_before i (SLink r :: bs) f /\ Done f (lk_out r)
  | PLinkSave r ok text bs => done_before i (SLink r :: bs) f /\ (ok = true -> Done f (lk_out r))
  | PEnd rv => rv = 0%Z -> done_before i [] f
  end.

Lemma before_W i all bs f it : done_before i (SCompile all :: bs) f -> In it all -> Wt it.
Proof. intros (pre & Eq & _) Hin. exists i, all. split; auto. rewrite Eq. apply in_or_app. right. left. auto. Qed.
Lemma before_L i r bs f : done_before i (SLink r :: bs) f -> Lt r.
Proof. intros (pre & Eq & _). exists i. rewrite Eq. apply in_or_app. right. left. auto. Qed.

Lemma ordered_app pre : forall sofar bs, ordered area inst_area sofar (pre ++ bs) ->
  exists sofar', ordered area inst_area sofar' bs /\ forall s, In s sofar' -> In s sofar \/ In s (outs pre).
Proof.
  induction pre as [|[its|r] pre IH]; intros sofar bs O.
  - exists sofar. auto.
  - cbn in O. destruct (IH _ _ O) as (so & A & B). exists so. split; auto. intros s Hs. unfold outs. cbn. destruct (B s Hs) as [X|X].
    + apply in_app_or in X. destruct X; auto. right. apply in_or_app. auto.
    + right. apply in_or_app. auto.
  - cbn in O. destruct O as [_ O]. destruct (IH _ _ O) as (so & A & B). exists so. split; auto. intros s Hs. unfold outs. cbn. destruct (B s Hs) as [X|X]; auto.
    destruct X as [X|X]; auto.
Qed.

Lemma before_inputs i r bs f : done_before i (SLink r :: bs) f -> forall s, In s (lk_srcs r) -> Done f s.
Proof.
  intros (pre & Eq & D) s Hs. pose proof (gs_ordered _ _ _ _ _ (GS i)) as O. rewrite Eq in O.
  destruct (ordered_app _ _ _ O) as (so & (A & _) & B). destruct (A s Hs) as [S|S]; [now apply d_src|].
  destruct (B s S) as [[]|X]; auto.
Qed.

Lemma outs_app a b : outs (a ++ b) = outs a ++ outs b.
Proof. unfold outs. rewrite map_app, concat_app. reflexivity. Qed.

Lemma before_next i b bs f : done_before i (b :: bs) f -> (forall o, In o (step_outs b) -> Done f o) -> done_before i bs f.
Proof.
  intros (pre & Eq & D) N. exists (pre ++ [b]). split; [rewrite <- app_assoc; exact Eq|]. intros o. rewrite outs_app. intros H. apply in_app_or in H.
  destruct H as [H|H]; auto. apply N. unfold outs in H. cbn in H. rewrite app_nil_r in H. exact H.
Qed.

Lemma before_kept w w' i rest : change w w' -> done_before i rest (files w) -> done_before i rest (files w').
Proof. intros C (pre & Eq & D). exists pre. split; auto. intros o Ho. apply (done_kept _ _ C o). auto. Qed.
Lemma cover_kept w w' all its jobs : change w w' -> cover all its jobs (files w) -> cover all its jobs (files w').
Proof. intros C H it Hin. destruct (H it Hin) as [X|[X|X]]; auto. right. right. now apply (done_kept _ _ C). Qed.
Lemma job_kept w w' it l n : change w w' -> Wt it -> job_ok (files w) it l n -> job_ok (files w') it l n.
Proof.
  intros C W (A & B & D). pose proof (deps_same (files w) (files w') it (ch_src _ _ C)) as Ds. unfold job_ok. rewrite Ds. split; [exact A|]. split.
  - intros N o Ho. destruct (B N o Ho) as [t F]. destruct (oc_deps _ _ _ (ch_obj _ _ C it W)) as [O|(o' & t' & O1 & O2)].
    + exists t. congruence.
    + exists t'. congruence.
  - intros N F. apply (done_kept _ _ C). auto.
Qed.

Theorem PI_kept w w' i p : change w w' -> PI i (files w) p -> PI i (files w') p.
Proof.
  intros C. destruct p; cbn.
  - now apply before_kept.
  - intros (all & A1 & A2 & A3 & A4 & A5). exists all. split; [eapply before_kept; eauto|]. split; auto. split; auto. split; [eapply cover_kept; eauto|].
    intros it Hin. apply (recorded_kept (files w)); auto. apply (ch_obj _ _ C). eapply before_W; eauto.
  - intros (all & A1 & A2 & A3 & A4 & A5 & A6). exists all. split; [eapply before_kept; eauto|]. split; auto. split; auto. split; [eapply cover_kept; eauto|]. split.
    + intros it' Hin. apply (recorded_kept (files w)); auto. apply (ch_obj _ _ C). eapply before_W; eauto.
    + apply (recorded_kept (files w)); auto. apply (ch_obj _ _ C). eapply before_W; eauto. apply A2. left; auto.
  - intros (all & A1 & A2 & A3 & A4 & A5). exists all. split; [eapply before_kept; eauto|]. split; auto. split; auto. split; [eapply cover_kept; eauto|].
    intros it' Hin. apply (recorded_kept (files w)); auto. apply (ch_obj _ _ C). eapply before_W; eauto.
  - intros (all & A1 & A3 & A4 & A5 & A6). exists all. split; [eapply before_kept; eauto|]. split; auto. split; [intros Ok; eapply cover_kept; eauto|]. split.
    + intros it' Hin. apply (recorded_kept (files w)); auto. apply (ch_obj _ _ C). eapply before_W; eauto.
    + intros t it Hn. eapply job_kept; eauto. eapply before_W; eauto. apply A3. eapply nth_error_In; eauto.
  - now apply before_kept.
  - intros [A B]. split; [eapply before_kept; eauto|]. apply (lrecorded_kept (files w)); auto. apply (ch_link _ _ C). eapply before_L; eauto.
  - intros [A B]. split; [eapply before_kept; eauto|]. now apply (done_kept _ _ C).
  - intros [A B]. split; [eapply before_kept; eauto|]. apply (lrecorded_kept (files w)); auto. apply (ch_link _ _ C). eapply before_L; eauto.
  - intros [A B]. split; [eapply before_kept; eauto|]. apply (lrecorded_kept (files w)); auto. apply (ch_link _ _ C). eapply before_L; eauto.
  - intros [A B]. split; [eapply before_kept; eauto|]. intros Ok. apply (done_kept _ _ C). auto.
  - intros [A B]. split; [eapply before_kept; eauto|]. now apply (done_kept _ _ C).
  - intros H R. eapply before_kept; eauto.
Qed.

Lemma change_refl w : change w w.
Proof. now apply change_nothing. Qed.

Lemma change_files w w1 w' : files w1 = files w' -> tick w1 = tick w' -> change w w1 -> change w w'.
Proof. intros F T [A B C D G H K L]. constructor; rewrite <- ?F, <- ?T; auto. Qed.

Lemma fresh_jobs f jobs : forall t it, nth_error jobs t = Some it -> job_ok f it local0 0.
Proof. intros t it _. repeat split; intros; lia. Qed.

Lemma set_loc_same ls t l : set_loc ls t l t = l.
Proof. unfold set_loc. now rewrite Nat.eqb_refl. Qed.
Lemma set_loc_diff ls t l u : u <> t -> set_loc ls t l u = ls u.
Proof. intros N. unfold set_loc. apply Nat.eqb_neq in N. now rewrite N. Qed.

(** One action of one job. *)
Lemma job_step t it w ls n a : WI w -> Wt it -> recorded (files w) it -> job_ok (files w) it (ls t) n ->
  nth_error (job_acts E true t it) n = Some a ->
  change w (jw (a (JSt w ls))) /\ job_ok (files (jw (a (JSt w ls)))) it (locs (a (JSt w ls)) t) (S n) /\
  forall u, u <> t -> locs (a (JSt w ls)) u = ls u.
Proof.
  intros I W R J Ha. destruct n as [|[|[|[|[|[|n]]]]]]; cbn [job_acts nth_error] in Ha; [..|destruct n; discriminate]; injection Ha as <-.
  - unfold act_deps. cbn [jw locs]. assert (C : change w (set_ran (set_files w (files w)) (CmdDeps (it_src it)))) by (apply change_nothing; cbn; auto).
    split; auto. split; [|intros u N; now apply set_loc_diff]. rewrite set_loc_same.
    split; [intros _; reflexivity|]. split; intros; lia.
  - unfold act_write_deps. cbn [jw locs]. destruct J as (J1 & _). rewrite J1 by lia.
    destruct (deps_on E it (files w)) as [o|] eqn:D.
    + destruct (wi_plain _ I it W) as (_ & P & _). destruct (W_area it W) as (_ & _ & B). pose proof (pr_write _ _ _ _ _ PR _ (B SDeps)) as Cw.
      destruct (write_file (can_write E) (now E w) (files w) (deps_path (it_out it)) (deps_content (parse_deps o))) as [f|] eqn:Wf.
      * pose proof (change_deps w it o f I W D Wf) as C. cbn [jw locs]. split; auto. split; auto.
        pose proof (deps_same (files w) f it (ch_src _ _ C)) as Ds. rewrite D in Ds.
        split; [intros _; cbn; rewrite Ds; rewrite J1 by lia; reflexivity|]. split; [|intros; lia].
        intros _ o' Ho. cbn [files set_files] in Ho. assert (o' = o) by congruence. subst o'. exists (now E w). eapply write_file_same; eauto.
      * exfalso. revert Wf. unfold write_file. change (deps_path (it_out it)) with (side_file SDeps (it_out it)) in *. rewrite Cw. destruct P as [P|(c & t' & P)]; rewrite P; discriminate.
    + cbn [jw locs]. split; [now apply change_nothing; cbn; auto|]. split; auto. split; [intros _; cbn; rewrite D; rewrite J1 by lia; reflexivity|].
      split; [|intros; lia]. intros _ o Ho. cbn in Ho. congruence.
  - unfold act_open, open_at. cbn [jw locs]. assert (C : change w w) by (apply change_nothing; cbn; auto).
    split; auto. split; auto. destruct (job_kept _ _ it _ _ C W J) as (J1 & J2 & _).
    split; [intros _; apply J1; lia|]. split; [intros _; apply J2; lia|intros; lia].
  - assert (D2 : 2 <= 3) by lia. destruct J as (J1 & J2 & _). destruct (change_compile w it I W R (J2 D2)) as (ok & text & f & Ap & C & D).
    unfold act_compile. cbn [jw locs]. unfold cc_on in Ap. rewrite Ap. cbn [jw locs].
    assert (C' : change w (set_ran (set_files w f) (CmdCompile (it_src it) (it_out it)))) by (eapply change_files; [| |exact C]; reflexivity).
    split; auto. split; [|intros u N; now apply set_loc_diff]. rewrite set_loc_same.
    assert (Jw : job_ok (files w) it (Local (l_deps (ls t)) [] true) 3) by (split; [auto|split; [auto|intros; lia]]).
    destruct (job_kept _ _ it _ _ C' W Jw) as (K1 & K2 & _). split; [intros _; apply K1; lia|]. split; [intros _; apply K2; lia|].
    cbn [l_fail]. intros _ Nf. apply D. now destruct ok.
  - unfold act_log. cbn [jw locs]. pose proof (change_log w (it_out it) (l_text (ls t)) (W_area it W)) as C.
    destruct (cmd_log _ _ _ _ _) as [text f]. cbn [snd] in C. cbn [jw locs].
    assert (C' : change w (set_shown (set_files w f) (it_out it) text)) by (eapply change_files; [| |exact C]; reflexivity).
    split; auto. split; auto. destruct (job_kept _ _ it _ _ C' W J) as (J1 & J2 & J3).
    split; [intros _; apply J1; lia|]. split; [intros _; apply J2; lia|intros _; apply J3; lia].
  - unfold act_install. cbn [jw locs]. destruct (l_fail (ls t)) eqn:Lf.
    + cbn [jw locs]. assert (C : change w (set_files w (files w))) by (apply change_nothing; cbn; auto).
      split; auto. split; auto. destruct (job_kept _ _ it _ _ C W J) as (J1 & J2 & J3).
      split; [intros _; apply J1; lia|]. split; [intros _; apply J2; lia|intros _; apply J3; lia].
    + pose proof (change_install w (it_out it) (now E w)) as C. destruct (installer _ _ _ _) as [ok f]. cbn [snd] in C. cbn [jw locs].
      split; auto. split; [|intros u N; now apply set_loc_diff]. rewrite set_loc_same.
      destruct (job_kept _ _ it _ _ C W J) as (J1 & J2 & J3).
      split; [intros _; apply J1; lia|]. split; [intros _; apply J2; lia|]. intros _ _. apply J3; auto; lia.
Qed.

Theorem pstep_right i c p w p' w' : WI w -> PI i (files w) p -> pstep E true c p w = Some (p', w') -> change w w' /\ PI i (files w') p'.
Proof.
  intros I P St. destruct p as [bs|its jobs bs|it its jobs bs|it its jobs bs|ok jobs ls done bs|r bs|r bs|r bs|r bs|r bs|r ok text bs|r bs|rv];
    cbn [pstep] in St.
  - destruct bs as [|[its|r] bs]; injection St as <- <-; (split; [apply change_refl|]); cbn [PI] in *.
    + intros _. exact P.
    + exists its. split; auto. split; [apply incl_refl|]. split; [intros x []|]. split; [intros x; auto|intros x []].
    + exact P.
  - destruct P as (all & A1 & A2 & A3 & A4 & A5). destruct its as [|it its].
    + injection St as <- <-. split; [apply change_refl|]. exists all. split; auto. split; auto. split; auto. split; auto. apply fresh_jobs.
    + assert (W : Wt it) by (eapply before_W; eauto; apply A2; left; auto).
      pose proof (flags_obj w it I W) as FO. destruct (frugal_flags _ _ _ _ _) as [ch f1] eqn:Ff. destruct FO as [C R]. injection St as <- <-.
      split; auto. assert (P0 : PI i (files (set_files w f1)) (PFlags (it :: its) jobs bs)) by (eapply PI_kept; eauto; exists all; auto).
      destruct P0 as (all' & B1 & B2 & B3 & B4 & B5). destruct ch; exists all'.
      * split; auto. split; [intros x Hx; apply B2; right; auto|]. split; [intros x Hx; apply in_app_or in Hx; destruct Hx as [Hx|[<-|[]]]; [auto|apply B2; left; auto]|].
        split.
        -- intros x Hx. destruct (B4 x Hx) as [[<-|X]|[X|X]]; auto; right; left; apply in_or_app; [right; left; auto|left; auto].
        -- intros x Hx. apply in_app_or in Hx. destruct Hx as [Hx|[<-|[]]]; auto.
      * auto 10.
  - destruct P as (all & A1 & A2 & A3 & A4 & A5 & A6). assert (W : Wt it) by (eapply before_W; eauto; apply A2; left; auto).
    assert (Queue : PI i (files w) (PFlags its (jobs ++ [it]) bs)).
    { exists all. split; auto. split; [intros x Hx; apply A2; right; auto|]. split; [intros x Hx; apply in_app_or in Hx; destruct Hx as [Hx|[<-|[]]]; [auto|apply A2; left; auto]|].
      split.
      - intros x Hx. destruct (A4 x Hx) as [[<-|X]|[X|X]]; auto; right; left; apply in_or_app; [right; left; auto|left; auto].
      - intros x Hx. apply in_app_or in Hx. destruct Hx as [Hx|[<-|[]]]; auto. }
    destruct (read_file (files w) (deps_path (it_out it))) as [d|] eqn:Rd; [|injection St as <- <-; split; [apply change_refl|exact Queue]].
    destruct (frugal_mtime (files w) (it_src it :: read_deps d) (it_out it)) as [[|]|] eqn:Fm; injection St as <- <-; (split; [apply change_refl|]); auto.
    + exists all. split; auto. split; [intros x Hx; apply A2; right; auto|]. split; auto. split; auto.
      intros x Hx. destruct (A4 x Hx) as [[<-|X]|[X|X]]; auto. right. right. eapply fresh_done; eauto. now apply mtime_no_work.
    + exists all. split; auto. split; auto. split; [discriminate|]. split; auto. apply fresh_jobs.
  - destruct P as (all & A1 & A2 & A3 & A4 & A5).
    set (w2 := set_shown w (it_out it) (log_already_done (files w) (it_out it))) in *.
    pose proof (change_install w2 (it_out it) (now E w2)) as C0. destruct (installer _ _ _ _) as [ok f2]. cbn [snd] in C0. injection St as <- <-.
    assert (C : change w (set_files w2 f2)).
    { destruct C0. constructor; auto. }
    split; auto. assert (P0 : PI i (files (set_files w2 f2)) (PFlags its jobs bs)) by (eapply PI_kept; eauto; exists all; auto).
    destruct ok; auto. destruct P0 as (all' & B1 & B2 & B3 & B4 & B5). exists all'. split; auto. split; auto. split; [discriminate|]. split; auto. apply fresh_jobs.
  - pose proof P as P0. destruct P as (all & A1 & A2 & A3 & A4 & A5). destruct (nth_error jobs c) as [it|] eqn:Hn.
    + destruct (nth_error (job_acts E true c it) (done c)) as [a|] eqn:Ha; [|discriminate].
      assert (Hin : In it jobs) by (eapply nth_error_In; eauto). assert (W : Wt it) by (eapply before_W; eauto).
      destruct (job_step c it w ls (done c) a I W (A4 it Hin) (A5 c it Hn) Ha) as (C & J & Oth). injection St as <- <-. split; auto.
      destruct (PI_kept _ _ i _ C P0) as (all' & B1 & B2 & B3 & B4 & B5). exists all'. split; auto. split; auto. split; auto. split; auto.
      intros t it' Hn'. unfold bump. destruct (Nat.eqb t c) eqn:Tc.
      * apply Nat.eqb_eq in Tc. subst t. assert (it' = it) by congruence. subst it'. exact J.
      * apply Nat.eqb_neq in Tc. rewrite Oth by auto. auto.
    + destruct (ok && all_done jobs ls done)%bool eqn:Ad.
      * injection St as <- <-. split; [apply change_refl|]. apply andb_prop in Ad. destruct Ad as [-> Ad]. cbn [PI].
        eapply before_next; eauto. intros o Ho. cbn [step_outs] in Ho. apply in_map_iff in Ho. destruct Ho as (it & <- & Hin).
        destruct (A3 eq_refl it Hin) as [[]|[X|X]]; auto. apply In_nth_error in X. destruct X as [t Ht].
        unfold all_done in Ad. rewrite forallb_forall in Ad. specialize (Ad t).
        assert (Ht' : In t (seq 0 (length jobs))) by (apply in_seq; split; [lia|]; cbn; apply nth_error_Some; congruence).
        specialize (Ad Ht'). apply andb_prop in Ad. destruct Ad as [Le Nf]. apply Nat.leb_le in Le. apply negb_true_iff in Nf.
        apply (A5 t it Ht); auto. lia.
      * destruct (negb ok || some_failed jobs ls)%bool; [|discriminate]. injection St as <- <-. split; [apply change_refl|]. cbn. discriminate.
  - assert (L : Lt r) by (eapply before_L; eauto). pose proof (flags_link w r I L) as FO. destruct (frugal_flags _ _ _ _ _) as [ch f1] eqn:Ff. destruct FO as [C R]. injection St as <- <-.
    split; auto. destruct ch; (split; [eapply before_kept; eauto|exact R]).
  - destruct P as [A R]. assert (L : Lt r) by (eapply before_L; eauto).
    destruct (frugal_mtime (files w) (lk_srcs r) (lk_out r)) as [[|]|] eqn:Fm; injection St as <- <-; (split; [apply change_refl|]); split; auto.
    apply lfresh_done; auto; [eapply before_inputs; eauto|]. now apply mtime_no_work.
  - destruct P as [A D].
    set (w2 := set_shown w (lk_out r) (log_already_done (files w) (lk_out r))) in *.
    pose proof (change_install w2 (lk_out r) (now E w2)) as C0. destruct (installer _ _ _ _) as [ok f2]. cbn [snd] in C0. injection St as <- <-.
    assert (C : change w (set_files w2 f2)).
    { destruct C0. constructor; auto. }
    split; auto. destruct ok; [|cbn; discriminate]. cbn [PI]. eapply before_next; [eapply before_kept; eauto|]. intros o [<-|[]]. now apply (done_kept _ _ C).
  - injection St as <- <-. assert (C : change w w) by (apply change_nothing; cbn; auto).
    split; [exact C|]. exact (PI_kept _ _ i (PLinkRun r bs) C P).
  - destruct P as [A R]. assert (L : Lt r) by (eapply before_L; eauto).
    destruct (change_ld w r I L R (before_inputs _ _ _ _ A)) as (ok & text & f & Ap & C & D). unfold ld_on in Ap. rewrite Ap in St. injection St as <- <-.
    assert (C' : change w (set_ran (set_files w f) (CmdLink (lk_kind r) (lk_out r)))) by (eapply change_files; [| |exact C]; reflexivity).
    split; auto. split; [eapply before_kept; eauto|exact D].
  - destruct P as [A D]. assert (L : Lt r) by (eapply before_L; eauto). pose proof (change_log w (lk_out r) text (L_area r L)) as C.
    destruct (cmd_log _ _ _ _ _) as [printed f2]. cbn [snd] in C. injection St as <- <-.
    assert (C' : change w (set_shown (set_files w f2) (lk_out r) printed)) by (eapply change_files; [| |exact C]; reflexivity).
    split; auto. destruct ok; [|cbn; discriminate]. split; [eapply before_kept; eauto|]. apply (done_kept _ _ C'). auto.
  - destruct P as [A D]. pose proof (change_install w (lk_out r) (now E w)) as C. destruct (installer _ _ _ _) as [ok f3]. cbn [snd] in C. injection St as <- <-.
    split; auto. destruct ok; [|cbn; discriminate]. cbn [PI]. eapply before_next; [eapply before_kept; eauto|]. intros o [<-|[]]. now apply (done_kept _ _ C).
  - discriminate.
Qed.

Definition SI (s : sys) : Prop := WI (shared s) /\ forall i, PI i (files (shared s)) (procs s i).

Theorem goes_right s s' : SI s -> goes E true s s' -> SI s'.
Proof.
  intros S G. induction G as [|s s1 s2 G IH M]; auto. destruct (IH S) as [I P]. destruct M as [s1 i c p w St].
  destruct (pstep_right i c _ _ _ _ I (P i) St) as [C Pi]. split; cbn [shared procs]; [eapply change_right; eauto|].
  intros j. destruct (Nat.eqb j i) eqn:J; [apply Nat.eqb_eq in J; subst; exact Pi|]. eapply PI_kept; eauto.
Qed.

(** At the beginning. *)
Hypothesis INV : Inv E area inst_area objs reqs w0.
Hypothesis LATER : later E reqs w0.
Hypothesis SF : forall i, same_flags (bss i) (files w0).

Lemma WI_start : WI w0.
Proof.
  constructor.
  - lia.
  - auto.
  - intros it W. apply (i_plain _ _ _ _ _ _ INV), W_objs, W.
  - intros r L. apply (i_lplain _ _ _ _ _ _ INV), L_reqs, L.
  - intros it W. destruct (i_plain _ _ _ _ _ _ INV it (W_objs it W)) as ([P|(c & t & P)] & _).
    + left. intros c t. congruence.
    + right. destruct W as (i & its & A & B). destruct (SF i) as [X _]. eapply X; eauto.
  - intros r W. destruct (i_lplain _ _ _ _ _ _ INV r (L_reqs r W)) as ([P|(c & t & P)] & _).
    + left. intros c t. congruence.
    + right. destruct W as (i & A). destruct (SF i) as [_ X]. eapply X; eauto.
  - intros it W. apply (i_obj _ _ _ _ _ _ INV), W_objs, W.
  - intros it W. apply (i_dep _ _ _ _ _ _ INV), W_objs, W.
  - intros r c t W F. left. split; [eapply LATER; eauto; now apply L_reqs|].
    assert (R : lrecorded (files w0) r). { destruct W as (i & A). destruct (SF i) as [_ X]. eapply X; eauto. }
    exact (i_link _ _ _ _ _ _ INV r (L_reqs r W) c t R F).
  - intros it c t W F. apply (i_time _ _ _ _ _ _ INV it c t); auto. now apply W_objs.
  - intros r c t W F. apply (i_ltime _ _ _ _ _ _ INV r c t); auto. now apply L_reqs.
  - auto.
  - auto.
  - intros it _. left. repeat split.
  - intros it _. left. repeat split.
Qed.

(** Whatever the processes have done, the files are such that a later build is right. *)
Theorem WI_Inv w : WI w -> Inv E area inst_area objs reqs w.
Proof.
  intros I. pose proof (MONO _ _ (wi_tick _ I)) as Mk. constructor.
  - intros it c t O F. destruct (wi_other _ I it O) as [(U & _)|(it' & W & Eq)].
    + rewrite U in F. pose proof (i_time _ _ _ _ _ _ INV it c t O F). lia.
    + rewrite <- Eq in F. eapply (wi_time _ I); eauto.
  - intros r c t O F. destruct (wi_lother _ I r O) as [(U & _)|(r' & W & Eq)].
    + rewrite U in F. pose proof (i_ltime _ _ _ _ _ _ INV r c t O F). lia.
    + rewrite <- Eq in F. eapply (wi_ltime _ I); eauto.
  - intros it O. destruct (wi_other _ I it O) as [(U1 & U2 & U3)|(it' & W & Eq)].
    + unfold plain_file. rewrite U1, U2, U3. apply (i_plain _ _ _ _ _ _ INV it O).
    + rewrite <- Eq. apply (wi_plain _ I it' W).
  - intros r O. destruct (wi_lother _ I r O) as [(U1 & U2 & U3)|(r' & W & Eq)].
    + unfold plain_file. rewrite U1, U3. apply (i_lplain _ _ _ _ _ _ INV r O).
    + rewrite <- Eq. apply (wi_lplain _ I r' W).
  - intros it O obj t R F. destruct (wi_other _ I it O) as [(U1 & U2 & U3)|(it' & W & Eq)].
    + assert (R0 : recorded (files w0) it) by (eapply recorded_same; [|exact R]; auto). rewrite U1 in F.
      assert (Move : forall f, (forall p, source p -> same_content (files w0 p) (f p) \/ newer (files w0) p t) ->
        forall p, source p -> same_content (files w p) (f p) \/ newer (files w) p t).
      { intros f A p Sp. pose proof (wi_src _ I p Sp) as Q. rewrite Q. destruct (A p Sp) as [|N]; auto. right. eapply newer_same; [|exact N]. auto. }
      destruct (i_obj _ _ _ _ _ _ INV it O obj t R0 F) as ((f0 & text & A1 & A2) & A3). split; [exists f0, text; auto|].
      intros c D. destruct (A3 c) as (f1 & o & B1 & B2 & B3); [unfold read_file in *; now rewrite <- U2|]. exists f1, o. auto.
    + assert (it' = it); [|subst it'; apply (wi_obj _ I it W obj t R F)].
      destruct (wi_flags _ I it' W) as [N|(c' & t' & F' & X')]; [exfalso; apply (N obj t); now rewrite Eq|].
      destruct R as (c2 & t2 & F2 & X2). rewrite Eq in F'. assert (Xf : flag_str (it_flags it') = flag_str (it_flags it)) by congruence.
      apply flag_str_inj in Xf; [|apply (pr_plain _ _ _ _ _ PR); now apply W_objs|now apply (pr_plain _ _ _ _ _ PR)].
      pose proof (pr_same _ _ _ _ _ PR it' it (W_objs _ W) O Eq) as Es. destruct it, it'. cbn in *. congruence.
  - intros it O. destruct (wi_other _ I it O) as [(U1 & U2 & U3)|(it' & W & Eq)].
    + intros c d D. apply (i_dep _ _ _ _ _ _ INV it O c). unfold read_file in *. now rewrite <- U2.
    + rewrite <- Eq. apply (wi_dep _ I it' W).
  - intros r O c t R F. destruct (wi_lother _ I r O) as [(U1 & U2 & U3)|(r' & W & Eq)].
    + assert (R0 : lrecorded (files w0) r) by (eapply recorded_same; [|exact R]; exact U3). rewrite U1 in F.
      pose proof (LATER r c t O F) as Lt0.
      destruct (i_link _ _ _ _ _ _ INV r O c t R0 F) as (f0 & text & A1 & A2). exists f0, text. split; auto. intros p Hp.
      assert (Keep : files w p = files w0 p -> same_content (files w p) (f0 p) \/ newer (files w) p t).
      { intros Q. rewrite Q. destruct (A2 p Hp) as [|N]; auto. right. eapply newer_same; [|exact N]. auto. }
      destruct (pr_inputs _ _ _ _ _ PR r p O Hp) as [_ [S|[(it & O' & ->)|(r' & O' & ->)]]].
      * apply Keep. now apply (wi_src _ I).
      * destruct (wi_other _ I it O') as [(U & _)|(it' & W & Eq)]; auto. rewrite <- Eq in *.
        destruct (wi_young _ I it' W) as [Q|Q]; auto. right. intros t' Ht. specialize (Q t' Ht). lia.
      * destruct (wi_lother _ I r' O') as [(U & _)|(it' & W & Eq)]; auto. rewrite <- Eq in *.
        destruct (wi_lyoung _ I it' W) as [Q|Q]; auto. right. intros t' Ht. specialize (Q t' Ht). lia.
    + assert (r' = r).
      { destruct (wi_lflags _ I r' W) as [N|(c' & t' & F' & X')]; [exfalso; apply (N c t); now rewrite Eq|].
        destruct R as (c2 & t2 & F2 & X2). cbn [as_item it_out it_flags] in *. rewrite Eq in F'. assert (Xf : flag_str (lk_flags r') = flag_str (lk_flags r)) by congruence.
        apply flag_str_inj in Xf; [|apply (pr_lplain _ _ _ _ _ PR); now apply L_reqs|now apply (pr_lplain _ _ _ _ _ PR)].
        destruct (pr_lsame _ _ _ _ _ PR r' r (L_reqs _ W) O Eq) as [Ek Es]. destruct r, r'. cbn in *. congruence. }
      subst r'. destruct (wi_link _ I r c t W F) as [(_ & X)|[(text & c1 & t1 & A1 & A2) _]]; auto.
      exists (files w), text. split; [congruence|]. intros p Hp. left. apply same_content_refl.
Qed.

Theorem team_inv s : goes E true (Sys (fun i => PNext (bss i)) w0) s -> Inv E area inst_area objs reqs (shared s).
Proof.
  intros G. assert (S0 : SI (Sys (fun i => PNext (bss i)) w0)).
  { split; [apply WI_start|]. intros j. exists []. split; auto. intros o []. }
  apply WI_Inv. apply (goes_right _ _ S0 G).
Qed.

Theorem ended_right s i : goes E true (Sys (fun i => PNext (bss i)) w0) s -> procs s i = PEnd 0 ->
  (forall p, source p -> files (shared s) p = files w0 p) /\
  (forall its it, In (SCompile its) (bss i) -> In it its -> obj_current E (files (shared s)) it) /\
  (forall r, In (SLink r) (bss i) -> link_current E (files (shared s)) r).
Proof.
  intros G Ed. assert (S0 : SI (Sys (fun i => PNext (bss i)) w0)).
  { split; [apply WI_start|]. intros j. exists []. split; auto. intros o []. }
  destruct (goes_right _ _ S0 G) as [I P]. specialize (P i). rewrite Ed in P. destruct (P eq_refl) as (pre & Eq & D). rewrite app_nil_r in Eq. subst pre.
  split; [apply (wi_src _ I)|]. split.
  - intros its it A B. assert (W : Wt it) by (exists i, its; auto). assert (Dn : Done (files (shared s)) (it_out it)) by (apply D; eapply in_outs_compile; eauto).
    remember (it_out it) as o eqn:Eo. destruct Dn as [p S|it' W' C|r L C _].
    + exfalso. subst p. apply (proj1 S). apply (W_area it W).
    + rewrite (AG it it'); auto.
    + exfalso. symmetry in Eo. revert Eo. apply (pr_apart _ _ _ _ _ PR); [now apply W_objs|now apply L_reqs].
  - intros r A. assert (W : Lt r) by (exists i; auto). assert (Dn : Done (files (shared s)) (lk_out r)) by (apply D; eapply in_outs_link; eauto).
    remember (lk_out r) as o eqn:Eo. destruct Dn as [p S|it' W' C|r' L C _].
    + exfalso. subst p. apply (proj1 S). apply (L_area r W).
    + exfalso. revert Eo. apply (pr_apart _ _ _ _ _ PR); [now apply W_objs|now apply L_reqs].
    + rewrite (LAG r r'); auto.
Qed.
End Setting.
