(** * The compile step as a whole: validation, then the pool. *)

From Coq Require Import ZArith Ascii String Lia Bool List.
From Verif Require Import Base FileSys Frugal Deps Log Cookie CookieProofs Pool PoolInv SpecPool PoolProofs PoolOwn Build SpecFiles SpecBuild FrugalProofs BuildProofs.
Import ListNotations.
Local Open Scope nat_scope.

(** ** When a source is skipped *)

Lemma frugal_recorded cw t f it : fst (frugal_flags cw t f (it_flags it) (it_out it)) = false <-> recorded f it.
Proof.
  unfold frugal_flags, recorded, read_file. destruct (f (flags_path (it_out it))) as [|c t0|t0|] eqn:F.
  - destruct (write_file _ _ _ _ _); cbn; split; try discriminate; intros (c & t0 & H & _); discriminate.
  - destruct (bytes_eqb (cstr c) (flag_str (it_flags it))) eqn:B.
    + apply bytes_eqb_eq in B. cbn. split; eauto.
    + apply bytes_eqb_neq in B. destruct (write_file _ _ _ _ _); cbn; split; try discriminate;
        intros (c' & t' & H & Hc); injection H as -> ->; contradiction.
  - destruct (write_file _ _ _ _ _); cbn; split; try discriminate; intros (c & t' & H & _); discriminate.
  - destruct (write_file _ _ _ _ _); cbn; split; try discriminate; intros (c & t' & H & _); discriminate.
Qed.

Lemma frugal_not_recorded cw t f it : fst (frugal_flags cw t f (it_flags it) (it_out it)) = true <-> ~ recorded f it.
Proof.
  rewrite <- (frugal_recorded cw t). destruct (fst _); split; congruence.
Qed.

Section Validate.
Variable E : env.

Lemma validate_shape it w v w1 : validate E it w = (v, w1) ->
  tick w1 = S (tick w) /\ ran w1 = ran w /\ shown w1 = shown w /\
  (forall p, p <> flags_path (it_out it) -> files w1 p = files w p).
Proof.
  unfold validate. destruct (frugal_flags _ _ _ _ _) as [b f1] eqn:F.
  assert (Y : forall v', (v', set_files w f1) = (v, w1) -> tick w1 = S (tick w) /\ ran w1 = ran w /\ shown w1 = shown w /\
     (forall p, p <> flags_path (it_out it) -> files w1 p = files w p)).
  { intros v' H. injection H as _ <-. cbn. repeat split; auto. intros p Hp. eapply flags_only; eauto. }
  destruct b; [apply Y|]. destruct (read_file _ _); [|apply Y]. destruct (frugal_mtime _ _ _) as [[|]|]; apply Y.
Qed.

Lemma validate_verdict it w v w1 : validate E it w = (v, w1) ->
  match v with
  | VSkip => fresh (files w) it /\ files w1 = files w
  | VErr => unexaminable (files w) it /\ files w1 = files w
  | VCompile => ~ fresh (files w) it /\ ~ unexaminable (files w) it
  end.
Proof.
  unfold validate, fresh, unexaminable. destruct (frugal_flags _ _ _ _ _) as [b f1] eqn:F.
  pose proof (frugal_recorded (can_write E) (now E w) (files w) it) as FR. rewrite F in FR. cbn in FR.
  destruct b.
  - intros H. injection H as <- <-. split; intros [A _]; apply FR in A; discriminate.
  - apply flags_equal_untouched in F. subst f1.
    destruct (read_file (files w) (deps_path (it_out it))) as [c|] eqn:D.
    + destruct (frugal_mtime (files w) (it_src it :: read_deps c) (it_out it)) as [[|]|] eqn:M; intros H; injection H as <- <-; cbn.
      * split.
        -- intros (_ & c' & Hc & U). injection Hc as <-. apply mtime_no_work in U. congruence.
        -- intros (_ & c' & Hc & U). injection Hc as <-. congruence.
      * split; auto. split; [now apply FR|]. exists c. split; auto. now apply mtime_no_work.
      * split; auto. split; [now apply FR|]. exists c. split; auto.
    + intros H. injection H as <- <-. split; intros (_ & c & Hc & _); discriminate.
Qed.

Notation flags_fine := (flags_fine E).

Lemma flag_str_nul_free fl : nul_free (flag_str fl).
Proof.
  induction fl as [|x fl IH]; cbn [flag_str].
  - apply nul_free_nil.
  - destruct (has_byte NUL x) eqn:H.
    + apply nul_free_app. split; [apply cstr_is_nul_free|]. apply nul_free_cons. split; [discriminate|apply nul_free_nil].
    + apply has_byte_not_In in H. apply nul_free_app. split; auto. apply nul_free_cons. split; [discriminate|auto].
Qed.

Lemma validate_records it w v w1 : validate E it w = (v, w1) -> flags_fine (files w) it -> recorded (files w1) it.
Proof.
  intros H [Hc Hf]. assert (X : recorded (snd (frugal_flags (can_write E) (now E w) (files w) (it_flags it) (it_out it))) it).
  { unfold frugal_flags. set (p := flags_path (it_out it)) in *.
    assert (W : recorded (snd (match write_file (can_write E) (now E w) (files w) p (flag_str (it_flags it)) with
               | Some f' => (true, f') | None => (true, files w) end)) it).
    { destruct (write_usable E (files w) p (flag_str (it_flags it)) (now E w)) as (f' & W & Hw); [split; auto|].
      rewrite W. exists (flag_str (it_flags it)), (now E w). split; auto. apply cstr_nul_free, flag_str_nul_free. }
    unfold read_file. destruct (files w p) as [|c t0|t0|] eqn:F; auto.
    destruct (bytes_eqb (cstr c) (flag_str (it_flags it))) eqn:B; auto.
    apply bytes_eqb_eq in B. exists c, t0. auto. }
  unfold validate in H. destruct (frugal_flags _ _ _ _ _) as [b f1] eqn:F. cbn in X.
  destruct b; [injection H as <- <-; exact X|]. destruct (read_file _ _).
  - destruct (frugal_mtime _ _ _) as [[|]|]; injection H as <- <-; exact X.
  - injection H as <- <-; exact X.
Qed.

Variable keep : bytes -> Prop.
Hypothesis inst_frame : forall o t f p, keep p -> snd (installer E o t f) p = f p.

Definition flag_file (its : list item) (p : bytes) : Prop := exists it, In it its /\ p = flags_path (it_out it).

(** Items in their original order with the indices where [g] is queued. *)
Inductive sub : list item -> list item -> Prop :=
| sub_nil : sub [] []
| sub_skip it a b : sub a b -> sub a (it :: b)
| sub_take it a b : sub a b -> sub (it :: a) (it :: b).

Lemma sub_in a b x : sub a b -> In x a -> In x b.
Proof. induction 1; cbn; intuition. Qed.
Lemma sub_nodup a b : sub a b -> NoDup (map it_out b) -> NoDup (map it_out a).
Proof.
  induction 1 as [|it a b S IH|it a b S IH]; cbn; auto.
  - intros H. inversion H; subst. auto.
  - intros H. inversion H as [|? ? N H']; subst. constructor; auto. intros Hin. apply N.
    apply in_map_iff in Hin. destruct Hin as (x & <- & Hin). apply in_map. eapply sub_in; eauto.
Qed.
Lemma sub_forall (P : item -> Prop) a b : sub a b -> Forall P b -> Forall P a.
Proof. induction 1; intros F; auto; inversion F; subst; auto. Qed.

(** [validate_all] described from its starting point. *)
Record validated (its : list item) (w : world) (ok : bool) (jobs : list item) (w1 : world) : Prop := {
  v_tick : tick w <= tick w1;
  v_ran : ran w1 = ran w;
  v_shown : exists e, shown w1 = shown w ++ e /\ forall o, ~ In o (map it_out its) -> texts o e = [];
  v_frame : forall p, keep p -> ~ flag_file its p -> files w1 p = files w p;
}.

Lemma validate_all_shape its : forall w ok jobs w1, validate_all E its w = (ok, jobs, w1) -> validated its w ok jobs w1.
Proof.
  induction its as [|it its IH]; intros w ok jobs w1 H; cbn [validate_all] in H.
  - injection H as <- <- <-. constructor; auto. exists []. rewrite app_nil_r. auto.
  - destruct (validate E it w) as [v wa] eqn:V.
    destruct (validate_shape it w v wa V) as (Vt & Vr & Vs & Vf).
    destruct v.
    + destruct (validate_all E its wa) as [[ok' jobs'] w2] eqn:R. injection H as <- <- <-.
      destruct (IH _ _ _ _ R) as [A1 A2 [e [A3 A5]] A4]. constructor; try lia; try congruence.
      * exists e. split; [congruence|]. intros o Ho. apply A5. intros X. apply Ho. cbn. auto.
      * intros p Hk Hn. rewrite A4; auto.
        -- apply Vf. intros ->. apply Hn. exists it. cbn. auto.
        -- intros (it' & Hin & ->). apply Hn. exists it'. cbn. auto.
    + cbn in H. destruct (installer E _ _ _) as [oki f2] eqn:I.
      assert (F2 : forall p, keep p -> f2 p = files wa p).
      { intros p Hk. change f2 with (snd (oki, f2)). rewrite <- I. now apply inst_frame. }
      destruct oki.
      * destruct (IH _ _ _ _ H) as [A1 A2 [e [A3 A5]] A4]. cbn in *. constructor; try lia; try congruence.
        -- exists ((it_out it, log_already_done (files wa) (it_out it)) :: e). rewrite A3. rewrite <- app_assoc. cbn [app]. split; [congruence|].
           intros o Ho. match goal with |- texts o (?x :: e) = _ => change (x :: e) with ([x] ++ e) end.
           rewrite texts_app, A5, texts_other; auto; intros X; apply Ho; cbn; auto.
        -- intros p Hk Hn. rewrite A4; auto.
           ++ rewrite F2 by auto. apply Vf. intros ->. apply Hn. exists it. cbn. auto.
           ++ intros (it' & Hin & ->). apply Hn. exists it'. cbn. auto.
      * injection H as <- <- <-. cbn. constructor; cbn; try lia; try congruence.
        -- eexists. rewrite Vs. split; [reflexivity|]. intros o Ho. apply texts_other. auto.
        -- intros p Hk Hn. rewrite F2 by auto. apply Vf. intros ->. apply Hn. exists it. cbn. auto.
    + injection H as <- <- <-. constructor; try lia; try congruence.
      * exists []. rewrite app_nil_r. split; auto.
      * intros p Hk Hn. apply Vf. intros ->. apply Hn. exists it. cbn. auto.
Qed.

(** The paths that decide whether an item is skipped. *)
Definition relevant (f : fs) (it : item) (p : bytes) : Prop :=
  p = flags_path (it_out it) \/ p = deps_path (it_out it) \/ p = it_out it \/ p = it_src it \/
  exists c, read_file f (deps_path (it_out it)) = Some c /\ In p (read_deps c).

Lemma up_to_date_ext f f' o ds : f o = f' o -> (forall d, In d ds -> f d = f' d) -> up_to_date f o ds -> up_to_date f' o ds.
Proof.
  intros Ho Hd (t & Ht & H). unfold up_to_date, modified_at, stat in *. exists t. rewrite <- Ho. split; auto.
  intros d Hin. rewrite <- (Hd d Hin). auto.
Qed.

Lemma deps_newer_ext f f' t ds : (forall d, In d ds -> f d = f' d) -> deps_newer f t ds = deps_newer f' t ds.
Proof.
  induction ds as [|d ds IH]; cbn; auto. intros H. unfold stat. rewrite (H d) by auto.
  destruct (f' d); auto; destruct (_ >? _)%Z; auto.
Qed.

Lemma frugal_mtime_ext f f' o ds : f o = f' o -> (forall d, In d ds -> f d = f' d) -> frugal_mtime f ds o = frugal_mtime f' ds o.
Proof. intros Ho Hd. unfold frugal_mtime, stat. rewrite Ho. destruct (f' o); auto; now apply deps_newer_ext. Qed.

Lemma fresh_ext f f' it : (forall p, relevant f it p -> f p = f' p) -> fresh f it -> fresh f' it.
Proof.
  intros H ((c & t & A & B) & cd & D & U). unfold relevant in H.
  assert (D' : read_file f' (deps_path (it_out it)) = Some cd).
  { unfold read_file in *. rewrite <- (H (deps_path (it_out it))) by auto. auto. }
  split.
  - exists c, t. rewrite <- H by auto. auto.
  - exists cd. split; auto. eapply up_to_date_ext; [| |exact U].
    + apply H. auto.
    + intros d [<-|Hin]; apply H; eauto 10.
Qed.

Lemma unexaminable_ext f f' it : (forall p, relevant f it p -> f p = f' p) -> unexaminable f it -> unexaminable f' it.
Proof.
  intros H ((c & t & A & B) & cd & D & U). unfold relevant in H.
  assert (D' : read_file f' (deps_path (it_out it)) = Some cd).
  { unfold read_file in *. rewrite <- (H (deps_path (it_out it))) by auto. auto. }
  split.
  - exists c, t. rewrite <- H by auto. auto.
  - exists cd. split; auto. rewrite <- U. symmetry. apply frugal_mtime_ext.
    + apply H. auto.
    + intros d [<-|Hin]; apply H; eauto 10.
Qed.

Lemma relevant_ext f f' it p : f (deps_path (it_out it)) = f' (deps_path (it_out it)) -> relevant f it p -> relevant f' it p.
Proof. unfold relevant, read_file. intros ->. auto. Qed.

(** Validation looks at each item as it was at the beginning, if no item's decision depends on another's
    record of flags or on installed files. *)
Definition independent (its : list item) (f : fs) : Prop :=
  forall it p, In it its -> relevant f it p -> keep p /\ forall it', In it' its -> p = flags_path (it_out it') -> it_out it' = it_out it.

Lemma flags_path_inj a b : flags_path a = flags_path b -> a = b.
Proof. intros H. apply (side_file_inj SFlags SFlags) in H. tauto. Qed.

Lemma independent_tail it its f f' : independent (it :: its) f -> (forall p, keep p -> p <> flags_path (it_out it) -> f' p = f p) ->
  (forall it', In it' (it :: its) -> product_name (it_out it')) ->
  independent its f'.
Proof.
  intros I H P it' p Hin R.
  assert (Kd : keep (deps_path (it_out it'))).
  { apply (I it' (deps_path (it_out it'))); [cbn; auto|]. unfold relevant; auto. }
  assert (Ed : f' (deps_path (it_out it')) = f (deps_path (it_out it'))).
  { apply H; auto. apply (side_neq SDeps SFlags). left; discriminate. }
  apply (relevant_ext _ f) in R; auto. destruct (I it' p (or_intror Hin) R) as [K L]. split; auto.
  intros it'' Hin''. apply L. cbn. auto.
Qed.

Lemma validate_all_result its : forall w ok jobs w1,
  validate_all E its w = (ok, jobs, w1) ->
  NoDup (map it_out its) ->
  (forall it, In it its -> product_name (it_out it)) ->
  (forall it, In it its -> keep (flags_path (it_out it)) /\ keep (log_path (it_out it))) ->
  independent its (files w) ->
  (forall it, In it jobs -> In it its /\ ~ fresh (files w) it /\ ~ unexaminable (files w) it) /\
  (ok = true -> sub jobs its /\
    (forall it, In it its -> ~ unexaminable (files w) it /\ (In it jobs \/ fresh (files w) it)) /\
    (forall it, In it its -> fresh (files w) it -> texts (it_out it) (shown w1) = texts (it_out it) (shown w) ++ [log_already_done (files w) (it_out it)]) /\
    (forall it, In it its -> ~ fresh (files w) it -> texts (it_out it) (shown w1) = texts (it_out it) (shown w)) /\
    (forall it, In it its -> flags_fine (files w) it -> recorded (files w1) it) /\
    (forall it, In it its -> fresh (files w) it -> files w1 (flags_path (it_out it)) = files w (flags_path (it_out it)))) /\
  (ok = false -> exists it, In it its /\ (unexaminable (files w) it \/ exists t f, fst (installer E (it_out it) t f) = false)).
Proof.
  induction its as [|it its IH]; intros w ok jobs w1 H ND PN KF I; cbn [validate_all] in H.
  - injection H as <- <- <-. split; [intros it []|]. split; [|discriminate]. intros _. split; [constructor|]. split; [|split; [|split; [|split]]]; intros it [].
  - destruct (validate E it w) as [v wa] eqn:V.
    destruct (validate_shape it w v wa V) as (Vt & Vr & Vs & Vf).
    pose proof (validate_verdict it w v wa V) as Vv.
    pose proof (validate_records it w v wa V) as Vrec.
    inversion ND as [|? ? Nin ND']; subst.
    assert (Dist : forall it', In it' its -> it_out it' <> it_out it).
    { intros it' Hin Eq. apply Nin. rewrite <- Eq. now apply in_map. }
    (* for any world [wb] that agrees with [w] except for this item's recorded flags and installed files *)
    assert (Tail : forall wb ok' jobs' w2, (forall p, keep p -> p <> flags_path (it_out it) -> files wb p = files w p) ->
      recorded (files wb) it \/ ~ flags_fine (files w) it ->
      (exists e, shown wb = shown w ++ e /\ forall o, o <> it_out it -> texts o e = []) ->
      validate_all E its wb = (ok', jobs', w2) ->
      (forall it', In it' jobs' -> In it' its /\ ~ fresh (files w) it' /\ ~ unexaminable (files w) it') /\
      (ok' = true -> sub jobs' its /\
        (forall it', In it' its -> ~ unexaminable (files w) it' /\ (In it' jobs' \/ fresh (files w) it')) /\
        (forall it', In it' its -> fresh (files w) it' -> texts (it_out it') (shown w2) = texts (it_out it') (shown w) ++ [log_already_done (files w) (it_out it')]) /\
        (forall it', In it' its -> ~ fresh (files w) it' -> texts (it_out it') (shown w2) = texts (it_out it') (shown w)) /\
        (forall it', In it' (it :: its) -> flags_fine (files w) it' -> recorded (files w2) it') /\
        (forall it', In it' its -> fresh (files w) it' -> files w2 (flags_path (it_out it')) = files w (flags_path (it_out it')))) /\
      (ok' = false -> exists it', In it' its /\ (unexaminable (files w) it' \/ exists t f, fst (installer E (it_out it') t f) = false))).
    { intros wb ok' jobs' w2 Fb Rb Sb R.
      assert (Ib : independent its (files wb)) by (eapply independent_tail; eauto).
      assert (Rel : forall it' p, In it' its -> relevant (files w) it' p -> files w p = files wb p).
      { intros it' p Hin Hr. destruct (I it' p (or_intror Hin) Hr) as [K L]. symmetry. apply Fb; auto.
        intros ->. apply (Dist it' Hin). symmetry. apply L; cbn; auto. }
      assert (Rel' : forall it' p, In it' its -> relevant (files wb) it' p -> files wb p = files w p).
      { intros it' p Hin Hr. symmetry. apply (Rel it'); auto. eapply relevant_ext; [|exact Hr].
        symmetry. apply (Rel it'); auto. unfold relevant; auto. }
      assert (Fr : forall it', In it' its -> (fresh (files w) it' <-> fresh (files wb) it')).
      { intros it' Hin. split; apply fresh_ext; eauto. }
      assert (Un : forall it', In it' its -> (unexaminable (files w) it' <-> unexaminable (files wb) it')).
      { intros it' Hin. split; apply unexaminable_ext; eauto. }
      destruct (IH wb ok' jobs' w2 R ND') as (A1 & A2 & A3); auto.
      { intros it' Hin. apply PN. cbn. auto. }
      { intros it' Hin. apply KF. cbn. auto. }
      destruct (validate_all_shape its wb ok' jobs' w2 R) as [B1 B2 B3 B4].
      split; [|split].
      - intros it' Hin. destruct (A1 it' Hin) as (C1 & C2 & C3). rewrite Fr, Un by auto. auto.
      - intros Hok. destruct (A2 Hok) as (C1 & C2 & C3 & C3' & C4 & C5). split; auto.
        destruct Sb as (eb & Sb & Se).
        assert (Tb : forall it', In it' its -> texts (it_out it') (shown wb) = texts (it_out it') (shown w)).
        { intros it' Hin. rewrite Sb, texts_app, Se, app_nil_r; auto. }
        split; [|split; [|split; [|split]]].
        + intros it' Hin. rewrite Fr, Un by auto. auto.
        + intros it' Hin Hf. assert (Eq : log_already_done (files w) (it_out it') = log_already_done (files wb) (it_out it')).
          { unfold log_already_done, read_file. rewrite Fb; auto.
            - apply KF. cbn; auto.
            - apply (side_neq SLog SFlags). left; discriminate. }
          rewrite Eq, <- Tb by auto. apply C3; auto. now apply Fr.
        + intros it' Hin Hf. rewrite <- Tb by auto. apply C3'; auto. rewrite <- Fr; auto.
        + intros it' [<-|Hin] Hff.
          * destruct Rb as [(c & t & Rb1 & Rb2)|Rb]; [|contradiction]. exists c, t. split; auto. rewrite <- Rb1. apply B4.
            -- apply KF; cbn; auto.
            -- intros (it' & Hin & Eq). apply flags_path_inj in Eq. apply (Dist it' Hin). auto.
          * apply C4; auto. unfold flags_fine in *. rewrite Fb; auto.
            -- apply KF. cbn; auto.
            -- intros Eq. apply flags_path_inj in Eq. apply (Dist it' Hin). auto.
        + intros it' Hin Hf. rewrite C5 by (auto; now apply Fr). apply Fb.
          * apply KF. cbn; auto.
          * intros Eq. apply flags_path_inj in Eq. apply (Dist it' Hin). auto.
      - intros Hok. destruct (A3 Hok) as (it' & Hin & C). exists it'. split; auto. rewrite Un by auto. auto. }
    assert (Rec : forall f', f' (flags_path (it_out it)) = files wa (flags_path (it_out it)) -> recorded f' it \/ ~ flags_fine (files w) it).
    { intros f' Eq. unfold flags_fine. destruct (can_write E (flags_path (it_out it))) eqn:CW; [|right; intros [A _]; discriminate].
      destruct (files w (flags_path (it_out it))) as [|c t|t|] eqn:F.
      - left. destruct Vrec as (c & t & A & B); [split; rewrite ?F; eauto|]. exists c, t. rewrite Eq. auto.
      - left. destruct Vrec as (c' & t' & A & B); [split; rewrite ?F; eauto|]. exists c', t'. rewrite Eq. auto.
      - right. intros [_ [A|(c & t' & A)]]; discriminate.
      - right. intros [_ [A|(c & t' & A)]]; discriminate. }
    destruct v.
    + destruct (validate_all E its wa) as [[ok' jobs'] w2] eqn:R. injection H as <- <- <-.
      destruct (Tail wa ok' jobs' w2) as (A1 & A2 & A3); auto.
      { exists []. rewrite app_nil_r. auto. }
      destruct Vv as [Vv1 Vv2].
      destruct (validate_all_shape its wa ok' jobs' w2 R) as [B1 B2 [e [B3 B5]] B4].
      split; [|split].
      * intros it' [<-|Hin]; [cbn; auto|]. destruct (A1 it' Hin) as (C1 & C2). cbn. auto.
      * intros Hok. destruct (A2 Hok) as (C1 & C2 & C3 & C3' & C4 & C5). split; [now constructor|]. split; [|split; [|split; [|split; [auto|]]]].
        -- intros it' [<-|Hin]; [cbn; auto|]. destruct (C2 it' Hin) as [D1 [D2|D2]]; cbn; auto.
        -- intros it' [<-|Hin] Hf; [contradiction|]. auto.
        -- intros it' [<-|Hin] Hf; [|auto]. rewrite B3, Vs, texts_app, B5, app_nil_r; auto.
        -- intros it' [<-|Hin] Hf; [contradiction|]. auto.
      * intros Hok. destruct (A3 Hok) as (it' & Hin & C). exists it'. cbn. auto.
    + destruct Vv as [Vv1 Vv2]. cbn in H. destruct (installer E _ _ _) as [oki f2] eqn:I2.
      assert (F2 : forall p, keep p -> f2 p = files wa p).
      { intros p Hk. change f2 with (snd (oki, f2)). rewrite <- I2. now apply inst_frame. }
      destruct oki.
      * match type of H with validate_all E its ?X = _ => set (wb := X) in * end.
        destruct (Tail wb ok jobs w1) as (A1 & A2 & A3); auto.
        { intros p Hk Hn. cbn. rewrite F2 by auto. auto. }
        { apply Rec. cbn. apply F2. apply KF; cbn; auto. }
        { cbn. rewrite Vs. eexists. split; [reflexivity|]. intros o Ho. now apply texts_other. }
        destruct (validate_all_shape its wb ok jobs w1 H) as [B1 B2 [e [B3 B5]] B4]. cbn in B3.
        split; [|split].
        -- intros it' Hin. destruct (A1 it' Hin) as (C1 & C2). cbn. auto.
        -- intros Hok. destruct (A2 Hok) as (C1 & C2 & C3 & C3' & C4 & C5). split; [now constructor|]. split; [|split; [|split; [|split; [auto|]]]].
           ++ intros it' [<-|Hin]; [|auto]. split; [|auto].
              intros (_ & c & Hc & M). destruct Vv1 as (_ & c' & Hc' & U). assert (c = c') by congruence. subst c'.
              apply mtime_no_work in U. congruence.
           ++ intros it' [<-|Hin] Hf; [|auto]. rewrite B3, Vv2, !texts_app, texts_own, (B5 _ Nin), app_nil_r, Vs. reflexivity.
           ++ intros it' [<-|Hin] Hf; [contradiction|auto].
           ++ intros it' [<-|Hin] Hf; [|auto]. rewrite B4.
              ** cbn. rewrite F2 by (apply KF; cbn; auto). now rewrite Vv2.
              ** apply KF; cbn; auto.
              ** intros (y & Hy & Ey). apply flags_path_inj in Ey. apply (Dist y Hy). auto.
        -- intros Hok. destruct (A3 Hok) as (it' & Hin & C). exists it'. cbn. auto.
      * injection H as <- <- <-. split; [intros it' []|]. split; [discriminate|]. intros _. exists it. cbn. split; auto. right.
        do 2 eexists. rewrite I2. reflexivity.
    + injection H as <- <- <-. split; [intros it' []|]. split; [discriminate|]. intros _. exists it. cbn. split; auto. left. tauto.
Qed.

End Validate.
