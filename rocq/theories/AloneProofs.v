(** * A build by itself is a course that one of several processes can take. *)

From Coq Require Import ZArith Ascii String Lia Bool List.
From Verif Require Import Base FileSys Frugal Deps Log Cookie Pool PoolInv SpecPool PoolProofs PoolOwn Build StepProofs Plan SpecPlan Together SpecTogether.
Import ListNotations.
Local Open Scope nat_scope.

(** ** Pools that also count the actions of each job. *)
Section Ghost.
Variable Sig : Type.
Variable prog : nat -> list (Sig -> Sig).
Variable stops : nat -> Sig -> bool.

Definition tallied : Type := Sig * (nat -> nat).
Definition tally (t : nat) (a : Sig -> Sig) (x : tallied) : tallied := (a (fst x), bump (snd x) t).
Definition prog' (t : nat) : list (tallied -> tallied) := map (tally t) (prog t).
Definition stops' (t : nat) (x : tallied) : bool := stops t (fst x).

Definition arel (a : Sig -> Sig) (a' : tallied -> tallied) : Prop := forall x, fst (a' x) = a (fst x).
Definition wrel (p : wpc Sig) (p' : wpc tallied) : Prop :=
  match p, p' with
  | WNone _, WNone _ | WCheck _, WCheck _ | WLock _, WLock _ | WScan _, WScan _ | WSetErr _, WSetErr _ | WUnlockExit _, WUnlockExit _ | WExit _, WExit _ => True
  | WMark _ i, WMark _ j | WUnlock _ i, WUnlock _ j => i = j
  | WRun _ i acts, WRun _ j acts' => i = j /\ Forall2 arel acts acts'
  | _, _ => False
  end.

Definition rel (s : st Sig) (s' : st tallied) : Prop :=
  exists ws' x', Forall2 wrel (workers _ s) ws' /\ fst x' = sig _ s /\
  s' = St tallied (queue _ s) (err _ s) (Pool.started _ s) (lock _ s) ws' (handles _ s) (Pool.pc _ s) (ops _ s) x' (trace _ s).

Lemma forall2_upd {A B} (R : A -> B -> Prop) l l' k x y : Forall2 R l l' -> R x y -> Forall2 R (upd l k x) (upd l' k y).
Proof. intros F Rx. revert k. induction F; intros k; cbn; auto. destruct k; constructor; auto. Qed.
Lemma forall2_nth {A B} (R : A -> B -> Prop) l l' k : Forall2 R l l' ->
  match nth_error l k, nth_error l' k with Some x, Some y => R x y | None, None => True | _, _ => False end.
Proof. intros F. revert k. induction F; intros [|k]; cbn; auto. apply IHF. Qed.
Lemma forall2_len {A B} (R : A -> B -> Prop) l l' : Forall2 R l l' -> length l = length l'.
Proof. induction 1; cbn; auto. Qed.
Lemma prog_rel t : Forall2 arel (prog t) (prog' t).
Proof. unfold prog'. induction (prog t); constructor; auto. intro x. reflexivity. Qed.

Ltac rel_done := eexists; split; [reflexivity|]; eexists _, _; split; [|split; [|reflexivity]]; cbn; auto.

Lemma rel_wstep w s s' t : rel s s' -> wstep _ prog stops w s = Some t -> exists t', wstep _ prog' stops' w s' = Some t' /\ rel t t'.
Proof.
  intros (ws' & x' & W & X & ->) St. destruct s as [q e st l ws h pc os sg tr]. cbn in W, X. subst sg. pose proof (forall2_nth _ _ _ w W) as N.
  unfold wstep in *. cbn [workers queue err Pool.started lock handles Pool.pc ops sig trace] in *.
  destruct (nth_error ws w) as [p|]; [|discriminate]. destruct (nth_error ws' w) as [p'|]; [|contradiction].
  destruct p; cbn in N; destruct p'; try contradiction; try discriminate St.
  - injection St as <-. rel_done. apply forall2_upd; auto. now destruct e.
  - destruct l; [discriminate|]. injection St as <-. rel_done. apply forall2_upd; cbn; auto.
  - injection St as <-. rel_done. apply forall2_upd; auto. destruct (first_unstarted _); cbn; auto.
  - subst. injection St as <-. rel_done. apply forall2_upd; cbn; auto.
  - subst. injection St as <-. rel_done. apply forall2_upd; cbn; auto. split; auto. apply prog_rel.
  - destruct N as [<- F]. destruct F as [|a b acts acts' Fx F].
    + injection St as <-. rel_done. apply forall2_upd; auto. unfold stops'. cbn. unfold task_of. cbn. now destruct (stops _ _).
    + injection St as <-. rel_done. apply forall2_upd; cbn; auto.
  - injection St as <-. rel_done. apply forall2_upd; cbn; auto.
  - injection St as <-. rel_done. apply forall2_upd; cbn; auto.
Qed.

Lemma rel_start q e st l ws h pc os0 sg tr ws' x' a os : Forall2 wrel ws ws' -> fst x' = sg ->
  rel (start_or Sig (St Sig q e st l ws h pc os0 sg tr) a os) (start_or tallied (St tallied q e st l ws' h pc os0 x' tr) a os).
Proof. intros W X. unfold start_or. cbn. destruct st; [destruct a|]; eexists _, _; (split; [|split; [|reflexivity]]); cbn; auto. Qed.

Lemma rel_mstep s s' t : rel s s' -> mstep _ s = Some t -> exists t', mstep _ s' = Some t' /\ rel t t'.
Proof.
  intros (ws' & x' & W & X & ->) Mv. pose proof (forall2_len _ _ _ W) as Ln. destruct s as [q e st l ws h pc os sg tr].
  cbn [workers queue err Pool.started lock handles Pool.pc ops sig trace] in *. unfold mstep in *. cbn [Pool.pc ops lock workers handles] in *. destruct pc as [|k af|k ret].
  - destruct os as [|[j| | |] os]; [discriminate| | | |].
    + destruct l; [discriminate|]. injection Mv as <-. rel_done.
    + injection Mv as <-. eexists. split; [reflexivity|]. now apply rel_start.
    + injection Mv as <-. eexists. split; [reflexivity|]. now apply rel_start.
    + injection Mv as <-. eexists. split; [reflexivity|]. now apply rel_start.
  - rewrite <- Ln. destruct (k <? length ws); injection Mv as <-; rel_done. apply forall2_upd; cbn; auto.
  - rewrite <- Ln. destruct (k <? length ws).
    + pose proof (forall2_nth _ _ _ k W) as N. destruct (nth_error h k) as [[|]|].
      * destruct (nth_error ws k) as [p|]; [|discriminate]. destruct p; try discriminate. destruct (nth_error ws' k) as [p'|]; [|contradiction].
        destruct p'; try contradiction. injection Mv as <-. rel_done.
      * injection Mv as <-. rel_done.
      * injection Mv as <-. rel_done.
    + injection Mv as <-. rel_done.
Qed.

Theorem tallied_reachable n os x s : reachable _ prog stops n os x s ->
  exists s', reachable _ prog' stops' n os (x, fun _ => 0) s' /\ rel s s'.
Proof.
  intros H. unfold reachable in *. remember (init Sig n os x) as s0 eqn:E0. revert E0. induction H as [s0|s0 s1 s2 H IH Ss]; intros ->.
  - exists (init tallied n os (x, fun _ => 0)). split; [constructor|]. eexists _, _. split; [|split; [|reflexivity]]; cbn; auto. clear. induction n; cbn; constructor; auto. exact I.
  - destruct (IH eq_refl) as (s' & R & S). destruct Ss as [M|[w M]].
    + destruct (rel_mstep _ _ _ S M) as (t' & M' & S'). exists t'. split; auto. eapply steps_snoc; eauto. left. auto.
    + destruct (rel_wstep _ _ _ _ S M) as (t' & M' & S'). exists t'. split; auto. eapply steps_snoc; eauto. right. eauto.
Qed.
End Ghost.

(** ** One process *)
Section Alone.
Variable E : env.
Hypothesis CPU : 1 <= ncpus E.
Variable i : nat.
Variable s0 : sys.

(** Process [i] can come to [p] with the files of [w], while the others do nothing. *)
Definition comes (p : pc) (w : world) : Prop :=
  exists s, goes E true s0 s /\ procs s i = p /\ shared s = w /\ forall j, j <> i -> procs s j = procs s0 j.

Lemma comes_on c p w p' w' : comes p w -> pstep E true c p w = Some (p', w') -> comes p' w'.
Proof.
  intros (s & G & P & W & O) St. eexists. split; [eapply go_more; [exact G|eapply (mv E true s i c p' w'); rewrite P, W; exact St]|].
  cbn. rewrite Nat.eqb_refl. split; auto. split; auto. intros j N. destruct (Nat.eqb_spec j i); [contradiction|]. auto.
Qed.

Definition none : nat -> nat := fun _ => 0.
Definition fresh : nat -> local := fun _ => local0.

Lemma comes_validate bs rest : forall its acc w ok jobs w1, validate_all E its w = (ok, jobs, w1) -> comes (PFlags (its ++ rest) acc bs) w ->
  if ok then comes (PFlags rest (acc ++ jobs) bs) w1 else exists jobs', comes (PJobs false jobs' fresh none bs) w1.
Proof.
  induction its as [|it its IH]; intros acc w ok jobs w1 V C.
  - cbn in V. injection V as <- <- <-. now rewrite app_nil_r.
  - cbn [validate_all] in V. unfold validate in V.
    assert (St : forall p w', pstep E true 0 (PFlags ((it :: its) ++ rest) acc bs) w = Some (p, w') -> comes p w') by (intros ? ?; apply comes_on; exact C). cbn [pstep app] in St.
    destruct (frugal_flags (can_write E) (now E w) (files w) (it_flags it) (it_out it)) as [changed f1]. specialize (St _ _ eq_refl).
    assert (Cm : forall ok' jobs' w2, validate_all E its (set_files w f1) = (ok', jobs', w2) -> comes (PFlags (its ++ rest) (acc ++ [it]) bs) (set_files w f1) -> (ok', it :: jobs', w2) = (ok, jobs, w1) ->
      if ok then comes (PFlags rest (acc ++ jobs) bs) w1 else exists jobs', comes (PJobs false jobs' fresh none bs) w1).
    { intros ok' jobs' w2 V2 C2 Q. injection Q as <- <- <-. specialize (IH _ _ _ _ _ V2 C2). destruct ok'; auto. now rewrite <- app_assoc in IH. }
    destruct changed.
    + destruct (validate_all E its (set_files w f1)) as [[ok' jobs'] w2] eqn:V2. eapply Cm; eauto.
    + assert (S2 : forall p w', pstep E true 0 (PTimes it (its ++ rest) acc bs) (set_files w f1) = Some (p, w') -> comes p w') by (intros ? ?; apply comes_on; exact St). cbn [pstep files set_files] in S2.
      destruct (read_file f1 (deps_path (it_out it))) as [c|].
      2:{ specialize (S2 _ _ eq_refl). destruct (validate_all E its (set_files w f1)) as [[ok' jobs'] w2] eqn:V2. eapply Cm; eauto. }
      destruct (frugal_mtime f1 (it_src it :: read_deps c) (it_out it)) as [[|]|].
      * specialize (S2 _ _ eq_refl). destruct (validate_all E its (set_files w f1)) as [[ok' jobs'] w2] eqn:V2. eapply Cm; eauto.
      * specialize (S2 _ _ eq_refl).
        assert (S3 : forall p w', pstep E true 0 (PShow it (its ++ rest) acc bs) (set_files w f1) = Some (p, w') -> comes p w') by (intros ? ?; apply comes_on; exact S2). cbn [pstep] in S3. cbv zeta in V, S3.
        destruct (installer E _ _ _) as [ok2 f2]. specialize (S3 _ _ eq_refl). destruct ok2.
        -- eapply IH; eauto.
        -- injection V as <- <- <-. eexists. exact S3.
      * specialize (S2 _ _ eq_refl). injection V as <- <- <-. eexists. exact S2.
Qed.

(** The jobs. *)
Lemma stops_apart jobs u j l a x : u <> j -> nth_error (job_prog E jobs j) l = Some a -> job_stops u (a x) = job_stops u x.
Proof.
  intros N Ha. unfold job_prog in Ha. destruct (nth_error jobs j) as [it|]; [|destruct l; discriminate]. unfold job_stops.
  assert (Sl : forall ls v, set_loc ls j v u = ls u) by (intros; unfold set_loc; destruct (Nat.eqb_spec u j); [contradiction|reflexivity]).
  destruct l as [|[|[|[|[|l]]]]]; cbn in Ha; try (destruct l; discriminate); injection Ha as <-.
  - unfold act_deps. cbn [locs]. now rewrite Sl.
  - unfold act_write_deps. destruct (l_deps _); [destruct (write_file _ _ _ _ _)|]; reflexivity.
  - unfold act_compile. destruct (apply_tool _ _ _ _ _) as [[? ?] ?]. cbn [locs]. now rewrite Sl.
  - unfold act_log. destruct (cmd_log _ _ _ _ _). reflexivity.
  - unfold act_install. destruct (l_fail (locs x j)); [reflexivity|]. destruct (installer _ _ _ _). cbn [locs]. now rewrite Sl.
Qed.

Definition up (k : nat) : nat := if k <? 3 then k else S k.

Lemma comes_jobs bs jobs w s : comes (PJobs true jobs fresh none bs) w -> pool_state E jobs true w s ->
  exists done, comes (PJobs true jobs (locs (sig jst s)) done bs) (jw (sig jst s)) /\ forall rv, In (EvRet rv) (trace jst s) ->
  (rv = 0%Z /\ (forall t, t < length jobs -> done t = 6 /\ l_fail (locs (sig jst s) t) = false) \/
   rv = (-1)%Z /\ exists t, t < length jobs /\ l_fail (locs (sig jst s) t) = true).
Proof.
  intros C R. unfold pool_state, compile_client in R. destruct (tallied_reachable _ _ _ _ _ _ _ R) as (s' & R' & (ws' & [x d] & _ & X & Es)). cbn in X. subst x.
  set (m := length jobs) in *. set (J := fun (i k : nat) (x : tallied jst) => snd x i = k).
  set (G := fun x : tallied jst => exists done, comes (PJobs true jobs (locs (fst x)) done bs) (jw (fst x)) /\ forall t, t < m -> done t = up (snd x t)).
  assert (NM : forall t, ~ In (OAdd t) [OWait; OFree]) by (intros t [Q|[Q|[]]]; discriminate Q).
  assert (Ji : forall i0, i0 < m -> J i0 0 (JSt w (fun _ => local0), fun _ => 0)) by reflexivity.
  assert (Jo : forall i0 k a x, i0 < m -> nth_error (prog' jst (job_prog E jobs) i0) k = Some a -> J i0 k x -> J i0 (S k) (a x)).
  { intros t k a x Ht Na Jx. unfold prog' in Na. rewrite nth_error_map in Na. destruct (nth_error _ k) as [b|]; [|discriminate]. injection Na as <-.
    unfold J in *. cbn. unfold bump. now rewrite Nat.eqb_refl, Jx. }
  assert (Jn : forall i0 j k l a x, i0 < m -> j < m -> i0 <> j -> nth_error (prog' jst (job_prog E jobs) j) l = Some a -> J j l x -> J i0 k x -> J i0 k (a x)).
  { intros t j k l a x Ht Hj N Na _ Jx. unfold prog' in Na. rewrite nth_error_map in Na. destruct (nth_error _ l) as [b|]; [|discriminate]. injection Na as <-.
    unfold J in *. cbn. unfold bump. destruct (Nat.eqb_spec t j); [contradiction|exact Jx]. }
  assert (So : forall i0 j l a x, i0 < m -> j < m -> i0 <> j -> nth_error (prog' jst (job_prog E jobs) j) l = Some a -> stops' jst job_stops i0 (a x) = stops' jst job_stops i0 x).
  { intros t j l a x Ht Hj N Na. unfold prog' in Na. rewrite nth_error_map in Na. destruct (nth_error _ l) as [b|] eqn:Nb; [|discriminate]. injection Na as <-. unfold stops', tally. cbn [fst]. eapply stops_apart; eauto. }
  assert (Gi : G (JSt w (fun _ => local0), fun _ => 0)) by (exists none; split; [exact C|reflexivity]).
  assert (Ga : forall i0 k a x, i0 < m -> nth_error (prog' jst (job_prog E jobs) i0) k = Some a -> J i0 k x -> G x -> G (a x)).
  { intros t k a x Ht Na Jx (done & Cd & Dn). unfold prog' in Na. rewrite nth_error_map in Na. destruct (nth_error _ k) as [b|] eqn:Nb; [|discriminate]. injection Na as <-.
    unfold job_prog in Nb. destruct (nth_error jobs t) as [it|] eqn:Nt; [|destruct k; discriminate]. unfold J in Jx.
    assert (One : forall dn ls v, comes (PJobs true jobs ls dn bs) v -> forall a', nth_error (job_acts E true t it) (dn t) = Some a' -> comes (PJobs true jobs (locs (a' (JSt v ls))) (bump dn t) bs) (jw (a' (JSt v ls)))).
    { intros dn ls v Cv a' Na'. eapply (comes_on t); [exact Cv|]. cbn [pstep]. rewrite Nt, Na'. reflexivity. }
    destruct x as [[v ls] d']. cbn [fst snd jw locs] in *. unfold G, tally. cbn [fst snd].
    assert (Lt : k < 5) by (change 5 with (length [act_deps E t it; act_write_deps E t it; act_compile E t it; act_log E t it; act_install E t it]); apply nth_error_Some; congruence).
    assert (Dt : done t = up k) by (rewrite Dn by auto; now rewrite Jx).
    destruct (Nat.eq_dec k 2) as [->|N2].
    - exists (bump (bump done t) t). injection Nb as <-. split.
      + pose proof (One _ _ _ Cd (act_open E true it)) as O1. rewrite Dt in O1. specialize (O1 eq_refl). unfold act_open, open_at in O1. cbn [jw locs] in O1.
        pose proof (One _ _ _ O1 (act_compile E t it)) as O2. unfold bump at 1 in O2. rewrite Nat.eqb_refl, Dt in O2. exact (O2 eq_refl).
      + intros u Hu. unfold bump. destruct (Nat.eqb_spec u t) as [->|]; [|auto]. rewrite Dt, Jx. reflexivity.
    - exists (bump done t). split.
      + apply (One _ _ _ Cd). rewrite Dt. destruct k as [|[|[|[|[|]]]]]; try lia; exact Nb.
      + intros u Hu. unfold bump. destruct (Nat.eqb_spec u t) as [->|]; [|auto]. rewrite Dt, Jx. destruct k as [|[|[|[|[|]]]]]; try lia; reflexivity. }
  pose proof (own_reach _ _ _ (ncpus E) m [OWait; OFree] _ NM J Ji Jo Jn So G Gi Ga s' R') as ((done & Cd & Dn) & _). rewrite Es in Cd, Dn. cbn [sig fst snd] in Cd, Dn.
  exists done. split; [exact Cd|]. intros rv Rt.
  assert (Rt' : In (EvRet rv) (trace _ s')) by (rewrite Es; exact Rt).
  assert (FL : frees_last (map OAdd (seq 0 m) ++ [OWait; OFree])).
  { right. exists (map OAdd (seq 0 m) ++ [OWait]). split; [now rewrite <- app_assoc|]. intro Q. apply in_app_or in Q as [Q|[Q|[]]]; [|discriminate]. apply in_map_iff in Q as (? & Q & _). discriminate. }
  destruct (some_stopped _ _ _ (ncpus E) m [OWait; OFree] _ NM J Ji Jo Jn So G Gi Ga s' FL R' rv Rt') as [->|(-> & t & Ht & _ & St)].
  - left. split; auto. intros t Ht. destruct (PoolOwn.all_done _ _ _ (ncpus E) m [OWait; OFree] _ NM J Ji Jo Jn So G Gi Ga s' CPU R' Rt' t Ht) as (Jt & St). rewrite Es in Jt, St. cbn in Jt, St.
    split; [|exact St]. rewrite Dn by auto. unfold J, prog' in Jt. cbn in Jt. rewrite Jt, map_length. unfold job_prog. destruct (nth_error jobs t) eqn:Nt; [reflexivity|]. apply nth_error_None in Nt. unfold m in Ht. lia.
  - right. split; auto. exists t. split; auto. rewrite Es in St. exact St.
Qed.

Lemma abort_world jobs w s : pool_state E jobs false w s -> sig jst s = JSt w (fun _ => local0).
Proof. intros R. eapply no_begin_untouched; eauto. eapply abort_runs_nothing; eauto. Qed.

Lemma beyond {A} (l : list A) : nth_error l (length l) = None.
Proof. now apply nth_error_None. Qed.

Lemma comes_compile its bs w rv w' : compile_step E its w rv w' -> comes (PNext (SCompile its :: bs)) w ->
  rv = 0%Z /\ comes (PNext bs) w' \/ rv = (-1)%Z /\ comes (PEnd (-1)) w'.
Proof.
  intros (ok & jobs & w1 & s & V & R & _ & <- & Rv) C. apply (comes_on 0 _ _ (PFlags its [] bs) w) in C; [|reflexivity].
  rewrite <- (app_nil_r its) in C. pose proof (comes_validate bs [] its [] w ok jobs w1 V C) as Cv. destruct ok.
  - apply (comes_on 0 _ _ (PJobs true jobs fresh none bs) w1) in Cv; [|reflexivity].
    destruct (comes_jobs bs jobs w1 s Cv R) as (done & Cd & Fin). destruct (Fin rv Rv) as [(-> & A)|(-> & t & Ht & F)].
    + left. split; auto. apply (comes_on (length jobs) _ _ _ _ Cd). cbn [pstep]. rewrite beyond.
      replace (all_done jobs (locs (sig jst s)) done) with true; [reflexivity|]. symmetry. unfold Together.all_done. apply forallb_forall. intros t Ht. apply in_seq in Ht.
      destruct (A t) as [-> ->]; [lia|reflexivity].
    + right. split; auto. apply (comes_on (length jobs) _ _ _ _ Cd). cbn [pstep]. rewrite beyond.
      assert (SF : some_failed jobs (locs (sig jst s)) = true) by (apply existsb_exists; exists t; split; [apply in_seq; lia|exact F]).
      rewrite SF. assert (AD : Together.all_done jobs (locs (sig jst s)) done = false).
      { destruct (Together.all_done jobs (locs (sig jst s)) done) eqn:D; auto. unfold Together.all_done in D. rewrite forallb_forall in D. specialize (D t). rewrite F, andb_false_r in D. rewrite D; auto. apply in_seq. lia. }
      rewrite AD. reflexivity.
  - subst rv. right. split; auto. destruct Cv as (jobs' & Cv). rewrite (abort_world _ _ _ R). cbn [jw].
    apply (comes_on (length jobs') _ _ _ _ Cv). cbn [pstep]. rewrite beyond. reflexivity.
Qed.

Lemma comes_do_link r bs w : comes (PLinkOpen r bs) w ->
  (forall w', do_link_during E r w w' -> exists p, comes p w') /\
  forall rv w', do_link E r w = (rv, w') -> rv = 0%Z /\ comes (PNext bs) w' \/ rv = (-1)%Z /\ comes (PEnd (-1)) w'.
Proof.
  intros C. assert (C0 := C). apply (comes_on 0 _ _ (PLinkRun r bs) w) in C; [|reflexivity].
  assert (S1 : forall p w', pstep E true 0 (PLinkRun r bs) w = Some (p, w') -> comes p w') by (intros ? ?; apply comes_on; exact C). cbn [pstep] in S1.
  unfold do_link_during, do_link. destruct (apply_tool _ _ _ _ _) as [[ok text] f]. specialize (S1 _ _ eq_refl). cbv zeta. set (w1 := set_ran _ _) in *.
  assert (S2 : forall p w', pstep E true 0 (PLinkSave r ok text bs) w1 = Some (p, w') -> comes p w') by (intros ? ?; apply comes_on; exact S1). cbn [pstep] in S2.
  destruct (cmd_log _ _ _ _ _) as [printed f2]. specialize (S2 _ _ eq_refl). set (w2 := set_shown _ _ _) in *.
  destruct ok.
  - assert (S3 : forall p w', pstep E true 0 (PLinkPut r bs) w2 = Some (p, w') -> comes p w') by (intros ? ?; apply comes_on; exact S2). cbn [pstep] in S3.
    destruct (installer _ _ _ _) as [ok2 f3]. specialize (S3 _ _ eq_refl). cbn [snd]. split.
    + intros w' [->|[->|[->| ->]]]; eauto.
    + intros rv w' Q. injection Q as <- <-. destruct ok2; auto.
  - cbn [snd]. split.
    + intros w' [->|[->|[->| ->]]]; eauto.
    + intros rv w' Q. injection Q as <- <-. auto.
Qed.

Lemma comes_link r bs w : comes (PNext (SLink r :: bs)) w ->
  (forall w', link_during E r w w' -> exists p, comes p w') /\
  forall rv w', link_step E r w = (rv, w') -> rv = 0%Z /\ comes (PNext bs) w' \/ rv = (-1)%Z /\ comes (PEnd (-1)) w'.
Proof.
  intros C. assert (C0 := C). apply (comes_on 0 _ _ (PLink r bs) w) in C; [|reflexivity].
  assert (Fst : forall rv w', link_step E r w = (rv, w') -> rv = 0%Z /\ comes (PNext bs) w' \/ rv = (-1)%Z /\ comes (PEnd (-1)) w').
  { intros rv w'. unfold link_step.
    assert (S1 : forall p w', pstep E true 0 (PLink r bs) w = Some (p, w') -> comes p w') by (intros ? ?; apply comes_on; exact C). cbn [pstep] in S1.
    destruct (frugal_flags _ _ _ _ _) as [changed f1]. specialize (S1 _ _ eq_refl). cbv zeta. destruct changed; [now apply comes_do_link|].
    assert (S2 : forall p w', pstep E true 0 (PLinkTimes r bs) (set_files w f1) = Some (p, w') -> comes p w') by (intros ? ?; apply comes_on; exact S1). cbn [pstep files set_files] in S2.
    destruct (frugal_mtime _ _ _) as [[|]|]; specialize (S2 _ _ eq_refl); try (now apply comes_do_link).
    assert (S3 : forall p w', pstep E true 0 (PLinkShow r bs) (set_files w f1) = Some (p, w') -> comes p w') by (intros ? ?; apply comes_on; exact S2). cbn [pstep] in S3. cbv zeta in S3.
    destruct (installer _ _ _ _) as [ok f2]. specialize (S3 _ _ eq_refl). intros Q. injection Q as <- <-. destruct ok; auto. }
  split; [|exact Fst]. intros w' D. unfold link_during in D.
  assert (Lst : w' = snd (link_step E r w) -> exists p, comes p w').
  { intros ->. destruct (link_step E r w) as [rv v] eqn:L. destruct (Fst _ _ eq_refl) as [[_ ?]|[_ ?]]; eauto. }
  assert (S1 : forall p w', pstep E true 0 (PLink r bs) w = Some (p, w') -> comes p w') by (intros ? ?; apply comes_on; exact C). cbn [pstep] in S1.
  destruct (frugal_flags _ _ _ _ _) as [changed f1]. specialize (S1 _ _ eq_refl). cbv zeta in D. destruct D as [->|[D|D]]; eauto.
  destruct changed; [exact (proj1 (comes_do_link r bs _ S1) _ D)|].
  assert (S2 : forall p w', pstep E true 0 (PLinkTimes r bs) (set_files w f1) = Some (p, w') -> comes p w') by (intros ? ?; apply comes_on; exact S1). cbn [pstep files set_files] in S2.
  destruct (frugal_mtime _ _ _) as [[|]|]; specialize (S2 _ _ eq_refl); try exact (proj1 (comes_do_link r bs _ S2) _ D). subst. eauto.
Qed.

Lemma comes_one b bs w rv w' : one_step E b w rv w' -> comes (PNext (b :: bs)) w ->
  rv = 0%Z /\ comes (PNext bs) w' \/ rv = (-1)%Z /\ comes (PEnd (-1)) w'.
Proof. destruct b; cbn [one_step]; intros O C; [eapply comes_compile; eauto|eapply comes_link; eauto]. Qed.

Theorem comes_steps bs w rv w' : run_steps E bs w rv w' -> comes (PNext bs) w -> comes (PEnd rv) w'.
Proof.
  induction 1 as [w|b bs w rv w' O N|b bs w rv w1 rv2 w2 O N H IH]; intros C.
  - exact (comes_on 0 _ _ _ _ C eq_refl).
  - destruct (comes_one _ _ _ _ _ O C) as [[-> _]|[_ ?]]; [lia|auto].
  - destruct (comes_one _ _ _ _ _ O C) as [[_ ?]|[-> _]]; [auto|lia].
Qed.

Theorem comes_during bs w w' : during E bs w w' -> comes (PNext bs) w -> exists p, comes p w'.
Proof.
  induction 1 as [w|its bs w w' D|r bs w w' D|b bs w rv w1 w2 O N H IH]; intros C.
  - eauto.
  - apply (comes_on 0 _ _ (PFlags its [] bs) w) in C; [|reflexivity]. destruct D as [(its1 & its2 & ok & jobs & -> & V)|(ok & jobs & w1 & s & V & R & <-)].
    + pose proof (comes_validate bs its2 its1 [] w ok jobs w' V C) as Cv. destruct ok; [|destruct Cv]; eauto.
    + rewrite <- (app_nil_r its) in C. pose proof (comes_validate bs [] its [] w ok jobs w1 V C) as Cv. destruct ok.
      * apply (comes_on 0 _ _ (PJobs true jobs fresh none bs) w1) in Cv; [|reflexivity]. destruct (comes_jobs bs jobs w1 s Cv R) as (done & Cd & _). eauto.
      * destruct Cv as (jobs' & Cv). rewrite (abort_world _ _ _ R). eauto.
  - exact (proj1 (comes_link r bs _ C) _ D).
  - destruct (comes_one _ _ _ _ _ O C) as [[_ ?]|[-> _]]; [auto|lia].
Qed.
End Alone.

Lemma goes_far E b s s1 s2 : goes E b s s1 -> goes E b s1 s2 -> goes E b s s2.
Proof. intros A B. induction B as [|s1 s2 s3 B IH M]; auto. exact (go_more E b s s2 s3 (IH A) M). Qed.

Lemma here E i s : comes E i s (procs s i) (shared s).
Proof. exists s. split; [constructor|]. auto. Qed.

Theorem turn sg out E rs w s i rv w' : 1 <= ncpus E -> at_once sg out E true rs w s -> not_begun sg out rs s i -> build sg out E (rs i) (shared s) rv w' ->
  exists s', at_once sg out E true rs w s' /\ only i s s' /\ procs s' i = PEnd rv /\ shared s' = w'.
Proof.
  intros CPU (bs & P & G) (b & Pb & N) (b' & Pb' & R). assert (b' = b) by congruence. subst b'.
  pose proof (here E i s) as C. rewrite N in C. destruct (comes_steps E CPU i s _ _ _ _ R C) as (s' & G' & Q & W & O).
  exists s'. split; [exists bs; split; auto; eapply goes_far; eauto|]. auto.
Qed.

Theorem cut_turn sg out E rs w s i w' : 1 <= ncpus E -> at_once sg out E true rs w s -> not_begun sg out rs s i -> cut_build sg out E (rs i) (shared s) w' ->
  exists s', at_once sg out E true rs w s' /\ only i s s' /\ shared s' = w'.
Proof.
  intros CPU (bs & P & G) (b & Pb & N) (b' & Pb' & R). assert (b' = b) by congruence. subst b'.
  pose proof (here E i s) as C. rewrite N in C. destruct (comes_during E CPU i s _ _ _ R C) as (p & s' & G' & Q & W & O).
  exists s'. split; [exists bs; split; auto; eapply goes_far; eauto|]. auto.
Qed.
