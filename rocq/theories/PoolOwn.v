(** * Reasoning about what jobs of the pool do to the shared state, in every interleaving. *)

From Coq Require Import ZArith Lia Bool List.
From Verif Require Import Pool PoolInv SpecPool PoolProofs.
Import ListNotations.

Section PoolOwn.
Variable Sig : Type.
Variable prog : nat -> list (Sig -> Sig).
Variable stops : nat -> Sig -> bool.
Notation st := (st Sig).
Notation wpc := (wpc Sig).
Notation wstep := (wstep Sig prog stops).
Notation mstep := (mstep Sig).
Notation step := (step Sig prog stops).
Notation reachable := (reachable Sig prog stops).

Variables (n m : nat) (rest : list op) (x0 : Sig).
Hypothesis no_more : forall t, ~ In (OAdd t) rest.
Notation client := (map OAdd (seq 0 m) ++ rest).

(** [J i k x]: job [i] has executed its first [k] actions, in shared state [x]. *)
Variable J : nat -> nat -> Sig -> Prop.
Hypothesis J_init : forall i, i < m -> J i 0 x0.
Hypothesis J_own : forall i k a x, i < m -> nth_error (prog i) k = Some a -> J i k x -> J i (S k) (a x).
Hypothesis J_other : forall i j k l a x, i < m -> j < m -> i <> j ->
  nth_error (prog j) l = Some a -> J j l x -> J i k x -> J i k (a x).

Hypothesis stops_other : forall i j l a x, i < m -> j < m -> i <> j -> nth_error (prog j) l = Some a ->
  stops i (a x) = stops i x.

(** A property of the shared state kept by every action. *)
Variable G : Sig -> Prop.
Hypothesis G_init : G x0.
Hypothesis G_act : forall i k a x, i < m -> nth_error (prog i) k = Some a -> J i k x -> G x -> G (a x).

Lemma adds_client : adds client = seq 0 m.
Proof.
  rewrite adds_app. rewrite (no_add_adds rest) by exact no_more. rewrite app_nil_r.
  induction (seq 0 m); simpl; congruence.
Qed.

Lemma queue_task s i : reachable n client x0 s -> i < length (queue Sig s) -> task_of Sig s i = i /\ i < m.
Proof.
  intros R Hi. pose proof (inv_tasks_reach _ _ _ n client x0 s R) as T. unfold inv_tasks in T. rewrite adds_client in T.
  assert (L : length (queue Sig s) <= m).
  { apply (f_equal (@length _)) in T. rewrite app_length, map_length, seq_length in T. lia. }
  split; [|lia]. unfold task_of.
  assert (E : nth i (map fst (queue Sig s) ++ adds (ops Sig s)) 0 = i).
  { rewrite T. rewrite seq_nth by lia. lia. }
  rewrite app_nth1 in E by (rewrite map_length; auto).
  change 0 with (fst (0, false)) in E. rewrite map_nth in E. exact E.
Qed.

Definition running (s : st) (i : nat) (acts : list (Sig -> Sig)) : Prop :=
  exists w, nth_error (workers Sig s) w = Some (WRun Sig i acts).

Definition own (s : st) : Prop :=
  G (sig Sig s) /\
  forall i, i < m ->
    (begins i (trace Sig s) = 0 -> J i 0 (sig Sig s)) /\
    (forall acts, running s i acts -> exists pre, prog i = pre ++ acts /\ J i (length pre) (sig Sig s)) /\
    (completions i (trace Sig s) = 1 -> J i (length (prog i)) (sig Sig s)) /\
    (forall w b, In (EvEnd w i b) (trace Sig s) -> b = stops i (sig Sig s)).

Lemma begins_app i a b : begins i (a ++ b) = begins i a + begins i b.
Proof. unfold begins. apply count_app. Qed.
Lemma completions_app i a b : completions i (a ++ b) = completions i a + completions i b.
Proof. unfold completions. apply count_app. Qed.

Lemma run_idx s w i acts : reachable n client x0 s -> nth_error (workers Sig s) w = Some (WRun Sig i acts) ->
  i < length (queue Sig s).
Proof.
  intros R H. pose proof (inv_count_reach _ _ _ n client x0 s R i) as [C1 C2].
  assert (A : at_run Sig i (WRun Sig i acts) <= sumf (at_run Sig i) (workers Sig s)).
  { apply sumf_ge. eapply nth_error_In; eauto. }
  cbn in A. rewrite Nat.eqb_refl in A.
  destruct (inv_queue_reach _ _ _ n client x0 s R) as (Q1 & [Q2 _] & _).
  assert (In i (claims (trace Sig s))).
  { apply (count_occ_In Nat.eq_dec). rewrite <- claims_count. lia. }
  rewrite Q1 in H0. apply in_seq in H0. lia.
Qed.

Lemma mstep_frame s s' : mstep s = Some s' ->
  sig Sig s' = sig Sig s /\
  (forall i, begins i (trace Sig s') = begins i (trace Sig s) /\ completions i (trace Sig s') = completions i (trace Sig s)) /\
  (forall i acts, running s' i acts -> running s i acts) /\
  (forall w i b, In (EvEnd w i b) (trace Sig s') -> In (EvEnd w i b) (trace Sig s)).
Proof.
  intros H.
  assert (K : forall a ev, sig Sig (set_main Sig s a (ops Sig s) ev) = sig Sig s) by reflexivity.
  unfold Pool.mstep, start_or in H.
  assert (NE : forall (tr : list event) w i b, In (EvEnd w i b) (tr ++ []) -> In (EvEnd w i b) tr) by (intros; rewrite app_nil_r in *; auto).
  destruct (pc Sig s) as [|k a|k ret] eqn:PC.
  - destruct (ops Sig s) as [|[t| | |] os] eqn:HO; try discriminate H.
    + destruct (lock Sig s); [discriminate|]. injection H as <-. cbn. repeat split; eauto; rewrite app_nil_r; auto.
    + destruct (started Sig s); injection H as <-; cbn; repeat split; eauto; rewrite app_nil_r; auto.
    + destruct (started Sig s); injection H as <-; cbn; repeat split; eauto; rewrite app_nil_r; auto.
    + cbn in H. destruct (started Sig s); injection H as <-; cbn; repeat split; eauto; rewrite app_nil_r; auto.
  - destruct (Nat.ltb k (length (workers Sig s))); injection H as <-; cbn; repeat split; eauto.
    intros i acts [w Hw]. cbn in Hw. apply nth_upd_inv in Hw. destruct Hw as [(_ & E & _)|[_ Hw]]; [discriminate|]. exists w; auto.
  - destruct (Nat.ltb k (length (workers Sig s))).
    + assert (X : exists hs, s' = St Sig (queue Sig s) (err Sig s) (started Sig s) (lock Sig s) (workers Sig s) hs (MJoin (S k) ret) (ops Sig s) (sig Sig s) (trace Sig s)).
      { destruct (nth_error (handles Sig s) k) as [[|]|].
        - destruct (nth_error (workers Sig s) k) as [[]|]; try discriminate; injection H as <-; eauto.
        - injection H as <-. unfold set_main. rewrite app_nil_r. eauto.
        - injection H as <-. unfold set_main. rewrite app_nil_r. eauto. }
      destruct X as [hs ->]. cbn. repeat split; eauto.
    + injection H as <-. destruct ret; cbn [sig trace workers set_main].
      * split; [reflexivity|]. split; [|split].
        -- intros i. rewrite begins_app, completions_app. cbn. lia.
        -- intros i acts [w Hw]. exists w. exact Hw.
        -- intros w i b Hin. apply in_app_or in Hin. destruct Hin as [Hin|[Hin|[]]]; auto. discriminate.
      * rewrite app_nil_r. repeat split; eauto.
Qed.

Lemma end_completes tr w i b : In (EvEnd w i b) tr -> 1 <= completions i tr.
Proof.
  intros H. apply in_split in H. destruct H as (t1 & t2 & ->). rewrite completions_app.
  unfold completions at 2. cbn. rewrite Nat.eqb_refl. lia.
Qed.

Lemma own_quiet s s' : own s ->
  sig Sig s' = sig Sig s ->
  (forall i, begins i (trace Sig s') = begins i (trace Sig s) /\ completions i (trace Sig s') = completions i (trace Sig s)) ->
  (forall i acts, running s' i acts -> running s i acts) ->
  (forall w i b, In (EvEnd w i b) (trace Sig s') -> In (EvEnd w i b) (trace Sig s)) -> own s'.
Proof.
  intros [HG O] Es Ec Er Ee. split; [congruence|].
  intros i Hi. destruct (O i Hi) as (O1 & O2 & O3 & O4). destruct (Ec i) as [Eb Eco]. rewrite Es, Eb, Eco.
  split; [auto|]. split; [auto|]. split; [auto|].
  intros w b Hin. apply Ee in Hin. eapply O4; eauto.
Qed.

Lemma running_upd s s' w p i acts : workers Sig s' = upd (workers Sig s) w p -> (forall j l, p <> WRun Sig j l) ->
  running s' i acts -> running s i acts.
Proof.
  intros E Np [v Hv]. rewrite E in Hv. apply nth_upd_inv in Hv. destruct Hv as [(-> & Hp & _)|[_ Hv]]; [|exists v; auto].
  exfalso. eapply Np. symmetry. exact Hp.
Qed.

Lemma own_wstep w s s' : reachable n client x0 s -> own s -> wstep w s = Some s' -> own s'.
Proof.
  intros R O0 H. pose proof O0 as [HG O].
  assert (R' : reachable n client x0 s') by (eapply steps_snoc; [exact R|right; eauto]).
  unfold Pool.wstep in H.
  Ltac quiet O0 := apply own_quiet with (1 := O0);
    [reflexivity | intros i0; cbn [trace set_worker set_lock set_err set_queue]; rewrite ?begins_app, ?completions_app; cbn; lia
    | intros i0 acts0; eapply running_upd; [reflexivity|]
    | intros w0 i0 b0 Hin; cbn [trace set_worker set_lock set_err set_queue] in Hin; apply in_app_or in Hin; destruct Hin as [Hin|Hin]; [auto|];
      cbn in Hin; repeat (destruct Hin as [Hin|Hin]; [discriminate|]); destruct Hin].
  destruct (nth_error (workers Sig s) w) as [[| | | |i|i|i [|a acts]| | |]|] eqn:P; try discriminate H.
  - injection H as <-. quiet O0. destruct (err Sig s); discriminate.
  - destruct (lock Sig s); [discriminate|]. injection H as <-. quiet O0. discriminate.
  - injection H as <-. quiet O0. destruct (first_unstarted _); discriminate.
  - injection H as <-. quiet O0. discriminate.
  - (* WUnlock: the job begins *)
    injection H as <-.
    assert (Hq : i < length (queue Sig s)) by (eapply inv_idx_reach; eauto).
    destruct (queue_task s i R Hq) as [Ht Hm]. rewrite Ht in *.
    assert (Hb : begins i (trace Sig s) = 0).
    { pose proof (job_once _ _ _ n client x0 _ i R') as B. cbn [trace set_worker set_lock] in B. rewrite begins_app in B. cbn in B. rewrite Nat.eqb_refl in B. lia. }
    split; [exact HG|]. intros i0 Hi0. destruct (O i0 Hi0) as (O1 & O2 & O3 & O4). cbn [trace sig set_worker set_lock].
    rewrite begins_app, completions_app.
    split; [|split; [|split]].
    + intros Hb0. apply O1. lia.
    + intros acts0 [v Hv]. cbn in Hv. apply nth_upd_inv in Hv. destruct Hv as [(-> & E & _)|[_ Hv]].
      * injection E as -> ->. exists []. split; [reflexivity|]. apply O1. exact Hb.
      * apply O2; exists v; auto.
    + cbn. rewrite Nat.add_0_r. auto.
    + intros w0 b Hin. apply in_app_or in Hin. destruct Hin as [Hin|[Hin|[]]]; [|discriminate]. eauto.
  - (* WRun []: the job ends *)
    injection H as <-.
    assert (Hq : i < length (queue Sig s)) by (eapply run_idx; eauto).
    destruct (queue_task s i R Hq) as [Ht Hm]. rewrite Ht in *.
    destruct (O i Hm) as (_ & P2 & _). destruct (P2 [] (ex_intro _ w P)) as (pre & Ep & HJ). rewrite app_nil_r in Ep. subst pre.
    split; [exact HG|]. intros i0 Hi0. destruct (O i0 Hi0) as (O1 & O2 & O3 & O4). cbn [trace sig set_worker].
    rewrite begins_app, completions_app.
    split; [|split; [|split]].
    + intros Hb0. apply O1. lia.
    + intros acts0 Hr. apply O2. eapply running_upd; [|  |exact Hr]; [cbn; reflexivity|]. destruct (stops i (sig Sig s)); discriminate.
    + cbn. destruct (Nat.eqb_spec i0 i) as [->|]; auto. rewrite Nat.add_0_r. auto.
    + intros w0 b Hin. apply in_app_or in Hin. destruct Hin as [Hin|[Hin|[]]]; [eauto|]. injection Hin as -> -> <-. reflexivity.
  - (* WRun (a :: acts): one action *)
    injection H as <-.
    assert (Hq : i < length (queue Sig s)) by (eapply run_idx; eauto).
    destruct (queue_task s i R Hq) as [Ht Hm].
    destruct (O i Hm) as (_ & P2 & _). destruct (P2 _ (ex_intro _ w P)) as (pre & Ep & HJ).
    assert (Hn : nth_error (prog i) (length pre) = Some a).
    { rewrite Ep. rewrite nth_error_app2 by auto. rewrite Nat.sub_diag. reflexivity. }
    split; [cbn; eapply G_act; eauto|].
    intros i0 Hi0. destruct (O i0 Hi0) as (O1 & O2 & O3 & O4). cbn [trace sig set_worker set_sig]. rewrite app_nil_r.
    assert (Cnt := inv_count_reach _ _ _ n client x0 s R i0).
    destruct (Nat.eq_dec i0 i) as [->|Hne].
    + assert (A : at_run Sig i (WRun Sig i (a :: acts)) <= sumf (at_run Sig i) (workers Sig s)).
      { apply sumf_ge. eapply nth_error_In; eauto. }
      cbn in A. rewrite Nat.eqb_refl in A. destruct Cnt as [_ C2].
      pose proof (begin_once _ _ _ n client x0 s i R) as B1.
      split; [|split; [|split]]; auto.
      * rewrite begins_sumf. lia.
      * intros acts0 [v Hv]. cbn in Hv. apply nth_upd_inv in Hv. destruct Hv as [(-> & E & _)|[Hne Hv]].
        -- injection E as ->. exists (pre ++ [a]). split; [rewrite <- app_assoc; exact Ep|].
           rewrite app_length. simpl. rewrite Nat.add_1_r. eapply J_own; eauto.
        -- exfalso. apply Hne. exact (job_exclusive _ _ _ n client x0 s v w i acts0 (a :: acts) R Hv P).
      * rewrite completions_sumf. lia.
      * intros w0 b Hin. apply end_completes in Hin. rewrite completions_sumf in Hin. lia.
    + split; [|split; [|split]]; auto.
      * intros Hb. eapply J_other with (j := i); eauto.
      * intros acts0 [v Hv]. cbn in Hv. apply nth_upd_inv in Hv. destruct Hv as [(-> & E & _)|[_ Hv]]; [congruence|].
        destruct (O2 acts0 (ex_intro _ v Hv)) as (pre0 & E0 & J0). exists pre0. split; auto. eapply J_other with (j := i); eauto.
      * intros Hc. eapply J_other with (j := i); eauto.
      * intros w0 b Hin. rewrite (stops_other i0 i (length pre)) by auto. eauto.
  - injection H as <-. quiet O0. discriminate.
  - injection H as <-. quiet O0. discriminate.
Qed.

Lemma own_step s s' : reachable n client x0 s -> own s -> step s s' -> own s'.
Proof.
  intros R O [H|[w H]]; [|eapply own_wstep; eauto].
  destruct (mstep_frame s s' H) as (Es & Ec & Er & Ee). eapply own_quiet; eauto.
Qed.

Theorem own_reach s : reachable n client x0 s -> own s.
Proof.
  intros R. unfold Pool.reachable in R. remember (init Sig n client x0) as s0. induction R as [|a b c Hab IH Hs]; subst.
  - split; [exact G_init|]. intros i Hi. cbn. repeat split; auto.
    + intros acts [w Hw]. cbn in Hw. apply nth_error_In in Hw. apply repeat_spec in Hw. discriminate.
    + discriminate.
    + intros w b [].
  - eapply own_step; eauto.
Qed.

(** At any time, in any schedule, every job has executed some prefix of its actions. *)
Theorem own_any s : reachable n client x0 s -> forall i, i < m -> exists k, J i k (sig Sig s).
Proof.
  intros R i Hi. destruct (own_reach s R) as [_ O]. destruct (O i Hi) as (O1 & O2 & O3 & _).
  pose proof (job_once _ _ _ n client x0 s i R) as B. pose proof (completes_le_begins _ _ _ n client x0 s i R) as C.
  destruct (begins i (trace Sig s)) as [|[|b]] eqn:Eb; [eauto| |lia].
  destruct (completions i (trace Sig s)) as [|[|c]] eqn:Ec; [|eauto|lia].
  destruct (inv_count_reach _ _ _ n client x0 s R i) as [_ C2]. rewrite begins_sumf in Eb. rewrite completions_sumf in Ec.
  assert (X : exists w acts, nth_error (workers Sig s) w = Some (WRun Sig i acts)).
  { assert (A : 1 <= sumf (at_run Sig i) (workers Sig s)) by lia. clear - A.
    induction (workers Sig s) as [|p ps IH]; [rewrite sumf_0 in A; lia|].
    change (p :: ps) with ([p] ++ ps) in A. rewrite sumf_app, sumf_1 in A.
    destruct (Nat.eq_dec (at_run Sig i p) 0) as [Z|Z].
    - destruct IH as (w & acts & H); [lia|]. exists (S w), acts. exact H.
    - exists 0. destruct p; cbn in Z; try lia. destruct (Nat.eqb_spec i i0); [subst|lia]. cbn. eauto. }
  destruct X as (w & acts & Hw). destruct (O2 acts (ex_intro _ w Hw)) as (pre & _ & HJ). eauto.
Qed.

(** After a successful wait every job has run to its end without asking to stop. *)
Theorem all_done s : 1 <= n -> reachable n client x0 s -> In (EvRet 0) (trace Sig s) ->
  forall i, i < m -> J i (length (prog i)) (sig Sig s) /\ stops i (sig Sig s) = false.
Proof.
  intros Hn R Hin i Hi. apply in_split in Hin. destruct Hin as (t1 & t2 & E).
  assert (Q : queues_first client) by (exists (seq 0 m), rest; auto).
  destruct (wait_success _ _ _ n client x0 s t1 t2 Hn Q R E) as [NF W].
  assert (Hq : i < length (queued client)). { rewrite queued_adds, adds_client, seq_length. auto. }
  destruct (W i Hq) as [_ C].
  destruct (own_reach s R) as [_ O]. destruct (O i Hi) as (_ & _ & O3 & O4).
  assert (C1 : completions i (trace Sig s) = 1).
  { pose proof (completes_le_begins _ _ _ n client x0 s i R). pose proof (job_once _ _ _ n client x0 s i R).
    rewrite E in *. rewrite completions_app in *. lia. }
  split; auto.
  assert (X : exists w b, In (EvEnd w i b) t1).
  { revert C. clear. unfold completions. induction t1 as [|e t1 IH]; [discriminate|]. cbn. destruct e; cbn;
      try (intros H; destruct (IH H) as (w' & b' & Hin); eauto; fail).
    destruct (Nat.eqb_spec i i0) as [->|]; [eauto|]. intros H; destruct (IH H) as (w' & b' & Hin); eauto. }
  destruct X as (w & b & Hin). assert (b = stops i (sig Sig s)). { eapply O4. rewrite E. apply in_or_app. left. eauto. }
  destruct b; [|congruence]. exfalso. apply NF. exists w, i. exact Hin.
Qed.

(** A failing wait has a job to blame. *)
Theorem some_stopped s : frees_last client -> reachable n client x0 s -> forall rv, In (EvRet rv) (trace Sig s) ->
  rv = 0%Z \/ rv = (-1)%Z /\ exists i, i < m /\ J i (length (prog i)) (sig Sig s) /\ stops i (sig Sig s) = true.
Proof.
  intros FL R rv Hin. apply in_split in Hin. destruct Hin as (t1 & t2 & E).
  destruct (wait_failure_iff _ _ _ n client x0 s t1 rv t2 FL R E) as [[-> | ->] F]; auto. right. split; auto.
  destruct F as [F _]. destruct (F eq_refl) as (w & i & Hin).
  assert (Hin' : In (EvEnd w i true) (trace Sig s)) by (rewrite E; apply in_or_app; auto).
  assert (C1 : completions i (trace Sig s) = 1).
  { pose proof (completes_le_begins _ _ _ n client x0 s i R). pose proof (job_once _ _ _ n client x0 s i R).
    pose proof (end_completes _ _ _ _ Hin'). lia. }
  assert (Hi : i < m).
  { pose proof (completes_le_begins _ _ _ n client x0 s i R) as B. rewrite begins_sumf in B.
    destruct (inv_count_reach _ _ _ n client x0 s R i) as [C2 _].
    assert (In i (claims (trace Sig s))).
    { apply (count_occ_In Nat.eq_dec). rewrite <- claims_count. lia. }
    destruct (inv_queue_reach _ _ _ n client x0 s R) as (Q1 & [Q2 _] & _).
    rewrite Q1 in H. apply in_seq in H. destruct (queue_task s i R) as [_ Hm]; auto. lia. }
  destruct (own_reach s R) as [_ O]. destruct (O i Hi) as (_ & _ & O3 & O4). exists i. split; auto. split; auto.
  symmetry. eapply O4; eauto.
Qed.

End PoolOwn.

(** Without any job begun the shared state is untouched. *)
Section Untouched.
Variable Sig : Type.
Variable prog : nat -> list (Sig -> Sig).
Variable stops : nat -> Sig -> bool.

Lemma no_begin_untouched n os x s : reachable Sig prog stops n os x s -> any_begins (trace Sig s) = 0 -> sig Sig s = x.
Proof.
  intros R H.
  assert (I : any_begins (trace Sig s) = 0 -> sig Sig s = x /\ forall i acts, ~ running Sig s i acts).
  { clear H. unfold reachable in R. remember (init Sig n os x) as s0. induction R as [|a b c Hab IH Hs]; subst.
    - intros _. split; auto. intros i acts [w Hw]. cbn in Hw. apply nth_error_In in Hw. apply repeat_spec in Hw. discriminate.
    - destruct Hs as [H|[w H]].
      + destruct (mstep_frame Sig b c H) as (Es & _ & Er & _). intros Hc.
        assert (Hb : any_begins (trace Sig b) = 0).
        { destruct (step_trace Sig prog stops b c (or_introl H)) as [T|(e & T & _)]; rewrite T in Hc; auto.
          unfold any_begins in *. rewrite count_app in Hc. lia. }
        destruct (IH eq_refl Hb) as [I1 I2]. split; [congruence|]. intros i acts Hr. apply Er in Hr. eapply I2; eauto.
      + intros Hc.
        assert (Hb : any_begins (trace Sig b) = 0).
        { destruct (step_trace Sig prog stops b c (or_intror (ex_intro _ w H))) as [T|(e & T & _)]; rewrite T in Hc; auto.
          unfold any_begins in *. rewrite count_app in Hc. lia. }
        destruct (IH eq_refl Hb) as [I1 I2]. unfold wstep in H.
        destruct (nth_error (workers Sig b) w) as [[| | | |i|i|i [|a0 acts]| | |]|] eqn:P; try discriminate H.
        * injection H as <-. split; auto. intros i acts Hr. apply (I2 i acts). eapply running_upd; [| |exact Hr]; [cbn; reflexivity|]. destruct (err Sig b); discriminate.
        * destruct (lock Sig b); [discriminate|]. injection H as <-. split; auto. intros i acts Hr. apply (I2 i acts). eapply running_upd; [| |exact Hr]; [cbn; reflexivity|]. discriminate.
        * injection H as <-. split; auto. intros i acts Hr. apply (I2 i acts). eapply running_upd; [| |exact Hr]; [cbn; reflexivity|]. destruct (first_unstarted _); discriminate.
        * injection H as <-. split; auto. intros j acts Hr. apply (I2 j acts). eapply running_upd; [| |exact Hr]; [cbn; reflexivity|]. discriminate.
        * injection H as <-. cbn in Hc. unfold any_begins in Hc. rewrite count_app in Hc. cbn in Hc. lia.
        * exfalso. eapply I2. exists w. exact P.
        * exfalso. eapply I2. exists w. exact P.
        * injection H as <-. split; auto. intros j acts Hr. apply (I2 j acts). eapply running_upd; [| |exact Hr]; [cbn; reflexivity|]. discriminate.
        * injection H as <-. split; auto. intros j acts Hr. apply (I2 j acts). eapply running_upd; [| |exact Hr]; [cbn; reflexivity|]. discriminate. }
  apply I; auto.
Qed.
End Untouched.

(** Every execution can be completed, and a client that waits gets an answer. *)
Section Completes.
Variable Sig : Type.
Variable prog : nat -> list (Sig -> Sig).
Variable stops : nat -> Sig -> bool.

Lemma finishes n os x s : reachable Sig prog stops n os x s ->
  exists s', steps Sig prog stops s s' /\ finished Sig s'.
Proof.
  remember (measure Sig prog s) as k eqn:Ek. assert (L : measure Sig prog s <= k) by lia. clear Ek. revert s L.
  induction k as [|k IH]; intros s L R; destruct (progress _ _ _ n os x s R) as [F|[s' St]];
    try (exists s; split; [constructor|auto]; fail); pose proof (measure_step _ _ _ n os x s s' R St); [lia|].
  destruct (IH s') as (s2 & S2 & F2); [lia|econstructor; eauto|].
  exists s2. split; auto. eapply steps_trans; [|exact S2]. econstructor; [constructor|auto].
Qed.

Definition answered (s : st Sig) : Prop :=
  In OWait (ops Sig s) \/ (exists k, pc Sig s = MCreate k (AJoin true) \/ pc Sig s = MJoin k true) \/
  exists rv, In (EvRet rv) (trace Sig s).

Lemma answered_step s s' : answered s -> step Sig prog stops s s' -> answered s'.
Proof.
  intros A St.
  assert (T : (exists rv, In (EvRet rv) (trace Sig s)) -> exists rv, In (EvRet rv) (trace Sig s')).
  { intros [rv Hin]. exists rv. destruct (step_trace Sig prog stops s s' St) as [->|(e & -> & _)]; auto. apply in_or_app; auto. }
  destruct St as [H|[w H]].
  - destruct A as [A|[A|A]]; [| |right; right; auto].
    + unfold mstep, start_or in H. destruct (pc Sig s) eqn:P.
      * destruct (ops Sig s) as [|o os] eqn:O; [discriminate|]. destruct A as [->|A].
        -- right. left. destruct (started Sig s); injection H as <-; cbn; eauto.
        -- left. destruct o.
           ++ destruct (lock Sig s); [discriminate|]. injection H as <-. auto.
           ++ destruct (started Sig s); injection H as <-; auto.
           ++ destruct (started Sig s); injection H as <-; auto.
           ++ cbn in H. destruct (started Sig s); injection H as <-; auto.
      * left. destruct (Nat.ltb k _); injection H as <-; auto.
      * left. destruct (Nat.ltb k _); [|injection H as <-; auto].
        destruct (nth_error (handles Sig s) k) as [[|]|]; [destruct (nth_error (workers Sig s) k) as [[]|]|..]; try discriminate; injection H as <-; auto.
    + destruct A as [k A]. unfold mstep in H. destruct A as [A|A]; rewrite A in H.
      * right. left. destruct (Nat.ltb k _); injection H as <-; cbn; eauto.
      * destruct (Nat.ltb k _).
        -- right. left. destruct (nth_error (handles Sig s) k) as [[|]|]; [destruct (nth_error (workers Sig s) k) as [[]|]|..]; try discriminate; injection H as <-; cbn; eauto.
        -- right. right. injection H as <-. cbn. eexists. apply in_or_app. right. left. reflexivity.
  - destruct (wstep_shape _ _ _ w s s' H) as (p & p' & _ & _ & _ & _ & _ & _ & E1 & E2 & _).
    unfold answered. rewrite E1, E2. destruct A as [A|[A|A]]; [left|right; left|right; right]; auto.
Qed.

Lemma wait_answered n os x s : In OWait os -> reachable Sig prog stops n os x s -> finished Sig s ->
  exists rv, In (EvRet rv) (trace Sig s).
Proof.
  intros Hin R [F1 F2]. assert (A : answered s).
  { clear F1 F2. unfold reachable in R. remember (init Sig n os x) as s0. induction R as [|a b c Hab IH Hs]; subst.
    - left. exact Hin.
    - eapply answered_step; eauto. }
  destruct A as [A|[[k [A|A]]|A]]; auto; rewrite ?F2 in A; try congruence. destruct A.
Qed.
End Completes.
