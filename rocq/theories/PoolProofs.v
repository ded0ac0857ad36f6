From Coq Require Import ZArith Lia Bool List Setoid.
From Verif Require Import Pool PoolInv SpecPool.
Import ListNotations.

Lemma count_sumf (f : event -> bool) (g : event -> nat) tr : (forall e, g e = if f e then 1 else 0) -> count f tr = sumf g tr.
Proof.
  intros H. induction tr as [|e tr IH]; [reflexivity|].
  change (sumf g (e :: tr)) with (g e + sumf g tr). simpl. rewrite IH, H. reflexivity.
Qed.

Lemma begins_sumf i tr : begins i tr = sumf (is_begin i) tr.
Proof. apply count_sumf. intros []; simpl; auto. Qed.
Lemma completions_sumf i tr : completions i tr = sumf (is_end i) tr.
Proof. apply count_sumf. intros []; simpl; auto. Qed.
Lemma taken_claims tr : taken tr = claims tr.
Proof. induction tr as [|[] tr IH]; simpl; congruence. Qed.
Lemma queued_adds os : queued os = adds os.
Proof. induction os as [|[] os IH]; simpl; congruence. Qed.
Lemma some_failure_failed tr : some_failure tr <-> failed tr.
Proof.
  unfold some_failure, failed, fail_end. split.
  - intros (w & i & H). eauto.
  - intros (e & H & w & i & ->). eauto.
Qed.
Lemma count_app f a b : count f (a ++ b) = count f a + count f b.
Proof. induction a; simpl; auto. rewrite IHa. lia. Qed.

Section PoolProofs.
Variable Sig : Type.
Variable prog : nat -> list (Sig -> Sig).
Variable stops : nat -> Sig -> bool.
Notation st := (st Sig).
Notation wpc := (wpc Sig).
Notation wstep := (wstep Sig prog stops).
Notation mstep := (mstep Sig).
Notation step := (step Sig prog stops).
Notation steps := (steps Sig prog stops).
Notation reachable := (reachable Sig prog stops).
Implicit Types s : st.

Ltac wcases H w s :=
  unfold Pool.wstep in H;
  let P := fresh "P" in
  destruct (nth_error (workers Sig s) w) as [[| | | |i|i|i [|a acts]| | |]|] eqn:P; try discriminate H;
  [ | destruct (lock Sig s) as [lk|] eqn:HL; [discriminate H|] | | | | | | | ];
  injection H as <-.

Ltac mcases H s :=
  unfold Pool.mstep, start_or in H;
  let P := fresh "PC" in
  destruct (pc Sig s) as [|k a|k ret] eqn:P;
  [ destruct (ops Sig s) as [|[t| | |] os] eqn:HO; try discriminate H;
    [ destruct (lock Sig s) as [lk|] eqn:HL; [discriminate H|]; injection H as <-
    | destruct (started Sig s) eqn:HS; injection H as <-
    | destruct (started Sig s) eqn:HS; injection H as <-
    | cbn in H; destruct (started Sig s) eqn:HS; injection H as <- ]
  | destruct (Nat.ltb_spec k (length (workers Sig s))); injection H as <-
  | destruct (Nat.ltb_spec k (length (workers Sig s)));
    [ destruct (nth_error (handles Sig s) k) as [[|]|] eqn:HH;
      [ destruct (nth_error (workers Sig s) k) as [[| | | |i|i|i acts| | |]|] eqn:HW; try discriminate H; injection H as <-
      | injection H as <- | injection H as <- ]
    | injection H as <- ] ].

(** *** C08 *)

Lemma job_once n os x s i : reachable n os x s -> begins i (trace Sig s) <= 1.
Proof. intros R. rewrite begins_sumf. eapply begin_once; eauto. Qed.

Lemma jobs_in_order n os x s : reachable n os x s ->
  taken (trace Sig s) = seq 0 (length (taken (trace Sig s))).
Proof. intros R. rewrite taken_claims. now destruct (inv_queue_reach _ _ _ n os x s R). Qed.

Lemma completes_le_begins n os x s i : reachable n os x s ->
  completions i (trace Sig s) <= begins i (trace Sig s).
Proof. intros R. rewrite completions_sumf, begins_sumf. pose proof (inv_count_reach _ _ _ n os x s R i). lia. Qed.

(** Two workers never execute the same job at the same time. *)
Lemma job_exclusive n os x s w1 w2 i a1 a2 : reachable n os x s ->
  nth_error (workers Sig s) w1 = Some (WRun Sig i a1) -> nth_error (workers Sig s) w2 = Some (WRun Sig i a2) -> w1 = w2.
Proof.
  intros R H1 H2. pose proof (inv_count_reach _ _ _ n os x s R i) as [_ C].
  pose proof (begin_once _ _ _ n os x s i R) as B.
  destruct (Nat.eq_dec w1 w2) as [|N]; auto. exfalso.
  pose proof (sumf_upd (at_run Sig i) (workers Sig s) w1 (WExit Sig) _ H1) as U1.
  assert (H2' : nth_error (upd (workers Sig s) w1 (WExit Sig)) w2 = Some (WRun Sig i a2)) by (rewrite nth_upd_diff; auto).
  pose proof (sumf_upd (at_run Sig i) _ w2 (WExit Sig) _ H2') as U2.
  cbn in U1, U2. rewrite Nat.eqb_refl in *. lia.
Qed.

(** *** Returning from pool_wait *)

Lemma step_trace s s' : step s s' ->
  trace Sig s' = trace Sig s \/
  exists e, trace Sig s' = trace Sig s ++ [e] /\
    forall rv, e = EvRet rv -> rv = (if err Sig s then -1 else 0)%Z /\ exists k, pc Sig s = MJoin k true /\ length (workers Sig s) <= k.
Proof.
  intros [H|[w H]].
  - mcases H s; cbn; rewrite ?app_nil_r; auto.
    destruct ret; cbn; rewrite ?app_nil_r; auto. right. eexists; split; [reflexivity|].
    intros rv E. injection E as <-. split; auto. exists k. auto.
  - wcases H w s; cbn; rewrite ?app_nil_r; auto; right; eexists; (split; [reflexivity|]); intros rv E; discriminate.
Qed.

Lemma app_one_inv {A} (a b : list A) e f c : a ++ [e] = b ++ f :: c -> 
  (c = [] /\ a = b /\ e = f) \/ exists c', c = c' ++ [e] /\ a = b ++ f :: c'.
Proof.
  intros E. destruct c as [|y c _] using rev_ind.
  - apply app_inj_tail in E. left. tauto.
  - right. change (b ++ f :: c ++ [y]) with (b ++ (f :: c) ++ [y]) in E. rewrite app_assoc in E. apply app_inj_tail in E.
    destruct E as [-> ->]. exists c. auto.
Qed.

Lemma trace_at n os x s tr1 e tr2 :
  reachable n os x s -> trace Sig s = tr1 ++ e :: tr2 ->
  exists s1 s2, reachable n os x s1 /\ step s1 s2 /\ steps s2 s /\ trace Sig s1 = tr1 /\ trace Sig s2 = tr1 ++ [e].
Proof.
  intros R. unfold Pool.reachable in *. remember (init Sig n os x) as s0. revert tr2.
  induction R as [|a b c Hab IH Hs]; intros tr2 E; subst.
  - cbn in E. destruct tr1; discriminate.
  - destruct (step_trace b c Hs) as [T|(e' & T & _)].
    + rewrite T in E. destruct (IH eq_refl tr2 E) as (s1 & s2 & R1 & S1 & S2 & T1 & T2).
      exists s1, s2. repeat split; auto. eapply steps_snoc; eauto.
    + rewrite T in E. apply app_one_inv in E. destruct E as [(-> & E & ->)|(c' & -> & E)].
      * exists b, c. repeat split; auto. constructor. congruence.
      * destruct (IH eq_refl c' E) as (s1 & s2 & R1 & S1 & S2 & T1 & T2).
        exists s1, s2. repeat split; auto. eapply steps_snoc; eauto.
Qed.

Lemma trace_ret n os x s tr1 rv tr2 :
  reachable n os x s -> trace Sig s = tr1 ++ EvRet rv :: tr2 ->
  exists s1 k, reachable n os x s1 /\ trace Sig s1 = tr1 /\ pc Sig s1 = MJoin k true /\ length (workers Sig s1) <= k
    /\ rv = (if err Sig s1 then -1 else 0)%Z.
Proof.
  intros R E. destruct (trace_at n os x s tr1 _ tr2 R E) as (s1 & s2 & R1 & S1 & _ & T1 & T2).
  destruct (step_trace s1 s2 S1) as [T|(e & T & He)].
  - rewrite T2, T1 in T. apply (f_equal (@length _)) in T. rewrite app_length in T. simpl in T. lia.
  - rewrite T2, T1 in T. apply app_inv_head in T. injection T as <-.
    destruct (He rv eq_refl) as (-> & k & Hpc & Hk). exists s1, k. auto.
Qed.

Lemma joined_all_exit n os x s k r : reachable n os x s -> pc Sig s = MJoin k r -> length (workers Sig s) <= k ->
  forall w p, nth_error (workers Sig s) w = Some p -> p = WExit Sig.
Proof.
  intros R Hpc Hk w p Hp. destruct (inv_thr_reach _ _ _ n os x s R) as (_ & _ & T). rewrite Hpc in T.
  destruct T as (_ & _ & T). apply (T w p Hp). assert (w < length (workers Sig s)) by (apply nth_error_Some; congruence). lia.
Qed.

Lemma joined_sum_zero (f : wpc -> nat) s :
  f (WExit Sig) = 0 -> (forall w p, nth_error (workers Sig s) w = Some p -> p = WExit Sig) -> sumf f (workers Sig s) = 0.
Proof. intros H0 H. apply sumf_zero. intros p Hp. apply In_nth_error in Hp. destruct Hp as [w Hw]. now rewrite (H w p Hw). Qed.

(** When waiting returns (with any result), nothing is still being executed. *)
Lemma wait_quiescent n os x s tr1 rv tr2 i :
  reachable n os x s -> trace Sig s = tr1 ++ EvRet rv :: tr2 -> completions i tr1 = begins i tr1.
Proof.
  intros R E. destruct (trace_ret n os x s tr1 rv tr2 R E) as (s1 & k & R1 & <- & Hpc & Hk & _).
  pose proof (joined_all_exit n os x s1 k true R1 Hpc Hk) as Ex.
  pose proof (inv_count_reach _ _ _ n os x s1 R1 i) as [_ C].
  rewrite completions_sumf, begins_sumf. rewrite (joined_sum_zero (at_run Sig i) s1 eq_refl Ex) in C. lia.
Qed.

Lemma no_add_adds os : no_add os -> adds os = [].
Proof.
  induction os as [|[t| | |] os IH]; simpl; intros H; auto.
  - exfalso. apply (H t). simpl; auto.
  - apply IH. eapply no_add_tail; eauto.
  - apply IH. eapply no_add_tail; eauto.
  - apply IH. eapply no_add_tail; eauto.
Qed.

(** *** C09 *)
Lemma wait_success n os x s tr1 tr2 :
  1 <= n -> queues_first os -> reachable n os x s -> trace Sig s = tr1 ++ EvRet 0 :: tr2 ->
  ~ some_failure tr1 /\
  forall i, i < length (queued os) -> begins i tr1 = 1 /\ completions i tr1 = 1.
Proof.
  intros Hn Q R E. destruct (trace_ret n os x s tr1 0%Z tr2 R E) as (s1 & k & R1 & <- & Hpc & Hk & Hrv).
  pose proof (joined_all_exit n os x s1 k true R1 Hpc Hk) as Ex.
  assert (Herr : err Sig s1 = false) by (destruct (err Sig s1); [discriminate|reflexivity]).
  split.
  - rewrite some_failure_failed. intros F. destruct (inv_err_reach _ _ _ n os x s1 R1) as (I & _).
    destruct (I F) as [A|[w Hw]]; [congruence|]. apply Ex in Hw. discriminate.
  - intros i Hi. rewrite queued_adds in Hi. rewrite begins_sumf, completions_sumf.
    destruct (inv_exit_reach _ _ _ n os x s1 Q R1) as (X1 & _ & X3).
    assert (Hl : length (workers Sig s1) = n) by (eapply workers_length; eauto).
    destruct (nth_lt (workers Sig s1) 0 ltac:(lia)) as [p Hp]. pose proof (Ex _ _ Hp) as ->.
    destruct (X3 0 _ Hp eq_refl) as [A|A]; [congruence|].
    destruct (inv_queue_reach _ _ _ n os x s1 R1) as (Qc & Qp & _).
    rewrite (first_unstarted_prefix _ _ Qp) in A.
    destruct (Nat.ltb_spec (length (claims (trace Sig s1))) (length (queue Sig s1))); [discriminate|].
    pose proof (inv_tasks_reach _ _ _ n os x s1 R1) as T. unfold inv_tasks in T.
    rewrite (no_add_adds (ops Sig s1)), app_nil_r in T by (apply X1; right; congruence).
    assert (Hlen : length (queue Sig s1) = length (adds os)) by (rewrite <- T, map_length; auto).
    assert (C1 : sumf (is_claim i) (trace Sig s1) = 1).
    { rewrite claims_count, Qc. apply NoDup_count_occ'; [apply seq_NoDup|]. apply in_seq. destruct Qp. lia. }
    pose proof (inv_count_reach _ _ _ n os x s1 R1 i) as [C2 C3].
    rewrite (joined_sum_zero (at_unlock Sig i) s1 eq_refl Ex) in C2.
    rewrite (joined_sum_zero (at_run Sig i) s1 eq_refl Ex) in C3. lia.
Qed.

(** *** C10 *)

Definition inv_client (os0 : list op) s : Prop :=
  (exists pre, os0 = pre ++ ops Sig s) /\
  match pc Sig s with
  | MCreate _ (AJoin true) | MJoin _ true => exists pre, os0 = pre ++ OWait :: ops Sig s
  | _ => True
  end.

Lemma inv_client_step os0 s s' : inv_client os0 s -> step s s' -> inv_client os0 s'.
Proof.
  intros [[pre0 E0] I] [H|[w H]]; unfold inv_client in *.
  - mcases H s; cbn in *;
      try (split; [first [exists pre0; exact E0 | eexists (pre0 ++ [_]); rewrite <- app_assoc; exact E0]|]; eauto; fail).
    + split; eauto. destruct a as [|[|]]; auto.
  - destruct (wstep_shape _ _ _ w s s' H) as (p & p' & _ & _ & _ & _ & _ & _ & -> & -> & _). split; eauto.
Qed.

Lemma inv_client_reach n os0 x s : reachable n os0 x s -> inv_client os0 s.
Proof.
  intros R. unfold Pool.reachable in *. remember (init Sig n os0 x) as s0. induction R as [|a b c Hab IH Hs]; subst.
  - split; cbn; auto. exists []; auto.
  - eapply inv_client_step; eauto.
Qed.

Lemma frees_last_split os pre post : frees_last os -> os = pre ++ post -> post <> [] -> ~ In OFree pre.
Proof.
  intros [H|(os' & E & H)] Eo Hne Hin.
  - apply H. rewrite Eo. apply in_or_app; auto.
  - apply H. rewrite E in Eo. destruct post as [|y post _] using rev_ind; [congruence|].
    rewrite app_assoc in Eo. apply app_inj_tail in Eo. destruct Eo as [-> _]. apply in_or_app; auto.
Qed.

Lemma wait_failure_iff n os x s tr1 rv tr2 :
  frees_last os -> reachable n os x s -> trace Sig s = tr1 ++ EvRet rv :: tr2 ->
  (rv = 0 \/ rv = -1)%Z /\ (rv = (-1)%Z <-> some_failure tr1).
Proof.
  intros FL R E. destruct (trace_ret n os x s tr1 rv tr2 R E) as (s1 & k & R1 & <- & Hpc & Hk & ->).
  pose proof (joined_all_exit n os x s1 k true R1 Hpc Hk) as Ex.
  destruct (inv_err_reach _ _ _ n os x s1 R1) as (I1 & I2 & _).
  split; [destruct (err Sig s1); auto|]. rewrite some_failure_failed. split.
  - intros Hrv. destruct (err Sig s1) eqn:Er; [|discriminate].
    destruct (I2 eq_refl) as [F|(pre & Ep & Hin)]; auto. exfalso.
    destruct (inv_client_reach n os x s1 R1) as [_ C]. rewrite Hpc in C. destruct C as [pre' Ep'].
    assert (pre = pre' ++ [OWait]).
    { apply (app_inv_tail (ops Sig s1)). rewrite <- Ep, <- app_assoc. exact Ep'. }
    subst pre. apply in_app_or in Hin. destruct Hin as [Hin|[Hin|[]]]; [|discriminate].
    eapply (frees_last_split os pre' (OWait :: ops Sig s1)); eauto. discriminate.
  - intros F. destruct (I1 F) as [->|[w Hw]]; auto. apply Ex in Hw. discriminate.
Qed.

(** *** C11 *)

Definition pending (p : wpc) : nat :=
  match p with WLock _ | WScan _ | WMark _ _ | WUnlock _ _ => 1 | _ => 0 end.

Lemma err_stays s s' : step s s' -> err Sig s = true -> err Sig s' = true.
Proof.
  intros [H|[w H]] E.
  - mcases H s; cbn; auto.
  - wcases H w s; cbn; auto.
Qed.

Lemma pending_step s s' : inv_thr Sig s -> step s s' -> err Sig s = true ->
  any_begins (trace Sig s') + sumf pending (workers Sig s') <= any_begins (trace Sig s) + sumf pending (workers Sig s).
Proof.
  intros T [H|[w H]] E; unfold any_begins.
  - mcases H s; cbn; rewrite ?app_nil_r; auto.
    + destruct T as (_ & _ & T). rewrite PC in T. destruct T as (_ & T & _).
      destruct (nth_lt (workers Sig s) k ltac:(lia)) as [q Hq]. pose proof (T k q Hq (le_n _)) as ->.
      pose proof (sumf_upd pending _ k (WCheck Sig) _ Hq). cbn in *. lia.
    + rewrite count_app. destruct ret; cbn; lia.
  - wcases H w s; cbn; rewrite ?app_nil_r, ?count_app; cbn;
    match goal with |- context [upd _ _ ?q] => pose proof (sumf_upd pending _ w q _ P) as U end;
    rewrite ?E in *; try (destruct (first_unstarted (queue Sig s))); try (destruct (stops _ _)); cbn in *; lia.
Qed.

Lemma pending_steps n os x s s' : reachable n os x s -> err Sig s = true -> steps s s' ->
  any_begins (trace Sig s') + sumf pending (workers Sig s') <= any_begins (trace Sig s) + sumf pending (workers Sig s)
  /\ err Sig s' = true /\ reachable n os x s'.
Proof.
  intros R E S. induction S as [s|s s1 s2 S IH St]; auto.
  destruct (IH R E) as (L & E1 & R1). split; [|split].
  - pose proof (pending_step s1 s2 (inv_thr_reach _ _ _ n os x s1 R1) St E1). lia.
  - eapply err_stays; eauto.
  - eapply steps_snoc; eauto.
Qed.

Lemma after_failure n os0 x s tr1 w tr2 :
  reachable n os0 x s -> trace Sig s = tr1 ++ EvErr w :: tr2 -> any_begins tr2 <= n - 1.
Proof.
  intros R E. destruct (trace_at n os0 x s tr1 _ tr2 R E) as (s1 & s2 & R1 & S1 & S2 & T1 & T2).
  assert (X : err Sig s2 = true /\ nth_error (workers Sig s2) w = Some (WCheck Sig)).
  { assert (NT : trace Sig s2 = trace Sig s1 ++ [EvErr w]) by congruence.
    assert (Inj : forall e, trace Sig s1 ++ [e] = trace Sig s1 ++ [EvErr w] -> e = EvErr w).
    { intros e He. apply app_inv_head in He. congruence. }
    assert (Nil : trace Sig s1 <> trace Sig s1 ++ [EvErr w]).
    { intros He. apply (f_equal (@length _)) in He. rewrite app_length in He. simpl in He. lia. }
    destruct S1 as [H|[v H]].
    - exfalso. mcases H s1; cbn in NT; rewrite ?app_nil_r in NT; try contradiction.
      destruct ret; rewrite ?app_nil_r in NT; try contradiction. apply Inj in NT. discriminate.
    - wcases H v s1; cbn in NT; rewrite ?app_nil_r in NT; try contradiction; apply Inj in NT; try discriminate.
      injection NT as ->. cbn. split; auto. eapply nth_upd_same; eauto. }
  destruct X as [Er Hw].
  assert (R2 : reachable n os0 x s2) by (eapply steps_snoc; eauto).
  destruct (pending_steps n os0 x s2 s R2 Er S2) as (L & _ & _).
  assert (P2 : sumf pending (workers Sig s2) <= n - 1).
  { pose proof (workers_length _ _ _ n os0 x s2 R2) as Hl.
    pose proof (sumf_upd (fun _ : wpc => 1) (workers Sig s2) w (WExit Sig) _ Hw) as _.
    pose proof (sumf_upd (fun p => pending p) (workers Sig s2) w (WLock Sig) _ Hw) as U. cbn in U.
    assert (sumf (fun p => pending p) (upd (workers Sig s2) w (WLock Sig)) <= n).
    { rewrite <- Hl, <- (upd_length (workers Sig s2) w (WLock Sig)). apply sumf_le_length. intros []; simpl; lia. }
    change (sumf (fun p => pending p)) with (sumf pending) in *. lia. }
  unfold any_begins in *. rewrite E, T2 in L. 
  change (tr1 ++ EvErr w :: tr2) with (tr1 ++ [EvErr w] ++ tr2) in L.
  rewrite !count_app in L. cbn [count] in L. lia.
Qed.

(** *** C12: progress *)

Lemma holder_moves s w p : inv_lock Sig s -> nth_error (workers Sig s) w = Some p -> holds Sig p = true ->
  exists s', wstep w s = Some s'.
Proof.
  intros _ Hp Hh. unfold Pool.wstep. rewrite Hp. destruct p; try discriminate; eauto.
Qed.

Lemma worker_moves n os x s w p : reachable n os x s -> nth_error (workers Sig s) w = Some p ->
  p <> WNone Sig -> p <> WExit Sig -> exists s', step s s'.
Proof.
  intros R Hp Hn Hx.
  destruct (inv_lock_reach _ _ _ n os x s R) as [IL IB].
  assert (M : (exists s', wstep w s = Some s') \/ p = WLock Sig /\ exists v, lock Sig s = Some v).
  { unfold Pool.wstep. rewrite Hp. destruct p; try congruence; eauto.
    - destruct (lock Sig s); eauto.
    - destruct acts; eauto. }
  destruct M as [[s' H]|[-> [v Hv]]].
  - exists s'. right. eauto.
  - destruct (nth_lt (workers Sig s) v (IB v Hv)) as [q Hq].
    pose proof (proj2 (IL v q Hq) Hv) as Hh.
    destruct (holder_moves s v q (conj IL IB) Hq Hh) as [s' Hs]. exists s'. right. eauto.
Qed.

Lemma progress n os x s : reachable n os x s ->
  finished Sig s \/ exists s', step s s'.
Proof.
  intros R. destruct (inv_thr_reach _ _ _ n os x s R) as (T1 & T2 & T3).
  destruct (inv_lock_reach _ _ _ n os x s R) as [IL IB].
  unfold finished. destruct (mstep s) as [s'|] eqn:M.
  { right. exists s'. left. exact M. }
  unfold Pool.mstep, start_or in M. destruct (pc Sig s) as [|k a|k r] eqn:Hpc.
  - destruct (ops Sig s) as [|[t| | |] os'] eqn:Ho; auto; try (destruct (started Sig s); discriminate).
    + destruct (lock Sig s) as [v|] eqn:Hl; [|discriminate]. right.
      destruct (nth_lt (workers Sig s) v (IB v eq_refl)) as [q Hq].
      pose proof (proj2 (IL v q Hq) eq_refl) as Hh.
      destruct (holder_moves s v q (inv_lock_reach _ _ _ n os x s R) Hq Hh) as [s' Hs]. exists s'. right. eauto.
  - destruct (Nat.ltb k _); discriminate.
  - destruct (Nat.ltb_spec k (length (workers Sig s))); [|discriminate].
    destruct T3 as (_ & A & _).
    destruct (nth_lt (workers Sig s) k H) as [p Hp]. rewrite Hp in M.
    destruct (nth_error (handles Sig s) k) as [[|]|]; try discriminate.
    right. eapply worker_moves; eauto. intros ->. discriminate.
Qed.

(** *** C12: termination *)

Definition tcost (t : nat) : nat := length (prog t) + 8.

Definition wcost (q : list (nat * bool)) (p : wpc) : nat :=
  match p with
  | WNone _ => 6
  | WCheck _ => 5
  | WLock _ => 4
  | WScan _ => 3
  | WMark _ _ => 2
  | WUnlock _ i => length (prog (fst (nth i q (0, false)))) + 8
  | WRun _ _ acts => length acts + 7
  | WSetErr _ => 6
  | WUnlockExit _ => 1
  | WExit _ => 0
  end.

Definition qcost (e : nat * bool) : nat := if snd e then 0 else tcost (fst e).

Definition ocost (n : nat) (o : op) : nat := match o with OAdd t => tcost t + 1 | _ => 2 * n + 10 end.

Definition pcost (n : nat) (p : mpc) : nat :=
  match p with
  | MIdle => 0
  | MCreate k a => (n - k) + 2 + match a with AIdle => 0 | AJoin _ => n + 2 end
  | MJoin k _ => (n - k) + 1
  end.

Definition measure s : nat :=
  sumf (wcost (queue Sig s)) (workers Sig s) + sumf qcost (queue Sig s)
  + sumf (ocost (length (workers Sig s))) (ops Sig s) + pcost (length (workers Sig s)) (pc Sig s).

Lemma sumf_ext {A} (f g : A -> nat) l : (forall a, In a l -> f a = g a) -> sumf f l = sumf g l.
Proof. unfold sumf. intros H. f_equal. apply map_ext_in. exact H. Qed.

Lemma nth_fst_upd q i t b j : nth_error q i = Some (t, b) ->
  fst (nth j (upd q i (t, true)) (0, false)) = fst (nth j q (0, false)).
Proof.
  revert i j. induction q as [|[t' b'] q IH]; intros [|i] [|j] H; simpl in *; try discriminate; auto.
  injection H as -> ->. reflexivity.
Qed.

Lemma wcost_mark q i p : wcost (mark q i) p = wcost q p.
Proof.
  destruct p; simpl; auto. unfold mark. destruct (nth_error q i) as [[t b]|] eqn:E; auto. now rewrite (nth_fst_upd q i t b).
Qed.

Lemma wcost_snoc q e p : (match p with WUnlock _ i => i < length q | _ => True end) -> wcost (q ++ [e]) p = wcost q p.
Proof. destruct p; simpl; auto. intros H. rewrite app_nth1; auto. Qed.

Lemma qcost_mark q c : prefix_started c q -> c < length q ->
  sumf qcost (mark q c) + tcost (fst (nth c q (0, false))) = sumf qcost q.
Proof.
  intros [L H] Hc. unfold mark. destruct (nth_lt q c Hc) as [[t b] Hq]. rewrite Hq.
  assert (b = false) as -> by (rewrite (H c t b Hq); apply Nat.ltb_irrefl).
  pose proof (sumf_upd qcost q c (t, true) _ Hq) as U.
  rewrite (nth_error_nth q c (0, false) Hq). cbn in *. lia.
Qed.

(** Claimed entries exist in the queue. *)
Definition inv_idx s : Prop := forall w i, nth_error (workers Sig s) w = Some (WUnlock Sig i) -> i < length (queue Sig s).

Lemma inv_idx_step s s' : inv_queue Sig s -> inv_idx s -> step s s' -> inv_idx s'.
Proof.
  intros (_ & _ & Q) I [H|[w H]]; unfold inv_idx in *.
  - mcases H s; cbn; try exact I.
    + intros w i Hw. rewrite app_length. specialize (I w i Hw). lia.
    + intros w i Hw. apply nth_upd_inv in Hw. destruct Hw as [(-> & E & _)|[Hne Hw]]; [discriminate|]. eauto.
  - wcases H w s; cbn; intros j i' Hj; apply nth_upd_inv in Hj; 
      destruct Hj as [(-> & E & _)|[Hne Hj]]; try discriminate; try (eapply I; eauto; fail).
    + destruct (err Sig s); discriminate.
    + destruct (first_unstarted _); discriminate.
    + injection E as ->. rewrite mark_length. now destruct (Q _ _ P).
    + rewrite mark_length. eauto.
    + destruct (stops _ _); discriminate.
Qed.

Lemma inv_idx_reach n os x s : reachable n os x s -> inv_idx s.
Proof.
  intros R. unfold Pool.reachable in *. remember (init Sig n os x) as s0. induction R as [|a b c Hab IH Hs]; subst.
  - intros w i H. cbn in H. apply nth_error_In in H. apply repeat_spec in H. discriminate.
  - eapply inv_idx_step; eauto. eapply inv_queue_reach; exact Hab.
Qed.

Lemma measure_step n os0 x s s' : reachable n os0 x s -> step s s' -> measure s' < measure s.
Proof.
  intros R St. pose proof (inv_thr_reach _ _ _ n os0 x s R) as T.
  pose proof (inv_queue_reach _ _ _ n os0 x s R) as (Q1 & Q2 & Q3).
  pose proof (inv_idx_reach n os0 x s R) as ID.
  unfold measure. destruct St as [H|[w H]].
  - mcases H s; cbn.
    + rewrite !sumf_app. rewrite (sumf_ext (wcost (queue Sig s ++ [(t, false)])) (wcost (queue Sig s))).
      * change (sumf (ocost (length (workers Sig s))) (OAdd t :: os)) with (ocost (length (workers Sig s)) (OAdd t) + sumf (ocost (length (workers Sig s))) os).
        rewrite sumf_1. cbn. lia.
      * intros p Hp. apply wcost_snoc. destruct p; auto. apply In_nth_error in Hp. destruct Hp as [v Hv]. eapply ID; eauto.
    + change (sumf (ocost (length (workers Sig s))) (OStart :: os)) with (ocost (length (workers Sig s)) OStart + sumf (ocost (length (workers Sig s))) os). cbn. lia.
    + change (sumf (ocost (length (workers Sig s))) (OStart :: os)) with (ocost (length (workers Sig s)) OStart + sumf (ocost (length (workers Sig s))) os). cbn. lia.
    + change (sumf (ocost (length (workers Sig s))) (OWait :: os)) with (ocost (length (workers Sig s)) OWait + sumf (ocost (length (workers Sig s))) os). cbn. lia.
    + change (sumf (ocost (length (workers Sig s))) (OWait :: os)) with (ocost (length (workers Sig s)) OWait + sumf (ocost (length (workers Sig s))) os). cbn. lia.
    + change (sumf (ocost (length (workers Sig s))) (OFree :: os)) with (ocost (length (workers Sig s)) OFree + sumf (ocost (length (workers Sig s))) os). cbn. lia.
    + change (sumf (ocost (length (workers Sig s))) (OFree :: os)) with (ocost (length (workers Sig s)) OFree + sumf (ocost (length (workers Sig s))) os). cbn. lia.
    + rewrite upd_length. destruct T as (_ & _ & T). rewrite PC in T. destruct T as (_ & T & _).
      destruct (nth_lt (workers Sig s) k ltac:(lia)) as [q Hq]. pose proof (T k q Hq (le_n _)) as ->.
      pose proof (sumf_upd (wcost (queue Sig s)) _ k (WCheck Sig) _ Hq) as U. cbn in U. lia.
    + destruct a; cbn; lia.
    + lia.
    + lia.
    + destruct T as (T & _). apply nth_error_None in HH. lia.
    + lia.
  - wcases H w s; cbn; rewrite ?upd_length;
    try (match goal with |- context [upd _ _ ?q] => pose proof (sumf_upd (wcost (queue Sig s)) _ w q _ P) as U end;
         try (destruct (err Sig s)); try (destruct (first_unstarted (queue Sig s))); try (destruct (stops _ _));
         unfold task_of in *; cbn in *; lia).
    destruct (Q3 w i P) as [-> Hi].
    rewrite (sumf_ext (wcost (mark (queue Sig s) (length (claims (trace Sig s))))) (wcost (queue Sig s))) by (intros; apply wcost_mark).
    pose proof (qcost_mark _ _ Q2 Hi) as QM.
    match goal with |- context [upd _ _ ?q] => pose proof (sumf_upd (wcost (queue Sig s)) _ w q _ P) as U end.
    unfold tcost in *. cbn in *. lia.
Qed.

Notation nsteps := (execution Sig prog stops).

Lemma nsteps_steps m s s' : nsteps m s s' -> steps s s'.
Proof. induction 1; [constructor|econstructor; eauto]. Qed.

Lemma nsteps_bound n os x m s : nsteps m (init Sig n os x) s -> m + measure s <= measure (init Sig n os x).
Proof.
  intros H. remember (init Sig n os x) as s0. induction H as [|m s s' s'' H IH St]; subst; auto.
  specialize (IH eq_refl). pose proof (measure_step n os x s' s'' (nsteps_steps _ _ _ H) St). lia.
Qed.

(** *** C22, the pool part: freeing without waiting executes nothing *)

Definition inv_abort s : Prop :=
  any_begins (trace Sig s) = 0 /\
  (forall w p, nth_error (workers Sig s) w = Some p -> p = WNone Sig \/ (err Sig s = true /\ (p = WCheck Sig \/ p = WExit Sig))) /\
  ((exists ts, ops Sig s = map OAdd ts ++ [OFree]) /\ pc Sig s = MIdle /\ (forall w p, nth_error (workers Sig s) w = Some p -> p = WNone Sig) /\ started Sig s = false
   \/ err Sig s = true).

Lemma inv_abort_step s s' : inv_abort s -> step s s' -> inv_abort s'.
Proof.
  intros (I1 & I2 & I3) [H|[w H]]; unfold inv_abort, any_begins in *.
  - destruct I3 as [([ts Eo] & Ep & Hw & Hs)|Er].
    + unfold Pool.mstep in H. rewrite Ep, Eo in H. destruct ts as [|t ts]; simpl in H.
      * injection H as <-. unfold start_or. cbn. rewrite Hs. cbn. rewrite app_nil_r. split; [auto|]. split; [|auto].
        intros w p Hp. left. eauto.
      * destruct (lock Sig s); [discriminate|]. injection H as <-. cbn. rewrite app_nil_r. split; [auto|]. split; auto.
        left. split; eauto.
    + mcases H s; cbn; rewrite ?app_nil_r; repeat split; auto.
      * rewrite Er in I2. exact I2.
      * rewrite Er in I2. exact I2.
      * intros w p Hp. apply nth_upd_inv in Hp. destruct Hp as [(-> & -> & _)|[Hne Hp]]; eauto.
      * rewrite count_app, I1. destruct ret; reflexivity.
  - assert (A : exists p, nth_error (workers Sig s) w = Some p /\ p = WCheck Sig /\ err Sig s = true).
    { destruct (wstep_shape _ _ _ w s s' H) as (p & p' & Hp & Hn & Hx & _). exists p. split; auto.
      destruct (I2 w p Hp) as [->|[E [->| ->]]]; try congruence. auto. }
    destruct A as (p & Hp & -> & Er). unfold Pool.wstep in H. rewrite Hp, Er in H. injection H as <-. cbn.
    rewrite app_nil_r. split; [auto|]. split; [|auto].
    intros j q Hj. apply nth_upd_inv in Hj. destruct Hj as [(-> & -> & _)|[Hne Hj]]; eauto.
Qed.

Lemma abort_runs_nothing n ts x s :
  reachable n (map OAdd ts ++ [OFree]) x s -> any_begins (trace Sig s) = 0.
Proof.
  intros R. cut (inv_abort s); [intros I; apply I|].
  unfold Pool.reachable in *. remember (init Sig n (map OAdd ts ++ [OFree]) x) as s0. induction R as [|a b c Hab IH Hs]; subst.
  - unfold inv_abort, any_begins. cbn. assert (N : forall w p, nth_error (repeat (WNone Sig) n) w = Some p -> p = WNone Sig).
    { intros w p H. apply nth_error_In in H. now apply repeat_spec in H. }
    split; auto. split; eauto. left. repeat split; eauto.
  - eapply inv_abort_step; eauto.
Qed.

Lemma steps_trans a b c : steps a b -> steps b c -> steps a c.
Proof. intros H1 H2. revert H1. induction H2 as [|b c d H IH S]; intros H1; auto. apply steps_snoc with c; auto. Qed.

Lemma run_schedule_steps sched : forall s s', run_schedule Sig prog stops sched s = Some s' -> steps s s'.
Proof.
  induction sched as [|c sched IH]; intros s s' H; simpl in H.
  - injection H as <-. constructor.
  - destruct c as [w|].
    + destruct (wstep w s) as [s1|] eqn:E; [|discriminate]. apply steps_trans with s1; auto.
      econstructor; [constructor|]. right. eauto.
    + destruct (mstep s) as [s1|] eqn:E; [|discriminate]. apply steps_trans with s1; auto.
      econstructor; [constructor|]. left. auto.
Qed.

End PoolProofs.
