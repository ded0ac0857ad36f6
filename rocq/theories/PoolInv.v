(** Invariants of the pool semantics. *)
From Coq Require Import ZArith Lia Bool List Setoid Morphisms.
From Verif Require Import Pool.
Import ListNotations.

(** ** Lists *)

Lemma upd_length {A} (l : list A) : forall k x, length (upd l k x) = length l.
Proof. induction l; intros [|k] x; simpl; auto. Qed.

Lemma nth_upd_same {A} (l : list A) : forall k x y, nth_error l k = Some y -> nth_error (upd l k x) k = Some x.
Proof. induction l; intros [|k] x y H; simpl in *; try discriminate; eauto. Qed.

Lemma nth_upd_diff {A} (l : list A) : forall k j x, j <> k -> nth_error (upd l k x) j = nth_error l j.
Proof. induction l; intros [|k] [|j] x H; simpl; auto; try congruence. Qed.

Lemma nth_upd_inv {A} (l : list A) k x j y :
  nth_error (upd l k x) j = Some y -> (j = k /\ y = x /\ k < length l) \/ (j <> k /\ nth_error l j = Some y).
Proof.
  intros H. destruct (Nat.eq_dec j k) as [->|N].
  - left. assert (L : k < length l). { apply nth_error_Some_bound_index in H || (rewrite <- (upd_length l k x); apply nth_error_Some; congruence). }
    destruct (nth_error l k) as [z|] eqn:E.
    + rewrite (nth_upd_same l k x z E) in H. injection H; auto.
    + apply nth_error_None in E. lia.
  - right. rewrite nth_upd_diff in H; auto.
Qed.

Definition sumf {A} (f : A -> nat) (l : list A) : nat := list_sum (map f l).
Arguments sumf : simpl never.

Lemma sumf_upd {A} (f : A -> nat) (l : list A) : forall k x y,
  nth_error l k = Some y -> sumf f (upd l k x) + f y = sumf f l + f x.
Proof.
  unfold sumf. induction l as [|z l IH]; intros [|k] x y H; simpl in *; try discriminate.
  - injection H as ->. lia.
  - specialize (IH k x y H). lia.
Qed.

Lemma sumf_app {A} (f : A -> nat) (l1 l2 : list A) : sumf f (l1 ++ l2) = sumf f l1 + sumf f l2.
Proof. unfold sumf. rewrite map_app, list_sum_app. auto. Qed.

Lemma sumf_zero {A} (f : A -> nat) (l : list A) : (forall x, In x l -> f x = 0) -> sumf f l = 0.
Proof. unfold sumf. induction l; simpl; intros H; auto. rewrite H by auto. rewrite IHl; auto. Qed.

Lemma sumf_ge {A} (f : A -> nat) (l : list A) x : In x l -> f x <= sumf f l.
Proof. unfold sumf. induction l; simpl; intros []; [subst; lia|]. specialize (IHl H). lia. Qed.

Lemma sumf_le_length {A} (f : A -> nat) (l : list A) : (forall x, f x <= 1) -> sumf f l <= length l.
Proof. unfold sumf. intros H. induction l; simpl; auto. specialize (H a). lia. Qed.

Section PoolInv.
Variable Sig : Type.
Variable prog : nat -> list (Sig -> Sig).
Variable stops : nat -> Sig -> bool.
Notation st := (st Sig).
Notation wpc := (wpc Sig).
Notation wstep := (wstep Sig prog stops).
Notation mstep := (mstep Sig).
Notation step := (step Sig prog stops).
Notation steps := (steps Sig prog stops).
Notation reachable := (reachable Sig prog stops).

Implicit Types s : st.

(** Case analysis on a worker step. *)
Ltac wcases H w s :=
  unfold Pool.wstep in H;
  let P := fresh "P" in
  destruct (nth_error (workers Sig s) w) as [[| | | |i|i|i [|a acts]| | |]|] eqn:P; try discriminate H;
  [ | destruct (lock Sig s) as [lk|] eqn:HL; [discriminate H|] | | | | | | | ];
  injection H as <-.

Ltac mcases H s :=
  unfold Pool.mstep, start_or in H;
  let P := fresh "PC" in
  destruct (pc Sig s) as [|k a|k ret] eqn:P;
  [ destruct (ops Sig s) as [|[t| | |] os] eqn:HO; try discriminate H;
    [ destruct (lock Sig s) as [lk|] eqn:HL; [discriminate H|]; injection H as <-
    | destruct (started Sig s) eqn:HS; injection H as <-
    | destruct (started Sig s) eqn:HS; injection H as <-
    | cbn in H; destruct (started Sig s) eqn:HS; injection H as <- ]
  | destruct (Nat.ltb_spec k (length (workers Sig s))); injection H as <-
  | destruct (Nat.ltb_spec k (length (workers Sig s)));
    [ destruct (nth_error (handles Sig s) k) as [[|]|] eqn:HH;
      [ destruct (nth_error (workers Sig s) k) as [[| | | |i|i|i acts| | |]|] eqn:HW; try discriminate H; injection H as <-
      | injection H as <- | injection H as <- ]
    | injection H as <- ] ].


(** A worker step changes only worker [w], which was alive and stays alive, and not the client. *)
Lemma wstep_shape w s s' : wstep w s = Some s' ->
  exists p p', nth_error (workers Sig s) w = Some p /\ p <> WNone Sig /\ p <> WExit Sig
    /\ workers Sig s' = upd (workers Sig s) w p' /\ p' <> WNone Sig
    /\ handles Sig s' = handles Sig s /\ pc Sig s' = pc Sig s /\ ops Sig s' = ops Sig s /\ started Sig s' = started Sig s.
Proof.
  intros H. wcases H w s; do 2 eexists; cbn; (split; [reflexivity|]); (split; [discriminate|]); (split; [discriminate|]);
    (split; [reflexivity|]); (split; [|repeat split]); try discriminate.
  - destruct (err Sig s); discriminate.
  - destruct (first_unstarted (queue Sig s)); discriminate.
  - destruct (stops _ _); discriminate.
Qed.

Lemma nth_lt {A} (l : list A) k : k < length l -> exists x, nth_error l k = Some x.
Proof. intros H. destruct (nth_error l k) eqn:E; eauto. apply nth_error_None in E. lia. Qed.

(** ** Threads: creation, joining *)

Definition none_alive s := forall w p, nth_error (workers Sig s) w = Some p -> p = WNone Sig.
Definition all_alive s := forall w p, nth_error (workers Sig s) w = Some p -> p <> WNone Sig.

Definition inv_thr s : Prop :=
  length (handles Sig s) = length (workers Sig s) /\
  (forall w p, nth_error (workers Sig s) w = Some p -> p <> WNone Sig -> nth_error (handles Sig s) w = Some true \/ p = WExit Sig) /\
  match pc Sig s with
  | MCreate k a => started Sig s = false
      /\ (forall w p, nth_error (workers Sig s) w = Some p -> k <= w -> p = WNone Sig)
      /\ (forall w p, nth_error (workers Sig s) w = Some p -> w < k -> p <> WNone Sig)
  | MIdle => (started Sig s = false -> none_alive s) /\ (started Sig s = true -> all_alive s)
  | MJoin k _ => started Sig s = true /\ all_alive s
      /\ (forall w p, nth_error (workers Sig s) w = Some p -> w < k -> p = WExit Sig)
  end.

Lemma inv_thr_wstep w s s' : inv_thr s -> wstep w s = Some s' -> inv_thr s'.
Proof.
  intros (I1 & I2 & I3) H. destruct (wstep_shape w s s' H) as (p & p' & Hp & Hn & Hx & Hw & Hn' & Hh & Hpc & Ho & Hs).
  unfold inv_thr, none_alive, all_alive in *. rewrite Hw, Hh, Hpc, Hs. rewrite upd_length. split; auto. split.
  - intros j q Hj Hq. apply nth_upd_inv in Hj. destruct Hj as [(-> & -> & _)|[Hne Hj]]; [|apply I2; auto].
    left. destruct (I2 w p Hp Hn); auto; congruence.
  - destruct (pc Sig s) as [|k a|k r].
    + destruct I3 as [A B]. split.
      * intros E. specialize (A E). exfalso. apply Hn. eapply A; eauto.
      * intros E j q Hj. apply nth_upd_inv in Hj. destruct Hj as [(-> & -> & _)|[Hne Hj]]; auto. eapply B; eauto.
    + destruct I3 as (A & B & C). repeat split; auto.
      * intros j q Hj Hle. apply nth_upd_inv in Hj. destruct Hj as [(-> & -> & _)|[Hne Hj]]; [|eapply B; eauto].
        exfalso. apply Hn. eapply B; eauto.
      * intros j q Hj Hle. apply nth_upd_inv in Hj. destruct Hj as [(-> & -> & _)|[Hne Hj]]; auto. eapply C; eauto.
    + destruct I3 as (A & B & C). repeat split; auto.
      * intros j q Hj. apply nth_upd_inv in Hj. destruct Hj as [(-> & -> & _)|[Hne Hj]]; auto. eapply B; eauto.
      * intros j q Hj Hle. apply nth_upd_inv in Hj. destruct Hj as [(-> & -> & _)|[Hne Hj]]; [|eapply C; eauto].
        exfalso. apply Hx. eapply C; eauto.
Qed.

Lemma inv_thr_mstep s s' : inv_thr s -> mstep s = Some s' -> inv_thr s'.
Proof.
  intros (I1 & I2 & I3) H. unfold inv_thr, none_alive, all_alive in *.
  mcases H s; cbn in *; repeat (split; [solve [auto; rewrite ?upd_length; auto]|]).
  - auto.
  - rewrite HS. auto.
  - destruct I3 as [A B]; rewrite ?HS in *; repeat split; auto; intros; first [eapply A; eauto; fail | eapply B; eauto; fail | lia].
  - destruct I3 as [A B]; rewrite ?HS in *; repeat split; auto; intros; first [eapply A; eauto; fail | eapply B; eauto; fail | lia].
  - destruct I3 as [A B]; rewrite ?HS in *; repeat split; auto; intros; first [eapply A; eauto; fail | eapply B; eauto; fail | lia].
  - destruct I3 as [A B]; rewrite ?HS in *; repeat split; auto; intros; first [eapply A; eauto; fail | eapply B; eauto; fail | lia].
  - destruct I3 as [A B]; rewrite ?HS in *; repeat split; auto; intros; first [eapply A; eauto; fail | eapply B; eauto; fail | lia].
  - destruct I3 as (A & B & C). split; [|repeat split; auto].
    + intros w p Hw Hp. apply nth_upd_inv in Hw. destruct Hw as [(-> & -> & _)|[Hne Hw]].
      * left. destruct (nth_lt (handles Sig s) k ltac:(lia)) as [h Hh]. eapply nth_upd_same; eauto.
      * rewrite nth_upd_diff by auto. apply I2; auto.
    + intros w p Hw L. apply nth_upd_inv in Hw. destruct Hw as [(-> & -> & _)|[Hne Hw]]; [lia|].
      eapply B; eauto; lia.
    + intros w p Hw L. apply nth_upd_inv in Hw. destruct Hw as [(-> & -> & _)|[Hne Hw]]; [discriminate|].
      eapply C; eauto; lia.
  - destruct I3 as (A & B & C).
    assert (All : forall w p, nth_error (workers Sig s) w = Some p -> p <> WNone Sig).
    { intros w p Hw. apply (C w p Hw). assert (w < length (workers Sig s)) by (apply nth_error_Some; congruence). lia. }
    destruct a; cbn; repeat split; auto; try discriminate. intros w p Hp L. lia.
  - destruct I3 as (A & B & C). split; [|repeat split; auto].
    + intros w p Hw Hp. destruct (Nat.eq_dec w k) as [->|N].
      * right. congruence.
      * rewrite nth_upd_diff by auto. auto.
    + intros w p Hw L. destruct (Nat.eq_dec w k) as [->|N]; [congruence|]. eapply C; eauto; lia.
  - destruct I3 as (A & B & C). repeat split; auto.
    intros w p Hw L. destruct (Nat.eq_dec w k) as [->|N]; [|eapply C; eauto; lia].
    destruct (I2 k p Hw (B k p Hw)); auto. congruence.
  - destruct I3 as (A & B & C). apply nth_error_None in HH. lia.
  - destruct I3 as (A & B & C). repeat split; auto. congruence.
Qed.

Lemma inv_thr_init n os x : inv_thr (init Sig n os x).
Proof.
  unfold inv_thr, init, none_alive; cbn. rewrite !repeat_length. split; auto. split.
  - intros w p H Hp. apply nth_error_In in H. apply repeat_spec in H. congruence.
  - split; [|discriminate]. intros _ w p H. apply nth_error_In in H. now apply repeat_spec in H.
Qed.

Lemma inv_thr_reach n os x s : reachable n os x s -> inv_thr s.
Proof.
  unfold Pool.reachable. remember (init Sig n os x) as s0. induction 1 as [|a b c Hab IH [H|[w H]]]; subst.
  - apply inv_thr_init.
  - eapply inv_thr_mstep; eauto.
  - eapply inv_thr_wstep; eauto.
Qed.

(** ** Lock ownership *)

Definition holds (p : wpc) : bool :=
  match p with WScan _ | WMark _ _ | WUnlock _ _ | WUnlockExit _ => true | _ => false end.

Definition inv_lock s : Prop :=
  (forall w p, nth_error (workers Sig s) w = Some p -> (holds p = true <-> lock Sig s = Some w)) /\
  (forall w, lock Sig s = Some w -> w < length (workers Sig s)).

Lemma inv_lock_step s s' : inv_thr s -> inv_lock s -> step s s' -> inv_lock s'.
Proof.
  intros T [I B] [H|[w H]]; unfold inv_lock in *.
  - mcases H s; cbn; try (rewrite HL); try (split; [exact I|exact B]).
    split; [|rewrite upd_length; exact B].
    intros j p Hj. apply nth_upd_inv in Hj. destruct Hj as [(-> & -> & _)|[_ Hj]]; [|apply I; auto].
    simpl. split; [discriminate|]. intros E.
    destruct T as (_ & _ & T). rewrite PC in T. destruct T as (_ & T & _).
    destruct (nth_lt (workers Sig s) k ltac:(lia)) as [q Hq].
    pose proof (T k q Hq (le_n _)) as ->. apply (I k _ Hq) in E. discriminate E.
  - assert (Hlt : w < length (workers Sig s)).
    { destruct (wstep_shape w s s' H) as (p & p' & Hp & _). apply nth_error_Some. congruence. }
    assert (Gen : forall q l, 
       (holds q = true <-> l = Some w) ->
       (forall j p, j <> w -> nth_error (workers Sig s) j = Some p -> (holds p = true <-> l = Some j)) ->
       forall j p, nth_error (upd (workers Sig s) w q) j = Some p -> (holds p = true <-> l = Some j)).
    { intros q l A C j p Hj. apply nth_upd_inv in Hj. destruct Hj as [(-> & -> & _)|[Hne Hj]]; auto. }
    assert (Own : forall p, nth_error (workers Sig s) w = Some p -> holds p = true ->
              forall j q, j <> w -> nth_error (workers Sig s) j = Some q -> (holds q = true <-> @None nat = Some j)).
    { intros p Hp Hh j q Hne Hq. apply (I w p Hp) in Hh. split; [|discriminate]. intros E. apply (I j q Hq) in E. congruence. }
    wcases H w s; cbn; (split; [apply Gen|rewrite upd_length; intros; try discriminate; try (eapply B; eauto; fail)]);
      try (intros j q Hne Hq; apply I; auto).
    + destruct (err Sig s); simpl; apply (I w _ P).
    + tauto.
    + intros j q Hne Hq. split; [|congruence]. intros E. apply (I j q Hq) in E. congruence.
    + congruence.
    + destruct (first_unstarted (queue Sig s)); simpl; apply (I w _ P).
    + simpl; apply (I w _ P).
    + simpl; split; discriminate.
    + eapply Own; eauto.
    + destruct (stops _ _); simpl; apply (I w _ P).
    + simpl; apply (I w _ P).
    + simpl; apply (I w _ P).
    + simpl; split; discriminate.
    + eapply Own; eauto.
Qed.

Lemma inv_lock_init n os x : inv_lock (init Sig n os x).
Proof.
  split; cbn; [|discriminate]. intros w p H. apply nth_error_In in H. apply repeat_spec in H. subst p.
  split; discriminate.
Qed.

Lemma inv_lock_reach n os x s : reachable n os x s -> inv_lock s.
Proof.
  intros R. unfold Pool.reachable in *. remember (init Sig n os x) as s0. induction R as [|a b c Hab IH Hs]; subst.
  - apply inv_lock_init.
  - eapply inv_lock_step; eauto. eapply inv_thr_reach; exact Hab.
Qed.

(** ** The queue: started entries form a prefix, claimed in order *)

Fixpoint claims (tr : list event) : list nat :=
  match tr with
  | [] => []
  | EvClaim w i :: tr' => i :: claims tr'
  | _ :: tr' => claims tr'
  end.

Lemma claims_app a b : claims (a ++ b) = claims a ++ claims b.
Proof. induction a as [|[] a IH]; simpl; auto. now rewrite IH. Qed.

Definition prefix_started (c : nat) (q : list (nat * bool)) : Prop :=
  c <= length q /\ forall i t b, nth_error q i = Some (t, b) -> b = Nat.ltb i c.

Lemma first_unstarted_prefix q : forall c, prefix_started c q ->
  first_unstarted q = if Nat.ltb c (length q) then Some c else None.
Proof.
  induction q as [|[t b] q IH]; intros c [L H]; simpl in *.
  - assert (c = 0) by lia. subst. reflexivity.
  - pose proof (H 0 t b eq_refl) as Hb. destruct c as [|c].
    + simpl in Hb. subst b. reflexivity.
    + simpl in Hb. subst b. rewrite (IH c).
      * change (Nat.ltb (S c) (S (length q))) with (Nat.ltb c (length q)). destruct (Nat.ltb c (length q)); reflexivity.
      * split; [lia|]. intros i t' b' Hi. apply (H (S i) t' b' Hi).
Qed.

Definition inv_queue s : Prop :=
  let c := length (claims (trace Sig s)) in
  claims (trace Sig s) = seq 0 c /\ prefix_started c (queue Sig s) /\
  (forall w i, nth_error (workers Sig s) w = Some (WMark Sig i) -> i = c /\ i < length (queue Sig s)).

Lemma prefix_started_mark c q : prefix_started c q -> c < length q -> prefix_started (S c) (mark q c).
Proof.
  intros [L H] Hc. unfold mark. destruct (nth_lt q c Hc) as [[t b] Hq]. rewrite Hq. split.
  - rewrite upd_length. lia.
  - intros i t' b' Hi. apply nth_upd_inv in Hi. destruct Hi as [(-> & E & _)|[Hne Hi]].
    + injection E as -> ->. symmetry. apply Nat.ltb_lt. lia.
    + rewrite (H i t' b' Hi). destruct (Nat.ltb_spec i c), (Nat.ltb_spec i (S c)); auto; lia.
Qed.

Lemma mark_length q i : length (mark q i) = length q.
Proof. unfold mark. destruct (nth_error q i) as [[]|]; auto. apply upd_length. Qed.

Lemma inv_queue_step s s' : inv_lock s -> inv_queue s -> step s s' -> inv_queue s'.
Proof.
  intros [IL _] (I1 & I2 & I3) [H|[w H]]; unfold inv_queue in *.
  - mcases H s; cbn; rewrite ?app_nil_r; try (split; [exact I1|split; [exact I2|exact I3]]).
    + split; [exact I1|]. split.
      * destruct I2 as [L Q]. split; [rewrite app_length; lia|].
        intros i t0 b Hi. destruct (Nat.ltb_spec i (length (queue Sig s))).
        -- rewrite nth_error_app1 in Hi by auto. eauto.
        -- rewrite nth_error_app2 in Hi by auto. destruct (i - length (queue Sig s)) as [|[|]] eqn:Ed; try discriminate.
           injection Hi as <- <-. symmetry. apply Nat.ltb_ge. lia.
      * intros w i Hw. destruct (I3 w i Hw). rewrite app_length. lia.
    + split; [exact I1|split; [exact I2|]].
      intros w i Hw. apply nth_upd_inv in Hw. destruct Hw as [(-> & E & _)|[Hne Hw]]; [discriminate|]. eauto.
    + replace (claims (trace Sig s ++ (if ret then [EvRet (if err Sig s then -1 else 0)%Z] else []))) with (claims (trace Sig s)).
      * split; [exact I1|split; [exact I2|exact I3]].
      * destruct ret; rewrite claims_app; cbn; now rewrite app_nil_r.
  - wcases H w s; cbn; rewrite ?claims_app; cbn; rewrite ?app_nil_r; 
      try (split; [exact I1|]; split; [exact I2|]; intros j i' Hj; apply nth_upd_inv in Hj;
           destruct Hj as [(-> & E & _)|[Hne Hj]]; [try discriminate E|exact (I3 _ _ Hj)]; fail).
    + split; [exact I1|]. split; [exact I2|]. intros j i' Hj. apply nth_upd_inv in Hj.
      destruct Hj as [(-> & E & _)|[Hne Hj]]; [|exact (I3 _ _ Hj)]. destruct (err Sig s); discriminate.
    + split; [exact I1|]. split; [exact I2|]. intros j i' Hj. apply nth_upd_inv in Hj.
      destruct Hj as [(-> & E & _)|[Hne Hj]]; [|exact (I3 _ _ Hj)].
      rewrite (first_unstarted_prefix _ _ I2) in E.
      destruct (Nat.ltb_spec (length (claims (trace Sig s))) (length (queue Sig s))); [|discriminate].
      injection E as ->. auto.
    + destruct (I3 w i P) as [-> Hi]. rewrite app_length. cbn. rewrite Nat.add_1_r.
      split; [|split].
      * rewrite seq_S. cbn. now rewrite <- I1.
      * now apply prefix_started_mark.
      * intros j i' Hj. apply nth_upd_inv in Hj. destruct Hj as [(-> & E & _)|[Hne Hj]]; [discriminate|].
        exfalso. pose proof (proj1 (IL w _ P) eq_refl). pose proof (proj1 (IL j _ Hj) eq_refl). congruence.
    + split; [exact I1|]. split; [exact I2|]. intros j i' Hj. apply nth_upd_inv in Hj.
      destruct Hj as [(-> & E & _)|[Hne Hj]]; [|exact (I3 _ _ Hj)]. destruct (stops _ _); discriminate.
Qed.

Lemma inv_queue_reach n os x s : reachable n os x s -> inv_queue s.
Proof.
  intros R. unfold Pool.reachable in *. remember (init Sig n os x) as s0. induction R as [|a b c Hab IH Hs]; subst.
  - split; [reflexivity|]. split.
    + split; [apply le_n|]. intros [|i] t b H; discriminate.
    + intros w i H. cbn in H. apply nth_error_In in H. apply repeat_spec in H. discriminate.
  - eapply inv_queue_step; eauto. eapply inv_lock_reach; exact Hab.
Qed.

(** ** Counting: claims, begins and ends of each queue entry *)

Definition is_claim (i : nat) (e : event) : nat := match e with EvClaim _ j => if Nat.eqb i j then 1 else 0 | _ => 0 end.
Definition is_begin (i : nat) (e : event) : nat := match e with EvBegin _ j => if Nat.eqb i j then 1 else 0 | _ => 0 end.
Definition is_end (i : nat) (e : event) : nat := match e with EvEnd _ j _ => if Nat.eqb i j then 1 else 0 | _ => 0 end.
Definition at_unlock (i : nat) (p : wpc) : nat := match p with WUnlock _ j => if Nat.eqb i j then 1 else 0 | _ => 0 end.
Definition at_run (i : nat) (p : wpc) : nat := match p with WRun _ j _ => if Nat.eqb i j then 1 else 0 | _ => 0 end.

Definition inv_count s : Prop := forall i,
  sumf (is_begin i) (trace Sig s) + sumf (at_unlock i) (workers Sig s) = sumf (is_claim i) (trace Sig s) /\
  sumf (is_end i) (trace Sig s) + sumf (at_run i) (workers Sig s) = sumf (is_begin i) (trace Sig s).

Lemma sumf_1 {A} (f : A -> nat) x : sumf f [x] = f x.
Proof. unfold sumf; simpl; lia. Qed.
Lemma sumf_0 {A} (f : A -> nat) : sumf f [] = 0.
Proof. reflexivity. Qed.

Lemma inv_count_step s s' : inv_thr s -> inv_count s -> step s s' -> inv_count s'.
Proof.
  intros T I [H|[w H]] i0; specialize (I i0); destruct I as [I1 I2].
  - mcases H s; cbn; rewrite ?app_nil_r; try (split; assumption).
    + destruct T as (_ & _ & T). rewrite PC in T. destruct T as (_ & T & _).
      destruct (nth_lt (workers Sig s) k ltac:(lia)) as [q Hq]. pose proof (T k q Hq (le_n _)) as ->.
      pose proof (sumf_upd (at_unlock i0) _ k (WCheck Sig) _ Hq). pose proof (sumf_upd (at_run i0) _ k (WCheck Sig) _ Hq).
      cbn -[sumf] in *. lia.
    + rewrite !sumf_app. destruct ret; cbn; rewrite ?sumf_1, ?sumf_0; cbn; lia.
  - wcases H w s; cbn -[sumf]; rewrite !sumf_app, ?sumf_1, ?sumf_0; cbn -[sumf];
    match goal with |- context [upd _ _ ?q] => 
      pose proof (sumf_upd (at_unlock i0) _ w q _ P) as U; pose proof (sumf_upd (at_run i0) _ w q _ P) as R end;
    try (destruct (err Sig s)); try (destruct (first_unstarted (queue Sig s))); try (destruct (stops _ _));
    cbn -[sumf] in *; lia.
Qed.

Lemma inv_count_reach n os x s : reachable n os x s -> inv_count s.
Proof.
  intros R. unfold Pool.reachable in *. remember (init Sig n os x) as s0. induction R as [|a b c Hab IH Hs]; subst.
  - intros i. cbn -[sumf]. rewrite !sumf_0, !sumf_zero; auto; intros p Hp; apply repeat_spec in Hp; subst; reflexivity.
  - eapply inv_count_step; eauto. eapply inv_thr_reach; exact Hab.
Qed.

Lemma claims_count i tr : sumf (is_claim i) tr = count_occ Nat.eq_dec (claims tr) i.
Proof.
  induction tr as [|e tr IH]; [reflexivity|].
  change (sumf (is_claim i) (e :: tr)) with (is_claim i e + sumf (is_claim i) tr). rewrite IH.
  destruct e as [w j|w j|w j b|w|rv]; cbn; auto.
  destruct (Nat.eqb_spec i j), (Nat.eq_dec j i); subst; try congruence; lia.
Qed.

Lemma claim_count_le n os x s i : reachable n os x s -> sumf (is_claim i) (trace Sig s) <= 1.
Proof.
  intros R. destruct (inv_queue_reach n os x s R) as (E & _). rewrite claims_count, E.
  apply NoDup_count_occ. apply seq_NoDup.
Qed.

Lemma begin_once n os x s i : reachable n os x s -> sumf (is_begin i) (trace Sig s) <= 1.
Proof.
  intros R. pose proof (claim_count_le n os x s i R). pose proof (inv_count_reach n os x s R i). lia.
Qed.

(** ** Errors *)

Definition fail_end (e : event) : Prop := exists w i, e = EvEnd w i true.
Definition failed (tr : list event) : Prop := exists e, In e tr /\ fail_end e.

Definition inv_err (os : list op) s : Prop :=
  (failed (trace Sig s) -> err Sig s = true \/ exists w, nth_error (workers Sig s) w = Some (WSetErr Sig)) /\
  (err Sig s = true -> failed (trace Sig s) \/ exists pre, os = pre ++ ops Sig s /\ In OFree pre) /\
  (forall w, nth_error (workers Sig s) w = Some (WSetErr Sig) -> failed (trace Sig s)) /\
  (exists pre, os = pre ++ ops Sig s).

Lemma failed_app a b : failed (a ++ b) <-> failed a \/ failed b.
Proof. unfold failed. split.
  - intros (e & H & F). apply in_app_or in H. destruct H; [left|right]; eauto.
  - intros [(e & H & F)|(e & H & F)]; exists e; split; auto; apply in_or_app; auto.
Qed.

Lemma failed_one e : failed [e] <-> fail_end e.
Proof. unfold failed. split; [intros (x & [<-|[]] & F); auto|]. intros F. exists e; simpl; auto. Qed.

Lemma not_fail_nil : ~ failed [].
Proof. intros (e & [] & _). Qed.

Lemma inv_err_step os0 s s' : inv_thr s -> inv_err os0 s -> step s s' -> inv_err os0 s'.
Proof.
  intros T (I1 & I2 & I3 & I4) [H|[w H]].
  - unfold inv_err. destruct I4 as [pre0 Epre].
    mcases H s; cbn -[failed] in *; rewrite ?app_nil_r.
    + split; [exact I1|]. split; [|split; [exact I3|exists (pre0 ++ [OAdd t]); rewrite <- app_assoc; exact Epre]].
      intros E. destruct (I2 E) as [F|(pre & Ep & Hin)]; auto. right. exists (pre ++ [OAdd t]). rewrite <- app_assoc.
      split; auto. apply in_or_app; auto.
    + split; [exact I1|]. split; [|split; [exact I3|exists (pre0 ++ [OStart]); rewrite <- app_assoc; exact Epre]].
      intros E. destruct (I2 E) as [F|(pre & Ep & Hin)]; auto. right. exists (pre ++ [OStart]). rewrite <- app_assoc.
      split; auto. apply in_or_app; auto.
    + split; [exact I1|]. split; [|split; [exact I3|exists (pre0 ++ [OStart]); rewrite <- app_assoc; exact Epre]].
      intros E. destruct (I2 E) as [F|(pre & Ep & Hin)]; auto. right. exists (pre ++ [OStart]). rewrite <- app_assoc.
      split; auto. apply in_or_app; auto.
    + split; [exact I1|]. split; [|split; [exact I3|exists (pre0 ++ [OWait]); rewrite <- app_assoc; exact Epre]].
      intros E. destruct (I2 E) as [F|(pre & Ep & Hin)]; auto. right. exists (pre ++ [OWait]). rewrite <- app_assoc.
      split; auto. apply in_or_app; auto.
    + split; [exact I1|]. split; [|split; [exact I3|exists (pre0 ++ [OWait]); rewrite <- app_assoc; exact Epre]].
      intros E. destruct (I2 E) as [F|(pre & Ep & Hin)]; auto. right. exists (pre ++ [OWait]). rewrite <- app_assoc.
      split; auto. apply in_or_app; auto.
    + split; [auto|]. split; [|split; [exact I3|exists (pre0 ++ [OFree]); rewrite <- app_assoc; exact Epre]].
      intros _. right. exists (pre0 ++ [OFree]). rewrite <- app_assoc. split; auto. apply in_or_app; simpl; auto.
    + split; [auto|]. split; [|split; [exact I3|exists (pre0 ++ [OFree]); rewrite <- app_assoc; exact Epre]].
      intros _. right. exists (pre0 ++ [OFree]). rewrite <- app_assoc. split; auto. apply in_or_app; simpl; auto.
    + split; [|split; [exact I2|split; [|eauto]]].
      * intros F. destruct (I1 F) as [|[w Hw]]; auto. right. exists w.
        rewrite nth_upd_diff; auto. intros ->. destruct T as (_ & _ & T). rewrite PC in T. destruct T as (_ & T & _).
        specialize (T k _ Hw (le_n _)). discriminate.
      * intros w Hw. apply nth_upd_inv in Hw. destruct Hw as [(-> & E & _)|[Hne Hw]]; [discriminate|]. eauto.
    + split; [exact I1|split; [exact I2|split; [exact I3|eauto]]].
    + split; [exact I1|split; [exact I2|split; [exact I3|eauto]]].
    + split; [exact I1|split; [exact I2|split; [exact I3|eauto]]].
    + split; [exact I1|split; [exact I2|split; [exact I3|eauto]]].
    + assert (NF : ~ failed (if ret then [EvRet (if err Sig s then -1 else 0)%Z] else [])).
      { destruct ret; [rewrite failed_one; intros (? & ? & E); discriminate|apply not_fail_nil]. }
      setoid_rewrite failed_app. split; [tauto|]. split; [|split; [intros w Hw; left; eauto|eauto]].
      intros E. destruct (I2 E); auto.
  - unfold inv_err. wcases H w s; cbn -[failed]; rewrite ?app_nil_r.
    + split; [|split; [exact I2|split; [|exact I4]]].
      * intros F. destruct (I1 F) as [|[j Hj]]; auto. right. exists j. rewrite nth_upd_diff; auto. intros ->. congruence.
      * intros j Hj. apply nth_upd_inv in Hj. destruct Hj as [(-> & E & _)|[Hne Hj]]; eauto. destruct (err Sig s); discriminate.
    + split; [|split; [exact I2|split; [|exact I4]]].
      * intros F. destruct (I1 F) as [|[j Hj]]; auto. right. exists j. rewrite nth_upd_diff; auto. intros ->. congruence.
      * intros j Hj. apply nth_upd_inv in Hj. destruct Hj as [(-> & E & _)|[Hne Hj]]; eauto. discriminate.
    + split; [|split; [exact I2|split; [|exact I4]]].
      * intros F. destruct (I1 F) as [|[j Hj]]; auto. right. exists j. rewrite nth_upd_diff; auto. intros ->. congruence.
      * intros j Hj. apply nth_upd_inv in Hj. destruct Hj as [(-> & E & _)|[Hne Hj]]; eauto. destruct (first_unstarted _); discriminate.
    + assert (NF : ~ failed [EvClaim w i]) by (rewrite failed_one; intros (? & ? & E); discriminate).
      setoid_rewrite failed_app. split; [|split; [intros E; destruct (I2 E); auto|split; [|exact I4]]].
      * intros [F|F]; [|tauto]. destruct (I1 F) as [|[j Hj]]; auto. right. exists j. rewrite nth_upd_diff; auto. intros ->. congruence.
      * intros j Hj. apply nth_upd_inv in Hj. destruct Hj as [(-> & E & _)|[Hne Hj]]; eauto. discriminate.
    + assert (NF : ~ failed [EvBegin w i]) by (rewrite failed_one; intros (? & ? & E); discriminate).
      setoid_rewrite failed_app. split; [|split; [intros E; destruct (I2 E); auto|split; [|exact I4]]].
      * intros [F|F]; [|tauto]. destruct (I1 F) as [|[j Hj]]; auto. right. exists j. rewrite nth_upd_diff; auto. intros ->. congruence.
      * intros j Hj. apply nth_upd_inv in Hj. destruct Hj as [(-> & E & _)|[Hne Hj]]; eauto. discriminate.
    + setoid_rewrite failed_app. setoid_rewrite failed_one. split; [|split; [intros E; destruct (I2 E); auto|split; [|exact I4]]].
      * intros [F|F].
        -- destruct (I1 F) as [|[j Hj]]; auto. right. exists j. rewrite nth_upd_diff; auto. intros ->. congruence.
        -- destruct F as (w' & i' & E). injection E as <- <- E. right. exists w. rewrite E.
           erewrite nth_upd_same; eauto.
      * intros j Hj. apply nth_upd_inv in Hj. destruct Hj as [(-> & E & _)|[Hne Hj]]; eauto.
        destruct (stops _ _); [|discriminate]. right. exists w, i. reflexivity.
    + split; [|split; [exact I2|split; [|exact I4]]].
      * intros F. destruct (I1 F) as [|[j Hj]]; auto. right. exists j. rewrite nth_upd_diff; auto. intros ->. congruence.
      * intros j Hj. apply nth_upd_inv in Hj. destruct Hj as [(-> & E & _)|[Hne Hj]]; eauto. discriminate.
    + setoid_rewrite failed_app. split; [auto|]. split; [|split; [|exact I4]].
      * intros _. left. left. eauto.
      * intros j Hj. left. eauto.
    + split; [|split; [exact I2|split; [|exact I4]]].
      * intros F. destruct (I1 F) as [|[j Hj]]; auto. right. exists j. rewrite nth_upd_diff; auto. intros ->. congruence.
      * intros j Hj. apply nth_upd_inv in Hj. destruct Hj as [(-> & E & _)|[Hne Hj]]; eauto. discriminate.
Qed.

Lemma inv_err_reach n os x s : reachable n os x s -> inv_err os s.
Proof.
  intros R. unfold Pool.reachable in *. remember (init Sig n os x) as s0. induction R as [|a b c Hab IH Hs]; subst.
  - split; [|split; [|split]]; cbn.
    + intros F. exfalso. exact (not_fail_nil F).
    + discriminate.
    + intros w H. apply nth_error_In in H. apply repeat_spec in H. discriminate.
    + exists []. reflexivity.
  - eapply inv_err_step; eauto. eapply inv_thr_reach; exact Hab.
Qed.

(** ** Exits: with all jobs queued before the pool starts, a worker leaves only if the error flag is set
    or the queue is exhausted *)

Definition leaving (p : wpc) : bool := match p with WUnlockExit _ | WExit _ => true | _ => false end.

Definition no_add (os : list op) : Prop := forall t, ~ In (OAdd t) os.

Definition inv_exit s : Prop :=
  (started Sig s = true \/ pc Sig s <> MIdle -> no_add (ops Sig s)) /\
  (exists ts rest, ops Sig s = map OAdd ts ++ rest /\ no_add rest) /\
  (forall w p, nth_error (workers Sig s) w = Some p -> leaving p = true ->
     err Sig s = true \/ first_unstarted (queue Sig s) = None).

Lemma no_add_tail o os : no_add (o :: os) -> no_add os.
Proof. intros H t Hin. apply (H t). now right. Qed.

Lemma first_unstarted_mark q i : first_unstarted q = None -> first_unstarted (mark q i) = None.
Proof.
  unfold mark. revert i. induction q as [|[t b] q IH]; intros [|i] H; simpl in *; auto.
  - destruct b; [|discriminate]. exact H.
  - destruct b; [|discriminate]. specialize (IH i). destruct (nth_error q i) as [[t' b']|] eqn:E; simpl in *.
    + destruct (first_unstarted q); [discriminate|]. now rewrite IH.
    + exact H.
Qed.

Lemma inv_exit_step s s' : inv_thr s -> inv_exit s -> step s s' -> inv_exit s'.
Proof.
  intros T (I1 & I2 & I3) [H|[w H]]; unfold inv_exit.
  - destruct I2 as (ts & rest & Eo & Hr).
    assert (Tl : forall o os, ops Sig s = o :: os -> exists ts rest, os = map OAdd ts ++ rest /\ no_add rest).
    { intros o os E. rewrite Eo in E. destruct ts as [|t ts]; simpl in E.
      - exists [], os. split; auto. rewrite E in Hr. eapply no_add_tail; eauto.
      - injection E as <- <-. eauto. }
    assert (NA : forall o os, ops Sig s = o :: os -> (forall t, o <> OAdd t) -> no_add os).
    { intros o os E Hno. rewrite Eo in E. destruct ts as [|t ts]; simpl in E.
      - rewrite E in Hr. eapply no_add_tail; eauto.
      - injection E as <- <-. exfalso. apply (Hno t); auto. }
    mcases H s; cbn; rewrite ?app_nil_r.
    + split; [|split; [eauto|]].
      * intros [E|E]; [|congruence]. exfalso. apply (I1 (or_introl E) t). simpl; auto.
      * intros w p Hp Hl. exfalso. assert (N : started Sig s = false).
        { destruct (started Sig s) eqn:S0; auto. exfalso. apply (I1 (or_introl eq_refl) t). simpl; auto. }
        destruct T as (_ & _ & T). rewrite PC in T. destruct T as [T _]. pose proof (T N w p Hp); subst. discriminate.
    + split; [intros _; eapply NA; [reflexivity|discriminate]|split; [eauto|exact I3]].
    + split; [intros _; eapply NA; [reflexivity|discriminate]|split; [eauto|exact I3]].
    + split; [intros _; eapply NA; [reflexivity|discriminate]|split; [eauto|exact I3]].
    + split; [intros _; eapply NA; [reflexivity|discriminate]|split; [eauto|exact I3]].
    + split; [intros _; eapply NA; [reflexivity|discriminate]|split; [eauto|intros; auto]].
    + split; [intros _; eapply NA; [reflexivity|discriminate]|split; [eauto|intros; auto]].
    + assert (N : no_add (ops Sig s)) by (apply I1; right; congruence).
      split; [auto|split; [exists ts, rest; auto|]].
      intros w p Hw Hl. apply nth_upd_inv in Hw. destruct Hw as [(-> & -> & _)|[Hne Hw]]; [discriminate|]. eauto.
    + assert (N : no_add (ops Sig s)) by (apply I1; right; congruence).
      split; [auto|split; [exists ts, rest; auto|exact I3]].
    + assert (N : no_add (ops Sig s)) by (apply I1; right; congruence).
      split; [auto|split; [exists ts, rest; auto|exact I3]].
    + assert (N : no_add (ops Sig s)) by (apply I1; right; congruence).
      split; [auto|split; [exists ts, rest; auto|exact I3]].
    + assert (N : no_add (ops Sig s)) by (apply I1; right; congruence).
      split; [auto|split; [exists ts, rest; auto|exact I3]].
    + assert (N : no_add (ops Sig s)) by (apply I1; right; congruence).
      split; [auto|split; [exists ts, rest; auto|exact I3]].
  - assert (G : forall s'', started Sig s'' = started Sig s -> pc Sig s'' = pc Sig s -> ops Sig s'' = ops Sig s ->
       (forall w p, nth_error (workers Sig s'') w = Some p -> leaving p = true ->
     err Sig s'' = true \/ first_unstarted (queue Sig s'') = None) -> inv_exit s'').
    { intros s'' E1 E2 E3 G. unfold inv_exit. rewrite E1, E2, E3. auto. }
    fold (inv_exit s').
    wcases H w s; apply G; auto; cbn; intros j p Hj Hl; apply nth_upd_inv in Hj;
      destruct Hj as [(-> & -> & _)|[Hne Hj]]; try discriminate; auto;
      try (eapply I3; eauto; fail).
    + destruct (err Sig s); [auto|discriminate].
    + destruct (first_unstarted (queue Sig s)); [discriminate|auto].
    + destruct (I3 j p Hj Hl); auto. right. now apply first_unstarted_mark.
    + destruct (stops _ _); discriminate.
Qed.

(** The client queues all jobs first: what [compile_step] does. *)
Definition adds_first (os : list op) : Prop := exists ts rest, os = map OAdd ts ++ rest /\ no_add rest.

Lemma inv_exit_reach n os x s : adds_first os -> reachable n os x s -> inv_exit s.
Proof.
  intros A R. unfold Pool.reachable in *. remember (init Sig n os x) as s0. induction R as [|a b c Hab IH Hs]; subst.
  - split; [|split]; cbn.
    + intros [E|E]; congruence.
    + exact A.
    + intros w p H Hl. apply nth_error_In in H. apply repeat_spec in H. subst. discriminate.
  - eapply inv_exit_step; eauto. eapply inv_thr_reach; exact Hab.
Qed.

(** The queue holds exactly the tasks added so far. *)
Fixpoint adds (os : list op) : list nat :=
  match os with [] => [] | OAdd t :: os' => t :: adds os' | _ :: os' => adds os' end.

Lemma adds_app a b : adds (a ++ b) = adds a ++ adds b.
Proof. induction a as [|[] a IH]; simpl; auto. now rewrite IH. Qed.

Definition inv_tasks (os : list op) s : Prop := map fst (queue Sig s) ++ adds (ops Sig s) = adds os.

Lemma map_fst_mark q i : map fst (mark q i) = map fst q.
Proof.
  unfold mark. revert i. induction q as [|[t b] q IH]; intros [|i]; simpl; auto.
  specialize (IH i). destruct (nth_error q i) as [[t' b']|]; simpl in *; congruence.
Qed.

Lemma inv_tasks_step os0 s s' : inv_tasks os0 s -> step s s' -> inv_tasks os0 s'.
Proof.
  unfold inv_tasks. intros I [H|[w H]].
  - mcases H s; cbn; rewrite ?HO in I; cbn in I; auto. rewrite map_app, <- app_assoc. exact I.
  - wcases H w s; cbn; auto. now rewrite map_fst_mark.
Qed.

Lemma inv_tasks_reach n os x s : reachable n os x s -> inv_tasks os s.
Proof.
  intros R. unfold Pool.reachable in *. remember (init Sig n os x) as s0. induction R as [|a b c Hab IH Hs]; subst.
  - reflexivity.
  - eapply inv_tasks_step; eauto.
Qed.

Lemma workers_length n os0 x s : reachable n os0 x s -> length (workers Sig s) = n.
Proof.
  intros R. unfold Pool.reachable in *. remember (init Sig n os0 x) as s0. induction R as [|a b c Hab IH [H|[w H]]]; subst.
  - cbn. apply repeat_length.
  - rewrite <- IH by auto. mcases H b; cbn; auto. apply upd_length.
  - rewrite <- IH by auto. destruct (wstep_shape w b c H) as (p & p' & _ & _ & _ & -> & _). apply upd_length.
Qed.

End PoolInv.
