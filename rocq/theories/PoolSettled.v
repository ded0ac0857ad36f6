(** * Once the pool has been waited for, no job is half done. *)

From Coq Require Import ZArith Lia Bool List.
From Verif Require Import Base Pool PoolInv SpecPool PoolProofs PoolOwn.
Import ListNotations.
Local Open Scope nat_scope.

Section Settled.
Variable Sig : Type.
Variable prog : nat -> list (Sig -> Sig).
Variable stops : nat -> Sig -> bool.

Definition over (s : st Sig) : Prop :=
  started Sig s = true /\ (forall k a, pc Sig s <> MCreate k a) /\
  forall w p, nth_error (workers Sig s) w = Some p -> p = WExit Sig.

Lemma over_step s s' : over s -> step Sig prog stops s s' -> over s'.
Proof.
  intros (A & B & C) [H|[w H]].
  - unfold mstep, start_or in H. cbn [started set_err] in H. rewrite A in H. destruct (pc Sig s) as [|k a|k r] eqn:P.
    + destruct (ops Sig s) as [|[t| | |] os]; try discriminate H.
      * destruct (lock Sig s); [discriminate|]. injection H as <-. (repeat split; cbn; auto; discriminate).
      * injection H as <-. (repeat split; cbn; auto; discriminate).
      * injection H as <-. (repeat split; cbn; auto; discriminate).
      * injection H as <-. (repeat split; cbn; auto; discriminate).
    + exfalso. eapply B. reflexivity.
    + destruct (Nat.ltb k (length (workers Sig s))).
      * destruct (nth_error (handles Sig s) k) as [[|]|].
        -- destruct (nth_error (workers Sig s) k) as [[]|]; try discriminate H. injection H as <-. (repeat split; cbn; auto; discriminate).
        -- injection H as <-. (repeat split; cbn; auto; discriminate).
        -- injection H as <-. (repeat split; cbn; auto; discriminate).
      * injection H as <-. (repeat split; cbn; auto; discriminate).
  - unfold wstep in H. destruct (nth_error (workers Sig s) w) as [p|] eqn:P; [|discriminate].
    rewrite (C w p P) in H. discriminate.
Qed.

Lemma over_after n os x s rv : reachable Sig prog stops n os x s -> In (EvRet rv) (trace Sig s) -> over s.
Proof.
  intros R Hin. apply in_split in Hin. destruct Hin as (t1 & t2 & Et).
  destruct (trace_at Sig prog stops n os x s t1 _ t2 R Et) as (s1 & s2 & R1 & S1 & S2 & T1 & T2).
  assert (O1 : over s1).
  { destruct (step_trace Sig prog stops s1 s2 S1) as [T|(e & T & He)].
    - rewrite T2, T1 in T. apply (f_equal (@length _)) in T. rewrite app_length in T. simpl in T. lia.
    - rewrite T2, T1 in T. apply app_inv_head in T. injection T as <-.
      destruct (He rv eq_refl) as (_ & k & Hpc & Hk).
      destruct (inv_thr_reach _ _ _ n os x s1 R1) as (_ & _ & T). rewrite Hpc in T. destruct T as (T & _ & _).
      split; auto. split; [rewrite Hpc; discriminate|]. eapply joined_all_exit; eauto. }
  assert (O2 : over s2) by (eapply over_step; eauto).
  clear - O2 S2. induction S2 as [|a b c Hab IH Hs]; auto. exact (over_step b c (IH O2) Hs).
Qed.

Variables (n m : nat) (rest : list op) (x0 : Sig).
Hypothesis no_more : forall t, ~ In (OAdd t) rest.
Notation client := (map OAdd (seq 0 m) ++ rest).
Variable J : nat -> nat -> Sig -> Prop.
Hypothesis J_init : forall i, i < m -> J i 0 x0.
Hypothesis J_own : forall i k a x, i < m -> nth_error (prog i) k = Some a -> J i k x -> J i (S k) (a x).
Hypothesis J_other : forall i j k l a x, i < m -> j < m -> i <> j ->
  nth_error (prog j) l = Some a -> J j l x -> J i k x -> J i k (a x).
Hypothesis stops_other : forall i j l a x, i < m -> j < m -> i <> j -> nth_error (prog j) l = Some a ->
  stops i (a x) = stops i x.

Theorem settled s rv : reachable Sig prog stops n client x0 s -> In (EvRet rv) (trace Sig s) ->
  forall i, i < m -> J i 0 (sig Sig s) \/ J i (length (prog i)) (sig Sig s).
Proof.
  intros R Hin i Hi. destruct (over_after n client x0 s rv R Hin) as (_ & _ & Ex).
  destruct (own_reach Sig prog stops n m rest x0 no_more J J_init J_own J_other stops_other (fun _ => True) I (fun _ _ _ _ _ _ _ _ => I) s R) as [_ O].
  destruct (O i Hi) as (O1 & _ & O3 & _).
  pose proof (job_once _ _ _ n client x0 s i R) as B.
  destruct (inv_count_reach _ _ _ n client x0 s R i) as [_ C2].
  rewrite (joined_sum_zero Sig (at_run Sig i) s eq_refl Ex) in C2. rewrite <- begins_sumf, <- completions_sumf in C2.
  destruct (begins i (trace Sig s)) as [|[|b]] eqn:Eb; [auto| |lia]. right. apply O3. lia.
Qed.
End Settled.

