(** * Commands run at the same time (C72). *)

From Coq Require Import Arith Lia Bool List.
From Verif Require Import Base Pipe Jobs SpecJobs.
Import ListNotations.

Lemma set_same {A} (f : nat -> A) k x : set f k x k = x.
Proof. unfold set. now rewrite Nat.eqb_refl. Qed.
Lemma set_other {A} (f : nat -> A) k x m : m <> k -> set f k x m = f m.
Proof. intros H. unfold set. destruct (Nat.eqb_spec m k); [contradiction|reflexivity]. Qed.

Lemma Forall2_length {A B} (R : A -> B -> Prop) l l' : Forall2 R l l' -> length l = length l'.
Proof. induction 1; cbn; congruence. Qed.

Section Proofs.
Variables cap limit n depth : nat.
Variable work : nat -> list action.
Hypothesis Ne : forall w, w < n -> nested depth [] (work w).

(** The descriptors of a thread. *)
Definition mine (t : thread) : list nat :=
  match now t with Piped i o | Spawned i o => [i; o] | Waiting o => [o] | _ => [] end ++ kept t.

Definition no_writer (s : jst) (q : nat) : Prop := forall d, fds s d <> Some (q, Wr).
(** A command in use that has ended: [Some p] if it has not been read. *)
Definition entry (s : jst) (o : nat) (c : option program) : Prop :=
  exists q, fds s o = Some (q, Rd) /\ no_writer s q /\ match c with Some p => pipes s q = writes p | None => True end.
Definition child_ok (s : jst) (w q : nat) (p : program) : Prop :=
  match children s w with
  | Running q' t h y => q' = q /\ writes p = pipes s q ++ t /\ y = stays p
  | Ended => pipes s q = writes p
  | NoChild => False
  end.

(** What holds of a thread, [st] being its commands in use. *)
Definition at_ok (s : jst) (w : nat) (st : list (option program)) : Prop :=
  let t := threads s w in
  nested depth st (todo t) /\ texts t ++ wrote st (todo t) = wrote [] (work w) /\ incl (todo t) (work w) /\
  match now t with
  | Between => children s w = NoChild /\ Forall2 (entry s) (kept t) st
  | Piped i o => children s w = NoChild /\ Forall2 (entry s) (kept t) st /\
      exists p r q, todo t = ARun p :: r /\ fds s i = Some (q, Wr) /\ fds s o = Some (q, Rd) /\ pipes s q = []
  | Spawned i o => Forall2 (entry s) (kept t) st /\
      exists p r q, todo t = ARun p :: r /\ fds s i = Some (q, Wr) /\ fds s o = Some (q, Rd) /\ child_ok s w q p
  | Waiting o => Forall2 (entry s) (kept t) st /\
      exists p r q, todo t = ARun p :: r /\ fds s o = Some (q, Rd) /\ no_writer s q /\ child_ok s w q p
  | Reading got => children s w = NoChild /\
      exists l r p o k st' q, todo t = ARead l :: r /\ st = Some p :: st' /\ kept t = o :: k /\ Forall2 (entry s) k st' /\
        fds s o = Some (q, Rd) /\ no_writer s q /\ writes p = got ++ pipes s q
  | HasRead got => children s w = NoChild /\
      exists l r p o k st' q, todo t = ARead l :: r /\ st = Some p :: st' /\ kept t = o :: k /\ Forall2 (entry s) k st' /\
        fds s o = Some (q, Rd) /\ no_writer s q /\ got = writes p
  end.

Record inv (s : jst) : Prop := {
  in_at : forall w, w < n -> exists st, at_ok s w st;
  in_nodup : forall w, w < n -> NoDup (mine (threads s w));
  in_apart : forall w w' d, w < n -> w' < n -> In d (mine (threads s w)) -> In d (mine (threads s w')) -> w = w';
  in_used : forall d e, fds s d = Some e -> exists w, w < n /\ In d (mine (threads s w));
  in_mine : forall w d, w < n -> In d (mine (threads s w)) -> d < limit /\ exists e, fds s d = Some e;
  in_once : forall d d' e, fds s d = Some e -> fds s d' = Some e -> d = d';
  in_old : forall d q x, fds s d = Some (q, x) -> q < fresh s;
  in_lock : forall l w, locks s l = Some w -> w < n /\ exists r, todo (threads s w) = ARead (Some l) :: r /\
    match now (threads s w) with Reading _ | HasRead _ => True | _ => False end;
}.

Lemma start_inv : inv (jstart work).
Proof.
  constructor; cbn; try discriminate; try tauto.
  - intros w L. exists []. unfold at_ok. cbn. repeat split; auto. apply incl_refl.
  - intros w _. constructor.
Qed.

(** *** What leaves a thread alone *)
Lemma entry_frame s s' o c : entry s o c -> fds s' o = fds s o ->
  (forall q, fds s o = Some (q, Rd) -> pipes s' q = pipes s q) -> (forall q d, fds s o = Some (q, Rd) -> fds s' d = Some (q, Wr) -> fds s d = Some (q, Wr)) -> entry s' o c.
Proof.
  intros (q & F & N & P) E Q D. exists q. split; [congruence|]. split; [intros d X; exact (N d (D q d F X))|]. destruct c; [rewrite (Q q F); exact P|exact Logic.I].
Qed.
Lemma entries_frame s s' k st : Forall2 (entry s) k st -> (forall d, In d k -> fds s' d = fds s d) ->
  (forall d q, In d k -> fds s d = Some (q, Rd) -> pipes s' q = pipes s q) -> (forall d q d', In d k -> fds s d = Some (q, Rd) -> fds s' d' = Some (q, Wr) -> fds s d' = Some (q, Wr)) ->
  Forall2 (entry s') k st.
Proof.
  intros F. induction F as [|d c k st E F IH]; intros A B C; constructor.
  - eapply entry_frame; [exact E|apply A; now left|intros q; apply B; now left|intros q d'; apply C; now left].
  - apply IH; [intros d' I; apply A; now right|intros d' q I; apply B; now right|intros d' q d'' I; apply C; now right].
Qed.
Lemma at_frame s s' w st : at_ok s w st -> threads s' w = threads s w -> children s' w = children s w ->
  (forall d, In d (mine (threads s w)) -> fds s' d = fds s d) ->
  (forall d q, In d (mine (threads s w)) -> fds s d = Some (q, Rd) -> pipes s' q = pipes s q) ->
  (forall d q d', In d (mine (threads s w)) -> fds s d = Some (q, Rd) -> fds s' d' = Some (q, Wr) -> fds s d' = Some (q, Wr)) -> at_ok s' w st.
Proof.
  intros (A & B & I & M) T C F P W. unfold at_ok. rewrite T. split; [exact A|]. split; [exact B|]. split; [exact I|].
  assert (K : forall k st, incl k (mine (threads s w)) -> Forall2 (entry s) k st -> Forall2 (entry s') k st).
  { intros k st0 J H. apply (entries_frame s s' _ _ H); intros; eauto. }
  assert (CO : forall q p, pipes s' q = pipes s q -> child_ok s w q p -> child_ok s' w q p).
  { intros q p Q H. unfold child_ok in *. rewrite C, Q. exact H. }
  unfold mine in *. destruct (threads s w) as [td nw kp tx]. cbn [now kept todo texts] in *. destruct nw as [|i o|i o|o|got|got].
  - destruct M as (M1 & M2). rewrite C. split; [exact M1|]. apply K; [intros d X; exact X|exact M2].
  - destruct M as (M1 & M2 & p & r & q & E & Fi & Fo & Pe). rewrite C. split; [exact M1|]. split; [apply K; [intros d X; cbn; auto|exact M2]|].
    exists p, r, q. split; [exact E|]. split; [rewrite F by (now left); exact Fi|]. split; [rewrite F by (right; now left); exact Fo|]. rewrite (P o q); [exact Pe|right; now left|exact Fo].
  - destruct M as (M2 & p & r & q & E & Fi & Fo & Pe). split; [apply K; [intros d X; cbn; auto|exact M2]|].
    exists p, r, q. split; [exact E|]. split; [rewrite F by (now left); exact Fi|]. split; [rewrite F by (right; now left); exact Fo|]. apply CO; [apply (P o); [right; now left|exact Fo]|exact Pe].
  - destruct M as (M2 & p & r & q & E & Fo & Nw & Pe). split; [apply K; [intros d X; cbn; auto|exact M2]|].
    exists p, r, q. split; [exact E|]. split; [rewrite F by (now left); exact Fo|]. split; [intros d X; apply (Nw d); apply (W o q d); [now left|exact Fo|exact X]|]. apply CO; [apply (P o); [now left|exact Fo]|exact Pe].
  - destruct M as (M1 & l & r & p & o & k & st' & q & E & -> & -> & Fk & Fo & Nw & Pe). rewrite C. split; [exact M1|].
    exists l, r, p, o, k, st', q. split; [exact E|]. split; [reflexivity|]. split; [reflexivity|]. split; [apply K; [intros d X; now right|exact Fk]|].
    split; [rewrite F by (now left); exact Fo|]. split; [intros d X; apply (Nw d); apply (W o q d); [now left|exact Fo|exact X]|]. rewrite (P o q); [exact Pe|now left|exact Fo].
  - destruct M as (M1 & l & r & p & o & k & st' & q & E & -> & -> & Fk & Fo & Nw & Pe). rewrite C. split; [exact M1|].
    exists l, r, p, o, k, st', q. split; [exact E|]. split; [reflexivity|]. split; [reflexivity|]. split; [apply K; [intros d X; now right|exact Fk]|].
    split; [rewrite F by (now left); exact Fo|]. split; [intros d X; apply (Nw d); apply (W o q d); [now left|exact Fo|exact X]|exact Pe].
Qed.

Lemma rebuild s s' w : inv s -> w < n ->
  (forall w', w' <> w -> threads s' w' = threads s w' /\ children s' w' = children s w') ->
  (exists st, at_ok s' w st) -> NoDup (mine (threads s' w)) ->
  (forall d, In d (mine (threads s' w)) -> In d (mine (threads s w)) \/ fds s d = None) ->
  (forall d, In d (mine (threads s' w)) -> d < limit /\ exists e, fds s' d = Some e) ->
  (forall d, ~ In d (mine (threads s' w)) -> ~ In d (mine (threads s w)) -> fds s' d = fds s d) ->
  (forall d, In d (mine (threads s w)) -> ~ In d (mine (threads s' w)) -> fds s' d = None) ->
  (forall q, pipes s' q = pipes s q \/ q = fresh s \/ exists d, In d (mine (threads s w)) /\ fds s d = Some (q, Rd)) ->
  (forall d e, fds s' d = Some e -> fds s d = Some e \/ fst e = fresh s) ->
  (forall d d' e, fds s' d = Some e -> fds s' d' = Some e -> d = d') ->
  (forall d q x, fds s' d = Some (q, x) -> q < fresh s') ->
  (forall l w, locks s' l = Some w -> w < n /\ exists r, todo (threads s' w) = ARead (Some l) :: r /\ match now (threads s' w) with Reading _ | HasRead _ => True | _ => False end) ->
  inv s'.
Proof.
  intros [A1 A2 A3 A4 A5 A6 A7 A8] L O At Nd Fr Mi Sa Go Pi Fd On Old Lk.
  assert (Out : forall w' d, w' < n -> w' <> w -> In d (mine (threads s w')) -> fds s' d = fds s d).
  { intros w' d L' N I. apply Sa.
    - intros I'. destruct (Fr d I') as [X|X]; [exact (N (A3 _ _ _ L' L I X))|]. destruct (A5 w' d L' I) as (_ & e & E). congruence.
    - intros X. exact (N (A3 _ _ _ L' L I X)). }
  constructor; auto.
  - intros w' L'. destruct (Nat.eq_dec w' w) as [->|N]; [exact At|]. destruct (O w' N) as (T & C). destruct (A1 w' L') as (st & S0). exists st.
    apply (at_frame s s' w' st S0 T C); [intros d I; exact (Out w' d L' N I)| |].
    + intros d q I F. destruct (Pi q) as [X|[->|(d' & I' & F')]]; [exact X|exfalso; pose proof (A7 _ _ _ F); lia|].
      exfalso. apply N. assert (d' = d) by (apply (A6 _ _ _ F' F)). subst d'. exact (A3 _ _ _ L' L I I').
    + intros d q d' I F F'. destruct (Fd _ _ F') as [X|X]; [exact X|]. cbn in X. subst q. pose proof (A7 _ _ _ F). lia.
  - intros w' L'. destruct (Nat.eq_dec w' w) as [->|N]; [exact Nd|]. destruct (O w' N) as (T & _). rewrite T. now apply A2.
  - assert (X : forall w1 w2 d, w1 < n -> w2 < n -> w1 = w -> In d (mine (threads s' w1)) -> In d (mine (threads s' w2)) -> w1 = w2).
    { intros w1 w2 d L1 L2 -> I1 I2. destruct (Nat.eq_dec w2 w) as [->|N]; [reflexivity|]. destruct (O w2 N) as (T & _). rewrite T in I2.
      destruct (Fr d I1) as [I|I]; [exact (A3 _ _ _ L L2 I I2)|]. destruct (A5 w2 d L2 I2) as (_ & e & E). congruence. }
    intros w1 w2 d L1 L2 I1 I2. destruct (Nat.eq_dec w1 w) as [E|N1]; [exact (X _ _ _ L1 L2 E I1 I2)|].
    destruct (Nat.eq_dec w2 w) as [E|N2]; [symmetry; exact (X _ _ _ L2 L1 E I2 I1)|].
    destruct (O w1 N1) as (T1 & _), (O w2 N2) as (T2 & _). rewrite T1 in I1. rewrite T2 in I2. exact (A3 _ _ _ L1 L2 I1 I2).
  - intros d e E. destruct (in_dec Nat.eq_dec d (mine (threads s' w))) as [I|I]; [now exists w|].
    destruct (in_dec Nat.eq_dec d (mine (threads s w))) as [J|J]; [rewrite (Go d J I) in E; discriminate|].
    rewrite (Sa d I J) in E. destruct (A4 d e E) as (w' & L' & I'). exists w'. split; [exact L'|].
    destruct (Nat.eq_dec w' w) as [->|N]; [contradiction|]. destruct (O w' N) as (T & _). now rewrite T.
  - intros w' d L' I. destruct (Nat.eq_dec w' w) as [->|N]; [now apply Mi|]. destruct (O w' N) as (T & _). rewrite T in I. rewrite (Out w' d L' N I). exact (A5 w' d L' I).
Qed.


Lemma rebuild_same s s' w : inv s -> w < n ->
  (forall w', w' <> w -> threads s' w' = threads s w' /\ children s' w' = children s w') ->
  (exists st, at_ok s' w st) -> mine (threads s' w) = mine (threads s w) -> fds s' = fds s -> fresh s' = fresh s ->
  (forall q, pipes s' q = pipes s q \/ exists d, In d (mine (threads s w)) /\ fds s d = Some (q, Rd)) ->
  (forall l w, locks s' l = Some w -> w < n /\ exists r, todo (threads s' w) = ARead (Some l) :: r /\ match now (threads s' w) with Reading _ | HasRead _ => True | _ => False end) ->
  inv s'.
Proof.
  intros V L O At M F Fr P Lk. pose proof V as [A1 A2 A3 A4 A5 A6 A7 A8]. apply (rebuild s s' w V L O At); rewrite ?M, ?F, ?Fr; auto; try tauto.
  - intros d I. exact (A5 w d L I).
  - intros q. destruct (P q); auto.
Qed.

Lemma rebuild_close s s' w d : inv s -> w < n ->
  (forall w', w' <> w -> threads s' w' = threads s w' /\ children s' w' = children s w') ->
  (exists st, at_ok s' w st) -> mine (threads s w) = d :: mine (threads s' w) -> fds s' = set (fds s) d None -> fresh s' = fresh s -> pipes s' = pipes s ->
  (forall l w, locks s' l = Some w -> w < n /\ exists r, todo (threads s' w) = ARead (Some l) :: r /\ match now (threads s' w) with Reading _ | HasRead _ => True | _ => False end) ->
  inv s'.
Proof.
  intros V L O At M F Fr P Lk. pose proof V as [A1 A2 A3 A4 A5 A6 A7 A8].
  pose proof (A2 w L) as Nd. rewrite M in Nd. inversion Nd as [|? ? Nd1 Nd2]; subst.
  assert (Fs : forall d', d' <> d -> fds s' d' = fds s d') by (intros d' N; rewrite F; now apply set_other).
  assert (Fd : fds s' d = None) by (rewrite F; apply set_same).
  assert (Sub : forall d' e, fds s' d' = Some e -> fds s d' = Some e).
  { intros d' e E. destruct (Nat.eq_dec d' d) as [->|N]; [congruence|]. now rewrite (Fs d' N) in E. }
  apply (rebuild s s' w V L O At); auto.
  - intros d' I. left. rewrite M. now right.
  - intros d' I. rewrite Fs by (intros ->; contradiction). apply (A5 w d' L). rewrite M. now right.
  - rewrite M. intros d' N1 N2. apply Fs. intros ->. apply N2. now left.
  - rewrite M. intros d' [<-|I] N; [exact Fd|contradiction].
  - intros q. left. now rewrite P.
  - intros d1 d2 e E1 E2. exact (A6 _ _ _ (Sub _ _ E1) (Sub _ _ E2)).
  - intros d' q z E. rewrite Fr. exact (A7 _ _ _ (Sub _ _ E)).
Qed.

Lemma locks_same s s' w t : inv s -> threads s' = set (threads s) w t -> locks s' = locks s ->
  (forall l r, todo (threads s w) = ARead (Some l) :: r -> match now (threads s w) with Reading _ | HasRead _ => True | _ => False end ->
     exists r', todo t = ARead (Some l) :: r' /\ match now t with Reading _ | HasRead _ => True | _ => False end) ->
  forall l w, locks s' l = Some w -> w < n /\ exists r, todo (threads s' w) = ARead (Some l) :: r /\ match now (threads s' w) with Reading _ | HasRead _ => True | _ => False end.
Proof.
  intros V T K H l w' E. rewrite K in E. destruct (in_lock _ V l w' E) as (L' & r & Q & M). split; [exact L'|]. rewrite T. destruct (Nat.eq_dec w' w) as [->|N].
  - rewrite set_same. exact (H l r Q M).
  - rewrite set_other by exact N. eauto.
Qed.

Lemma step_inv s s' : inv s -> jstep cap limit n s s' -> inv s'.
Proof.
  intros V H. pose proof V as [A1 A2 A3 A4 A5 A6 A7 A8].
  destruct H as [s w p r k x i o L T Li Lo Nio Fi Fo|s w p r k x i o q L T Fi|s w a k x i o L T|s w q b t h y L C Cp|s w q h y L C|s w a r k x o L T C|s w l r k x L T Lk
    |s w a o k x got q c rest L T Fo P Cn Cl|s w a o k x got q L T Fo P Nh|s w l r k x got L T|s w r o k x L T].
  - (* pipe *)
    destruct (A1 w L) as (st & Ne0 & Tx & In0 & M). rewrite T in Ne0, Tx, In0, M. cbn [now kept todo texts] in *. destruct M as (C & F).
    assert (Nk : forall d, In d k -> d <> i /\ d <> o).
    { intros d I. destruct (A5 w d L) as (_ & e & E); [rewrite T; exact I|]. split; intros ->; congruence. }
    set (s' := with_thread (with_fresh (with_pipe (with_fd (with_fd s i (Some (fresh s, Wr))) o (Some (fresh s, Rd))) (fresh s) [])) w (Thread (ARun p :: r) (Piped i o) k x)).
    assert (Tw : threads s' w = Thread (ARun p :: r) (Piped i o) k x) by (apply set_same).
    assert (Fs : forall d, fds s' d = if Nat.eqb d o then Some (fresh s, Rd) else if Nat.eqb d i then Some (fresh s, Wr) else fds s d) by reflexivity.
    assert (Ps : forall q, pipes s' q = if Nat.eqb q (fresh s) then [] else pipes s q) by reflexivity.
    assert (Fs' : forall d e, fds s' d = Some e -> (d = o /\ e = (fresh s, Rd)) \/ (d = i /\ e = (fresh s, Wr)) \/ (fds s d = Some e /\ fst e < fresh s)).
    { intros d e E. rewrite Fs in E. destruct (Nat.eqb_spec d o) as [->|]; [left; split; congruence|]. destruct (Nat.eqb_spec d i) as [->|]; [right; left; split; congruence|].
      right. right. split; [exact E|]. destruct e as [q z]. exact (A7 _ _ _ E). }
    apply (rebuild s s' w V L).
    + intros w' N. split; [apply set_other; exact N|reflexivity].
    + exists st. unfold at_ok. rewrite Tw. cbn [todo now kept texts]. split; [exact Ne0|]. split; [exact Tx|]. split; [exact In0|]. split; [exact C|]. split.
      * apply (entries_frame s s' _ _ F).
        -- intros d I. destruct (Nk d I) as (N1 & N2). rewrite Fs. destruct (Nat.eqb_spec d o), (Nat.eqb_spec d i); congruence.
        -- intros d q I E. rewrite Ps. destruct (Nat.eqb_spec q (fresh s)) as [->|]; [|reflexivity]. pose proof (A7 _ _ _ E). lia.
        -- intros d q d' I E E'. apply Fs' in E' as [(_ & Q)|[(_ & Q)|(Q & _)]]; [discriminate| |exact Q]. injection Q as ->. pose proof (A7 _ _ _ E). lia.
      * exists p, r, (fresh s). split; [reflexivity|]. rewrite !Fs, Ps, !Nat.eqb_refl. destruct (Nat.eqb_spec i o); [contradiction|]. split; [reflexivity|split; reflexivity].
    + rewrite Tw. unfold mine. cbn [now kept app In]. specialize (A2 w L). rewrite T in A2. unfold mine in A2. cbn in A2.
      constructor; [intros [X|X]; [congruence|destruct (Nk _ X); congruence]|]. constructor; [intros X; destruct (Nk _ X); congruence|exact A2].
    + rewrite Tw, T. unfold mine. cbn [now kept app In]. intros d [<-|[<-|I]]; auto.
    + rewrite Tw. unfold mine. cbn [now kept app In]. intros d I. split.
      * destruct I as [<-|[<-|I]]; auto. apply (A5 w d L). rewrite T. exact I.
      * rewrite (Fs d). destruct (Nat.eqb_spec d o); [eauto|]. destruct (Nat.eqb_spec d i); [eauto|]. destruct I as [<-|[<-|I]]; try congruence. apply (A5 w d L). rewrite T. exact I.
    + rewrite Tw, T. unfold mine. cbn [now kept app In]. intros d I _. rewrite Fs. destruct (Nat.eqb_spec d o) as [->|]; [destruct I; auto|]. destruct (Nat.eqb_spec d i) as [->|]; [destruct I; auto|reflexivity].
    + rewrite Tw, T. unfold mine. cbn [now kept app In]. intros d I J. destruct J; auto.
    + intros q. rewrite Ps. destruct (Nat.eqb_spec q (fresh s)); auto.
    + intros d e E. apply Fs' in E as [(_ & ->)|[(_ & ->)|(E & _)]]; auto.
    + intros d d' e E E'. apply Fs' in E as [(-> & ->)|[(-> & ->)|(E & Le)]]; apply Fs' in E' as [(-> & Q)|[(-> & Q)|(E' & Le')]]; try congruence; try (subst e; cbn in *; lia); try (cbn in *; lia). exact (A6 _ _ _ E E').
    + intros d q z E. change (fresh s') with (Datatypes.S (fresh s)). apply Fs' in E as [(_ & Q)|[(_ & Q)|(E & Le)]]; [injection Q as -> _; lia|injection Q as -> _; lia|cbn in Le; lia].
    + intros l w' E. change (locks s' l) with (locks s l) in E. destruct (A8 l w' E) as (L' & r' & Q & M). split; [exact L'|]. destruct (Nat.eq_dec w' w) as [->|N]; [rewrite T in Q; discriminate|].
      change (threads s' w') with (set (threads s) w (Thread (ARun p :: r) (Piped i o) k x) w'). rewrite set_other by exact N. eauto.
  - (* spawn *)
    destruct (A1 w L) as (st & Ne0 & Tx & In0 & M). rewrite T in Ne0, Tx, In0, M. cbn [now kept todo texts] in *. destruct M as (C & F & p' & r' & q' & E & Fi' & Fo & Pe).
    injection E as <- <-. rewrite Fi in Fi'. injection Fi' as <-.
    apply (rebuild_same s _ w V L).
    + intros w' N. split; cbn; apply set_other; exact N.
    + exists st. unfold at_ok. cbn [threads with_thread]. rewrite set_same. cbn [todo now kept texts]. split; [exact Ne0|]. split; [exact Tx|]. split; [exact In0|]. split; [exact F|].
      exists p, r, q. split; [reflexivity|]. split; [exact Fi|]. split; [exact Fo|]. unfold child_ok. cbn. rewrite set_same. rewrite Pe. auto.
    + cbn. rewrite set_same, T. reflexivity.
    + reflexivity.
    + reflexivity.
    + auto.
    + eapply locks_same; [exact V|reflexivity|reflexivity|]. rewrite T. discriminate.
  - (* close in *)
    destruct (A1 w L) as (st & Ne0 & Tx & In0 & M). rewrite T in Ne0, Tx, In0, M. cbn [now kept todo texts] in *. destruct M as (F & p' & r' & q' & E & Fi & Fo & Pe).
    pose proof (A2 w L) as Nd. rewrite T in Nd. unfold mine in Nd. cbn in Nd. inversion Nd as [|? ? Nd1 Nd2]; subst.
    apply (rebuild_close s _ w i V L).
    + intros w' N. split; cbn; [apply set_other; exact N|reflexivity].
    + exists st. unfold at_ok. cbn [threads with_thread]. rewrite set_same. cbn [todo now kept texts]. split; [exact Ne0|]. split; [exact Tx|]. split; [exact In0|]. split.
      * apply (entries_frame s _ _ _ F); cbn; auto.
        -- intros d I. apply set_other. intros ->. apply Nd1. now right.
        -- intros d q d' I Fd. unfold set. destruct (Nat.eqb d' i); [discriminate|auto].
      * exists p', r', q'. split; [reflexivity|]. cbn. split; [rewrite set_other; [exact Fo|intros ->; apply Nd1; now left]|]. split; [|exact Pe].
        intros d X. cbn in X. unfold set in X. destruct (Nat.eqb_spec d i) as [|N]; [discriminate|]. apply N. exact (A6 _ _ _ X Fi).
    + cbn. rewrite set_same, T. reflexivity.
    + reflexivity.
    + reflexivity.
    + reflexivity.
    + eapply locks_same; [exact V|reflexivity|reflexivity|]. rewrite T. cbn. tauto.
  - (* write *)
    assert (X : exists st i o p r q', at_ok s w st /\ (now (threads s w) = Spawned i o \/ now (threads s w) = Waiting o) /\ todo (threads s w) = ARun p :: r /\ fds s o = Some (q', Rd) /\ child_ok s w q' p).
    { destruct (A1 w L) as (st & Ne0 & Tx & In0 & M). exists st. assert (AO : at_ok s w st) by (repeat split; assumption).
      destruct (now (threads s w)) as [|i o|i o|o|got|got] eqn:Nw; try (rewrite C in M; destruct M as (M & _); discriminate).
      - destruct M as (F & p' & r' & q' & E & Fi & Fo & Pe). exists i, o, p', r', q'. auto.
      - destruct M as (F & p' & r' & q' & E & Fo & Nwr & Pe). exists 0, o, p', r', q'. auto. }
    destruct X as (st & i & o & p & r & q' & AO & Nw & E & Fo & Co). pose proof Co as Co'. unfold child_ok in Co. rewrite C in Co. destruct Co as (<- & Wp & ->).
    assert (Io : In o (mine (threads s w))) by (unfold mine; destruct Nw as [-> | ->]; cbn; auto).
    apply (rebuild_same s _ w V L).
    + intros w' N. split; cbn; [reflexivity|apply set_other; exact N].
    + exists st. destruct AO as (Ne0 & Tx & In0 & M). unfold at_ok. cbn [threads with_child with_pipe]. split; [exact Ne0|]. split; [exact Tx|]. split; [exact In0|].
      assert (Fk : forall k st, (forall d, In d k -> In d (mine (threads s w)) /\ d <> o) -> Forall2 (entry s) k st -> Forall2 (entry (with_child (with_pipe s q (pipes s q ++ [b])) w (Running q t h (stays p)))) k st).
      { intros k0 st0 Hk F. apply (entries_frame s _ _ _ F); cbn; auto. intros d q1 I Fd. apply set_other. intros ->. destruct (Hk d I) as (_ & N). apply N. exact (A6 _ _ _ Fd Fo). }
      pose proof (A2 w L) as Nd. unfold mine in Nd.
      destruct Nw as [Nw|Nw]; rewrite Nw in M, Nd |- *.
      * destruct M as (F & p' & r' & q' & E' & Fi & Fo' & Pe). rewrite E in E'. injection E' as <- <-. rewrite Fo in Fo'. injection Fo' as <-. cbn in Nd. inversion Nd as [|? ? Nd1 Nd2]; subst. inversion Nd2 as [|? ? Nd3 Nd4]; subst.
        split; [apply Fk; [|exact F]; intros d I; split; [unfold mine; apply in_app_iff; now right|intros ->; contradiction]|].
        exists p, r, q. split; [exact E|]. split; [exact Fi|]. split; [exact Fo|]. unfold child_ok. cbn. rewrite !set_same. split; [reflexivity|]. split; [|reflexivity]. rewrite Wp, <- app_assoc. reflexivity.
      * destruct M as (F & p' & r' & q' & E' & Fo' & Nwr & Pe). rewrite E in E'. injection E' as <- <-. rewrite Fo in Fo'. injection Fo' as <-. cbn in Nd. inversion Nd as [|? ? Nd1 Nd2]; subst.
        split; [apply Fk; [|exact F]; intros d I; split; [unfold mine; apply in_app_iff; now right|intros ->; contradiction]|].
        exists p, r, q. split; [exact E|]. split; [exact Fo|]. split; [exact Nwr|]. unfold child_ok. cbn. rewrite !set_same. split; [reflexivity|]. split; [|reflexivity]. rewrite Wp, <- app_assoc. reflexivity.
    + reflexivity.
    + reflexivity.
    + reflexivity.
    + intros q1. cbn. destruct (Nat.eq_dec q1 q) as [->|N]; [right; now exists o|left; now apply set_other].
    + exact A8.
  - (* exit *)
    assert (Sc : forall s0, s0 = (if y then with_background s h else s) -> threads s0 = threads s /\ children s0 = children s /\ fds s0 = fds s /\ pipes s0 = pipes s /\ fresh s0 = fresh s /\ locks s0 = locks s).
    { intros s0 ->. destruct y; repeat split. }
    destruct (Sc _ eq_refl) as (St & Sch & Sf & Sp & Sfr & Sl). set (s0 := if y then with_background s h else s) in *. clearbody s0. clear Sc.
    apply (rebuild_same s _ w V L).
    + intros w' N. cbn. rewrite St, Sch. split; [reflexivity|apply set_other; exact N].
    + destruct (A1 w L) as (st & Ne0 & Tx & In0 & M). exists st. unfold at_ok. cbn [threads with_child]. rewrite St. split; [exact Ne0|]. split; [exact Tx|]. split; [exact In0|].
      assert (Fk : forall k st, Forall2 (entry s) k st -> Forall2 (entry (with_child s0 w Ended)) k st).
      { intros k0 st0 F. apply (entries_frame s _ _ _ F); cbn; rewrite ?Sf, ?Sp; auto. }
      assert (Nwr' : forall q, no_writer s q -> no_writer (with_child s0 w Ended) q) by (intros q0 H d; cbn; rewrite Sf; apply H).
      destruct (now (threads s w)) as [|i o|i o|o|got|got] eqn:Nw; try (rewrite C in M; destruct M as (M & _); discriminate).
      * destruct M as (F & p & r & q' & E & Fi & Fo & Pe). unfold child_ok in Pe. rewrite C in Pe. destruct Pe as (<- & Wp & _). rewrite app_nil_r in Wp.
        split; [now apply Fk|]. exists p, r, q. split; [exact E|]. cbn. rewrite Sf. split; [exact Fi|]. split; [exact Fo|]. unfold child_ok. cbn. rewrite set_same, Sp. now symmetry.
      * destruct M as (F & p & r & q' & E & Fo & Nwr & Pe). unfold child_ok in Pe. rewrite C in Pe. destruct Pe as (<- & Wp & _). rewrite app_nil_r in Wp.
        split; [now apply Fk|]. exists p, r, q. split; [exact E|]. cbn. rewrite Sf. split; [exact Fo|]. split; [now apply Nwr'|]. unfold child_ok. cbn. rewrite set_same, Sp. now symmetry.
    + cbn. now rewrite St.
    + cbn. exact Sf.
    + cbn. exact Sfr.
    + intros q1. cbn. rewrite Sp. auto.
    + cbn. rewrite St, Sl. exact A8.
  - (* waited *)
    destruct (A1 w L) as (st & Ne0 & Tx & In0 & M). rewrite T in Ne0, Tx, In0, M. cbn [now kept todo texts] in *. destruct M as (F & p' & r' & q' & E & Fo & Nwr & Pe). injection E as -> <-.
    unfold child_ok in Pe. rewrite C in Pe. cbn in Ne0, Tx. destruct Ne0 as (Dp & Ne0).
    apply (rebuild_same s _ w V L).
    + intros w' N. split; cbn; apply set_other; exact N.
    + exists (Some p' :: st). unfold at_ok. cbn [threads with_thread]. rewrite set_same. cbn [todo now kept texts]. split; [exact Ne0|]. split; [exact Tx|].
      split; [intros z I; apply In0; now right|]. cbn [children with_thread with_child]. rewrite set_same. split; [reflexivity|]. constructor; [|apply (entries_frame s _ _ _ F); auto].
      exists q'. split; [exact Fo|]. split; [exact Nwr|exact Pe].
    + cbn. rewrite set_same, T. reflexivity.
    + reflexivity.
    + reflexivity.
    + auto.
    + eapply locks_same; [exact V|reflexivity|reflexivity|]. rewrite T. cbn. tauto.
  - (* lock *)
    destruct (A1 w L) as (st & Ne0 & Tx & In0 & M). rewrite T in Ne0, Tx, In0, M. cbn [now kept todo texts] in *. destruct M as (C & F). cbn in Ne0, Tx. destruct st as [|[p|] st]; try contradiction.
    inversion F as [|o ? k0 ? (q & Fo & Nwr & Pe) Fk]; subst.
    assert (Ks : threads (with_lock s l (Some w)) = threads s /\ children (with_lock s l (Some w)) = children s /\ fds (with_lock s l (Some w)) = fds s /\ pipes (with_lock s l (Some w)) = pipes s /\ fresh (with_lock s l (Some w)) = fresh s).
    { destruct l; repeat split. }
    destruct Ks as (K1 & K2 & K3 & K4 & K5).
    apply (rebuild_same s _ w V L).
    + intros w' N. cbn. rewrite K1, K2. split; [apply set_other; exact N|reflexivity].
    + exists (Some p :: st). unfold at_ok. cbn [threads with_thread]. rewrite set_same. cbn [todo now kept texts]. split; [exact Ne0|]. split; [exact Tx|]. split; [exact In0|].
      cbn [children with_thread]. rewrite K2. split; [exact C|]. exists l, r, p, o, k0, st, q. split; [reflexivity|]. split; [reflexivity|]. split; [reflexivity|].
      split; [apply (entries_frame s _ _ _ Fk); cbn; rewrite ?K3, ?K4; auto|]. cbn. rewrite K3, K4. split; [exact Fo|]. split; [intros d; cbn; rewrite K3; apply Nwr|now rewrite Pe].
    + cbn. rewrite set_same, T. reflexivity.
    + cbn. exact K3.
    + cbn. exact K5.
    + intros q1. cbn. rewrite K4. auto.
    + intros l' w' E. cbn [locks with_thread threads] in *. rewrite K1.
      assert (D : (l = Some l' /\ w' = w) \/ locks s l' = Some w').
      { destruct l as [l|]; [|right; exact E]. cbn in E. unfold set in E. destruct (Nat.eqb_spec l' l) as [->|]; [left; split; congruence|right; exact E]. }
      destruct D as [(-> & ->)|D]; [split; [exact L|]; rewrite set_same; cbn; eauto|].
      destruct (A8 l' w' D) as (L' & r' & Q & M). split; [exact L'|]. destruct (Nat.eq_dec w' w) as [->|N]; [rewrite T in M; contradiction|]. rewrite set_other by exact N. eauto.
  - (* read *)
    destruct (A1 w L) as (st & Ne0 & Tx & In0 & M). rewrite T in Ne0, Tx, In0, M. cbn [now kept todo texts] in *. destruct M as (C & l & r & p & o' & k' & st' & q' & -> & -> & E & Fk & Fo' & Nwr & Wp).
    injection E as <- <-. rewrite Fo in Fo'. injection Fo' as <-.
    pose proof (A2 w L) as Nd. rewrite T in Nd. unfold mine in Nd. cbn in Nd. inversion Nd as [|? ? Nd1 Nd2]; subst.
    apply (rebuild_same s _ w V L).
    + intros w' N. split; cbn; [apply set_other; exact N|reflexivity].
    + exists (Some p :: st'). unfold at_ok. cbn [threads with_thread]. rewrite set_same. cbn [todo now kept texts]. split; [exact Ne0|]. split; [exact Tx|]. split; [exact In0|].
      split; [exact C|]. exists l, r, p, o, k, st', q. split; [reflexivity|]. split; [reflexivity|]. split; [reflexivity|]. split.
      * apply (entries_frame s _ _ _ Fk); cbn; auto. intros d q1 I Fd. apply set_other. intros ->. apply Nd1. replace o with d; [exact I|exact (A6 _ _ _ Fd Fo)].
      * cbn. rewrite set_same. split; [exact Fo|]. split; [exact Nwr|]. rewrite <- app_assoc, <- P. exact Wp.
    + cbn. rewrite set_same, T. reflexivity.
    + reflexivity.
    + reflexivity.
    + intros q1. cbn. destruct (Nat.eq_dec q1 q) as [->|N]; [right; exists o; rewrite T; split; [now left|exact Fo]|left; now apply set_other].
    + eapply locks_same; [exact V|reflexivity|reflexivity|]. rewrite T. cbn. eauto.
  - (* end of file *)
    destruct (A1 w L) as (st & Ne0 & Tx & In0 & M). rewrite T in Ne0, Tx, In0, M. cbn [now kept todo texts] in *. destruct M as (C & l & r & p & o' & k' & st' & q' & -> & -> & E & Fk & Fo' & Nwr & Wp).
    injection E as <- <-. rewrite Fo in Fo'. injection Fo' as <-. rewrite P, app_nil_r in Wp.
    apply (rebuild_same s _ w V L).
    + intros w' N. split; cbn; [apply set_other; exact N|reflexivity].
    + exists (Some p :: st'). unfold at_ok. cbn [threads with_thread]. rewrite set_same. cbn [todo now kept texts]. split; [exact Ne0|]. split; [exact Tx|]. split; [exact In0|].
      split; [exact C|]. exists l, r, p, o, k, st', q. split; [reflexivity|]. split; [reflexivity|]. split; [reflexivity|]. split; [apply (entries_frame s _ _ _ Fk); auto|]. split; [exact Fo|]. split; [exact Nwr|now symmetry].
    + cbn. rewrite set_same, T. reflexivity.
    + reflexivity.
    + reflexivity.
    + auto.
    + eapply locks_same; [exact V|reflexivity|reflexivity|]. rewrite T. cbn. eauto.
  - (* unlock *)
    destruct (A1 w L) as (st & Ne0 & Tx & In0 & M). rewrite T in Ne0, Tx, In0, M. cbn [now kept todo texts] in *. destruct M as (C & l' & r' & p & o & k' & st' & q & E & -> & -> & Fk & Fo & Nwr & ->).
    injection E as <- <-. cbn in Ne0, Tx.
    assert (Ks : threads (with_lock s l None) = threads s /\ children (with_lock s l None) = children s /\ fds (with_lock s l None) = fds s /\ pipes (with_lock s l None) = pipes s /\ fresh (with_lock s l None) = fresh s).
    { destruct l; repeat split. }
    destruct Ks as (K1 & K2 & K3 & K4 & K5).
    apply (rebuild_same s _ w V L).
    + intros w' N. cbn. rewrite K1, K2. split; [apply set_other; exact N|reflexivity].
    + exists (None :: st'). unfold at_ok. cbn [threads with_thread]. rewrite set_same. cbn [todo now kept texts]. split; [exact Ne0|]. split; [rewrite <- app_assoc; exact Tx|].
      split; [intros z I; apply In0; now right|]. cbn [children with_thread]. rewrite K2. split; [exact C|]. constructor.
      * exists q. cbn. rewrite K3. split; [exact Fo|]. split; [intros d; cbn; rewrite K3; apply Nwr|exact Logic.I].
      * apply (entries_frame s _ _ _ Fk); cbn; rewrite ?K3, ?K4; auto.
    + cbn. rewrite set_same, T. reflexivity.
    + cbn. exact K3.
    + cbn. exact K5.
    + intros q1. cbn. rewrite K4. auto.
    + intros l' w' E. cbn [locks with_thread threads] in *. rewrite K1.
      assert (D : l <> Some l' /\ locks s l' = Some w').
      { destruct l as [l|]; [|split; [discriminate|exact E]]. cbn in E. unfold set in E. destruct (Nat.eqb_spec l' l) as [->|N]; [discriminate|]. split; [congruence|exact E]. }
      destruct D as (Nl & D). destruct (A8 l' w' D) as (L' & r' & Q & M). split; [exact L'|]. destruct (Nat.eq_dec w' w) as [->|N]; [rewrite T in Q; cbn in Q; congruence|]. rewrite set_other by exact N. eauto.
  - (* free *)
    destruct (A1 w L) as (st & Ne0 & Tx & In0 & M). rewrite T in Ne0, Tx, In0, M. cbn [now kept todo texts] in *. destruct M as (C & F). inversion F as [|? c ? st' E Fk]; subst. cbn in Ne0, Tx.
    pose proof (A2 w L) as Nd. rewrite T in Nd. unfold mine in Nd. cbn in Nd. inversion Nd as [|? ? Nd1 Nd2]; subst.
    apply (rebuild_close s _ w o V L).
    + intros w' N. split; cbn; [apply set_other; exact N|reflexivity].
    + exists st'. unfold at_ok. cbn [threads with_thread]. rewrite set_same. cbn [todo now kept texts]. split; [exact Ne0|]. split; [exact Tx|]. split; [intros z I; apply In0; now right|].
      split; [exact C|]. apply (entries_frame s _ _ _ Fk); cbn; auto.
      * intros d I. apply set_other. intros ->. contradiction.
      * intros d q d' I Fd. unfold set. destruct (Nat.eqb d' o); [discriminate|auto].
    + cbn. rewrite set_same, T. reflexivity.
    + reflexivity.
    + reflexivity.
    + reflexivity.
    + eapply locks_same; [exact V|reflexivity|reflexivity|]. rewrite T. discriminate.
Qed.

Lemma runs_inv m s : jruns cap limit n m (jstart work) s -> inv s.
Proof.
  intros H. remember (jstart work) as s0 eqn:E. induction H as [|m s0 s s' H IH St]; subst; [exact start_inv|]. exact (step_inv _ _ (IH eq_refl) St).
Qed.

(** *** What has been read *)
Theorem read_own m s w : jruns cap limit n m (jstart work) s -> w < n -> exists rest, wrote [] (work w) = texts (threads s w) ++ rest.
Proof. intros H L. destruct (in_at _ (runs_inv _ _ H) w L) as (st & _ & Tx & _). eauto. Qed.
Theorem all_read m s w : jruns cap limit n m (jstart work) s -> w < n -> through s w -> texts (threads s w) = wrote [] (work w).
Proof.
  intros H L (T & _). destruct (in_at _ (runs_inv _ _ H) w L) as (st & _ & Tx & _). rewrite T in Tx. cbn in Tx. now rewrite app_nil_r in Tx.
Qed.

(** *** Descriptors *)
Definition in_use (t : thread) : nat := length (kept t) + match now t with Piped _ _ | Spawned _ _ | Waiting _ => 1 | _ => 0 end.
Lemma with_lock_threads s l h : threads (with_lock s l h) = threads s.
Proof. now destruct l. Qed.
Lemma step_depth s s' : inv s -> (forall w, w < n -> in_use (threads s w) <= depth) -> jstep cap limit n s s' -> forall w, w < n -> in_use (threads s' w) <= depth.
Proof.
  intros V D H w' L'. specialize (D w' L').
  assert (X : forall s0 w t, threads s0 = threads s -> (w' = w -> in_use t <= depth) -> in_use (threads (with_thread s0 w t) w') <= depth).
  { intros s0 w t E Y. cbn. rewrite E. destruct (Nat.eq_dec w' w) as [->|N]; [rewrite set_same; auto|rewrite set_other by exact N; exact D]. }
  destruct H as [s w p r k x i o L T Li Lo Nio Fi Fo|s w p r k x i o q L T Fi|s w a k x i o L T|s w q b t h y L C Cp|s w q h y L C|s w a r k x o L T C|s w l r k x L T Lk
    |s w a o k x got q c rest L T Fo P Cn Cl|s w a o k x got q L T Fo P Nh|s w l r k x got L T|s w r o k x L T].
  1: { apply X; [reflexivity|]. intros ->. destruct (in_at _ V w L) as (st & Ne0 & _ & _ & M). rewrite T in Ne0, M. cbn [now kept todo] in Ne0, M. destruct M as (_ & F). apply Forall2_length in F.
       cbn in Ne0. unfold in_use. cbn. lia. }
  all: try (apply X; [try reflexivity; apply with_lock_threads|intros ->; rewrite T in D; unfold in_use in *; cbn in *; lia]).
  - exact D.
  - now destruct y.
Qed.
Lemma runs_depth m s : jruns cap limit n m (jstart work) s -> forall w, w < n -> in_use (threads s w) <= depth.
Proof.
  intros H. remember (jstart work) as s0 eqn:E. induction H as [|m s0 s s' H IH St]; subst; [intros w _; cbn; lia|]. exact (step_depth _ _ (runs_inv _ _ H) (IH eq_refl) St).
Qed.
Lemma mine_le t : in_use t <= depth -> length (mine t) <= depth + 1.
Proof. unfold in_use, mine. rewrite app_length. destruct (now t); cbn; lia. Qed.

Lemma flat_map_le {A} (f : A -> list nat) b l : (forall x, In x l -> length (f x) <= b) -> length (flat_map f l) <= length l * b.
Proof.
  induction l as [|x l IH]; intros H; cbn; [lia|]. rewrite app_length. pose proof (H x (or_introl eq_refl)). specialize (IH (fun y I => H y (or_intror I))). lia.
Qed.

Theorem few_descriptors m s l : jruns cap limit n m (jstart work) s -> NoDup l -> (forall d, In d l -> fds s d <> None) -> length l <= n * (depth + 1).
Proof.
  intros H Nd U. pose proof (runs_inv _ _ H) as V. pose proof (runs_depth _ _ H) as Dp.
  transitivity (length (flat_map (fun w => mine (threads s w)) (seq 0 n))).
  - apply NoDup_incl_length; [exact Nd|]. intros d I. destruct (fds s d) as [e|] eqn:E; [|destruct (U d I E)]. destruct (in_used _ V d e E) as (w & L & J). apply in_flat_map. exists w. split; [apply in_seq; lia|exact J].
  - rewrite <- (seq_length n 0) at 2. apply flat_map_le. intros w I. apply in_seq in I. apply mine_le, Dp. lia.
Qed.

Theorem all_closed m s : jruns cap limit n m (jstart work) s -> (forall w, w < n -> through s w) -> forall d, fds s d = None.
Proof.
  intros H T d. pose proof (runs_inv _ _ H) as V. destruct (fds s d) as [e|] eqn:E; [|reflexivity]. exfalso. destruct (in_used _ V d e E) as (w & L & J). destruct (T w L) as (T1 & T2).
  destruct (in_at _ V w L) as (st & Ne0 & _ & _ & M). rewrite T1 in Ne0. cbn in Ne0. subst st. rewrite T2 in M. destruct M as (_ & F). inversion F as [K|]. unfold mine in J. rewrite T2, <- K in J. exact J.
Qed.

(** *** Every run ends *)
Definition thread_load (t : thread) : nat :=
  match now t with Between => costs (todo t) | Piped _ _ => costs (todo t) - 1 | Spawned _ _ => 3 + costs (tl (todo t)) | Waiting _ => 2 + costs (tl (todo t))
  | Reading _ => 2 + costs (tl (todo t)) | HasRead _ => 1 + costs (tl (todo t)) end.
Definition child_load (c : child) : nat := match c with Running _ t _ _ => 1 + 2 * length t | _ => 0 end.
Definition load (s : jst) : nat := total n (fun w => thread_load (threads s w)) + total n (fun w => child_load (children s w)) + total (fresh s) (fun q => length (pipes s q)).

Lemma total_S k f : total (Datatypes.S k) f = total k f + f k.
Proof. unfold total. rewrite seq_S, map_app, list_sum_app. cbn. lia. Qed.
Lemma total_ext k f g : (forall x, x < k -> f x = g x) -> total k f = total k g.
Proof. induction k as [|k IH]; intros H; [reflexivity|]. rewrite !total_S, IH, H by auto. reflexivity. Qed.
Lemma total_set {A} k (h : A -> nat) f w x : w < k -> total k (fun v => h (set f w x v)) + h (f w) = total k (fun v => h (f v)) + h x.
Proof.
  induction k as [|k IH]; intros L; [lia|]. rewrite !total_S. destruct (Nat.eq_dec w k) as [->|N].
  - rewrite set_same. rewrite (total_ext k (fun v => h (set f k x v)) (fun v => h (f v))); [lia|]. intros v Lv. rewrite set_other; [reflexivity|lia].
  - rewrite set_other by lia. specialize (IH ltac:(lia)). lia.
Qed.

Ltac fold_totals := repeat match goal with |- context [total ?k ?f] => let x := fresh "tt" in set (x := total k f) in *; clearbody x end.
Lemma step_load s s' : inv s -> jstep cap limit n s s' -> load s' < load s.
Proof.
  intros V H. pose proof V as [A1 A2 A3 A4 A5 A6 A7 A8]. unfold load.
  destruct H as [s w p r k x i o L T Li Lo Nio Fi Fo|s w p r k x i o q L T Fi|s w a k x i o L T|s w q b t h y L C Cp|s w q h y L C|s w a r k x o L T C|s w l r k x L T Lk
    |s w a o k x got q c rest L T Fo P Cn Cl|s w a o k x got q L T Fo P Nh|s w l r k x got L T|s w r o k x L T]; cbn [threads children pipes fresh with_thread with_child with_pipe with_fd with_fresh].
  - pose proof (total_set n thread_load (threads s) w (Thread (ARun p :: r) (Piped i o) k x) L) as X. rewrite T in X. rewrite total_S.
    rewrite (total_ext (fresh s) (fun q => length (set (pipes s) (fresh s) [] q)) (fun q => length (pipes s q))); [|intros q Lq; rewrite set_other; [reflexivity|lia]]. rewrite set_same. fold_totals. unfold thread_load, costs in X. cbn in X |- *. lia.
  - pose proof (total_set n thread_load (threads s) w (Thread (ARun p :: r) (Spawned i o) k x) L) as X. rewrite T in X.
    pose proof (total_set n child_load (children s) w (Running q (writes p) (inherited limit (fds s) o) (stays p)) L) as Y.
    destruct (A1 w L) as (st & _ & _ & _ & M). rewrite T in M. cbn [now] in M. destruct M as (Cn & _). rewrite Cn in Y. fold_totals. unfold thread_load, child_load, costs in *. cbn in *. lia.
  - pose proof (total_set n thread_load (threads s) w (Thread a (Waiting o) k x) L) as X. rewrite T in X. fold_totals. unfold thread_load in *. cbn in *. lia.
  - pose proof (total_set n child_load (children s) w (Running q t h y) L) as X. rewrite C in X.
    assert (Q : q < fresh s).
    { destruct (A1 w L) as (st & _ & _ & _ & M). destruct (now (threads s w)) as [|i o|i o|o|got|got]; try (rewrite C in M; destruct M as (M & _); discriminate).
      - destruct M as (_ & p & r & q' & _ & _ & Fo & Pe). unfold child_ok in Pe. rewrite C in Pe. destruct Pe as (<- & _). exact (A7 _ _ _ Fo).
      - destruct M as (_ & p & r & q' & _ & Fo & _ & Pe). unfold child_ok in Pe. rewrite C in Pe. destruct Pe as (<- & _). exact (A7 _ _ _ Fo). }
    pose proof (total_set (fresh s) (fun x : bytes => length x) (pipes s) q (pipes s q ++ [b]) Q) as Y. cbn beta in Y. rewrite app_length in Y. fold_totals. cbn in X, Y. lia.
  - assert (Sc : threads (if y then with_background s h else s) = threads s /\ children (if y then with_background s h else s) = children s /\ pipes (if y then with_background s h else s) = pipes s /\ fresh (if y then with_background s h else s) = fresh s) by (destruct y; repeat split).
    destruct Sc as (-> & -> & -> & ->). pose proof (total_set n child_load (children s) w Ended L) as X. rewrite C in X. fold_totals. cbn in X. lia.
  - pose proof (total_set n thread_load (threads s) w (Thread r Between (o :: k) x) L) as X. rewrite T in X.
    pose proof (total_set n child_load (children s) w NoChild L) as Y. rewrite C in Y. fold_totals. unfold thread_load in X. cbn in *. lia.
  - assert (Sc : threads (with_lock s l (Some w)) = threads s /\ children (with_lock s l (Some w)) = children s /\ pipes (with_lock s l (Some w)) = pipes s /\ fresh (with_lock s l (Some w)) = fresh s) by (destruct l; repeat split).
    destruct Sc as (-> & -> & -> & ->). pose proof (total_set n thread_load (threads s) w (Thread (ARead l :: r) (Reading []) k x) L) as X. rewrite T in X. fold_totals. unfold thread_load, costs in X. cbn in X. lia.
  - pose proof (total_set n thread_load (threads s) w (Thread a (Reading (got ++ c)) (o :: k) x) L) as X. rewrite T in X.
    pose proof (total_set (fresh s) (fun x : bytes => length x) (pipes s) q rest (A7 _ _ _ Fo)) as Y. cbn beta in Y. rewrite P, app_length in Y. destruct c as [|c0 c]; [contradiction|]. fold_totals. unfold thread_load in X. cbn in X, Y. lia.
  - pose proof (total_set n thread_load (threads s) w (Thread a (HasRead got) (o :: k) x) L) as X. rewrite T in X. fold_totals. unfold thread_load in X. cbn in X. lia.
  - assert (Sc : threads (with_lock s l None) = threads s /\ children (with_lock s l None) = children s /\ pipes (with_lock s l None) = pipes s /\ fresh (with_lock s l None) = fresh s) by (destruct l; repeat split).
    destruct Sc as (-> & -> & -> & ->). pose proof (total_set n thread_load (threads s) w (Thread r Between k (x ++ [got])) L) as X. rewrite T in X. fold_totals. unfold thread_load, costs in X. cbn in X. lia.
  - pose proof (total_set n thread_load (threads s) w (Thread r Between k x) L) as X. rewrite T in X. fold_totals. unfold thread_load, costs in X. cbn in X. lia.
Qed.

Theorem runs_short m s : jruns cap limit n m (jstart work) s -> m <= total n (fun w => costs (work w)).
Proof.
  intros H. enough (X : m + load s <= total n (fun w => costs (work w))) by lia. remember (jstart work) as s0 eqn:E. induction H as [|m s0 s s' H IH St]; subst.
  - unfold load. change (fresh (jstart work)) with 0. change (fun w => thread_load (threads (jstart work) w)) with (fun w => costs (work w)). change (fun w => child_load (children (jstart work) w)) with (fun _ : nat => 0).
    assert (Z : forall k, total k (fun _ => 0) = 0) by (induction k as [|k IH]; [reflexivity|rewrite total_S; lia]). rewrite Z. change (total 0 (fun q => length (pipes (jstart work) q))) with 0. lia.
  - specialize (IH eq_refl). pose proof (step_load _ _ (runs_inv _ _ H) St). lia.
Qed.

(** *** Nobody waits for ever *)
Hypothesis Fits : all_programs (fun p => length (writes p) <= cap) n work.
Hypothesis Leave : all_programs (fun p => stays p = false) n work.
Hypothesis Room : n * (depth + 1) <= limit.

Lemma child_program s w q t h y : inv s -> w < n -> children s w = Running q t h y ->
  exists p, In (ARun p) (work w) /\ y = stays p /\ writes p = pipes s q ++ t.
Proof.
  intros V L C. destruct (in_at _ V w L) as (st & _ & _ & I & M). destruct (now (threads s w)) as [|i o|i o|o|got|got]; try (rewrite C in M; destruct M as (M & _); discriminate).
  - destruct M as (_ & p & r & q' & E & _ & _ & Pe). unfold child_ok in Pe. rewrite C in Pe. destruct Pe as (<- & W & ->). exists p. split; [apply I; rewrite E; now left|auto].
  - destruct M as (_ & p & r & q' & E & _ & _ & Pe). unfold child_ok in Pe. rewrite C in Pe. destruct Pe as (<- & W & ->). exists p. split; [apply I; rewrite E; now left|auto].
Qed.
Lemma runs_quiet m s : jruns cap limit n m (jstart work) s -> background s = [].
Proof.
  intros H. remember (jstart work) as s0 eqn:E. induction H as [|m s0 s s' H IH St]; subst; [reflexivity|]. specialize (IH eq_refl). pose proof (runs_inv _ _ H) as V.
  destruct St as [s w p r k x i o L T Li Lo Nio Fi Fo|s w p r k x i o q L T Fi|s w a k x i o L T|s w q b t h y L C Cp|s w q h y L C|s w a r k x o L T C|s w l r k x L T Lk
    |s w a o k x got q c rest L T Fo P Cn Cl|s w a o k x got q L T Fo P Nh|s w l r k x got L T|s w r o k x L T]; try exact IH; try (destruct l; exact IH).
  destruct (child_program _ _ _ _ _ _ V L C) as (p & I & -> & _). rewrite (Leave w p L I). exact IH.
Qed.

Lemma child_goes_on s w q t h y : inv s -> w < n -> children s w = Running q t h y -> exists s', jstep cap limit n s s'.
Proof.
  intros V L C. destruct (child_program _ _ _ _ _ _ V L C) as (p & I & _ & W). destruct t as [|b t]; [eexists; eapply j_exit; eauto|]. eexists. eapply j_write; eauto.
  pose proof (Fits w p L I) as F. cbn beta in F. rewrite W, app_length in F. cbn in F. lia.
Qed.

Lemma two_free (l : list nat) k : length l + 2 <= k -> exists i o, i < k /\ o < k /\ i <> o /\ ~ In i l /\ ~ In o l.
Proof.
  intros H. assert (One : forall l', length l' < k -> exists i, i < k /\ ~ In i l').
  { intros l' Hl. destruct (Forall_Exists_dec (fun i => In i l') (fun i => in_dec Nat.eq_dec i l') (seq 0 k)) as [F|E].
    - rewrite Forall_forall in F. pose proof (NoDup_incl_length (seq_NoDup k 0) F) as X. rewrite seq_length in X. lia.
    - apply Exists_exists in E as (i & I & N). apply in_seq in I. exists i. split; [lia|exact N]. }
  destruct (One l ltac:(lia)) as (i & Li & Ni). destruct (One (i :: l) ltac:(cbn; lia)) as (o & Lo & No). exists i, o. repeat split; auto; [intros ->; apply No; now left|intros I; apply No; now right].
Qed.

Lemma flat_map_le_but {A} (f : A -> list nat) b x0 l : In x0 l -> (forall x, In x l -> length (f x) <= b) -> length (f x0) + 2 <= b -> length (flat_map f l) + 2 <= length l * b.
Proof.
  induction l as [|x l IH]; intros I H X; [destruct I|]. cbn. rewrite app_length. destruct I as [->|I].
  - pose proof (flat_map_le f b l (fun y J => H y (or_intror J))). lia.
  - pose proof (H x (or_introl eq_refl)). specialize (IH I (fun y J => H y (or_intror J)) X). lia.
Qed.

Lemma keeps_dec q (c : child) : {match c with Running _ _ h _ => ~ In (q, Wr) h | _ => True end} + {~ match c with Running _ _ h _ => ~ In (q, Wr) h | _ => True end}.
Proof.
  destruct c as [|? ? h ?|]; auto. assert (D : forall a b : pend, {a = b} + {a <> b}) by (decide equality; [decide equality|apply Nat.eq_dec]). destruct (in_dec D (q, Wr) h); [right; tauto|now left].
Qed.
Lemma through_dec (t : thread) : {todo t = [] /\ now t = Between} + {~ (todo t = [] /\ now t = Between)}.
Proof. destruct (todo t); [|right; intros (X & _); discriminate]. destruct (now t); (left; split; reflexivity) || (right; intros (_ & X); discriminate). Qed.

Lemma holder_goes_on s w got : inv s -> background s = [] -> w < n -> now (threads s w) = Reading got \/ now (threads s w) = HasRead got -> exists s', jstep cap limit n s s'.
Proof.
  intros V Bg L Nw. destruct (in_at _ V w L) as (st & _ & _ & _ & M). destruct (threads s w) as [td nw kp tx] eqn:T. cbn [now todo kept] in Nw, M. destruct Nw as [-> | ->].
  - destruct M as (C & l & r & p & o & k & st' & q & -> & -> & -> & Fk & Fo & Nwr & Wp).
    destruct (pipes s q) as [|c rest] eqn:P.
    + destruct (Forall_Exists_dec (fun w' => match children s w' with Running _ _ h _ => ~ In (q, Wr) h | _ => True end)
        (fun w' => keeps_dec q (children s w')) (seq 0 n)) as [F|E].
      * eexists. eapply j_eof; eauto. intros [(d & X)|[(w' & q' & t & h & y & L' & X & I)|X]]; [exact (Nwr d X)| |rewrite Bg in X; exact X].
        rewrite Forall_forall in F. specialize (F w' ltac:(apply in_seq; lia)). rewrite X in F. contradiction.
      * apply Exists_exists in E as (w' & I & N). apply in_seq in I. destruct (children s w') as [|q' t h y|] eqn:C'; try tauto. apply (child_goes_on s w' q' t h y V); [lia|exact C'].
    + eexists. eapply (j_read cap limit n s w _ o k tx got q [c] rest); eauto; [discriminate|]. apply Nat.leb_le. reflexivity.
  - destruct M as (C & l & r & p & o & k & st' & q & -> & -> & -> & Fk & Fo & Nwr & Wp). eexists. eapply j_unlock; eauto.
Qed.

Theorem goes_on m s : jruns cap limit n m (jstart work) s -> (forall w, w < n -> through s w) \/ exists s', jstep cap limit n s s'.
Proof.
  intros H. pose proof (runs_inv _ _ H) as V. pose proof (runs_quiet _ _ H) as Bg. pose proof (runs_depth _ _ H) as Dp.
  destruct (Forall_Exists_dec (fun w => todo (threads s w) = [] /\ now (threads s w) = Between)
    (fun w => through_dec (threads s w)) (seq 0 n)) as [F|E].
  { left. intros w L. rewrite Forall_forall in F. apply F. apply in_seq. lia. }
  right. apply Exists_exists in E as (w & I & N). apply in_seq in I. assert (L : w < n) by lia. clear I.
  destruct (in_at _ V w L) as (st & Ne0 & _ & _ & M). pose proof (Dp w L) as Du. destruct (threads s w) as [td nw kp tx] eqn:T. cbn [now todo kept] in N, Ne0, M. destruct nw as [|i o|i o|o|got|got].
  - destruct M as (C & F). destruct td as [|a r]; [destruct N; auto|]. destruct a as [p|l|].
    + destruct (two_free (flat_map (fun v => mine (threads s v)) (seq 0 n)) limit) as (i & o & Li & Lo & Nio & Ni & No).
      { enough (length (flat_map (fun v => mine (threads s v)) (seq 0 n)) + 2 <= length (seq 0 n) * (depth + 1)) by (rewrite seq_length in *; lia).
        apply (flat_map_le_but _ _ w); [apply in_seq; lia|intros v I; apply in_seq in I; apply mine_le, Dp; lia|]. rewrite T. unfold mine. cbn. cbn in Ne0. apply Forall2_length in F. lia. }
      assert (Free : forall d, ~ In d (flat_map (fun v => mine (threads s v)) (seq 0 n)) -> fds s d = None).
      { intros d Nd. destruct (fds s d) as [e|] eqn:E; [|reflexivity]. destruct Nd. destruct (in_used _ V d e E) as (v & Lv & Iv). apply in_flat_map. exists v. split; [apply in_seq; lia|exact Iv]. }
      eexists. eapply (j_pipe cap limit n s w p r kp tx i o); auto.
    + destruct l as [l|]; [|eexists; eapply j_lock; [exact L|exact T|exact Logic.I]]. destruct (locks s l) as [v|] eqn:K; [|eexists; eapply j_lock; [exact L|exact T|exact K]].
      destruct (in_lock _ V l v K) as (Lv & r' & _ & Q). destruct (now (threads s v)) as [| | | |got|got] eqn:Nv; try contradiction; eapply (holder_goes_on s v got V Bg Lv); rewrite Nv; auto.
    + cbn in Ne0. destruct st as [|c st]; [contradiction|]. inversion F as [|o ? k ? E Fk]; subst. eexists. eapply j_free; eauto.
  - destruct M as (C & F & p & r & q & -> & Fi & Fo & Pe). eexists. eapply j_spawn; eauto.
  - eexists. eapply j_close_in; eauto.
  - destruct M as (F & p & r & q & -> & Fo & Nwr & Co). unfold child_ok in Co. destruct (children s w) as [|q' t h y|] eqn:C; [contradiction| |].
    + exact (child_goes_on s w q' t h y V L C).
    + eexists. eapply j_waited; eauto.
  - apply (holder_goes_on s w got V Bg L). rewrite T. auto.
  - apply (holder_goes_on s w got V Bg L). rewrite T. auto.
Qed.
End Proofs.

(** ** Locks *)
Definition guarded (s : jst) : Prop := forall w l, logging s w l -> locks s l = Some w.
Lemma guarded_frame s w t : guarded s -> (forall l, ~ logging (with_thread s w t) w l) -> guarded (with_thread s w t).
Proof.
  intros G N v l H. destruct (Nat.eq_dec v w) as [->|D]; [destruct (N l H)|]. cbn [locks with_thread]. apply G. unfold logging, with_thread in *. cbn [threads] in *. now rewrite set_other in H by exact D.
Qed.
Lemma guarded_like s s' : guarded s -> threads s' = threads s -> locks s' = locks s -> guarded s'.
Proof. intros G T L v l H. rewrite L. apply G. unfold logging in *. now rewrite <- T. Qed.
Lemma step_guarded cap limit n s s' : guarded s -> jstep cap limit n s s' -> guarded s'.
Proof.
  intros G H. destruct H as [s w p r k x i o L T|s w p r k x i o q L T|s w a k x i o L T|s w q b t h y L C|s w q h y L C|s w a r k x o L T C|s w l r k x L T F|s w a o k x got q c rest L T F P N|s w a o k x got q L T F P N|s w l r k x got L T|s w r o k x L T].
  all: try (apply guarded_frame; [eapply guarded_like; [exact G|reflexivity|reflexivity]|intros l0 (_ & X); unfold with_thread in X; cbn [threads] in X; rewrite set_same in X; exact X]).
  - eapply guarded_like; [exact G|reflexivity|reflexivity].
  - destruct y; (eapply guarded_like; [exact G|reflexivity|reflexivity]).
  - intros v l0 (E & X). unfold with_thread in *. cbn [threads locks] in *. destruct (Nat.eq_dec v w) as [->|D].
    + rewrite set_same in E. cbn [todo] in E. destruct E as (r0 & E). injection E as -> _. cbn [with_lock locks]. apply set_same.
    + rewrite set_other in E, X by exact D. assert (threads (with_lock s l (Some w)) v = threads s v) as Q by (destruct l; reflexivity). rewrite Q in E, X.
      pose proof (G v l0 (conj E X)) as Y. destruct l as [l|]; [|exact Y]. cbn [with_lock locks]. rewrite set_other; [exact Y|]. intros ->. congruence.
  - intros v l0 (E & X). unfold with_thread in *. cbn [threads locks with_pipe] in *. destruct (Nat.eq_dec v w) as [->|D].
    + rewrite set_same in E. cbn [todo] in E. apply G. split; rewrite T; [exact E|exact Logic.I].
    + rewrite set_other in E, X by exact D. exact (G v l0 (conj E X)).
  - intros v l0 (E & X). unfold with_thread in *. cbn [threads locks] in *. destruct (Nat.eq_dec v w) as [->|D].
    + rewrite set_same in E. cbn [todo] in E. apply G. split; rewrite T; [exact E|exact Logic.I].
    + rewrite set_other in E, X by exact D. exact (G v l0 (conj E X)).
  - intros v l0 (E & X). unfold with_thread in *. cbn [threads locks] in *. destruct (Nat.eq_dec v w) as [->|D]; [rewrite set_same in X; destruct X|].
    rewrite set_other in E, X by exact D. assert (threads (with_lock s l None) v = threads s v) as Q by (destruct l; reflexivity). rewrite Q in E, X.
    pose proof (G v l0 (conj E X)) as Y. destruct l as [l|]; [|exact Y]. cbn [with_lock locks]. rewrite set_other; [exact Y|]. intros ->.
    assert (Z : logging s w l) by (split; rewrite T; [exists r; reflexivity|exact Logic.I]). apply G in Z. congruence.
Qed.
Theorem one_logs cap limit n work m s w w' l : jruns cap limit n m (jstart work) s -> logging s w l -> logging s w' l -> w = w'.
Proof.
  intros H A B. assert (G : guarded s).
  { clear A B. remember (jstart work) as s0 eqn:E. induction H as [s0|m s0 s1 s2 H IH St]; [subst s0; intros v l0 (_ & X); destruct X|]. exact (step_guarded _ _ _ _ _ (IH E) St). }
  apply G in A, B. congruence.
Qed.
