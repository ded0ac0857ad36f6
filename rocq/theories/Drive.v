(** * A computable scheduler, to exhibit concrete builds. *)

From Coq Require Import ZArith Ascii String Lia Bool List.
From Verif Require Import Base FileSys Frugal Deps Log Cookie Pool SpecPool Build.
Import ListNotations.
Local Open Scope nat_scope.

Section Drive.
Variable Sig : Type.
Variable prog : nat -> list (Sig -> Sig).
Variable stops : nat -> Sig -> bool.

Definition done (s : st Sig) : bool :=
  match pc Sig s, ops Sig s with MIdle, [] => true | _, _ => false end.

(** The first worker that can move. *)
Fixpoint first_move (ws : list nat) (s : st Sig) : option (st Sig) :=
  match ws with
  | [] => None
  | w :: ws' => match wstep Sig prog stops w s with Some s' => Some s' | None => first_move ws' s end
  end.

(** The client moves whenever it can, otherwise the workers in order of priority. *)
Fixpoint drive (fuel : nat) (ws : list nat) (s : st Sig) : option (st Sig) :=
  if done s then Some s else
  match fuel with
  | 0 => None
  | S n =>
    match mstep Sig s with
    | Some s' => drive n ws s'
    | None => match first_move ws s with Some s' => drive n ws s' | None => None end
    end
  end.

Lemma done_finished s : done s = true -> finished Sig s.
Proof. unfold done, finished. destruct (pc Sig s); try discriminate. destruct (ops Sig s); try discriminate. auto. Qed.

Lemma first_move_step ws s s' : first_move ws s = Some s' -> step Sig prog stops s s'.
Proof.
  induction ws as [|w ws IH]; cbn; [discriminate|]. destruct (wstep Sig prog stops w s) eqn:W; auto.
  intros [= <-]. right. eauto.
Qed.

Lemma drive_reach n os x fuel ws : forall s s', reachable Sig prog stops n os x s -> drive fuel ws s = Some s' ->
  reachable Sig prog stops n os x s' /\ finished Sig s'.
Proof.
  induction fuel as [|fuel IH]; intros s s' R D; cbn in D; destruct (done s) eqn:Dn.
  - injection D as <-. split; auto. now apply done_finished.
  - discriminate.
  - injection D as <-. split; auto. now apply done_finished.
  - destruct (mstep Sig s) as [s1|] eqn:M.
    + apply (IH s1); auto. econstructor; eauto. left. auto.
    + destruct (first_move ws s) as [s1|] eqn:F; [|discriminate]. apply (IH s1); auto. econstructor; eauto. eapply first_move_step; eauto.
Qed.

(** The state after that many moves. *)
Fixpoint moves (n : nat) (ws : list nat) (s : st Sig) : st Sig :=
  match n with
  | 0 => s
  | S n' =>
    match mstep Sig s with
    | Some s' => moves n' ws s'
    | None => match first_move ws s with Some s' => moves n' ws s' | None => s end
    end
  end.

Lemma moves_reach k n os x ws : forall s, reachable Sig prog stops n os x s -> reachable Sig prog stops n os x (moves k ws s).
Proof.
  induction k as [|k IH]; intros s R; cbn; auto. destruct (mstep Sig s) as [s1|] eqn:M.
  - apply IH. econstructor; eauto. left. auto.
  - destruct (first_move ws s) as [s1|] eqn:F; auto. apply IH. econstructor; eauto. eapply first_move_step; eauto.
Qed.
End Drive.

Section Build.
Variable E : env.

Fixpoint returned (tr : list event) : option Z :=
  match tr with [] => None | EvRet rv :: _ => Some rv | _ :: tr' => returned tr' end.

Lemma returned_in tr rv : returned tr = Some rv -> In (EvRet rv) tr.
Proof. induction tr as [|e tr IH]; cbn; [discriminate|]. destruct e; auto. intros [= <-]; auto. Qed.

Definition compile_run (fuel : nat) (ws : list nat) (its : list item) (w : world) : option (Z * world) :=
  let '(ok, jobs, w1) := validate_all E its w in
  match drive jst (job_prog E jobs) job_stops fuel ws
          (init jst (ncpus E) (compile_client ok (length jobs)) (JSt w1 (fun _ => local0))) with
  | None => None
  | Some s =>
    if ok then match returned (trace jst s) with Some rv => Some (rv, jw (sig jst s)) | None => None end
    else Some ((-1)%Z, jw (sig jst s))
  end.

Lemma compile_run_sound fuel ws its w rv w' : compile_run fuel ws its w = Some (rv, w') -> compile_step E its w rv w'.
Proof.
  unfold compile_run, compile_step. destruct (validate_all E its w) as [[ok jobs] w1] eqn:V.
  destruct (drive _ _ _ _ _ _) as [s|] eqn:D; [|discriminate].
  destruct (drive_reach jst (job_prog E jobs) job_stops (ncpus E) (compile_client ok (length jobs)) (JSt w1 (fun _ => local0)) fuel ws
              (init jst (ncpus E) (compile_client ok (length jobs)) (JSt w1 (fun _ => local0))) s) as [R F]; [constructor|exact D|].
  intros H. exists ok, jobs, w1, s. destruct ok.
  - destruct (returned (trace jst s)) as [r|] eqn:Rt; [|discriminate]. injection H as <- <-. apply returned_in in Rt. repeat split; auto; apply F.
  - injection H as <- <-. repeat split; auto; apply F.
Qed.

(** A compile step interrupted after some moves. *)
Definition compile_cut (k : nat) (ws : list nat) (its : list item) (w : world) : world :=
  let '(ok, jobs, w1) := validate_all E its w in
  jw (sig jst (moves jst (job_prog E jobs) job_stops k ws
                 (init jst (ncpus E) (compile_client ok (length jobs)) (JSt w1 (fun _ => local0))))).

Lemma compile_cut_during k ws its w : compile_during E its w (compile_cut k ws its w).
Proof.
  unfold compile_cut, compile_during. destruct (validate_all E its w) as [[ok jobs] w1] eqn:V.
  right. eexists ok, jobs, w1, _. split; auto. split; [|reflexivity]. apply moves_reach. constructor.
Qed.

Definition step_run (fuel : nat) (ws : list nat) (b : bstep) (w : world) : option (Z * world) :=
  match b with SCompile its => compile_run fuel ws its w | SLink r => Some (link_step E r w) end.

Fixpoint build_run (fuel : nat) (ws : list nat) (bs : list bstep) (w : world) : option (Z * world) :=
  match bs with
  | [] => Some (0%Z, w)
  | b :: rest =>
    match step_run fuel ws b w with
    | None => None
    | Some (rv, w1) => if Z.ltb rv 0 then Some ((-1)%Z, w1) else build_run fuel ws rest w1
    end
  end.

Theorem build_run_sound fuel ws bs : forall w rv w', build_run fuel ws bs w = Some (rv, w') -> run_steps E bs w rv w'.
Proof.
  induction bs as [|b bs IH]; intros w rv w' H; cbn in H.
  - injection H as <- <-. constructor.
  - destruct (step_run fuel ws b w) as [[r1 w1]|] eqn:S1; [|discriminate].
    assert (O : one_step E b w r1 w1).
    { destruct b as [its|r]; cbn in *; [eapply compile_run_sound; eauto|congruence]. }
    destruct (Z.ltb_spec r1 0).
    + injection H as <- <-. econstructor; eauto.
    + econstructor; eauto.
Qed.
End Build.
