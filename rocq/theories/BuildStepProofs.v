From Coq Require Import ZArith Ascii String Lia Bool List.
From Verif Require Import Base BuildStep.
Import ListNotations.

Section Proofs.
Variables (CB D : Type).
Variable cb_eqb : CB -> CB -> bool.
Hypothesis cb_eqb_spec : forall a b, cb_eqb a b = true <-> a = b.

Notation step := (build_step CB D).
Notation req := (request CB D).

(** The individual requests a list of steps stands for. *)
Definition unfold_steps (steps : list step) : list (CB * D) :=
  concat (map (fun s => map (pair (bs_cb s)) (bs_data s)) steps).

(** Requests sharing a key agree on name and callback: what the C callers guarantee (keys are
    addresses of live objects, one kind of request per object). *)
Definition consistent (rs : list req) : Prop :=
  forall a b, In a rs -> In b rs -> rq_unique a = rq_unique b -> rq_name a = rq_name b /\ rq_cb a = rq_cb b.

Definition covered (steps : list step) (rs : list req) : Prop :=
  forall s, In s steps -> exists r, In r rs /\ rq_unique r = bs_unique s /\ rq_name r = bs_name s /\ rq_cb r = bs_cb s.

Lemma add_one_ok steps r rs :
  covered steps rs -> consistent (r :: rs) ->
  exists steps', add_build_step cb_eqb steps r = Ok steps'
    /\ unfold_steps steps' = unfold_steps steps ++ [(rq_cb r, rq_data r)]
    /\ covered steps' (r :: rs).
Proof.
  intros Hc Hcons. induction steps as [|s rest IH].
  - eexists; split; [reflexivity|]. split; auto. intros s [<-|[]]. exists r; simpl; auto.
  - destruct rest as [|s' rest'].
    + simpl. destruct (Z.eqb_spec (bs_unique s) (rq_unique r)) as [E|E].
      * destruct (Hc s (or_introl eq_refl)) as (r0 & Hin & Hu & Hn & Hcb).
        destruct (Hcons r0 r (or_intror Hin) (or_introl eq_refl) ltac:(congruence)) as [A B].
        rewrite <- Hn, A, bytes_eqb_refl. simpl.
        replace (cb_eqb (rq_cb r) (bs_cb s)) with true by (symmetry; apply cb_eqb_spec; congruence).
        simpl. eexists; split; [reflexivity|]. split.
        -- unfold unfold_steps. simpl. rewrite !app_nil_r, map_app. simpl. congruence.
        -- intros s0 [<-|[]]. exists r. simpl. repeat split; auto; congruence.
      * eexists; split; [reflexivity|]. split.
        -- unfold unfold_steps. simpl. now rewrite !app_nil_r.
        -- intros s0 [<-|[<-|[]]].
           ++ destruct (Hc s (or_introl eq_refl)) as (r0 & Hin & ?). exists r0; simpl; auto.
           ++ exists r; simpl; auto.
    + destruct IH as (st & Hadd & Hun & Hcov).
      { intros s0 H0. apply Hc. now right. }
      cbn [add_build_step] in *. change (add_build_step cb_eqb (s' :: rest') r = Ok st) in Hadd.
      exists (s :: st). split.
      * change (bind (add_build_step cb_eqb (s' :: rest') r) (fun rest'0 => Ok (s :: rest'0)) = Ok (s :: st)).
        now rewrite Hadd.
      * split.
        -- change (unfold_steps (s :: st)) with (map (pair (bs_cb s)) (bs_data s) ++ unfold_steps st).
           rewrite Hun, app_assoc. reflexivity.
        -- intros s0 [<-|Hin]; [|apply Hcov; auto].
           destruct (Hc s (or_introl eq_refl)) as (r0 & Hin & ?). exists r0; simpl; auto.
Qed.

Lemma consistent_sub a b : (forall x, In x a -> In x b) -> consistent b -> consistent a.
Proof. intros H C x y Hx Hy. apply C; auto. Qed.

Lemma add_all_ok rs : forall steps done,
  covered steps done -> consistent (done ++ rs) ->
  exists steps', add_all cb_eqb steps rs = Ok steps'
    /\ unfold_steps steps' = unfold_steps steps ++ map (fun r => (rq_cb r, rq_data r)) rs.
Proof.
  induction rs as [|r rs IH]; intros steps done Hc Hcons; simpl.
  - exists steps. now rewrite app_nil_r.
  - destruct (add_one_ok steps r done Hc) as (st & Hadd & Hun & Hcov).
    { eapply consistent_sub; [|exact Hcons]. intros x [<-|Hx]; apply in_or_app; simpl; auto. }
    rewrite Hadd. simpl.
    destruct (IH st (r :: done) Hcov) as (st' & Hall & Hun').
    { eapply consistent_sub; [|exact Hcons]. intros x. simpl. rewrite !in_app_iff. simpl. tauto. }
    exists st'. split; auto. rewrite Hun', Hun, <- app_assoc. reflexivity.
Qed.

Theorem requests_preserved rs :
  consistent rs ->
  exists steps, add_all cb_eqb [] rs = Ok steps
    /\ unfold_steps steps = map (fun r => (rq_cb r, rq_data r)) rs.
Proof.
  intros H. destruct (add_all_ok rs [] []) as (st & A & B); auto.
  - intros s [].
  - exists st. auto.
Qed.

(** ** Running *)

Variable W : Type.
Variable call : CB -> list D -> W -> Z * W.

Lemma run_trace steps : forall w rv w' tr,
  run_build_steps call steps w = (rv, w', tr) ->
  (rv = 0%Z /\ tr = steps) \/
  (rv = (-1)%Z /\ exists pre s post wf, steps = pre ++ s :: post /\ tr = pre ++ [s]
     /\ run_build_steps call pre w = (0%Z, wf, pre)
     /\ (fst (call (bs_cb s) (bs_data s) wf) < 0)%Z /\ w' = snd (call (bs_cb s) (bs_data s) wf)).
Proof.
  induction steps as [|s rest IH]; intros w rv w' tr H; simpl in H.
  - injection H as <- <- <-. auto.
  - destruct (call (bs_cb s) (bs_data s) w) as [r w1] eqn:E.
    destruct (Z.ltb_spec r 0).
    + injection H as <- <- <-. right. split; auto. exists [], s, rest, w. simpl. rewrite E. simpl. repeat split; auto.
    + destruct (run_build_steps call rest w1) as [[r2 w2] tr2] eqn:E2. injection H as <- <- <-.
      destruct (IH _ _ _ _ E2) as [[-> ->]|(-> & pre & s0 & post & wf & -> & -> & Hp & Hlt & ->)]; auto.
      right. split; auto. exists (s :: pre), s0, post, wf. repeat split; auto.
      simpl. rewrite E. destruct (Z.ltb_spec r 0); [lia|]. now rewrite Hp.
Qed.

Lemma run_ok_all steps : forall w w' tr,
  run_build_steps call steps w = (0%Z, w', tr) ->
  forall pre s post, steps = pre ++ s :: post ->
  exists ws, run_build_steps call pre w = (0%Z, ws, pre) /\ (0 <= fst (call (bs_cb s) (bs_data s) ws))%Z.
Proof.
  induction steps as [|s0 rest IH]; intros w w' tr H pre s post E.
  - destruct pre; discriminate.
  - simpl in H. destruct (call (bs_cb s0) (bs_data s0) w) as [r w1] eqn:Ec.
    destruct (Z.ltb_spec r 0); [injection H; discriminate|].
    destruct (run_build_steps call rest w1) as [[r2 w2] tr2] eqn:E2. injection H as -> <- <-.
    destruct pre as [|p pre]; simpl in E; injection E as -> ->.
    + exists w. rewrite Ec. auto.
    + destruct (IH _ _ _ E2 pre s post eq_refl) as (ws & Hr & Hlt). exists ws. split; auto.
      simpl. rewrite Ec. destruct (Z.ltb_spec r 0); [lia|]. now rewrite Hr.
Qed.

End Proofs.

Arguments unfold_steps {CB D}.
Arguments consistent {CB D}.

From Verif Require Import SpecSteps.

Lemma performed_unfold {CB D} (st : list (build_step CB D)) : performed st = unfold_steps st.
Proof. induction st as [|s st IH]; simpl; auto. unfold unfold_steps in *. simpl. now rewrite IH. Qed.

Lemma performed_app {CB D} (a b : list (build_step CB D)) : performed (a ++ b) = performed a ++ performed b.
Proof. induction a; simpl; auto. now rewrite IHa, app_assoc. Qed.

Lemma run_requests :
  forall (CB D W : Type) (cb_eqb : CB -> CB -> bool), (forall a b, cb_eqb a b = true <-> a = b) ->
  forall (rs : list (request CB D)), consistent_keys rs ->
  exists steps, add_all cb_eqb [] rs = Ok steps /\
  forall (call : CB -> list D -> W -> Z * W) w rv w' tr, run_build_steps call steps w = (rv, w', tr) ->
    (rv = 0%Z -> performed tr = requested rs) /\
    (rv <> 0%Z -> exists rest, performed tr ++ rest = requested rs).
Proof.
  intros CB D W cb_eqb Hspec rs Hc. destruct (requests_preserved CB D cb_eqb Hspec rs Hc) as (steps & A & B).
  exists steps. split; auto. intros call w rv w' tr R.
  assert (P : performed steps = requested rs) by (rewrite performed_unfold; exact B).
  destruct (run_trace CB D W call steps w rv w' tr R) as [[-> ->]|(-> & pre & s & post & wf & -> & -> & _)].
  - split; auto. congruence.
  - split; [discriminate|]. intros _. exists (performed post).
    rewrite <- P. change (pre ++ s :: post) with (pre ++ [s] ++ post). rewrite app_assoc. now rewrite (performed_app (pre ++ [s]) post).
Qed.
