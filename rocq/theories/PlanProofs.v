(** * Requests become good scripts. *)

From Coq Require Import ZArith Ascii String Lia Bool List.
From Verif Require Import Base FileSys Frugal Cookie CookieProofs SpecNames BuildStep BuildStepProofs SpecFiles Build SpecBuild SpecHistory Plan SpecPlan.
Import ListNotations.
Local Open Scope nat_scope.

Lemma cb_spec a b : step_cb_eqb a b = true <-> a = b.
Proof. destruct a, b; cbn; split; congruence. Qed.

(** A step has at most as many payloads as there are requests with its key. *)
Section Merge.
Variables (CB D : Type) (cb_eqb : CB -> CB -> bool).

Fixpoint same_key (k : Z) (rs : list (request CB D)) : nat :=
  match rs with [] => 0 | r :: rest => (if Z.eqb (rq_unique r) k then 1 else 0) + same_key k rest end.

Lemma same_key_app k a b : same_key k (a ++ b) = same_key k a + same_key k b.
Proof. induction a; cbn; auto. rewrite IHa. lia. Qed.

Definition bounded (steps : list (build_step CB D)) (rs : list (request CB D)) : Prop :=
  forall s, In s steps -> 1 <= length (bs_data s) <= same_key (bs_unique s) rs.

Lemma add_one_bounded steps r steps' rs : add_build_step cb_eqb steps r = Ok steps' -> bounded steps rs -> bounded steps' (rs ++ [r]).
Proof.
  revert steps'. induction steps as [|s rest IH]; intros steps' H B.
  - cbn in H. injection H as <-. intros s [<-|[]]. cbn. rewrite same_key_app. cbn. rewrite Z.eqb_refl. lia.
  - assert (Bs : 1 <= length (bs_data s) <= same_key (bs_unique s) rs) by (apply B; cbn; auto).
    destruct rest as [|s' rest'].
    + cbn in H. destruct (Z.eqb_spec (bs_unique s) (rq_unique r)) as [Eq|Ne].
      * destruct (negb _); [discriminate|]. destruct (negb _); [discriminate|]. injection H as <-.
        intros x [<-|[]]. cbn. rewrite app_length, same_key_app. cbn. rewrite Eq, Z.eqb_refl. rewrite Eq in Bs. lia.
      * injection H as <-. intros x [<-|[<-|[]]].
        -- rewrite same_key_app. cbn. lia.
        -- cbn. rewrite same_key_app. cbn. rewrite Z.eqb_refl. lia.
    + assert (X : exists st, add_build_step cb_eqb (s' :: rest') r = Ok st /\ steps' = s :: st).
      { cbn [add_build_step] in H. change (bind (add_build_step cb_eqb (s' :: rest') r) (fun x => Ok (s :: x)) = Ok steps') in H.
        destruct (add_build_step cb_eqb (s' :: rest') r) as [st| | | |]; cbn in H; try discriminate. injection H as <-. eauto. }
      destruct X as (st & X1 & ->). intros x [<-|Hx].
      * rewrite same_key_app. lia.
      * apply (IH st X1); auto. intros y Hy. apply B. right; auto.
Qed.

Lemma add_all_bounded rs : forall steps done steps', add_all cb_eqb steps rs = Ok steps' -> bounded steps done -> bounded steps' (done ++ rs).
Proof.
  induction rs as [|r rs IH]; intros steps done steps' H B; cbn in H.
  - injection H as <-. now rewrite app_nil_r.
  - destruct (add_build_step cb_eqb steps r) as [st| | | |] eqn:A; cbn in H; try discriminate.
    replace (done ++ r :: rs) with ((done ++ [r]) ++ rs) by (now rewrite <- app_assoc).
    eapply IH; eauto. eapply add_one_bounded; eauto.
Qed.

Lemma add_one_covered steps r steps' : add_build_step cb_eqb steps r = Ok steps' ->
  (forall a b, cb_eqb a b = true <-> a = b) ->
  forall rs, covered CB D steps rs -> covered CB D steps' (r :: rs).
Proof.
  intros H Sp rs. revert steps' H. induction steps as [|s rest IH]; intros steps' H C.
  - cbn in H. injection H as <-. intros x [<-|[]]. exists r. cbn. auto.
  - assert (Cs : exists r0, In r0 rs /\ rq_unique r0 = bs_unique s /\ rq_name r0 = bs_name s /\ rq_cb r0 = bs_cb s) by (apply C; cbn; auto).
    destruct Cs as (r0 & R0 & R1 & R2 & R3). destruct rest as [|s' rest'].
    + cbn in H. destruct (Z.eqb_spec (bs_unique s) (rq_unique r)) as [Eq|Ne].
      * destruct (negb _); [discriminate|]. destruct (negb _); [discriminate|]. injection H as <-.
        intros x [<-|[]]. exists r0. cbn. auto.
      * injection H as <-. intros x [<-|[<-|[]]]; [exists r0|exists r]; cbn; auto.
    + assert (X : exists st, add_build_step cb_eqb (s' :: rest') r = Ok st /\ steps' = s :: st).
      { cbn [add_build_step] in H. change (bind (add_build_step cb_eqb (s' :: rest') r) (fun x => Ok (s :: x)) = Ok steps') in H.
        destruct (add_build_step cb_eqb (s' :: rest') r) as [st| | | |]; cbn in H; try discriminate. injection H as <-. eauto. }
      destruct X as (st & X1 & ->). intros x [<-|Hx].
      * exists r0. cbn. auto.
      * apply (IH st X1); auto. intros y Hy. apply C. right; auto.
Qed.

Lemma add_all_covered rs : (forall a b, cb_eqb a b = true <-> a = b) ->
  forall steps done steps', add_all cb_eqb steps rs = Ok steps' -> covered CB D steps done ->
  covered CB D steps' (rs ++ done).
Proof.
  intros Sp. induction rs as [|r rs IH]; intros steps done steps' H C; cbn in H.
  - injection H as <-. auto.
  - destruct (add_build_step cb_eqb steps r) as [st| | | |] eqn:A; cbn in H; try discriminate.
    pose proof (IH st (r :: done) steps' H (add_one_covered _ _ _ A Sp _ C)) as X.
    intros s Hs. destruct (X s Hs) as (r0 & Hin & Hr). exists r0. split; auto. cbn. rewrite in_app_iff in *. cbn in Hin. tauto.
Qed.
End Merge.

Section Names.
Variables (sg : bool) (out : bytes).
Variable E : env.
Variable inst_area : bytes -> Prop.
Variable srcs : bytes -> Prop.
Variable links : link_kind -> list bytes -> Prop.
Notation area := (product_dir out).
Notation source := (source area inst_area).
Hypothesis WN : well_named sg out E inst_area srcs links.
Notation objs := (named_item sg out srcs).
Notation reqs := (named_link sg out links).

Lemma direct_in_area c : direct_child (out ++ lit "/bob") c -> area c.
Proof. intros (name & -> & _). exists name. rewrite <- !app_assoc. reflexivity. Qed.

Lemma area_side c k : area c -> area (side_file k c).
Proof. intros (name & ->). exists (name ++ side_ext k). unfold side_file. rewrite <- !app_assoc. reflexivity. Qed.

Lemma product_in_area c : product sg out c -> in_area area c.
Proof.
  intros P. assert (A : area c).
  { apply direct_in_area. destruct P as [src c H|k ss]; [|apply link_cookie_direct].
    eapply gen_cookie_direct; eauto; [apply not_in_lit_dec; reflexivity|discriminate]. }
  split; [intros k c' H; revert H; eapply side_not_product; eauto|]. split; auto. intros k. now apply area_side.
Qed.

Theorem named_project : project E area inst_area objs reqs.
Proof.
  constructor.
  - intros it (_ & H & _). apply product_in_area. econstructor; eauto.
  - intros r (_ & -> & _). apply product_in_area. constructor.
  - intros it (H & _). apply (wn_src _ _ _ _ _ _ WN). auto.
  - intros a b (A1 & A2 & _) (B1 & B2 & _) Eq. rewrite Eq in A2. eapply (wn_inj _ _ _ _ _ _ WN); eauto.
  - intros a b (A1 & A2 & _) (B1 & B2 & _) Eq. rewrite A2, B2 in Eq. destruct (link_cookie_inv _ _ _ _ _ _ Eq) as [Ek _].
    split; auto. rewrite Ek in *. eapply (wn_link _ _ _ _ _ _ WN); eauto.
  - intros it r (_ & A & _) (_ & -> & _). eapply obj_not_link; eauto.
  - intros r s (A & B & _) Hs. destruct (wn_inputs _ _ _ _ _ _ WN _ _ s A Hs) as [N [X|[(s' & X & Y)|(k' & l' & X & Y)]]].
    + split; [congruence|auto].
    + split; [congruence|]. right. left. exists (Item [] s' s). split; [split; [exact X|split; [exact Y|cbn; constructor]]|reflexivity].
    + split; [congruence|]. right. right. exists (LinkReq k' [] l' s). split; [split; [exact X|split; [exact Y|cbn; constructor]]|reflexivity].
  - intros it (_ & _ & H). exact H.
  - intros r (_ & _ & H). exact H.
  - apply WN.
Qed.

(** One step per request. *)
Definition one_to_one (r : req) (b : bstep) : Prop :=
  match r with
  | RCompile _ fl ss => exists its, compile_items sg out fl ss = Ok its /\ b = SCompile its
  | RLink _ k fl ss => b = SLink (LinkReq k fl ss (link_cookie sg out k ss))
  end.

Lemma compile_items_ok fl ss : (forall s, In s ss -> srcs s) ->
  exists its, compile_items sg out fl ss = Ok its /\ Forall2 (object_of sg out) ss (map it_out its) /\
  (Forall plain fl -> forall it, In it its -> objs it) /\ map it_src its = ss /\ forall it, In it its -> it_flags it = fl.
Proof.
  induction ss as [|s ss IH]; intros H.
  - exists []. cbn. repeat split; auto; intros; contradiction.
  - destruct IH as (its & A & B & C & C2 & C3); [intros x Hx; apply H; cbn; auto|].
    destruct (wn_src _ _ _ _ _ _ WN s) as [Ns Ss]; [apply H; cbn; auto|].
    assert (X : exists c, gen_cookie sg out s (lit "o") = Ok c).
    { eexists. apply gen_cookie_ok; auto. apply not_in_lit_dec; reflexivity. }
    destruct X as [c Hc]. exists (Item fl (cstr s) c :: its). cbn [compile_items]. rewrite Hc. cbn [bind]. rewrite A. cbn. rewrite (cstr_nul_free s Ns).
    split; [reflexivity|]. split; [constructor; auto|]. split; [|split; [congruence|intros it [<-|Hin]; auto]].
    intros Pl it [<-|Hin]; auto. split; [apply H; cbn; auto|]. split; [exact Hc|exact Pl].
Qed.

Lemma forall2_fun (A B : Type) (R : A -> B -> Prop) l : (forall a b b', R a b -> R a b' -> b = b') ->
  forall m m', Forall2 R l m -> Forall2 R l m' -> m = m'.
Proof.
  intros F. induction l as [|a l IH]; intros m m' H1 H2; inversion H1; inversion H2; subst; auto. f_equal; eauto.
Qed.

Lemma object_of_fun a b b' : object_of sg out a b -> object_of sg out a b' -> b = b'.
Proof. unfold object_of. congruence. Qed.

(** Unmerged steps are ordered; merging keeps that. *)
Lemma expanded_ordered rs : forall done, (forall r, In r rs -> good_req srcs links r) -> in_order sg out inst_area done rs ->
  exists bs, Forall2 one_to_one rs bs /\ ordered area inst_area done bs /\ NoDup (outs bs) /\
  (forall o, In o (outs bs) -> ~ In o done) /\
  (forall its it, In (SCompile its) bs -> In it its -> objs it) /\ (forall r, In (SLink r) bs -> reqs r).
Proof.
  induction rs as [|r rs IH]; intros done G H.
  - exists []. cbn. repeat split; auto; try (intros; contradiction). constructor.
  - destruct r as [cc fl ss|id k fl ss].
    + assert (X : exists cs, Forall2 (object_of sg out) ss cs /\ NoDup cs /\ (forall c, In c cs -> ~ In c done) /\ in_order sg out inst_area (cs ++ done) rs).
      { inversion H; subst. match goal with Y : req_products _ _ _ _ |- _ => inversion Y; subst end. eauto. }
      destruct X as (cs & X1 & X2 & X3 & X4).
      destruct (G (RCompile cc fl ss)) as [G1 G2]; [cbn; auto|].
      destruct (compile_items_ok fl ss G2) as (its & A & B & C & _).
      assert (cs = map it_out its) by (eapply forall2_fun; [apply object_of_fun|eauto|eauto]). subst cs.
      destruct (IH _ (fun r Hr => G r (or_intror Hr)) X4) as (bs & B1 & B2 & B3 & B4 & B5 & B6).
      exists (SCompile its :: bs). split; [constructor; auto; cbn; eauto|]. split; [exact B2|].
      unfold outs. cbn. fold (outs bs).
      assert (Ap : forall l1 l2 : list bytes, NoDup l1 -> NoDup l2 -> (forall x, In x l2 -> ~ In x l1) -> NoDup (l1 ++ l2)).
      { clear. induction l1 as [|x l1 IH]; cbn; auto. intros l2 N1 N2 D. inversion N1; subst. constructor.
        - rewrite in_app_iff. intros [Y|Y]; auto. apply (D x Y). auto.
        - apply IH; auto. intros y Hy Hy'. apply (D y Hy). auto. }
      split; [apply Ap; auto; intros x Hx Hx'; apply (B4 x Hx), in_or_app; auto|]. split.
      { intros o Ho. apply in_app_or in Ho. destruct Ho as [Ho|Ho]; auto. intros Hd. apply (B4 o Ho), in_or_app; auto. }
      split.
      * intros its' it [Y|Y] Hit; [injection Y as <-; auto|eauto].
      * intros r [Y|Y]; [discriminate|auto].
    + assert (X : (forall s, In s ss -> source s \/ In s done) /\ ~ In (link_cookie sg out k ss) done /\ in_order sg out inst_area (link_cookie sg out k ss :: done) rs).
      { inversion H; subst. auto. }
      destruct X as (X1 & X2 & X3). destruct (G (RLink id k fl ss)) as [G1 G2]; [cbn; auto|].
      destruct (IH _ (fun r Hr => G r (or_intror Hr)) X3) as (bs & B1 & B2 & B3 & B4 & B5 & B6).
      exists (SLink (LinkReq k fl ss (link_cookie sg out k ss)) :: bs). split; [constructor; auto; reflexivity|]. split; [split; auto|].
      unfold outs. cbn. fold (outs bs). split.
      { constructor; auto. intros Y. apply (B4 _ Y). cbn; auto. }
      split.
      { intros o [<-|Ho]; auto. intros Hd. apply (B4 o Ho). cbn; auto. }
      split.
      * intros its' it [Y|Y] Hit; [discriminate|eauto].
      * intros r [Y|Y]; [injection Y as <-; repeat split; auto|auto].
Qed.

Definition payload_step (d : payload) : bstep := match d with PCompile its => SCompile its | PLink r => SLink r end.
Definition payload_cb (d : payload) : step_cb := match d with PCompile _ => CbCompile | PLink _ => CbLink end.

Lemma requests_one_to_one rs : forall bs, Forall2 one_to_one rs bs ->
  exists xs, requests_of sg out rs = Ok xs /\ map (fun x => payload_step (rq_data x)) xs = bs /\
  (forall x, In x xs -> rq_cb x = payload_cb (rq_data x)) /\
  Forall2 (fun r x => match r with RCompile cc _ _ => rq_unique x = cc /\ rq_cb x = CbCompile /\ rq_name x = lit "C source file compilation"
                              | RLink id _ _ _ => rq_unique x = id /\ rq_cb x = CbLink end) rs xs.
Proof.
  induction rs as [|r rs IH]; intros bs H.
  - inversion H; subst. exists []. cbn. repeat split; auto. intros x [].
  - inversion H as [|? b ? bs' H1 H2]; subst. destruct (IH bs' H2) as (xs & A & B & C & D).
    destruct r as [cc fl ss|id k fl ss]; cbn in H1.
    + destruct H1 as (its & H1 & ->). eexists (_ :: xs). cbn. rewrite H1, A. cbn. repeat split.
      * cbn. congruence.
      * intros x [<-|Hx]; auto.
      * constructor; auto.
    + subst b. eexists (_ :: xs). cbn. rewrite A. cbn. repeat split.
      * cbn. congruence.
      * intros x [<-|Hx]; auto.
      * constructor; auto.
Qed.

Notation reqT := (request step_cb payload).

Definition matches (r : req) (x : reqT) : Prop :=
  match r with RCompile cc _ _ => rq_unique x = cc /\ rq_cb x = CbCompile /\ rq_name x = lit "C source file compilation"
             | RLink id _ _ _ => rq_unique x = id /\ rq_cb x = CbLink end.

Lemma matches_in rs xs x : Forall2 matches rs xs -> In x xs -> exists r, In r rs /\ matches r x.
Proof. induction 1; intros Hin; [destruct Hin|]. destruct Hin as [<-|Hin]; [eexists; split; [left|]; eauto|]. destruct (IHForall2 Hin) as (r & ? & ?). exists r. split; [right|]; auto. Qed.

Lemma own_fresh rs : forall xs seen, Forall2 matches rs xs -> own_records seen rs ->
  (forall x, In x xs -> rq_cb x = CbLink -> ~ In (rq_unique x) seen) /\
  forall x, In x xs -> rq_cb x = CbLink -> same_key _ _ (rq_unique x) xs = 1.
Proof.
  induction rs as [|r rs IH]; intros xs seen M O; inversion M as [|? x ? xs' M1 M2]; subst.
  - split; intros x [].
  - destruct r as [cc fl ss|id k fl ss]; cbn in O, M1.
    + destruct O as [O1 O2]. destruct M1 as (U & Cb & _). destruct (IH _ _ M2 O2) as [A B]. split.
      * intros y [<-|Hy] L; [congruence|]. intros Hs. apply (A y Hy L). right; auto.
      * intros y [<-|Hy] L; [congruence|]. cbn [same_key]. rewrite (B y Hy L).
        destruct (Z.eqb_spec (rq_unique x) (rq_unique y)) as [Eq|]; auto.
        exfalso. apply (A y Hy L). left. congruence.
    + destruct O as (O1 & O3 & O2). destruct M1 as (U & Cb). destruct (IH _ _ M2 O2) as [A B]. split.
      * intros y [<-|Hy] L; [congruence|]. intros Hs. apply (A y Hy L). right; auto.
      * intros y [<-|Hy] L; cbn [same_key].
        -- rewrite Z.eqb_refl. assert (Z0 : same_key _ _ (rq_unique x) xs' = 0); [|rewrite Z0; auto].
           assert (N : forall z, In z xs' -> rq_unique z <> rq_unique x).
           { intros z Hz Eq. destruct (matches_in _ _ _ M2 Hz) as (r & Hr & Hm). destruct r as [cc fl' ss'|id' k' fl' ss'].
             - destruct Hm as (Hu & _). apply (O3 cc fl' ss' Hr). congruence.
             - destruct Hm as (Hu & Hc). apply (A z Hz Hc). left. congruence. }
           clear - N. induction xs' as [|z xs IH]; auto. cbn. destruct (Z.eqb_spec (rq_unique z) (rq_unique x)) as [Eq|].
           ++ exfalso. eapply N; [left; auto|auto].
           ++ apply IH. intros w Hw. apply N. right; auto.
        -- rewrite (B y Hy L). destruct (Z.eqb_spec (rq_unique x) (rq_unique y)) as [Eq|]; auto.
           exfalso. apply (A y Hy L). left. congruence.
Qed.

Lemma own_consistent rs xs : Forall2 matches rs xs -> own_records [] rs -> consistent xs.
Proof.
  intros M O. assert (G : forall rs xs seen, Forall2 matches rs xs -> own_records seen rs -> consistent xs); [|eauto].
  clear M O. clear rs xs. induction rs as [|r rs IH]; intros xs seen M O; inversion M as [|? x ? xs' M1 M2]; subst.
  - intros a b [].
  - assert (T : consistent xs' /\ forall y, In y xs' -> rq_unique y = rq_unique x -> rq_name y = rq_name x /\ rq_cb y = rq_cb x).
    { destruct r as [cc fl ss|id k fl ss]; cbn in O, M1.
      - destruct O as [O1 O2]. split; [eapply IH; eauto|]. intros y Hy Eq. destruct M1 as (U & Cb & Nm).
        destruct (matches_in _ _ _ M2 Hy) as (r & Hr & Hm). destruct r as [cc' fl' ss'|id' k' fl' ss'].
        + destruct Hm as (Hu & Hc & Hn). split; [exact (eq_trans Hn (eq_sym Nm))|congruence].
        + destruct Hm as (Hu & Hc). exfalso. apply (O1 _ _ _ _ Hr). congruence.
      - destruct O as (O1 & O3 & O2). split; [eapply IH; eauto|]. intros y Hy Eq. destruct M1 as (U & Cb).
        destruct (matches_in _ _ _ M2 Hy) as (r & Hr & Hm). destruct r as [cc' fl' ss'|id' k' fl' ss'].
        + destruct Hm as (Hu & _). exfalso. apply (O3 _ _ _ Hr). congruence.
        + destruct Hm as (Hu & Hc). destruct (own_fresh _ _ _ M2 O2) as [A _]. exfalso. apply (A y Hy Hc). left. congruence. }
    destruct T as [T1 T2]. intros a b [<-|Ha] [<-|Hb] Eq; auto.
    + destruct (T2 b Hb (eq_sym Eq)). split; congruence.
Qed.

(** Merging consecutive compilations. *)
Lemma compile_payload_ok ds : (forall d, In d ds -> payload_cb d = CbCompile) ->
  exists its, compile_payload ds = Ok its /\ its = concat (map (fun d => match d with PCompile x => x | PLink _ => [] end) ds).
Proof.
  induction ds as [|d ds IH]; intros H; cbn; eauto.
  destruct IH as (its & A & B); [intros x Hx; apply H; cbn; auto|].
  destruct d as [x|r]; [|exfalso; specialize (H (PLink r) (or_introl eq_refl)); discriminate]. rewrite A. cbn. exists (x ++ its). split; auto. congruence.
Qed.

Lemma merged_ordered ds : forall done its rest, (forall d, In d ds -> payload_cb d = CbCompile) ->
  its = concat (map (fun d => match d with PCompile x => x | PLink _ => [] end) ds) ->
  ordered area inst_area done (map payload_step ds ++ rest) -> 
  exists done', (forall x, In x done' <-> In x (map it_out its ++ done)) /\ ordered area inst_area done' rest.
Proof.
  induction ds as [|d ds IH]; intros done its rest H Ei O; cbn in *.
  - subst. exists done. split; [intros x; reflexivity|auto].
  - destruct d as [x|r]; [|exfalso; specialize (H (PLink r) (or_introl eq_refl)); discriminate]. cbn in O.
    destruct (IH (map it_out x ++ done) _ rest (fun d Hd => H d (or_intror Hd)) eq_refl O) as (done' & D1 & D2).
    exists done'. split; auto. intros y. rewrite D1. subst its. rewrite map_app, !in_app_iff. tauto.
Qed.

Lemma ordered_ext bs : forall d d', (forall x, In x d -> In x d') -> ordered area inst_area d bs -> ordered area inst_area d' bs.
Proof.
  induction bs as [|b bs IH]; intros d d' H O; cbn in *; auto. destruct b as [its|r].
  - eapply IH; [|exact O]. intros x. rewrite !in_app_iff. intuition.
  - destruct O as [O1 O2]. split; [intros s Hs; destruct (O1 s Hs); auto|]. eapply IH; [|exact O2]. cbn. intuition.
Qed.

Lemma steps_of_ok steps : forall done, 
  (forall s d, In s steps -> In d (bs_data s) -> payload_cb d = bs_cb s) ->
  (forall s, In s steps -> bs_cb s = CbLink -> length (bs_data s) = 1) ->
  ordered area inst_area done (map (fun cd => payload_step (snd cd)) (unfold_steps steps)) ->
  exists bs, steps_of steps = Ok bs /\ ordered area inst_area done bs /\
    outs bs = outs (map (fun cd => payload_step (snd cd)) (unfold_steps steps)) /\
    (forall its it, In (SCompile its) bs -> In it its -> exists its', In (SCompile its') (map (fun cd => payload_step (snd cd)) (unfold_steps steps)) /\ In it its') /\
    (forall r, In (SLink r) bs -> In (SLink r) (map (fun cd => payload_step (snd cd)) (unfold_steps steps))) /\
    (forall its it, In (SCompile its) (map (fun cd => payload_step (snd cd)) (unfold_steps steps)) -> In it its -> exists its', In (SCompile its') bs /\ In it its') /\
    (forall r, In (SLink r) (map (fun cd => payload_step (snd cd)) (unfold_steps steps)) -> In (SLink r) bs).
Proof.
  induction steps as [|s steps IH]; intros done K L O.
  - exists []. cbn. repeat split; auto; try (intros; contradiction).
  - assert (Ex : map (fun cd => payload_step (snd cd)) (unfold_steps (s :: steps)) =
                 map payload_step (bs_data s) ++ map (fun cd => payload_step (snd cd)) (unfold_steps steps)).
    { unfold unfold_steps. cbn. rewrite map_app. f_equal. rewrite map_map. cbn. apply map_ext. auto. }
    rewrite Ex in *. clear Ex.
    assert (Ks : forall d, In d (bs_data s) -> payload_cb d = bs_cb s) by (intros d Hd; apply K; cbn; auto).
    cbn [steps_of]. unfold step_of. destruct (bs_cb s) eqn:Cb.
    + destruct (compile_payload_ok (bs_data s) Ks) as (its & A & B). rewrite A. cbn.
      destruct (merged_ordered (bs_data s) done its _ Ks B O) as (done' & D1 & D2).
      destruct (IH done' (fun s0 d H => K s0 d (or_intror H)) (fun s0 H => L s0 (or_intror H)) D2) as (bs & C1 & C2 & C3 & C4 & C5 & C6 & C7).
      rewrite C1. cbn. exists (SCompile its :: bs). split; auto. split; [cbn; eapply ordered_ext; [|exact C2]; intros x; rewrite D1; auto|].
      assert (Pc : forall l, In (SCompile l) (map payload_step (bs_data s)) <-> In (PCompile l) (bs_data s)).
      { intros l. rewrite in_map_iff. split; [intros (d & Hd & Hin); destruct d; cbn in Hd; [injection Hd as ->; auto|discriminate]|eauto]. 
        intros Hin. exists (PCompile l). auto. }
      assert (Pl : forall r, ~ In (SLink r) (map payload_step (bs_data s))).
      { intros r Hin. apply in_map_iff in Hin. destruct Hin as (d & Hd & Hin). specialize (Ks d Hin). destruct d; cbn in *; discriminate. }
      split; [|split; [|split; [|split]]].
      * unfold outs in *. cbn. rewrite C3, map_app, concat_app. f_equal. subst its. clear - Ks.
        induction (bs_data s) as [|d ds IHd]; auto. cbn. rewrite map_app, IHd by (intros x Hx; apply Ks; cbn; auto).
        destruct d as [x|r]; auto. specialize (Ks (PLink r) (or_introl eq_refl)). discriminate.
      * intros its' it [H|H] Hit.
        -- injection H as <-. subst its. apply in_concat in Hit. destruct Hit as (l & Hl & Hit). apply in_map_iff in Hl.
           destruct Hl as (d & <- & Hd). destruct d as [x|r]; [|destruct Hit]. exists x. split; auto. apply in_or_app. left. now apply Pc.
        -- destruct (C4 its' it H Hit) as (l & X & Y). exists l. split; auto. apply in_or_app; auto.
      * intros r [H|H]; [discriminate|]. apply in_or_app. right. auto.
      * intros l it H Hit. apply in_app_or in H. destruct H as [H|H].
        -- exists its. split; [left; auto|]. subst its. apply in_concat. exists l. split; auto. apply Pc in H. apply in_map_iff.
           exists (PCompile l). auto.
        -- destruct (C6 l it H Hit) as (l' & X & Y). exists l'. split; [right|]; auto.
      * intros r H. apply in_app_or in H. destruct H as [H|H]; [exfalso; eapply Pl; eauto|]. right. auto.
    + assert (L1 : length (bs_data s) = 1) by (apply L; cbn; auto).
      destruct (bs_data s) as [|d [|? ?]] eqn:Ds; try discriminate. clear L1.
      destruct d as [x|r]; [exfalso; specialize (Ks (PCompile x) (or_introl eq_refl)); discriminate|].
      cbn in O. destruct O as [O1 O2].
      destruct (IH (lk_out r :: done) (fun s0 d H => K s0 d (or_intror H)) (fun s0 H => L s0 (or_intror H)) O2) as (bs & C1 & C2 & C3 & C4 & C5 & C6 & C7).
      cbn. rewrite C1. cbn. exists (SLink r :: bs). split; auto. split; [split; auto|]. split; [|split; [|split; [|split]]].
      * unfold outs in *. cbn. now rewrite C3.
      * intros its' it [H|H] Hit; [discriminate|]. destruct (C4 its' it H Hit) as (l & X & Y). exists l. auto.
      * intros r' [H|H]; [injection H as <-; auto|]. auto.
      * intros l it [H|H] Hit; [discriminate|]. destruct (C6 l it H Hit) as (l' & X & Y). exists l'. split; [right; exact X|exact Y].
      * intros r' [H|H]; [injection H as <-; left; reflexivity|right; auto].
Qed.

(** The plan of well-formed requests exists, is a good script, and makes the requested products in order. *)
Theorem plan_good rs : good_requests sg out inst_area srcs links rs ->
  exists bs each, plan sg out rs = Ok bs /\ good_script area inst_area objs reqs bs /\
  Forall2 one_to_one rs each /\ outs bs = outs each /\
  (forall its it, In (SCompile its) each -> In it its -> exists its', In (SCompile its') bs /\ In it its') /\
  (forall r, In (SLink r) each -> In (SLink r) bs).
Proof.
  intros [G1 G2 G3]. destruct (expanded_ordered rs [] G1 G2) as (each & A1 & A2 & A3 & _ & A5 & A6).
  destruct (requests_one_to_one rs each A1) as (xs & B1 & B2 & B3 & B4).
  change (Forall2 matches rs xs) in B4.
  destruct (requests_preserved _ _ step_cb_eqb cb_spec xs) as (steps & C1 & C2); [eapply own_consistent; eauto|].
  assert (Ex : map (fun cd => payload_step (snd cd)) (unfold_steps steps) = each).
  { rewrite C2, map_map. cbn. exact B2. }
  assert (Cov : covered _ _ steps (xs ++ [])) by (eapply add_all_covered; [apply cb_spec|exact C1|intros s []]).
  assert (Bnd : bounded _ _ steps ([] ++ xs)) by (eapply add_all_bounded; [exact C1|intros s []]).
  assert (Kind : forall s d, In s steps -> In d (bs_data s) -> payload_cb d = bs_cb s).
  { intros s d Hs Hd. assert (X : In (bs_cb s, d) (unfold_steps steps)).
    { unfold unfold_steps. apply in_concat. exists (map (pair (bs_cb s)) (bs_data s)). split; [now apply (in_map (fun s => map (pair (bs_cb s)) (bs_data s)))|]. now apply in_map. }
    rewrite C2 in X. apply in_map_iff in X. destruct X as (x & Eq & Hx). injection Eq as Eq1 Eq2. rewrite <- Eq1, <- Eq2. symmetry. auto. }
  destruct (steps_of_ok steps [] Kind) as (bs & D1 & D2 & D3 & D4 & D5 & D6 & D7).
  { intros s Hs Hc. destruct (Cov s Hs) as (x & Hx & Hu & _ & Hcb). rewrite app_nil_r in Hx.
    destruct (own_fresh _ _ _ B4 G3) as [_ U]. pose proof (U x Hx ltac:(congruence)) as U1. pose proof (Bnd s Hs) as U2. cbn in U2. rewrite <- Hu in U2. lia. }
  { rewrite Ex. exact A2. }
  rewrite Ex in *. exists bs, each. split; [unfold plan; rewrite B1; cbn; rewrite C1; cbn; exact D1|]. split; [|split; [|split]]; auto.
  constructor; auto.
  - intros its it H Hit. destruct (D4 its it H Hit) as (l & X & Y). eauto.
  - rewrite D3. auto.
Qed.

End Names.

Section Wanted.
Variables (sg : bool) (out : bytes).
Variable E : env.
Variable inst_area : bytes -> Prop.
Variable srcs : bytes -> Prop.
Variable links : link_kind -> list bytes -> Prop.
Hypothesis WN : well_named sg out E inst_area srcs links.

Lemma forall2_in_l (A B : Type) (R : A -> B -> Prop) l m a : Forall2 R l m -> In a l -> exists b, In b m /\ R a b.
Proof.
  induction 1; intros H'; [destruct H'|]. destruct H' as [<-|H']; [eexists; split; [left; reflexivity|eauto]|].
  destruct (IHForall2 H') as (b & ? & ?). exists b. split; [right|]; auto.
Qed.
Lemma forall2_in_r (A B : Type) (R : A -> B -> Prop) l m b : Forall2 R l m -> In b m -> exists a, In a l /\ R a b.
Proof.
  induction 1; intros H'; [destruct H'|]. destruct H' as [<-|H']; [eexists; split; [left; reflexivity|eauto]|].
  destruct (IHForall2 H') as (a & ? & ?). exists a. split; [right|]; auto.
Qed.

Lemma compile_items_in fl ss its s c : (forall x, In x ss -> srcs x) -> compile_items sg out fl ss = Ok its ->
  In s ss -> object_of sg out s c -> In (Item fl s c) its.
Proof.
  revert its. induction ss as [|x ss IH]; intros its H C Hs Ho; [destruct Hs|].
  cbn [compile_items] in C. destruct (gen_cookie sg out x (lit "o")) as [cx| | | |] eqn:G; try discriminate.
  cbn [bind] in C. destruct (compile_items sg out fl ss) as [r| | | |] eqn:R; try discriminate. cbn in C. injection C as <-.
  destruct Hs as [->|Hs].
  - left. unfold object_of in Ho. destruct (wn_src _ _ _ _ _ _ WN s) as [Ns _]; [apply H; cbn; auto|]. rewrite (cstr_nul_free s Ns). congruence.
  - right. apply IH; auto. intros y Hy. apply H. right; auto.
Qed.

Lemma compile_items_from fl ss its it : (forall x, In x ss -> srcs x) -> compile_items sg out fl ss = Ok its ->
  In it its -> it_flags it = fl /\ In (it_src it) ss /\ object_of sg out (it_src it) (it_out it).
Proof.
  revert its. induction ss as [|x ss IH]; intros its H C Hi; cbn [compile_items] in C; [injection C as <-; destruct Hi|].
  destruct (gen_cookie sg out x (lit "o")) as [cx| | | |] eqn:G; try discriminate.
  cbn [bind] in C. destruct (compile_items sg out fl ss) as [r| | | |] eqn:R; try discriminate. cbn in C. injection C as <-.
  destruct (wn_src _ _ _ _ _ _ WN x) as [Ns _]; [apply H; cbn; auto|]. rewrite (cstr_nul_free x Ns) in Hi.
  destruct Hi as [<-|Hi]; [cbn; auto|]. destruct (IH r (fun y Hy => H y (or_intror Hy)) eq_refl Hi) as (A & B & C). split; auto. split; [right|]; auto.
Qed.

(** The plan contains exactly what is wanted. *)
Theorem plan_wanted rs : good_requests sg out inst_area srcs links rs ->
  exists bs, plan sg out rs = Ok bs /\ good_script (product_dir out) inst_area (named_item sg out srcs) (named_link sg out links) bs /\
  (forall it, wanted sg out rs it -> exists its, In (SCompile its) bs /\ In it its) /\
  (forall r, wanted_link sg out rs r -> In (SLink r) bs) /\
  (forall o, In o (outs bs) <-> wanted_product sg out rs o).
Proof.
  intros G. destruct (plan_good sg out E inst_area srcs links WN rs G) as (bs & each & A1 & A2 & A3 & A4 & A5 & A6).
  assert (W1 : forall it, wanted sg out rs it -> exists its, In (SCompile its) each /\ In it its).
  { intros [fl s c] (cc & ss & Hr & Hs & Ho). cbn in *. destruct (forall2_in_l _ _ _ _ _ _ A3 Hr) as (b & Hb & its & Hi & ->).
    exists its. split; auto. eapply compile_items_in; eauto. apply (gr_each _ _ _ _ _ _ G _ Hr). }
  assert (W2 : forall r, wanted_link sg out rs r -> In (SLink r) each).
  { intros [k fl ss o] (id & Hr & Ho). cbn in *. destruct (forall2_in_l _ _ _ _ _ _ A3 Hr) as (b & Hb & Hx). cbn in Hx. subst b o. auto. }
  exists bs. split; auto. split; auto. split; [intros it H; destruct (W1 it H) as (its & X & Y); eauto|]. split; [auto|].
  intros o. rewrite A4. unfold outs. rewrite in_concat. split.
  - intros (l & Hl & Ho). apply in_map_iff in Hl. destruct Hl as (b & <- & Hb). destruct (forall2_in_r _ _ _ _ _ _ A3 Hb) as (r & Hr & Hx).
    pose proof (gr_each _ _ _ _ _ _ G _ Hr) as Gr. destruct r as [cc fl ss|id k fl ss]; cbn in Hx.
    + destruct Hx as (its & Hi & ->). cbn in Ho. apply in_map_iff in Ho. destruct Ho as (it & <- & Hit).
      destruct (compile_items_from fl ss its it (proj2 Gr) Hi Hit) as (F & S1 & S2). left. exists it. split; auto.
      exists cc, ss. subst fl. auto.
    + subst b. destruct Ho as [<-|[]]. right. eexists. split; [|reflexivity]. exists id. cbn. auto.
  - intros [(it & Hw & ->)|(r & Hw & ->)].
    + destruct (W1 it Hw) as (its & X & Y). exists (step_outs (SCompile its)). split; [now apply in_map|]. cbn. now apply in_map.
    + exists (step_outs (SLink r)). split; [apply in_map; auto|]. cbn. auto.
Qed.
End Wanted.
