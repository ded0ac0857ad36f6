(** * C32 for whole builds: every product the map names is copied, made again or not. *)

From Coq Require Import ZArith Arith Ascii String Lia Bool List.
From Verif Require Import Base FileSys Frugal FrugalProofs Deps Log Cookie Pool SpecPool PoolInv PoolProofs PoolOwn SpecFiles Build SpecBuild SpecHistory SpecDeliver
  BuildProofs CompileProofs StepProofs.
Import ListNotations.
Local Open Scope nat_scope.

Section Deliver.
Variable E : env.
Variables area inst_area : bytes -> Prop.
Variable goes : bytes -> option bytes.
Hypothesis GE : good_env E area inst_area.
Hypothesis DL : delivers E goes.
Hypothesis MO : monotone (clock E).
Hypothesis dest_inst : forall o d, goes o = Some d -> inst_area d.
Notation keep := (fun p => ~ inst_area p).
Notation delivered := (delivered goes).
Notation awaiting := (awaiting goes).

Lemma dest_not_area o d : goes o = Some d -> ~ area d.
Proof. intros G A. exact (ge_apart _ _ _ GE d A (dest_inst o d G)). Qed.
Lemma dest_not_belongs o o' d : goes o = Some d -> in_area area o' -> ~ belongs o' d.
Proof. intros G (_ & A & B) [->|(k & ->)]; [exact (dest_not_area o _ G A)|exact (dest_not_area o _ G (B k))]. Qed.

(** What is the same at a product and its destination. *)
Definition same_at (o : bytes) (f f' : fs) : Prop := f' o = f o /\ forall d, goes o = Some d -> f' d = f d.
Lemma same_refl o f : same_at o f f. Proof. split; auto. Qed.
Lemma same_trans o f f' f'' : same_at o f f' -> same_at o f' f'' -> same_at o f f''.
Proof. intros (A & B) (C & D). split; [congruence|]. intros d G. rewrite D, B by exact G. reflexivity. Qed.
Lemma delivered_same o f f' : same_at o f f' -> delivered f o -> delivered f' o.
Proof. intros (A & B) H d G. destruct (H d G) as (c & t & t' & P & Q). exists c, t, t'. rewrite A, B; auto. Qed.
Lemma awaiting_same t o f f' : same_at o f f' -> awaiting t f o -> awaiting t f' o.
Proof. intros (A & B) H d G. destruct (H d G) as (P & Q & R). unfold unaltered. rewrite A, (B d G). auto. Qed.
Lemma same_write o o' f f' : in_area area o -> in_area area o' -> o <> o' -> (forall p, ~ belongs o' p -> f' p = f p) -> same_at o f f'.
Proof.
  intros Ao Ao' N F. split.
  - apply F. intros [Q|(k & Q)]; [auto|]. destruct Ao as (Pn & _). symmetry in Q. exact (Pn _ _ Q).
  - intros d G. apply F. exact (dest_not_belongs o o' d G Ao').
Qed.
Lemma same_install o o' t f : in_area area o -> o <> o' -> same_at o f (snd (installer E o' t f)).
Proof.
  intros (_ & A & _) N. split.
  - apply (ge_inst _ _ _ GE). now apply (ge_apart _ _ _ GE).
  - intros d G. apply (dl_only _ _ DL o' o d t f); auto.
Qed.
(** Installing a product that is there. *)
Definition old_file (t0 : Z) (e : entry) : Prop := match e with File _ t => (t < t0)%Z | Dir _ => False | _ => True end.
Lemma install_delivers o t t0 f f' c tau : in_area area o -> awaiting t0 f o \/ (t0 <= tau)%Z /\ (forall d, goes o = Some d -> old_file t0 (f d)) ->
  f o = File c tau -> installer E o t f = (true, f') -> delivered f' o.
Proof.
  intros (_ & A & _) W F I d G.
  assert (U : unaltered f o d).
  { destruct W as [W|(L & W)]; [exact (proj1 (W d G))|]. specialize (W d G). split.
    - intros t1 Q. rewrite Q in W. exact W.
    - intros c1 t1 c' t' F1 D1 Q. rewrite F in F1. injection F1 as <- <-. rewrite D1 in W. cbn in W. lia. }
  destruct (dl_copies _ _ DL o d t f f' c tau G U F I) as (tau' & Q). exists c, tau, tau'. split; [|exact Q].
  change f' with (snd (true, f')). rewrite <- I, (ge_inst _ _ _ GE); [exact F|]. now apply (ge_apart _ _ _ GE).
Qed.

Lemma awaits_old t0 f o d : awaiting t0 f o -> goes o = Some d -> old_file t0 (f d).
Proof. intros Aw G. destruct (Aw d G) as ((N & _) & O & _). destruct (f d) eqn:Q; cbn; auto; [exact (O _ _ eq_refl)|exact (N _ eq_refl)]. Qed.

(** ** The compile step *)
Lemma validate_delivers t0 : forall its w jobs w1, NoDup (map it_out its) -> (forall it, In it its -> in_area area (it_out it)) ->
  (forall it, In it its -> awaiting t0 (files w) (it_out it)) -> validate_all E its w = (true, jobs, w1) ->
  (forall o, in_area area o -> ~ In o (map it_out its) -> same_at o (files w) (files w1)) /\
  (forall it, In it its -> In it jobs /\ same_at (it_out it) (files w) (files w1) \/ delivered (files w1) (it_out it) /\ ~ In it jobs) /\
  (forall it, In it jobs -> In it its) /\ NoDup (map it_out jobs) /\ tick w <= tick w1.
Proof.
  induction its as [|it its IH]; intros w jobs w1 ND Ar Aw V; cbn [validate_all] in V.
  - injection V as <- <-. split; [intros; apply same_refl|]. split; [contradiction|]. split; [contradiction|]. split; [constructor|lia].
  - cbn [map] in ND. inversion ND as [|x xs Ni ND']; subst. destruct (validate E it w) as (v, wa) eqn:Va.
    destruct (validate_shape E it w v wa Va) as (T & _ & _ & F).
    assert (Sa : forall o, in_area area o -> same_at o (files w) (files wa)).
    { intros o Ao. split.
      - apply F. intro Q. destruct Ao as (Pn & _). symmetry in Q. exact (Pn SFlags _ Q).
      - intros d G. apply F. intro Q. destruct (Ar it (or_introl eq_refl)) as (_ & _ & B). apply (dest_not_area o d G). rewrite Q. exact (B SFlags). }
    assert (Aw' : forall f, (forall it', In it' its -> same_at (it_out it') (files wa) f) -> forall it', In it' its -> awaiting t0 f (it_out it')).
    { intros f H it' J. eapply awaiting_same; [eapply same_trans; [apply Sa|apply H]|apply Aw]; try (apply Ar; now right); auto using in_cons. }
    destruct v; [| |discriminate].
    + destruct (validate_all E its wa) as ((ok, js), w2) eqn:Vr. injection V as -> <- <-.
      destruct (IH wa js w2 ND' (fun x J => Ar x (or_intror J)) (Aw' _ (fun x J => same_refl _ _)) Vr) as (A & B & C & D & T').
      split; [|split; [|split; [|split]]].
      * intros o Ao N. eapply same_trans; [exact (Sa o Ao)|]. apply A; [exact Ao|]. intro J. apply N. now right.
      * intros x [<-|J].
        -- left. split; [now left|]. eapply same_trans; [apply Sa; apply Ar; now left|]. apply A; [apply Ar; now left|exact Ni].
        -- destruct (B x J) as [(P & Q)|(P & Q)].
           ++ left. split; [now right|]. eapply same_trans; [apply Sa; apply Ar; now right|exact Q].
           ++ right. split; [exact P|]. intros [->|Q']; [|exact (Q Q')]. apply Ni. apply in_map_iff. now exists x.
      * intros x [<-|J]; [now left|right; exact (C x J)].
      * cbn [map]. constructor; [|exact D]. intro J. apply Ni. apply in_map_iff in J as (x & Q & J). apply in_map_iff. exists x. auto.
      * lia.
    + set (wb := set_shown wa (it_out it) (log_already_done (files wa) (it_out it))) in *. destruct (installer E (it_out it) (now E wb) (files wb)) as (ok, f2) eqn:I. destruct ok; [|discriminate].
      assert (Si : forall o, in_area area o -> o <> it_out it -> same_at o (files wa) f2).
      { intros o Ao N. change f2 with (snd (true, f2)). rewrite <- I. apply same_install; auto. }
      assert (Fr := validate_verdict E it w VSkip wa Va). destruct Fr as ((_ & cd & _ & Up) & Fe).
      assert (De : delivered f2 (it_out it)).
      { intros d G. destruct (Aw it (or_introl eq_refl) d G) as (_ & _ & Nd). destruct Up as (tt & M & _).
        assert (X : exists c tau, files wa (it_out it) = File c tau). { rewrite Fe. unfold modified_at, stat in M. destruct (files w (it_out it)) as [|c tau|t'|] eqn:Q; try discriminate; [now exists c, tau|]. now destruct (Nd t'). }
        destruct X as (c & tau & X). refine (install_delivers (it_out it) _ t0 (files wa) f2 c tau (Ar it (or_introl eq_refl)) (or_introl _) X I d G).
        eapply awaiting_same; [apply Sa|apply Aw]; auto using in_eq. }
      destruct (IH (set_files wb f2) jobs w1 ND' (fun x J => Ar x (or_intror J))) as (A & B & C & D & T'); [|exact V|].
      { cbn [files set_files]. apply Aw'. intros x J. apply Si; [apply Ar; now right|]. intro Q. apply Ni. apply in_map_iff. now exists x. }
      cbn [files set_files] in A. split; [|split; [|split; [|split]]].
      * intros o Ao N. eapply same_trans; [exact (Sa o Ao)|]. eapply same_trans; [apply Si; [exact Ao|]|apply A; [exact Ao|]]; intro Q; apply N; [now left|now right].
      * intros x [<-|J].
        -- right. split; [|intro J; apply Ni; apply in_map_iff; exists it; auto]. eapply delivered_same; [|exact De]. apply A; [apply Ar; now left|exact Ni].
        -- destruct (B x J) as [(P & Q)|P]; [left|right; exact P]. split; [exact P|]. eapply same_trans; [apply Sa; apply Ar; now right|]. eapply same_trans; [|exact Q]. apply Si; [apply Ar; now right|].
           intro Q'. apply Ni. apply in_map_iff. now exists x.
      * intros x J. right. exact (C x J).
      * exact D.
      * cbn in T'. lia.
Qed.

(** One job: its destination is as it was until the last action, which installs. *)
Definition Dok (w1 : world) (it : item) (i k : nat) (s : jst) : Prop :=
  (k < 5 -> forall d, goes (it_out it) = Some d -> files (jw s) d = files w1 d) /\
  (k = 5 -> l_fail (locs s i) = false -> delivered (files (jw s)) (it_out it)).
Section Jobs.
Variables (jobs : list item) (w1 : world).
Hypothesis areas : forall it, In it jobs -> in_area area (it_out it).
Hypothesis distinct : NoDup (map it_out jobs).
Variable t0 : Z.
Hypothesis T0 : (t0 <= clock E (tick w1))%Z.
Hypothesis older : forall it d, In it jobs -> goes (it_out it) = Some d -> old_file t0 (files w1 d).
Notation JJ := (J E keep jobs w1).
Definition K (i k : nat) (s : jst) : Prop := exists it, nth_error jobs i = Some it /\ Jok E keep jobs w1 it i k s /\ Dok w1 it i k s.

Lemma act_elsewhere j l a jt s o : nth_error (job_prog E jobs j) l = Some a -> nth_error jobs j = Some jt -> in_area area o -> o <> it_out jt -> same_at o (files (jw s)) (files (jw (a s))).
Proof.
  intros Ha Hj Ao N. assert (Aj : in_area area (it_out jt)) by (apply areas; eapply nth_error_In; eauto).
  assert (W : forall f, (forall p, ~ owned jt p -> f p = files (jw s) p) -> same_at o (files (jw s)) f).
  { intros f H. apply (same_write o (it_out jt)); auto. intros p Np. apply H. intro O. apply Np. now apply (owned_belongs jt). }
  destruct (prog_acts E jobs j l a Ha) as (jt' & Hj' & C). rewrite Hj in Hj'. injection Hj' as <-.
  destruct C as [(-> & ->)|[(-> & ->)|[(-> & ->)|[(-> & ->)|(-> & ->)]]]].
  - apply same_refl.
  - unfold act_write_deps. destruct (l_deps (locs s j)) as [out|]; [|apply same_refl]. destruct (write_file _ _ _ _ _) as [f|] eqn:Q; [|apply same_refl]. apply W. intros p O. eapply write_file_diff; [exact Q|]. intros ->. apply O. right. now left.
  - unfold act_compile. destruct (apply_tool E _ _ _ _) as [[ok text] f] eqn:T. apply W. intros p O. change f with (snd (ok, text, f)). rewrite <- T. apply apply_tool_frame. intros ->. apply O. now left.
  - unfold act_log. destruct (cmd_log _ _ _ _ _) as [text f] eqn:L. apply W. intros p O. change f with (snd (text, f)). rewrite <- L. apply cmd_log_frame. intros ->. apply O. right. now right.
  - unfold act_install. destruct (l_fail (locs s j)); [apply same_refl|]. destruct (installer E _ _ _) as [ok f] eqn:I. cbn [jw files set_files]. change f with (snd (ok, f)). rewrite <- I. now apply same_install.
Qed.
Lemma K_init i : i < length jobs -> K i 0 (JSt w1 (fun _ => local0)).
Proof.
  intro H. destruct (J_init E keep jobs w1 i H) as (it & Hi & Q). exists it. split; [exact Hi|]. split; [exact Q|]. split; [auto|discriminate].
Qed.
Lemma K_other i j k l a s : i <> j -> nth_error (job_prog E jobs j) l = Some a -> K j l s -> K i k s -> K i k (a s).
Proof.
  intros N Ha (jt & Hj & Kj & _) (it & Hi & Ki & D1 & D2).
  destruct (J_other E keep (ge_inst _ _ _ GE) jobs w1 (jobs_item_ok E area inst_area GE jobs areas) distinct i j k l a s N Ha (ex_intro _ jt (conj Hj Kj)) (ex_intro _ it (conj Hi Ki))) as (it' & Hi' & Q).
  rewrite Hi in Hi'. injection Hi' as <-. exists it. split; [exact Hi|]. split; [exact Q|].
  assert (S1 : same_at (it_out it) (files (jw s)) (files (jw (a s)))).
  { apply (act_elsewhere j l a jt); auto; [apply areas; eapply nth_error_In; eauto|]. apply (outs_diff jobs distinct i j); auto. }
  destruct (act_shape E keep (ge_inst _ _ _ GE) jobs j l a jt s Ha Hj) as (_ & Al & _). split.
  - intros L d G. rewrite (proj2 S1 d G). auto.
  - intros L F. rewrite Al in F by auto. eapply delivered_same; [exact S1|]. auto.
Qed.
Lemma K_own i k a s : nth_error (job_prog E jobs i) k = Some a -> K i k s -> K i (S k) (a s).
Proof.
  intros Ha (it & Hi & Ki & D1 & D2).
  assert (Q : JJ i (S k) (a s)).
  { eapply J_own with (src := source area inst_area); [apply GE|apply (jobs_item_ok E area inst_area GE jobs areas)|apply (source_keep area inst_area)|intros p x; exact (source_not_owned area inst_area jobs areas p x)|apply GE|apply GE|exact Ha|exists it; auto]. }
  destruct Q as (it' & Hi' & Q). rewrite Hi in Hi'. injection Hi' as <-. exists it. split; [exact Hi|]. split; [exact Q|].
  assert (Ai : in_area area (it_out it)) by (apply areas; eapply nth_error_In; eauto).
  destruct (prog_acts E jobs i k a Ha) as (it' & Hi' & C). rewrite Hi in Hi'. injection Hi' as <-. split.
  - intros L d G. rewrite <- (D1 ltac:(lia) d G). pose proof (dest_not_belongs _ _ _ G Ai) as Nb. assert (No : ~ owned it d) by (intro O; apply Nb; now apply (owned_belongs it)).
    destruct C as [(-> & ->)|[(-> & ->)|[(-> & ->)|[(-> & ->)|(-> & ->)]]]]; [reflexivity| | | |lia].
    + unfold act_write_deps. destruct (l_deps (locs s i)) as [out|]; [|reflexivity]. destruct (write_file _ _ _ _ _) as [f|] eqn:W; [|reflexivity]. eapply write_file_diff; [exact W|]. intros ->. apply No. right. now left.
    + unfold act_compile. destruct (apply_tool E _ _ _ _) as [[ok text] f] eqn:T. cbn [jw files set_files set_ran]. change f with (snd (ok, text, f)). rewrite <- T. apply apply_tool_frame. intros ->. apply No. now left.
    + unfold act_log. destruct (cmd_log _ _ _ _ _) as [text f] eqn:W. cbn [jw files set_files set_shown]. change f with (snd (text, f)). rewrite <- W. apply cmd_log_frame. intros ->. apply No. right. now right.
  - intros L. assert (k = 4) by lia. subst k. destruct C as [(X & _)|[(X & _)|[(X & _)|[(X & _)|(_ & ->)]]]]; try discriminate. unfold act_install. destruct (l_fail (locs s i)) eqn:Fl; [cbn; congruence|].
    destruct (installer E _ _ _) as [ok f] eqn:I. cbn [jw files set_files locs]. unfold set_loc. rewrite Nat.eqb_refl. cbn [l_fail]. intro Ok. apply negb_false_iff in Ok. subst ok.
    destruct (J_out1 _ _ _ _ _ _ _ _ Ki ltac:(lia) Fl) as (text & obj & tau & _ & F & T).
    refine (install_delivers (it_out it) _ t0 _ f obj (clock E tau) Ai (or_intror _) F I). split.
    + eapply Z.le_trans; [exact T0|]. apply MO. lia.
    + intros d G. rewrite (D1 ltac:(lia) d G). exact (older it d (nth_error_In _ _ Hi) G).
Qed.
Lemma pool_delivers s : pool_state E jobs true w1 s -> In (EvRet 0) (trace jst s) -> forall it, In it jobs -> delivered (files (jw (sig jst s))) (it_out it).
Proof.
  intros R Hin it J. apply In_nth_error in J as (i & Hi). unfold pool_state, compile_client in R.
  assert (Li : i < length jobs) by (apply nth_error_Some; congruence).
  destruct (all_done jst (job_prog E jobs) job_stops (ncpus E) (length jobs) (rest_ops true) (JSt w1 (fun _ => local0))
          (rest_no_add true) K) with (G := fun _ : jst => True) (s := s) (i := i) as [A B]; auto.
  - intros; now apply K_init.
  - intros; now apply K_own.
  - intros i0 j k l a x _ _ N Ha Kj Ki. exact (K_other i0 j k l a x N Ha Kj Ki).
  - intros i0 j l a x _ _ N Ha. exact (job_stops_other E area inst_area GE jobs i0 j l a x N Ha).
  - apply GE.
  - rewrite (prog_length E) in A by auto. destruct A as (it' & Hi' & _ & _ & D). rewrite Hi in Hi'. injection Hi' as <-. apply D; auto.
Qed.
Lemma pool_elsewhere ok s o : in_area area o -> ~ In o (map it_out jobs) -> pool_state E jobs ok w1 s -> same_at o (files w1) (files (jw (sig jst s))).
Proof.
  intros Ao No R. unfold pool_state, compile_client in R.
  apply (own_reach jst (job_prog E jobs) job_stops (ncpus E) (length jobs) (rest_ops ok) (JSt w1 (fun _ => local0))
          (rest_no_add ok) (fun _ _ _ => True)) with (G := fun x => same_at o (files w1) (files (jw x))) in R; auto.
  - apply R.
  - intros i0 j l a x _ _ N Ha. exact (job_stops_other E area inst_area GE jobs i0 j l a x N Ha).
  - apply same_refl.
  - intros i k a x Hi Ha _ S1. destruct (prog_acts E jobs i k a Ha) as (it & Hj & _). eapply same_trans; [exact S1|]. apply (act_elsewhere i k a it); auto. intros ->. apply No. apply in_map_iff. exists it. split; [reflexivity|]. eapply nth_error_In; eauto.
Qed.
End Jobs.

Lemma compile_delivers t0 its w w' : NoDup (map it_out its) -> (forall it, In it its -> in_area area (it_out it)) -> (t0 <= clock E (tick w))%Z ->
  (forall it, In it its -> awaiting t0 (files w) (it_out it)) -> compile_step E its w 0 w' ->
  (forall it, In it its -> delivered (files w') (it_out it)) /\ (forall o, in_area area o -> ~ In o (map it_out its) -> same_at o (files w) (files w')) /\ tick w <= tick w'.
Proof.
  intros ND Ar T0 Aw (ok & jobs & w1 & s & V & P & F & W & R). destruct ok; [|discriminate]. subst w'.
  destruct (validate_delivers t0 its w jobs w1 ND Ar Aw V) as (A & B & C & D & T).
  assert (Arj : forall it, In it jobs -> in_area area (it_out it)) by auto.
  assert (Aw1 : forall it, In it jobs -> awaiting t0 (files w1) (it_out it)).
  { intros it J. destruct (B it (C it J)) as [(_ & S1)|(_ & N)]; [|contradiction]. eapply awaiting_same; [exact S1|auto]. }
  pose proof (q_tick _ _ _ _ (pool_quiet E area inst_area GE jobs w1 true s P)) as T2.
  split; [|split].
  - intros it J. destruct (B it J) as [(Jj & _)|(De & Nj)].
    + refine (pool_delivers jobs w1 Arj D t0 _ _ s P R it Jj); [eapply Z.le_trans; [exact T0|apply MO; exact T]|]. intros x d Jx G. exact (awaits_old t0 _ _ d (Aw1 x Jx) G).
    + eapply delivered_same; [|exact De]. apply (pool_elsewhere jobs w1 Arj true); auto. intro Q. apply in_map_iff in Q as (x & Q & Jx). apply Nj. rewrite <- (same_out its x it ND (C x Jx) J Q). exact Jx.
  - intros o Ao No. eapply same_trans; [exact (A o Ao No)|]. apply (pool_elsewhere jobs w1 Arj true); auto. intro Q. apply No. apply in_map_iff in Q as (x & <- & Jx). apply in_map. auto.
  - lia.
Qed.

(** ** The link step *)
Lemma do_link_delivers t0 r w w' : in_area area (lk_out r) -> (t0 <= clock E (tick w))%Z -> awaiting t0 (files w) (lk_out r) -> do_link E r w = (0%Z, w') ->
  delivered (files w') (lk_out r) /\ (forall o, in_area area o -> o <> lk_out r -> same_at o (files w) (files w')) /\ tick w <= tick w'.
Proof.
  intros Ar T0 Aw H. unfold do_link in H. destruct (apply_tool E _ _ _ _) as ((ok, text), f) eqn:T.
  set (wa := set_ran (set_files w f) (CmdLink (lk_kind r) (lk_out r))) in *. destruct (cmd_log _ _ _ _ _) as (printed, f2) eqn:L. destruct ok; [|discriminate].
  set (wb := set_shown (set_files wa f2) (lk_out r) printed) in *. destruct (installer E _ _ _) as (ok2, f3) eqn:I. destruct ok2; [|discriminate]. injection H as <-.
  assert (X : exists c, f (lk_out r) = File c (now E w)).
  { unfold apply_tool in T. destruct (ld E _ _ _ _ _ _) as [tx pr|tx [[c|]|]]; try discriminate. destruct (write_file _ _ _ _ _) as [f'|] eqn:W; [|discriminate]. injection T as _ <-. exists pr. eapply write_file_same; eauto. }
  destruct X as (c & X).
  assert (F1 : forall p, p <> lk_out r -> f p = files w p) by (intros p N; change f with (snd (true, text, f)); rewrite <- T; now apply apply_tool_frame).
  assert (F2 : forall p, p <> log_path (lk_out r) -> f2 p = f p) by (intros p N; change f2 with (snd (printed, f2)); rewrite <- L; now apply cmd_log_frame).
  assert (Fo : f2 (lk_out r) = File c (now E w)). { rewrite F2; [exact X|]. intro Q. destruct Ar as (Pn & _). symmetry in Q. exact (Pn SLog _ Q). }
  assert (Fb : forall p, ~ belongs (lk_out r) p -> f2 p = files w p). { intros p N. rewrite F2, F1; auto; intros ->; apply N; [now left|right; now exists SLog]. }
  split; [|split].
  - refine (install_delivers (lk_out r) _ t0 f2 f3 c (now E w) Ar (or_intror (conj T0 _)) Fo I). intros d G. rewrite Fb by exact (dest_not_belongs _ _ _ G Ar). exact (awaits_old t0 _ _ d Aw G).
  - intros o Ao N. eapply same_trans; [apply (same_write o (lk_out r) (files w) f2); auto|]. cbn [files set_files]. change f3 with (snd (true, f3)). rewrite <- I. now apply same_install.
  - cbn. lia.
Qed.
Lemma link_delivers t0 r w w' : in_area area (lk_out r) -> (t0 <= clock E (tick w))%Z -> awaiting t0 (files w) (lk_out r) -> link_step E r w = (0%Z, w') ->
  delivered (files w') (lk_out r) /\ (forall o, in_area area o -> o <> lk_out r -> same_at o (files w) (files w')) /\ tick w <= tick w'.
Proof.
  intros Ar T0 Aw H. unfold link_step in H. destruct (frugal_flags _ _ _ _ _) as (changed, f1) eqn:F.
  assert (Fr : forall p, p <> flags_path (lk_out r) -> f1 p = files w p) by (intros p N; eapply flags_only; eauto).
  assert (Sa : forall o, in_area area o -> same_at o (files w) f1).
  { intros o Ao. split.
    - apply Fr. intro Q. destruct Ao as (Pn & _). symmetry in Q. exact (Pn SFlags _ Q).
    - intros d G. apply Fr. intro Q. destruct Ar as (_ & _ & B). apply (dest_not_area o d G). rewrite Q. exact (B SFlags). }
  assert (Aw1 : awaiting t0 f1 (lk_out r)) by (eapply awaiting_same; [apply Sa; exact Ar|exact Aw]).
  assert (Do : do_link E r (set_files w f1) = (0%Z, w') ->
    delivered (files w') (lk_out r) /\ (forall o, in_area area o -> o <> lk_out r -> same_at o (files w) (files w')) /\ tick w <= tick w').
  { intro D. destruct (do_link_delivers t0 r (set_files w f1) w' Ar) as (A & B & C); [|exact Aw1|exact D|].
    - eapply Z.le_trans; [exact T0|]. apply MO. cbn. lia.
    - split; [exact A|]. split; [|cbn in C; lia]. intros o Ao N. eapply same_trans; [exact (Sa o Ao)|]. exact (B o Ao N). }
  destruct changed; [auto|]. destruct (frugal_mtime f1 (lk_srcs r) (lk_out r)) as [[|]|] eqn:M; auto. clear Do.
  set (wa := set_shown (set_files w f1) (lk_out r) (log_already_done (files (set_files w f1)) (lk_out r))) in *. destruct (installer E _ _ _) as (ok2, f3) eqn:I. destruct ok2; [|discriminate]. injection H as <-. apply mtime_no_work in M.
  cbn [files set_files]. split; [|split].
  - intros d G. destruct (Aw1 d G) as (_ & _ & Nd). destruct M as (tt & M & _). assert (X : exists c tau, f1 (lk_out r) = File c tau).
    { unfold modified_at, stat in M. destruct (f1 (lk_out r)) as [|c tau|t'|] eqn:Q; try discriminate; [now exists c, tau|]. now destruct (Nd t'). }
    destruct X as (c & tau & X). exact (install_delivers (lk_out r) _ t0 f1 f3 c tau Ar (or_introl Aw1) X I d G).
  - intros o Ao N. eapply same_trans; [exact (Sa o Ao)|]. change f3 with (snd (true, f3)). rewrite <- I. now apply same_install.
  - cbn. lia.
Qed.

(** ** Whole builds *)
Lemma nodup_left {A} (a b : list A) : NoDup (a ++ b) -> NoDup a.
Proof. induction a as [|x a IH]; cbn; [constructor|]. intro H. inversion H; subst. constructor; auto. intro J. apply H2, in_or_app. now left. Qed.
Lemma nodup_right {A} (a b : list A) : NoDup (a ++ b) -> NoDup b.
Proof. induction a as [|x a IH]; cbn; [auto|]. intro H. inversion H; subst. auto. Qed.
Lemma outs_cons b bs : outs (b :: bs) = step_outs b ++ outs bs. Proof. reflexivity. Qed.
Lemma steps_deliver t0 : forall bs w rv w', run_steps E bs w rv w' -> rv = 0%Z -> NoDup (outs bs) -> (forall o, In o (outs bs) -> in_area area o) ->
  (t0 <= clock E (tick w))%Z -> (forall o, In o (outs bs) -> awaiting t0 (files w) o) ->
  (forall o, In o (outs bs) -> delivered (files w') o) /\ (forall o, in_area area o -> ~ In o (outs bs) -> same_at o (files w) (files w')).
Proof.
  induction 1 as [w|b bs w rv w' H L|b bs w rv w1 rv2 w2 H L R IH]; intros Q ND Ar T0 Aw; [split; [contradiction|intros; apply same_refl]|discriminate|].
  rewrite outs_cons in *. 
  assert (One : (forall o, In o (step_outs b) -> delivered (files w1) o) /\ (forall o, in_area area o -> ~ In o (step_outs b) -> same_at o (files w) (files w1)) /\ tick w <= tick w1).
  { destruct b as [its|r]; cbn [one_step step_outs] in *.
    - assert (Arr : forall it, In it its -> in_area area (it_out it)) by (intros it J; apply Ar, in_or_app; left; now apply in_map).
      assert (NDi : NoDup (map it_out its)) by (eapply nodup_left; exact ND).
      assert (rv = 0%Z).
      { destruct H as (ok & jobs & wa & s & V & P & F & W & Rv). destruct ok; [|lia].
        destruct (validate_delivers t0 its w jobs wa NDi Arr) as (_ & _ & C & D & _); [|exact V|]; [intros it J; apply Aw, in_or_app; left; now apply in_map|].
        destruct (pool_failure E area inst_area GE jobs wa (fun it J => Arr it (C it J)) D s rv P Rv) as [Z|(Z & _)]; [exact Z|lia]. }
      subst rv. destruct (compile_delivers t0 its w w1 NDi Arr T0) as (A & B & C); [intros it J; apply Aw, in_or_app; left; now apply in_map|exact H|]. split; [|auto]. intros o J. apply in_map_iff in J as (it & <- & J). auto.
    - assert (rv = 0%Z).
      { unfold link_step in H. destruct (frugal_flags _ _ _ _ _). assert (D : forall x, do_link E r x = (rv, w1) -> rv = 0%Z).
        { intros x D. unfold do_link in D. destruct (apply_tool E _ _ _ _) as ((ok, text), f'). destruct (cmd_log _ _ _ _ _). destruct ok; [|inversion D; lia]. match type of D with context [installer E ?a ?b ?c] => destruct (installer E a b c) as (ok2, f3) end; destruct ok2; inversion D; lia. }
        destruct b; [exact (D _ H)|]. destruct (frugal_mtime _ _ _) as [[|]|]; try exact (D _ H). match type of H with context [installer E ?a ?b ?c] => destruct (installer E a b c) as (ok2, f3) end; destruct ok2; inversion H; lia. }
      subst rv. destruct (link_delivers t0 r w w1) as (A & B & C); auto; [apply Ar; now left|apply Aw; now left|]. split; [intros o [<-|[]]; exact A|]. split; [|exact C]. intros o Ao N. apply B; [exact Ao|]. intros ->. apply N. now left. }
  destruct One as (O1 & O2 & O3).
  assert (Dj : forall o, In o (outs bs) -> ~ In o (step_outs b)). { intros o J J'. revert ND. clear - J J'. induction (step_outs b) as [|x l IHl]; [contradiction|]. cbn. intro ND. inversion ND; subst. destruct J' as [->|J']; [|auto]. apply H1, in_or_app. now right. }
  destruct IH as (I1 & I2); auto.
  - eapply nodup_right; exact ND.
  - intros o J. apply Ar, in_or_app. now right.
  - eapply Z.le_trans; [exact T0|apply MO; exact O3].
  - intros o J. eapply awaiting_same; [apply O2; [apply Ar, in_or_app; now right|now apply Dj]|]. apply Aw, in_or_app. now right.
  - split.
    + intros o J. apply in_app_or in J as [J|J]; [|auto]. eapply delivered_same; [|exact (O1 o J)]. apply I2; [apply Ar, in_or_app; now left|]. intro J'. exact (Dj o J' J).
    + intros o Ao N. eapply same_trans; [apply O2; [exact Ao|]|apply I2; [exact Ao|]]; intro J; apply N, in_or_app; auto.
Qed.
End Deliver.

(** ** Builds of scripts *)
From Verif Require Import Plan SpecPlan PlanProofs BuildTheorems.
Theorem build_delivers sg out E inst_area srcs links goes rs w w' :
  good_env E (product_dir out) inst_area -> monotone (clock E) -> well_named sg out E inst_area srcs links -> delivers E goes ->
  (forall o d, goes o = Some d -> inst_area d) -> good_requests sg out inst_area srcs links rs ->
  (forall o, wanted_product sg out rs o -> awaiting goes (clock E (tick w)) (files w) o) ->
  build sg out E rs w 0 w' -> forall o, wanted_product sg out rs o -> delivered goes (files w') o.
Proof.
  intros GE MO WN DL DI GR Aw (bs & P & R) o W. destruct (plan_wanted sg out E inst_area srcs links WN rs GR) as (bs' & P' & GS & _ & _ & Ou). rewrite P in P'. injection P' as <-.
  pose proof (named_project sg out E inst_area srcs links WN) as PR.
  assert (Ar : forall x, In x (outs bs) -> in_area (product_dir out) x).
  { intros x J. apply in_concat in J as (l & J & Jx). apply in_map_iff in J as (b & <- & J). destruct b as [its|r]; cbn [step_outs] in Jx.
    - apply in_map_iff in Jx as (it & <- & Ji). eapply (pr_area _ _ _ _ _ PR), (gs_objs _ _ _ _ _ GS); eauto.
    - destruct Jx as [<-|[]]. eapply (pr_larea _ _ _ _ _ PR), (gs_reqs _ _ _ _ _ GS); eauto. }
  destruct (steps_deliver E (product_dir out) inst_area goes GE DL MO DI (clock E (tick w)) bs w 0 w' R eq_refl (gs_distinct _ _ _ _ _ GS) Ar (Z.le_refl _)) as (A & _).
  - intros x J. apply Aw. now apply Ou.
  - apply A. now apply Ou.
Qed.
