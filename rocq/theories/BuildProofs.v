(** * What a compile step does, in every schedule. *)

From Coq Require Import ZArith Ascii String Lia Bool List.
From Verif Require Import Base FileSys Frugal Deps Log Cookie CookieProofs Pool PoolInv SpecPool PoolProofs PoolOwn Build SpecFiles SpecBuild FrugalProofs.
Import ListNotations.
Local Open Scope nat_scope.

Lemma compiles_app o a b : compiles o (a ++ b) = compiles o a + compiles o b.
Proof. induction a as [|c a IH]; simpl; auto. destruct c; rewrite ?IH; auto. destruct (bytes_eqb out o); simpl; lia. Qed.
Lemma links_app o a b : links o (a ++ b) = links o a + links o b.
Proof. induction a as [|c a IH]; simpl; auto. destruct c; rewrite ?IH; auto. destruct (bytes_eqb out o); simpl; lia. Qed.

Lemma texts_app o a b : texts o (a ++ b) = texts o a ++ texts o b.
Proof. unfold texts. induction a as [|x a IH]; cbn; auto. destruct (bytes_eqb (fst x) o); cbn; now rewrite IH. Qed.
Lemma texts_own o t : texts o [(o, t)] = [t].
Proof. unfold texts. cbn. now rewrite bytes_eqb_refl. Qed.
Lemma texts_other o o' t : o <> o' -> texts o [(o', t)] = [].
Proof. intros H. unfold texts. cbn. replace (bytes_eqb o' o) with false; auto. symmetry. apply bytes_eqb_neq. auto. Qed.
Lemma texts_in o t l : In t (texts o l) <-> In (o, t) l.
Proof.
  unfold texts. rewrite in_map_iff. split.
  - intros ([o' t'] & E & H). apply filter_In in H. destruct H as [H B]. cbn in *. apply bytes_eqb_eq in B. congruence.
  - intros H. exists (o, t). split; auto. apply filter_In. split; auto. cbn. apply bytes_eqb_refl.
Qed.

Lemma side_neq k1 k2 c1 c2 : k1 <> k2 \/ c1 <> c2 -> side_file k1 c1 <> side_file k2 c2.
Proof. intros H E. apply side_file_inj in E. intuition. Qed.

Section CompileStep.
Variable E : env.
(** Paths no installation touches. *)
Variable keep : bytes -> Prop.
Hypothesis inst_frame : forall o t f p, keep p -> snd (installer E o t f) p = f p.

Definition owned (it : item) (p : bytes) : Prop :=
  p = it_out it \/ p = deps_path (it_out it) \/ p = log_path (it_out it).

Definition item_ok (it : item) : Prop :=
  product_name (it_out it) /\ keep (it_out it) /\ keep (deps_path (it_out it)) /\
  keep (log_path (it_out it)) /\ keep (flags_path (it_out it)).

(** *** One action *)

Definition touched (k : nat) (it : item) (p : bytes) : Prop :=
  match k with
  | 1 => p = deps_path (it_out it)
  | 2 => p = it_out it
  | 3 => p = log_path (it_out it)
  | _ => False
  end.

Definition extra_ran (k : nat) (it : item) : list command :=
  match k with 0 => [CmdDeps (it_src it)] | 2 => [CmdCompile (it_src it) (it_out it)] | _ => [] end.

Lemma prog_acts jobs j l a : nth_error (job_prog E jobs j) l = Some a ->
  exists it, nth_error jobs j = Some it /\
  ((l = 0 /\ a = act_deps E j it) \/ (l = 1 /\ a = act_write_deps E j it) \/ (l = 2 /\ a = act_compile E j it) \/
   (l = 3 /\ a = act_log E j it) \/ (l = 4 /\ a = act_install E j it)).
Proof.
  unfold job_prog. destruct (nth_error jobs j) as [it|]; [|destruct l; discriminate].
  intros H. exists it. split; auto.
  destruct l as [|[|[|[|[|l]]]]]; simpl in H; try (injection H as <-); auto 10. destruct l; discriminate.
Qed.

Lemma apply_tool_frame r t f out p : p <> out -> snd (apply_tool E r t f out) p = f p.
Proof.
  intros Hp. unfold apply_tool. destruct r as [text product|text [[c|]|]].
  - destruct (write_file (can_write E) t f out product) as [f'|] eqn:W; simpl; auto. eapply write_file_diff; eauto.
  - simpl. destruct (write_file (can_write E) t f out c) as [f'|] eqn:W; simpl; auto. eapply write_file_diff; eauto.
  - simpl. now apply remove_file_diff.
  - reflexivity.
Qed.

Lemma cmd_log_frame cw t f o text p : p <> log_path o -> snd (cmd_log cw t f o text) p = f p.
Proof.
  intros Hp. unfold cmd_log. destruct (cstr text) as [|c r].
  - simpl. now apply remove_file_diff.
  - destruct (write_file cw t f (log_path o) (c :: r)) as [f'|] eqn:W; simpl; auto. eapply write_file_diff; eauto.
Qed.

Lemma act_shape jobs j l a it s : nth_error (job_prog E jobs j) l = Some a -> nth_error jobs j = Some it ->
  tick (jw (a s)) = S (tick (jw s)) /\
  (forall u, u <> j -> locs (a s) u = locs s u) /\
  ran (jw (a s)) = ran (jw s) ++ extra_ran l it /\
  (exists e, shown (jw (a s)) = shown (jw s) ++ e /\ (l <> 3 -> e = []) /\ forall o, o <> it_out it -> texts o e = []) /\
  (forall p, keep p -> ~ touched l it p -> files (jw (a s)) p = files (jw s) p).
Proof.
  intros H Hj. destruct (prog_acts _ _ _ _ H) as (it' & Hj' & C).
  assert (it' = it) by congruence. subst it'. clear H Hj'.
  assert (SL : forall ls l0 u, u <> j -> set_loc ls j l0 u = ls u).
  { intros ls l0 u Hu. unfold set_loc. apply Nat.eqb_neq in Hu. now rewrite Hu. }
  destruct C as [[-> ->]|[[-> ->]|[[-> ->]|[[-> ->]|[-> ->]]]]]; cbn [touched extra_ran].
  - unfold act_deps. cbn. repeat split; auto. exists []. rewrite app_nil_r. auto.
  - unfold act_write_deps.
    assert (Y : forall f, (forall p, keep p -> p <> deps_path (it_out it) -> f p = files (jw s) p) ->
      tick (jw (JSt (set_files (jw s) f) (locs s))) = S (tick (jw s)) /\
      (forall u, u <> j -> locs (JSt (set_files (jw s) f) (locs s)) u = locs s u) /\
      ran (jw (JSt (set_files (jw s) f) (locs s))) = ran (jw s) ++ [] /\
      (exists e, shown (jw (JSt (set_files (jw s) f) (locs s))) = shown (jw s) ++ e /\ (1 <> 3 -> e = []) /\ forall o, o <> it_out it -> texts o e = []) /\
      (forall p, keep p -> p <> deps_path (it_out it) -> files (jw (JSt (set_files (jw s) f) (locs s))) p = files (jw s) p)).
    { intros f Hf. cbn. rewrite app_nil_r. repeat split; auto. exists []. rewrite app_nil_r. auto. }
    destruct (l_deps (locs s j)) as [out|]; [|apply Y; auto].
    destruct (write_file _ _ _ _ _) as [f|] eqn:W; apply Y; auto. intros p _ Hp. eapply write_file_diff; eauto.
  - unfold act_compile. destruct (apply_tool E _ _ _ _) as [[ok text] f] eqn:T. cbn. repeat split; auto.
    + exists []. rewrite app_nil_r. auto.
    + intros p _ Hp. change f with (snd (ok, text, f)). rewrite <- T. now apply apply_tool_frame.
  - unfold act_log. destruct (cmd_log _ _ _ _ _) as [text f] eqn:L. cbn. rewrite app_nil_r. repeat split; auto.
    + eexists. split; [reflexivity|]. split; [congruence|]. intros o Ho. now apply texts_other.
    + intros p _ Hp. change f with (snd (text, f)). rewrite <- L. now apply cmd_log_frame.
  - unfold act_install. destruct (l_fail (locs s j)).
    + cbn. rewrite app_nil_r. repeat split; auto. exists []. rewrite app_nil_r. auto.
    + destruct (installer E _ _ _) as [ok f] eqn:I. cbn. rewrite app_nil_r. repeat split; auto.
      * exists []. rewrite app_nil_r. auto.
      * intros p Hp _. change f with (snd (ok, f)). rewrite <- I. now apply inst_frame.
Qed.

(** *** The jobs of one step *)

Variable jobs : list item.
Variable w1 : world.
Hypothesis jobs_ok : Forall item_ok jobs.
Hypothesis outs_distinct : NoDup (map it_out jobs).
(** The tools do not read what this step writes or installs. *)
Variable src : bytes -> Prop.
Hypothesis src_keep : forall p, src p -> keep p.
Hypothesis src_not_owned : forall p it, src p -> In it jobs -> ~ owned it p.
Hypothesis deps_reads : forall fl s f f', (forall p, src p -> f p = f' p) -> cc_deps E fl s f = cc_deps E fl s f'.
Hypothesis obj_reads : forall fl s f f', (forall p, src p -> f p = f' p) -> cc_obj E fl s f = cc_obj E fl s f'.

Lemma job_ok i it : nth_error jobs i = Some it -> item_ok it.
Proof. intros H. rewrite Forall_forall in jobs_ok. apply jobs_ok. eapply nth_error_In; eauto. Qed.

Lemma outs_diff i j it it' : nth_error jobs i = Some it -> nth_error jobs j = Some it' -> i <> j -> it_out it <> it_out it'.
Proof.
  intros Hi Hj N Eq. apply N. eapply NoDup_nth_error; eauto.
  - rewrite map_length. apply nth_error_Some. congruence.
  - rewrite !nth_error_map, Hi, Hj. cbn. now f_equal.
Qed.

Lemma owned_disjoint i j it it' p : nth_error jobs i = Some it -> nth_error jobs j = Some it' -> i <> j ->
  owned it p -> ~ owned it' p.
Proof.
  intros Hi Hj N O O'. pose proof (outs_diff _ _ _ _ Hi Hj N) as D.
  destruct (job_ok _ _ Hi) as [P _]. destruct (job_ok _ _ Hj) as [P' _].
  unfold owned in *. change (deps_path) with (side_file SDeps) in *. change (log_path) with (side_file SLog) in *.
  destruct O as [-> | [-> | ->]]; destruct O' as [O'|[O'|O']];
    try (apply D; exact O');
    try (symmetry in O'; revert O'; apply P);
    try (revert O'; apply P');
    try (revert O'; apply side_neq; auto; left; discriminate).
Qed.

Lemma touched_owned l it p : touched l it p -> owned it p.
Proof. unfold owned. destruct l as [|[|[|[|l]]]]; cbn; tauto. Qed.

Notation f1 := (files w1).

Definition compiled_result (it : item) : tool_result := cc_obj E (argv_flags (it_flags it)) (it_src it) f1.

Record Jok (it : item) (i k : nat) (s : jst) : Prop := {
  J_tick : tick w1 <= tick (jw s);
  J_frame : forall p, keep p -> (forall it', In it' jobs -> ~ owned it' p) -> files (jw s) p = f1 p;
  J_deps0 : k < 2 -> files (jw s) (deps_path (it_out it)) = f1 (deps_path (it_out it));
  J_ldeps : 1 <= k -> l_deps (locs s i) = cc_deps E (argv_flags (it_flags it)) (it_src it) f1;
  J_deps1 : 2 <= k -> forall o, cc_deps E (argv_flags (it_flags it)) (it_src it) f1 = Some o ->
    usable E f1 (deps_path (it_out it)) ->
    exists t, files (jw s) (deps_path (it_out it)) = File (deps_content (parse_deps o)) t;
  J_deps2 : cc_deps E (argv_flags (it_flags it)) (it_src it) f1 = None \/ ~ usable E f1 (deps_path (it_out it)) ->
    files (jw s) (deps_path (it_out it)) = f1 (deps_path (it_out it));
  J_out0 : k < 3 -> files (jw s) (it_out it) = f1 (it_out it);
  J_fail0 : k < 3 -> l_fail (locs s i) = false;
  J_out1 : 3 <= k -> l_fail (locs s i) = false ->
    exists text obj tau, compiled_result it = ToolOk text obj /\ files (jw s) (it_out it) = File obj (clock E tau) /\
    tick w1 <= tau < tick (jw s);
  J_out2 : 3 <= k ->
    (exists text obj tau, compiled_result it = ToolOk text obj /\ files (jw s) (it_out it) = File obj (clock E tau) /\
       tick w1 <= tau < tick (jw s)) \/
    (l_fail (locs s i) = true /\
     (files (jw s) (it_out it) = f1 (it_out it) \/ files (jw s) (it_out it) = Absent \/
      exists text c t, compiled_result it = ToolFail text (Some (Some c)) /\ files (jw s) (it_out it) = File c t));
  J_fail1 : l_fail (locs s i) = true ->
    ~ usable E f1 (it_out it) \/ (exists text l, compiled_result it = ToolFail text l) \/
    exists t f, fst (installer E (it_out it) t f) = false;
  J_log0 : k < 4 -> files (jw s) (log_path (it_out it)) = f1 (log_path (it_out it));
  J_text : 3 <= k -> l_text (locs s i) = text_of (compiled_result it);
  J_log1 : 4 <= k -> usable E f1 (log_path (it_out it)) ->
    log_already_done (files (jw s)) (it_out it) = cstr (text_of (compiled_result it));
  J_shown : texts (it_out it) (shown (jw s)) =
    texts (it_out it) (shown w1) ++ (if Nat.leb 4 k then [cstr (text_of (compiled_result it))] else []);
  J_count : compiles (it_out it) (ran (jw s)) = compiles (it_out it) (ran w1) + (if Nat.leb 3 k then 1 else 0);
}.

Definition J (i k : nat) (s : jst) : Prop := exists it, nth_error jobs i = Some it /\ Jok it i k s.

Lemma J_init i : i < length jobs -> J i 0 (JSt w1 (fun _ => local0)).
Proof.
  intros H. destruct (nth_lt jobs i H) as [it Hi]. exists it. split; auto.
  constructor; cbn; auto; try lia; try discriminate. now rewrite app_nil_r.
Qed.

Lemma src_same s : (forall p, keep p -> (forall it', In it' jobs -> ~ owned it' p) -> files (jw s) p = f1 p) ->
  forall p, src p -> files (jw s) p = f1 p.
Proof. intros H p Hp. apply H; auto. Qed.

Lemma extra_other l it it' : it_out it <> it_out it' -> compiles (it_out it) (extra_ran l it') = 0.
Proof.
  intros H. destruct l as [|[|[|l]]]; cbn; auto. replace (bytes_eqb (it_out it') (it_out it)) with false; auto.
  symmetry. apply bytes_eqb_neq. auto.
Qed.

Lemma J_other i j k l a s : i <> j -> nth_error (job_prog E jobs j) l = Some a -> J j l s -> J i k s -> J i k (a s).
Proof.
  intros N Ha (jt & Hj & Kj) (it & Hi & K). exists it. split; auto.
  destruct (act_shape jobs j l a jt s Ha Hj) as (At & Al & Ar & (e & As & _ & Ae) & Af).
  assert (L : locs (a s) i = locs s i) by (apply Al; auto).
  assert (O : forall p, keep p -> owned it p -> files (jw (a s)) p = files (jw s) p).
  { intros p Hk Ho. apply Af; auto. intros T. apply touched_owned in T.
    exact (owned_disjoint i j it jt p Hi Hj N Ho T). }
  destruct (job_ok _ _ Hi) as (Pn & Ko & Kd & Kl & Kf).
  assert (O1 := O _ Ko (or_introl eq_refl)). assert (O2 := O _ Kd (or_intror (or_introl eq_refl))).
  assert (O3 := O _ Kl (or_intror (or_intror eq_refl))).
  destruct K as [jT jFr jD0 jLd jD1 jD2 jO0 jF0 jO1 jO2 jF1 jL0 jTx jL1 jSh jC]. constructor; rewrite ?L, ?O1, ?O2, ?O3, ?At, ?Ar, ?As; auto.
  - intros p Hk Hno. rewrite Af; auto. intros T. apply touched_owned in T. eapply Hno; eauto. eapply nth_error_In; eauto.
  - intros H3 Hf. destruct (jO1 H3 Hf) as (text & obj & tau & A & B & C). exists text, obj, tau. repeat split; auto; lia.
  - intros H3. destruct (jO2 H3) as [(text & obj & tau & A & B & C)|A]; [|auto]. left. exists text, obj, tau. repeat split; auto; lia.
  - intros H4 Hu. unfold log_already_done, read_file. rewrite O3. apply jL1; auto.
  - rewrite texts_app, Ae, app_nil_r by (apply (outs_diff i j); auto). exact jSh.
  - rewrite compiles_app, (extra_other l it jt), jC by (apply (outs_diff i j); auto). lia.
Qed.

Lemma write_usable f p c t : usable E f p -> exists f', write_file (can_write E) t f p c = Some f' /\ f' p = File c t.
Proof.
  intros [H H']. destruct (write_file (can_write E) t f p c) as [f'|] eqn:W.
  - exists f'. split; auto. eapply write_file_same; eauto.
  - unfold write_file in W. rewrite H in W. destruct H' as [A|(c0 & t0 & A)]; rewrite A in W; discriminate.
Qed.

Lemma write_was_usable f p c t f' : write_file (can_write E) t f p c = Some f' -> usable E f p.
Proof.
  unfold write_file, usable. destruct (can_write E p); [|discriminate]. intros H. split; auto.
  destruct (f p); try discriminate; eauto.
Qed.

Lemma usable_same f f' p : f p = f' p -> usable E f p -> usable E f' p.
Proof. unfold usable. intros ->. auto. Qed.

Lemma J_own i k a s : nth_error (job_prog E jobs i) k = Some a -> J i k s -> J i (S k) (a s).
Proof.
  intros Ha (it & Hi & K). exists it. split; auto.
  destruct (act_shape jobs i k a it s Ha Hi) as (At & _ & Ar & (e & As & Ae & _) & Af).
  destruct (prog_acts _ _ _ _ Ha) as (it' & Hi' & C). assert (it' = it) by congruence. subst it'. clear Hi'.
  destruct (job_ok _ _ Hi) as (Pn & Ko & Kd & Kl & Kf).
  assert (In it jobs) by (eapply nth_error_In; eauto).
  destruct K as [jT jFr jD0 jLd jD1 jD2 jO0 jF0 jO1 jO2 jF1 jL0 jTx jL1 jSh jC].
  assert (Fr : forall p, keep p -> (forall it', In it' jobs -> ~ owned it' p) -> files (jw (a s)) p = f1 p).
  { intros p Hk Hno. rewrite Af; auto. intros T. apply touched_owned in T. eapply Hno; eauto. }
  assert (N1 : it_out it <> deps_path (it_out it)) by (apply not_eq_sym; apply (Pn SDeps)).
  assert (N2 : it_out it <> log_path (it_out it)) by (apply not_eq_sym; apply (Pn SLog)).
  assert (N3 : deps_path (it_out it) <> log_path (it_out it)) by (apply (side_neq SDeps SLog); left; discriminate).
  pose proof (src_same s jFr) as Src.
  assert (SetL : forall ls l0, set_loc ls i l0 i = l0) by (intros; unfold set_loc; now rewrite Nat.eqb_refl).
  destruct C as [[-> Ea]|[[-> Ea]|[[-> Ea]|[[-> Ea]|[-> Ea]]]]]; cbn [touched] in Af.
  - (* preprocessor *)
    assert (El : locs (a s) i = Local (cc_deps E (argv_flags (it_flags it)) (it_src it) (files (jw s))) (l_text (locs s i)) (l_fail (locs s i))).
    { rewrite Ea. unfold act_deps. cbn. now rewrite SetL. }
    rewrite (Ae ltac:(discriminate)), app_nil_r in As.
    constructor; rewrite ?At, ?Ar, ?As, ?El; try lia; auto.
    + intros _. rewrite Af by auto; first [apply jL0; lia | apply jO0; lia | apply jD0; lia | apply jD2; auto; fail | apply (jD1 ltac:(lia)); auto].
    + intros _. cbn. apply deps_reads. auto.
    + intros Hn. rewrite Af by auto; first [apply jL0; lia | apply jO0; lia | apply jD0; lia | apply jD2; auto; fail | apply (jD1 ltac:(lia)); auto].
    + intros _. rewrite Af by auto; first [apply jL0; lia | apply jO0; lia | apply jD0; lia | apply jD2; auto; fail | apply (jD1 ltac:(lia)); auto].
    + intros _. rewrite Af by auto; first [apply jL0; lia | apply jO0; lia | apply jD0; lia | apply jD2; auto; fail | apply (jD1 ltac:(lia)); auto].
    + rewrite compiles_app, jC. cbn. lia.
  - (* dependency file *)
    assert (El : locs (a s) i = locs s i).
    { rewrite Ea. unfold act_write_deps. destruct (l_deps (locs s i)); auto. destruct (write_file _ _ _ _ _); auto. }
    assert (Ld := jLd ltac:(lia)).
    rewrite (Ae ltac:(discriminate)), app_nil_r in As.
    constructor; rewrite ?At, ?Ar, ?As, ?El; try lia; auto.
    + intros _ o Ho Hu. assert (U : usable E (files (jw s)) (deps_path (it_out it))).
      { eapply usable_same; [|exact Hu]. symmetry. apply jD0. lia. }
      rewrite Ea. unfold act_write_deps. rewrite Ld, Ho.
      destruct (write_usable _ _ (deps_content (parse_deps o)) (now E (jw s)) U) as (f' & W & Hf'). rewrite W. cbn. eauto.
    + intros Hn. rewrite <- (jD0 ltac:(lia)), Ea. unfold act_write_deps. rewrite Ld.
      destruct (cc_deps E (argv_flags (it_flags it)) (it_src it) f1) as [o|]; [|reflexivity].
      destruct Hn as [Hn|Hn]; [discriminate|]. destruct (write_file _ _ _ _ _) as [f'|] eqn:W; [|reflexivity].
      exfalso. apply Hn. apply (usable_same (files (jw s))); [apply jD0; lia|]. eapply write_was_usable; eauto.
    + intros _. rewrite Af by auto; first [apply jL0; lia | apply jO0; lia | apply jD0; lia | apply jD2; auto; fail | apply (jD1 ltac:(lia)); auto].
    + intros _. rewrite Af by auto; first [apply jL0; lia | apply jO0; lia | apply jD0; lia | apply jD2; auto; fail | apply (jD1 ltac:(lia)); auto].
    + rewrite compiles_app, jC. cbn. lia.
  - (* compiler *)
    assert (R : cc_obj E (argv_flags (it_flags it)) (it_src it) (files (jw s)) = compiled_result it).
    { apply obj_reads. auto. }
    assert (Y : exists ok text f, apply_tool E (compiled_result it) (now E (jw s)) (files (jw s)) (it_out it) = (ok, text, f) /\
       locs (a s) i = Local (l_deps (locs s i)) text (negb ok) /\ files (jw (a s)) = f).
    { rewrite Ea. unfold act_compile. rewrite R. destruct (apply_tool _ _ _ _ _) as [[ok text] f] eqn:T.
      exists ok, text, f. split; auto. cbn. now rewrite SetL. }
    destruct Y as (ok & text & f & T & El & Ef).
    assert (Ttext : text = text_of (compiled_result it)).
    { revert T. unfold apply_tool. destruct (compiled_result it) as [t o|t [[c|]|]]; cbn.
      - destruct (write_file _ _ _ _ _); congruence.
      - congruence.
      - congruence.
      - congruence. }
    rewrite (Ae ltac:(discriminate)), app_nil_r in As.
    constructor; rewrite ?At, ?Ar, ?As, ?El; try lia; auto.
    + intros _ o Ho Hu. rewrite Af by auto; first [apply jL0; lia | apply jO0; lia | apply jD0; lia | apply jD2; auto; fail | apply (jD1 ltac:(lia)); auto].
    + intros Hn. rewrite Af by auto; first [apply jL0; lia | apply jO0; lia | apply jD0; lia | apply jD2; auto; fail | apply (jD1 ltac:(lia)); auto].
    + intros _ Hf. cbn in Hf. destruct ok; [|discriminate].
      revert T. unfold apply_tool. destruct (compiled_result it) as [t o|t [[c|]|]]; try discriminate.
      destruct (write_file _ _ _ _ _) as [f'|] eqn:W; [|discriminate]. intros T. injection T as <- ->.
      exists t, o, (tick (jw s)). repeat split; auto. rewrite Ef. eapply write_file_same; eauto.
    + intros _. cbn [l_fail]. pose proof (jO0 ltac:(lia)) as O0. rewrite Ef. revert T. unfold apply_tool.
      destruct (compiled_result it) as [t o|t [[c|]|]].
      * destruct (write_file _ _ _ _ _) as [f'|] eqn:W; intros T; injection T as <- <- <-.
        -- left. exists t, o, (tick (jw s)). repeat split; auto. eapply write_file_same; eauto.
        -- right. auto.
      * destruct (write_file _ _ _ _ _) as [f'|] eqn:W; intros T; injection T as <- <- <-; right; (split; [reflexivity|]).
        -- right. right. exists t, c, (now E (jw s)). split; [reflexivity|]. eapply write_file_same; eauto.
        -- left. exact O0.
      * intros T; injection T as <- <- <-. right. split; [reflexivity|]. unfold remove_file.
        destruct (can_write E (it_out it)); [|now left]. destruct (files (jw s) (it_out it)) eqn:F; try (left; congruence).
        right. left. apply fs_set_same.
      * intros T; injection T as <- <- <-. right. split; [reflexivity|]. left. exact O0.
    + intros Hf. cbn in Hf. destruct ok; [discriminate|]. revert T. unfold apply_tool.
      destruct (compiled_result it) as [t o|t l]; [|intros _; right; left; eauto].
      destruct (write_file _ _ _ _ _) as [f'|] eqn:W; [discriminate|]. intros _. left. intros Hu.
      assert (U : usable E (files (jw s)) (it_out it)).
      { eapply usable_same; [|exact Hu]. symmetry. apply jO0. lia. }
      destruct (write_usable _ _ o (now E (jw s)) U) as (f' & W' & _). congruence.
    + intros _. rewrite Af by auto; first [apply jL0; lia | apply jO0; lia | apply jD0; lia | apply jD2; auto; fail | apply (jD1 ltac:(lia)); auto].
    + rewrite compiles_app, jC. cbn. rewrite bytes_eqb_refl. lia.
  - (* log *)
    assert (El : locs (a s) i = locs s i).
    { rewrite Ea. unfold act_log. destruct (cmd_log _ _ _ _ _); auto. }
    assert (Tx := jTx ltac:(lia)).
    assert (Y : exists text f, cmd_log (can_write E) (now E (jw s)) (files (jw s)) (it_out it) (text_of (compiled_result it)) = (text, f) /\
        files (jw (a s)) = f /\ shown (jw (a s)) = shown (jw s) ++ [(it_out it, text)] /\ text = cstr (text_of (compiled_result it))).
    { rewrite Ea. unfold act_log. rewrite Tx. destruct (cmd_log _ _ _ _ _) as [text f] eqn:Lg. exists text, f. repeat split; auto.
      revert Lg. unfold cmd_log. destruct (cstr (text_of (compiled_result it))); [congruence|].
      destruct (write_file _ _ _ _ _); congruence. }
    destruct Y as (text & f & Lg & Ef & Es & Et).
    constructor; rewrite ?At, ?Ar, ?El; try lia; auto.
    + intros _ o Ho Hu. rewrite Af by auto; first [apply jL0; lia | apply jO0; lia | apply jD0; lia | apply jD2; auto; fail | apply (jD1 ltac:(lia)); auto].
    + intros Hn. rewrite Af by auto; first [apply jL0; lia | apply jO0; lia | apply jD0; lia | apply jD2; auto; fail | apply (jD1 ltac:(lia)); auto].
    + intros H3 Hf. rewrite Af by auto. destruct (jO1 ltac:(lia) Hf) as (text' & obj & tau & A & B & D).
      exists text', obj, tau. repeat split; auto; lia.
    + intros H3. rewrite Af by auto. destruct (jO2 ltac:(lia)) as [(text' & obj & tau & A & B & D)|A]; [|auto].
      left. exists text', obj, tau. repeat split; auto; lia.
    + intros _ Hu. assert (U : usable E (files (jw s)) (log_path (it_out it))).
      { eapply usable_same; [|exact Hu]. symmetry. apply jL0. lia. }
      destruct U as [U1 U2]. rewrite Ef. rewrite <- Et.
      eapply (log_replay (can_write E) (now E (jw s)) (files (jw s)) (it_out it) (text_of (compiled_result it)) text f); auto.
      * change (it_out it ++ lit ".log") with (log_path (it_out it)). intros t Ht. destruct U2 as [U2|(c & t' & U2)]; congruence.
      * change (it_out it ++ lit ".log") with (log_path (it_out it)). intros Ht. destruct U2 as [U2|(c & t' & U2)]; congruence.
    + rewrite Es, texts_app, jSh, texts_own, Et. cbn. now rewrite app_nil_r.
    + rewrite compiles_app, jC. cbn. lia.
  - (* install *)
    assert (Y : (l_fail (locs s i) = true /\ locs (a s) i = locs s i) \/
      (l_fail (locs s i) = false /\ exists ok, fst (installer E (it_out it) (now E (jw s)) (files (jw s))) = ok /\
        locs (a s) i = Local (l_deps (locs s i)) (l_text (locs s i)) (negb ok))).
    { rewrite Ea. unfold act_install. destruct (l_fail (locs s i)); [left; auto|right]. split; auto.
      destruct (installer E _ _ _) as [ok f]. exists ok. cbn. now rewrite SetL. }
    assert (Ld : l_deps (locs (a s) i) = l_deps (locs s i)) by (destruct Y as [[_ ->]|(_ & ok & _ & ->)]; auto).
    assert (Lt : l_text (locs (a s) i) = l_text (locs s i)) by (destruct Y as [[_ ->]|(_ & ok & _ & ->)]; auto).
    rewrite (Ae ltac:(discriminate)), app_nil_r in As.
    constructor; rewrite ?At, ?Ar, ?As, ?Ld, ?Lt; try lia; auto.
    + intros _ o Ho Hu. rewrite Af by auto; first [apply jL0; lia | apply jO0; lia | apply jD0; lia | apply jD2; auto; fail | apply (jD1 ltac:(lia)); auto].
    + intros Hn. rewrite Af by auto; first [apply jL0; lia | apply jO0; lia | apply jD0; lia | apply jD2; auto; fail | apply (jD1 ltac:(lia)); auto].
    + intros H3 Hf. rewrite Af by auto.
      assert (Hf0 : l_fail (locs s i) = false). { destruct Y as [[A B]|(A & _)]; auto. rewrite B in Hf. congruence. }
      destruct (jO1 ltac:(lia) Hf0) as (text' & obj & tau & A & B & D).
      exists text', obj, tau. repeat split; auto; lia.
    + intros H3. rewrite Af by auto. destruct (jO2 ltac:(lia)) as [(text' & obj & tau & A & B & D)|[Hf A]].
      * left. exists text', obj, tau. repeat split; auto; lia.
      * right. split; auto. destruct Y as [[_ Y]|(Y & _)]; [now rewrite Y|congruence].
    + intros Hf. destruct Y as [[A B]|(A & ok & I & B)].
      * auto.
      * rewrite B in Hf. cbn in Hf. right; right. destruct ok; [discriminate|]. eauto.
    + intros H4 Hu. unfold log_already_done, read_file. rewrite Af by auto. apply jL1; auto; lia.
    + rewrite compiles_app, jC. cbn. lia.
Qed.

End CompileStep.
