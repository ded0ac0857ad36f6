(** * Proofs about installing again after an installation was cut short. *)

From Coq Require Import ZArith Ascii String Lia Bool List.
From Verif Require Import Base Deps FileSys Frugal FrugalProofs Vfs Install SpecInstall VfsProofs PathProofs InstallProofs InstallAll SpecResume.
Import ListNotations.

Lemma firstn_filter {A} (g : A -> bool) : forall n l, exists m, filter g (firstn n l) = firstn m (filter g l).
Proof.
  induction n as [|n IH]; intros l; [exists 0; reflexivity|]. destruct l as [|a l]; [exists 0; reflexivity|].
  destruct (IH l) as [m E]. cbn [firstn filter]. destruct (g a); [exists (Datatypes.S m)|exists m]; cbn [firstn]; now rewrite E.
Qed.

Lemma In_firstn {A} (x : A) : forall n l, In x (firstn n l) -> In x l.
Proof. induction n as [|n IH]; intros [|a l] I; cbn in I; try contradiction. destruct I as [->|I]; [now left|right; auto]. Qed.

Lemma rev_firstn_below n (l : list bytes) P : below (rev (firstn n l) ++ P) (rev l ++ P).
Proof. exists (rev (skipn n l)). rewrite app_assoc, <- rev_app_distr, firstn_skipn. reflexivity. Qed.

Section Resume.
Variables (S : sys) (out prefix : bytes) (P : loc) (clock : nat -> Z).
Notation cwd := (s_cwd S).
Hypothesis TIDY : tidy S.

Lemma parents_upto now w v n b w' : calm cwd prefix P (nodes w) v ->
  mkdirs S (Some out) now w prefix (firstn n (strsep SLASH (dirname v))) = (b, w') -> grew P (tl (dest P v)) (nodes w) (nodes w').
Proof.
  intros [LK0 D (N & O & E & Z) W _] H. pose proof (hidden_prefix _ _ _ _ _ LK0) as LK. rewrite mkdirs_names in H.
  destruct (firstn_filter nonempty n (strsep SLASH (dirname v))) as [m Fm]. rewrite Fm in H. change (filter nonempty (strsep SLASH (dirname v))) with (names (dirname v)) in H.
  rewrite tl_dest by auto.
  assert (PN : Forall plain_name (names v)) by (apply names_plain; repeat split; auto).
  destruct (names_dirname v N) as [X|[X Y]]; rewrite X in H.
  - eapply (grew_wider P P); [apply below_refl|apply (rev_firstn_below m)|].
    eapply mkdirs_effect in H; [exact (proj2 H)|exact LK| | |].
    + rewrite Forall_forall in *. intros c I. apply PN. apply removelast_In. exact (In_firstn _ _ _ I).
    + pose proof (names_no_slash v) as NS. rewrite Forall_forall in *. intros c I. apply NS. apply removelast_In. exact (In_firstn _ _ _ I).
    + intros q B1 B2. apply W; auto. eapply below_trans; [exact B2|]. eapply below_trans; [apply rev_firstn_below|]. rewrite <- tl_dest by auto. apply tl_below.
  - destruct m as [|m]; cbn [firstn] in H; [injection H as _ <-; apply grew_refl|]. replace (firstn m []) with (@nil bytes) in H by (destruct m; reflexivity).
    rewrite Y. cbn [rev app]. cbn [mkdirs is_nil dot] in H. unfold mkdir_wrapped, mkdir in H.
    destruct (lookup_app (nodes w) true cwd prefix dot P LK) as [k LL].
    change (strsep SLASH dot) with [dot] in LL. rewrite walk_cons in LL. destruct D as [t D]. rewrite D in LL.
    change (is_nil dot || bytes_eqb dot dot) with true in LL. cbv iota in LL. rewrite walk_nil, D in LL.
    change [DOT] with dot in H. rewrite LL in H. injection H as _ <-. apply grew_refl.
Qed.

Lemma grew_tree d f f' : d <> [] -> grew P (tl d) f f' -> forall x, f' (x ++ d) = f (x ++ d).
Proof.
  intros ND G x. apply (grew_out _ _ _ _ _ G). intro B. apply (not_below_tl d ND). eapply below_trans; [apply (below_app d x)|exact B].
Qed.

(** What being stopped in an entry can have changed. *)
Lemma halts_change i w k v es o w1 : calm cwd prefix P (nodes w) v -> halts S out prefix P clock i w ((k, v) :: es) o w1 ->
  changes_only P [dest P v] (nodes w) (nodes w1) /\
  (o = None -> (forall x, nodes w1 (x ++ dest P v) = nodes w (x ++ dest P v)) \/ nodes w1 (dest P v) = None).
Proof.
  intros C H. assert (NV : names v <> []) by apply C. assert (ND : dest P v <> []) by now apply dest_nonempty. inversion H; subst.
  - split; [apply changes_refl|auto].
  - match goal with M : mkdirs _ _ _ _ _ _ = _ |- _ => pose proof (parents_upto _ _ _ _ _ _ C M) as G end.
    split; [apply grew_changes; [apply dest_below|exact G]|]. intros _. left. now apply grew_tree.
  - match goal with M : mkdirs _ _ _ _ _ _ = _ |- _ => pose proof (parents_effect S (Some out) _ _ _ _ _ _ _ C M) as [_ G] end.
    pose proof (grew_calm S _ _ _ _ _ C G) as C1.
    match goal with R : rm_rf _ _ _ _ = _ |- _ => pose proof (rm_effect S TIDY _ _ _ _ _ _ _ C1 R) as W; pose proof (rm_leaves S _ _ _ _ _ _ C1 R) as L; rename R into RM end.
    cbn [nodes set_nodes]. split.
    + eapply changes_trans; [apply grew_changes; [apply dest_below|exact G]|]. apply within_changes; [apply dest_below|now apply dest_not|exact W].
    + intros _. unfold rm_rf in RM. destruct (is_nil _ || _ || _); [discriminate|].
      rewrite unslash_dest in RM by (apply slash_end_dest, C1). rewrite slash_end_dest in RM by apply C1. cbn [andb] in RM.
      destruct (dest_cases cwd prefix P _ v true C1) as [[X N]|[[X N]|[X|X]]]; rewrite X in RM; try discriminate.
      * destruct (s_may _ _ _); [|discriminate]. injection RM as <-. right. rewrite touch_other.
        -- replace (belowb (dest P v) (dest P v)) with true; [reflexivity|]. symmetry. apply belowb_iff, below_refl.
        -- intro E. apply (not_below_tl _ ND). rewrite <- E. apply below_refl.
      * injection RM as <-. auto.
      * injection RM as <-. left. now apply grew_tree.
  - match goal with M : mkdirs _ _ _ _ _ _ = _ |- _ => pose proof (parents_effect S (Some out) _ _ _ _ _ _ _ C M) as [_ G] end.
    cbn [nodes set_nodes]. split; [|discriminate].
    eapply changes_trans; [apply grew_changes; [apply dest_below|exact G]|]. apply within_changes; [apply dest_below|now apply dest_not|assumption].
Qed.

Lemma dests_app a b : dests P (a ++ b) = dests P a ++ dests P b.
Proof. apply map_app. Qed.

Lemma hide_less ds ds' f keep p l : incl ds ds' -> lookup cwd (hide ds' f) keep p = WFound l -> lookup cwd (hide ds f) keep p = WFound l.
Proof. intros I L. apply (hidden_stays P [] f f keep cwd p l (changes_refl _ _ _) ds' (incl_nil_l _) L ds I). Qed.

Lemma pairs_left {A} (R : A -> A -> Prop) : forall a b, ForallOrdPairs R (a ++ b) -> ForallOrdPairs R a.
Proof.
  induction a as [|x a IH]; intros b F; [constructor|]. cbn in F. inversion F as [|? ? F1 F2]; subst. constructor; [|eauto].
  rewrite Forall_forall in *. intros y I. apply F1. apply in_or_app. now left.
Qed.

Lemma tame_left f a b : tame cwd prefix P f (a ++ b) -> tame cwd prefix P f a.
Proof.
  intros [A B C D E F]. rewrite dests_app in *. constructor; [|exact B| | | |].
  - eapply hide_less; [|exact A]. apply incl_appl, incl_refl.
  - intros k v I. apply (C k v), in_or_app. now left.
  - intros k v q I. apply (D k v q), in_or_app. now left.
  - intros k v q I. apply (E k v q), in_or_app. now left.
  - exact (pairs_left _ _ _ F).
Qed.

Lemma good_left O f a b k v : good_source cwd O P (dests P (a ++ b)) f k v -> good_source cwd O P (dests P a) f k v.
Proof.
  intros (NK & s & L & NS & K). assert (I : incl (dests P a) (dests P (a ++ b))) by (rewrite dests_app; apply incl_appl, incl_refl).
  split; [exact NK|]. exists s. split; [exact (hide_less _ _ _ _ _ _ I L)|]. split; [exact NS|]. destruct K as [K|(K & N & F)]; [left; exact K|]. right.
  split; [|split; [|exact F]].
  - destruct K as [K|K]; [left; exact K|]. right. exact (hide_less _ _ _ _ _ _ I K).
  - intros d J. exact (N d (I d J)).
Qed.

Lemma entries_keep f0 : forall todo done i w w', tame cwd prefix P f0 (done ++ todo) -> changes_only P (dests P done) f0 (nodes w) ->
  install_entries S (Some out) out prefix clock i w todo = Ok (true, w') -> changes_only P (dests P todo) (nodes w) (nodes w').
Proof.
  induction todo as [|[k v] todo IH]; intros done i w w' T C H; cbn [install_entries] in H; [injection H as <-; apply changes_refl|].
  assert (I : In (k, v) (done ++ (k, v) :: todo)) by (apply in_or_app; right; now left).
  assert (CM : calm cwd prefix P (nodes w) v).
  { eapply (tame_calm cwd prefix P f0 _ k v (dests P done)); [exact T|exact I|rewrite dests_app; apply incl_appl, incl_refl| |exact C].
    intros d J. pose proof (tm_apart _ _ _ _ _ T) as F. rewrite dests_app in F. eapply pairs_app; [exact F|exact J|now left]. }
  destruct (install_single S (Some out) out prefix (clock i) w k v false) as [[[|] w1]| | | |] eqn:E; try discriminate.
  pose proof (single_effect S (Some out) TIDY out prefix (clock i) w P k v false true w1) as SE. rewrite (cstr_nul_free v) in SE by apply CM. specialize (SE CM E).
  assert (C1 : changes_only P (dests P (done ++ [(k, v)])) f0 (nodes w1)).
  { rewrite dests_app. eapply changes_trans; [eapply changes_more; [|exact C]; apply incl_appl, incl_refl|eapply changes_more; [|exact SE]; apply incl_appr, incl_refl]. }
  replace (done ++ (k, v) :: todo) with ((done ++ [(k, v)]) ++ todo) in T by (rewrite <- app_assoc; reflexivity).
  eapply changes_trans; [eapply changes_more; [|exact SE]; intros d [<-|[]]; now left|]. eapply changes_more; [|exact (IH _ _ _ _ T C1 H)]. intros d J. now right.
Qed.

Section Course.
Variables (O : loc) (m : list (bytes * bytes)) (w0 : vw).
Notation f0 := (nodes w0).
Hypothesis T : tame cwd prefix P f0 m.
Hypothesis SC : slash_free cwd.
Hypothesis ONE : Forall (fun c => c <> []) O.
Hypothesis SO : slash_free O.
Hypothesis EO : out = unparse O.
Hypothesis GS : forall k v, In (k, v) m -> good_source cwd O P (dests P m) f0 k v.

Notation as_fair := (left_fair cwd P f0).

Lemma fair_same f f' s d : fair f s d -> (forall x, f' (x ++ s) = f (x ++ s)) -> (forall x, f' (x ++ d) = f (x ++ d)) -> fair f' s d.
Proof.
  intros [A B] Sx Dx. pose proof (Sx [] : f' s = f s) as S0. pose proof (Dx [] : f' d = f d) as D0. split; [|now rewrite S0, D0].
  unfold older. rewrite S0, D0. intro X. eapply holds_ext; [exact (A X)|exact Sx|exact Dx].
Qed.

Lemma fair_holds f f' s d : holds f s f' d -> (forall x, f' (x ++ s) = f (x ++ s)) -> fair f' s d.
Proof.
  intros H Sx. split.
  - intros _. eapply holds_ext; [exact H|exact Sx|reflexivity].
  - rewrite (Sx [] : f' s = f s). unfold holds in H. destruct (f s) as [[c t|t|t]|]; try contradiction; [|exact Logic.I].
    intros [t' X]. rewrite X in H. discriminate.
Qed.

Lemma fair_gone f s d : (exists c t, f s = Some (VFile c t)) \/ is_directory (f s) -> f d = None -> fair f s d.
Proof.
  intros K N. split.
  - unfold older. rewrite N. discriminate.
  - destruct K as [(c & t & ->)|[t ->]]; [|exact Logic.I]. rewrite N. intros [t' X]. discriminate.
Qed.

Lemma source_same f : changes_only P (dests P m) f0 f -> forall k v s, In (k, v) m -> lookup cwd (hide (dests P m) f0) false k = WFound s ->
  (forall d, In d (dests P m) -> ~ below s d) -> forall x, f (x ++ s) = f0 (x ++ s).
Proof.
  intros C k v s _ LK ND x. destruct (C (x ++ s)) as [(d & J & B)|[X|((d & J & B & _) & _)]]; auto; exfalso.
  - destruct (below_two d s (x ++ s) B (below_app s x)) as [Y|Y].
    + apply lookup_found in LK as [n X]. apply hide_some in X as [_ X]. apply (X d); auto.
    + apply (ND d); auto.
  - apply (ND d); auto. eapply below_trans; [apply (below_app s x)|exact B].
Qed.

Theorem cut_leaves o w1 : cut_short S out prefix P clock w0 m o w1 -> as_fair o (nodes w1) ->
  changes_only P (dests P m) f0 (nodes w1) /\
  forall k v s, In (k, v) m -> lookup cwd (hide (dests P m) f0) false k = WFound s -> ~ product O s ->
  (forall d, In d (dests P m) -> ~ below s d) -> fair f0 s (dest P v) -> fair (nodes w1) s (dest P v).
Proof.
  intros (done & todo & w & E & R & H) LF. unfold install_all in R. cbn [i_map i_prefix] in R.
  pose proof T as T'. rewrite E in T'. pose proof (tame_left _ _ _ T') as Td.
  destruct (entries_change S out prefix clock TIDY P f0 done [] 0 w0 _ Td (changes_refl _ _ _) R) as (b & w2 & Q & CD). injection Q as <- <-. cbn [app] in CD.
  assert (GSd : forall k v, In (k, v) done -> good_source cwd O P (dests P done) f0 k v).
  { intros k v I. eapply good_left with (b := todo). rewrite <- E. apply GS. rewrite E. apply in_or_app. now left. }
  destruct (entries_copy S out prefix clock TIDY O P f0 done (rev (copies w0)) Td SC ONE SO EO GSd done [] 0 w0 w eq_refl (changes_refl P _ _) (fun k v s I => match I with end) (eq_sym (app_nil_r _)) R) as [HD _].
  assert (INd : incl (dests P done) (dests P m)) by (rewrite E, dests_app; apply incl_appl, incl_refl).
  pose proof (tm_apart _ _ _ _ _ T') as AP. rewrite dests_app in AP.
  assert (MID : forall k v rest, todo = (k, v) :: rest -> calm cwd prefix P (nodes w) v).
  { intros k v rest ->. eapply (tame_calm cwd prefix P f0 m k v (dests P done)); [exact T|rewrite E; apply in_or_app; right; now left|exact INd| |exact CD].
    intros d J. eapply pairs_app; [exact AP|exact J|now left]. }
  destruct todo as [|[k v] rest].
  - (* at the end *)
    assert (w1 = w) by (inversion H; reflexivity). subst w1. rewrite app_nil_r in E. rewrite <- E in CD, HD. split; [exact CD|]. intros k v s I LK NP ND FA.
    apply (fair_holds f0); [exact (HD k v s I (unhide S _ _ _ _ _ LK) NP)|]. exact (source_same _ CD k v s I LK ND).
  - specialize (MID k v rest eq_refl). destruct (halts_change _ _ _ _ _ _ _ MID H) as [CH OWN].
    assert (INv : incl [dest P v] (dests P m)). { rewrite E, dests_app. apply incl_appr. cbn. intros d [<-|[]]. now left. }
    assert (CM : changes_only P (dests P m) f0 (nodes w1)).
    { eapply changes_trans; [eapply changes_more; [exact INd|exact CD]|eapply changes_more; [exact INv|exact CH]]. }
    split; [exact CM|]. intros k' v' s I LK NP ND FA. pose proof (source_same _ CM k' v' s I LK ND) as SRC.
    pose proof I as I'. rewrite E in I'. apply in_app_iff in I' as [J|[J|J]].
    + (* done before *)
      apply (fair_holds f0); [|exact SRC]. eapply holds_ext; [exact (HD k' v' s J (unhide S _ _ _ _ _ LK) NP)|reflexivity|].
      intro x. apply (apart_same _ _ _ _ (dest P v') CH); [|apply below_app]. intros d [<-|[]]. apply apart_sym.
      eapply pairs_app; [exact AP|apply in_map_iff; exists (k', v'); split; [reflexivity|exact J]|now left].
    + (* at work *)
      injection J as <- <-. assert (DST : forall x, nodes w (x ++ dest P v) = f0 (x ++ dest P v)).
      { intro x. apply (apart_same _ _ _ _ (dest P v) CD); [|apply below_app]. intros d J. eapply pairs_app; [exact AP|exact J|now left]. }
      destruct o as [[k2 v2]|].
      * assert (K2 : k2 = k /\ v2 = v) by (inversion H; subst; auto). destruct K2 as [-> ->]. apply LF. exact (unhide S _ _ _ _ _ LK).
      * destruct (OWN eq_refl) as [X|X].
        -- eapply fair_same; [exact FA|exact SRC|]. intro x. now rewrite X.
        -- apply fair_gone; [|exact X]. rewrite (SRC [] : nodes w1 s = f0 s). destruct FA as [_ FA]. destruct (f0 s) as [[c t|t|t]|]; try contradiction; [left; eauto|right; now exists t].
    + (* not reached *)
      eapply fair_same; [exact FA|exact SRC|]. intro x.
      rewrite (apart_same _ _ _ _ (dest P v') CH); [|intros d [<-|[]]|apply below_app].
      * apply (apart_same _ _ _ _ (dest P v') CD); [|apply below_app]. intros d J2. eapply pairs_app; [exact AP|exact J2|]. right. apply in_map_iff. exists (k', v'). auto.
      * assert (AP2 : ForallOrdPairs apart (dests P ((k, v) :: rest))).
        { clear - AP. revert AP. generalize (dests P ((k, v) :: rest)). induction (dests P done) as [|a l IH]; intros l2 F; [exact F|]. cbn in F. inversion F; subst. auto. }
        cbn in AP2. inversion AP2 as [|? ? F1 _]; subst. rewrite Forall_forall in F1. apply F1. apply in_map_iff. exists (k', v'). auto.
Qed.

Lemma tame_again f : changes_only P (dests P m) f0 f -> no_links P f m -> tame cwd prefix P f m.
Proof.
  intros C NL. pose proof T as [A B V W D F]. constructor; [| |exact V| |exact NL|exact F].
  - exact (hidden_stays _ _ _ _ _ _ _ _ C _ (incl_refl _) A _ (incl_refl _)).
  - destruct (C P) as [(d & J & Bd)|[X|(_ & _ & X)]]; [|now rewrite X|auto]. exfalso. apply in_map_iff in J as ((k, v) & <- & J). cbn [snd] in Bd.
    apply (dest_not P v); [apply (V k v J)|]. apply below_antisym; [exact Bd|apply dest_below].
  - intros k v q J B1 B2. destruct (C q) as [(d & K & Bd)|[X|(_ & _ & [t X])]].
    + apply in_map_iff in K as ((k', v') & <- & K). exact (NL k' v' q K Bd).
    + rewrite X. exact (W k v q J B1 B2).
    + rewrite X. intros [t' Y]. discriminate.
Qed.

Lemma good_again o w1 : cut_short S out prefix P clock w0 m o w1 -> as_fair o (nodes w1) ->
  forall k v, In (k, v) m -> good_source cwd O P (dests P m) (nodes w1) k v.
Proof.
  intros CUT LF k' v' J. destruct (cut_leaves _ _ CUT LF) as [C FR]. destruct (GS k' v' J) as (NK & s' & L & NS & K). split; [exact NK|]. exists s'.
  split; [exact (hidden_stays _ _ _ _ _ _ _ _ C _ (incl_refl _) L _ (incl_refl _))|]. split; [exact NS|].
  destruct (belowb O s') eqn:B; [left; now apply belowb_iff|]. apply belowb_false in B. destruct K as [K|(K & ND & FA)]; [contradiction|]. right.
  split; [|split; [exact ND|exact (FR k' v' s' J L B ND FA)]].
  destruct K as [K|K]; [left; rewrite (source_same _ C k' v' s' J L ND [] : nodes w1 s' = f0 s'); exact K|right].
  exact (hidden_stays _ _ _ _ _ _ _ _ C _ (incl_refl _) K _ (incl_refl _)).
Qed.

(** Installing again. *)
Theorem installed_again S2 clock2 o w1 w2 k v s : tidy S2 -> s_cwd S2 = cwd ->
  cut_short S out prefix P clock w0 m o w1 -> as_fair o (nodes w1) -> no_links P (nodes w1) m ->
  install_all S2 out {| i_map := Some m; i_prefix := Some prefix |} clock2 w1 = Ok (true, w2) ->
  In (k, v) m -> lookup cwd f0 false k = WFound s -> ~ product O s -> holds f0 s (nodes w2) (dest P v).
Proof.
  intros TD2 CW CUT LF NL R I LK NP. destruct (cut_leaves _ _ CUT LF) as [C FR]. pose proof (tame_again _ C NL) as T1.
  pose proof (good_again _ _ CUT LF) as GS1.
  destruct (GS k v I) as (NK & s' & L & NS & K). pose proof (unhide S _ _ _ _ _ L) as L0. rewrite LK in L0. injection L0 as <-.
  destruct K as [K|(K & ND & FA)]; [contradiction|].
  rewrite <- CW in T1, GS1, SC. unfold install_all in R. cbn [i_map i_prefix] in R.
  destruct (entries_copy S2 out prefix clock2 TD2 O P (nodes w1) m (rev (copies w1)) T1 SC ONE SO EO GS1 m [] 0 w1 w2 eq_refl (changes_refl P _ _) (fun k v s I => match I with end) (eq_sym (app_nil_r _)) R) as [HD _].
  assert (L1 : lookup (s_cwd S2) (nodes w1) false k = WFound s).
  { rewrite CW. eapply unhide. exact (hidden_stays _ _ _ _ _ _ _ _ C _ (incl_refl _) L _ (incl_refl _)). }
  eapply holds_ext; [exact (HD k v s I L1 NP)|intro x; symmetry; exact (source_same _ C k v s I L ND x)|reflexivity].
Qed.

(** ** Installing twice *)

Lemma entries_split : forall a b i w w', install_entries S (Some out) out prefix clock i w (a ++ b) = Ok (true, w') ->
  exists w1, install_entries S (Some out) out prefix clock i w a = Ok (true, w1) /\ install_entries S (Some out) out prefix clock (i + length a) w1 b = Ok (true, w').
Proof.
  induction a as [|[k v] a IH]; intros b i w w' H; cbn [app install_entries length] in *.
  - exists w. now rewrite Nat.add_0_r.
  - destruct (install_single S (Some out) out prefix (clock i) w k v false) as [[[|] w1]| | | |] eqn:E; try discriminate.
    destruct (IH b _ _ _ H) as (w2 & A & B). exists w2. split; [exact A|]. now rewrite Nat.add_succ_r.
Qed.

(** What has been installed is not older than its source. *)
Theorem installed_fresh w1 k v s : install_all S out {| i_map := Some m; i_prefix := Some prefix |} clock w0 = Ok (true, w1) ->
  In (k, v) m -> lookup cwd f0 false k = WFound s -> ~ product O s -> (forall i ts, time_of (f0 s) = Some ts -> (ts <= clock i)%Z) ->
  older (nodes w1) (dest P v) s = false.
Proof.
  intros R I LK NP CL. unfold install_all in R. cbn [i_map i_prefix] in R. destruct (in_split _ _ I) as (a & b & E).
  rewrite E in R. destruct (entries_split _ _ _ _ _ R) as (wa & RA & RB). cbn [install_entries] in RB.
  destruct (install_single S (Some out) out prefix (clock (0 + length a)) wa k v false) as [[[|] wb]| | | |] eqn:Es; try discriminate.
  pose proof T as T'. rewrite E in T'. pose proof (tame_left _ _ _ T') as Ta.
  destruct (entries_change S out prefix clock TIDY P f0 a [] 0 w0 _ Ta (changes_refl _ _ _) RA) as (b0 & w2 & Q & CA). injection Q as <- <-. cbn [app] in CA.
  assert (INa : incl (dests P a) (dests P m)) by (rewrite E, dests_app; apply incl_appl, incl_refl).
  pose proof (tm_apart _ _ _ _ _ T') as AP. rewrite dests_app in AP.
  assert (APa : forall d, In d (dests P a) -> apart d (dest P v)) by (intros d J; eapply pairs_app; [exact AP|exact J|now left]).
  pose proof (tame_calm _ _ _ _ _ _ _ _ _ T I INa APa CA) as CM.
  destruct (GS k v I) as (NK & s' & L & NS & K). pose proof (unhide S _ _ _ _ _ L) as L0. rewrite LK in L0. injection L0 as <-.
  destruct K as [K|(K & ND & FA)]; [contradiction|].
  assert (ID : In (dest P v) (dests P m)) by (apply in_map_iff; exists (k, v); auto).
  assert (CAm : changes_only P (dests P m) f0 (nodes wa)) by (eapply changes_more; [exact INa|exact CA]).
  pose proof (source_same _ CAm k v s I L ND) as SRC.
  assert (DST : forall x, nodes wa (x ++ dest P v) = f0 (x ++ dest P v)) by (intro x; apply (apart_same _ _ _ _ _ CA APa); apply below_app).
  assert (LKN : lookup cwd (hide [dest P v] (nodes wa)) false k = WFound s).
  { apply (hidden_stays _ _ _ _ _ _ _ _ CA _ INa L). intros d [<-|[]]. exact ID. }
  assert (KIND : is_directory (nodes wa s) \/ lookup cwd (hide [dest P v] (nodes wa)) true k = WFound s).
  { rewrite (SRC [] : nodes wa s = f0 s). destruct K as [KD|KL]; [left; exact KD|right]. apply (hidden_stays _ _ _ _ _ _ _ _ CA _ INa KL). intros d [<-|[]]. exact ID. }
  assert (IP : is_prefix out (unparse s) = false).
  { rewrite EO, namesake_prefix; [now apply belowb_false|exact ONE|exact SO|exact (lookup_slash_free _ _ _ _ _ SC LK)|exact NS]. }
  destruct (single_copied S out prefix TIDY P wa k v s _ false wb CM NK LKN IP KIND (ND _ ID) (fair_same _ _ _ _ FA SRC DST) Es) as [_ FRESH].
  pose proof (single_effect S (Some out) TIDY out prefix (clock (0 + length a)) wa P k v false true wb) as SE. rewrite (cstr_nul_free v) in SE by apply CM. specialize (SE CM Es).
  assert (CB : changes_only P (dests P (a ++ [(k, v)])) f0 (nodes wb)).
  { rewrite dests_app. eapply changes_trans; [eapply changes_more; [|exact CA]; apply incl_appl, incl_refl|eapply changes_more; [|exact SE]; apply incl_appr, incl_refl]. }
  (* nothing that follows changes the destination *)
  assert (Tb : tame cwd prefix P f0 ((a ++ [(k, v)]) ++ b)) by (rewrite <- app_assoc; exact T').
  destruct (entries_change S out prefix clock TIDY P f0 b (a ++ [(k, v)]) _ wb _ Tb CB RB) as (b1 & w3 & Q & C1). injection Q as <- <-.
  rewrite <- app_assoc in C1. cbn [app] in C1. rewrite <- E in C1.
  assert (LAST : nodes w1 (dest P v) = nodes wb (dest P v)).
  { assert (APb : forall d, In d (dests P b) -> apart d (dest P v)).
    { intros d J. apply apart_sym. rewrite (app_assoc a [(k, v)] b : a ++ (k, v) :: b = (a ++ [(k, v)]) ++ b) in T'. pose proof (tm_apart _ _ _ _ _ T') as AP2. rewrite dests_app in AP2.
      eapply pairs_app; [exact AP2| |exact J]. rewrite dests_app. apply in_or_app. right. now left. }
    exact (apart_same _ _ _ _ (dest P v) (entries_keep f0 b (a ++ [(k, v)]) _ wb w1 Tb CB RB) APb _ (below_refl _)). }
  unfold older. rewrite (source_same _ C1 k v s I L ND [] : nodes w1 s = f0 s), LAST.
  destruct (time_of (f0 s)) as [ts|] eqn:TS.
  - destruct (FRESH ts) as (td & TD & LE); [rewrite (SRC [] : nodes wa s = f0 s); exact TS|exact (CL _ ts eq_refl)|]. rewrite TD. apply Z.ltb_ge. exact LE.
  - exfalso. destruct FA as [_ FA]. destruct (f0 s) as [[]|]; try discriminate; contradiction.
Qed.
End Course.
End Resume.
