(** * Installing a whole map. *)

From Coq Require Import ZArith Ascii String Lia Bool List.
From Verif Require Import Base Deps FileSys Frugal FrugalProofs Vfs Install SpecInstall VfsProofs PathProofs InstallProofs.
Import ListNotations.

(** ** What changes *)

Lemma changes_kind P ds f f' : changes_only P ds f f' ->
  forall q n, (forall d, In d ds -> ~ below d q) -> f q = Some n -> exists n', f' q = Some n' /\ same_kind n n'.
Proof.
  intros C q n O E. destruct (C q) as [(d & I & B)|[X|(_ & [X|[t X]] & [t' Y])]].
  - destruct (O d I B).
  - exists n. split; [congruence|now left].
  - congruence.
  - exists (VDir t'). split; auto. right. rewrite E in X. injection X as ->. eauto.
Qed.

Lemma hidden_stays P ds f f' keep cwd p l : changes_only P ds f f' ->
  forall ds', incl ds ds' -> lookup cwd (hide ds' f) keep p = WFound l ->
  forall ds'', incl ds'' ds' -> lookup cwd (hide ds'' f') keep p = WFound l.
Proof.
  intros C ds' I L ds'' I2. eapply lookup_mono; [|exact L]. intros q n H. apply hide_some in H as [H O].
  rewrite hide_out by auto. apply (changes_kind _ _ _ _ C q n); auto.
Qed.

(** Trees apart from the destinations stay exactly as they were. *)
Lemma apart_same P ds f f' d : changes_only P ds f f' -> (forall d', In d' ds -> apart d' d) -> forall q, below d q -> f' q = f q.
Proof.
  intros C A q B. destruct (C q) as [(d' & I & B')|[X|((d' & I & B' & _) & _)]]; auto; exfalso; destruct (A d' I) as [N1 N2].
  - destruct (below_two d' d q B' B); auto.
  - apply N2. eapply below_trans; eauto.
Qed.

Lemma tame_calm cwd prefix P f0 es k v ds f : tame cwd prefix P f0 es -> In (k, v) es -> incl ds (dests P es) ->
  (forall d, In d ds -> apart d (dest P v)) -> changes_only P ds f0 f -> calm cwd prefix P f v.
Proof.
  intros [A B C D E F] I IN AP CH. constructor; [| |exact (C k v I)| |].
  - apply (hidden_stays P ds f0 f false cwd prefix P CH (dests P es) IN A). intros d [<-|[]]. apply in_map_iff. exists (k, v). auto.
  - destruct (CH P) as [(d & Id & Bd)|[X|(_ & _ & X)]]; [|now rewrite X|auto]. exfalso.
    apply (proj1 (AP d Id)). eapply below_trans; [exact Bd|apply dest_below].
  - intros q B1 B2. destruct (CH q) as [(d & Id & Bd)|[X|(_ & _ & [t X])]].
    + exfalso. apply (proj1 (AP d Id)). eapply below_trans; eauto.
    + rewrite X. eauto.
    + intros [t' Y]. congruence.
  - intros q B1. rewrite (apart_same _ _ _ _ _ CH AP q B1). eauto.
Qed.

Lemma pairs_app {A} (R : A -> A -> Prop) l1 : forall l2, ForallOrdPairs R (l1 ++ l2) -> forall a b, In a l1 -> In b l2 -> R a b.
Proof.
  induction l1 as [|x l1 IH]; intros l2 F a b I J; [destruct I|]. cbn in F. inversion F as [|? ? F1 F2]; subst.
  destruct I as [->|I]; [|eauto]. rewrite Forall_forall in F1. apply F1. apply in_or_app. now right.
Qed.

Lemma apart_sym a b : apart a b -> apart b a.
Proof. intros [X Y]. split; auto. Qed.

Section All.
Variables (S : sys) (out prefix : bytes) (clock : nat -> Z).
Notation cwd := (s_cwd S).
Hypothesis TIDY : tidy S.

Theorem entries_change P f0 : forall todo done i w r, tame cwd prefix P f0 (done ++ todo) ->
  changes_only P (dests P done) f0 (nodes w) ->
  install_entries S (Some out) out prefix clock i w todo = r ->
  exists b w', r = Ok (b, w') /\ changes_only P (dests P (done ++ todo)) f0 (nodes w').
Proof.
  induction todo as [|[k v] todo IH]; intros done i w r T C H; cbn [install_entries] in H.
  - rewrite app_nil_r in *. subst r. eauto.
  - assert (I : In (k, v) (done ++ (k, v) :: todo)) by (apply in_or_app; right; now left).
    pose proof (tm_vals _ _ _ _ _ T k v I) as OV.
    assert (CV : cstr v = v) by (apply cstr_nul_free; apply OV).
    assert (CM : calm cwd prefix P (nodes w) v).
    { eapply tame_calm; eauto.
      - unfold dests. rewrite map_app. apply incl_appl, incl_refl.
      - intros d J. pose proof (tm_apart _ _ _ _ _ T) as F. unfold dests in F. rewrite map_app in F. eapply pairs_app; eauto. now left. }
    assert (ST : exists b w1, install_single S (Some out) out prefix (clock i) w k v false = Ok (b, w1)).
    { unfold install_single. destruct (realpath cwd (nodes w) (cstr k)); [|eauto].
      destruct (is_prefix out b); cbn [andb negb]; eauto.
      destruct (mkdirs S (Some out) (clock i) w prefix (strsep SLASH (dirname (cstr v)))) as [[|] w1]; eauto.
      destruct (frugal_mtime (view cwd (nodes w1)) [cstr k] (prefix ++ SLASH :: cstr v)) as [[|]|]; eauto.
      destruct (copy S (clock i) w1 (cstr k) (prefix ++ SLASH :: cstr v)) as [b2 w2]. eauto. }
    destruct ST as (b & w1 & E). rewrite E in H.
    pose proof (single_effect S (Some out) TIDY out prefix (clock i) w P k v false b w1) as SE. rewrite CV in SE. specialize (SE CM E).
    assert (C1 : changes_only P (dests P (done ++ [(k, v)])) f0 (nodes w1)).
    { unfold dests. rewrite map_app. eapply changes_trans.
      - eapply changes_more; [|exact C]. apply incl_appl, incl_refl.
      - eapply changes_more; [|exact SE]. apply incl_appr, incl_refl. }
    replace (done ++ (k, v) :: todo) with ((done ++ [(k, v)]) ++ todo) in * by (rewrite <- app_assoc; reflexivity).
    destruct b; [eapply IH; eauto|]. subst r. exists false, w1. split; auto.
    unfold dests. rewrite map_app. eapply changes_more; [|exact C1]. apply incl_appl, incl_refl.
Qed.

(** ** What is copied *)

Lemma namesake_prefix O s : Forall (fun c => c <> []) O -> slash_free O -> slash_free s -> ~ namesake O s ->
  is_prefix (unparse O) (unparse s) = belowb O s.
Proof.
  intros NE SO SS N. destruct O as [|n p].
  - rewrite unparse_root. symmetry. apply belowb_iff. exists s. now rewrite app_nil_r.
  - inversion NE; subst. pose proof (unparse_prefix n p s H1 SO SS) as U.
    destruct (belowb (n :: p) s) eqn:B.
    + apply U. exists []. rewrite app_nil_r. now apply belowb_iff.
    + destruct (is_prefix (unparse (n :: p)) (unparse s)) eqn:X; auto. destruct (proj1 U eq_refl) as [r X2]. clear X. rename X2 into X.
      exfalso. apply belowb_false in B. destruct r as [|x r]; [rewrite app_nil_r in X; contradiction|].
      apply N. exists n, p, (x :: r). split; auto. split; auto. discriminate.
Qed.

Lemma grew_file P d f f' q : grew P d f f' -> (exists c t, f q = Some (VFile c t)) -> f' q = f q.
Proof. intros G (c & t & E). destruct (G q) as [X|(_ & _ & [X|[t' X]] & _)]; auto; congruence. Qed.

Lemma grew_out P d f f' q : grew P d f f' -> ~ below q d -> f' q = f q.
Proof. intros G N. destruct (G q) as [X|(_ & X & _)]; auto. contradiction. Qed.

Lemma not_below_tl d : d <> [] -> ~ below d (tl d).
Proof. intros N B. apply below_length in B. destruct d; [congruence|]. cbn in B. lia. Qed.

Lemma dest_nonempty P v : names v <> [] -> dest P v <> [].
Proof. intros N E. unfold dest in E. apply app_eq_nil in E as [E _]. apply (f_equal (@rev _)) in E. rewrite rev_involutive in E. contradiction. Qed.

Lemma view_found f p l : lookup cwd f false p = WFound l ->
  view cwd f p = match f l with Some (VFile c t) => File c t | Some (VDir t) => Dir t | Some (VLink _) => Blocked | None => Absent end.
Proof. intros H. unfold view. now rewrite H. Qed.

(** One entry, of the kind being installed. *)
Theorem single_copied P w k v s now cookie w' :
  calm cwd prefix P (nodes w) v -> nul_free k ->
  let f := nodes w in let d := dest P v in
  lookup cwd (hide [d] f) false k = WFound s -> is_prefix out (unparse s) = cookie ->
  (is_directory (f s) \/ lookup cwd (hide [d] f) true k = WFound s) -> ~ below s d -> fair f s d ->
  install_single S (Some out) out prefix now w k v cookie = Ok (true, w') ->
  (holds f s (nodes w') d /\ copies w' = (if older f d s then [copy_of prefix (k, v)] else []) ++ copies w) /\
  (forall ts, time_of (f s) = Some ts -> (ts <= now)%Z -> exists td, time_of (nodes w' d) = Some td /\ (ts <= td)%Z).
Proof.
  cbv zeta. intros C NK LK IP KIND NB [FA1 FA2]. set (f := nodes w) in *. set (d := dest P v) in *.
  assert (OV : ordinary v) by apply C. assert (NV : names v <> []) by apply OV.
  assert (SV : cstr v = v) by (apply cstr_nul_free, OV).
  assert (SK : cstr k = k) by (apply cstr_nul_free, NK).
  assert (ND : d <> []) by now apply dest_nonempty.
  assert (LF : lookup cwd f false k = WFound s).
  { eapply lookup_mono; [|exact LK]. intros q n H. apply hide_some in H as [H _]. exists n. split; auto. now left. }
  assert (NBS : ~ below d s). { apply lookup_found in LK as [m X]. apply hide_some in X as [_ X]. apply X. now left. }
  unfold install_single. rewrite SV, SK. unfold realpath. fold f. rewrite LF.
  rewrite IP, andb_negb_r, andb_negb_l.
  destruct (mkdirs S (Some out) now w prefix (strsep SLASH (dirname v))) as [ok w1] eqn:M.
  pose proof (parents_effect S (Some out) now w prefix P v ok w1 C M) as [CP G]. fold f d in G.
  pose proof (grew_calm S _ _ _ _ _ C G) as C1.
  destruct ok; [|discriminate].
  set (f1 := nodes w1) in *.
  assert (KM : forall q n, hide [d] f q = Some n -> exists n', hide [d] f1 q = Some n' /\ same_kind n n').
  { intros q n H. apply hide_some in H as [H X]. rewrite hide_out by auto. apply (grew_same_kind _ _ _ _ G q n H). }
  assert (LK1 : lookup cwd (hide [d] f1) false k = WFound s) by (eapply lookup_mono; [exact KM|exact LK]).
  assert (LF1 : lookup cwd f1 false k = WFound s).
  { eapply lookup_mono; [|exact LK1]. intros q n H. apply hide_some in H as [H _]. exists n. split; auto. now left. }
  assert (D1 : forall q, below d q -> f1 q = f q).
  { intros q B. apply (grew_out _ _ _ _ _ G). intros X. apply (not_below_tl d ND). eapply below_trans; eauto. }
  assert (S1 : forall x, f1 (x ++ s) = f (x ++ s) \/ is_directory (f s) /\ False).
  { intros x. left. apply (grew_out _ _ _ _ _ G). intros X. apply NB. eapply below_trans; [apply (below_app s x)|].
    eapply below_trans; [exact X|]. apply tl_below. }
  assert (S1' : forall x, f1 (x ++ s) = f (x ++ s)) by (intros x; destruct (S1 x) as [|[_ []]]; auto). clear S1.
  assert (FS1 : f1 s = f s) by apply (S1' []).
  assert (FD1 : f1 d = f d) by (apply D1, below_refl).
  assert (TS : exists ts, time_of (f s) = Some ts /\ stat (view cwd f1) k = StatOk ts).
  { unfold stat. rewrite (view_found _ _ _ LF1), FS1. destruct (f s) as [[| |]|]; try contradiction; cbn; eauto. }
  destruct TS as (ts & TS & ST).
  unfold frugal_mtime.
  pose proof (fun keep => dest_cases cwd prefix P f1 v keep C1) as DC. cbv zeta in DC. fold d in DC.
  (* nothing there, or something older: it is copied *)
  assert (COPY : copy S now w1 k (prefix ++ SLASH :: v) = (true, w') -> older f d s = true ->
    (holds f s (nodes w') d /\ copies w' = [copy_of prefix (k, v)] ++ copies w) /\
    (forall ts, time_of (f s) = Some ts -> (ts <= now)%Z -> exists td, time_of (nodes w' d) = Some td /\ (ts <= td)%Z)).
  { clear DC. intros CPY OLD. unfold copy in CPY. cbn [nodes] in CPY. fold f1 in CPY. rewrite (view_found _ _ _ LF1), FS1 in CPY.
    unfold holds. destruct (f s) as [[c t|t|tgt]|] eqn:FS; try contradiction.
    - (* a file *)
      destruct (cp S now f1 k (prefix ++ SLASH :: v)) as [ok f2] eqn:CC. injection CPY as -> <-. cbn [nodes copies set_nodes].
      unfold cp in CC.
      assert (LT : lookup cwd f1 true k = WFound s).
      { destruct KIND as [[t' X]|X]; [congruence|]. eapply lookup_mono; [|exact X]. intros q n H.
        destruct (KM q n H) as (n' & H1 & K). apply hide_some in H1 as [H1 _]. eauto. }
      rewrite LT, FS1 in CC.
      assert (VD : forall t', view cwd f1 (prefix ++ SLASH :: v) <> Dir t').
      { intros t' X. unfold view in X. destruct (dest_cases cwd prefix P f1 v false C1) as [[E N]|[[E N]|[E|E]]]; rewrite E in X; try discriminate.
        fold d in X. rewrite FD1 in X. destruct (f d) as [[| |]|]; try discriminate. apply FA2. eexists; eauto. }
      assert (NODE : cp_node S now f1 s (prefix ++ SLASH :: v) = (true, f2)).
      { destruct (view cwd f1 (prefix ++ SLASH :: v)); auto. destruct (VD t0). reflexivity. }
      eapply (cp_node_effect S TIDY now f1 s _ d) in NODE; [|intros keep; apply (dest_cases cwd prefix P f1 v keep C1)].
      destruct NODE as [_ NODE]. destruct (NODE eq_refl) as [X|X]; [|contradiction]. rewrite X, FS1.
      split; [split; [reflexivity|unfold copy_of; cbn; now rewrite CP]|]. intros ts0 _ LE. exists now. auto.
    - (* a directory *)
      destruct (rm_rf S now f1 (prefix ++ SLASH :: v)) as [[|] f2] eqn:R; [|discriminate].
      pose proof (rm_effect S TIDY _ _ _ _ _ _ _ C1 R) as W1. fold d in W1.
      destruct (cp S now f2 (k ++ [SLASH]) (prefix ++ SLASH :: v)) as [ok f3] eqn:CC. injection CPY as -> <-. cbn [nodes copies set_nodes].
      assert (S2 : forall x, f2 (x ++ s) = f (x ++ s)).
      { intros x. rewrite <- S1'. destruct (W1 (x ++ s)) as [X|[X|(X & _)]]; auto; exfalso.
        - destruct (below_two d s (x ++ s) X (below_app s x)); auto.
        - apply NB. eapply below_trans; [apply (below_app s x)|]. rewrite X. apply tl_below. }
      assert (LK2 : lookup cwd f2 false k = WFound s).
      { eapply lookup_mono; [|exact LK1]. intros q n H. destruct (within_hidden _ _ _ W1 q n H) as (n' & H1 & K). apply hide_some in H1 as [H1 _]. eauto. }
      unfold cp in CC.
      assert (LS : lookup cwd f2 true (k ++ [SLASH]) = WFound s).
      { destruct (lookup_app f2 true cwd k [] s LK2) as [n E]. rewrite E. cbn [strsep].
        rewrite (walk_empty _ _ _ _ _ t); [rewrite walk_nil|]; change (f2 s) with (f2 ([] ++ s)); rewrite (S2 []); cbn [app]; rewrite FS; reflexivity. }
      rewrite LS in CC. change (f2 s) with (f2 ([] ++ s)) in CC. rewrite (S2 []) in CC. cbn [app] in CC. rewrite FS in CC.
      destruct (lookup cwd f2 true (prefix ++ SLASH :: v)) as [l|l| |] eqn:LD; try discriminate.
      assert (l = d).
      { assert (C2 : calm cwd prefix P f2 v).
        { apply (within_calm S _ _ _ _ _ C1 W1). intros q B. destruct (rm_leaves S now f1 prefix P v f2 C1 R q B) as [X|X]; rewrite X; [intros [? ?]; discriminate|]. now apply (cm_dest _ _ _ _ _ C1). }
        destruct (dest_cases cwd prefix P f2 v true C2) as [[E _]|[[E _]|[E|E]]]; rewrite LD in E; try discriminate. now injection E. }
      subst l. destruct (belowb s d) eqn:BS; [discriminate|]. destruct (s_may S f2 d); [|discriminate]. injection CC as <-.
      assert (TR : forall x, touch now (copy_tree now f2 s d) (tl d) (x ++ d) = copied now (f (x ++ s))).
      { intros x. rewrite touch_other.
        + unfold copy_tree. replace (rel d (x ++ d)) with (Some x) by (symmetry; now apply rel_some). now rewrite S2.
        + intros X. apply (not_below_tl d ND). rewrite <- X. apply below_app. }
      split; [split; [|unfold copy_of; cbn; now rewrite CP]|].
      + intros x. rewrite TR. destruct (f (x ++ s)) as [[| |]|]; reflexivity.
      + intros ts0 _ LE. exists now. rewrite (TR [] : touch now (copy_tree now f2 s d) (tl d) d = copied now (f s)), FS. auto. }
  unfold stat at 1. unfold view at 1.
  destruct (DC false) as [[E N]|[[E N]|[E|E]]]; rewrite E.
  - rewrite FD1 in *. unfold older. fold d. rewrite TS. rewrite TS in COPY.
    assert (NL : ~ is_link (f d)). { apply (cm_dest _ _ _ _ _ C). apply below_refl. }
    destruct (f d) as [n|] eqn:FD; [|congruence].
    assert (TD : exists td, time_of (Some n) = Some td /\ match n with VFile c t => File c t | VDir t => Dir t | VLink _ => Blocked end = match n with VFile c _ => File c td | VDir _ => Dir td | _ => Blocked end).
    { destruct n; cbn; eauto. destruct NL. now exists target. }
    destruct TD as (td & TD & _). rewrite TD.
    replace (match match n with VFile c t => File c t | VDir t => Dir t | VLink _ => Blocked end with
             | Absent => StatNoEnt | File _ t | Dir t => StatOk t | Blocked => StatErr end) with (StatOk td).
    2:{ destruct n; cbn in TD; congruence. }
    cbn [deps_newer]. rewrite ST, Z.gtb_ltb. destruct (Z.ltb_spec td ts) as [LT|GE].
    + intros H. injection H as H. apply COPY; auto. unfold older. rewrite FD, TD, TS. destruct (Z.ltb_spec td ts); auto; lia.
    + intros H. injection H as <-. split; [|intros ts0 E0 _; injection E0 as <-; exists td; split; [fold f1; rewrite FD1; exact TD|exact GE]]. split; [|exact CP].
      assert (OF : older f d s = false). { unfold older. rewrite FD, TD, TS. destruct (Z.ltb_spec td ts); auto; lia. }
      specialize (FA1 OF). unfold holds in *. fold f1. destruct (f s) as [[| |]|]; auto.
      * rewrite FD1, <- FD. exact FA1.
      * intros x. rewrite D1 by apply below_app. apply FA1.
  - intros H. injection H as H. assert (OL : older f d s = true) by (unfold older; rewrite <- FD1, N; reflexivity).
    rewrite OL. apply COPY; auto.
  - (* no way to the destination: the copy fails *)
    intros H. injection H as H. unfold copy in H. cbn [nodes] in H. fold f1 in H. rewrite (view_found _ _ _ LF1), FS1 in H. exfalso.
    assert (E2 : lookup cwd f1 true (prefix ++ SLASH :: v) = WNoEnt).
    { rewrite (dest_keep _ _ _ _ _ _ C1). rewrite (dest_keep _ _ _ _ _ _ C1) in E. exact E. }
    destruct (f s) as [[c t|t|tgt]|] eqn:FS; try contradiction.
    + destruct (cp S now f1 k (prefix ++ SLASH :: v)) as [ok f2] eqn:CC. injection H as -> _. unfold cp in CC.
      destruct (lookup cwd f1 true k) as [l| | |]; try discriminate. unfold view in CC. rewrite E, E2 in CC.
      unfold cp_node in CC. rewrite E, E2 in CC. destruct (f1 l) as [[| |]|]; discriminate.
    + destruct (rm_rf S now f1 (prefix ++ SLASH :: v)) as [[|] f2] eqn:R; [|discriminate].
      unfold rm_rf in R. rewrite unslash_dest, E2 in R by (apply slash_end_dest, C1).
      destruct (is_nil _ || _ || _); [discriminate|]. injection R as <-.
      destruct (cp S now f1 (k ++ [SLASH]) (prefix ++ SLASH :: v)) as [ok f3] eqn:CC. injection H as -> _. unfold cp in CC.
      destruct (lookup cwd f1 true (k ++ [SLASH])) as [l| | |]; try discriminate. unfold view in CC. rewrite E, E2 in CC.
      unfold cp_node in CC. rewrite E, E2 in CC. destruct (f1 l) as [[| |]|]; discriminate.
  - intros H. discriminate.
Qed.

Theorem single_copies P w k v s now cookie w' :
  calm cwd prefix P (nodes w) v -> nul_free k ->
  let f := nodes w in let d := dest P v in
  lookup cwd (hide [d] f) false k = WFound s -> is_prefix out (unparse s) = cookie ->
  (is_directory (f s) \/ lookup cwd (hide [d] f) true k = WFound s) -> ~ below s d -> fair f s d ->
  install_single S (Some out) out prefix now w k v cookie = Ok (true, w') ->
  holds f s (nodes w') d /\ copies w' = (if older f d s then [copy_of prefix (k, v)] else []) ++ copies w.
Proof. intros C NK f d LK IP K NB FA H. exact (proj1 (single_copied P w k v s now cookie w' C NK LK IP K NB FA H)). Qed.

(** Nothing is done for a product. *)
Lemma single_product O w k v s now : nul_free k -> slash_free cwd -> Forall (fun c => c <> []) O -> slash_free O -> out = unparse O ->
  lookup cwd (nodes w) false k = WFound s -> ~ namesake O s -> product O s ->
  install_single S (Some out) out prefix now w k v false = Ok (true, w).
Proof.
  intros NK SC ONE SO EO LF NS PR. unfold install_single. rewrite (cstr_nul_free k NK). unfold realpath. rewrite LF.
  replace (is_prefix out (unparse s)) with true; [reflexivity|].
  rewrite EO, namesake_prefix; auto.
  - symmetry. apply belowb_iff. exact PR.
  - exact (lookup_slash_free _ _ _ _ _ SC LF).
Qed.

Lemma unhide ds f keep p l : lookup cwd (hide ds f) keep p = WFound l -> lookup cwd f keep p = WFound l.
Proof. apply lookup_mono. intros q n H. apply hide_some in H as [H _]. exists n. split; auto. now left. Qed.

Lemma holds_ext f s f' d g g' : holds f s f' d -> (forall x, g (x ++ s) = f (x ++ s)) -> (forall x, g' (x ++ d) = f' (x ++ d)) -> holds g s g' d.
Proof.
  intros H A B. unfold holds in *. rewrite (A [] : g s = f s). destruct (f s) as [[| |]|]; auto.
  - rewrite (B [] : g' d = f' d). exact H.
  - intros x. rewrite A, B. apply H.
Qed.

Section Copies.
Variables (O P : loc) (f0 : vfs) (es : list (bytes * bytes)) (start : list (bytes * bytes)).
Hypothesis T : tame cwd prefix P f0 es.
Hypothesis SC : slash_free cwd.
Hypothesis ONE : Forall (fun c => c <> []) O.
Hypothesis SO : slash_free O.
Hypothesis EO : out = unparse O.
Hypothesis GS : forall k v, In (k, v) es -> good_source cwd O P (dests P es) f0 k v.

Definition held (done : list (bytes * bytes)) (f : vfs) : Prop :=
  forall k v s, In (k, v) done -> lookup cwd f0 false k = WFound s -> ~ product O s -> holds f0 s f (dest P v).

Lemma entries_copy : forall todo done i w w', es = done ++ todo ->
  changes_only P (dests P done) f0 (nodes w) -> held done (nodes w) ->
  rev (copies w) = start ++ map (copy_of prefix) (filter (needs cwd O P f0) done) ->
  install_entries S (Some out) out prefix clock i w todo = Ok (true, w') ->
  held es (nodes w') /\ rev (copies w') = start ++ map (copy_of prefix) (filter (needs cwd O P f0) es).
Proof.
  induction todo as [|[k v] todo IH]; intros done i w w' ES C H CP R; cbn [install_entries] in R.
  - injection R as <-. rewrite app_nil_r in ES. subst done. auto.
  - assert (I : In (k, v) es) by (rewrite ES; apply in_or_app; right; now left).
    assert (IN : incl (dests P done) (dests P es)). { rewrite ES. unfold dests. rewrite map_app. apply incl_appl, incl_refl. }
    assert (ID : In (dest P v) (dests P es)). { apply in_map_iff. exists (k, v). auto. }
    assert (AP : forall d, In d (dests P done) -> apart d (dest P v)).
    { intros d J. pose proof (tm_apart _ _ _ _ _ T) as F. rewrite ES in F. unfold dests in F. rewrite map_app in F. eapply pairs_app; eauto. now left. }
    pose proof (tame_calm _ _ _ _ _ _ _ _ _ T I IN AP C) as CM.
    pose proof (tm_vals _ _ _ _ _ T k v I) as OV.
    assert (CV : cstr v = v) by (apply cstr_nul_free; apply OV).
    destruct (GS k v I) as (NK & s & LK & NS & KIND).
    assert (LF0 : lookup cwd f0 false k = WFound s) by exact (unhide _ _ _ _ _ LK).
    assert (LKN : lookup cwd (hide [dest P v] (nodes w)) false k = WFound s).
    { apply (hidden_stays _ _ _ _ _ _ _ _ C _ IN LK). intros d [<-|[]]. exact ID. }
    assert (ES' : es = (done ++ [(k, v)]) ++ todo) by (rewrite <- app_assoc; exact ES).
    destruct (belowb O s) eqn:PR.
    + (* a product *)
      rewrite (single_product O w k v s (clock i)) in R; auto; [|exact (unhide _ _ _ _ _ LKN)|now apply belowb_iff].
      apply (IH (done ++ [(k, v)]) (Datatypes.S i) w w' ES'); auto.
      * eapply changes_more; [|exact C]. unfold dests. rewrite map_app. apply incl_appl, incl_refl.
      * intros k1 v1 s1 J L1 NP1. apply in_app_iff in J as [J|[J|[]]]; [eapply H; eauto|]. injection J as <- <-.
        rewrite LF0 in L1. injection L1 as <-. exfalso. apply NP1. now apply belowb_iff.
      * rewrite CP, filter_app, map_app. cbn [filter].
        replace (needs cwd O P f0 (k, v)) with false by (unfold needs; cbn [fst snd]; rewrite LF0, PR; reflexivity). cbn. now rewrite app_nil_r.
    + apply belowb_false in PR. destruct KIND as [PR'|(KIND & ND & FA)]; [contradiction|].
      destruct (install_single S (Some out) out prefix (clock i) w k v false) as [[[|] w1]| | | |] eqn:E; try discriminate.
      pose proof (single_effect S (Some out) TIDY out prefix (clock i) w P k v false true w1) as SE. rewrite CV in SE. specialize (SE CM E).
      (* the source is as it was *)
      assert (SRC : forall x, nodes w (x ++ s) = f0 (x ++ s)).
      { intros x. destruct (C (x ++ s)) as [(d & J & B)|[X|((d & J & B & _) & _)]]; auto; exfalso.
        - destruct (below_two d s (x ++ s) B (below_app s x)) as [Y|Y].
          + apply lookup_found in LK as [m X]. apply hide_some in X as [_ X]. apply (X d); auto.
          + apply (ND d); auto.
        - apply (ND d); auto. eapply below_trans; [apply (below_app s x)|exact B]. }
      assert (DST : forall x, nodes w (x ++ dest P v) = f0 (x ++ dest P v)).
      { intros x. apply (apart_same _ _ _ _ _ C AP). apply below_app. }
      assert (FS : nodes w s = f0 s) by apply (SRC []).
      assert (FD : nodes w (dest P v) = f0 (dest P v)) by apply (DST []).
      assert (OL : older (nodes w) (dest P v) s = older f0 (dest P v) s) by (unfold older; rewrite FS, FD; reflexivity).
      assert (FA' : fair (nodes w) s (dest P v)).
      { destruct FA as [FA1 FA2]. split; [|rewrite FS, FD; exact FA2]. rewrite OL. intros X. eapply holds_ext; [exact (FA1 X)|exact SRC|exact DST]. }
      assert (KIND' : is_directory (nodes w s) \/ lookup cwd (hide [dest P v] (nodes w)) true k = WFound s).
      { rewrite FS. destruct KIND as [KD|KL]; [left; exact KD|right]. apply (hidden_stays _ _ _ _ _ _ _ _ C _ IN KL). intros d [<-|[]]. exact ID. }
      assert (IP : is_prefix out (unparse s) = false).
      { rewrite EO, namesake_prefix; auto; [now apply belowb_false|]. exact (lookup_slash_free _ _ _ _ _ SC LF0). }
      destruct (single_copies P w k v s (clock i) false w1 CM NK LKN IP KIND' (ND _ ID) FA' E) as [HO CP1].
      rewrite OL in CP1.
      assert (C1 : changes_only P (dests P (done ++ [(k, v)])) f0 (nodes w1)).
      { unfold dests. rewrite map_app. eapply changes_trans.
        - eapply changes_more; [|exact C]. apply incl_appl, incl_refl.
        - eapply changes_more; [|exact SE]. apply incl_appr, incl_refl. }
      apply (IH (done ++ [(k, v)]) (Datatypes.S i) w1 w' ES'); auto.
      * intros k1 v1 s1 J L1 NP1. apply in_app_iff in J as [J|[J|[]]].
        -- specialize (H k1 v1 s1 J L1 NP1). eapply holds_ext; [exact H|auto|].
           intros x. apply (apart_same _ _ _ _ (dest P v1) SE); [|apply below_app].
           intros d' [<-|[]]. apply apart_sym, AP. apply in_map_iff. exists (k1, v1). auto.
        -- injection J as <- <-. rewrite LF0 in L1. injection L1 as <-. eapply holds_ext; [exact HO|intros x; symmetry; apply SRC|auto].
      * rewrite CP1, rev_app_distr, CP, filter_app, map_app, <- app_assoc. f_equal. f_equal. cbn [filter].
        replace (needs cwd O P f0 (k, v)) with (older f0 (dest P v) s).
        2:{ unfold needs. cbn [fst snd]. rewrite LF0. replace (belowb O s) with false by (symmetry; now apply belowb_false). reflexivity. }
        destruct (older f0 (dest P v) s); reflexivity.
Qed.
End Copies.

(** The first missing source ends the installation. *)
Theorem entries_missing : forall es1 i w w1 k v es2,
  install_entries S (Some out) out prefix clock i w es1 = Ok (true, w1) ->
  realpath cwd (nodes w1) (cstr k) = None ->
  install_entries S (Some out) out prefix clock i w (es1 ++ (k, v) :: es2) = Ok (false, w1).
Proof.
  induction es1 as [|[k1 v1] es1 IH]; intros i w w1 k v es2 H M.
  - cbn in H. injection H as <-. cbn [app install_entries]. unfold install_single at 1. rewrite M. reflexivity.
  - cbn [app install_entries] in *. destruct (install_single S (Some out) out prefix (clock i) w k1 v1 false) as [[[|] w2]| | | |]; try discriminate.
    eapply IH; eauto.
Qed.
End All.
