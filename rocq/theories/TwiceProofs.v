(** * Proofs: a second installation finds everything in place. *)

From Coq Require Import ZArith Ascii String Lia Bool List.
From Verif Require Import Base Deps FileSys Frugal FrugalProofs Vfs Install SpecInstall VfsProofs PathProofs InstallProofs InstallAll SpecResume ResumeProofs Telling SpecTelling TellingProofs.
Import ListNotations.

(** From [cur] on, all names but the last lead to directories. *)
Definition opened (f : vfs) (cur : loc) (ns : list bytes) : Prop := forall a c b, ns = a ++ c :: b -> is_directory (f (rev a ++ cur)).

Lemma blank_names cs : forallb is_nil cs = true -> filter nonempty cs = [].
Proof. induction cs as [|c cs IH]; [reflexivity|]. cbn. unfold nonempty at 1. destruct (is_nil c); [exact IH|discriminate]. Qed.

Lemma way_opened f : forall cs cur l, way f cur cs = WFound l \/ way f cur cs = WMissing l -> opened f cur (filter nonempty cs).
Proof.
  induction cs as [|c cs IH]; intros cur l H; [intros [|? ?] ? ? E; discriminate|]. cbn [way] in H.
  destruct (f cur) as [[| t|]|] eqn:FC; try (destruct H; discriminate). cbn [filter]. unfold nonempty at 1. destruct (is_nil c); cbn [negb]; [exact (IH _ _ H)|].
  intros [|a0 a] c0 b E; [exists t; exact FC|]. injection E as <- E. cbn [rev]. rewrite <- app_assoc. cbn [app].
  destruct (f (c :: cur)) as [n|] eqn:FN; [exact (IH _ _ H a c0 b E)|]. destruct (forallb is_nil cs) eqn:B; [|destruct H; discriminate].
  rewrite (blank_names _ B) in E. destruct a; discriminate.
Qed.

Lemma opened_way f : forall cs cur, cs = [] \/ ends_plainly cs -> opened f cur (filter nonempty cs) -> f (rev (filter nonempty cs) ++ cur) <> None ->
  way f cur cs = WFound (rev (filter nonempty cs) ++ cur).
Proof.
  induction cs as [|c cs IH]; intros cur EP OP N.
  - cbn in *. destruct (f cur) as [[]|]; congruence.
  - destruct EP as [EP|(pre & e & E & NE)]; [discriminate|].
    assert (EP : cs = [] \/ ends_plainly cs). { destruct pre as [|p pre]; injection E as _ E; [left; exact E|right; exists pre, e; split; [exact E|exact NE]]. }
    assert (DC : is_directory (f cur)).
    { assert (NN : filter nonempty (c :: cs) <> []).
      { rewrite E, filter_app. cbn. unfold nonempty at 2. destruct e; [congruence|]. cbn. intro X. now apply app_eq_nil in X as [_ X]. }
      destruct (filter nonempty (c :: cs)) as [|c0 b] eqn:Q; [congruence|]. exact (OP [] c0 b eq_refl). }
    destruct DC as [t DC]. cbn [way]. rewrite DC. cbn [filter] in *. unfold nonempty in OP at 1, N at 1 |- * at 1. destruct (is_nil c) eqn:NC; cbn [negb] in *.
    + apply IH; [|exact OP|exact N]. destruct EP as [->|EP]; [|right; exact EP]. destruct pre as [|p pre]; [injection E as E1; subst c; destruct e; [congruence|discriminate]|injection E as E1 E2; destruct pre; discriminate].
    + cbn [rev] in *. rewrite <- app_assoc in *. cbn [app] in *.
      assert (OP' : opened f (c :: cur) (filter nonempty cs)). { intros a c0 b X. specialize (OP (c :: a) c0 b). cbn [rev] in OP. rewrite <- app_assoc in OP. apply OP. cbn. now rewrite X. }
      assert (NF : f (c :: cur) <> None). { destruct (filter nonempty cs) as [|c0 b] eqn:Q; [exact N|]. destruct (OP' [] c0 b eq_refl) as [t' X]. cbn in X. rewrite X. discriminate. }
      destruct (f (c :: cur)) as [n|] eqn:FN; [|congruence]. exact (IH _ EP OP' N).
Qed.

Section Twice.
Variables (S : sys) (abs_out : option bytes).
Notation cwd := (s_cwd S).

Lemma dir_lookup f keep accum cur c : lookup cwd f false accum = WFound cur -> plain_name c -> ~ In SLASH c -> is_directory (f cur) -> is_directory (f (c :: cur)) ->
  lookup cwd f keep (accum ++ SLASH :: c) = WFound (c :: cur).
Proof.
  intros LK PN SF [t D] [t' D']. destruct (lookup_app f keep cwd accum c cur LK) as [k ->]. rewrite one_name by exact SF. rewrite (walk_one _ _ _ _ _ _ t D PN), D', walk_nil, D'. reflexivity.
Qed.

Lemma mkdirs_there now w : forall ns accum cur, lookup cwd (nodes w) false accum = WFound cur -> Forall plain_name ns -> Forall (fun c => ~ In SLASH c) ns ->
  (forall a b, ns = a ++ b -> is_directory (nodes w (rev a ++ cur))) -> mkdirs S abs_out now w accum ns = (true, w).
Proof.
  induction ns as [|c ns IH]; intros accum cur LK PN SF D; [reflexivity|]. inversion PN as [|? ? P1 P2]; subst. inversion SF as [|? ? S1 S2]; subst. cbn [mkdirs].
  assert (NC : is_nil c = false) by (destruct c; [destruct P1; congruence|reflexivity]). rewrite NC.
  pose proof (D [] _ eq_refl) as D0. pose proof (D [c] ns eq_refl) as D1. cbn [rev app] in D0, D1.
  unfold mkdir_wrapped, mkdir. rewrite (dir_lookup _ true _ _ _ LK P1 S1 D0 D1).
  apply (IH _ (c :: cur)); [exact (dir_lookup _ false _ _ _ LK P1 S1 D0 D1)|exact P2|exact S2|].
  intros a b E. specialize (D (c :: a) b). cbn [rev] in D. rewrite <- app_assoc in D. apply D. cbn. now rewrite E.
Qed.

Lemma parents_there now w prefix P v : calm cwd prefix P (nodes w) v -> opened (nodes w) P (names v) ->
  mkdirs S abs_out now w prefix (strsep SLASH (dirname v)) = (true, w).
Proof.
  intros [LK0 D (N & O & E & Z) W _] OP. pose proof (hidden_prefix _ _ _ _ _ LK0) as LK. rewrite mkdirs_names. change (filter nonempty (strsep SLASH (dirname v))) with (names (dirname v)).
  assert (PN : Forall plain_name (names v)) by (apply names_plain; repeat split; auto).
  destruct (names_dirname v N) as [X|[X Y]]; rewrite X.
  - apply (mkdirs_there now w _ _ P LK).
    + rewrite Forall_forall in *. intros c I. apply PN. now apply removelast_In.
    + pose proof (names_no_slash v) as NS. rewrite Forall_forall in *. intros c I. apply NS. now apply removelast_In.
    + intros a b EQ. destruct (exists_last N) as (pre & c & EN). rewrite EN, removelast_last in EQ. subst pre. rewrite <- app_assoc in EN.
      destruct b as [|b0 b]; [exact (OP a c [] EN)|exact (OP a b0 (b ++ [c]) EN)].
  - cbn [mkdirs is_nil dot]. unfold mkdir_wrapped, mkdir. destruct (lookup_app (nodes w) true cwd prefix dot P LK) as [k LL].
    change (strsep SLASH dot) with [dot] in LL. rewrite walk_cons in LL. destruct D as [t D]. rewrite D in LL.
    change (is_nil dot || bytes_eqb dot dot) with true in LL. cbv iota in LL. rewrite walk_nil, D in LL.
    change [DOT] with dot. rewrite LL. reflexivity.
Qed.
End Twice.

Lemma opened_stays P ds f f' v : changes_only P ds f f' -> (forall d, In d ds -> d = dest P v \/ apart d (dest P v)) -> opened f P (names v) -> opened f' P (names v).
Proof.
  intros C A OP a c b E. pose proof (OP a c b E) as [t D].
  assert (BD : below (rev a ++ P) (dest P v)). { unfold dest. rewrite E, rev_app_distr, <- app_assoc. apply below_app. }
  destruct (C (rev a ++ P)) as [(d & I & B)|[X|(_ & _ & X)]]; [exfalso|exists t; congruence|exact X]. destruct (A d I) as [->|[N _]].
  - apply below_length in B. unfold dest in B. rewrite E, !app_length, !rev_length, app_length in B. cbn in B. lia.
  - apply N. eapply below_trans; [exact B|exact BD].
Qed.

Section Again.
Variables (S : sys) (out prefix : bytes) (P : loc) (clock : nat -> Z).
Notation cwd := (s_cwd S).
Hypothesis TIDY : tidy S.

Lemma single_opened now w k v s w' : calm cwd prefix P (nodes w) v -> nul_free k -> lookup cwd (nodes w) false k = WFound s -> is_prefix out (unparse s) = false ->
  install_single S (Some out) out prefix now w k v false = Ok (true, w') -> opened (nodes w') P (names v).
Proof.
  intros C NK LF IP H. assert (OV : ordinary v) by apply C.
  assert (SV : cstr v = v) by (apply cstr_nul_free, OV). assert (SK : cstr k = k) by (apply cstr_nul_free, NK).
  unfold install_single in H. rewrite SV, SK in H. unfold realpath in H. rewrite LF, IP in H. cbn [negb andb] in H.
  destruct (mkdirs S (Some out) now w prefix (strsep SLASH (dirname v))) as [ok w1] eqn:M.
  pose proof (parents_effect S (Some out) now w prefix P v ok w1 C M) as [_ G]. pose proof (grew_calm S _ _ _ _ _ C G) as C1. destruct ok; [|discriminate].
  assert (OP : lookup cwd (nodes w1) false (prefix ++ SLASH :: v) = WFound (dest P v) \/ lookup cwd (nodes w1) false (prefix ++ SLASH :: v) = WMissing (dest P v) -> opened (nodes w1) P (names v)).
  { intro X. rewrite (dest_keep _ _ _ _ _ _ C1) in X. exact (way_opened _ _ _ _ X). }
  assert (GO : opened (nodes w1) P (names v) -> opened (nodes w') P (names v)).
  { intro X. destruct (frugal_mtime (view cwd (nodes w1)) [k] (prefix ++ SLASH :: v)) as [[|]|]; [| |discriminate].
    - injection H as H. apply (opened_stays P [dest P v] (nodes w1)); [|intros d [<-|[]]; left; reflexivity|exact X].
      apply within_changes; [apply dest_below|apply dest_not, C1|]. exact (copy_effect S TIDY now w1 prefix P v k true w' C1 H).
    - injection H as <-. exact X. }
  destruct (dest_cases cwd prefix P (nodes w1) v false C1) as [[E _]|[[E _]|[E|E]]]; [apply GO, OP; left; exact E|apply GO, OP; right; exact E| |].
  - exfalso. assert (E2 : lookup cwd (nodes w1) true (prefix ++ SLASH :: v) = WNoEnt).
    { rewrite (dest_keep _ _ _ _ _ _ C1). rewrite (dest_keep _ _ _ _ _ _ C1) in E. exact E. }
    assert (NOCP : forall p, fst (cp S now (nodes w1) p (prefix ++ SLASH :: v)) = false).
    { intro p. unfold cp. destruct (lookup cwd (nodes w1) true p) as [l| | |]; [|reflexivity|reflexivity|reflexivity]. unfold view. rewrite E.
      unfold cp_node. rewrite E, E2. destruct (nodes w1 l) as [[| t|]|] eqn:NL; reflexivity. }
    unfold frugal_mtime, stat at 1, view at 1 in H. rewrite E in H. injection H as H. unfold copy in H. cbn [nodes] in H.
    destruct (view cwd (nodes w1) k); [discriminate| | |discriminate].
    + specialize (NOCP k). destruct (cp S now (nodes w1) k (prefix ++ SLASH :: v)) as [ok f2]. injection H as -> _. discriminate.
    + destruct (rm_rf S now (nodes w1) (prefix ++ SLASH :: v)) as [[|] f2] eqn:R; [|discriminate].
      unfold rm_rf in R. rewrite unslash_dest, E2 in R by (apply slash_end_dest, C1).
      destruct (is_nil _ || _ || _); [discriminate|]. injection R as <-. specialize (NOCP (k ++ [SLASH])).
      destruct (cp S now (nodes w1) (k ++ [SLASH]) (prefix ++ SLASH :: v)) as [ok f3]. injection H as -> _. discriminate.
  - exfalso. unfold frugal_mtime, stat at 1, view at 1 in H. rewrite E in H. discriminate.
Qed.

Variables (O : loc) (m : list (bytes * bytes)) (w0 w1 : vw).
Notation f0 := (nodes w0).
Hypothesis T : tame cwd prefix P f0 m.
Hypothesis SC : slash_free cwd.
Hypothesis ONE : Forall (fun c => c <> []) O.
Hypothesis SO : slash_free O.
Hypothesis EO : out = unparse O.
Hypothesis GS : forall k v, In (k, v) m -> good_source cwd O P (dests P m) f0 k v.
Hypothesis R1 : install_all S out {| i_map := Some m; i_prefix := Some prefix |} clock w0 = Ok (true, w1).
Hypothesis NL : no_links P (nodes w1) m.
Hypothesis CL : forall k v s i ts, In (k, v) m -> lookup cwd f0 false k = WFound s -> time_of (f0 s) = Some ts -> (ts <= clock i)%Z.

Lemma installed_opened k v s : In (k, v) m -> lookup cwd f0 false k = WFound s -> ~ product O s -> opened (nodes w1) P (names v).
Proof.
  intros I LK NP. pose proof R1 as R. unfold install_all in R. cbn [i_map i_prefix] in R. destruct (in_split _ _ I) as (a & b & E).
  rewrite E in R. destruct (entries_split S out prefix clock _ _ _ _ _ R) as (wa & RA & RB). cbn [install_entries] in RB.
  destruct (install_single S (Some out) out prefix (clock (0 + length a)) wa k v false) as [[[|] wb]| | | |] eqn:Es; try discriminate.
  pose proof T as T'. rewrite E in T'. pose proof (tame_left S prefix P _ _ _ T') as Ta.
  destruct (entries_change S out prefix clock TIDY P f0 a [] 0 w0 _ Ta (changes_refl _ _ _) RA) as (b0 & w2 & Q & CA). injection Q as <- <-. cbn [app] in CA.
  assert (INa : incl (dests P a) (dests P m)) by (rewrite E, dests_app; apply incl_appl, incl_refl).
  pose proof (tm_apart _ _ _ _ _ T') as AP. rewrite dests_app in AP.
  assert (APa : forall d, In d (dests P a) -> apart d (dest P v)) by (intros d J; eapply pairs_app; [exact AP|exact J|now left]).
  pose proof (tame_calm _ _ _ _ _ _ _ _ _ T I INa APa CA) as CM.
  destruct (GS k v I) as (NK & s' & L & NS & K). pose proof (unhide S _ _ _ _ _ L) as L0. rewrite LK in L0. injection L0 as <-.
  assert (LKa : lookup cwd (nodes wa) false k = WFound s) by exact (unhide S _ _ _ _ _ (hidden_stays _ _ _ _ _ _ _ _ CA _ INa L _ (incl_refl _))).
  assert (IP : is_prefix out (unparse s) = false).
  { rewrite EO, namesake_prefix; [now apply belowb_false|exact ONE|exact SO|exact (lookup_slash_free _ _ _ _ _ SC LK)|exact NS]. }
  pose proof (single_opened _ _ _ _ _ _ CM NK LKa IP Es) as OP.
  pose proof (single_effect S (Some out) TIDY out prefix (clock (0 + length a)) wa P k v false true wb) as SE. rewrite (cstr_nul_free v) in SE by apply CM. specialize (SE CM Es).
  assert (CB : changes_only P (dests P (a ++ [(k, v)])) f0 (nodes wb)).
  { rewrite dests_app. eapply changes_trans; [eapply changes_more; [|exact CA]; apply incl_appl, incl_refl|eapply changes_more; [|exact SE]; apply incl_appr, incl_refl]. }
  assert (Tb : tame cwd prefix P f0 ((a ++ [(k, v)]) ++ b)) by (rewrite <- app_assoc; exact T').
  apply (opened_stays P (dests P b) (nodes wb)); [exact (entries_keep S out prefix P clock TIDY f0 b (a ++ [(k, v)]) _ wb w1 Tb CB RB)| |exact OP].
  intros d J. right. apply apart_sym. pose proof (tm_apart _ _ _ _ _ Tb) as AP2. rewrite dests_app in AP2.
  eapply pairs_app; [exact AP2| |exact J]. rewrite dests_app. apply in_or_app. right. now left.
Qed.

(** Whatever the second installation meets with, it changes nothing, since it only looks. *)
Theorem second_single S2 k v now : s_cwd S2 = cwd -> In (k, v) m -> install_single S2 (Some out) out prefix now w1 k v false = Ok (true, w1).
Proof.
  intros CW I.
  assert (CUT : cut_short S out prefix P clock w0 m None w1) by (exists m, [], w1; split; [now rewrite app_nil_r|]; split; [exact R1|apply h_between]).
  destruct (cut_leaves S out prefix P clock TIDY O m w0 T SC ONE SO EO GS _ _ CUT Logic.I) as [C _]. pose proof (tame_again S prefix P m w0 T _ C NL) as T1.
  destruct (GS k v I) as (NK & s & L & NS & K).
    pose proof (unhide S _ _ _ _ _ L) as L0. pose proof (unhide S _ _ _ _ _ (hidden_stays _ _ _ _ _ _ _ _ C _ (incl_refl _) L _ (incl_refl _))) as L1.
    destruct (belowb O s) eqn:B.
    - apply belowb_iff in B. apply (single_product S2 out prefix O w1 k v s now NK); [rewrite CW; exact SC|exact ONE|exact SO|exact EO|rewrite CW; exact L1|exact NS|exact B].
    - apply belowb_false in B.
      assert (CM : calm cwd prefix P (nodes w1) v) by exact (tame_calm _ _ _ _ _ _ _ [] _ T1 I (incl_nil_l _) (fun d J => match J with end) (changes_refl _ _ _)).
      assert (IP : is_prefix out (unparse s) = false).
      { rewrite EO, namesake_prefix; [now apply belowb_false|exact ONE|exact SO|exact (lookup_slash_free _ _ _ _ _ SC L0)|exact NS]. }
      pose proof (installed_opened k v s I L0 B) as OP.
      pose proof (installed_fresh S out prefix P clock TIDY O m w0 T SC ONE SO EO GS w1 k v s R1 I L0 B (fun i ts => CL k v s i ts I L0)) as FR.
      assert (OV : ordinary v) by apply CM.
      unfold install_single. rewrite (cstr_nul_free v) by apply OV. rewrite (cstr_nul_free k NK). unfold realpath. rewrite CW, L1, IP. cbn [negb andb].
      pose proof CM as CM2. rewrite <- CW in CM2. rewrite (parents_there S2 (Some out) now w1 prefix P v CM2 OP).
      unfold older in FR. destruct (time_of (nodes w1 (dest P v))) as [td|] eqn:TD; [|discriminate]. destruct (time_of (nodes w1 s)) as [ts|] eqn:TS; [|discriminate].
      assert (LD : lookup cwd (nodes w1) false (prefix ++ SLASH :: v) = WFound (dest P v)).
      { rewrite (dest_keep _ _ _ _ _ _ CM). apply opened_way; [right; now apply ordinary_ends|exact OP|]. change (nodes w1 (dest P v) <> None). intro X. rewrite X in TD. discriminate. }
      assert (ST : forall p l t, lookup cwd (nodes w1) false p = WFound l -> time_of (nodes w1 l) = Some t -> stat (view cwd (nodes w1)) p = StatOk t).
      { intros p l t LP TT. unfold stat, view. rewrite LP. destruct (nodes w1 l) as [[| |]|]; cbn in TT; congruence. }
      unfold frugal_mtime. rewrite (ST _ _ _ LD TD). cbn [deps_newer]. rewrite (ST _ _ _ L1 TS), Z.gtb_ltb, FR. reflexivity.
Qed.

Theorem second_changes_nothing S2 clock2 : s_cwd S2 = cwd ->
  install_all S2 out {| i_map := Some m; i_prefix := Some prefix |} clock2 w1 = Ok (true, w1).
Proof.
  intros CW. unfold install_all. cbn [i_map i_prefix].
  generalize 0. assert (SUB : incl m m) by apply incl_refl. revert SUB. generalize m at 1 3. intro todo. induction todo as [|[k v] todo IH]; intros SUB i; [reflexivity|]. cbn [install_entries].
  rewrite (second_single S2 k v _ CW (SUB _ (or_introl eq_refl))). apply IH. intros e J. apply SUB. now right.
Qed.

(** What is said then. *)
Theorem second_said S2 programs output why clock2 : s_cwd S2 = cwd -> forall es i, incl (map (fun e => (fst (fst e), snd e)) es) m ->
  exists mss, tell_entries S2 (Some out) programs output why out prefix clock2 i w1 es = Ok (true, w1, concat mss) /\
  Forall2 (fun (e : bytes * bool * bytes) (ms : list msg) =>
    (ms = [] /\ exists path, realpath (s_cwd S2) (nodes w1) (cstr (fst (fst e))) = Some path /\ is_prefix out path = true) \/ ms = [found_line false (cstr (snd e))]) es mss.
Proof.
  intros CW. induction es as [|[[k en] v] es IH]; intros i SUB; [exists []; split; [reflexivity|constructor]|]. cbn [tell_entries].
  destruct (single_found S2 (Some out) programs output why out prefix (clock2 i) w1 k en v false w1 (second_single S2 k v _ CW (SUB _ (or_introl eq_refl))) eq_refl) as (ms & E & K).
  destruct (IH (Datatypes.S i)) as (mss & E2 & F); [intros e J; apply SUB; now right|]. exists (ms :: mss). rewrite E, E2. split; [reflexivity|]. constructor; [exact K|exact F].
Qed.
End Again.
