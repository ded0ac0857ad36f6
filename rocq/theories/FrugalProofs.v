From Coq Require Import ZArith Ascii String Lia Bool List.
From Verif Require Import Base FileSys Frugal Deps Log SpecFiles.
Import ListNotations.

Lemma nul_free_nil : nul_free [].
Proof. exact (fun H => H). Qed.

(** ** C13 *)

Lemma deps_newer_false f t deps :
  deps_newer f t deps = Some false <-> forall d, In d deps -> exists td, modified_at f d td /\ (td <= t)%Z.
Proof.
  unfold modified_at. induction deps as [|d deps IH]; simpl.
  - split; auto. intros _ d [].
  - destruct (stat f d) as [td| |] eqn:E.
    + destruct (td >? t)%Z eqn:G.
      * split; [discriminate|]. intros H. destruct (H d (or_introl eq_refl)) as (td' & E' & L).
        rewrite E in E'. injection E' as <-. apply Z.gtb_lt in G. lia.
      * rewrite IH. split.
        -- intros H d' [<-|Hin]; [|auto]. exists td. split; auto. rewrite Z.gtb_ltb in G. apply Z.ltb_ge in G. lia.
        -- auto.
    + split; [discriminate|]. intros H. destruct (H d (or_introl eq_refl)) as (td' & E' & L). congruence.
    + split; [discriminate|]. intros H. destruct (H d (or_introl eq_refl)) as (td' & E' & L). congruence.
Qed.

Lemma deps_newer_bad f t deps d : first_bad f t deps d ->
  deps_newer f t deps = match stat f d with StatOk _ => Some true | _ => None end.
Proof.
  intros (before & after & -> & Hb & Hd). induction before as [|b before IH]; simpl.
  - destruct (stat f d) as [td| |] eqn:E; auto. destruct (td >? t)%Z eqn:G; auto.
    exfalso. apply Hd. exists td. split; auto. rewrite Z.gtb_ltb in G. apply Z.ltb_ge in G. lia.
  - destruct (Hb b (or_introl eq_refl)) as (tb & E & L). unfold modified_at in E. rewrite E.
    destruct (tb >? t)%Z eqn:G; [apply Z.gtb_lt in G; lia|]. apply IH. intros; apply Hb; right; auto.
Qed.

Lemma deps_newer_cases f t deps :
  (forall d, In d deps -> exists td, modified_at f d td /\ (td <= t)%Z) \/ exists d, first_bad f t deps d.
Proof.
  induction deps as [|d deps IH].
  - left. intros d [].
  - destruct (stat f d) as [td| |] eqn:E.
    + destruct (Z_le_gt_dec td t) as [L|L].
      * destruct IH as [IH|(d' & before & after & -> & Hb & Hd)].
        -- left. intros d' [<-|Hin]; [exists td; split; auto|auto].
        -- right. exists d', (d :: before), after. repeat split; auto. intros b [<-|Hin]; [exists td; split; auto|auto].
      * right. exists d, [], deps. repeat split; auto. { intros b []. } intros (td' & E' & L'). unfold modified_at in E'. rewrite E in E'. injection E' as <-. lia.
    + right. exists d, [], deps. repeat split; auto. { intros b []. } intros (td' & E' & L'). unfold modified_at in E'. congruence.
    + right. exists d, [], deps. repeat split; auto. { intros b []. } intros (td' & E' & L'). unfold modified_at in E'. congruence.
Qed.

Lemma mtime_no_work f deps target : frugal_mtime f deps target = Some false <-> up_to_date f target deps.
Proof.
  unfold frugal_mtime, up_to_date, modified_at at 1. destruct (stat f target) as [t| |].
  - rewrite deps_newer_false. split.
    + intros H. exists t. auto.
    + intros (t' & E & H). injection E as <-. auto.
  - split; [discriminate|]. intros (t' & E & _). discriminate.
  - split; [discriminate|]. intros (t' & E & _). discriminate.
Qed.

Lemma mtime_work f deps target :
  frugal_mtime f deps target = Some true <->
  stat f target = StatNoEnt \/
  exists t d td, modified_at f target t /\ first_bad f t deps d /\ modified_at f d td.
Proof.
  unfold frugal_mtime. destruct (stat f target) as [t| |] eqn:E.
  - split.
    + intros H. right. exists t. destruct (deps_newer_cases f t deps) as [A|[d B]].
      * apply deps_newer_false in A. congruence.
      * rewrite (deps_newer_bad f t deps d B) in H. destruct (stat f d) as [td| |] eqn:Ed; try discriminate.
        exists d, td. repeat split; auto.
    + intros [H|(t' & d & td & Et & B & Ed)]; [discriminate|]. unfold modified_at in *. rewrite Et in E. injection E as ->.
      rewrite (deps_newer_bad f t deps d B), Ed. reflexivity.
  - split; auto.
  - split; [discriminate|]. intros [H|(t' & d & td & Et & _)]; [discriminate|]. unfold modified_at in Et. congruence.
Qed.

Lemma mtime_error f deps target :
  frugal_mtime f deps target = None <->
  stat f target = StatErr \/
  exists t d, modified_at f target t /\ first_bad f t deps d /\ forall td, ~ modified_at f d td.
Proof.
  unfold frugal_mtime. destruct (stat f target) as [t| |] eqn:E.
  - split.
    + intros H. right. exists t. destruct (deps_newer_cases f t deps) as [A|[d B]].
      * apply deps_newer_false in A. congruence.
      * rewrite (deps_newer_bad f t deps d B) in H. exists d. repeat split; auto.
        intros td Ed. unfold modified_at in Ed. rewrite Ed in H. discriminate.
    + intros [H|(t' & d & Et & B & Ed)]; [discriminate|]. unfold modified_at in *. rewrite Et in E. injection E as ->.
      rewrite (deps_newer_bad f t deps d B). destruct (stat f d) as [td| |]; auto. exfalso. eapply Ed; reflexivity.
  - split; [discriminate|]. intros [H|(t' & d & Et & _)]; [discriminate|]. unfold modified_at in Et. congruence.
  - split; auto.
Qed.

(** ** C14 *)

Lemma flag_str_lines flags : Forall plain flags -> flag_str flags = lines flags.
Proof.
  induction 1 as [|fl flags [_ Hn] _ IH]; simpl; auto.
  apply has_byte_not_In in Hn. rewrite Hn, IH. reflexivity.
Qed.

Lemma lines_nul_free ls : Forall plain ls -> nul_free (lines ls).
Proof.
  induction 1 as [|l ls [_ Hn] _ IH]; simpl.
  - apply nul_free_nil.
  - apply nul_free_app. split; auto. apply nul_free_cons. split; auto. discriminate.
Qed.

Lemma app_nl_inj (a b x y : bytes) : ~ In NL a -> ~ In NL b -> a ++ NL :: x = b ++ NL :: y -> a = b /\ x = y.
Proof.
  revert b. induction a as [|c a IH]; intros [|d b] Ha Hb E; simpl in *.
  - injection E as ->. auto.
  - injection E as E1 E2. exfalso; apply Hb; auto.
  - injection E as E1 E2. exfalso; apply Ha; auto.
  - injection E as -> E. destruct (IH b) as [-> ->]; auto.
Qed.

Lemma lines_inj a : forall b, Forall plain a -> Forall plain b -> lines a = lines b -> a = b.
Proof.
  induction a as [|x a IH]; intros [|y b] Ha Hb E; simpl in *; auto.
  - exfalso. destruct y; discriminate.
  - exfalso. destruct x; discriminate.
  - inversion Ha as [|? ? [Hx _] Ha']; inversion Hb as [|? ? [Hy _] Hb']; subst.
    apply app_nl_inj in E; auto. destruct E as [-> E]. f_equal. auto.
Qed.

Lemma flags_changed cw now f flags out old :
  Forall plain flags -> Forall plain old -> records_flags f out old ->
  (fst (frugal_flags cw now f flags out) = true <-> flags <> old).
Proof.
  intros Hf Ho [t Hr]. unfold frugal_flags, read_file, flags_path. rewrite Hr.
  rewrite (cstr_nul_free (lines old)) by now apply lines_nul_free.
  rewrite flag_str_lines by auto.
  destruct (bytes_eqb (lines old) (lines flags)) eqn:E.
  - apply bytes_eqb_eq in E. apply lines_inj in E; auto. simpl. split; [discriminate|congruence].
  - apply bytes_eqb_neq in E.
    destruct (write_file _ _ _ _ _); simpl; split; auto; congruence.
Qed.

Lemma flags_missing cw now f flags out :
  read_file f (out ++ lit ".flags") = None -> fst (frugal_flags cw now f flags out) = true.
Proof.
  intros H. unfold frugal_flags, flags_path. rewrite H. destruct (write_file _ _ _ _ _); reflexivity.
Qed.

Lemma flags_recorded cw now f flags out f' b :
  Forall plain flags -> cw (out ++ lit ".flags") = true ->
  (exists c t, f (out ++ lit ".flags") = File c t /\ nul_free c) \/ f (out ++ lit ".flags") = Absent ->
  frugal_flags cw now f flags out = (b, f') -> records_flags f' out flags.
Proof.
  intros Hf Hcw Hex. unfold frugal_flags, read_file, flags_path. rewrite flag_str_lines by auto.
  destruct Hex as [(c & t & Hc & Hn)|Ha].
  - rewrite Hc, (cstr_nul_free c) by auto.
    destruct (bytes_eqb c (lines flags)) eqn:E.
    + intros H. injection H as <- <-. apply bytes_eqb_eq in E. subst. exists t. auto.
    + destruct (write_file cw now f (out ++ lit ".flags") (lines flags)) as [f1|] eqn:W.
      * intros H. injection H as <- <-. exists now. eapply write_file_same; eauto.
      * unfold write_file in W. rewrite Hcw, Hc in W. discriminate.
  - rewrite Ha. destruct (write_file cw now f (out ++ lit ".flags") (lines flags)) as [f1|] eqn:W.
    + intros H. injection H as <- <-. exists now. eapply write_file_same; eauto.
    + unfold write_file in W. rewrite Hcw, Ha in W. discriminate.
Qed.

Lemma flags_only cw now f flags out f' b p :
  frugal_flags cw now f flags out = (b, f') -> p <> out ++ lit ".flags" -> f' p = f p.
Proof.
  unfold frugal_flags, flags_path. intros H Hp.
  assert (W : (match write_file cw now f (out ++ lit ".flags") (flag_str flags) with Some f1 => (true, f1) | None => (true, f) end) = (b, f') -> f' p = f p).
  { destruct (write_file cw now f (out ++ lit ".flags") (flag_str flags)) as [f1|] eqn:W; intros E; injection E as <- <-; auto.
    eapply write_file_diff; eauto. }
  destruct (read_file f (out ++ lit ".flags")); [|auto]. destruct (bytes_eqb _ _); auto. injection H as <- <-. auto.
Qed.

Lemma flags_equal_untouched cw now f flags out f' :
  frugal_flags cw now f flags out = (false, f') -> f' = f.
Proof.
  unfold frugal_flags. destruct (read_file f (flags_path out)).
  - destruct (bytes_eqb _ _).
    + intros H; now injection H.
    + destruct (write_file _ _ _ _ _); discriminate.
  - destruct (write_file _ _ _ _ _); discriminate.
Qed.

(** ** C16, C17 *)

Lemma strsep_cons c s : exists h t, strsep c s = h :: t.
Proof.
  induction s as [|x s (h & t & IH)]; simpl; eauto. destruct (byte_eqb x c); eauto. rewrite IH. eauto.
Qed.

Lemma strsep_here c s r : ~ In c s -> strsep c (s ++ c :: r) = s :: strsep c r.
Proof.
  induction s as [|x s IH]; simpl; intros H.
  - now rewrite byte_eqb_refl.
  - replace (byte_eqb x c) with false by (symmetry; apply byte_eqb_neq; auto). rewrite IH by auto. reflexivity.
Qed.

Lemma strsep_none c s : ~ In c s -> strsep c s = [s].
Proof.
  induction s as [|x s IH]; simpl; intros H; auto.
  replace (byte_eqb x c) with false by (symmetry; apply byte_eqb_neq; auto). rewrite IH by auto. reflexivity.
Qed.

Lemma read_deps_lines hs : Forall plain hs ->
  read_deps (deps_content hs) = filter (fun h => match h with [] => false | _ => true end) hs.
Proof.
  intros H. assert (E : deps_content hs = lines hs).
  { unfold deps_content. clear. induction hs as [|h hs IH]; simpl; auto. now rewrite IH, <- app_assoc. }
  unfold read_deps. rewrite E, (cstr_nul_free (lines hs)) by now apply lines_nul_free. clear E.
  assert (S : strsep NL (lines hs) = hs ++ [[]]).
  { induction H as [|h hs [Hn _] _ IH]; auto. cbn [lines]. change (h ++ [NL] ++ lines hs) with (h ++ NL :: lines hs).
    rewrite strsep_here by auto. now rewrite IH. }
  rewrite S. rewrite filter_app. simpl. apply app_nil_r.
Qed.

Lemma make_quote_simple name : simple_name name -> make_quote name = name.
Proof.
  intros [H _]. induction name as [|c name IH]; auto. cbn [make_quote].
  destruct (H c (or_introl eq_refl)) as (A & B & C & _).
  replace (byte_eqb c SPACE) with false by (symmetry; now apply byte_eqb_neq).
  replace (byte_eqb c "#"%char) with false by (symmetry; now apply byte_eqb_neq).
  replace (byte_eqb c "$"%char) with false by (symmetry; now apply byte_eqb_neq).
  cbn. f_equal. apply IH. intros; apply H; right; auto.
Qed.

Lemma strip_nl_none s : ~ In NL s -> strip_nl s = s.
Proof.
  induction s as [|x s IH]; auto. intros H. destruct s as [|y s].
  - simpl. replace (byte_eqb x NL) with false; auto. symmetry. apply byte_eqb_neq. intros ->. apply H. left; auto.
  - cbn [strip_nl]. f_equal. apply IH. intros Hin. apply H. right; auto.
Qed.

Lemma strip_nl_last s : strip_nl (s ++ [NL]) = s.
Proof.
  induction s as [|x s IH]; auto. destruct (s ++ [NL]) as [|y r] eqn:E.
  - destruct s; discriminate.
  - cbn [app]. rewrite E. cbn [strip_nl]. rewrite <- IH. reflexivity.
Qed.

(** Tokens kept by the parser. *)
Definition toks (s : bytes) : list bytes := filter (fun tok => negb (skip_token tok)) (strsep SPACE s).

Lemma toks_space s : toks (SPACE :: s) = toks s.
Proof. unfold toks. simpl. reflexivity. Qed.

Lemma toks_spaces n s : toks (spaces n ++ s) = toks s.
Proof. induction n as [|n IH]; [reflexivity|]. cbn [spaces app]. rewrite toks_space. exact IH. Qed.

Lemma toks_tok t s : ~ In SPACE t -> toks (t ++ SPACE :: s) = (if skip_token t then [] else [t]) ++ toks s.
Proof. intros H. unfold toks. rewrite strsep_here by auto. simpl. destruct (skip_token t); reflexivity. Qed.

Lemma toks_end t : ~ In SPACE t -> toks t = if skip_token t then [] else [t].
Proof. intros H. unfold toks. rewrite strsep_none by auto. simpl. destruct (skip_token t); reflexivity. Qed.

Lemma simple_no_space name : simple_name name -> ~ In SPACE name.
Proof. intros [H _] Hin. destruct (H _ Hin) as (A & _). auto. Qed.
Lemma simple_no_nl name : simple_name name -> ~ In NL name.
Proof. intros [H _] Hin. destruct (H _ Hin) as (_ & _ & _ & A & _). auto. Qed.
Lemma simple_no_nul name : simple_name name -> ~ In NUL name.
Proof. intros [H _] Hin. destruct (H _ Hin) as (_ & _ & _ & _ & A). auto. Qed.
Lemma simple_not_skip name r : simple_name name -> skip_token (name ++ r) = false.
Proof.
  intros (_ & c & rest & -> & A & B). simpl. apply byte_eqb_neq in A. apply byte_eqb_neq in B. now rewrite A, B.
Qed.

(** The text after a skipped or kept word [w] (no blank in it). *)
Lemma toks_gap w g s : ~ In SPACE w -> toks (w ++ gap_text g ++ s) = (if skip_token w then [] else [w]) ++ toks s.
Proof.
  intros Hw. destruct g as [n|n m]; unfold gap_text.
  - cbn [spaces]. change ((SPACE :: spaces n) ++ s) with (SPACE :: spaces n ++ s). rewrite toks_tok by auto. now rewrite toks_spaces.
  - cbn [spaces]. rewrite <- !app_assoc. change ((SPACE :: spaces n) ++ [BACKSLASH; NL] ++ (SPACE :: spaces m) ++ s)
      with (SPACE :: spaces n ++ [BACKSLASH; NL] ++ SPACE :: spaces m ++ s).
    rewrite toks_tok by auto. rewrite toks_spaces.
    rewrite (toks_tok [BACKSLASH; NL]) by (simpl; intros [H|[H|[]]]; discriminate).
    simpl. now rewrite toks_spaces.
Qed.

Lemma toks_items w items :
  ~ In SPACE w -> Forall (fun it : gap * bytes => simple_name (snd it)) items -> skip_token w = skip_token (w ++ [NL]) ->
  map strip_nl (toks (w ++ concat (map (fun it => gap_text (fst it) ++ make_quote (snd it)) items) ++ [NL]))
  = (if skip_token w then [] else [match items with [] => strip_nl (w ++ [NL]) | _ => strip_nl w end]) ++ map snd items.
Proof.
  intros Hw F. revert w Hw. induction F as [|[g name] items Hs F IH]; intros w Hw Hsk; simpl map; simpl concat.
  - cbn [concat app]. rewrite toks_end.
    + rewrite <- Hsk. destruct (skip_token w); reflexivity.
    + rewrite in_app_iff. intros [H|[H|[]]]; auto. discriminate.
  - cbn [fst snd]. cbn [fst snd] in Hs. rewrite make_quote_simple by auto. rewrite <- !app_assoc.
    rewrite toks_gap by auto. rewrite map_app. f_equal.
    + destruct (skip_token w); reflexivity.
    + rewrite IH; auto using simple_no_space.
      * pose proof (simple_not_skip name [] Hs) as Sk. rewrite app_nil_r in Sk. rewrite Sk. simpl. f_equal.
        destruct items; [apply strip_nl_last | apply strip_nl_none, simple_no_nl; auto].
      * pose proof (simple_not_skip name [] Hs) as Sk. rewrite app_nil_r in Sk. rewrite Sk. symmetry. now apply simple_not_skip.
Qed.

Lemma spaces_nul_free n : nul_free (spaces n).
Proof. induction n; simpl. { apply nul_free_nil. } apply nul_free_cons. split; auto. discriminate. Qed.

Lemma rule_nul_free items : Forall (fun it : gap * bytes => simple_name (snd it)) items -> nul_free (rule_text items).
Proof.
  intros F. unfold rule_text. apply nul_free_app. split; [intros [H|[]]; discriminate|].
  apply nul_free_app. split; [|intros [H|[]]; discriminate].
  induction F as [|[g name] items Hs F IH]; simpl. { apply nul_free_nil. }
  apply nul_free_app. split; auto. cbn [fst snd] in *. rewrite make_quote_simple by auto.
  apply nul_free_app. split; [|now apply simple_no_nul].
  destruct g; unfold gap_text.
  - apply (spaces_nul_free (S n)).
  - apply nul_free_app. split; [apply (spaces_nul_free (S n))|]. apply nul_free_app. split; [|apply (spaces_nul_free (S m))].
    intros [H|[H|[]]]; discriminate.
Qed.

Lemma parse_rule items : Forall (fun it : gap * bytes => simple_name (snd it)) items ->
  parse_deps (rule_text items) = map snd items.
Proof.
  intros F. unfold parse_deps. rewrite cstr_nul_free by now apply rule_nul_free.
  change (map strip_nl (toks (rule_text items)) = map snd items). unfold rule_text.
  rewrite (toks_items [COLON]); auto.
  intros [H|[]]; discriminate.
Qed.

Lemma simple_plain name : simple_name name -> plain name.
Proof. intros H. split; [now apply simple_no_nl | now apply simple_no_nul]. Qed.

Lemma read_back hs : Forall simple_name hs -> read_deps (deps_content hs) = hs.
Proof.
  intros F. rewrite read_deps_lines.
  - induction F as [|h hs (_ & c & r & -> & _) _ IH]; simpl; auto. now rewrite IH.
  - eapply Forall_impl; [|exact F]. apply simple_plain.
Qed.

(** ** C23 *)

Lemma log_replay cw now f cookie out shown f' :
  cw (cookie ++ lit ".log") = true -> (forall t, f (cookie ++ lit ".log") <> Dir t) -> f (cookie ++ lit ".log") <> Blocked ->
  cmd_log cw now f cookie out = (shown, f') ->
  shown = cstr out /\ forall f2, f2 (cookie ++ lit ".log") = f' (cookie ++ lit ".log") -> log_already_done f2 cookie = shown.
Proof.
  intros Hcw Hd Hb. unfold cmd_log, log_already_done, read_file, log_path.
  generalize dependent (cookie ++ lit ".log"). intros p Hcw Hd Hb.
  destruct (cstr out) as [|c r] eqn:E.
  - intros H. injection H as <- <-. split; auto. intros f2 H2. rewrite H2. clear H2. unfold remove_file. rewrite Hcw.
    destruct (f p) eqn:Ef; try rewrite fs_set_same; try rewrite Ef; auto.
  - destruct (write_file cw now f p (c :: r)) as [f1|] eqn:W.
    + intros H. injection H as <- <-. split; auto. intros f2 H2. rewrite H2, (write_file_same _ _ _ _ _ _ W).
      rewrite <- E. apply cstr_nul_free, cstr_is_nul_free.
    + unfold write_file in W. rewrite Hcw in W. destruct (f p) eqn:Ef; try discriminate.
      * exfalso. eapply Hd; reflexivity.
      * congruence.
Qed.

Lemma log_only cw now f cookie out shown f' p :
  cmd_log cw now f cookie out = (shown, f') -> p <> cookie ++ lit ".log" -> f' p = f p.
Proof.
  unfold cmd_log, log_path. intros H Hp. destruct (cstr out).
  - injection H as <- <-. now apply remove_file_diff.
  - destruct (write_file cw now f (cookie ++ lit ".log") (a :: b)) as [f1|] eqn:W; injection H as <- <-; auto.
    eapply write_file_diff; eauto.
Qed.

(** ** C17 for every dependency rule, quoted names included *)

Fixpoint nl_ok (s : bytes) : Prop :=
  match s with
  | [] => True
  | c :: s' => (c = NL -> match s' with [] => True | d :: _ => d = SPACE end) /\ nl_ok s'
  end.

Lemma strsep_head c s h t : strsep c s = h :: t ->
  (s = h /\ t = [] /\ ~ In c h) \/ exists r, s = h ++ c :: r /\ t = strsep c r /\ ~ In c h.
Proof.
  revert h t. induction s as [|x s IH]; intros h t; simpl.
  - intros H. injection H as <- <-. left. auto.
  - destruct (byte_eqb x c) eqn:E.
    + apply byte_eqb_eq in E. subst x. intros H. injection H as <- <-. right. exists s. auto.
    + apply byte_eqb_neq in E. destruct (strsep_cons c s) as (h' & t' & Es). rewrite Es. intros H. injection H as <- <-.
      destruct (IH h' t' Es) as [(-> & -> & Hn)|(r & -> & -> & Hn)].
      * left. repeat split; auto. intros [H|H]; auto.
      * right. exists r. repeat split; auto. intros [H|H]; auto.
Qed.

Lemma nl_ok_app_r a b : nl_ok (a ++ b) -> nl_ok b.
Proof. induction a; simpl; auto. tauto. Qed.

Lemma nl_last h r : nl_ok (h ++ r) -> ~ In SPACE h -> (r = [] \/ exists r', r = SPACE :: r') -> ~ In NL (strip_nl h).
Proof.
  intros H Hs _. induction h as [|x h IH]; simpl in *; auto.
  destruct h as [|y h].
  - destruct (byte_eqb x NL) eqn:E; simpl; auto. apply byte_eqb_neq in E. intros [?|[]]; auto.
  - destruct H as [Hx Hr]. intros [E|Hin].
    + specialize (Hx E). simpl in Hx. apply Hs. right. left. exact Hx.
    + apply IH; auto.
Qed.

Lemma toks_plain n : forall s, length s <= n -> nl_ok s -> forall tok, In tok (strsep SPACE s) -> ~ In NL (strip_nl tok).
Proof.
  induction n as [|n IH]; intros s Hl Hok tok Hin.
  - destruct s; [|simpl in Hl; lia]. simpl in Hin. destruct Hin as [<-|[]]. simpl. auto.
  - destruct (strsep_cons SPACE s) as (h & t & Es). rewrite Es in Hin.
    destruct (strsep_head SPACE s h t Es) as [(-> & -> & Hn)|(r & -> & -> & Hn)].
    + destruct Hin as [<-|[]]. eapply nl_last with (r := []); auto. now rewrite app_nil_r.
    + destruct Hin as [<-|Hin].
      * eapply nl_last; eauto.
      * apply (IH r); auto.
        -- rewrite app_length in Hl. simpl in Hl. lia.
        -- apply nl_ok_app_r in Hok. apply Hok.
Qed.

Lemma nl_ok_free a b : ~ In NL a -> nl_ok b -> nl_ok (a ++ b).
Proof.
  induction a as [|c a IH]; simpl; auto. intros H Hb. split; auto. intros ->. exfalso; auto.
Qed.

Lemma spaces_no_nl n : ~ In NL (spaces n).
Proof. induction n; simpl; auto. intros [H|H]; auto. discriminate. Qed.

Lemma make_quote_no_nl name : ~ In NL name -> ~ In NL (make_quote name).
Proof.
  induction name as [|c name IH]; simpl; auto. intros H. rewrite in_app_iff. intros [Hin|Hin]; [|apply IH; auto].
  destruct (byte_eqb c SPACE || byte_eqb c "#"%char).
  - destruct Hin as [Hin|[Hin|[]]]; [discriminate|auto].
  - destruct (byte_eqb c "$"%char); simpl in Hin; intuition.
Qed.

Lemma make_quote_nul_free name : nul_free name -> nul_free (make_quote name).
Proof.
  unfold nul_free. induction name as [|c name IH]; simpl; auto. intros H. rewrite in_app_iff. intros [Hin|Hin]; [|apply IH; auto].
  destruct (byte_eqb c SPACE || byte_eqb c "#"%char).
  - destruct Hin as [Hin|[Hin|[]]]; [discriminate|auto].
  - destruct (byte_eqb c "$"%char); simpl in Hin; intuition.
Qed.

Lemma rule_nl_ok items : Forall (fun it : gap * bytes => plain (snd it)) items ->
  nl_ok (concat (map (fun it => gap_text (fst it) ++ make_quote (snd it)) items) ++ [NL]).
Proof.
  induction 1 as [|[g name] items [Hn _] _ IH]; simpl; auto.
  cbn [fst snd] in *. rewrite <- !app_assoc.
  assert (Q : nl_ok (make_quote name ++ concat (map (fun it => gap_text (fst it) ++ make_quote (snd it)) items) ++ [NL])).
  { apply nl_ok_free; auto. now apply make_quote_no_nl. }
  destruct g as [n|n m]; unfold gap_text.
  - apply nl_ok_free; auto. apply (spaces_no_nl (S n)).
  - rewrite <- !app_assoc. apply nl_ok_free; [apply (spaces_no_nl (S n))|].
    cbn [app spaces]. cbn [nl_ok]. split; [discriminate|]. split; [auto|]. split; [discriminate|].
    apply nl_ok_free; auto. apply spaces_no_nl.
Qed.

Lemma rule_nul_free2 items : Forall (fun it : gap * bytes => plain (snd it)) items -> nul_free (rule_text items).
Proof.
  intros F. unfold rule_text. apply nul_free_app. split; [intros [H|[]]; discriminate|].
  apply nul_free_app. split; [|intros [H|[]]; discriminate].
  induction F as [|[g name] items [_ Hs] F IH]; simpl. { apply nul_free_nil. }
  apply nul_free_app. split; auto. cbn [fst snd] in *.
  apply nul_free_app. split; [|now apply make_quote_nul_free].
  destruct g; unfold gap_text.
  - apply (spaces_nul_free (S n)).
  - apply nul_free_app. split; [apply (spaces_nul_free (S n))|]. apply nul_free_app. split; [|apply (spaces_nul_free (S m))].
    intros [H|[H|[]]]; discriminate.
Qed.

Lemma strip_nl_sub s c : In c (strip_nl s) -> In c s.
Proof.
  induction s as [|x s IH]; auto. destruct s as [|y s].
  - simpl. destruct (byte_eqb x NL); simpl; auto.
  - cbn [strip_nl]. intros [<-|H]; [left; auto|]. right. apply IH. exact H.
Qed.

Lemma strsep_sub c s tok x : In tok (strsep c s) -> In x tok -> In x s.
Proof.
  revert tok. induction s as [|y s IH]; intros tok; simpl.
  - intros [<-|[]] [].
  - destruct (byte_eqb y c).
    + intros [<-|H] Hx; [destruct Hx|]. right. eapply IH; eauto.
    + destruct (strsep_cons c s) as (h & t & Es). rewrite Es in *. intros [<-|H] Hx.
      * destruct Hx as [<-|Hx]; auto. right. apply (IH h); simpl; auto.
      * right. apply (IH tok); simpl; auto.
Qed.

Lemma recorded_read_back items : Forall (fun it : gap * bytes => plain (snd it)) items ->
  read_deps (deps_content (parse_deps (rule_text items)))
  = filter (fun h => match h with [] => false | _ => true end) (parse_deps (rule_text items)).
Proof.
  intros F. apply read_deps_lines. unfold parse_deps. rewrite cstr_nul_free by now apply rule_nul_free2.
  apply Forall_forall. intros h Hh. apply in_map_iff in Hh. destruct Hh as (tok & <- & Ht). apply filter_In in Ht.
  destruct Ht as [Ht _]. split.
  - eapply toks_plain; [apply le_n| |exact Ht]. unfold rule_text. cbn [app]. cbn [nl_ok]. split; [discriminate|]. now apply rule_nl_ok.
  - intros Hin. apply strip_nl_sub in Hin. eapply strsep_sub in Hin; eauto. exact (rule_nul_free2 items F Hin).
Qed.
